(** Proofs about [git reword], for the files *Props. *)
From stdpp Require Import sorting relations.
From Verif Require Import Base TextModel TextProofs EventLogModel EventLogSpec EventLogProofs EvolveSpec
  DagModel DagSpec DagProofs DagCompProofs StrModel StrProofs HookModel PlanModel PlanSpec PlanProofs PlanBuildProofs PlanProps
  ExecModel ExecSpec ExecProofs ExecBuildProofs ExecAfterProofs ExecProps HideModel HideSpec HideProofs RestackModel RestackSpec RestackProofs
  SyncModel SyncSpec SyncProofs MoveModel MoveSpec MoveProofs MovePublicProofs PlanRunProofs ModeModel TreeModel SnapModel AmendModel AmendSpec AmendProofs
  RecCmdModel TestCacheModel FixModel FixSpec RewordCmdModel RewordCmdSpec SwapProofs SwapRunProofs.
Local Open Scope string_scope.
Local Open Scope list_scope.

Lemma run_named e ts tx dest cmds r r' rwo : in_memory e -> named (re_exec e) (rr_store r) -> run_plan e ts tx dest cmds r = (r', Succeeded rwo) -> named (re_exec e) (rr_store r').
Proof.
  intros [Eo Mem] Nd Er. unfold run_plan in Er. destruct (execute_plan _ _ _ _ _ _ _ _ _ _ _) as [rp res0] eqn:Ex. injection Er as <- ->.
  rewrite Eo in Ex. unfold execute_plan in Ex. change (rp_store (start_repo r)) with (rr_store r) in Ex.
  pose proof (rebase_grows (runner e r) (rr_store r) dest cmds) as Gr.
  destruct (rebase_in_memory (runner e r) (rr_store r) dest cmds) as [[[st' rw] head]|at_ st'|st'] eqn:Em; cbn in Gr.
  - destruct (post_rebase _ _ _ _ _ _) as [r1 ok] eqn:Ep. destruct ok; [|discriminate]. injection Ex as <- _. cbn [after_plan rr_store].
    assert (Est : rp_store r1 = st') by (revert Ep; unfold post_rebase; destruct (mr_ok _); intros [= <-]; reflexivity). rewrite Est. apply Gr. exact Nd.
  - exfalso. destruct Mem as [Hx|Hx]; rewrite Hx in Ex; cbn [negb] in Ex; [discriminate|]. destruct (negb (re_resolve e)); discriminate.
  - discriminate.
Qed.

(** ** Putting commits in the place of others *)
Section put.
Context (e : restack_env) (r : rrepo) (d : dag) (l : list oid) (replace : gmap oid oid) (st0 : store) (allowed : gset oid).
Let g := he_graph (re_hide e).
Let ee := re_exec e.
Hypothesis R : restackable e r.
Hypothesis Mem : in_memory e.
Hypothesis Op : open_repo (re_hide e) (rr_repo r) = Some d.
Hypothesis Ld : NoDup l.
Hypothesis Lv : forall c, c ∈ l -> c ∈ vertices g.
Hypothesis Lp : forall c, c ∈ l -> parents_of g c <> [].
Hypothesis Al : forall c, c ∈ l \/ (exists a, a ∈ l /\ above g (rr_repo r) a c) -> c ∈ allowed.
Hypothesis Su : st0 ⊆ rr_store r.
Hypothesis In0 : forall c, c ∈ vertices g -> exists x, st0 !! c = Some x /\ commit_parents (ob_commit x) = parents_of g c.
Hypothesis Rl : forall c y, replace !! c = Some y -> c ∈ l.
Hypothesis Rx : forall c, c ∈ l -> exists y x orig, replace !! c = Some y /\ st0 !! c = Some x /\ rr_store r !! y = Some orig /\
  commit_parents (ob_commit orig) = commit_parents (ob_commit x) /\ commit_tree (ob_commit orig) = commit_tree (ob_commit x).
Let W : wf_graph g := io_graph _ _ (ra_order _ _ R).
Let G : dag_graph d = g := dag_is e r d R Op.
Let pe := mk_pe (find_object (rr_store r)) replace (fun _ _ => false) (re_sort e).
Let cs := List.map (fun c => MoveSubtree (parents_of g c) c) l.
Definition raised (c : oid) : Prop := c ∈ l \/ exists a, a ∈ l /\ above (he_graph (re_hide e)) (rr_repo r) a c.

Lemma put_wd : wf_graph (dag_graph d). Proof. rewrite G. exact W. Qed.
Lemma put_lv c : c ∈ l -> c ∈ vertices (dag_graph d). Proof. rewrite G. apply Lv. Qed.
Lemma put_lp c : c ∈ l -> parents_of (dag_graph d) c <> []. Proof. rewrite G. apply Lp. Qed.
Lemma put_kv c : visible d c -> c ∈ vertices (dag_graph d).
Proof. intros V. rewrite G. apply (shown_known e r R), (shown_is e r d R Op), V. Qed.
Lemma put_over c : over d l c <-> raised c.
Proof.
  unfold over, raised, above. rewrite (shown_is e r d R Op), G. fold g. split; (intros [H|H]; [now left|right]).
  - destruct H as (V & a & Ha & P). eauto.
  - destruct H as (a & Ha & V & P). eauto.
Qed.
Lemma put_rep c z : replace !! c = Some z -> exists x orig, st0 !! c = Some x /\ rr_store r !! z = Some orig /\
  commit_parents (ob_commit orig) = parents_of g c /\ commit_tree (ob_commit orig) = commit_tree (ob_commit x).
Proof.
  intros H. pose proof (Rl c z H) as Hl. destruct (Rx c Hl) as (z' & x & orig & E & Hx & Ho & P & T). rewrite H in E. injection E as <-.
  exists x, orig. split_and!; auto. destruct (In0 c (Lv c Hl)) as (x' & Hx' & P'). rewrite Hx in Hx'. injection Hx' as <-. now rewrite P, P'.
Qed.
Lemma put_knows : knows d pe.
Proof.
  intros c Hc. rewrite G in Hc. destruct (In0 c Hc) as (x & Hx & P). exists (ob_commit x). rewrite G. split; [|exact P]. cbn. unfold find_object.
  now rewrite (lookup_weaken _ _ _ _ Hx Su).
Qed.
Lemma put_found c x : pe_replace pe !! c = Some x -> exists rc, pe_find pe x = Some rc.
Proof. cbn. intros H. destruct (put_rep c x H) as (y & orig & _ & E & _). unfold find_object. rewrite E. eauto. Qed.
Lemma put_fit c x rc : pe_replace pe !! c = Some x -> pe_find pe x = Some rc -> commit_parents rc = parents_of (dag_graph d) c.
Proof. cbn. intros H. destruct (put_rep c x H) as (y & orig & _ & E & P & _). unfold find_object. rewrite E, G. intros [= <-]. exact P. Qed.
Lemma put_cs : cs = List.map (fun c => MoveSubtree (parents_of (dag_graph d) c) c) l.
Proof. unfold cs. now rewrite G. Qed.
Lemma put_built : (l = [] /\ build d pe allowed cs = Done BuiltNothing) \/ (l <> [] /\ exists dest cmds, build d pe allowed cs = Done (BuiltPlan dest cmds)).
Proof.
  rewrite put_cs. apply (sw_build d l put_wd Ld put_lv put_lp put_kv pe allowed put_knows put_found). intros c Hc. apply Al. now apply put_over in Hc.
Qed.

Record put_done (rw : gmap oid moid) (r' : rrepo) : Prop := {
  pd_which : forall c, is_Some (rw !! c) <-> raised c;
  pd_given : forall c z orig, replace !! c = Some z -> rr_store r !! z = Some orig -> exists y qs, rw !! c = Some (NonZero y) /\
    rr_store r' !! y = Some (remade ee orig qs (commit_tree (ob_commit orig))) /\ Forall2 (becomes (parent g) rw) (parents_of g c) qs;
  pd_merge : forall c, raised c -> c ∉ l -> ~ merge_commit g c;
  pd_above : plain_picks ee st0 -> forall c x, raised c -> c ∉ l -> st0 !! c = Some x ->
    (exists y qs, rw !! c = Some (NonZero y) /\ rr_store r' !! y = Some (remade ee x qs (commit_tree (ob_commit x))) /\ Forall2 (becomes (parent g) rw) (parents_of g c) qs /\ ~ empty_commit st0 c) \/
    (rw !! c = Some Zero /\ empty_commit st0 c);
  pd_along : goes_along e r rw r' }.
Lemma put_run ts i dest cmds r' res : build d pe allowed cs = Done (BuiltPlan dest cmds) -> run_plan e ts (TxId i) dest cmds r = (r', res) ->
  match res with
  | Succeeded rwo => exists rw, rwo = Some rw /\ put_done rw r'
  | DeclinedToMerge c => left_alone r r' /\ (workable e r -> (forall c z, replace !! c = Some z -> readable ee (rr_store r) z) -> plain_picks ee st0 ->
      raised c /\ c ∉ l /\ merge_commit g c)
  | _ => ~ (workable e r /\ forall c z, replace !! c = Some z -> readable ee (rr_store r) z)
  end.
Proof.
  intros Eb Ern. rewrite put_cs in Eb. set (cs' := List.map (fun c => MoveSubtree (parents_of (dag_graph d) c) c) l) in *.
  pose proof (sw_plannable d l put_wd Ld put_lv put_lp put_kv pe put_found) as Pl. pose proof (sw_clear d l) as Cl.
  pose proof (sw_fit d l put_wd Ld put_lv put_lp put_kv pe put_fit) as Fi. fold cs' in Pl, Cl, Fi.
  assert (Dom : forall c, rebuilt d cs' c -> c ∈ vertices g).
  { intros c Hc. apply (sw_rebuilt d l put_wd Ld put_lp) in Hc. rewrite <- G. exact (sw_vertex d l put_lv put_kv c Hc). }
  assert (Kf : forall f, fixed_up cs' f -> f ∈ vertices g) by (intros f Hf; destruct (sw_fixed d l f Hf)).
  pose proof (plan_ran_any e r d pe cs' R Mem put_wd Dom put_knows (ra_sort _ _ R) Pl Cl Fi Kf ts i allowed dest cmds r' res Eb Ern) as Ran.
  assert (There : workable e r -> forall p, p ∈ vertices g -> there (rr_store r) p) by (intros Wk p Hp; destruct (wk_read _ _ Wk p Hp) as (z & Hz & _); exists z; exact Hz).
  assert (Rd : workable e r -> forall x, x ∈ vertices (dag_graph d) -> readable ee (rr_store r) x) by (intros Wk; rewrite G; exact (wk_read _ _ Wk)).
  assert (Np : workable e r -> forall p c, new_parent d cs' p c -> there (rr_store r) p).
  { intros Wk p c H. apply (sw_new_parent d l put_wd Ld put_lp) in H. destruct H as [_ H]. rewrite G in H. apply (There Wk). now apply (parent_vertices _ _ _ W) in H. }
  assert (Rr : workable e r -> (forall c z, replace !! c = Some z -> readable ee (rr_store r) z) -> forall c y, pe_replace pe !! c = Some y -> readable ee (rr_store r) y /\
      forall rc p, pe_find pe y = Some rc -> p ∈ commit_parents rc -> there (rr_store r) p).
  { intros Wk Rz c y Hc. split; [exact (Rz c y Hc)|]. intros rc p Hf Hp. rewrite (put_fit c y rc Hc Hf), G in Hp. apply (There Wk). apply (parent_parents_of _ _ _ W) in Hp. now apply (parent_vertices _ _ _ W) in Hp. }
  assert (Go : workable e r -> (forall c z, replace !! c = Some z -> readable ee (rr_store r) z) -> match res with Succeeded _ | DeclinedToMerge _ => True | _ => False end).
  { intros Wk Rz. pose proof (plan_runs_any e r d pe cs' R Mem put_wd Dom put_knows (ra_sort _ _ R) Pl Cl Fi Kf ts i allowed dest cmds r' res Wk (Rd Wk) (Np Wk)
      ltac:(intros c x H; exact H) (Rr Wk Rz) Eb Ern) as Run. destruct res; auto. }
  destruct res as [rwo|c| |]; [|split; [exact Ran|]|intros [Wk Rz]; exact (Go Wk Rz)..].
  2: { intros Wk Rz Pp. destruct (run_stop e ts (TxId i) dest cmds r r' c Mem Ern) as [st1 Em].
    assert (In0' : forall c, c ∈ vertices (dag_graph d) -> exists x, st0 !! c = Some x /\ commit_parents (ob_commit x) = parents_of (dag_graph d) c) by (rewrite G; exact In0).
    assert (Pr : present d pe (runner e r) cs' (rr_store r)).
    { constructor; [intros a b H; exact H|exact (Rd Wk)|exact (Np Wk)|intros f Hf; destruct (sw_fixed d l f Hf)|exact (Rr Wk Rz)]. }
    destruct (sr_stop d l put_wd Ld put_lv put_lp put_kv pe (runner e r) (rr_store r) st0 allowed dest cmds (fun _ _ => eq_refl) put_knows put_found put_fit (ra_sort _ _ R)
      (ra_faithful _ _ R) (ra_named _ _ R) Pr (wk_pick _ _ Wk) (wk_amend _ _ Wk) Su In0' Pp
      ltac:(intros a z Ha; destruct (put_rep a z Ha) as (x0 & o0 & H1 & H2 & _ & H3); exists x0, o0; auto) Eb c st1 Em) as (O & M & Un).
    rewrite G in M. split; [now apply put_over|]. split; [|exact M]. intros Hl. destruct (Rx c Hl) as (y & x & orig & E & _). cbn in Un. congruence. }
  destruct Ran as (rw & -> & RN). exists rw. split; [reflexivity|]. destruct (rn_out _ _ _ _ _ _ _ RN) as [head CO]. fold cs' in CO.
  assert (NU : forall t c, pe_upstream pe t c = false) by reflexivity.
  pose proof (sw_rw d l put_wd Ld put_lp pe (runner e r) (rr_store r) (rr_store r') rw head CO) as Rw.
  pose proof (co_store _ _ _ _ _ _ _ _ CO) as Gs.
  assert (Bc : forall p q, becomes (parent (dag_graph d)) rw p q <-> becomes (parent g) rw p q) by (intros p q; now rewrite G).
  assert (Un : forall c, c ∉ l -> pe_replace pe !! c = None). { intros c N. cbn. destruct (replace !! c) as [y|] eqn:E; [destruct (N (Rl c y E))|reflexivity]. }
  constructor.
  - intros c. rewrite Rw. apply put_over.
  - intros c z orig Hz Ho. destruct (sw_replaced d l put_wd Ld put_lv put_lp put_kv pe (runner e r) (rr_store r) (rr_store r') rw head CO NU c z Hz (or_introl (Rl c z Hz))) as (y & orig' & qs & Hy & So & Sy & F).
    rewrite (lookup_weaken _ _ _ _ Ho Gs) in So. injection So as <-. exists y, qs. rewrite G in F. split_and!; [exact Hy|exact Sy|exact F].
  - intros c Hc N. apply put_over in Hc. pose proof (sw_no_merge d l put_wd Ld put_lv put_lp put_kv pe (runner e r) (rr_store r) (rr_store r') rw head CO NU) as X. rewrite G in X. apply X; auto.
  - intros Pp c x Hc N Hx. apply put_over in Hc.
    assert (In0' : forall c, c ∈ vertices (dag_graph d) -> exists x, st0 !! c = Some x /\ commit_parents (ob_commit x) = parents_of (dag_graph d) c) by (rewrite G; exact In0).
    assert (Nst : named (runner e r) (rr_store r')) by exact (run_named _ _ _ _ _ _ _ _ Mem (ra_named _ _ R) Ern).
    assert (Rs : forall a z, pe_replace pe !! a = Some z -> exists x orig, st0 !! a = Some x /\ rr_store r' !! z = Some orig /\ commit_tree (ob_commit orig) = commit_tree (ob_commit x)).
    { intros a z Ha. destruct (put_rep a z Ha) as (x0 & o0 & H1 & H2 & _ & H3). exists x0, o0. split_and!; [exact H1|exact (lookup_weaken _ _ _ _ H2 Gs)|exact H3]. }
    assert (Su' : st0 ⊆ rr_store r') by (etransitivity; eassumption).
    assert (Px : forall p, parents_of (dag_graph d) c = [p] -> commit_parents (ob_commit x) = [p]).
    { intros p Ep. destruct (In0' c (sw_vertex d l put_lv put_kv c Hc)) as (x' & Hx' & P'). rewrite Hx in Hx'. injection Hx' as <-. now rewrite P'. }
    destruct (proj2 (Rw c) Hc) as [[|y] Hy].
    + right. split; [exact Hy|].
      destruct (sw_dropped_plain d l put_wd Ld put_lv put_lp put_kv pe (runner e r) (rr_store r) (rr_store r') rw head CO NU st0 Nst Su' In0' Pp Rs c Hy) as (orig & p & pp & H0 & Ep & Hp & E).
      rewrite Hx in H0. injection H0 as <-. exists x, p, pp. split_and!; auto.
    + left. destruct (sw_picked_plain d l put_wd Ld put_lv put_lp put_kv pe (runner e r) (rr_store r) (rr_store r') rw head CO NU st0 Nst Su' In0' Pp Rs c y (Un c N) Hy) as (orig & p & q & pp & H0 & Ep & B & Sy & Hp & Ne).
      rewrite Hx in H0. injection H0 as <-. exists y, [q]. split; [exact Hy|]. split; [exact Sy|]. split.
      * rewrite <- G, Ep. constructor; [exact B|constructor].
      * intros (x' & p' & px & H1 & H2 & H3 & H4). rewrite Hx in H1. injection H1 as <-. rewrite (Px p Ep) in H2. injection H2 as <-. rewrite Hp in H3. injection H3 as <-. contradiction.
  - destruct RN as [N1 N2 N3 N4 N5 N6 N7 N8 N9 N10 N11 N12 N13]. constructor; auto.
    intros h Hh. destruct (N5 h Hh (sw_fixed d l h)) as (q & Hq & [L|Mb]); exists q; (split; [exact Hq|]); [left|right; exact Mb].
    apply Bc, (sw_lands d l put_wd Ld put_lp _ _ _ _ _ _ CO), L.
Qed.
End put.

(** ** The requests *)
Lemma reword_requests_spec ee messages l : NoDup l -> faithful_names ee -> forall st cs m, named ee st -> (forall c, c ∈ l -> is_Some (st !! c)) -> (forall c, c ∈ l -> m !! c = None) ->
  match reword_requests ee messages l st cs m with
  | (st', Requests cs' m') => st ⊆ st' /\ named ee st' /\
      (forall c, c ∈ l -> exists y x k, m' !! c = Some y /\ st !! c = Some x /\ messages !! c = Some k /\ st' !! y = Some (reworded_object x k) /\ commit_parents (ob_commit x) <> []) /\
      (forall c, c ∉ l -> m' !! c = m !! c) /\
      (forall f, (forall c x, c ∈ l -> st !! c = Some x -> f c = commit_parents (ob_commit x)) -> cs' = cs ++ List.map (fun c => MoveSubtree (f c) c) l)
  | (st', RequestPanics) => st ⊆ st' /\ exists c, c ∈ l /\ (messages !! c = None \/ exists x, st !! c = Some x /\ commit_parents (ob_commit x) = [])
  | (_, RequestFails) => False
  end.
Proof.
  intros Nd Fn. induction l as [|c l IH]; intros st cs m Ns Th Em; cbn [reword_requests].
  - split; [reflexivity|]. split; [exact Ns|]. split; [intros c H; now apply elem_of_nil in H|]. split; [reflexivity|]. intros f _. cbn. now rewrite app_nil_r.
  - apply NoDup_cons in Nd. destruct Nd as [Nc Nd]. destruct (Th c ltac:(left)) as [x Hx]. rewrite Hx.
    destruct (messages !! c) as [k|] eqn:Ek; [|split; [reflexivity|]; exists c; split; [left|auto]].
    destruct (add_object ee _ st) as [o st1] eqn:Ea. destruct (add_object_spec _ _ _ _ _ Fn Ns Ea) as (Eo & G1 & N1 & So).
    assert (Gc : forall p ps, commit_parents (ob_commit x) = p :: ps ->
      match (if bool_decide (is_Some (m !! c)) then (st1, RequestFails) else reword_requests ee messages l st1 (cs ++ [MoveSubtree (commit_parents (ob_commit x)) c]) (<[c:=o]> m)) with
      | (st', Requests cs' m') => st ⊆ st' /\ named ee st' /\
          (forall c', c' ∈ c :: l -> exists y x k, m' !! c' = Some y /\ st !! c' = Some x /\ messages !! c' = Some k /\ st' !! y = Some (reworded_object x k) /\ commit_parents (ob_commit x) <> []) /\
          (forall c', c' ∉ c :: l -> m' !! c' = m !! c') /\
          (forall f, (forall c' x, c' ∈ c :: l -> st !! c' = Some x -> f c' = commit_parents (ob_commit x)) -> cs' = cs ++ List.map (fun c => MoveSubtree (f c) c) (c :: l))
      | (st', RequestPanics) => st ⊆ st' /\ exists c', c' ∈ c :: l /\ (messages !! c' = None \/ exists x, st !! c' = Some x /\ commit_parents (ob_commit x) = [])
      | (_, RequestFails) => False
      end).
    { intros p ps Ep. rewrite bool_decide_eq_false_2 by (rewrite (Em c ltac:(left)); intros [z Z]; discriminate).
      assert (Down : forall c' y, c' ∈ l -> st1 !! c' = Some y -> st !! c' = Some y).
      { intros c' y Hc' Hy. destruct (Th c' ltac:(now right)) as [z Hz]. rewrite (lookup_weaken _ _ _ _ Hz G1) in Hy. congruence. }
      assert (Th1 : forall c', c' ∈ l -> is_Some (st1 !! c')).
      { intros c' Hc'. destruct (Th c' ltac:(now right)) as [z Hz]. exists z. exact (lookup_weaken _ _ _ _ Hz G1). }
      assert (Em1 : forall c', c' ∈ l -> <[c:=o]> m !! c' = None).
      { intros c' Hc'. rewrite lookup_insert_ne; [apply Em; now right|]. intros ->. contradiction. }
      specialize (IH Nd st1 (cs ++ [MoveSubtree (commit_parents (ob_commit x)) c]) (<[c:=o]> m) N1 Th1 Em1).
      destruct (reword_requests ee messages l st1 _ _) as [st' [cs' m'| |]].
      - destruct IH as (G2 & N2 & I1 & I2 & I3). split; [etransitivity; eauto|]. split; [exact N2|]. split; [|split].
        + intros c' Hc'. apply elem_of_cons in Hc'. destruct Hc' as [->|Hc'].
          * exists o, x, k. rewrite (I2 c Nc), lookup_insert. split_and!; auto; first [exact (lookup_weaken _ _ _ _ So G2)|now rewrite Ep].
          * destruct (I1 c' Hc') as (y & z & k' & A1 & A2 & A3 & A4 & A5). exists y, z, k'. split_and!; auto.
        + intros c' Hc'. apply not_elem_of_cons in Hc'. destruct Hc' as [Hn Hc']. rewrite (I2 c' Hc'), lookup_insert_ne by congruence. reflexivity.
        + intros f Hf. rewrite (I3 f) by (intros c' y Hc' Hy; apply Hf; [now right|exact (Down c' y Hc' Hy)]). rewrite <- app_assoc. cbn [app List.map]. rewrite (Hf c x ltac:(left) Hx). reflexivity.
      - exact IH.
      - destruct IH as (G2 & c' & Hc' & H). split; [etransitivity; eauto|]. exists c'. split; [now right|]. destruct H as [H|(y & Hy & P)]; [now left|right]. exists y. split; [exact (Down c' y Hc' Hy)|exact P]. }
    destruct (commit_parents (ob_commit x)) as [|p ps] eqn:Ep; [|exact (Gc p ps eq_refl)].
    split; [exact G1|]. exists c. split; [left|]. right. exists x. auto.
Qed.

(** ** The command *)
Section command.
Context (e : restack_env) (r : rrepo) (given : commit_set) (ts : timestamp) (i : Z).
Let g := he_graph (re_hide e).
Let e1 := in_memory_only e.
Hypothesis A : rewordable e r given.
Let R : restackable e r := rb_order _ _ _ A.
Let W : wf_graph g := io_graph _ _ (ra_order _ _ R).

Lemma rc_order st : rr_store r ⊆ st -> named (re_exec e) st -> restackable e1 (mk_rrepo st (rr_repo r)).
Proof.
  intros S N. apply (restackable_more e1 r); [|exact S|exact N]. destruct R as [A1 A2 A3 A4 A5 A6 A7 A8 A9 A10 A11 A12 A13]. now constructor.
Qed.
Lemma rc_workable st : rr_store r ⊆ st -> workable e r -> workable e1 (mk_rrepo st (rr_repo r)).
Proof. intros S Wk. apply (workable_more e1 r); [|exact S]. destruct Wk. now constructor. Qed.
Lemma rc_public d : open_repo (re_hide e) (rr_repo r) = Some d ->
  verify_rewrite_set d (re_force e) given = None <-> re_force e = false /\ exists c, c ∈ given /\ is_public e r c.
Proof.
  intros Op. pose proof (dag_is e r d R Op) as G. assert (Wd : wf_graph (dag_graph d)) by (rewrite G; exact W).
  destruct (io_exists _ _ (ra_order _ _ R)) as [m Hm]. destruct (unmerged_draft e r d m (ra_order _ _ R) Op Hm) as [Pu _].
  rewrite verify_rewrite_set_none by exact Wd. unfold is_public. split; intros [F H]; (split; [exact F|]).
  - destruct H as (a & c & Ha & An & P). exists a. split; [exact Ha|]. exists m. split; [exact Hm|]. apply Pu in P. rewrite G in An. etransitivity; eauto.
  - destruct H as (c & Hc & m' & Hm' & Am). rewrite Hm in Hm'. injection Hm' as <-. exists c, c. split; [exact Hc|]. split; [constructor|now apply Pu].
Qed.
Lemma rc_open : exists d, open_repo (re_hide e) (rr_repo r) = Some d.
Proof. destruct (io_exists _ _ (ra_order _ _ R)) as [m Hm]. unfold open_repo. rewrite Hm. eauto. Qed.
Lemma rc_l c : c ∈ re_order e given <-> c ∈ given.
Proof. rewrite (ra_sets e r R). apply elem_of_elements. Qed.
Lemma rc_raised st c : raised e1 (mk_rrepo st (rr_repo r)) (re_order e given) c <-> c ∈ given \/ is_above e r given c.
Proof.
  unfold raised, is_above. setoid_rewrite rc_l. cbn [rr_repo]. split.
  - intros [H|H]; [now left|]. destruct (decide (c ∈ given)) as [Hc|Hc]; [now left|right]. split; assumption.
  - intros [H|[_ H]]; [now left|now right].
Qed.

Lemma rc_spec d allowed messages : open_repo (re_hide e) (rr_repo r) = Some d -> verify_rewrite_set d (re_force e) given = Some allowed ->
  match reword_commits e ts (TxId i) d allowed given messages r with mk_rwr r' rwo en =>
  match en with
  | RewordPanics => (exists c, c ∈ given /\ (messages !! c = None \/ parents_of g c = [])) /\ rwo = None /\ only_commits r r'
  | RewordFails => rwo = None /\ (given = ∅ /\ r' = r \/ ~ (workable e r /\ forall c m, c ∈ given -> messages !! c = Some m -> ee_decodes (re_exec e) m = true))
  | RewordExit => rwo = None /\ ~ (workable e r /\ forall c m, c ∈ given -> messages !! c = Some m -> ee_decodes (re_exec e) m = true)
  | RewordStopped c => rwo = None /\ left_alone r r' /\ (workable e r -> (forall c m, c ∈ given -> messages !! c = Some m -> ee_decodes (re_exec e) m = true) ->
      plain_picks (re_exec e) (rr_store r) -> is_above e r given c /\ merge_commit g c)
  | Reworded => exists rw, rwo = Some rw /\ given <> ∅ /\ (forall c, c ∈ given -> parents_of g c <> []) /\ (forall c, is_above e r given c -> ~ merge_commit g c) /\
      goes_along e r rw r' /\ (plain_picks (re_exec e) (rr_store r) -> only_messages e r given messages rw (rr_store r'))
  | _ => False
  end end.
Proof.
  intros Op Vf. unfold reword_commits. pose proof (dag_is e r d R Op) as G. fold g in G.
  assert (Nl : NoDup (re_order e given)) by (rewrite (ra_sets e r R); apply NoDup_elements).
  assert (In0 : forall c, c ∈ vertices g -> exists x, rr_store r !! c = Some x /\ commit_parents (ob_commit x) = parents_of g c) by exact (ra_store _ _ R).
  assert (Lv : forall c, c ∈ re_order e given -> c ∈ vertices g) by (intros c Hc; apply (rb_given _ _ _ A), rc_l, Hc).
  pose proof (reword_requests_spec (re_exec e) messages (re_order e given) Nl (ra_faithful _ _ R) (rr_store r) [] ∅ (ra_named _ _ R)
    ltac:(intros c Hc; destruct (In0 c (Lv c Hc)) as (x & Hx & _); eauto) ltac:(intros; apply lookup_empty)) as Rq.
  destruct (reword_requests _ _ _ _ _ _) as [st [cs m| |]] eqn:Er; [|destruct Rq|].
  2: { destruct Rq as (Gr & c & Hc & H). split; [|split; [reflexivity|split; [reflexivity|exact Gr]]]. exists c. split; [now apply rc_l|].
    destruct H as [H|(x & Hx & P)]; [now left|right]. destruct (In0 c (Lv c Hc)) as (y & Hy & Py). rewrite Hx in Hy. injection Hy as <-. now rewrite <- Py. }
  destruct Rq as (Gr & Ns & I1 & I2 & I3). set (r2 := mk_rrepo st (rr_repo r)).
  specialize (I3 (parents_of g) ltac:(intros c x Hc Hx; destruct (In0 c (Lv c Hc)) as (y & Hy & Py); rewrite Hx in Hy; injection Hy as <-; now rewrite Py)). cbn [app] in I3. subst cs.
  assert (R2 : restackable e1 r2) by (now apply rc_order).
  assert (Mem : in_memory e1) by (split; [reflexivity|right; reflexivity] || (split; [reflexivity|left; reflexivity])).
  assert (Lp : forall c, c ∈ re_order e given -> parents_of g c <> []).
  { intros c Hc. destruct (I1 c Hc) as (y & x & k & _ & Hx & _ & _ & P). destruct (In0 c (Lv c Hc)) as (z & Hz & Pz). rewrite Hx in Hz. injection Hz as <-. now rewrite <- Pz. }
  assert (Al : forall c, c ∈ re_order e given \/ (exists a, a ∈ re_order e given /\ above g (rr_repo r2) a c) -> c ∈ allowed).
  { intros c H. destruct (verify_rewrite_set_spec d (re_force e) given allowed ltac:(rewrite G; exact W) Vf) as [Aw _]. apply Aw. rewrite G.
    destruct H as [H|(a & Ha & _ & P)]; [exists c; split; [now apply rc_l|constructor]|]. exists a. split; [now apply rc_l|now apply tc_rtc]. }
  assert (Rl : forall c y, m !! c = Some y -> c ∈ re_order e given).
  { intros c y H. destruct (decide (c ∈ re_order e given)) as [D|D]; [exact D|]. rewrite (I2 c D), lookup_empty in H. discriminate. }
  assert (Rx : forall c, c ∈ re_order e given -> exists y x orig, m !! c = Some y /\ rr_store r !! c = Some x /\ rr_store r2 !! y = Some orig /\
    commit_parents (ob_commit orig) = commit_parents (ob_commit x) /\ commit_tree (ob_commit orig) = commit_tree (ob_commit x)).
  { intros c Hc. destruct (I1 c Hc) as (y & x & k & H1 & H2 & _ & H3 & _). exists y, x, (reworded_object x k). split_and!; auto. }
  assert (Dc : (forall c k, c ∈ given -> messages !! c = Some k -> ee_decodes (re_exec e) k = true) -> forall c z, m !! c = Some z -> readable (re_exec e1) (rr_store r2) z).
  { intros H c z Hz. pose proof (Rl c z Hz) as Hl. destruct (I1 c Hl) as (y & x & k & H1 & H2 & H3 & H4 & _). rewrite Hz in H1. injection H1 as <-.
    exists (reworded_object x k). split; [exact H4|]. cbn. apply (H c k); [now apply rc_l|exact H3]. }
  destruct (put_built e1 r2 d (re_order e given) m (rr_store r) allowed R2 Op Nl Lv Lp Al Gr In0 Rl Rx) as [[El Eb]|[Ne (dest & cmds & Eb)]].
  - cbn in Eb. change (build d (mk_pe (find_object st) m (fun _ _ => false) (re_sort e)) allowed (List.map (fun c => MoveSubtree (parents_of g c) c) (re_order e given)) = Done BuiltNothing) in Eb.
    rewrite Eb. split; [reflexivity|]. left. split; [apply set_eq; intros c; rewrite <- rc_l, El; split; [intros H; now apply elem_of_nil in H|set_solver]|].
    unfold r2. rewrite El in Er. cbn in Er. injection Er as E1 _. rewrite <- E1. now destruct r.
  - change (build d (mk_pe (find_object st) m (fun _ _ => false) (re_sort e)) allowed (List.map (fun c => MoveSubtree (parents_of g c) c) (re_order e given)) = Done (BuiltPlan dest cmds)) in Eb.
    rewrite Eb. fold e1. destruct (run_plan e1 ts (TxId i) dest cmds r2) as [r' res] eqn:Ern.
    pose proof (put_run e1 r2 d (re_order e given) m (rr_store r) allowed R2 Mem Op Nl Lv Lp Gr In0 Rl Rx ts i dest cmds r' res Eb Ern) as Pt.
    destruct res as [rwo|c| |].
    + destruct Pt as (rw & -> & [P1 P2 P3 P4 P5]). exists rw. split; [reflexivity|]. split; [|split; [|split; [|split]]].
      * intros E. apply Ne. destruct (re_order e given) as [|a l'] eqn:El; [reflexivity|]. assert (X : a ∈ given) by (apply rc_l; rewrite El; left). set_solver.
      * intros c Hc. apply Lp. now apply rc_l.
      * intros c Hc. apply P3; [apply rc_raised; now right|]. rewrite rc_l. apply Hc.
      * destruct P5 as [Q1 Q2 Q3 Q4 Q5 Q6 Q7 Q8]. constructor; auto. etransitivity; [exact Gr|exact Q1].
      * intros Pp. constructor.
        -- intros c. rewrite P1. apply rc_raised.
        -- intros c Hc. apply rc_l in Hc. destruct (I1 c Hc) as (z & x & k & H1 & H2 & H3 & H4 & _).
           destruct (P2 c z _ H1 H4) as (y & qs & Hy & Sy & F). exists y, x, k, qs. split_and!; auto.
        -- intros c Hc Nem. destruct (In0 c) as (x & Hx & _); [apply (shown_known e r R); destruct Hc as (_ & o & _ & H); apply H|].
           destruct (P4 Pp c x) as [(y & qs & Hy & Sy & F & _)|[_ H]]; [apply rc_raised; now right|rewrite rc_l; apply Hc|exact Hx| |contradiction].
           exists y, x, qs. split_and!; auto.
        -- intros c Hc Em. destruct (In0 c) as (x & Hx & _); [apply (shown_known e r R); destruct Hc as (_ & o & _ & H); apply H|].
           destruct (P4 Pp c x) as [(y & qs & _ & _ & _ & H)|[H _]]; [apply rc_raised; now right|rewrite rc_l; apply Hc|exact Hx|contradiction|exact H].
    + destruct Pt as [La St]. split; [reflexivity|]. split.
      * destruct La as [L1 L2 L3 L4 L5]. constructor; auto. etransitivity; [exact Gr|exact L1].
      * intros Wk Good Pp. destruct (St (rc_workable st Gr Wk) (Dc Good) Pp) as (H1 & H2 & H3). split; [|exact H3]. apply rc_raised in H1. rewrite rc_l in H2. destruct H1; [contradiction|assumption].
    + split; [reflexivity|]. intros [Wk Good]. apply Pt. split; [now apply rc_workable|now apply Dc].
    + split; [reflexivity|]. right. intros [Wk Good]. apply Pt. split; [now apply rc_workable|now apply Dc].
Qed.

Lemma rc_messages d src : open_repo (re_hide e) (rr_repo r) = Some d ->
  match messages_for (re_order e) d given src with
  | GotMessages m => new_messages given src m /\ (good_messages (re_exec e) given src -> forall c, c ∈ given -> exists k, m !! c = Some k /\ ee_decodes (re_exec e) k = true) /\
      forall commits f, src = FixUpOf commits f -> given <> ∅ /\ forall c o, c ∈ commits -> o ∈ given -> ancestor g c o
  | NotOne n => exists commits f, src = FixUpOf commits f /\ n = size commits /\ n <> 1
  | NotAncestor => exists c f, src = FixUpOf {[c]} f /\ ~ (given <> ∅ /\ forall o, o ∈ given -> ancestor g c o)
  | NoMessages => src = Asked None
  end.
Proof.
  intros Op. pose proof (dag_is e r d R Op) as G. fold g in G. unfold messages_for. destruct src as [[m|]|commits f]; cbn [new_messages good_messages].
  - split; [reflexivity|]. split; [auto|]. discriminate.
  - reflexivity.
  - pose proof (ra_sets e r R commits) as Pm. assert (Sz : length (re_order e commits) = size commits) by (rewrite Pm; reflexivity).
    destruct (re_order e commits) as [|c [|c' l]] eqn:El.
    + exists commits, f. split; [reflexivity|]. split; [exact Sz|]. cbn. lia.
    + assert (Ec : commits = {[c]}). { apply set_eq. intros x. rewrite elem_of_singleton, <- elem_of_elements, <- Pm. apply elem_of_list_singleton. }
      destruct (decide _) as [H|H]; rewrite G, (common_ancestors_spec g given c W) in H.
      * assert (Lk : forall o, o ∈ given -> (list_to_map (List.map (fun o => (o, f c)) (re_order e given)) : gmap oid N) !! o = Some (f c)).
        { intros o Ho. apply elem_of_list_to_map_1.
          - unfold fmap. change (@list_fmap) with (@List.map). rewrite List.map_map. cbn [fst]. rewrite List.map_id. rewrite (ra_sets e r R). apply NoDup_elements.
          - apply elem_of_list_In, in_map_iff. exists o. split; [reflexivity|]. apply elem_of_list_In, rc_l, Ho. }
        split; [exists c; split; [exact Ec|exact Lk]|]. split.
        -- intros Gd o Ho. exists (f c). split; [now apply Lk|apply Gd].
        -- intros commits' f' [= <- <-]. split; [apply H|]. intros c0 o Hc Ho. rewrite Ec in Hc. apply elem_of_singleton in Hc. subst c0. now apply H.
      * exists c, f. split; [now rewrite Ec|exact H].
    + exists commits, f. split; [reflexivity|]. split; [exact Sz|]. cbn. lia.
Qed.

Lemma rc_ends src : match reword e ts (TxId i) given src r with mk_rwr r' rwo en =>
  match en with
  | RewordsPublic => (re_force e = false /\ exists c, c ∈ given /\ is_public e r c) /\ rwo = None /\ r' = r
  | FixupNotOne n => (exists commits f, src = FixUpOf commits f /\ n = size commits /\ n <> 1) /\ rwo = None /\ r' = r
  | FixupNotAncestor => (exists c f, src = FixUpOf {[c]} f /\ ~ (given <> ∅ /\ forall o, o ∈ given -> ancestor g c o)) /\ rwo = None /\ r' = r
  | RewordAborted => src = Asked None /\ rwo = None /\ r' = r
  | RewordPanics => ((exists c, c ∈ given /\ parents_of g c = []) \/ ~ good_messages (re_exec e) given src) /\ rwo = None /\ only_commits r r'
  | RewordFails => rwo = None /\ (given = ∅ /\ r' = r \/ ~ (workable e r /\ good_messages (re_exec e) given src))
  | RewordExit => rwo = None /\ ~ (workable e r /\ good_messages (re_exec e) given src)
  | RewordStopped c => rwo = None /\ left_alone r r' /\ (workable e r -> good_messages (re_exec e) given src ->
      plain_picks (re_exec e) (rr_store r) -> is_above e r given c /\ merge_commit g c)
  | Reworded => exists rw messages, rwo = Some rw /\ new_messages given src messages /\ given <> ∅ /\ (forall c, c ∈ given -> parents_of g c <> []) /\ (forall c, is_above e r given c -> ~ merge_commit g c) /\
      goes_along e r rw r' /\ (plain_picks (re_exec e) (rr_store r) -> only_messages e r given messages rw (rr_store r')) /\
      forall commits f, src = FixUpOf commits f -> forall c o, c ∈ commits -> o ∈ given -> ancestor g c o
  | RewordNotPlanned => False
  end /\ match en with RewordsPublic => True | _ => re_force e = false -> forall c, c ∈ given -> ~ is_public e r c end end.
Proof.
  unfold reword. destruct rc_open as [d Op]. rewrite Op. pose proof (rc_public d Op) as Pb.
  destruct (verify_rewrite_set d (re_force e) given) as [allowed|] eqn:Vf; [|split; [split; [now apply Pb|auto]|exact I]].
  assert (NP : re_force e = false -> forall c, c ∈ given -> ~ is_public e r c).
  { intros F c Hc P. assert (X : Some allowed = None) by (apply Pb; eauto). discriminate. }
  pose proof (rc_messages d src Op) as Ms. destruct (messages_for _ _ _ _) as [m|n| |].
  - destruct Ms as (Nw & Gd & Fx). pose proof (rc_spec d allowed m Op Vf) as Sp. destruct (reword_commits _ _ _ _ _ _ _ _) as [r' rwo en].
    assert (Gd' : good_messages (re_exec e) given src -> forall c k, c ∈ given -> m !! c = Some k -> ee_decodes (re_exec e) k = true).
    { intros H c k Hc Hk. destruct (Gd H c Hc) as (k' & E & Dk). congruence. }
    split; [|destruct en; auto]. destruct en; auto; try contradiction.
    + destruct Sp as ((c & Hc & H) & Sp). split; [|exact Sp]. destruct H as [H|H]; [right|left; eauto]. intros Gm. destruct (Gd Gm c Hc) as (k & E & _). congruence.
    + destruct Sp as [-> [H|H]]; (split; [reflexivity|]); [now left|right]. intros [Wk Gm]. apply H. split; [exact Wk|now apply Gd'].
    + destruct Sp as (-> & La & H). split; [reflexivity|]. split; [exact La|]. intros Wk Gm Pp. apply (H Wk (Gd' Gm) Pp).
    + destruct Sp as [-> H]. split; [reflexivity|]. intros [Wk Gm]. apply H. split; [exact Wk|now apply Gd'].
    + destruct Sp as (rw & -> & Ne & Lp & Nm & Ga & Om). exists rw, m. split_and!; auto. intros commits f Es. apply (Fx commits f Es).
  - split; [auto|exact NP].
  - split; [auto|exact NP].
  - split; [auto|exact NP].
Qed.
End command.
