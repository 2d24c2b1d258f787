From Verif Require Import Base TextModel TextProofs EventLogModel EventLogSpec EventLogProofs EvolveSpec
  DagModel DagSpec DagProofs DagCompProofs StrModel StrProofs HookModel PlanModel PlanSpec PlanProofs PlanDfsProofs PlanLabelProofs PlanCycleProofs PlanBuildProofs PlanProps
  ExecModel ExecSpec ExecProofs ExecBuildProofs ExecAfterProofs ExecProps HideModel HideSpec HideProofs RestackModel RestackSpec RestackProofs
  SyncModel SyncSpec SyncProofs MoveModel MoveSpec MoveProofs PlanRunProofs ModeModel TreeModel SnapModel AmendModel AmendSpec AmendProofs
  TestCacheModel FixModel FixSpec.
From Verif Require NavModel TreeOpsProofs.
Local Open Scope string_scope.
Local Open Scope list_scope.

(** ** The requests: each commit onto its own parents *)
Section again.
Context (d : dag) (l : list oid).
Let g := dag_graph d.
Hypothesis W : wf_graph g.
Hypothesis Ld : NoDup l.
Hypothesis Lv : forall c, c ∈ l -> c ∈ vertices g.
Hypothesis Lc : forall c c', c ∈ l -> visible d c' -> proper_ancestor g c c' -> c' ∈ l.
Hypothesis Lp : forall c, c ∈ l -> parents_of g c <> [].
Let cs := List.map (fun c => MoveSubtree (parents_of g c) c) l.

Lemma ag_in x : x ∈ cs <-> exists c, c ∈ l /\ x = MoveSubtree (parents_of g c) c.
Proof.
  unfold cs. rewrite elem_of_list_In, in_map_iff. split.
  - intros (c & <- & H). exists c. split; [now apply elem_of_list_In|reflexivity].
  - intros (c & H & ->). exists c. split; [reflexivity|now apply elem_of_list_In].
Qed.
Lemma ag_placed c p : placed cs c p <-> c ∈ l /\ parent g p c.
Proof.
  rewrite (parent_parents_of _ _ _ W). split.
  - intros (b & ps & a & E & Hp & _). assert (X : MoveSubtree ps c ∈ cs) by (rewrite E; apply elem_of_app; right; left).
    apply ag_in in X. destruct X as (c' & Hc & [= -> ->]). auto.
  - intros [Hc Hp]. apply elem_of_list_split in Hc. destruct Hc as (l1 & l2 & E).
    exists (List.map (fun c => MoveSubtree (parents_of g c) c) l1), (parents_of g c), (List.map (fun c => MoveSubtree (parents_of g c) c) l2). split; [|split; [exact Hp|]].
    + unfold cs. rewrite E, List.map_app. reflexivity.
    + apply Forall_forall. intros x Hx. apply elem_of_list_In, in_map_iff in Hx. destruct Hx as (c' & <- & Hx). cbn. intros ->.
      rewrite E in Ld. apply NoDup_app in Ld. destruct Ld as (_ & _ & X). apply NoDup_cons in X. destruct X as [X _]. apply X. now apply elem_of_list_In.
Qed.
Lemma ag_no_takes x a b : x ∈ cs -> ~ takes_out x a b.
Proof. intros H T. apply ag_in in H. destruct H as (c & _ & ->). destruct T as [T|(t & T & _)]; discriminate. Qed.
Lemma ag_no_gap x p : ~ closes_gap d cs x p.
Proof. intros (_ & _ & b & y & a & u & v & E & T & _). apply (ag_no_takes y u v); [rewrite E; apply elem_of_app; right; left|exact T]. Qed.
Lemma ag_some c : c ∈ l -> exists p, parent g p c.
Proof. intros H. destruct (some_element _ (Lp c H)) as [p P]. exists p. now apply (parent_parents_of _ _ _ W). Qed.
Lemma ag_requested c : requested d cs c <-> c ∈ l.
Proof.
  split.
  - intros [p [H|H]]; [now apply ag_placed in H|destruct (ag_no_gap _ _ H)].
  - intros H. destruct (ag_some c H) as [p P]. exists p. left. now apply ag_placed.
Qed.
Lemma ag_target c : ~ fixup_target cs c.
Proof. intros [f H]. apply ag_in in H. destruct H as (c' & _ & H). discriminate. Qed.
Lemma ag_fixed c : ~ fixed_up cs c.
Proof. intros [f H]. apply ag_in in H. destruct H as (c' & _ & H). discriminate. Qed.
Lemma ag_no_fixup t f : FixUpCommit t f ∉ cs.
Proof. intros H. apply (ag_fixed f). now exists t. Qed.
Lemma ag_new_parent p c : new_parent d cs p c <-> c ∈ l /\ parent g p c.
Proof.
  unfold new_parent. rewrite ag_placed. split; [|auto]. intros [H|[H|H]]; [exact H|destruct (ag_no_gap _ _ H)|].
  exfalso. destruct H as (N & V & _ & a & [Ha|Ha] & A); [|destruct (ag_target _ Ha)]. apply ag_requested in Ha. apply N, ag_requested.
  exact (Lc a c Ha V A).
Qed.
Lemma ag_moves c : moves d cs c <-> c ∈ l.
Proof.
  split; [intros [p H]; now apply ag_new_parent in H|]. intros H. destruct (ag_some c H) as [p P]. exists p. apply ag_new_parent. auto.
Qed.
Lemma ag_rebuilt c : rebuilt d cs c <-> c ∈ l.
Proof. unfold rebuilt. rewrite ag_moves. split; [intros [H|H]; [exact H|destruct (ag_target _ H)]|auto]. Qed.
Lemma ag_rebuilt_on p c : ~ merge_commit g c -> rebuilt_on d cs p c -> parent g p c.
Proof. intros NM [H|[(H & _)|(H & _)]]; [now apply ag_new_parent in H|destruct (ag_target _ H)|destruct (NM H)]. Qed.
Lemma ag_single c : c ∈ l -> ~ merge_commit g c -> exists p, parents_of g c = [p].
Proof.
  intros Hc NM. pose proof (Lp c Hc) as P. apply Lv, vertices_spec in Hc. destruct Hc as [ps Hc].
  rewrite (parents_of_spec _ _ _ _ W Hc) in *. assert (L : (length ps <= 1)%nat). { apply Nat.nlt_ge. intros L. apply NM. exists ps. auto. }
  destruct ps as [|q [|q' ps]]; cbn in *; [congruence|eauto|lia].
Qed.
Lemma ag_plannable e : (forall c x, pe_replace e !! c = Some x -> exists rc, pe_find e x = Some rc) -> plannable d e cs.
Proof.
  intros Rep. constructor.
  - intros c H. apply Lv. now apply ag_rebuilt.
  - exact Rep.
  - intros p p' c NM H H'. apply ag_new_parent in H, H'. destruct H as [Hc H], H' as [_ H']. destruct (ag_single c Hc NM) as (q & E).
    apply (parent_parents_of _ _ _ W) in H, H'. rewrite E in H, H'. apply elem_of_list_singleton in H, H'. congruence.
  - intros c M Rb. split; [apply ag_target|]. split; [apply ag_fixed|]. split; [intros p _ H; destruct (ag_target _ H)|].
    intros p Rp. rewrite ag_new_parent. apply ag_rebuilt in Rb. tauto.
  - intros t H. destruct (ag_target _ H).
  - intros t H. destruct (ag_target _ H).
Qed.
Lemma ag_clear : clear_of_fixups d cs.
Proof. intros p c _ _. apply ag_fixed. Qed.
Lemma ag_gaps : gaps_close d cs.
Proof. intros b x a u v E T. exfalso. apply (ag_no_takes x u v); [rewrite E; apply elem_of_app; right; left|exact T]. Qed.
Lemma ag_possible : ~ impossible d cs.
Proof.
  assert (Anc : forall p c, tc (new_parent d cs) p c -> proper_ancestor g p c).
  { intros p c H. induction H as [p c H|p q c H T IH]; [apply tc_once; now apply ag_new_parent in H|]. eapply tc_l; [|exact IH]. now apply ag_new_parent in H. }
  intros [c H]. exact (wf_acyclic _ _ W (Anc c c H)).
Qed.
Lemma ag_fit e : (forall c x rc, c ∈ l -> pe_replace e !! c = Some x -> pe_find e x = Some rc -> commit_parents rc = parents_of g c) -> replacements_fit d e cs.
Proof.
  intros Rep c x rc NM Rb E Fd. apply ag_rebuilt in Rb. rewrite (Rep c x rc Rb E Fd). destruct (ag_single c Rb NM) as (p & Ep). rewrite Ep.
  exists p. split; [reflexivity|]. left. apply ag_new_parent. split; [exact Rb|]. apply (parent_parents_of _ _ _ W). rewrite Ep. left.
Qed.
Lemma ag_build e allowed : knows d e -> (forall c x, pe_replace e !! c = Some x -> exists rc, pe_find e x = Some rc) ->
  (forall c, c ∈ l -> c ∈ allowed) ->
  (l = [] /\ build d e allowed cs = Done BuiltNothing) \/ (l <> [] /\ exists dest cmds, build d e allowed cs = Done (BuiltPlan dest cmds)).
Proof.
  intros K Rep Al. destruct (decide (l = [])) as [El|El].
  - left. split; [exact El|]. unfold cs. rewrite El. apply build_none. exact W.
  - right. split; [exact El|]. apply build_total; auto; [now apply ag_plannable|exact ag_gaps|exact ag_possible| |].
    + intros c H. apply Al, ag_moves, H.
    + destruct (some_element l El) as [c0 H]. exists c0. now apply ag_rebuilt.
Qed.

(** What carrying them out does. *)
Context (pe : plan_env) (ee : exec_env) (st st' : store) (rw : gmap oid moid) (head : option oid).
Hypothesis CO : carried_out d cs pe ee st st' rw head.
Lemma ag_rw c : is_Some (rw !! c) <-> c ∈ l.
Proof.
  rewrite <- ag_rebuilt. split.
  - intros H. destruct (co_rest _ _ _ _ _ _ _ _ CO c H) as [X|X]; [exact X|destruct (ag_fixed _ X)].
  - intros H. destruct (co_fate _ _ _ _ _ _ _ _ CO c H (ag_fixed c)); eauto.
Qed.
Lemma ag_lands p q : lands d cs rw p q -> becomes (parent g) rw p q.
Proof.
  induction 1 as [p H|p q H|p p' q H B L IH]; [now apply becomes_kept|now apply becomes_new|].
  apply (becomes_dropped _ _ p p' q); [exact H| |exact IH]. apply ag_rebuilt_on; [|exact B].
  assert (Rb : rebuilt d cs p) by (apply ag_rebuilt, ag_rw; eauto).
  destruct (co_fate _ _ _ _ _ _ _ _ CO p Rb (ag_fixed p)); congruence || assumption.
Qed.
Lemma ag_dropped x z : pe_replace pe !! x = Some z -> rw !! x = Some Zero -> ~ merge_commit g x /\ exists t, pe_upstream pe t x = true.
Proof.
  intros Re Hx. assert (Rb : rebuilt d cs x) by (apply ag_rebuilt, ag_rw; eauto).
  destruct (co_fate _ _ _ _ _ _ _ _ CO x Rb (ag_fixed x)) as [p q Z NM B L Why|p q n' orig k y qx Z|n' rr orig ps qs Z Z']; [|congruence..].
  split; [exact NM|]. destruct Why as [Up|(Re' & _)]; [exact Up|congruence].
Qed.
Lemma ag_replaced x y z : pe_replace pe !! x = Some z -> rw !! x = Some (NonZero y) -> exists orig qs,
  st' !! z = Some orig /\ st' !! y = Some (remade ee orig qs (commit_tree (ob_commit orig))) /\
  Forall2 (becomes (parent g) rw) (parents_of g x) qs.
Proof.
  intros Re Hx. assert (Hl : x ∈ l) by (apply ag_rw; eauto). assert (Rb : rebuilt d cs x) by (now apply ag_rebuilt).
  destruct (co_fate _ _ _ _ _ _ _ _ CO x Rb (ag_fixed x)) as [p q Z|p q n' orig k w qx Z NM Re'|n' rr orig ps qs Z Z' So Sn F M NM]; [congruence..|].
  rewrite Hx in Z. injection Z as <-. rewrite Re in Z'. injection Z' as <-. exists orig, qs. split_and!; auto.
  assert (ps = parents_of g x) as <-.
  { destruct (decide (Nat.lt 1 (length (parents_of g x)))) as [Lt|Ge].
    - apply M. pose proof (Lv x Hl) as V. apply vertices_spec in V. destruct V as [ps' V]. exists ps'. split; [exact V|]. now rewrite <- (parents_of_spec _ _ _ _ W V).
    - assert (N : ~ merge_commit g x). { intros (ps' & V & L). rewrite (parents_of_spec _ _ _ _ W V) in Ge. contradiction. }
      destruct (NM N) as (p & -> & B). destruct (ag_single x Hl N) as (p' & E). rewrite E. f_equal.
      apply ag_rebuilt_on in B; [|exact N]. apply (parent_parents_of _ _ _ W) in B. rewrite E in B. now apply elem_of_list_singleton in B. }
  eapply Forall2_impl; [exact F|]. intros p q. apply ag_lands.
Qed.
End again.

(** ** The graph with the commits made *)
Record ext (P : oid -> Prop) (d0 d : dag) (st : store) : Prop := {
  ex_wf : wf_graph (dag_graph d);
  ex_old : forall c, c ∈ vertices (dag_graph d0) -> c ∈ vertices (dag_graph d);
  ex_new : forall c, c ∈ vertices (dag_graph d) -> c ∈ vertices (dag_graph d0) \/ P c;
  ex_parents : forall c, c ∈ vertices (dag_graph d0) -> parents_of (dag_graph d) c = parents_of (dag_graph d0) c;
  ex_kept : forall v, kept d v <-> kept d0 v;
  ex_store : forall c, c ∈ vertices (dag_graph d) -> exists x, st !! c = Some x /\ commit_parents (ob_commit x) = parents_of (dag_graph d) c }.
Lemma ext_step P d0 d st f x : ext P d0 d st -> P (fx_new f) -> st !! fx_new f = Some x -> commit_parents (ob_commit x) = fx_parents f ->
  (forall p, p ∈ fx_parents f -> p ∈ vertices (dag_graph d0)) -> ext P d0 (with_commit (fx_new f) (fx_parents f) d) st.
Proof.
  intros E Pf Sx Px Kp. unfold with_commit. destruct (decide _) as [H|H]; [exact E|]. destruct E as [E1 E2 En E3 E4 E5].
  assert (Ps : forall p, p ∈ fx_parents f -> p ∈ vertices (dag_graph d)) by auto.
  constructor; cbn [dag_graph].
  - now apply more_wf.
  - intros c Hc. apply more_vertices. auto.
  - intros c Hc. apply more_vertices in Hc. destruct Hc as [Hc| ->]; auto.
  - intros c Hc. rewrite more_parents; [auto|]. intros ->. apply H. auto.
  - exact E4.
  - intros c Hc. destruct (decide (c = fx_new f)) as [->|N].
    + exists x. split; [exact Sx|]. rewrite more_parents_new by assumption. exact Px.
    + rewrite more_parents by exact N. apply E5. apply more_vertices in Hc. destruct Hc as [Hc|Hc]; [exact Hc|congruence].
Qed.
Lemma ext_fixes P d0 st fs : (forall f, f ∈ fs -> P (fx_new f) /\ (exists x, st !! fx_new f = Some x /\ commit_parents (ob_commit x) = fx_parents f) /\
    forall p, p ∈ fx_parents f -> p ∈ vertices (dag_graph d0)) -> forall d, ext P d0 d st -> ext P d0 (with_fixes fs d) st.
Proof.
  unfold with_fixes. induction fs as [|f fs IH]; intros H d E; cbn [fold_left]; [exact E|]. apply IH; [intros f' Hf; apply H; now right|].
  destruct (H f ltac:(left)) as (Pf & (x & Sx & Px) & Kp). eapply ext_step; eauto.
Qed.
Section ext.
Context (P : oid -> Prop) (d0 d : dag) (st : store).
Hypothesis W0 : wf_graph (dag_graph d0).
Hypothesis E : ext P d0 d st.
Lemma ext_parent p c : c ∈ vertices (dag_graph d0) -> parent (dag_graph d) p c <-> parent (dag_graph d0) p c.
Proof. intros Hc. rewrite !parent_parents_of by (exact W0 || apply E). now rewrite (ex_parents _ _ _ _ E c Hc). Qed.
Lemma ext_ancestor a c : c ∈ vertices (dag_graph d0) -> ancestor (dag_graph d) a c <-> ancestor (dag_graph d0) a c.
Proof.
  intros Hc. split; intros H; revert Hc.
  - induction H as [x|x y z Pp H IH]; intros Hz; [constructor|]. specialize (IH Hz).
    assert (y ∈ vertices (dag_graph d0)). { apply rtc_inv in IH. destruct IH as [->|(w & Pw & _)]; [exact Hz|]. apply (parent_vertices _ _ _ W0) in Pw. apply Pw. }
    apply ext_parent in Pp; [|assumption]. eapply rtc_l; eauto.
  - induction H as [x|x y z Pp H IH]; intros Hz; [constructor|]. specialize (IH Hz).
    assert (y ∈ vertices (dag_graph d0)). { apply rtc_inv in H. destruct H as [->|(w & Pw & _)]; [exact Hz|]. apply (parent_vertices _ _ _ W0) in Pw. apply Pw. }
    apply (rtc_l _ x y z); [apply (ext_parent x y); [assumption|exact Pp]|exact IH].
Qed.
Lemma ext_proper a c : c ∈ vertices (dag_graph d0) -> proper_ancestor (dag_graph d) a c <-> proper_ancestor (dag_graph d0) a c.
Proof.
  intros Hc. unfold proper_ancestor. split; intros H.
  - apply tc_rtc in H as H'. apply rtc_inv_r in H'. destruct H' as [->|(q & An & Pp)]; [destruct (wf_acyclic _ _ (ex_wf _ _ _ _ E) H)|].
    apply ext_parent in Pp; [|exact Hc]. eapply tc_rtc_l; [|apply tc_once; exact Pp]. apply ext_ancestor; [now apply (parent_vertices _ _ _ W0) in Pp|exact An].
  - apply tc_rtc in H as H'. apply rtc_inv_r in H'. destruct H' as [->|(q & An & Pp)]; [destruct (wf_acyclic _ _ W0 H)|].
    eapply tc_rtc_l; [|apply tc_once, ext_parent; [exact Hc|exact Pp]]. apply ext_ancestor; [now apply (parent_vertices _ _ _ W0) in Pp|exact An].
Qed.
Lemma ext_merge c : c ∈ vertices (dag_graph d0) -> merge_commit (dag_graph d) c <-> merge_commit (dag_graph d0) c.
Proof.
  intros Hc. pose proof (ex_parents _ _ _ _ E c Hc) as Ep. pose proof (ex_old _ _ _ _ E c Hc) as Hc'.
  apply vertices_spec in Hc as [ps V]. apply vertices_spec in Hc' as [ps' V'].
  rewrite (parents_of_spec _ _ _ _ W0 V), (parents_of_spec _ _ _ _ (ex_wf _ _ _ _ E) V') in Ep. subst ps'.
  split; intros (qs & X & L).
  - pose proof (parents_of_spec _ _ _ _ (ex_wf _ _ _ _ E) X) as E1. rewrite (parents_of_spec _ _ _ _ (ex_wf _ _ _ _ E) V') in E1. subst qs. exists ps. auto.
  - pose proof (parents_of_spec _ _ _ _ W0 X) as E1. rewrite (parents_of_spec _ _ _ _ W0 V) in E1. subst qs. exists ps. auto.
Qed.
Hypothesis K0 : forall v, kept d0 v -> v ∈ vertices (dag_graph d0).
Lemma ext_visible c : visible d c <-> visible d0 c.
Proof.
  unfold visible. split; intros (v & K & An); exists v.
  - apply (ex_kept _ _ _ _ E) in K. split; [exact K|]. apply ext_ancestor; auto.
  - split; [now apply (ex_kept _ _ _ _ E)|]. apply ext_ancestor; auto.
Qed.
End ext.

(** ** The fixes made *)
Lemma fixed_same x : fixed_object x (commit_tree (ob_commit x)) = x.
Proof. destruct x as [[ps t] a c m]. reflexivity. Qed.
Lemma fixed_other x t : fixed_object x t = x -> t = commit_tree (ob_commit x).
Proof. destruct x as [[ps t'] a c m]. cbn. now intros [=]. Qed.
Record a_fix_of (ee : exec_env) (st st' : store) (l : list (oid * oid)) (f : a_fix) : Prop := {
  af_from : exists x t, (fx_old f, t) ∈ l /\ st !! fx_old f = Some x /\ t <> commit_tree (ob_commit x) /\
    fx_parents f = commit_parents (ob_commit x) /\ st' !! fx_new f = Some (fixed_object x t) /\ ee_decodes ee (ob_message x) = true }.
Lemma make_fixes_spec s l : NoDup (List.map fst l) -> forall st fs st', faithful_names (re_exec (fs_restack s)) -> named (re_exec (fs_restack s)) st ->
  (forall c t, (c, t) ∈ l -> is_Some (st !! c)) -> make_fixes s l st = Some (fs, st') ->
  st ⊆ st' /\ named (re_exec (fs_restack s)) st' /\ NoDup (List.map fx_old fs) /\ (forall f, f ∈ fs -> a_fix_of (re_exec (fs_restack s)) st st' l f) /\
  forall c t x, (c, t) ∈ l -> st !! c = Some x -> t <> commit_tree (ob_commit x) -> c ∈ List.map fx_old fs.
Proof.
  set (ee := re_exec (fs_restack s)). induction l as [|[c t] l IH]; intros Nd st fs st' Fn Nm Th; cbn [make_fixes].
  - intros [= <- <-]. split; [reflexivity|]. split; [exact Nm|]. split; [constructor|]. split; [intros f H|intros c t x H]; now apply elem_of_nil in H.
  - cbn [List.map fst] in Nd. apply NoDup_cons in Nd. destruct Nd as [Nc Nd]. destruct (Th c t ltac:(left)) as [x Hx]. rewrite Hx.
    destruct (_ && _)%bool eqn:Ok; [|discriminate]. fold ee. destruct (add_object _ _ _) as [o st1] eqn:Ao.
    destruct (make_fixes s l st1) as [[fs1 st2]|] eqn:Em; [|discriminate]. intros [= <- <-].
    destruct (add_object_grows _ _ _ _ _ Ao) as [G1 N1]. pose proof (add_object_there _ _ _ _ _ Ao Fn Nm) as So.
    assert (Eo : o = ee_hash ee (fixed_object x t)) by (unfold add_object in Ao; congruence).
    destruct (IH Nd st1 fs1 st2 Fn (N1 Nm)) as (G2 & N2 & D2 & A2 & C2); [|exact Em|].
    { intros c' t' H. destruct (Th c' t' ltac:(now right)) as [y Hy]. exists y. exact (lookup_weaken _ _ _ _ Hy G1). }
    assert (Down : forall c' t' y, (c', t') ∈ l -> st1 !! c' = Some y -> st !! c' = Some y).
    { intros c' t' y H Hy. destruct (Th c' t' ltac:(now right)) as [z Hz]. rewrite (lookup_weaken _ _ _ _ Hz G1) in Hy. congruence. }
    assert (Old : forall f, f ∈ fs1 -> fx_old f ∈ List.map fst l).
    { intros f Hf. destruct (A2 f Hf) as [(y & t' & H & _)]. apply elem_of_list_In, in_map_iff. exists (fx_old f, t'). split; [reflexivity|now apply elem_of_list_In]. }
    assert (Same : c = o <-> t = commit_tree (ob_commit x)).
    { split.
      - intros E. apply fixed_other. apply Fn. rewrite <- Eo, <- E. symmetry. exact (Nm _ _ Hx).
      - intros ->. rewrite Eo, fixed_same. symmetry. exact (Nm _ _ Hx). }
    assert (A2' : forall f, f ∈ fs1 -> a_fix_of ee st st2 ((c, t) :: l) f).
    { intros f Hf. destruct (A2 f Hf) as [(y & t' & H & Hy & R)]. constructor. exists y, t'. split; [now right|]. split; [eapply Down; eauto|exact R]. }
    assert (C2' : forall c' t' y, (c', t') ∈ l -> st !! c' = Some y -> t' <> commit_tree (ob_commit y) -> c' ∈ List.map fx_old fs1).
    { intros c' t' y H Hy. apply (C2 c' t'); [exact H|]. exact (lookup_weaken _ _ _ _ Hy G1). }
    split; [etransitivity; eauto|]. split; [exact N2|]. destruct (decide (c = o)) as [E|E].
    + split; [exact D2|]. split; [exact A2'|]. intros c' t' y H Hy N. apply elem_of_cons in H. destruct H as [[= -> ->]|H]; [|now apply (C2' c' t' y)].
      rewrite Hx in Hy. injection Hy as <-. destruct (N (proj1 Same E)).
    + cbn [List.map fx_old]. split; [apply NoDup_cons; split; [|exact D2]|split].
      * intros H. apply elem_of_list_In, in_map_iff in H. destruct H as (f & Ef & Hf). apply Nc. rewrite <- Ef. apply Old. now apply elem_of_list_In.
      * intros f Hf. apply elem_of_cons in Hf. destruct Hf as [->|Hf]; [|now apply A2']. constructor. exists x, t. cbn. split; [left|]. split; [exact Hx|].
        split; [intros X; exact (E (proj2 Same X))|]. split; [reflexivity|]. split; [exact (lookup_weaken _ _ _ _ So G2)|].
        apply andb_true_iff in Ok. destruct Ok as [Ok _]. now apply andb_true_iff in Ok.
      * intros c' t' y H Hy N. apply elem_of_cons in H. destruct H as [[= -> ->]|H]; [left|right; now apply (C2' c' t' y)].
Qed.
Lemma make_fixes_works s l : forall st, (forall c t, (c, t) ∈ l -> exists x, st !! c = Some x /\ ee_decodes (re_exec (fs_restack s)) (ob_message x) = true /\
    (forall p, p ∈ commit_parents (ob_commit x) -> is_Some (st !! p)) /\ fs_tree s t = true) -> is_Some (make_fixes s l st).
Proof.
  induction l as [|[c t] l IH]; intros st Th; cbn [make_fixes]; [eauto|].
  destruct (Th c t ltac:(left)) as (x & Hx & Dx & Px & Tx). rewrite Hx, Dx, Tx.
  assert (forallb (fun p => bool_decide (is_Some (st !! p))) (commit_parents (ob_commit x)) = true) as ->.
  { apply forallb_forall. intros p Hp. apply bool_decide_eq_true, Px. now apply elem_of_list_In. }
  cbn [andb]. destruct (add_object _ _ _) as [o st1] eqn:Ao. destruct (add_object_grows _ _ _ _ _ Ao) as [G1 _].
  destruct (IH st1) as [[fs st2] ->]; [|eauto].
  intros c' t' Hc. destruct (Th c' t' ltac:(now right)) as (y & Hy & Dy & Py & Ty). exists y. split; [exact (lookup_weaken _ _ _ _ Hy G1)|]. split; [exact Dy|].
  split; [|exact Ty]. intros p Hp. destruct (Py p Hp) as [z Hz]. exists z. exact (lookup_weaken _ _ _ _ Hz G1).
Qed.
Lemma fixed_trees_spec outs c t : (c, t) ∈ fixed_trees outs <-> leaves outs c t.
Proof.
  unfold fixed_trees, leaves. rewrite elem_of_list_In, in_flat_map. split.
  - intros ([c' x] & H & Ht). unfold fixed_tree in Ht. cbn [fst snd] in Ht. destruct x as [| | | | | | | |cached f i]; cbn in Ht; try contradiction.
    destruct (fi_tree f) as [t'|] eqn:E; [|contradiction]. destruct Ht as [[= -> ->]|[]]. exists cached, f, i. split; [now apply elem_of_list_In|exact E].
  - intros (cached & f & i & H & E). exists (c, OPassed cached f i). split; [now apply elem_of_list_In|]. unfold fixed_tree. cbn. rewrite E. now left.
Qed.
Lemma fixed_trees_once outs : NoDup (List.map fst outs) -> NoDup (List.map fst (fixed_trees outs)).
Proof.
  induction outs as [|[c x] outs IH]; intros H; [constructor|]. cbn [List.map fst] in H. apply NoDup_cons in H. destruct H as [N H].
  change (fixed_trees ((c, x) :: outs)) with (fixed_tree (c, x) ++ fixed_trees outs). rewrite List.map_app. apply NoDup_app. split_and!; [| |now apply IH].
  - unfold fixed_tree. destruct x; try constructor. cbn [snd fst]. destruct (fi_tree _); cbn; [apply NoDup_singleton|constructor].
  - intros c' Hc Hc'. assert (c' = c) as ->.
    { unfold fixed_tree in Hc. destruct x; cbn [snd fst List.map] in Hc; try (apply elem_of_nil in Hc; destruct Hc).
      destruct (fi_tree _); cbn [List.map fst] in Hc; [now apply elem_of_list_singleton in Hc|apply elem_of_nil in Hc; destruct Hc]. }
    apply elem_of_list_In, in_map_iff in Hc'. destruct Hc' as ([c' t] & E & Hc'). cbn in E. subst c'. apply N.
    apply elem_of_list_In, fixed_trees_spec in Hc'. destruct Hc' as (cached & f & i & Hc' & _). apply elem_of_list_In, in_map_iff. exists (c, OPassed cached f i).
    split; [reflexivity|now apply elem_of_list_In].
Qed.
Lemma all_passed_spec outs : all_passed outs = false <-> exists c x, (c, x) ∈ outs /\ not_passed x.
Proof.
  unfold all_passed. split.
  - induction outs as [|[c x] outs IH]; cbn [forallb]; [discriminate|]. intros H. apply andb_false_iff in H. destruct H as [H|H].
    + exists c, x. split; [left|]. intros cached f i E. cbn in H. subst x. discriminate.
    + destruct (IH H) as (c' & x' & H' & N). exists c', x'. split; [now right|exact N].
  - intros (c & x & H & N). apply not_true_iff_false. intros F. rewrite forallb_forall in F. apply elem_of_list_In in H. specialize (F _ H). cbn in F.
    destruct x as [| | | | | | | |cached f i]; try discriminate. exact (N _ _ _ eq_refl).
Qed.

(** ** The requests *)
Record an_item := mk_item { it_old : oid; it_parents : list oid; it_new : oid }.
Definition ask (q : requests) (x : an_item) : requests := request (it_old x) (it_parents x) (it_new x) q.
Lemma ask_panics l : fold_left ask l RequestPanics = RequestPanics.
Proof. induction l; cbn; auto. Qed.
Lemma ask_all l : NoDup (List.map it_old l) -> forall cs m, (forall x, x ∈ l -> m !! it_old x = None) ->
  (fold_left ask l (Requests cs m) = RequestPanics /\ exists x, x ∈ l /\ it_parents x = []) \/
  (exists m', fold_left ask l (Requests cs m) = Requests (cs ++ List.map (fun x => MoveSubtree (it_parents x) (it_old x)) l) m' /\
     (forall x, x ∈ l -> it_parents x <> [] /\ m' !! it_old x = Some (it_new x)) /\ forall c, c ∉ List.map it_old l -> m' !! c = m !! c).
Proof.
  induction l as [|x l IH]; intros Nd cs m Hm; cbn [fold_left List.map].
  - right. exists m. rewrite app_nil_r. split; [reflexivity|]. split; [|auto]. intros x H. now apply elem_of_nil in H.
  - cbn [List.map] in Nd. apply NoDup_cons in Nd. destruct Nd as [Nx Nd].
    assert (ask (Requests cs m) x = match it_parents x with [] => RequestPanics | _ => Requests (cs ++ [MoveSubtree (it_parents x) (it_old x)]) (<[it_old x := it_new x]> m) end) as ->.
    { unfold ask, request. rewrite (Hm x ltac:(left)). rewrite bool_decide_false by (intros [? X]; discriminate). reflexivity. }
    destruct (decide (it_parents x = [])) as [E|E].
    { left. rewrite E. split; [apply ask_panics|]. exists x. split; [left|exact E]. }
    assert (match it_parents x with [] => RequestPanics | _ => Requests (cs ++ [MoveSubtree (it_parents x) (it_old x)]) (<[it_old x := it_new x]> m) end =
      Requests (cs ++ [MoveSubtree (it_parents x) (it_old x)]) (<[it_old x := it_new x]> m)) as -> by (destruct (it_parents x); congruence).
    destruct (IH Nd (cs ++ [MoveSubtree (it_parents x) (it_old x)]) (<[it_old x := it_new x]> m)) as [(F & y & Hy & Ey)|(m' & F & A & B)].
    { intros y Hy. rewrite lookup_insert_ne; [apply Hm; now right|]. intros X. apply Nx. rewrite X. apply elem_of_list_In, in_map, elem_of_list_In, Hy. }
    + left. split; [exact F|]. exists y. split; [now right|exact Ey].
    + right. exists m'. split; [rewrite F, <- app_assoc; reflexivity|]. split.
      * intros y Hy. apply elem_of_cons in Hy. destruct Hy as [->|Hy]; [|now apply A]. split; [exact E|]. rewrite B by exact Nx. apply lookup_insert.
      * intros c Hc. apply not_elem_of_cons in Hc. destruct Hc as [H1 H2]. rewrite B by exact H2. now rewrite lookup_insert_ne by congruence.
Qed.
Lemma above_asks st (pn : oid -> list oid) l q : (forall c, c ∈ l -> exists x, st !! c = Some x /\ commit_parents (ob_commit x) = pn c) ->
  fold_left (fun q c => request_above st c q) l q = fold_left ask (List.map (fun c => mk_item c (pn c) c) l) q.
Proof.
  revert q. induction l as [|c l IH]; intros q Th; cbn [fold_left List.map]; [reflexivity|]. rewrite IH by (intros c' H; apply Th; now right). f_equal.
  destruct (Th c ltac:(left)) as (x & Hx & Px). unfold request_above, ask. cbn. destruct q; [|reflexivity..]. now rewrite Hx, Px.
Qed.
Lemma fixes_ask fs q : fold_left (fun q f => request (fx_old f) (fx_parents f) (fx_new f) q) fs q =
  fold_left ask (List.map (fun f => mk_item (fx_old f) (fx_parents f) (fx_new f)) fs) q.
Proof. revert q. induction fs as [|f fs IH]; intros q; cbn [fold_left List.map]; [reflexivity|]. rewrite IH. reflexivity. Qed.

(** ** All of it *)
Lemma forced_restackable e r : restackable e r -> restackable (forced_in_memory e) r.
Proof. intros [? ? ? ? ? ? ? ? ? ? ? ? ?]. constructor; auto. Qed.
Lemma forced_workable e r : workable e r -> workable (forced_in_memory e) r.
Proof. intros [? ? ? ? ?]. constructor; auto. Qed.

Section finish.
Context (s : fix_setting) (r : rrepo) (tested : commit_set) (outs : list (oid * outcome)) (d : dag) (ts : timestamp) (i : Z) (dry : bool) (allowed : gset oid).
Let e := fs_restack s.
Let e1 := forced_in_memory e.
Let g := he_graph (re_hide e).
Hypothesis A : fixable s r tested outs.
Hypothesis Od : re_on_disk e = false.
Hypothesis Op : open_repo (re_hide e) (rr_repo r) = Some d.
Hypothesis Vf : verify_rewrite_set d (re_force e) tested = Some allowed.
Let R : restackable e r := fa_order _ _ _ _ A.
Let W : wf_graph g := io_graph _ _ (ra_order _ _ R).
Let G : dag_graph d = g := dag_is e r d R Op.

Lemma fn_kept v : kept d v -> v ∈ vertices g.
Proof. intros K. apply (shown_known e r R). apply (shown_is e r d R Op). exists v. split; [exact K|constructor]. Qed.
Lemma fn_tested c t : leaves outs c t -> c ∈ tested.
Proof. intros (cached & f & k & H & _). exact (fa_outs _ _ _ _ A _ _ H). Qed.
Lemma fn_vertex c : to_fix (rr_store r) outs c -> c ∈ vertices g.
Proof. intros (t & L & _). apply (fa_tested _ _ _ _ A), (fn_tested c t L). Qed.
Lemma fn_allowed c : to_fix (rr_store r) outs c \/ (exists o, to_fix (rr_store r) outs o /\ above g (rr_repo r) o c) -> c ∈ allowed.
Proof.
  intros H. destruct (verify_rewrite_set_spec d (re_force e) tested allowed ltac:(rewrite G; exact W) Vf) as [Al _]. apply Al. rewrite G.
  destruct H as [(t & L & _)|(o & (t & L & _) & _ & P)]; [exists c; split; [exact (fn_tested c t L)|constructor]|exists o].
  split; [exact (fn_tested o t L)|now apply tc_rtc].
Qed.

Context (fs : list a_fix) (st : store).
Hypothesis Mk : make_fixes s (fixed_trees outs) (rr_store r) = Some (fs, st).
Let d1 := with_fixes fs d.
Let olds := List.map fx_old fs.
Let r2 := mk_rrepo st (rr_repo r).

Lemma fn_made : rr_store r ⊆ st /\ named (re_exec e) st /\ NoDup olds /\ (forall f, f ∈ fs -> a_fix_of (re_exec e) (rr_store r) st (fixed_trees outs) f) /\
  forall c t x, (c, t) ∈ fixed_trees outs -> rr_store r !! c = Some x -> t <> commit_tree (ob_commit x) -> c ∈ olds.
Proof.
  apply (make_fixes_spec s (fixed_trees outs)); [apply fixed_trees_once, A|exact (ra_faithful _ _ R)|exact (ra_named _ _ R)| |exact Mk].
  intros c t H. apply fixed_trees_spec in H. destruct (ra_store _ _ R c) as (x & Hx & _); [apply (fa_tested _ _ _ _ A), (fn_tested c t H)|eauto].
Qed.
Lemma fn_olds c : c ∈ olds <-> to_fix (rr_store r) outs c.
Proof.
  destruct fn_made as (_ & _ & _ & Af & Co). split.
  - intros H. apply elem_of_list_In, in_map_iff in H. destruct H as (f & <- & Hf). apply elem_of_list_In in Hf. destruct (Af f Hf) as [(x & t & Hl & Hx & N & _)].
    exists t. split; [now apply fixed_trees_spec|]. exists x. split; [exact Hx|congruence].
  - intros (t & L & x & Hx & N). apply (Co c t x); [now apply fixed_trees_spec|exact Hx|congruence].
Qed.
Lemma fn_fix f : f ∈ fs -> exists x t, changes (rr_store r) outs (fx_old f) t /\ rr_store r !! fx_old f = Some x /\
  fx_parents f = parents_of g (fx_old f) /\ st !! fx_new f = Some (fixed_object x t) /\ ee_decodes (re_exec e) (ob_message x) = true.
Proof.
  intros Hf. destruct fn_made as (_ & _ & _ & Af & _). destruct (Af f Hf) as [(x & t & Hl & Hx & N & Ep & Sn & Dx)]. exists x, t.
  apply fixed_trees_spec in Hl. split; [split; [exact Hl|exists x; split; [exact Hx|congruence]]|]. split; [exact Hx|]. split; [|split; [exact Sn|exact Dx]].
  destruct (ra_store _ _ R (fx_old f)) as (y & Hy & Py); [apply (fa_tested _ _ _ _ A), (fn_tested _ t Hl)|]. rewrite Hx in Hy. injection Hy as <-. now rewrite Ep.
Qed.
Lemma fn_ext : ext (readable (re_exec e) st) d d1 st.
Proof.
  apply ext_fixes.
  - intros f Hf. destruct (fn_fix f Hf) as (x & t & Ch & Hx & Ep & Sn & Dx). split; [exists (fixed_object x t); split; [exact Sn|exact Dx]|]. split.
    + exists (fixed_object x t). split; [exact Sn|]. cbn. rewrite Ep. destruct (ra_store _ _ R (fx_old f)) as (y & Hy & Py); [apply fn_vertex; now exists t|].
      rewrite Hx in Hy. injection Hy as <-. exact Py.
    + intros p Hp. rewrite Ep in Hp. rewrite G. apply (parent_parents_of _ _ _ W) in Hp. now apply (parent_vertices _ _ _ W) in Hp.
  - constructor; auto; [rewrite G; exact W|]. rewrite G. intros c Hc. destruct (ra_store _ _ R c Hc) as (x & Hx & Px). exists x. split; [|exact Px].
    exact (lookup_weaken _ _ _ _ Hx (proj1 fn_made)).
Qed.
Lemma fn_wd : wf_graph (dag_graph d). Proof. rewrite G. exact W. Qed.
Lemma fn_shown c : visible d1 c <-> shown g (rr_repo r) c.
Proof. rewrite (ext_visible _ d d1 st fn_wd fn_ext) by (rewrite G; exact fn_kept). apply (shown_is e r d R Op). Qed.
Lemma fn_parents c : c ∈ vertices g -> parents_of (dag_graph d1) c = parents_of g c.
Proof. intros Hc. rewrite (ex_parents _ _ _ _ fn_ext) by (now rewrite G). now rewrite G. Qed.
Lemma fn_parent p c : c ∈ vertices g -> parent (dag_graph d1) p c <-> parent g p c.
Proof. intros Hc. rewrite (ext_parent _ d d1 st fn_wd fn_ext) by (now rewrite G). now rewrite G. Qed.
Lemma fn_proper a c : c ∈ vertices g -> proper_ancestor (dag_graph d1) a c <-> proper_ancestor g a c.
Proof. intros Hc. rewrite (ext_proper _ d d1 st fn_wd fn_ext) by (now rewrite G). now rewrite G. Qed.
Lemma fn_merge c : c ∈ vertices g -> merge_commit (dag_graph d1) c <-> merge_commit g c.
Proof. intros Hc. rewrite (ext_merge _ d d1 st fn_wd fn_ext) by (now rewrite G). now rewrite G. Qed.
Lemma fn_above c : c ∈ commits_above_fixes d1 fs <-> c ∉ olds /\ exists o, to_fix (rr_store r) outs o /\ above g (rr_repo r) o c.
Proof.
  unfold commits_above_fixes. fold olds. rewrite elem_of_difference, elem_of_list_to_set, filter_visible_spec, descendants_spec by apply fn_ext. rewrite fn_shown.
  setoid_rewrite elem_of_list_to_set. split.
  - intros [[(o & Ho & An) V] N]. split; [exact N|]. exists o. split; [now apply fn_olds|]. split; [exact V|].
    apply fn_proper; [now apply (shown_known e r R)|]. apply rtc_tc in An. destruct An as [->|An]; [contradiction|exact An].
  - intros (N & o & Ho & V & P). split; [|exact N]. split; [|exact V]. exists o. split; [now apply fn_olds|]. apply tc_rtc, fn_proper; [now apply (shown_known e r R)|exact P].
Qed.
Let al := re_order e (commits_above_fixes d1 fs).
Let l := olds ++ al.
Lemma fn_al c : c ∈ al <-> c ∉ olds /\ exists o, to_fix (rr_store r) outs o /\ above g (rr_repo r) o c.
Proof. unfold al. rewrite (ra_sets e r R), elem_of_elements. apply fn_above. Qed.
Lemma fn_l c : c ∈ l <-> to_fix (rr_store r) outs c \/ exists o, to_fix (rr_store r) outs o /\ above g (rr_repo r) o c.
Proof.
  unfold l. rewrite elem_of_app, fn_al, fn_olds. split; [tauto|]. intros [H|H]; [now left|].
  destruct (decide (c ∈ olds)) as [D|D]; [left; now apply fn_olds|right]. split; [now rewrite <- fn_olds|exact H].
Qed.
Lemma fn_nodup : NoDup l.
Proof.
  apply NoDup_app. split_and!; [apply fn_made|intros c Hc Hc'; apply fn_al in Hc'; apply (proj1 Hc'), Hc|]. unfold al. rewrite (ra_sets e r R). apply NoDup_elements.
Qed.
Lemma fn_lv c : c ∈ l -> c ∈ vertices g.
Proof. intros H. apply fn_l in H. destruct H as [H|(o & _ & V & _)]; [now apply fn_vertex|now apply (shown_known e r R)]. Qed.
Lemma fn_lc c c' : c ∈ l -> visible d1 c' -> proper_ancestor (dag_graph d1) c c' -> c' ∈ l.
Proof.
  intros Hc V P. apply fn_shown in V. apply fn_proper in P; [|now apply (shown_known e r R)]. apply fn_l in Hc. apply fn_l. right.
  destruct Hc as [Hc|(o & Ho & _ & Po)]; [exists c|exists o]; (split; [assumption|]); (split; [exact V|]); [exact P|eapply tc_transitive; eauto].
Qed.
Lemma fn_read c : c ∈ l -> exists x, rr_store r !! c = Some x /\ st !! c = Some x /\ commit_parents (ob_commit x) = parents_of g c.
Proof.
  intros Hc. destruct (ra_store _ _ R c (fn_lv c Hc)) as (x & Hx & Px). exists x. split; [exact Hx|]. split; [|exact Px]. exact (lookup_weaken _ _ _ _ Hx (proj1 fn_made)).
Qed.
Lemma fn_requests :
  (all_requests s d1 fs st = RequestPanics /\ exists c, to_fix (rr_store r) outs c /\ parents_of g c = []) \/
  exists m, all_requests s d1 fs st = Requests (List.map (fun c => MoveSubtree (parents_of (dag_graph d1) c) c) l) m /\
    (forall c, c ∈ l -> parents_of (dag_graph d1) c <> []) /\ (forall c y, m !! c = Some y -> c ∈ l) /\
    forall c, c ∈ l -> exists y x t, m !! c = Some y /\ rr_store r !! c = Some x /\ st !! y = Some (fixed_object x t) /\ contents_after (rr_store r) outs c t.
Proof.
  unfold all_requests, request_fixes. rewrite fixes_ask.
  rewrite (above_asks st (parents_of g)).
  2: { intros c Hc. destruct (fn_read c) as (x & _ & Sx & Px); [|eauto]. unfold l. apply elem_of_app. now right. }
  fold e. fold al. rewrite <- fold_left_app.
  set (items := List.map (fun f => mk_item (fx_old f) (fx_parents f) (fx_new f)) fs ++ List.map (fun c => mk_item c (parents_of g c) c) al).
  assert (Io : List.map it_old items = l).
  { unfold items. rewrite List.map_app, !List.map_map. unfold l, olds. f_equal. cbn. now rewrite List.map_id. }
  assert (Ip : forall x, x ∈ items -> it_parents x = parents_of g (it_old x)).
  { intros x Hx. unfold items in Hx. apply elem_of_app in Hx. destruct Hx as [Hx|Hx]; apply elem_of_list_In, in_map_iff in Hx.
    - destruct Hx as (f & <- & Hf). cbn. apply elem_of_list_In in Hf. now destruct (fn_fix f Hf) as (_ & _ & _ & _ & Ep & _).
    - destruct Hx as (c & <- & _). reflexivity. }
  assert (Ii : forall c, c ∈ l -> exists x, x ∈ items /\ it_old x = c).
  { intros c Hc. rewrite <- Io in Hc. apply elem_of_list_In, in_map_iff in Hc. destruct Hc as (x & E & Hx). exists x. split; [now apply elem_of_list_In|exact E]. }
  assert (Il : forall x, x ∈ items -> it_old x ∈ l) by (intros x Hx; rewrite <- Io; apply elem_of_list_In, in_map, elem_of_list_In, Hx).
  destruct (ask_all items ltac:(rewrite Io; exact fn_nodup) [] ∅ ltac:(intros; apply lookup_empty)) as [(F & x & Hx & Ex)|(m & F & B & C)].
  - left. split; [exact F|]. exists (it_old x). rewrite (Ip x Hx) in Ex. split; [|exact Ex]. apply Il, fn_l in Hx. destruct Hx as [H|(o & _ & V & P)]; [exact H|exfalso].
    apply tc_rtc in P as P'. apply rtc_inv_r in P'. destruct P' as [->|(q & _ & P')]; [exact (wf_acyclic _ _ W P)|].
    apply (parent_parents_of _ _ _ W) in P'. fold e in P'. fold g in P'. rewrite Ex in P'. now apply elem_of_nil in P'.
  - right. exists m. split; [|split; [|split]].
    + rewrite F. cbn [app]. f_equal. rewrite <- Io, List.map_map. apply List.map_ext_in. intros x Hx. apply elem_of_list_In in Hx. rewrite (Ip x Hx).
      now rewrite (fn_parents _ (fn_lv _ (Il x Hx))).
    + intros c Hc. destruct (Ii c Hc) as (x & Hx & <-). rewrite (fn_parents _ (fn_lv _ Hc)), <- (Ip x Hx). apply (B x Hx).
    + intros c y Hc. destruct (decide (c ∈ l)) as [H|H]; [exact H|]. rewrite <- Io in H. rewrite (C c H), lookup_empty in Hc. discriminate.
    + intros c Hc. destruct (Ii c Hc) as (x & Hx & <-). destruct (B x Hx) as [_ Bm]. exists (it_new x). unfold items in Hx. apply elem_of_app in Hx. destruct Hx as [Hx|Hx]; apply elem_of_list_In, in_map_iff in Hx.
      * destruct Hx as (f & <- & Hf). cbn in *. apply elem_of_list_In in Hf. destruct (fn_fix f Hf) as (y & t & Ch & Hy & _ & Sn & _). exists y, t.
        split; [exact Bm|]. split; [exact Hy|]. split; [exact Sn|]. left. exact Ch.
      * destruct Hx as (c & <- & Ha). cbn in *. apply elem_of_list_In in Ha. destruct (fn_read c Hc) as (y & Hy & Sy & _). exists y, (commit_tree (ob_commit y)).
        split; [exact Bm|]. split; [exact Hy|]. split; [now rewrite fixed_same|]. right. split; [|eauto]. rewrite <- fn_olds. apply fn_al in Ha. apply Ha.
Qed.

Lemma fn_to_fix : l <> [] -> exists c, to_fix (rr_store r) outs c.
Proof. intros N. destruct (some_element l N) as [c Hc]. apply fn_l in Hc. destruct Hc as [H|(o & H & _)]; eauto. Qed.
Lemma fn_report rw c x : (forall c, c ∈ l -> is_Some (rw !! c)) -> (c, x) ∈ report fs rw <-> to_fix (rr_store r) outs c /\ rw !! c = Some x.
Proof.
  intros All. unfold report. rewrite elem_of_list_In, in_map_iff. rewrite <- fn_olds. split.
  - intros (f & [= <- <-] & Hf). assert (Ho : fx_old f ∈ olds) by (apply elem_of_list_In, in_map, Hf). split; [exact Ho|].
    destruct (All (fx_old f)) as [y Hy]; [unfold l; apply elem_of_app; now left|]. now rewrite Hy.
  - intros [Hc Hx]. apply elem_of_list_In, in_map_iff in Hc. destruct Hc as (f & <- & Hf). exists f. split; [|exact Hf]. now rewrite Hx.
Qed.
Lemma fn_dry c x : (c, x) ∈ report fs (fixes_map fs) <-> exists t orig n, changes (rr_store r) outs c t /\ rr_store r !! c = Some orig /\
  x = NonZero n /\ st !! n = Some (fixed_object orig t).
Proof.
  assert (Fm : forall f, f ∈ fs -> fixes_map fs !! fx_old f = Some (NonZero (fx_new f))).
  { intros f Hf. unfold fixes_map. apply elem_of_list_to_map_1.
    - unfold fmap. change (@list_fmap) with (@List.map). rewrite List.map_map. apply fn_made.
    - apply elem_of_list_In, in_map_iff. exists f. split; [reflexivity|now apply elem_of_list_In]. }
  unfold report. rewrite elem_of_list_In, in_map_iff. split.
  - intros (f & [= <- <-] & Hf). apply elem_of_list_In in Hf. destruct (fn_fix f Hf) as (y & t & Ch & Hy & _ & Sn & _). exists t, y, (fx_new f). rewrite (Fm f Hf).
    split; [exact Ch|]. split; [exact Hy|]. split; [reflexivity|exact Sn].
  - intros (t & orig & n & Ch & Ho & -> & Sn). assert (Hc : c ∈ olds) by (apply fn_olds; now exists t). apply elem_of_list_In, in_map_iff in Hc. destruct Hc as (f & <- & Hf).
    exists f. split; [|exact Hf]. apply elem_of_list_In in Hf. rewrite (Fm f Hf). cbn. f_equal. f_equal.
    destruct (fn_fix f Hf) as (y & t' & Ch' & Hy & _ & Sn' & _). rewrite Ho in Hy. injection Hy as <-.
    assert (t' = t) as ->.
    { destruct Ch as [L _], Ch' as [L' _]. apply fixed_trees_spec in L, L'. pose proof (fixed_trees_once outs (fa_once _ _ _ _ A)) as Nd.
      exact (TreeOpsProofs.nodup_value _ _ _ _ Nd L' L). }
    destruct fn_made as (_ & Nm & _). rewrite <- (Nm _ _ Sn), <- (Nm _ _ Sn'). reflexivity.
Qed.

Lemma fn_spec : match apply_fixes s ts (TxId i) dry d allowed outs r with mk_fr r' rwo rep en =>
  match en with
  | Fixed => dry = false /\ (exists c, to_fix (rr_store r) outs c) /\ exists rw, rwo = Some rw /\ fixes_done e r outs rw r' /\
      forall c x, (c, x) ∈ rep <-> to_fix (rr_store r) outs c /\ rw !! c = Some x
  | DryRun => dry = true /\ (exists c, to_fix (rr_store r) outs c) /\ rwo = None /\ only_commits r r' /\
      forall c x, (c, x) ∈ rep <-> exists t orig n, changes (rr_store r) outs c t /\ rr_store r !! c = Some orig /\
        x = NonZero n /\ rr_store r' !! n = Some (fixed_object orig t)
  | NoFixes => (forall c, ~ to_fix (rr_store r) outs c) /\ rwo = None /\ only_commits r r'
  | FixPanics => (exists c, to_fix (rr_store r) outs c /\ parents_of g c = []) /\ rwo = None /\ only_commits r r'
  | FixFails | FixExit => ~ (workable e r /\ trees_there s outs)
  | _ => False
  end end.
Proof.
  unfold apply_fixes. rewrite Mk. fold e e1 d1 r2. destruct fn_made as (Gr & Nm & _).
  assert (Oc : only_commits r r2) by (split; [reflexivity|exact Gr]).
  destruct fn_requests as [(-> & Pc)|(m & -> & Lp & Rl & Rx)]; [split; [exact Pc|]; split; [reflexivity|exact Oc]|].
  set (cs := List.map (fun c => MoveSubtree (parents_of (dag_graph d1) c) c) l). set (pe := mk_pe (find_object st) m (re_upstream e) (re_sort e)).
  change (mk_pe (find_object st) m (re_upstream e1) (re_sort e1)) with pe.
  pose proof fn_ext as Ex. assert (Wd : wf_graph (dag_graph d1)) by apply Ex.
  assert (Lv : forall c, c ∈ l -> c ∈ vertices (dag_graph d1)) by (intros c Hc; apply (ex_old _ _ _ _ Ex); rewrite G; now apply fn_lv).
  assert (R2 : restackable e1 r2) by (apply restackable_more; [now apply forced_restackable|exact Gr|exact Nm]).
  assert (Mem : in_memory e1) by (split; [exact Od|right; reflexivity]).
  assert (Kn : knows d1 pe).
  { intros c Hc. destruct (ex_store _ _ _ _ Ex c Hc) as (x & Hx & Px). exists (ob_commit x). cbn. unfold find_object. rewrite Hx. auto. }
  assert (Ry : forall c y, m !! c = Some y -> exists x t, rr_store r !! c = Some x /\ st !! y = Some (fixed_object x t) /\ commit_parents (ob_commit x) = parents_of g c).
  { intros c y Hc. pose proof (Rl c y Hc) as Hl. destruct (Rx c Hl) as (y' & x & t & E & Hx & Sy & _). rewrite Hc in E. injection E as <-. exists x, t.
    split; [exact Hx|]. split; [exact Sy|]. destruct (fn_read c Hl) as (z & Hz & _ & Pz). rewrite Hx in Hz. injection Hz as <-. exact Pz. }
  assert (Rf : forall c y, pe_replace pe !! c = Some y -> exists rc, pe_find pe y = Some rc).
  { cbn. intros c y Hc. destruct (Ry c y Hc) as (x & t & _ & E & _). unfold find_object. rewrite E. eauto. }
  assert (Fit : replacements_fit d1 pe cs).
  { apply (ag_fit d1 l Wd fn_nodup Lv fn_lc Lp). cbn. intros c y rc Hl Hc. destruct (Ry c y Hc) as (x & t & _ & E & Px). unfold find_object. rewrite E. intros [= <-]. cbn.
    rewrite (fn_parents c (fn_lv c Hl)). exact Px. }
  pose proof (ag_plannable d1 l Wd fn_nodup Lv fn_lc Lp pe Rf) as Pl.
  pose proof (ag_clear d1 l) as Cl.
  assert (Kf : forall f, fixed_up cs f -> f ∈ vertices (he_graph (re_hide e1))) by (intros f Hf; destruct (ag_fixed d1 l f Hf)).
  assert (Dom : forall c, rebuilt d1 cs c -> c ∈ vertices (he_graph (re_hide e1))) by (intros c Hc; apply (ag_rebuilt d1 l Wd fn_nodup fn_lc Lp) in Hc; now apply fn_lv).
  destruct (ag_build d1 l Wd fn_nodup Lv fn_lc Lp pe allowed Kn Rf ltac:(intros c Hc; now apply fn_allowed, fn_l)) as [[El Eb]|[Nl (dest & cmds & Eb)]].
  { change (build d1 pe allowed cs = Done BuiltNothing) in Eb. rewrite Eb. split; [|split; [reflexivity|exact Oc]]. intros c Hc.
    assert (X : c ∈ l) by (apply fn_l; now left). rewrite El in X. now apply elem_of_nil in X. }
  change (build d1 pe allowed cs = Done (BuiltPlan dest cmds)) in Eb. rewrite Eb. destruct dry eqn:Edry.
  { split; [reflexivity|]. split; [exact (fn_to_fix Nl)|]. split; [reflexivity|]. split; [exact Oc|exact fn_dry]. }
  destruct (run_plan e1 ts (TxId i) dest cmds r2) as [r' res] eqn:Ern.
  pose proof (plan_ran_any e1 r2 d1 pe cs R2 Mem Wd Dom Kn (ra_sort _ _ R2) Pl Cl Fit Kf ts i allowed dest cmds r' res Eb Ern) as Ran.
  assert (Go : workable e r -> match res with Succeeded _ | DeclinedToMerge _ => True | _ => False end).
  { intros Wk. pose proof (workable_more _ _ _ (forced_workable _ _ Wk) Gr) as Wk1. fold e1 r2 in Wk1.
    assert (Th : forall p, p ∈ vertices g -> there st p).
    { intros p Hp. destruct (wk_read _ _ Wk1 p Hp) as (z & Hz & _). exists z. exact Hz. }
    assert (Tn : forall p c, c ∈ l -> p ∈ parents_of g c -> there st p).
    { intros p c Hc Hp. apply Th. apply (parent_parents_of _ _ _ W) in Hp. now apply (parent_vertices _ _ _ W) in Hp. }
    assert (Rd : forall x, x ∈ vertices (dag_graph d1) -> readable (re_exec e1) (rr_store r2) x).
    { intros x Hx. destruct (ex_new _ _ _ _ Ex x Hx) as [H|H]; [|exact H]. rewrite G in H. exact (wk_read _ _ Wk1 x H). }
    assert (Rr : forall c y, pe_replace pe !! c = Some y -> readable (re_exec e1) (rr_store r2) y /\
      forall rc p, pe_find pe y = Some rc -> p ∈ commit_parents rc -> there (rr_store r2) p).
    { cbn [pe pe_replace]. intros c y Hc. pose proof (Rl c y Hc) as Hl. destruct (Ry c y Hc) as (x & t & Hx & E & Px). split.
      - exists (fixed_object x t). split; [exact E|]. destruct (wk_read _ _ Wk c (fn_lv c Hl)) as (z & Hz & Dz). rewrite Hx in Hz. injection Hz as <-. exact Dz.
      - cbn [pe pe_find r2 rr_store]. unfold find_object. rewrite E. intros rc p [= <-] Hp. cbn in Hp. rewrite Px in Hp. exact (Tn p c Hl Hp). }
    pose proof (plan_runs_any e1 r2 d1 pe cs R2 Mem Wd Dom Kn (ra_sort _ _ R2) Pl Cl Fit Kf ts i allowed dest cmds r' res Wk1 Rd) as Run.
    specialize (Run ltac:(
      intros p c Np; apply (ag_new_parent d1 l Wd fn_nodup fn_lc Lp) in Np; destruct Np as [Hc Hp]; apply (Tn p c Hc);
      apply (parent_parents_of _ _ _ W), fn_parent; [now apply fn_lv|exact Hp]) ltac:(intros c y H; exact H) Rr Eb Ern).
    destruct res; auto. }
  assert (Nst : forall c, res <> DeclinedToMerge c).
  { intros c ->. destruct (run_stop e1 _ _ _ _ _ _ _ Mem Ern) as [st3 Em].
    destruct (rebase_stop_at _ _ _ _ _ _ Em) as (y & o & Hy & Ho'). pose proof (build_unreplaced _ _ _ _ _ _ _ Eb Hy) as Un.
    assert (Ao : o ∈ applies y).
    { pose proof (build_shaped d1 pe allowed cs dest cmds y Wd (ra_sort _ _ R2) Eb Hy) as Sh.
      destruct y; cbn in Ho'; try contradiction; subst; cbn; [apply Sh; now left|left]. }
    destruct (build_applies d1 pe allowed cs dest cmds y o Wd Pl (ra_sort _ _ R2) Eb Hy Ao) as [H|H]; [|destruct (ag_fixed d1 l o H)].
    apply (ag_rebuilt d1 l Wd fn_nodup fn_lc Lp) in H. destruct (Rx o H) as (o' & z & t & E1 & _).
    destruct y; cbn in Ho'; try contradiction; subst; cbn in Un; congruence. }
  destruct res as [rwo|c| |]; [|destruct (Nst c eq_refl)|intros [Wk _]; exact (Go Wk)..].
  destruct Ran as (rw & -> & RN). destruct (rn_out _ _ _ _ _ _ _ RN) as [head CO].
  pose proof (ag_rw d1 l Wd fn_nodup fn_lc Lp _ _ _ _ _ _ CO) as Rw. cbn [default].
  split; [reflexivity|]. split; [exact (fn_to_fix Nl)|]. exists rw. split; [reflexivity|]. split; [|intros c x; apply fn_report; intros c' H; now apply Rw].
  assert (Bc : forall p q, becomes (parent (dag_graph d1)) rw p q -> becomes (parent g) rw p q).
  { intros p q. apply becomes_along. intros p' c' H. apply fn_parent, fn_lv, Rw, H. }
  destruct RN as [N1 N2 N3 N4 N5 N6 N7 N8 N9 N10 N11 N12 N13]. constructor.
  - etransitivity; [exact Gr|exact N1].
  - intros c. rewrite Rw. apply fn_l.
  - intros c y Hc. assert (Hl : c ∈ l) by (apply Rw; eauto). destruct (Rx c Hl) as (z & x & t & E & Hx & Sz & Ca).
    destruct (ag_replaced d1 l Wd fn_nodup Lv fn_lc Lp _ _ _ _ _ _ CO c y z E Hc) as (orig & qs & So & Sy & F2).
    rewrite (lookup_weaken _ _ _ _ Sz N1) in So. injection So as <-. exists x, qs, t. split; [exact Hx|]. split; [exact Ca|]. split; [exact Sy|].
    rewrite (fn_parents c (fn_lv c Hl)) in F2. eapply Forall2_impl; [exact F2|exact Bc].
  - intros c Hc. assert (Hl : c ∈ l) by (apply Rw; eauto). destruct (Rx c Hl) as (z & x & t & E & _).
    destruct (ag_dropped d1 l Wd fn_nodup fn_lc Lp _ _ _ _ _ _ CO c z E Hc) as [NM Up]. split; [|exact Up]. intros M. apply NM, fn_merge; [now apply fn_lv|exact M].
  - exact N3.
  - exact N4.
  - intros h Hh. destruct (N5 h Hh (ag_fixed d1 l h)) as (q & Hq & [L|Mb]); exists q; (split; [exact Hq|]); [left|right; exact Mb].
    apply Bc, (ag_lands d1 l Wd fn_nodup fn_lc Lp _ _ _ _ _ _ CO), L.
  - exact N8.
  - exact N9.
  - exact N10.
  - exact N11.
Qed.
End finish.

(** ** The command *)
Section command.
Context (s : fix_setting) (r : rrepo) (tested : commit_set) (outs : list (oid * outcome)) (ts : timestamp) (i : Z) (dry : bool).
Let e := fs_restack s.
Let g := he_graph (re_hide e).
Hypothesis A : fixable s r tested outs.
Let R : restackable e r := fa_order _ _ _ _ A.
Let W : wf_graph g := io_graph _ _ (ra_order _ _ R).

Lemma fix_public d : open_repo (re_hide e) (rr_repo r) = Some d ->
  verify_rewrite_set d (re_force e) tested = None <-> re_force e = false /\ exists c, c ∈ tested /\ is_public e r c.
Proof.
  intros Op. pose proof (dag_is e r d R Op) as G. assert (Wd : wf_graph (dag_graph d)) by (rewrite G; exact W).
  destruct (io_exists _ _ (ra_order _ _ R)) as [m Hm]. destruct (unmerged_draft e r d m (ra_order _ _ R) Op Hm) as [Pu _].
  rewrite verify_rewrite_set_none by exact Wd. unfold is_public. split; intros [F H]; (split; [exact F|]).
  - destruct H as (a & c & Ha & An & P). exists a. split; [exact Ha|]. exists m. split; [exact Hm|]. apply Pu in P. rewrite G in An. etransitivity; eauto.
  - destruct H as (c & Hc & m' & Hm' & Am). rewrite Hm in Hm'. injection Hm' as <-. exists c, c. split; [exact Hc|]. split; [constructor|now apply Pu].
Qed.
Lemma fix_open : exists d, open_repo (re_hide e) (rr_repo r) = Some d.
Proof. destruct (io_exists _ _ (ra_order _ _ R)) as [m Hm]. unfold open_repo. fold e in Hm. rewrite Hm. eauto. Qed.
Lemma fix_made_fails : make_fixes s (fixed_trees outs) (rr_store r) = None -> ~ (workable e r /\ trees_there s outs).
Proof.
  intros E [Wk Tt]. destruct (make_fixes_works s (fixed_trees outs) (rr_store r)) as [x Hx]; [|congruence].
  intros c t H. apply fixed_trees_spec in H. assert (Hc : c ∈ vertices g). { destruct H as (cached & f & k & H & _). exact (fa_tested _ _ _ _ A _ (fa_outs _ _ _ _ A _ _ H)). }
  destruct (ra_store _ _ R c Hc) as (x & Hx & Px). exists x. split; [exact Hx|]. destruct (wk_read _ _ Wk c Hc) as (y & Hy & Dy).
  rewrite Hx in Hy. injection Hy as <-. split; [exact Dy|]. split; [|exact (Tt c t H)]. intros p Hp. rewrite Px in Hp.
  apply (parent_parents_of _ _ _ W) in Hp. apply (parent_vertices _ _ _ W) in Hp. destruct (ra_store _ _ R p) as (z & Hz & _); [apply Hp|eauto].
Qed.

Lemma fix_ends : match test_fix s ts (TxId i) dry tested outs r with mk_fr r' rwo rep en =>
  match en with
  | OnDiskRefused => re_on_disk e = true /\ r' = r
  | FixesPublic => (re_force e = false /\ exists c, c ∈ tested /\ is_public e r c) /\ r' = r
  | TestsFailed => (exists c x, (c, x) ∈ outs /\ not_passed x) /\ r' = r
  | FixPanics => (exists c, to_fix (rr_store r) outs c /\ parents_of g c = []) /\ rwo = None /\ only_commits r r'
  | NoFixes => (forall c, ~ to_fix (rr_store r) outs c) /\ rwo = None /\ only_commits r r'
  | DryRun => dry = true /\ (exists c, to_fix (rr_store r) outs c) /\ rwo = None /\ only_commits r r' /\
      forall c x, (c, x) ∈ rep <-> exists t orig n, changes (rr_store r) outs c t /\ rr_store r !! c = Some orig /\
        x = NonZero n /\ rr_store r' !! n = Some (fixed_object orig t)
  | Fixed => dry = false /\ (exists c, to_fix (rr_store r) outs c) /\ exists rw, rwo = Some rw /\ fixes_done e r outs rw r' /\
      forall c x, (c, x) ∈ rep <-> to_fix (rr_store r) outs c /\ rw !! c = Some x
  | FixFails | FixExit => ~ (workable e r /\ trees_there s outs)
  | _ => False
  end /\
  (match en with OnDiskRefused => True | _ => re_on_disk e = false end) /\
  (match en with OnDiskRefused | FixesPublic => True | _ => re_force e = false -> forall c, c ∈ tested -> ~ is_public e r c end) /\
  (match en with OnDiskRefused | FixesPublic | TestsFailed => True | _ => forall c x, (c, x) ∈ outs -> ~ not_passed x end) end.
Proof.
  unfold test_fix. fold e. destruct fix_open as [d Op]. rewrite Op. pose proof (fix_public d Op) as Pb.
  destruct (re_on_disk e) eqn:Od; [split_and!; auto|].
  destruct (verify_rewrite_set d (re_force e) tested) as [allowed|] eqn:Vf; [|split; [split; [now apply Pb|reflexivity]|auto]].
  assert (NP : re_force e = false -> forall c, c ∈ tested -> ~ is_public e r c).
  { intros F c Hc P. assert (X : Some allowed = None) by (apply Pb; eauto). discriminate. }
  destruct (all_passed outs) eqn:Ap; [|split; [split; [now apply all_passed_spec|reflexivity]|auto]].
  assert (PS : forall c x, (c, x) ∈ outs -> ~ not_passed x).
  { intros c x H N. assert (X : all_passed outs = false) by (apply all_passed_spec; eauto). congruence. }
  destruct (make_fixes s (fixed_trees outs) (rr_store r)) as [[fs st]|] eqn:Mk.
  - pose proof (fn_spec s r tested outs d ts i dry allowed A Od Op Vf fs st Mk) as Sp. destruct (apply_fixes _ _ _ _ _ _ _ _) as [r' rwo rep en]. split; [|destruct en; auto].
    destruct en; auto; destruct Sp.
  - unfold apply_fixes. rewrite Mk. split; [now apply fix_made_fails|auto].
Qed.
End command.
