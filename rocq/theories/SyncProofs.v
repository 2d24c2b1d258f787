From Verif Require Import Base TextModel EventLogModel EventLogSpec EventLogProofs
  DagModel DagSpec DagProofs DagCompProofs StrModel StrProofs HookModel PlanModel PlanSpec PlanProofs PlanBuildProofs PlanProps
  ExecModel ExecSpec ExecProofs ExecBuildProofs ExecAfterProofs ExecProps HideModel HideSpec HideProofs RestackModel RestackSpec RestackProofs SyncModel SyncSpec.
Local Open Scope string_scope.
Local Open Scope list_scope.

(** ** Stacks *)

Lemma unmerged_draft e r d m : in_order (re_hide e) (rr_repo r) -> open_repo (re_hide e) (rr_repo r) = Some d ->
  hr_refs (rr_repo r) !! he_main (re_hide e) = Some m ->
  (forall o, public d o <-> ancestor (he_graph (re_hide e)) o m) /\
  (forall o, o ∈ draft_commits d <-> unmerged (he_graph (re_hide e)) (rr_repo r) m o).
Proof.
  intros IO Op Hm. destruct (opened_in e r d Op IO) as (G & V & _).
  assert (P : forall o, public d o <-> ancestor (he_graph (re_hide e)) o m).
  { intros o. unfold public. rewrite G. unfold open_repo in Op. rewrite Hm in Op. injection Op as <-. cbn [open_dag main_branch_commit].
    split; [intros (x & Hx & A); apply elem_of_singleton in Hx; now subst|]. intros A. exists m. split; [now apply elem_of_singleton|exact A]. }
  split; [exact P|]. intros o. rewrite draft_spec by (rewrite G; apply (io_graph _ _ IO)). rewrite V, P. reflexivity.
Qed.

Lemma union_list_in (s : list commit_set) x : x ∈ ⋃ s <-> exists t, t ∈ s /\ x ∈ t.
Proof. apply elem_of_union_list. Qed.

Lemma parent_unmerged g r m p o : wf_graph g -> unmerged g r m o -> parent g p o -> ancestor g p m \/ unmerged g r m p.
Proof.
  intros W [(v & A & K) _] P. destruct (decide (is_ancestor g p m = true)) as [E|E].
  - left. now apply is_ancestor_spec in E.
  - right. split; [|rewrite <- is_ancestor_spec by exact W; exact E]. exists v. split; [eapply rtc_l; eauto|exact K].
Qed.
Lemma above_unmerged g r m c o : ~ ancestor g c m -> ancestor g c o -> shown g r o -> unmerged g r m o.
Proof. intros N A V. split; [exact V|]. intros H. apply N. eapply rtc_transitive; eauto. Qed.

Lemma draft_roots_spec e r d m c : in_order (re_hide e) (rr_repo r) -> open_repo (re_hide e) (rr_repo r) = Some d ->
  hr_refs (rr_repo r) !! he_main (re_hide e) = Some m ->
  c ∈ roots (dag_graph d) (draft_commits d) <-> stack_root (he_graph (re_hide e)) (rr_repo r) m c.
Proof.
  intros IO Op Hm. destruct (opened_in e r d Op IO) as (G & V & _). destruct (unmerged_draft e r d m IO Op Hm) as [_ D].
  pose proof (io_graph _ _ IO) as W. rewrite roots_spec, G, D. split.
  - intros [U N]. split; [exact U|]. intros p P. destruct (parent_unmerged _ _ _ _ _ W U P) as [A|A]; [exact A|].
    apply D in A. destruct (N p A P).
  - intros [U N]. split; [exact U|]. intros p Hp P. apply D in Hp. apply Hp, N, P.
Qed.
Lemma stack_roots_spec e r d m sets c : in_order (re_hide e) (rr_repo r) -> open_repo (re_hide e) (rr_repo r) = Some d ->
  hr_refs (rr_repo r) !! he_main (re_hide e) = Some m ->
  c ∈ stack_roots d sets <-> stack_root (he_graph (re_hide e)) (rr_repo r) m c /\ meant_to_sync (he_graph (re_hide e)) sets c.
Proof.
  intros IO Op Hm. destruct (opened_in e r d Op IO) as (G & V & _). pose proof (io_graph _ _ IO) as W.
  assert (R : forall c, c ∈ roots (dag_graph d) (draft_commits d) <-> stack_root (he_graph (re_hide e)) (rr_repo r) m c)
    by (intros; now apply draft_roots_spec).
  unfold stack_roots. destruct sets as [|s0 ss]; [rewrite R; unfold meant_to_sync; tauto|].
  set (sets := s0 :: ss). rewrite roots_spec. unfold range. rewrite G in *. setoid_rewrite elem_of_intersection.
  assert (X : forall o, o ∈ descendants (he_graph (re_hide e)) (roots (he_graph (re_hide e)) (draft_commits d)) <->
     exists c, stack_root (he_graph (re_hide e)) (rr_repo r) m c /\ ancestor (he_graph (re_hide e)) c o).
  { intros o. rewrite descendants_spec by exact W. setoid_rewrite R. reflexivity. }
  assert (Y : forall o, o ∈ ancestors (he_graph (re_hide e)) (⋃ sets) <-> meant_to_sync (he_graph (re_hide e)) sets o).
  { intros o. rewrite ancestors_spec by exact W. unfold meant_to_sync. setoid_rewrite union_list_in. split.
    - intros (x & (t & Ht & Hx) & A). right. eauto.
    - intros [H|(t & x & Ht & Hx & A)]; [discriminate|eauto]. }
  setoid_rewrite X. setoid_rewrite Y. split.
  - intros [[(c' & Rc & A) M] N]. split; [|exact M]. apply rtc_inv_r in A. destruct A as [<-|(p & A & P)]; [exact Rc|].
    exfalso. apply (N p); [|exact P]. split; [eauto|]. destruct M as [M|(t & x & Ht & Hx & B)]; [discriminate|].
    right. exists t, x. split_and!; [exact Ht|exact Hx|eapply rtc_l; eauto].
  - intros [Rc M]. split; [split; [exists c; split; [exact Rc|constructor]|exact M]|].
    intros p [(c' & [[_ N'] _] & A) _] P. destruct Rc as [_ N]. apply N'. eapply rtc_transitive; [exact A|now apply N].
Qed.

Lemma only_one_parent g c p q : wf_graph g -> ~ merge_commit g c -> parent g p c -> parent g q c -> p = q.
Proof.
  intros W N (ps & Hc & Hp) (qs & Hc' & Hq). assert (ps = qs) as <-.
  { rewrite <- (parents_of_spec ∅ g c ps W Hc). apply (parents_of_spec ∅ g c qs W Hc'). }
  destruct ps as [|x [|y ps]].
  - now apply elem_of_nil in Hp.
  - apply elem_of_list_singleton in Hp, Hq. congruence.
  - exfalso. apply N. exists (x :: y :: ps). split; [exact Hc|cbn; lia].
Qed.
(** Different stacks without merges have nothing in common. *)
Lemma stacks_apart g r m c c' o : wf_graph g -> stack_root g r m c -> stack_root g r m c' ->
  (forall x, in_stack g r c x -> ~ merge_commit g x) -> in_stack g r c o -> ancestor g c' o -> c = c'.
Proof.
  intros W Rc Rc' NM [A V] A'. revert V A'. revert o A. apply (rtc_ind_r (fun o => shown g r o -> ancestor g c' o -> c = c')); [intros V A'|intros y o A P IH V A'].
  - apply rtc_inv_r in A'. destruct A' as [->|(p & A' & P)]; [reflexivity|]. exfalso. destruct Rc as [_ N], Rc' as [[_ N'] _].
    apply N'. eapply rtc_transitive; [exact A'|now apply N].
  - assert (Vy : shown g r y) by (destruct V as (v & B & K); exists v; split; [eapply rtc_l; eauto|exact K]).
    apply rtc_inv_r in A'. destruct A' as [->|(p & A' & Q)].
    + exfalso. destruct Rc' as [_ N]. destruct Rc as [[_ N'] _]. apply N'. eapply rtc_transitive; [exact A|now apply N].
    + assert (p = y) as ->; [|now apply IH]. apply (only_one_parent g o); [exact W| |exact Q|exact P].
      apply NM. split; [eapply rtc_r; eauto|exact V].
Qed.

(** ** Putting one stack on top of a commit *)
Section one.
Context (d : dag) (m c : oid).
Let g := dag_graph d.
Let cs := [MoveSubtree [m] c].
Hypothesis W : wf_graph g.
Hypothesis V : visible d c.

Lemma one_in x : x ∈ cs -> x = MoveSubtree [m] c.
Proof. apply elem_of_list_singleton. Qed.
Lemma one_placed x p : placed cs x p <-> x = c /\ p = m.
Proof.
  split.
  - intros (b & ps & a & E & Hp & _). assert (H : MoveSubtree ps x ∈ cs) by (rewrite E; apply elem_of_app; right; left).
    apply one_in in H. injection H as -> ->. apply elem_of_list_singleton in Hp. auto.
  - intros [-> ->]. exists [], [m], []. split; [reflexivity|]. split; [left|constructor].
Qed.
Lemma one_no_gap x p : ~ closes_gap d cs x p.
Proof.
  intros (_ & _ & b & y & a & u & v & E & T & _). assert (H : y ∈ cs) by (rewrite E; apply elem_of_app; right; left).
  apply one_in in H. subst y. destruct T as [T|(t1 & T & _)]; discriminate.
Qed.
Lemma one_requested x : requested d cs x <-> x = c.
Proof.
  split.
  - intros [p [H|H]]; [now apply one_placed in H|destruct (one_no_gap _ _ H)].
  - intros ->. exists m. left. now apply one_placed.
Qed.
Lemma one_target x : ~ fixup_target cs x.
Proof. intros [f H]. apply one_in in H. discriminate. Qed.
Lemma one_fixed x : ~ fixed_up cs x.
Proof. intros [f H]. apply one_in in H. discriminate. Qed.
Lemma one_new_parent p x : new_parent d cs p x <-> (x = c /\ p = m) \/ (x <> c /\ visible d x /\ ancestor g c x /\ parent g p x).
Proof.
  unfold new_parent. rewrite one_placed. split.
  - intros [H|[H|H]]; [auto|destruct (one_no_gap _ _ H)|]. right. destruct H as (N & Vx & P & a & [Ha|Ha] & A); [|destruct (one_target _ Ha)].
    rewrite one_requested in N, Ha. subst a. split_and!; auto. now apply tc_rtc.
  - intros [H|(N & Vx & A & P)]; [auto|]. right. right. split; [now rewrite one_requested|]. split; [exact Vx|]. split; [exact P|].
    exists c. split; [left; now apply one_requested|]. apply rtc_tc in A. destruct A as [A|A]; [congruence|exact A].
Qed.
Lemma one_rebuilt x : rebuilt d cs x <-> ancestor g c x /\ visible d x.
Proof.
  unfold rebuilt, moves. setoid_rewrite one_new_parent. split.
  - intros [[p [[-> ->]|(N & Vx & A & P)]]|H]; [split; [constructor|exact V]|auto|destruct (one_target _ H)].
  - intros [A Vx]. left. destruct (decide (x = c)) as [->|N]; [exists m; auto|].
    apply rtc_inv_r in A as A'. destruct A' as [E|(p & _ & P)]; [congruence|]. exists p. right. auto.
Qed.
Lemma one_rebuilt_on p x : ~ merge_commit g x -> rebuilt_on d cs p x ->
  (x = c /\ p = m) \/ (x <> c /\ visible d x /\ ancestor g c x /\ parent g p x).
Proof.
  intros NM [H|[(H & _)|(H & _)]]; [now apply one_new_parent|destruct (one_target _ H)|destruct (NM H)].
Qed.
Lemma one_fit e : pe_replace e = ∅ -> ~ merge_commit g c -> c ∈ vertices g ->
  plannable d e cs /\ clear_of_fixups d cs /\ replacements_fit d e cs.
Proof.
  intros R NM Hc. destruct (subtrees_fit d e cs W R) as (A & B & C & _); [|auto].
  constructor; [|constructor]. exists m, c. auto.
Qed.

(** It can always be planned when the place is not above the stack. *)
Lemma one_plan e allowed : knows d e -> pe_replace e = ∅ -> ~ merge_commit g c -> c ∈ vertices g -> ~ ancestor g c m ->
  (forall x, ancestor g c x -> x ∈ allowed) -> exists dest cmds, build d e allowed cs = Done (BuiltPlan dest cmds).
Proof.
  intros K R NM Hc NA Al. destruct (one_fit e R NM Hc) as (P & _ & _). apply build_total; auto.
  - intros b x a u v E T. assert (H : x ∈ cs) by (rewrite E; apply elem_of_app; right; left).
    apply one_in in H. subst x. destruct T as [T|(t1 & T & _)]; discriminate.
  - intros [x T].
    (* a cycle has to go through [m], which is not above [c] *)
    assert (Up : forall a b, tc (new_parent d cs) a b -> ancestor g c a -> tc (parent g) a b \/ (a = m)).
    { intros a b T'. induction T' as [a b H|a y b H T' IH]; intros Ha.
      - apply one_new_parent in H. destruct H as [[-> ->]|(_ & _ & _ & P')]; [auto|]. left. now apply tc_once.
      - apply one_new_parent in H. destruct H as [[-> ->]|(_ & _ & A & P')]; [auto|].
        destruct (IH A) as [X| ->]; [left; eapply tc_l; eauto|]. destruct (NA A). }
    assert (B : forall a b, tc (new_parent d cs) a b -> ancestor g c b).
    { intros a b T'. induction T' as [a b H|a y b H T' IH]; [|exact IH].
      apply one_new_parent in H. destruct H as [[-> ->]|(_ & _ & A & _)]; [constructor|exact A]. }
    destruct (Up x x T (B x x T)) as [C| ->]; [exact (wf_acyclic g x W C)|exact (NA (B m m T))].
  - intros x [p H]. apply Al. apply one_new_parent in H. destruct H as [[-> _]|(_ & _ & A & _)]; [constructor|exact A].
  - exists c. apply one_rebuilt. split; [constructor|exact V].
Qed.

(** What it does. *)
Context (e : restack_env) (st : store) (ee : exec_env) (st1 st' : store) (rw : gmap oid moid) (head : option oid).
Hypothesis CO : carried_out d cs (planner e st) ee st1 st' rw head.
Lemma one_rw x : is_Some (rw !! x) <-> ancestor g c x /\ visible d x.
Proof.
  rewrite <- one_rebuilt. split.
  - intros H. destruct (co_rest _ _ _ _ _ _ _ _ CO x H) as [X|X]; [exact X|destruct (one_fixed _ X)].
  - intros H. destruct (co_fate _ _ _ _ _ _ _ _ CO x H (one_fixed x)); eauto.
Qed.
Lemma one_no_merge x : ancestor g c x -> visible d x -> ~ merge_commit g x.
Proof.
  intros A Vx. assert (H : rebuilt d cs x) by (now apply one_rebuilt).
  destruct (co_fate _ _ _ _ _ _ _ _ CO x H (one_fixed x)) as [| |? ? ? ? ? ? X]; [assumption|assumption|].
  cbn in X. now rewrite lookup_empty in X.
Qed.
Lemma one_squash q orig x l y : (forall f, f ∈ l <-> f = x \/ FixUpCommit x f ∈ cs) -> NoDup l -> squashes ee q orig l y ->
  exists tree, ee_pick ee x q = MadeTree tree /\ y = remade ee orig [q] tree.
Proof.
  intros L N S. assert (l = [x]) as ->.
  { assert (L' : forall f, f ∈ l <-> f = x). { intros f. rewrite L. split; [|auto]. intros [H|H]; [exact H|]. apply one_in in H. discriminate. }
    destruct l as [|a [|b l]].
    - destruct (not_elem_of_nil x (proj2 (L' x) eq_refl)).
    - f_equal. apply L'. left.
    - exfalso. apply NoDup_cons in N. destruct N as [N _]. apply N. rewrite (proj1 (L' a)) by left. rewrite <- (proj1 (L' b)) by (right; left). left. }
  inversion S as [c' t Hp E1 E2|l' z c' t S' Ha E1 E2]; subst; [eauto|]. exfalso. destruct l' as [|? [|? ?]]; try discriminate E1. inversion S' as [|[|? ?] ? ? ? ? ? E3]; discriminate E3.
Qed.
Lemma one_made x n : rw !! x = Some (NonZero n) -> exists p q orig tree,
  ((x = c /\ p = m) \/ (x <> c /\ is_Some (rw !! p) /\ parent g p x)) /\ lands d cs rw p q /\ st' !! x = Some orig /\
  ee_pick ee x q = MadeTree tree /\ st' !! n = Some (remade ee orig [q] tree).
Proof.
  intros Hx. assert (A : ancestor g c x /\ visible d x) by (apply one_rw; eauto). assert (Rb : rebuilt d cs x) by (now apply one_rebuilt).
  destruct (co_fate _ _ _ _ _ _ _ _ CO x Rb (one_fixed x)) as [p q Z|p q n' orig l y qx Z NM _ B L Sn Sc _ Hl Nd Sq _|n' rr orig ps qs _ Z'].
  - congruence.
  - rewrite Hx in Z. injection Z as <-. destruct (one_squash q orig x l y Hl (proj1 Nd) Sq) as (tree & Hp & ->).
    exists p, q, orig, tree. split_and!; auto. apply (one_rebuilt_on p x NM) in B. destruct B as [B|(N & Vx & Ax & P)]; [auto|right].
    split_and!; auto. apply one_rw. apply rtc_inv_r in Ax. destruct Ax as [E|(p' & Ax & P')]; [congruence|].
    rewrite (only_one_parent g x p p' W NM P P'). split; [exact Ax|]. eapply visible_closed; [|exact Vx]. now apply rtc_once.
  - cbn in Z'. now rewrite lookup_empty in Z'.
Qed.
Lemma one_dropped x : rw !! x = Some Zero -> exists p q,
  ((x = c /\ p = m) \/ (x <> c /\ is_Some (rw !! p) /\ parent g p x)) /\ lands d cs rw p q /\
  ((exists t, re_upstream e t x = true) \/
   exists tree qx, ee_pick ee x q = MadeTree tree /\ st' !! q = Some qx /\ commit_tree (ob_commit qx) = tree).
Proof.
  intros Hx. assert (A : ancestor g c x /\ visible d x) by (apply one_rw; eauto). assert (Rb : rebuilt d cs x) by (now apply one_rebuilt).
  destruct (co_fate _ _ _ _ _ _ _ _ CO x Rb (one_fixed x)) as [p q Z NM B L Why|p q n' orig l y qx Z|n' rr orig ps qs _ Z'].
  - exists p, q. split; [|split; [exact L|]].
    + apply (one_rebuilt_on p x NM) in B. destruct B as [B|(N & Vx & Ax & P)]; [auto|right].
      split_and!; auto. apply one_rw. apply rtc_inv_r in Ax. destruct Ax as [E|(p' & Ax & P')]; [congruence|].
      rewrite (only_one_parent g x p p' W NM P P'). split; [exact Ax|]. eapply visible_closed; [|exact Vx]. now apply rtc_once.
    + destruct Why as [Up|(_ & orig & qx & l & y & _ & Sq & Hl & Nd & S & T)]; [left; exact Up|right].
      destruct (one_squash q orig x l y Hl (proj1 Nd) S) as (tree & Hp & ->). exists tree, qx. split; [exact Hp|]. split; [exact Sq|]. now symmetry.
  - congruence.
  - cbn in Z'. now rewrite lookup_empty in Z'.
Qed.
End one.

(** ** Running the plan for one stack *)
Record run_done (e : restack_env) (d : dag) (st0 : store) (m c : oid) (r r' : rrepo) (rw : gmap oid moid) : Prop := {
  rd_carried : exists head, carried_out d [MoveSubtree [m] c] (planner e st0) (runner e r) (rr_store r) (rr_store r') rw head;
  rd_named : named (re_exec e) (rr_store r');
  rd_log : (forall n, made rw n -> oid_ok n) -> exists es, hr_log (rr_repo r') = hr_log (rr_repo r) ++ es /\ tells rw es;
  rd_refs : forall n, is_local n = true -> hr_refs (rr_repo r') !! n = branch_after (he_branch (re_hide e)) rw (hr_refs (rr_repo r)) n;
  rd_others : forall n, is_local n = false -> (forall o, n <> gc_name o) -> hr_refs (rr_repo r') !! n = hr_refs (rr_repo r) !! n;
  rd_head : exists h q, hi_oid (hr_head (rr_repo r)) = Some h /\ hi_oid (hr_head (rr_repo r')) = Some q /\
    (lands d [MoveSubtree [m] c] rw h q \/
     (hi_branch (hr_head (rr_repo r)) = Some (he_main (re_hide e)) /\ rw !! h = Some Zero /\
      be_upstream (he_branch (re_hide e)) = Some (Some q)));
  rd_branch : forall n, hi_branch (hr_head (rr_repo r')) = Some n ->
    hi_branch (hr_head (rr_repo r)) = Some n /\ hr_refs (rr_repo r') !! n = hi_oid (hr_head (rr_repo r'));
  rd_stays : forall n, hi_branch (hr_head (rr_repo r)) = Some n -> is_Some (hr_refs (rr_repo r') !! n) ->
    hi_branch (hr_head (rr_repo r')) = Some n }.
Record run_declined (e : restack_env) (r r' : rrepo) : Prop := {
  rc_store : rr_store r ⊆ rr_store r';
  rc_named : named (re_exec e) (rr_store r');
  rc_refs : hr_refs (rr_repo r') = hr_refs (rr_repo r);
  rc_head : hr_head (rr_repo r') = hr_head (rr_repo r);
  rc_log : exists q, hr_log (rr_repo r') = hr_log (rr_repo r) ++ q /\ forall x o, x ∈ q -> ~ concerns x o }.

Lemma run_one e ts i r0 r d m c allowed dest cmds r' res :
  restackable e r0 -> in_memory e -> open_repo (re_hide e) (rr_repo r0) = Some d ->
  c ∈ vertices (dag_graph d) -> ~ merge_commit (dag_graph d) c ->
  named (re_exec e) (rr_store r) -> (exists h, hi_oid (hr_head (rr_repo r)) = Some h) ->
  (forall n, hi_branch (hr_head (rr_repo r)) = Some n -> is_local n = true /\ hr_refs (rr_repo r) !! n = hi_oid (hr_head (rr_repo r))) ->
  (forall x, (ancestor (dag_graph d) c x /\ visible d x) -> oid_ok x) ->
  visible d c ->
  build d (planner e (rr_store r0)) allowed [MoveSubtree [m] c] = Done (BuiltPlan dest cmds) ->
  run_plan e ts (TxId i) dest cmds r = (r', res) ->
  match res with
  | Succeeded rwo => exists rw, rwo = Some rw /\ run_done e d (rr_store r0) m c r r' rw
  | DeclinedToMerge _ => run_declined e r r'
  | _ => True
  end.
Proof.
  intros R [Eo Mem] Op Hc NM Nd [h Hh] HB Ok0 Vc Eb Er.
  pose proof (ra_order _ _ R) as IO. destruct (opened_in e r0 d Op IO) as (G & V & O).
  assert (W : wf_graph (dag_graph d)) by (rewrite G; apply (io_graph _ _ IO)).
  assert (Kn : knows d (planner e (rr_store r0))).
  { intros x Hx. rewrite G in Hx. destruct (ra_store _ _ R x Hx) as (y & Hy & P). exists (ob_commit y). cbn. unfold find_object.
    rewrite Hy. split; [reflexivity|]. now rewrite G. }
  assert (Fn : faithful_names (runner e r)) by exact (ra_faithful _ _ R).
  destruct (one_fit d m c W (planner e (rr_store r0)) eq_refl NM Hc) as (Pl & Cl & Fit).
  unfold run_plan in Er. destruct (execute_plan _ _ _ _ _ _ _ _ _ _ _) as [rp res0] eqn:Ex. injection Er as <- <-.
  rewrite Eo in Ex. pose proof Ex as Ex0. unfold execute_plan in Ex. change (rp_store (start_repo r)) with (rr_store r) in Ex.
  destruct (rebase_in_memory (runner e r) (rr_store r) dest cmds) as [[[st' rw] head]|at_ st'|st'] eqn:Em.
  - (* done *)
    destruct (post_rebase _ _ _ _ _ _) as [r1 ok] eqn:Ep. destruct ok; injection Ex as <- <-; [|exact I].
    exists rw. split; [reflexivity|].
    assert (CO : carried_out d [MoveSubtree [m] c] (planner e (rr_store r0)) (runner e r) (rr_store r) st' rw head).
    { eapply (c30_subtrees d); eauto. - constructor; [|constructor]. exists m, c. auto. - exact (ra_sort _ _ R). }
    assert (Est : rp_store r1 = st').
    { revert Ep. unfold post_rebase. destruct (mr_ok _); intros [= <-]. reflexivity. }
    assert (Nd' : named (re_exec e) st').
    { pose proof (rebase_grows (runner e r) (rr_store r) dest cmds) as Gr. rewrite Em in Gr. exact (proj2 Gr Nd). }
    destruct (post_rebase_refs _ _ _ rw head (ra_tables _ _ R) (ra_iter _ _ R rw) _ _ Ep) as (Refs & _ & Others & _ & Rws).
    cbn [with_store start_repo rp_rewrites rp_refs app] in Rws, Refs, Others.
    constructor.
    + exists head. cbn [after_plan rr_store]. rewrite Est. exact CO.
    + cbn [after_plan rr_store]. now rewrite Est.
    + intros On.
      assert (Ok_ : forall o x, rw !! o = Some x -> oid_ok o /\ moid_ok x).
      { intros o x H. split; [apply Ok0; eapply (one_rw d m c); eauto|]. destruct x as [|n]; [exact I|]. apply On. now exists o. }
      cbn [after_plan rr_repo hr_log]. eexists. split; [reflexivity|].
      apply tells_quiet_app; [|intros x o Hx; eapply hook_events_quiet; exact Hx].
      apply tells_app_quiet; [|intros x o Hx; eapply (ra_quiet _ _ R); exact Hx].
      rewrite rewrite_events_spec.
      2:{ apply Forall_forall. intros [o x] Hp. rewrite Rws in Hp. apply elem_of_map_to_list in Hp. now apply Ok_. }
      split.
      * intros x o Hx _. apply elem_of_list_In, in_map_iff in Hx. destruct Hx as ([o' y] & <- & Hp).
        apply elem_of_list_In in Hp. rewrite Rws in Hp. apply elem_of_map_to_list in Hp. eauto 6.
      * intros old new H. exists ts, (TxId i). apply elem_of_list_In, in_map_iff. exists (old, new). split; [reflexivity|].
        apply elem_of_list_In. rewrite Rws. now apply elem_of_map_to_list.
    + intros n L. cbn [after_plan rr_repo hr_refs]. now apply Refs.
    + intros n L N. cbn [after_plan rr_repo hr_refs]. now apply Others.
    + exists h. cbn [after_plan rr_repo hr_head]. destruct (ra_upstream _ _ R) as [up Hup].
      assert (HBr : forall n, hi_branch (rp_head (start_repo r)) = Some n -> rp_refs (start_repo r) !! n = Some h /\ is_local n = true).
      { intros n Hn. cbn in Hn |- *. destruct (HB n Hn) as [A B]. split; [congruence|exact A]. }
      assert (Hf : hi_oid (checked_out_head r1) = final_head r1) by (unfold checked_out_head, final_head; destruct (rp_checkout r1); reflexivity).
      rewrite Hf.
      destruct (c32_head_partial d (planner e (rr_store r0)) (runner e r) (he_branch (re_hide e)) (he_groups (re_hide e)) (re_iter e) (re_disk e)
        (re_in_memory e) (re_resolve e) allowed [MoveSubtree [m] c] dest cmds (start_repo r) r1 st' rw head h up W Kn Pl Cl Fit (ra_sort _ _ R) Fn Nd
        (ra_tables _ _ R) (ra_iter _ _ R) Hup Eb Em Ex0 Hh Hh HBr (one_fixed m c h)) as [[(q & X1 & X2)|(Y & Z & t & T1 & T2)] _].
      * exists q. split; [exact Hh|]. split; [exact X1|]. left. exact X2.
      * exists t. split; [exact Hh|]. split; [exact T2|]. right. split; [exact Y|]. split; [exact Z|]. now rewrite <- T1.
    + intros n. cbn [after_plan rr_repo hr_head hr_refs]. revert Ep. unfold post_rebase, checked_out_head. cbn [with_store start_repo rp_head].
      destruct (hr_head (rr_repo r)) as [ho hb]. cbn in Hh. subst ho. cbn [hi_oid hi_branch updated_head].
      destruct (mr_ok _); [|discriminate]. intros [= <-]. cbn [rp_checkout rp_head rp_refs]. unfold checkout_of.
      destruct hb as [n0|].
      * destruct (mr_refs _ !! n0).
        -- rewrite decide_False by congruence. intros [= <-]. auto.
        -- destruct (decide _); [now intros [=]|]. destruct head; now intros [=].
      * destruct (rw !! h) as [[|q]|]; (destruct (decide _); [now intros [=]|]); try destruct head; now intros [=].
    + intros n. cbn [after_plan rr_repo hr_head hr_refs]. revert Ep. unfold post_rebase, checked_out_head. cbn [with_store start_repo rp_head].
      destruct (hr_head (rr_repo r)) as [ho hb]. cbn in Hh. subst ho. cbn [hi_oid hi_branch updated_head].
      destruct (mr_ok _); [|discriminate]. intros [= <-] ->. cbn [rp_checkout rp_head rp_refs]. unfold checkout_of.
      intros [x Hx]. cbn [hi_branch]. rewrite Hx. rewrite decide_False by congruence. reflexivity.
  - (* declined *)
    pose proof (rebase_grows (runner e r) (rr_store r) dest cmds) as Gr. rewrite Em in Gr. destruct Gr as [Gr1 Gr2].
    assert (X : rp = with_store st' (start_repo r) /\ res0 = DeclinedToMerge at_).
    { destruct Mem as [Hm|Hm]; rewrite Hm in Ex; cbn [negb] in Ex; [now injection Ex as <- <-|]. destruct (negb (re_resolve e)); now injection Ex as <- <-. }
    destruct X as [-> ->]. constructor; cbn [after_plan with_store start_repo rp_store rp_refs rr_store rr_repo hr_refs hr_head hr_log rp_lines rp_rewrites].
    + exact Gr1.
    + exact (Gr2 Nd).
    + reflexivity.
    + reflexivity.
    + eexists. split; [reflexivity|]. intros x o Hx. apply elem_of_app in Hx. destruct Hx as [Hx|Hx]; [eapply hook_events_quiet; exact Hx|].
      apply elem_of_app in Hx. destruct Hx as [Hx|Hx]; [now apply elem_of_nil in Hx|]. eapply (ra_quiet _ _ R); exact Hx.
  - injection Ex as <- <-. exact I.
Qed.

(** If everything can be read and written, it only stops at a merge or a conflict. *)
Lemma run_one_works e ts i r0 r d m c allowed dest cmds r' res :
  restackable e r0 -> in_memory e -> workable e r0 -> open_repo (re_hide e) (rr_repo r0) = Some d -> m ∈ vertices (dag_graph d) ->
  c ∈ vertices (dag_graph d) -> ~ merge_commit (dag_graph d) c ->
  named (re_exec e) (rr_store r) -> rr_store r0 ⊆ rr_store r ->
  visible d c ->
  build d (planner e (rr_store r0)) allowed [MoveSubtree [m] c] = Done (BuiltPlan dest cmds) ->
  run_plan e ts (TxId i) dest cmds r = (r', res) ->
  match res with
  | Succeeded _ => True
  | DeclinedToMerge x => (ancestor (dag_graph d) c x /\ visible d x) /\
      (merge_commit (dag_graph d) x \/ exists q, ee_pick (re_exec e) x q = Conflict)
  | _ => False
  end.
Proof.
  intros R [Eo Mem] Wk Op Hm Hc NM Nd Sub Vc Eb Er.
  pose proof (ra_order _ _ R) as IO. destruct (opened_in e r0 d Op IO) as (G & V & O).
  assert (W : wf_graph (dag_graph d)) by (rewrite G; apply (io_graph _ _ IO)).
  assert (Kn : knows d (planner e (rr_store r0))).
  { intros x Hx. rewrite G in Hx. destruct (ra_store _ _ R x Hx) as (y & Hy & P). exists (ob_commit y). cbn. unfold find_object.
    rewrite Hy. split; [reflexivity|]. now rewrite G. }
  assert (Fn : faithful_names (runner e r)) by exact (ra_faithful _ _ R).
  destruct (one_fit d m c W (planner e (rr_store r0)) eq_refl NM Hc) as (Pl & Cl & Fit).
  assert (Rd : forall x, x ∈ vertices (dag_graph d) -> readable (runner e r) (rr_store r) x).
  { intros x Hx. rewrite G in Hx. destruct (wk_read _ _ Wk x Hx) as (y & Hy & D). exists y. split; [|exact D]. eapply lookup_weaken; eauto. }
  assert (Pr : present d (planner e (rr_store r0)) (runner e r) [MoveSubtree [m] c] (rr_store r)).
  { constructor.
    - cbn. unfold find_object. intros x y. destruct (rr_store r0 !! x) as [z|] eqn:E; [|discriminate]. now rewrite (lookup_weaken _ _ _ _ E Sub).
    - exact Rd.
    - intros p x Np. apply one_new_parent in Np. assert (Hp : p ∈ vertices (dag_graph d)).
      { destruct Np as [[_ ->]|(_ & _ & _ & P)]; [exact Hm|]. apply (parent_vertices _ _ _ W) in P. apply P. }
      destruct (Rd p Hp) as (y & Hy & _). unfold there. eauto.
    - intros f Hf. destruct (one_fixed _ _ _ Hf).
    - intros x y H. cbn in H. rewrite lookup_empty in H. discriminate. }
  pose proof (build_runs d (planner e (rr_store r0)) (runner e r) allowed _ dest cmds (rr_store r) W Kn Pl Cl Fit (ra_sort _ _ R) Fn Nd Pr (wk_pick _ _ Wk) (wk_amend _ _ Wk) Eb) as Rn.
  assert (single : forall o l, Pick o l ∈ cmds -> l = [o]).
  { intros o l H. destruct (build_shaped d (planner e (rr_store r0)) allowed _ dest cmds _ W (ra_sort _ _ R) Eb H) as [Nl Il].
    assert (S1 : forall f, f ∈ l <-> f = o).
    { intros f. rewrite Il. split; [|auto]. intros [E|E]; [exact E|]. apply one_in in E. discriminate. }
    destruct l as [|a [|b l]].
    - exfalso. assert (X : o ∈ ([] : list oid)) by now apply S1. now apply elem_of_nil in X.
    - f_equal. apply S1. left.
    - exfalso. apply NoDup_cons in Nl. destruct Nl as [Nl _]. apply Nl. rewrite (proj1 (S1 a)) by left. rewrite (proj1 (S1 b)) by (right; left). left. }
  unfold run_plan in Er. destruct (execute_plan _ _ _ _ _ _ _ _ _ _ _) as [rp res0] eqn:Ex. injection Er as <- <-.
  rewrite Eo in Ex. unfold execute_plan in Ex. change (rp_store (start_repo r)) with (rr_store r) in Ex.
  destruct Rn as [([[st' rw] head] & Em)|(x & st' & Em & St)]; rewrite Em in Ex.
  - destruct (post_rebase _ _ _ _ _ _) as [r1 ok] eqn:Ep. assert (ok = true) as ->.
    { revert Ep. unfold post_rebase. rewrite move_branches_go; [congruence|exact (wk_exists _ _ Wk)|exact (wk_write _ _ Wk)|].
      destruct (ra_upstream _ _ R) as [up ->]. discriminate. }
    injection Ex as <- <-. exact I.
  - assert (res0 = DeclinedToMerge x) as ->.
    { destruct Mem as [Hx|Hx]; rewrite Hx in Ex; cbn [negb] in Ex; [now injection Ex as <- <-|]. destruct (negb (re_resolve e)); now injection Ex as <- <-. }
    assert (In : ancestor (dag_graph d) c x /\ visible d x).
    { destruct (rebase_stop _ _ _ _ _ _ Em) as (y & Y1 & Y2).
      destruct (build_applies d (planner e (rr_store r0)) allowed _ dest cmds y x W Pl (ra_sort _ _ R) Eb Y1 Y2) as [Rb|Fx]; [|destruct (one_fixed _ _ _ Fx)].
      now apply (one_rebuilt d m c Vc). }
    split; [exact In|].
    assert (Mc : forall z, rr_store r !! x = Some z -> is_merge (ob_commit z) = true -> merge_commit (dag_graph d) x).
    { intros z Hz Mz. assert (Hx : x ∈ vertices (he_graph (re_hide e))).
      { rewrite <- G. destruct In as [A _]. inversion A as [|? y ? P A']; subst; [exact Hc|]. clear A'.
        apply rtc_inv_r in A. destruct A as [->|(p & _ & P')]; [exact Hc|]. apply (parent_vertices _ _ _ W) in P'. apply P'. }
      destruct (ra_store _ _ R x Hx) as (y & Hy & Py). rewrite (lookup_weaken _ _ _ _ Hy Sub) in Hz. injection Hz as <-.
      unfold is_merge in Mz. rewrite Py in Mz. apply Nat.ltb_lt in Mz.
      assert (E : exists ps, (x, ps) ∈ he_graph (re_hide e)).
      { apply elem_of_list_to_set, elem_of_list_In, in_map_iff in Hx. destruct Hx as ([x' ps] & <- & Hx). exists ps. now apply elem_of_list_In. }
      destruct E as [ps E]. rewrite (parents_of_spec _ _ _ _ (io_graph _ _ IO) E) in Mz. rewrite G. exists ps. auto. }
    destruct (rebase_stop_why _ _ _ _ _ _ (fun o l H => single o l H) Em) as [[ts' Hm']|[(y & Hy & My)|Q]]; [|left|right; exact Q].
    + left. pose proof (build_shaped d (planner e (rr_store r0)) allowed _ dest cmds _ W (ra_sort _ _ R) Eb Hm') as (cm & Hcm & Mm). cbn in Hcm. unfold find_object in Hcm.
      destruct (rr_store r0 !! x) as [z|] eqn:Ez; [|discriminate]. injection Hcm as <-. apply (Mc z); [|exact Mm]. eapply lookup_weaken; eauto.
    + pose proof (rebase_grows (runner e r) (rr_store r) dest cmds) as Gr. rewrite Em in Gr. destruct Gr as [Gr _].
      assert (Hx : exists z, rr_store r !! x = Some z).
      { destruct (Rd x) as (z & Hz & _); [|eauto]. destruct In as [A _]. apply rtc_inv_r in A. destruct A as [->|(p & _ & P')]; [exact Hc|].
        apply (parent_vertices _ _ _ W) in P'. apply P'. }
      destruct Hx as [z Hz]. rewrite (lookup_weaken _ _ _ _ Hz Gr) in Hy. injection Hy as <-. now apply (Mc z).
Qed.

(** ** One stack after the other *)
Lemma became_app l c rw o : became (l ++ [(c, Some rw)]) !! o =
  match became l !! o with Some x => Some x | None => rw !! o end.
Proof.
  induction l as [|[c' [rw'|]] l IH]; cbn [became foldr app snd].
  - rewrite lookup_empty. cbn. now rewrite (right_id_L ∅ (∪)).
  - fold (became l) (became (l ++ [(c, Some rw)])). rewrite !lookup_union. rewrite IH. destruct (rw' !! o), (became l !! o), (rw !! o); reflexivity.
  - exact IH.
Qed.
Lemma became_prefix l l' o x : became l !! o = Some x -> became (l ++ l') !! o = Some x.
Proof.
  induction l as [|[c' [rw'|]] l IH]; cbn [became foldr app snd]; intros H.
  - now rewrite lookup_empty in H.
  - fold (became l) in H. fold (became (l ++ l')). rewrite lookup_union in H |- *. revert H.
    destruct (rw' !! o); [destruct (became l !! o), (became (l ++ l') !! o); intros H; exact H|].
    rewrite !(left_id None _). exact IH.
  - now apply IH.
Qed.

Section loop.
Context (e : restack_env) (r : rrepo) (d : dag) (m : oid).
Let g := he_graph (re_hide e).
Let h := rr_repo r.
Let log := hr_log h.
Hypothesis R : restackable e r.
Hypothesis Mem : in_memory e.
Hypothesis Op : open_repo (re_hide e) h = Some d.
Hypothesis Hm : hr_refs h !! he_main (re_hide e) = Some m.
Hypothesis NoM : forall c, stack_root g h m c -> ~ merge_commit g c.

Lemma dag_is : dag_graph d = g. Proof. apply (opened_in e r d Op (ra_order _ _ R)). Qed.
Lemma shown_is o : visible d o <-> shown g h o. Proof. apply (opened_in e r d Op (ra_order _ _ R)). Qed.
Lemma graph_wf : wf_graph g. Proof. exact (io_graph _ _ (ra_order _ _ R)). Qed.
Lemma shown_known o : shown g h o -> o ∈ vertices g.
Proof.
  intros (v & A & K). assert (Hv : v ∈ vertices g).
  { pose proof (ra_order _ _ R) as IO. destruct K as [K|[K|[s K]]]; [now apply (io_active _ _ IO)|now apply (io_head _ _ IO)|eapply (io_known _ _ IO); eauto]. }
  inversion A as [|x y z P A']; subst; [exact Hv|]. apply (parent_vertices _ _ _ graph_wf) in P. apply P.
Qed.

Record so_far (l : list (oid * option (gmap oid moid))) (r' : rrepo) : Prop := {
  sf_some : forall c o, (c, o) ∈ l -> exists rw, o = Some rw;
  sf_roots : forall c, c ∈ List.map fst l -> stack_root g h m c;
  sf_apart : forall c x, c ∈ List.map fst l -> in_stack g h c x -> ~ merge_commit g x;
  sf_moved : stacks_moved e r m (List.map fst l) (became l) (rr_store r');
  sf_store : rr_store r ⊆ rr_store r';
  sf_named : named (re_exec e) (rr_store r');
  sf_log : exists es, hr_log (rr_repo r') = log ++ es /\ tells (became l) es;
  sf_refs : forall n, is_local n = true -> hr_refs (rr_repo r') !! n = branch_after (he_branch (re_hide e)) (became l) (hr_refs h) n;
  sf_others : forall n, is_local n = false -> (forall o, n <> gc_name o) -> hr_refs (rr_repo r') !! n = hr_refs h !! n;
  sf_head : exists o q, hi_oid (hr_head h) = Some o /\ hi_oid (hr_head (rr_repo r')) = Some q /\
    becomes (onto g m (List.map fst l)) (became l) o q;
  sf_branch : forall n, hi_branch (hr_head (rr_repo r')) = Some n ->
    hi_branch (hr_head h) = Some n /\ hr_refs (rr_repo r') !! n = hi_oid (hr_head (rr_repo r'));
  sf_stays : forall n, hi_branch (hr_head h) = Some n -> is_Some (hr_refs (rr_repo r') !! n) ->
    hi_branch (hr_head (rr_repo r')) = Some n }.

Lemma start_so_far : so_far [] r.
Proof.
  constructor; cbn [List.map became foldr].
  - intros c o H. now apply elem_of_nil in H.
  - intros c H. now apply elem_of_nil in H.
  - intros c x H. now apply elem_of_nil in H.
  - constructor.
    + intros o. rewrite lookup_empty. split; [intros [? [=]]|]. intros (c & Hc & _). now apply elem_of_nil in Hc.
    + intros o n. now rewrite lookup_empty.
    + intros o. now rewrite lookup_empty.
  - reflexivity.
  - exact (ra_named _ _ R).
  - exists []. split; [now rewrite app_nil_r|]. split; [intros x o H; now apply elem_of_nil in H|]. intros old new. now rewrite lookup_empty.
  - intros n L. unfold branch_after. destruct (hr_refs h !! n) as [o|] eqn:E; [|exact E]. rewrite L, lookup_empty. exact E.
  - reflexivity.
  - destruct (ra_head _ _ R) as [o Ho]. exists o, o. split; [exact Ho|]. split; [exact Ho|]. apply becomes_kept, lookup_empty.
  - intros n Hn. split; [exact Hn|]. now apply (io_branch _ _ (ra_order _ _ R)).
  - auto.
Qed.

Section step.
Context (l : list (oid * option (gmap oid moid))) (r1 r2 : rrepo) (c : oid) (rw : gmap oid moid).
Hypothesis S1 : so_far l r1.
Hypothesis Rc : stack_root g h m c.
Hypothesis Nc : c ∉ List.map fst l.
Hypothesis Rd : run_done e d (rr_store r) m c r1 r2 rw.
Let l2 := l ++ [(c, Some rw)].
Hypothesis F : fresh g log (became l2).

Lemma step_visible : visible d c. Proof. apply shown_is. apply Rc. Qed.
Lemma step_wf : wf_graph (dag_graph d). Proof. rewrite dag_is. exact graph_wf. Qed.
Lemma step_rw x : is_Some (rw !! x) <-> in_stack g h c x.
Proof.
  destruct (rd_carried _ _ _ _ _ _ _ _ Rd) as [head CO]. rewrite (one_rw d m c step_visible _ _ _ _ _ _ _ CO), dag_is, shown_is. reflexivity.
Qed.
Lemma step_no_merge x : in_stack g h c x -> ~ merge_commit g x.
Proof.
  destruct (rd_carried _ _ _ _ _ _ _ _ Rd) as [head CO]. intros [A V]. rewrite <- dag_is in A |- *. apply shown_is in V.
  eapply (one_no_merge d m c step_visible); eauto.
Qed.
Lemma step_apart x : is_Some (rw !! x) -> became l !! x = None.
Proof.
  intros H. destruct (became l !! x) eqn:E; [|reflexivity]. exfalso. apply Nc.
  destruct (proj1 (sm_which _ _ _ _ _ _ (sf_moved _ _ S1) x)) as (c' & Hc' & A & _); [eauto|].
  rewrite (stacks_apart g h m c c' x); [exact Hc'|exact graph_wf|exact Rc|now apply (sf_roots _ _ S1)|exact step_no_merge|now apply step_rw|exact A].
Qed.
Lemma step_new o : became l2 !! o = match became l !! o with Some x => Some x | None => rw !! o end.
Proof. apply became_app. Qed.
Lemma step_sub x y : rw !! x = Some y -> became l2 !! x = Some y.
Proof. intros H. rewrite step_new, step_apart by eauto. exact H. Qed.
Lemma step_old x y : became l !! x = Some y -> became l2 !! x = Some y.
Proof. intros H. now rewrite step_new, H. Qed.
Lemma step_roots c' : c' ∈ List.map fst l2 <-> c' ∈ List.map fst l \/ c' = c.
Proof. unfold l2. rewrite map_app, elem_of_app. cbn. rewrite elem_of_list_singleton. reflexivity. Qed.
Lemma root_self c' : c' ∈ List.map fst l -> is_Some (became l !! c').
Proof. intros H. apply (sm_which _ _ _ _ _ _ (sf_moved _ _ S1)). exists c'. split; [exact H|]. split; [constructor|]. apply (sf_roots _ _ S1 c' H). Qed.
Lemma main_out : rw !! m = None.
Proof.
  destruct (rw !! m) eqn:E; [|reflexivity]. exfalso. assert (H : in_stack g h c m) by (apply step_rw; eauto). apply (proj2 (proj1 Rc)), H.
Qed.
Lemma main_out_old : became l !! m = None.
Proof.
  destruct (became l !! m) eqn:E; [|reflexivity]. exfalso.
  destruct (proj1 (sm_which _ _ _ _ _ _ (sf_moved _ _ S1) m)) as (c' & Hc' & A & _); [eauto|].
  apply (proj2 (proj1 (sf_roots _ _ S1 c' Hc'))), A.
Qed.
Lemma main_out_new : became l2 !! m = None. Proof. rewrite step_new, main_out_old. exact main_out. Qed.
Lemma old_shown o : is_Some (became l !! o) -> shown g h o.
Proof. intros H. apply (sm_which _ _ _ _ _ _ (sf_moved _ _ S1)) in H. destruct H as (c' & _ & _ & V). exact V. Qed.

(** What commits of other stacks go onto is not in this one. *)
Lemma onto_out p o : is_Some (became l !! o) -> onto g m (List.map fst l) p o -> rw !! p = None.
Proof.
  intros Ho [[_ ->]|[No P]]; [exact main_out|]. destruct (rw !! p) eqn:E; [|reflexivity]. exfalso.
  assert (Hp : in_stack g h c p) by (apply step_rw; eauto). assert (X : is_Some (rw !! o)).
  { apply step_rw. split; [eapply rtc_r; [apply Hp|exact P]|now apply old_shown]. }
  apply step_apart in X. rewrite X in Ho. destruct Ho as [? [=]].
Qed.
Lemma onto_old p o : is_Some (became l !! o) -> onto g m (List.map fst l) p o -> onto g m (List.map fst l2) p o.
Proof.
  intros Ho [[Hl ->]|[No P]]; [left; split; [apply step_roots; auto|reflexivity]|]. right. split; [|exact P].
  rewrite step_roots. intros [H| ->]; [auto|]. assert (X : is_Some (rw !! c)) by (apply step_rw; split; [constructor|apply Rc]).
  apply step_apart in X. rewrite X in Ho. destruct Ho as [? [=]].
Qed.
Lemma becomes_old p q : becomes (onto g m (List.map fst l)) (became l) p q -> rw !! p = None ->
  becomes (onto g m (List.map fst l2)) (became l2) p q.
Proof.
  induction 1 as [p H|p q H|p p' q H O B IH]; intros N.
  - apply becomes_kept. now rewrite step_new, H.
  - apply becomes_new. now apply step_old.
  - eapply becomes_dropped; [now apply step_old|apply onto_old; [eauto|exact O]|]. apply IH. eapply onto_out; [|exact O]. eauto.
Qed.
Lemma onto_new p x : is_Some (rw !! x) -> (x = c /\ p = m) \/ (x <> c /\ parent g p x) -> onto g m (List.map fst l2) p x.
Proof.
  intros Hx [[-> ->]|[N P]]; [left; split; [apply step_roots; auto|reflexivity]|]. right. split; [|exact P].
  rewrite step_roots. intros [H|H]; [|auto]. apply root_self in H. apply step_apart in Hx. rewrite Hx in H. destruct H as [? [=]].
Qed.
Lemma lands_becomes p q : lands d [MoveSubtree [m] c] rw p q -> p = m \/ is_Some (rw !! p) ->
  becomes (onto g m (List.map fst l2)) (became l2) p q.
Proof.
  induction 1 as [p H|p q H|p p' q H B L IH]; intros Hp.
  - destruct Hp as [->|[? Hp]]; [|congruence]. apply becomes_kept, main_out_new.
  - apply becomes_new. now apply step_sub.
  - assert (Hs : in_stack g h c p) by (apply step_rw; eauto). pose proof (step_no_merge p Hs) as NM.
    rewrite <- dag_is in NM. apply (one_rebuilt_on d m c p' p NM) in B.
    apply (becomes_dropped _ _ p p' q); [apply step_sub, H| |].
    + apply onto_new; [eauto|]. destruct B as [B|(N & _ & _ & P)]; [auto|right]. rewrite dag_is in P. auto.
    + apply IH. destruct B as [[_ ->]|(N & V & A & P)]; [auto|right]. apply step_rw. rewrite dag_is in *.
      apply rtc_inv_r in A. destruct A as [E|(p2 & A & P2)]; [congruence|]. rewrite (only_one_parent g p p' p2 graph_wf NM P P2).
      split; [exact A|]. destruct (proj2 Hs) as (v & Av & Kv). exists v. split; [eapply rtc_l; [exact P2|exact Av]|exact Kv].
Qed.
Lemma lands_out p q : lands d [MoveSubtree [m] c] rw p q -> rw !! p = None -> q = p.
Proof. intros H N. inversion H; congruence. Qed.
Lemma new_out n : made (became l2) n -> rw !! n = None.
Proof.
  intros M. destruct (rw !! n) eqn:E; [|reflexivity]. exfalso. destruct (F n M) as (_ & X & _). apply X, shown_known.
  assert (H : in_stack g h c n) by (apply step_rw; eauto). apply H.
Qed.
Lemma becomes_twice o q0 q : becomes (onto g m (List.map fst l)) (became l) o q0 -> lands d [MoveSubtree [m] c] rw q0 q ->
  becomes (onto g m (List.map fst l2)) (became l2) o q.
Proof.
  intros B L. induction B as [p H|p q1 H|p p' q1 H O B IH].
  - destruct (rw !! p) eqn:E; [apply lands_becomes; eauto|]. pose proof E as E2. apply (lands_out _ _ L) in E as ->. apply becomes_kept. rewrite step_new, H.
    exact E2.
  - assert (M : made (became l2) q1) by (exists p; now apply step_old). apply new_out in M. apply (lands_out _ _ L) in M as ->.
    apply becomes_new. now apply step_old.
  - eapply becomes_dropped; [now apply step_old|apply onto_old; [eauto|exact O]|]. now apply IH.
Qed.

Lemma step_so_far : so_far l2 r2.
Proof.
  destruct (rd_carried _ _ _ _ _ _ _ _ Rd) as [head CO].
  pose proof (co_store _ _ _ _ _ _ _ _ CO) as Grow.
  assert (Old : forall x y, rr_store r2 !! x = Some y -> x ∈ vertices g -> rr_store r !! x = Some y).
  { intros x y Hx Hv. destruct (ra_store _ _ R x Hv) as (z & Hz & _).
    pose proof (lookup_weaken _ _ _ _ (lookup_weaken _ _ _ _ Hz (sf_store _ _ S1)) Grow). congruence. }
  constructor.
  - intros c' o H. apply elem_of_app in H. destruct H as [H|H]; [now apply (sf_some _ _ S1 c')|]. apply elem_of_list_singleton in H.
    injection H as -> ->. eauto.
  - intros c' H. apply step_roots in H. destruct H as [H| ->]; [now apply (sf_roots _ _ S1)|exact Rc].
  - intros c' x H. apply step_roots in H. destruct H as [H| ->]; [now apply (sf_apart _ _ S1)|exact (step_no_merge x)].
  - constructor.
    + intros o. split.
      * intros [y H]. rewrite step_new in H. destruct (became l !! o) eqn:E.
        -- destruct (proj1 (sm_which _ _ _ _ _ _ (sf_moved _ _ S1) o)) as (c' & Hc' & X); [eauto|]. exists c'. split; [apply step_roots; auto|exact X].
        -- exists c. split; [apply step_roots; auto|]. apply step_rw. eauto.
      * intros (c' & Hc' & X). apply step_roots in Hc'. destruct Hc' as [Hc'| ->].
        -- destruct (proj2 (sm_which _ _ _ _ _ _ (sf_moved _ _ S1) o)) as [y Hy]; [eauto|]. exists y. now apply step_old.
        -- apply step_rw in X. destruct X as [y Hy]. exists y. now apply step_sub.
    + intros o n H. rewrite step_new in H. destruct (became l !! o) as [y|] eqn:E.
      * injection H as ->. destruct (sm_made _ _ _ _ _ _ (sf_moved _ _ S1) o n E) as (p & q & orig & tree & O & B & So & Pk & Sn).
        exists p, q, orig, tree. split_and!; auto.
        -- apply onto_old; eauto.
        -- apply becomes_old; [exact B|]. eapply onto_out; [|exact O]. eauto.
        -- now apply (lookup_weaken _ _ _ _ Sn Grow).
      * destruct (one_made d m c step_wf step_visible _ _ _ _ _ _ _ CO o n H) as (p & q & orig & tree & O & L & So & Pk & Sn).
        assert (Hs : in_stack g h c o) by (apply step_rw; exists (NonZero n); exact H).
        exists p, q, orig, tree. split_and!; auto.
        -- apply onto_new; [now apply step_rw|]. destruct O as [O|(N & _ & P)]; [auto|right]. rewrite dag_is in P. auto.
        -- apply lands_becomes; [exact L|]. destruct O as [[_ O]|(N & O & P)]; auto.
        -- apply Old; [exact So|]. apply shown_known, Hs.
    + intros o H. rewrite step_new in H. destruct (became l !! o) as [y|] eqn:E.
      * injection H as ->. destruct (sm_dropped _ _ _ _ _ _ (sf_moved _ _ S1) o E) as (p & q & O & B & Why).
        exists p, q. split_and!.
        -- apply onto_old; eauto.
        -- apply becomes_old; [exact B|]. eapply onto_out; [|exact O]. eauto.
        -- destruct Why as [Why|(tree & qx & A & B' & C)]; [auto|right]. exists tree, qx. split_and!; auto. now apply (lookup_weaken _ _ _ _ B' Grow).
      * destruct (one_dropped d m c step_wf step_visible _ _ _ _ _ _ _ CO o H) as (p & q & O & L & Why).
        assert (Hs : in_stack g h c o) by (apply step_rw; exists Zero; exact H).
        exists p, q. split_and!.
        -- apply onto_new; [now apply step_rw|]. destruct O as [O|(N & _ & P)]; [auto|right]. rewrite dag_is in P. auto.
        -- apply lands_becomes; [exact L|]. destruct O as [[_ O]|(N & O & P)]; auto.
        -- exact Why.
  - etransitivity; [apply (sf_store _ _ S1)|exact Grow].
  - exact (rd_named _ _ _ _ _ _ _ _ Rd).
  - destruct (sf_log _ _ S1) as (es & E1 & T1). destruct (rd_log _ _ _ _ _ _ _ _ Rd) as (es2 & E2 & T2).
    { intros n [x Hx]. apply F. exists x. now apply step_sub. }
    exists (es ++ es2). split; [now rewrite E2, E1, app_assoc|]. split.
    + intros x o Hx C. apply elem_of_app in Hx. destruct Hx as [Hx|Hx].
      * destruct (proj1 T1 x o Hx C) as (ts & tx & old & new & H & ->). exists ts, tx, old, new. split; [now apply step_old|reflexivity].
      * destruct (proj1 T2 x o Hx C) as (ts & tx & old & new & H & ->). exists ts, tx, old, new. split; [now apply step_sub|reflexivity].
    + intros old new H. rewrite step_new in H. destruct (became l !! old) as [y|] eqn:E.
      * injection H as ->. destruct (proj2 T1 old new E) as (ts & tx & H). exists ts, tx. apply elem_of_app. auto.
      * destruct (proj2 T2 old new H) as (ts & tx & H'). exists ts, tx. apply elem_of_app. auto.
  - intros n L. rewrite (rd_refs _ _ _ _ _ _ _ _ Rd n L). unfold branch_after at 1. rewrite (sf_refs _ _ S1 n L). unfold branch_after.
    destruct (hr_refs h !! n) as [o|] eqn:E; [|reflexivity]. rewrite L, step_new. destruct (became l !! o) as [[|o']|] eqn:Eo.
    + destruct (decide (n = be_main (he_branch (re_hide e)))) as [->|N]; [|reflexivity]. exfalso.
      change (be_main (he_branch (re_hide e))) with (he_main (re_hide e)) in E. rewrite Hm in E. injection E as <-. rewrite main_out_old in Eo. discriminate.
    + rewrite new_out; [reflexivity|]. exists o. now apply step_old.
    + reflexivity.
  - intros n L N. rewrite (rd_others _ _ _ _ _ _ _ _ Rd n L N). now apply (sf_others _ _ S1).
  - destruct (sf_head _ _ S1) as (o & q0 & H0 & H1 & B). destruct (rd_head _ _ _ _ _ _ _ _ Rd) as (q0' & q & H1' & H2 & [La|(Hb & Z & _)]).
    + assert (q0' = q0) as -> by congruence. exists o, q. split; [exact H0|]. split; [exact H2|]. eapply becomes_twice; eauto.
    + exfalso. destruct (sf_branch _ _ S1 _ Hb) as [_ X]. rewrite (sf_refs _ _ S1) in X.
      2:{ apply (ra_local _ _ R). apply (sf_branch _ _ S1 _ Hb). }
      unfold branch_after in X. rewrite Hm in X. rewrite main_out_old in X.
      assert (q0' = m) as ->. { destruct (is_local _) in X; congruence. } rewrite main_out in Z. discriminate.
  - intros n Hn. destruct (rd_branch _ _ _ _ _ _ _ _ Rd n Hn) as [A B]. split; [|exact B]. now apply (sf_branch _ _ S1).
  - intros n Hn Hs. apply (rd_stays _ _ _ _ _ _ _ _ Rd n); [|exact Hs]. apply (sf_stays _ _ S1 n Hn).
    rewrite (rd_refs _ _ _ _ _ _ _ _ Rd n (ra_local _ _ R n Hn)) in Hs. unfold branch_after in Hs.
    destruct (hr_refs (rr_repo r1) !! n); [eauto|destruct Hs as [? [=]]].
Qed.
End step.

Lemma declined_so_far l r1 r2 : so_far l r1 -> run_declined e r1 r2 -> so_far l r2.
Proof.
  intros S Rd. destruct S as [A1 A2 A3 A4 A5 A6 (es & A7 & T) A8 A9 A10 A11 A12]. destruct Rd as [B1 B2 B3 B4 (q & B5 & Q)].
  constructor; try assumption.
  - destruct A4 as [C1 C2 C3]. constructor; [exact C1| |].
    + intros o n H. destruct (C2 o n H) as (p & q' & orig & tree & X1 & X2 & X3 & X4 & X5). exists p, q', orig, tree. split_and!; auto.
      now apply (lookup_weaken _ _ _ _ X5 B1).
    + intros o H. destruct (C3 o H) as (p & q' & X1 & X2 & [X3|(tree & qx & X4 & X5 & X6)]); exists p, q'; split_and!; auto.
      right. exists tree, qx. split_and!; auto. now apply (lookup_weaken _ _ _ _ X5 B1).
  - now transitivity (rr_store r1).
  - exists (es ++ q). split; [now rewrite B5, A7, app_assoc|]. now apply tells_app_quiet.
  - intros n L. rewrite B3. now apply A8.
  - intros n L N. rewrite B3. now apply A9.
  - now rewrite B4.
  - intros n. rewrite B3, B4. apply A11.
  - intros n. rewrite B3, B4. apply A12.
Qed.
End loop.

Lemma execute_plans_prefix e ts tx plans : forall s, exists more, sy_done (execute_plans e ts tx plans s) = sy_done s ++ more.
Proof.
  induction plans as [|[c p] plans IH]; intros s; cbn [execute_plans]; [exists []; now rewrite app_nil_r|].
  destruct (rr_store (sy_repo s) !! c); [|exists []; now rewrite app_nil_r].
  destruct p as [[dest cmds]|].
  - destruct (run_plan e ts tx dest cmds (sy_repo s)) as [r' [rw|at_| |]]; try (exists []; now rewrite app_nil_r).
    + destruct (IH (mk_sr r' (sy_done s ++ [(c, rw)]) (sy_failed s) (sy_skipped s) true)) as [more ->]. cbn [sy_done].
      exists ((c, rw) :: more). now rewrite <- app_assoc.
    + destruct (IH (mk_sr r' (sy_done s) (sy_failed s ++ [(c, at_)]) (sy_skipped s) true)) as [more ->]. now exists more.
  - destruct (IH (mk_sr (sy_repo s) (sy_done s) (sy_failed s) (sy_skipped s ++ [c]) true)) as [more ->]. now exists more.
Qed.
Lemma fresh_prefix g log l l' : fresh g log (became (l ++ l')) -> fresh g log (became l).
Proof. intros F n [o H]. apply F. exists o. now apply became_prefix. Qed.


Section stacks.
Context (e : restack_env) (r : rrepo) (d : dag) (m : oid).
Let g := he_graph (re_hide e).
Let h := rr_repo r.
Let log := hr_log h.
Hypothesis SC : syncable e r m.
Hypothesis Op : open_repo (re_hide e) h = Some d.
Let R : restackable e r := sc_order _ _ _ SC.
Let Hm : hr_refs h !! he_main (re_hide e) = Some m := sc_main _ _ _ SC.

Definition plan_of (allowed : commit_set) (c : oid) (p : option (oid * list command)) : Prop :=
  match p with
  | Some (dest, cmds) => build d (planner e (rr_store r)) allowed [MoveSubtree [m] c] = Done (BuiltPlan dest cmds)
  | None => True
  end.

Lemma loop_spec ts i allowed plans : forall s,
  so_far e r m (sy_done s) (sy_repo s) -> (forall c p, (c, p) ∈ plans -> stack_root g h m c /\ plan_of allowed c p) ->
  NoDup (List.map fst (sy_done s) ++ List.map fst plans) ->
  let s' := execute_plans e ts (TxId i) plans s in
  (sy_ok s' = true \/ plans = []) -> fresh g log (became (sy_done s')) ->
  so_far e r m (sy_done s') (sy_repo s') /\
  Permutation (handled s') (handled s ++ List.map fst plans) /\
  (forall c, c ∈ sy_skipped s' <-> c ∈ sy_skipped s \/ (c, None) ∈ plans) /\
  (forall c, c ∈ List.map fst (sy_done s') -> c ∈ List.map fst (sy_done s) \/ exists p, (c, Some p) ∈ plans) /\
  (forall c, c ∈ List.map fst (sy_failed s') -> c ∈ List.map fst (sy_failed s) \/ exists p, (c, Some p) ∈ plans).
Proof.
  induction plans as [|[c p] plans IH]; intros s S P Nd s' Ok_ F.
  { cbn in s'. subst s'. split; [exact S|]. split; [now rewrite app_nil_r|]. split; [|auto].
    intros c. split; [auto|]. intros [H|H]; [exact H|now apply elem_of_nil in H]. }
  destruct Ok_ as [Ok_|Ok_]; [|discriminate]. subst s'. cbn [execute_plans] in Ok_, F |- *.
  destruct (P c p) as [Rc Pc]; [left|].
  assert (P' : forall c' p', (c', p') ∈ plans -> stack_root g h m c' /\ plan_of allowed c' p') by (intros; apply P; now right).
  assert (IHok : forall t, sy_ok (execute_plans e ts (TxId i) plans t) = true -> sy_ok (execute_plans e ts (TxId i) plans t) = true \/ plans = []) by auto.
  destruct (rr_store (sy_repo s) !! c) as [?obj|]; [|discriminate].
  destruct p as [[dest cmds]|].
  - destruct (run_plan e ts (TxId i) dest cmds (sy_repo s)) as [r' res] eqn:Er.
    assert (Vc : shown g h c) by apply Rc.
    assert (G : dag_graph d = g) by (apply (dag_is e r d); assumption).
    assert (Sh : forall o, visible d o <-> shown g h o) by (intros ?; apply (shown_is e r d); assumption).
    assert (One : match res with
                  | Succeeded rwo => exists rw, rwo = Some rw /\ run_done e d (rr_store r) m c (sy_repo s) r' rw
                  | DeclinedToMerge _ => run_declined e (sy_repo s) r'
                  | _ => True
                  end).
    { eapply (run_one e ts i r (sy_repo s) d m c allowed dest cmds); eauto.
      - exact (sc_memory _ _ _ SC).
      - rewrite G. now apply (shown_known e r).
      - rewrite G. now apply (sc_merge _ _ _ SC).
      - exact (sf_named _ _ _ _ _ S).
      - destruct (sf_head _ _ _ _ _ S) as (o & q & _ & X & _). eauto.
      - intros n Hn. destruct (sf_branch _ _ _ _ _ S n Hn) as [A B]. split; [now apply (ra_local _ _ R)|exact B].
      - intros x [_ V]. apply (ra_oids _ _ R), (shown_known e r); [exact R|]. now apply Sh.
      - now apply Sh. }
    destruct res as [rwo|at_| |]; try discriminate.
    + destruct One as (rw & -> & Rd).
      destruct (IH (mk_sr r' (sy_done s ++ [(c, Some rw)]) (sy_failed s) (sy_skipped s) true)) as (A & B & C & D & E).
      * cbn [sy_done sy_repo]. eapply (step_so_far e r d m); eauto.
        -- rewrite NoDup_app in Nd. intros H. destruct Nd as (_ & Nd & _). apply (Nd c H). left.
        -- destruct (execute_plans_prefix e ts (TxId i) plans (mk_sr r' (sy_done s ++ [(c, Some rw)]) (sy_failed s) (sy_skipped s) true)) as [more Em].
           rewrite Em in F. eapply fresh_prefix. exact F.
      * exact P'.
      * cbn [sy_done]. rewrite map_app, <- app_assoc. exact Nd.
      * auto.
      * exact F.
      * split; [exact A|]. split; [|split; [|split]].
        -- rewrite B. unfold handled. cbn [sy_done sy_failed sy_skipped]. rewrite !map_app. cbn [List.map fst app].
           rewrite <- !app_assoc. cbn [app]. apply Permutation_app_head. rewrite !app_assoc. rewrite <- Permutation_middle.
           rewrite <- !app_assoc. reflexivity.
        -- intros c'. rewrite C. cbn [sy_skipped]. rewrite elem_of_cons. split; [intros [H|H]; auto|]. intros [H|[H|H]]; [auto|discriminate|auto].
        -- intros c' H. apply D in H. cbn [sy_done] in H. rewrite map_app, elem_of_app in H. destruct H as [[H|H]|[p H]]; [auto| |].
           ++ cbn in H. apply elem_of_list_singleton in H. subst c'. right. eexists. left.
           ++ right. exists p. now right.
        -- intros c' H. apply E in H. destruct H as [H|[p H]]; [auto|]. right. exists p. now right.
    + destruct (IH (mk_sr r' (sy_done s) (sy_failed s ++ [(c, at_)]) (sy_skipped s) true)) as (A & B & C & D & E).
      * cbn [sy_done sy_repo]. eapply (declined_so_far e r m); eauto.
      * exact P'.
      * cbn [sy_done]. rewrite NoDup_app in Nd |- *. destruct Nd as (N1 & N2 & N3). cbn [List.map fst] in N2, N3. apply NoDup_cons in N3.
        split; [exact N1|]. split; [|apply N3]. intros x Hx Hx'. apply (N2 x Hx). now right.
      * auto.
      * exact F.
      * split; [exact A|]. split; [|split; [|split]].
        -- rewrite B. unfold handled. cbn [sy_done sy_failed sy_skipped]. rewrite !map_app. cbn [List.map fst app].
           rewrite <- !app_assoc. cbn [app]. apply Permutation_app_head, Permutation_app_head. rewrite <- Permutation_middle. reflexivity.
        -- intros c'. rewrite C. cbn [sy_skipped]. rewrite elem_of_cons. split; [intros [H|H]; auto|]. intros [H|[H|H]]; [auto|discriminate|auto].
        -- intros c' H. apply D in H. destruct H as [H|[p H]]; [auto|]. right. exists p. now right.
        -- intros c' H. apply E in H. cbn [sy_failed] in H. rewrite map_app, elem_of_app in H. destruct H as [[H|H]|[p H]]; [auto| |].
           ++ cbn in H. apply elem_of_list_singleton in H. subst c'. right. eexists. left.
           ++ right. exists p. now right.
  - destruct (IH (mk_sr (sy_repo s) (sy_done s) (sy_failed s) (sy_skipped s ++ [c]) true)) as (A & B & C & D & E).
    + exact S.
    + exact P'.
    + cbn [sy_done]. rewrite NoDup_app in Nd |- *. destruct Nd as (N1 & N2 & N3). cbn [List.map fst] in N2, N3. apply NoDup_cons in N3.
      split; [exact N1|]. split; [|apply N3]. intros x Hx Hx'. apply (N2 x Hx). now right.
    + auto.
    + exact F.
    + split; [exact A|]. split; [|split; [|split]].
      * rewrite B. unfold handled. cbn [sy_done sy_failed sy_skipped List.map fst]. rewrite <- !app_assoc. cbn [app]. reflexivity.
      * intros c'. rewrite C. cbn [sy_skipped]. rewrite elem_of_app, elem_of_list_singleton, elem_of_cons. split.
        -- intros [[H| ->]|H]; auto.
        -- intros [H|[[= ->]|H]]; auto.
      * intros c' H. apply D in H. destruct H as [H|[p H]]; [auto|]. right. exists p. now right.
      * intros c' H. apply E in H. destruct H as [H|[p H]]; [auto|]. right. exists p. now right.
Qed.

Lemma stack_known c : stack_root g h m c -> c ∈ vertices (dag_graph d) /\ ~ merge_commit (dag_graph d) c /\ visible d c /\ ~ ancestor (dag_graph d) c m.
Proof.
  intros Rc. rewrite (dag_is e r d R Op). split_and!.
  - apply (shown_known e r R). apply Rc.
  - now apply (sc_merge _ _ _ SC).
  - apply (shown_is e r d R Op), Rc.
  - apply Rc.
Qed.
Lemma planner_knows : knows d (planner e (rr_store r)).
Proof.
  intros x Hx. rewrite (dag_is e r d R Op) in Hx. destruct (ra_store _ _ R x Hx) as (y & Hy & P). exists (ob_commit y). cbn. unfold find_object.
  rewrite Hy. split; [reflexivity|]. now rewrite (dag_is e r d R Op).
Qed.
(** Plans are made for all stacks except those already in place. *)
Lemma plan_stack_spec allowed c : stack_root g h m c -> (forall x, ancestor g c x -> x ∈ allowed) ->
  exists p, plan_stack e d (rr_store r) allowed m c = Some p /\ plan_of allowed c p /\ (p = None <-> parents_of g c = [m]).
Proof.
  intros Rc Al. destruct (stack_known c Rc) as (Hc & NM & Vc & Na). pose proof (dag_is e r d R Op) as G.
  unfold plan_stack. destruct (ra_store _ _ R c) as (x & Hx & Hp); [now rewrite <- G|]. rewrite Hx, Hp. fold g.
  destruct (decide (parents_of g c = [m])) as [E|E]; [exists None; split; [reflexivity|split; [exact I|tauto]]|].
  destruct (one_plan d m c (eq_ind_r wf_graph (graph_wf e r R) G) Vc (planner e (rr_store r)) allowed planner_knows eq_refl NM Hc Na) as (dest & cmds & Eb).
  { rewrite G. exact Al. }
  rewrite Eb. exists (Some (dest, cmds)). split; [reflexivity|]. split; [exact Eb|]. split; [discriminate|contradiction].
Qed.
Lemma plan_stacks_spec allowed l : (forall c, c ∈ l -> stack_root g h m c /\ forall x, ancestor g c x -> x ∈ allowed) ->
  exists plans, plan_stacks e d (rr_store r) allowed m l = Some plans /\ List.map fst plans = l /\
    forall c p, (c, p) ∈ plans -> plan_of allowed c p /\ (p = None <-> parents_of g c = [m]).
Proof.
  induction l as [|c l IH]; intros H; cbn [plan_stacks]; [exists []; split; [reflexivity|]; split; [reflexivity|]; intros c p X; now apply elem_of_nil in X|].
  destruct (H c) as [Rc Al]; [left|]. destruct (plan_stack_spec allowed c Rc Al) as (p & -> & P).
  destruct IH as (plans & -> & E & X); [intros; apply H; now right|]. exists ((c, p) :: plans). split; [reflexivity|]. split; [cbn; now rewrite E|].
  intros c' p' Hc. apply elem_of_cons in Hc. destruct Hc as [[= -> ->]|Hc]; [exact P|now apply X].
Qed.
(** What [git sync] runs. *)
Lemma sync_stacks_plans ts tx sets : exists allowed plans,
  sync_stacks e ts tx sets r = execute_plans e ts tx plans (begin_with r true) /\
  Permutation (List.map fst plans) (elements (stack_roots d sets)) /\
  (forall c, c ∈ List.map fst plans <-> stack_root g h m c /\ meant_to_sync g sets c) /\
  (forall c p, (c, p) ∈ plans -> stack_root g h m c /\ plan_of allowed c p /\ (p = None <-> parents_of g c = [m])).
Proof.
  unfold sync_stacks. fold h. rewrite Op, Hm. cbv zeta. pose proof (dag_is e r d R Op) as G.
  assert (W : wf_graph (dag_graph d)) by (rewrite G; apply (graph_wf e r R)).
  assert (Rt : forall c, c ∈ stack_roots d sets <-> stack_root g h m c /\ meant_to_sync g sets c)
    by (intros; apply (stack_roots_spec e r d m sets c (ra_order _ _ R) Op Hm)).
  destruct (verify_rewrite_set d (re_force e) (stack_roots d sets)) as [allowed|] eqn:Ev.
  2:{ exfalso. apply verify_rewrite_set_none in Ev; [|exact W]. destruct Ev as (_ & a & c & Ha & Hac & Hp). apply Rt in Ha.
      apply (unmerged_draft e r d m (ra_order _ _ R) Op Hm) in Hp. rewrite G in Hac. apply (proj2 (proj1 (proj1 Ha))). eapply rtc_transitive; eauto. }
  apply verify_rewrite_set_spec in Ev; [|exact W]. destruct Ev as [Al _].
  destruct (plan_stacks_spec allowed (re_order e (stack_roots d sets))) as (plans & -> & E & X).
  { intros c Hc. rewrite (ra_sets _ _ R), elem_of_elements in Hc. split; [now apply Rt|]. intros x A. apply Al. exists c. split; [exact Hc|]. now rewrite G. }
  exists allowed, plans. split; [reflexivity|]. rewrite E. split; [apply (ra_sets _ _ R)|]. 
  assert (In : forall c, c ∈ re_order e (stack_roots d sets) <-> stack_root g h m c /\ meant_to_sync g sets c).
  { intros c. rewrite (ra_sets _ _ R), elem_of_elements. apply Rt. }
  split; [exact In|]. intros c p Hp. split; [|now apply X]. apply In. rewrite <- E. apply elem_of_list_In, in_map_iff. exists (c, p).
  split; [reflexivity|now apply elem_of_list_In].
Qed.

Lemma sync_stacks_spec ts i sets : let s := sync_stacks e ts (TxId i) sets r in
  sy_ok s = true -> fresh g log (became (sy_done s)) ->
  so_far e r m (sy_done s) (sy_repo s) /\ NoDup (handled s) /\
  (forall c, c ∈ handled s <-> stack_root g h m c /\ meant_to_sync g sets c) /\
  (forall c, c ∈ sy_skipped s <-> c ∈ handled s /\ parents_of g c = [m]).
Proof.
  destruct (sync_stacks_plans ts (TxId i) sets) as (allowed & plans & -> & P & In & Pl). intros s Ok_ F.
  assert (Nd : NoDup (List.map fst plans)) by (rewrite P; apply NoDup_elements).
  destruct (loop_spec ts i allowed plans (begin_with r true)) as (A & B & C & D & E).
  - now apply (start_so_far e r m).
  - intros c p Hp. destruct (Pl c p Hp) as (X & Y & _). auto.
  - exact Nd.
  - auto.
  - exact F.
  - fold s in A, B, C, D, E. assert (Hs : forall c, c ∈ handled s <-> stack_root g h m c /\ meant_to_sync g sets c).
    { intros c. rewrite B. cbn [begin_with handled sy_done sy_failed sy_skipped List.map app]. apply In. }
    split; [exact A|]. split; [rewrite B; exact Nd|]. split; [exact Hs|].
    intros c. rewrite C. cbn [begin_with sy_skipped]. split.
    + intros [H|H]; [now apply elem_of_nil in H|]. destruct (Pl c None H) as (_ & _ & X). split; [|now apply X].
      rewrite B. cbn. apply elem_of_list_In, in_map_iff. exists (c, None). split; [reflexivity|now apply elem_of_list_In].
    + intros [H Pc]. right. rewrite B in H. cbn in H. apply elem_of_list_In, in_map_iff in H. destruct H as ([c' p] & <- & H).
      apply elem_of_list_In in H. destruct (Pl c' p H) as (_ & _ & X). rewrite (proj2 X Pc) in H. exact H.
Qed.

(** If everything can be read and written, it comes to the end. *)
Lemma main_known : m ∈ vertices g. Proof. exact (io_known _ _ (ra_order _ _ R) _ _ Hm). Qed.
Lemma loop_runs ts i allowed plans : workable e r -> forall s, sy_ok s = true ->
  so_far e r m (sy_done s) (sy_repo s) -> (forall c p, (c, p) ∈ plans -> stack_root g h m c /\ plan_of allowed c p) ->
  NoDup (List.map fst (sy_done s) ++ List.map fst plans) ->
  let s' := execute_plans e ts (TxId i) plans s in
  fresh g log (became (sy_done s')) ->
  sy_ok s' = true /\ forall c x, (c, x) ∈ sy_failed s' -> (c, x) ∈ sy_failed s \/ stopped_at e r c x.
Proof.
  intros Wk. induction plans as [|[c p] plans IH]; intros s Ok_ S P Nd s' F; [cbn in s'; subst s'; auto|].
  subst s'. cbn [execute_plans] in F |- *. destruct (P c p) as [Rc Pc]; [left|].
  assert (P' : forall c' p', (c', p') ∈ plans -> stack_root g h m c' /\ plan_of allowed c' p') by (intros; apply P; now right).
  destruct (stack_known c Rc) as (Hc & NM & Vc & Na). pose proof (dag_is e r d R Op) as G.
  assert (Hm' : m ∈ vertices (dag_graph d)) by (rewrite G; exact main_known).
  destruct (ra_store _ _ R c) as (obj & Hobj & _); [now rewrite <- G|]. rewrite (lookup_weaken _ _ _ _ Hobj (sf_store _ _ _ _ _ S)) in F |- *.
  assert (Nd' : NoDup (List.map fst (sy_done s) ++ List.map fst plans)).
  { rewrite NoDup_app in Nd |- *. destruct Nd as (N1 & N2 & N3). cbn [List.map fst] in N2, N3. apply NoDup_cons in N3.
    split; [exact N1|]. split; [|apply N3]. intros x Hx Hx'. apply (N2 x Hx). now right. }
  destruct p as [[dest cmds]|].
  2:{ apply (IH (mk_sr (sy_repo s) (sy_done s) (sy_failed s) (sy_skipped s ++ [c]) true)); auto. }
  destruct (run_plan e ts (TxId i) dest cmds (sy_repo s)) as [r' res] eqn:Er.
  pose proof (run_one_works e ts i r (sy_repo s) d m c allowed dest cmds r' res R (sc_memory _ _ _ SC) Wk Op Hm' Hc NM (sf_named _ _ _ _ _ S) (sf_store _ _ _ _ _ S) Vc Pc Er) as Works.
  assert (One : match res with
                | Succeeded rwo => exists rw, rwo = Some rw /\ run_done e d (rr_store r) m c (sy_repo s) r' rw
                | DeclinedToMerge _ => run_declined e (sy_repo s) r'
                | _ => True
                end).
  { eapply (run_one e ts i r (sy_repo s) d m c allowed dest cmds); eauto.
    - exact (sc_memory _ _ _ SC).
    - exact (sf_named _ _ _ _ _ S).
    - destruct (sf_head _ _ _ _ _ S) as (o & q & _ & X & _). eauto.
    - intros n Hn. destruct (sf_branch _ _ _ _ _ S n Hn) as [A B]. split; [now apply (ra_local _ _ R)|exact B].
    - intros x [_ V]. apply (ra_oids _ _ R), (shown_known e r); [exact R|]. now apply (shown_is e r d R Op). }
  destruct res as [rwo|at_| |]; [| |destruct Works..].
  - destruct One as (rw & -> & Rd).
    apply (IH (mk_sr r' (sy_done s ++ [(c, Some rw)]) (sy_failed s) (sy_skipped s) true)); auto; cbn [sy_done sy_repo].
    + eapply (step_so_far e r d m); eauto.
      * rewrite NoDup_app in Nd. intros H. destruct Nd as (_ & Nd & _). apply (Nd c H). left.
      * destruct (execute_plans_prefix e ts (TxId i) plans (mk_sr r' (sy_done s ++ [(c, Some rw)]) (sy_failed s) (sy_skipped s) true)) as [more Em].
        rewrite Em in F. eapply fresh_prefix. exact F.
    + rewrite map_app, <- app_assoc. exact Nd.
  - destruct (IH (mk_sr r' (sy_done s) (sy_failed s ++ [(c, at_)]) (sy_skipped s) true)) as [A B]; auto; cbn [sy_done sy_repo].
    + eapply (declined_so_far e r m); eauto.
    + split; [exact A|]. intros c' x H. destruct (B c' x H) as [H'|H']; [|auto]. cbn [sy_failed] in H'. apply elem_of_app in H'.
      destruct H' as [H'|H']; [auto|]. apply elem_of_list_singleton in H'. injection H' as -> ->. right. unfold stopped_at, in_stack.
      rewrite G in Works. destruct Works as [[W1 W2] W3]. split; [|exact W3]. split; [exact W1|]. now apply (shown_is e r d R Op).
Qed.
Lemma sync_stacks_works ts i sets : workable e r -> let s := sync_stacks e ts (TxId i) sets r in
  fresh g log (became (sy_done s)) -> sy_ok s = true /\ forall c x, (c, x) ∈ sy_failed s -> stopped_at e r c x.
Proof.
  intros Wk. destruct (sync_stacks_plans ts (TxId i) sets) as (allowed & plans & -> & P & In & Pl). intros s F.
  destruct (loop_runs ts i allowed plans Wk (begin_with r true)) as [A B]; auto.
  - now apply (start_so_far e r m).
  - intros c p Hp. destruct (Pl c p Hp) as (X & Y & _). auto.
  - cbn. rewrite P. apply NoDup_elements.
  - split; [exact A|]. intros c x H. destruct (B c x H) as [H'|H']; [now apply elem_of_nil in H'|exact H'].
Qed.
End stacks.

(** ** A second run *)
Section again.
Context (e e' : restack_env) (r : rrepo) (d : dag) (m : oid) (s : sync_result).
Let g := he_graph (re_hide e).
Let g' := he_graph (re_hide e').
Let h := rr_repo r.
Let h' := rr_repo (sy_repo s).
Let log := hr_log h.
Let rw := became (sy_done s).
Hypothesis SC : syncable e r m.
Hypothesis Op : open_repo (re_hide e) h = Some d.
Hypothesis S : so_far e r m (sy_done s) (sy_repo s).
Hypothesis F : fresh g log rw.
Hypothesis All : forall c, stack_root g h m c -> c ∈ List.map fst (sy_done s) \/ parents_of g c = [m].
Hypothesis SC' : syncable e' (sy_repo s) m.
Hypothesis Gr : grown g (rr_store (sy_repo s)) rw g'.
Let R : restackable e r := sc_order _ _ _ SC.
Let R' : restackable e' (sy_repo s) := sc_order _ _ _ SC'.
Let l := List.map fst (sy_done s).

Lemma again_wf : wf_graph g. Proof. exact (graph_wf e r R). Qed.
Lemma again_main : m ∈ vertices g. Proof. exact (main_known e r m SC). Qed.
Lemma again_known o : is_Some (rw !! o) -> o ∈ vertices g.
Proof.
  intros H. apply (sm_which _ _ _ _ _ _ (sf_moved _ _ _ _ _ S)) in H. destruct H as (c & _ & _ & V). now apply (shown_known e r R).
Qed.
Lemma again_old c : c ∈ vertices g -> ~ made rw c.
Proof. intros V M. destruct (F c M) as (_ & N & _). exact (N V). Qed.
(** Below what was known, nothing is new. *)
Lemma again_below a b : ancestor g' a b -> b ∈ vertices g -> ancestor g a b.
Proof.
  intros A. revert b A. apply (rtc_ind_r (fun b => b ∈ vertices g -> ancestor g a b)); [constructor|].
  intros y b A P IH Hb. apply (gr_old _ _ _ _ Gr y b Hb) in P. eapply rtc_r; [apply IH|exact P].
  apply (parent_vertices _ _ _ again_wf) in P. apply P.
Qed.
Lemma again_above a b : ancestor g a b -> ancestor g' a b.
Proof.
  intros A. induction A as [|a y b P A IH]; [constructor|]. eapply rtc_l; [|exact IH]. apply (gr_old _ _ _ _ Gr); [|exact P].
  apply (parent_vertices _ _ _ again_wf) in P. apply P.
Qed.
(** What stands for the place of a commit of a stack. *)
Lemma again_becomes p q : becomes (onto g m l) rw p q -> p = m \/ is_Some (rw !! p) -> q = m \/ made rw q.
Proof.
  induction 1 as [p H|p q H|p p' q H O B IH]; intros Hp.
  - destruct Hp as [->|[? Hp]]; [auto|congruence].
  - right. now exists p.
  - apply IH. destruct O as [[_ ->]|[Np P]]; [auto|right].
    apply (sm_which _ _ _ _ _ _ (sf_moved _ _ _ _ _ S)). destruct (proj1 (sm_which _ _ _ _ _ _ (sf_moved _ _ _ _ _ S) p)) as (c & Hc & A & V); [eauto|].
    exists c. split; [exact Hc|]. pose proof (sf_apart _ _ _ _ _ S c p Hc (conj A V)) as NM.
    apply rtc_inv_r in A. destruct A as [E|(p2 & A & P2)]; [subst; contradiction|].
    rewrite (only_one_parent g p p' p2 again_wf NM P P2). split; [exact A|].
    destruct V as (v & Av & Kv). exists v. split; [eapply rtc_l; [exact P2|exact Av]|exact Kv].
Qed.
Lemma again_made n : made rw n -> exists q, parents_of g' n = [q] /\ (q = m \/ made rw q) /\ forall p, parent g' p n <-> p = q.
Proof.
  intros [o Ho]. destruct (sm_made _ _ _ _ _ _ (sf_moved _ _ _ _ _ S) o n Ho) as (p & q & orig & tree & On & B & _ & _ & St).
  assert (P : forall p', parent g' p' n <-> p' = q).
  { intros p'. rewrite (gr_new _ _ _ _ Gr p' n _ ltac:(now exists o) St). cbn. apply elem_of_list_singleton. }
  assert (Hn : n ∈ vertices g'). { apply (parent_vertices g' q n (gr_graph _ _ _ _ Gr)). now apply P. }
  exists q. split; [|split; [|exact P]].
  - destruct (ra_store _ _ R' n Hn) as (x & Hx & Px). rewrite St in Hx. injection Hx as <-. symmetry. exact Px.
  - apply (again_becomes p q B). destruct On as [[_ ->]|[Np Pp]]; [auto|right].
    apply (sm_which _ _ _ _ _ _ (sf_moved _ _ _ _ _ S)). destruct (proj1 (sm_which _ _ _ _ _ _ (sf_moved _ _ _ _ _ S) o)) as (c & Hc & A & V); [eauto|].
    exists c. split; [exact Hc|]. pose proof (sf_apart _ _ _ _ _ S c o Hc (conj A V)) as NM.
    apply rtc_inv_r in A. destruct A as [E|(p2 & A & P2)]; [subst; contradiction|].
    rewrite (only_one_parent g o p p2 again_wf NM Pp P2). split; [exact A|].
    destruct V as (v & Av & Kv). exists v. split; [eapply rtc_l; [exact P2|exact Av]|exact Kv].
Qed.
(** An old commit below a new one is on the main branch. *)
Lemma again_under a n : ancestor g' a n -> made rw n -> a ∈ vertices g -> ancestor g a m.
Proof.
  intros A. revert n A. apply (rtc_ind_r (fun n => made rw n -> a ∈ vertices g -> ancestor g a m)).
  - intros M Ha. destruct (again_old a Ha M).
  - intros y n A P IH M Ha. destruct (again_made n M) as (q & _ & Q & Pq). apply Pq in P. subst y.
    destruct Q as [->|Q]; [|now apply IH]. apply again_below; [exact A|exact again_main].
Qed.

(** What keeps an old commit that is not on the main branch shown. *)
Definition keeps (r : hrepo) (v : oid) : Prop :=
  visibility (hr_log r) v Active \/ hi_oid (hr_head r) = Some v \/ branch_at (hr_refs r) v.
Lemma again_kept v : v ∈ vertices g -> v <> m -> keeps h' v -> rw !! v = None /\ keeps h v.
Proof.
  intros Hv Nm K. destruct (sf_log _ _ _ _ _ S) as (es & El & T). fold h' log rw in El, T. destruct K as [K|[K|[n K]]].
  - rewrite El in K. destruct (told_active g log es rw T F again_known v K) as [M|A]; [destruct (again_old v Hv M)|]. split; [|now left].
    destruct (rw !! v) eqn:E; [|reflexivity]. exfalso. pose proof (told_dom_obsolete g log es rw T F again_known v ltac:(rewrite E; eauto)) as O.
    pose proof (visibility_unique _ _ _ _ K O). discriminate.
  - destruct (sf_head _ _ _ _ _ S) as (o & q & Ho & Hq & B). fold h h' in Ho, Hq. rewrite K in Hq. injection Hq as <-.
    assert (X : forall p, becomes (onto g m l) rw p v -> rw !! v = None /\ (p = v \/ (is_Some (rw !! p)))).
    { intros p Bp. inversion Bp as [p0 H|p0 q0 H|p0 p' q0 H O B']; subst; [auto|exfalso; eapply again_old; [exact Hv|now exists p]|].
      destruct (again_becomes p v Bp) as [->|M]; [eauto|contradiction|destruct (again_old v Hv M)]. }
    destruct (X o B) as [N [->|Hs]]; [split; [exact N|right; left; exact Ho]|].
    destruct (again_becomes o v B) as [->|M]; [auto|contradiction|destruct (again_old v Hv M)].
  - assert (L : is_local ("refs/heads/" +:+ n) = true) by (apply is_local_spec; eauto).
    unfold h' in K. rewrite (sf_refs _ _ _ _ _ S _ L) in K. unfold branch_after in K. fold h rw in K.
    destruct (hr_refs h !! _) as [o|] eqn:E; [|discriminate]. rewrite L in K.
    destruct (rw !! o) as [[|o']|] eqn:Eo.
    + destruct (decide _) as [Em|]; [|discriminate]. exfalso.
      change (be_main (he_branch (re_hide e))) with (he_main (re_hide e)) in Em. rewrite Em in E. unfold h in E. rewrite (sc_main _ _ _ SC) in E. injection E as <-.
      destruct (proj1 (sm_which _ _ _ _ _ _ (sf_moved _ _ _ _ _ S) m)) as (c & Hc & A & _); [unfold rw in Eo; eauto|].
      apply (proj2 (proj1 (sf_roots _ _ _ _ _ S c Hc))), A.
    + injection K as <-. exfalso. eapply again_old; [exact Hv|now exists o].
    + injection K as <-. split; [exact Eo|]. right. right. now exists n.
Qed.

Lemma again_in_place c : stack_root g' h' m c -> parents_of g' c = [m].
Proof.
  intros [[(v & A & K) N] P]. assert (Hc : c ∈ vertices g \/ made rw c).
  { apply (gr_vertices _ _ _ _ Gr). apply (shown_known e' (sy_repo s) R'). exists v. auto. }
  destruct Hc as [Hc|Hc].
  - assert (Nc : ~ ancestor g c m) by (intros X; apply N, again_above, X).
    assert (Hv : v ∈ vertices g \/ made rw v).
    { apply (gr_vertices _ _ _ _ Gr). apply (shown_known e' (sy_repo s) R'). exists v. split; [constructor|exact K]. }
    destruct Hv as [Hv|Hv]; [|destruct Nc; eapply again_under; eauto].
    pose proof (again_below c v A Hv) as A'.
    destruct (again_kept v Hv) as [Nv Kv]; [intros ->; exact (Nc A')|exact K|].
    assert (Rc : stack_root g h m c).
    { split; [split; [exists v; auto|exact Nc]|]. intros p Pp. apply (again_below p m); [|exact again_main]. apply P. now apply (gr_old _ _ _ _ Gr p c Hc). }
    destruct (All c Rc) as [Hd|Hp].
    + exfalso. assert (X : is_Some (rw !! v)).
      { apply (sm_which _ _ _ _ _ _ (sf_moved _ _ _ _ _ S)). exists c. split; [exact Hd|]. split; [exact A'|]. exists v. split; [constructor|exact Kv]. }
      rewrite Nv in X. destruct X as [? [=]].
    + destruct (ra_store _ _ R c Hc) as (x & Hx & Px).
      assert (Hc' : c ∈ vertices g') by (apply (shown_known e' (sy_repo s) R'); exists v; auto).
      destruct (ra_store _ _ R' c Hc') as (x' & Hx' & Px'). rewrite (lookup_weaken _ _ _ _ Hx (sf_store _ _ _ _ _ S)) in Hx'. injection Hx' as <-.
      fold g in Px. fold g' in Px'. congruence.
  - destruct (again_made c Hc) as (q & E & [->|M] & Pq); [exact E|]. exfalso.
    assert (X : ancestor g' q m) by (apply P; now apply Pq). pose proof (again_below q m X again_main) as Y.
    apply (again_old q); [|exact M]. inversion Y as [|? y ? P0 Y']; subst; [exact again_main|]. apply (parent_vertices _ _ _ again_wf) in P0. apply P0.
Qed.
End again.

Lemma execute_skips e ts tx plans : forall s, sy_ok s = true -> (forall c p, (c, p) ∈ plans -> p = None /\ is_Some (rr_store (sy_repo s) !! c)) ->
  execute_plans e ts tx plans s = mk_sr (sy_repo s) (sy_done s) (sy_failed s) (sy_skipped s ++ List.map fst plans) true.
Proof.
  induction plans as [|[c p] plans IH]; intros s Ok_ H; cbn [execute_plans List.map fst]; [destruct s; cbn in *; now rewrite Ok_, app_nil_r|].
  destruct (H c p) as [-> [x Hx]]; [left|]. rewrite Hx. rewrite IH; [cbn [sy_repo sy_done sy_failed sy_skipped]; now rewrite <- app_assoc|reflexivity|].
  cbn [sy_repo]. intros c' p' Hp. apply H. now right.
Qed.
Lemma sync_stacks_in_place e r d m ts tx sets : syncable e r m -> open_repo (re_hide e) (rr_repo r) = Some d ->
  (forall c, stack_root (he_graph (re_hide e)) (rr_repo r) m c -> parents_of (he_graph (re_hide e)) c = [m]) ->
  exists skipped, sync_stacks e ts tx sets r = mk_sr r [] [] skipped true.
Proof.
  intros SC Op In. destruct (sync_stacks_plans e r d m SC Op ts tx sets) as (allowed & plans & -> & _ & _ & Pl).
  rewrite execute_skips; [|reflexivity|]; [cbn [begin_with sy_repo sy_done sy_failed sy_skipped app]; eauto|].
  intros c p Hp. destruct (Pl c p Hp) as (Rc & _ & X). split; [now apply X, In|]. cbn [begin_with sy_repo].
  destruct (ra_store _ _ (sc_order _ _ _ SC) c) as (x & Hx & _); [|eauto]. apply (shown_known e r (sc_order _ _ _ SC)). apply Rc.
Qed.

(** ** The main branch *)
Section pull.
Context (e : restack_env) (r : rrepo) (d : dag) (m up : oid).
Let g := he_graph (re_hide e).
Let h := rr_repo r.
Let log := hr_log h.
Hypothesis PU : pullable e r m up.
Hypothesis Op : open_repo (re_hide e) h = Some d.
Let R : restackable e r := pu_order _ _ _ _ PU.

Lemma pull_wf : wf_graph g. Proof. exact (graph_wf e r R). Qed.
Lemma pull_main : m ∈ vertices g. Proof. exact (io_known _ _ (ra_order _ _ R) _ _ (pu_main _ _ _ _ PU)). Qed.
Lemma own_spec o : o ∈ only (dag_graph d) {[m]} {[up]} <-> ahead g m up o.
Proof.
  rewrite (dag_is e r d R Op). fold g. rewrite (only_spec _ _ _ _ pull_wf). unfold ahead. split.
  - intros [(x & Hx & A) N]. apply elem_of_singleton in Hx as ->. split; [exact A|]. intros B. apply N. exists up. split; [now apply elem_of_singleton|exact B].
  - intros [A N]. split; [exists m; split; [now apply elem_of_singleton|exact A]|]. intros (x & Hx & B). apply elem_of_singleton in Hx as ->. auto.
Qed.
Lemma ancestor_or x y : ancestor g x y \/ ~ ancestor g x y.
Proof.
  destruct (decide (x ∈ ancestors g {[y]})) as [H|H].
  - left. apply (ancestors_spec _ _ _ pull_wf) in H. destruct H as (z & Hz & A). apply elem_of_singleton in Hz as ->. exact A.
  - right. intros A. apply H. apply (ancestors_spec _ _ _ pull_wf). exists y. split; [now apply elem_of_singleton|exact A].
Qed.
Lemma own_empty : only (dag_graph d) {[m]} {[up]} = ∅ <-> ancestor g m up.
Proof.
  split.
  - intros E. destruct (ancestor_or m up) as [A|N]; [exact A|]. exfalso. assert (X : m ∈ only (dag_graph d) {[m]} {[up]}) by (apply own_spec; split; [constructor|exact N]).
    rewrite E in X. now apply elem_of_empty in X.
  - intros A. apply elem_of_equiv_empty_L. intros o Ho. apply own_spec in Ho. apply (proj2 Ho). eapply rtc_transitive; [apply Ho|exact A].
Qed.
Lemma own_roots c : c ∈ roots (dag_graph d) (only (dag_graph d) {[m]} {[up]}) <-> first_ahead g m up c.
Proof.
  rewrite roots_spec, own_spec. unfold first_ahead. split; intros [A B]; (split; [exact A|]); intros p.
  - intros P. destruct (ancestor_or p up) as [X|X]; [exact X|]. exfalso. apply (B p); [|now rewrite (dag_is e r d R Op)]. apply own_spec. split; [|exact X].
    eapply rtc_l; [exact P|apply A].
  - intros Hp P. rewrite (dag_is e r d R Op) in P. apply own_spec in Hp. apply (proj2 Hp), B, P.
Qed.
Lemma main_shown o : ancestor g o m -> shown g h o.
Proof.
  intros A. exists m. split; [exact A|]. right. right. destruct (io_main _ _ (ra_order _ _ R)) as [n E].
  exists n. rewrite <- E. exact (pu_main _ _ _ _ PU).
Qed.

(** ** Moving the commits of the main branch *)
Section moved.
Context (c : oid) (r2 : rrepo) (rw : gmap oid moid).
Hypothesis Fc : first_ahead g m up c.
Hypothesis NM : ~ merge_commit g c.
Hypothesis Rd : run_done e d (rr_store r) up c r r2 rw.
Lemma moved_visible : visible d c. Proof. apply (shown_is e r d R Op), main_shown. apply Fc. Qed.
Lemma moved_wf : wf_graph (dag_graph d). Proof. rewrite (dag_is e r d R Op). exact pull_wf. Qed.
Lemma moved_rw x : is_Some (rw !! x) <-> in_stack g h c x.
Proof.
  destruct (rd_carried _ _ _ _ _ _ _ _ Rd) as [hd CO]. rewrite (one_rw d up c moved_visible _ _ _ _ _ _ _ CO x).
  unfold in_stack. rewrite (dag_is e r d R Op). now rewrite (shown_is e r d R Op).
Qed.
Lemma moved_no_merge x : in_stack g h c x -> ~ merge_commit g x.
Proof.
  intros [A V]. destruct (rd_carried _ _ _ _ _ _ _ _ Rd) as [hd CO]. unfold g. rewrite <- (dag_is e r d R Op).
  apply (one_no_merge d up c moved_visible _ _ _ _ _ _ _ CO x); [now rewrite (dag_is e r d R Op)|now apply (shown_is e r d R Op)].
Qed.
Lemma moved_up : rw !! up = None.
Proof.
  destruct (rw !! up) eqn:E; [|reflexivity]. exfalso. assert (X : in_stack g h c up) by (apply moved_rw; eauto).
  apply (proj2 (proj1 Fc)), X.
Qed.
Lemma moved_onto p x : (x = c /\ p = up) \/ (x <> c /\ parent g p x) -> onto g up [c] p x.
Proof.
  intros [[-> ->]|[N P]]; [left; split; [left|reflexivity]|right]. split; [|exact P]. now intros H%elem_of_list_singleton.
Qed.
Lemma moved_becomes p q : lands d [MoveSubtree [up] c] rw p q -> becomes (onto g up [c]) rw p q.
Proof.
  induction 1 as [p H|p q H|p p' q H B L IH]; [now apply becomes_kept|now apply becomes_new|].
  assert (Hs : in_stack g h c p) by (apply moved_rw; eauto). pose proof (moved_no_merge p Hs) as N. unfold g in N. rewrite <- (dag_is e r d R Op) in N.
  apply (one_rebuilt_on d up c p' p N) in B. apply (becomes_dropped _ _ p p' q); [exact H| |exact IH]. apply moved_onto.
  destruct B as [B|(N' & _ & _ & P)]; [auto|right]. rewrite (dag_is e r d R Op) in P. auto.
Qed.
Lemma moved_moved : stacks_moved e r up [c] rw (rr_store r2).
Proof.
  destruct (rd_carried _ _ _ _ _ _ _ _ Rd) as [hd CO]. pose proof (co_store _ _ _ _ _ _ _ _ CO) as Grow. constructor.
  - intros o. rewrite moved_rw. split; [intros H; exists c; split; [left|exact H]|]. intros (c' & H & X). apply elem_of_list_singleton in H as ->. exact X.
  - intros o n H. destruct (one_made d up c moved_wf moved_visible _ _ _ _ _ _ _ CO o n H) as (p & q & orig & tree & O & L & So & Pk & Sn).
    exists p, q, orig, tree. split_and!; auto.
    + apply moved_onto. destruct O as [O|(N & _ & P)]; [auto|right]. rewrite (dag_is e r d R Op) in P. auto.
    + now apply moved_becomes.
    + assert (V : o ∈ vertices g). { apply (shown_known e r R). apply (moved_rw o). eauto. }
      destruct (ra_store _ _ R o V) as (z & Hz & _). pose proof (lookup_weaken _ _ _ _ Hz Grow). congruence.
  - intros o H. destruct (one_dropped d up c moved_wf moved_visible _ _ _ _ _ _ _ CO o H) as (p & q & O & L & Why).
    exists p, q. split_and!; auto.
    + apply moved_onto. destruct O as [O|(N & _ & P)]; [auto|right]. rewrite (dag_is e r d R Op) in P. auto.
    + now apply moved_becomes.
Qed.
End moved.

Lemma sync_main_moves ts i fw hd c : (forall x, first_ahead g m up x <-> x = c) -> ~ merge_commit g c ->
  exists allowed dest cmds, build d (planner e (rr_store r)) allowed [MoveSubtree [up] c] = Done (BuiltPlan dest cmds) /\
    sync_main e ts (TxId i) fw hd r = (Some Syncing, execute_plans e ts (TxId i) [(c, Some (dest, cmds))] (begin_with r true)).
Proof.
  intros Fc NM. assert (Hc : first_ahead g m up c) by now apply Fc. unfold sync_main. fold h. rewrite Op. unfold h. rewrite (pu_main _ _ _ _ PU), (pu_up _ _ _ _ PU). cbv zeta.
  pose proof (dag_is e r d R Op) as G.
  assert (W : wf_graph (dag_graph d)) by (rewrite G; exact pull_wf).
  destruct (decide _) as [E|_]; [exfalso; apply own_empty in E; apply (proj2 (proj1 Hc)); eapply rtc_transitive; [apply (proj1 (proj1 Hc))|exact E]|].
  destruct (verify_rewrite_set d true (only (dag_graph d) {[m]} {[up]})) as [allowed|] eqn:Ev.
  2:{ exfalso. apply verify_rewrite_set_none in Ev; [|exact W]. destruct Ev as [Ev _]. discriminate. }
  apply verify_rewrite_set_spec in Ev; [|exact W]. destruct Ev as [Al _].
  assert (Hl : re_order e (roots (dag_graph d) (only (dag_graph d) {[m]} {[up]})) = [c]).
  { assert (N : NoDup (re_order e (roots (dag_graph d) (only (dag_graph d) {[m]} {[up]})))) by (rewrite (ra_sets _ _ R); apply NoDup_elements).
    assert (In : forall x, x ∈ re_order e (roots (dag_graph d) (only (dag_graph d) {[m]} {[up]})) <-> x = c).
    { intros x. rewrite (ra_sets _ _ R), elem_of_elements, own_roots. apply Fc. }
    revert N In. generalize (re_order e (roots (dag_graph d) (only (dag_graph d) {[m]} {[up]}))). intros l N In.
    destruct l as [|a [|b l]].
    - destruct (not_elem_of_nil c (proj2 (In c) eq_refl)).
    - f_equal. apply In. left.
    - exfalso. apply NoDup_cons in N. destruct N as [N _]. apply N. rewrite (proj1 (In a)) by left. rewrite <- (proj1 (In b)) by (right; left). left. }
  rewrite Hl.
  destruct (one_plan d up c W (moved_visible c Hc) (planner e (rr_store r)) allowed) as (dest & cmds & Eb).
  - intros x Hx. rewrite G in Hx. destruct (ra_store _ _ R x Hx) as (y & Hy & P). exists (ob_commit y). cbn. unfold find_object. rewrite Hy. split; [reflexivity|]. now rewrite G.
  - reflexivity.
  - now rewrite G.
  - rewrite G. apply (shown_known e r R), main_shown, Hc.
  - rewrite G. apply Hc.
  - intros x A. apply Al. exists c. split; [apply own_spec, Hc|exact A].
  - exists allowed, dest, cmds. split; [exact Eb|]. now rewrite Eb.
Qed.

Lemma sync_main_runs ts i fw hd c : (forall x, first_ahead g m up x <-> x = c) -> ~ merge_commit g c ->
  let s := snd (sync_main e ts (TxId i) fw hd r) in
  sy_ok s = true ->
  (exists rw, sy_done s = [(c, Some rw)] /\ sy_failed s = [] /\ run_done e d (rr_store r) up c r (sy_repo s) rw) \/
  (exists x, sy_done s = [] /\ sy_failed s = [(c, x)] /\ run_declined e r (sy_repo s)).
Proof.
  intros Fc NM. assert (Hc : first_ahead g m up c) by now apply Fc. destruct (sync_main_moves ts i fw hd c Fc NM) as (allowed & dest & cmds & Eb & ->).
  pose proof (dag_is e r d R Op) as G. assert (Vc : c ∈ vertices g) by (apply (shown_known e r R), main_shown, Hc).
  cbn [snd execute_plans begin_with sy_repo sy_done sy_failed sy_skipped app]. destruct (ra_store _ _ R c Vc) as (obj & Hobj & _). rewrite Hobj.
  destruct (run_plan e ts (TxId i) dest cmds r) as [r' res] eqn:Er.
  assert (One : match res with
                | Succeeded rwo => exists rw, rwo = Some rw /\ run_done e d (rr_store r) up c r r' rw
                | DeclinedToMerge _ => run_declined e r r'
                | _ => True
                end).
  { eapply (run_one e ts i r r d up c allowed dest cmds); eauto.
    - exact (pu_memory _ _ _ _ PU).
    - now rewrite G.
    - now rewrite G.
    - exact (ra_named _ _ R).
    - exact (ra_head _ _ R).
    - intros n Hn. split; [now apply (ra_local _ _ R)|]. exact (io_branch _ _ (ra_order _ _ R) n Hn).
    - intros x [_ V]. apply (ra_oids _ _ R), (shown_known e r); [exact R|]. now apply (shown_is e r d R Op).
    - now apply moved_visible. }
  destruct res as [rwo|at_| |]; cbn [sy_ok sy_done sy_failed sy_repo]; intros Ok_; [| |discriminate..].
  - destruct One as (rw & -> & Rd). left. eauto.
  - right. eauto.
Qed.
Lemma sync_main_works ts i fw hd c : workable e r -> (forall x, first_ahead g m up x <-> x = c) -> ~ merge_commit g c ->
  let s := snd (sync_main e ts (TxId i) fw hd r) in
  sy_ok s = true /\ forall c' x, (c', x) ∈ sy_failed s -> stopped_at e r c x.
Proof.
  intros Wk Fc NM. assert (Hc : first_ahead g m up c) by now apply Fc. destruct (sync_main_moves ts i fw hd c Fc NM) as (allowed & dest & cmds & Eb & ->).
  pose proof (dag_is e r d R Op) as G. assert (Vc : c ∈ vertices g) by (apply (shown_known e r R), main_shown, Hc).
  cbn [snd execute_plans begin_with sy_repo sy_done sy_failed sy_skipped app]. destruct (ra_store _ _ R c Vc) as (obj & Hobj & _). rewrite Hobj.
  destruct (run_plan e ts (TxId i) dest cmds r) as [r' res] eqn:Er.
  assert (Hu : up ∈ vertices (dag_graph d)) by (rewrite G; exact (pu_known _ _ _ _ PU)).
  assert (NM' : ~ merge_commit (dag_graph d) c) by now rewrite G.
  assert (Vc' : c ∈ vertices (dag_graph d)) by now rewrite G.
  pose proof (run_one_works e ts i r r d up c allowed dest cmds r' res R (pu_memory _ _ _ _ PU) Wk Op Hu Vc' NM' (ra_named _ _ R) (reflexivity _) (moved_visible c Hc) Eb Er) as Works.
  destruct res as [rwo|at_| |]; cbn [sy_ok sy_failed]; [| |destruct Works..].
  - split; [reflexivity|]. intros ? ? H. now apply elem_of_nil in H.
  - split; [reflexivity|]. intros c' x H. apply elem_of_list_singleton in H. injection H as -> ->. rewrite G in Works.
    destruct Works as [[A V] M]. split; [|exact M]. split; [exact A|]. now apply (shown_is e r d R Op).
Qed.
End pull.
