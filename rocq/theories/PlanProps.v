(** Properties C26 to C29 and C59: rebase plans. *)
From stdpp Require Import sorting relations.
From Verif Require Import Base TextModel DagModel DagSpec DagProofs StrModel StrProofs HookModel PlanModel PlanSpec
  PlanProofs PlanCycleProofs PlanDfsProofs PlanLabelProofs PlanBuildProofs.
Local Open Scope string_scope.
Local Open Scope list_scope.

(** Repositories for the examples: all commits visible, [main] the main branch. *)
Definition find_in (g : graph) (c : oid) : option commit :=
  if decide (c ∈ vertices g) then Some (mk_commit (parents_of g c) 0%N) else None.
Definition env_of (g : graph) : plan_env := mk_pe (find_in g) ∅ (fun _ _ => false) sorted_oids.
Definition dag_of (g : graph) (main : oid) : dag := mk_dag g ∅ {[main]} ∅ (vertices g) ∅.

(** 1 - 2 - 3 - 4, 1 - 5 *)
Definition line : graph := [(1, []); (2, [1]); (3, [2]); (4, [3]); (5, [1])]%N.
(** 2 and 3 on top of 1, merged in 4; 5 on top of 1 *)
Definition diamond : graph := [(1, []); (2, [1]); (3, [1]); (4, [2; 3]); (5, [1])]%N.
(** the same with 5 on top of 2 *)
Definition diamond' : graph := [(1, []); (2, [1]); (3, [1]); (4, [2; 3]); (5, [2])]%N.

Lemma line_wf : wf_graph line.
Proof. unfold line, wf_graph. cbn. split_and!; set_solver. Qed.
Lemma diamond_wf : wf_graph diamond.
Proof. unfold diamond, wf_graph. cbn. split_and!; set_solver. Qed.
Lemma diamond'_wf : wf_graph diamond'.
Proof. unfold diamond', wf_graph. cbn. split_and!; set_solver. Qed.

Lemma env_knows g main : wf_graph g -> knows (dag_of g main) (env_of g).
Proof.
  intros W c Hc. cbn in *. unfold find_in. rewrite decide_True by exact Hc. eauto.
Qed.

(** Reading requests off the computed graph. *)
Lemma requested_iff d cs cg c : wf_graph (dag_graph d) -> add_constraints d cs empty_cg = Done cg ->
  requested d cs c <-> c ∈ commits_to_move cg.
Proof.
  intros W E. destruct (add_constraints_spec d cs W) as (_ & _ & H). destruct (H cg E) as (_ & _ & C).
  unfold commits_to_move. rewrite all_values_spec. setoid_rewrite C. reflexivity.
Qed.
Lemma code_parent_iff d cs cg p c : wf_graph (dag_graph d) -> build_constraints d cs = Done cg ->
  code_parent d cs p c <-> edge (cg_inner cg) p c.
Proof.
  intros W E. destruct (build_constraints_spec d cs W) as (_ & _ & H). destruct (H cg E) as (_ & _ & C). symmetry. apply C.
Qed.
(** ... by computation. *)
Definition on_result {A} (x : outcome A) (f : A -> bool) : bool := match x with Done a => f a | _ => false end.
Lemma on_result_spec {A} (x : outcome A) f : on_result x f = true -> exists a, x = Done a /\ f a = true.
Proof. destruct x; [eauto|discriminate..]. Qed.
Lemma code_parent_by d cs p c : wf_graph (dag_graph d) ->
  on_result (build_constraints d cs) (fun cg => bool_decide (c ∈ edges_from (cg_inner cg) p)) = true -> code_parent d cs p c.
Proof.
  intros W H. apply on_result_spec in H. destruct H as (cg & E & H). apply bool_decide_eq_true in H.
  now apply (code_parent_iff d cs cg).
Qed.
Lemma code_parent_sound d cs p c : code_parent d cs p c -> new_parent d cs p c.
Proof. unfold code_parent, new_parent. tauto. Qed.

(** ** C26: cycles *)

(** The planner always answers. *)
Theorem c26_terminates : forall d e allowed cs, wf_graph (dag_graph d) -> build d e allowed cs <> NoFuel.
Proof. exact build_terminates. Qed.

(** A reported cycle is real. *)
Theorem c26_sound : forall d e allowed cs l, wf_graph (dag_graph d) ->
  build d e allowed cs = Done (BuiltCycle l) -> impossible d cs.
Proof.
  intros d e allowed cs l W H. destruct (build_cycle_report _ _ _ _ _ W H) as (cg & E & R).
  apply report_cycle in R. destruct R as [c T]. exists c. revert T.
  assert (S : forall a b, edge (cg_inner cg) a b -> new_parent d cs a b).
  { intros a b Hab. apply code_parent_sound, (code_parent_iff d cs cg); assumption. }
  generalize c at 2 4. intros c' T. induction T as [x y H1|x y z H1 T IH];
    [apply tc_once; auto|eapply tc_l; [apply S; exact H1|exact IH]].
Qed.

(** A request is refused for a cycle exactly when some commit would become its own
    ancestor, provided commits that are squashed into stay or are told where to go. *)
Theorem c26_cycle_iff_partial : forall d e allowed cs,
  wf_graph (dag_graph d) -> gaps_close d cs -> targets_stay d cs ->
  (exists l, build d e allowed cs = Done (BuiltCycle l)) <-> impossible d cs.
Proof.
  intros d e allowed cs W G T. rewrite build_cycle_iff by assumption. unfold impossible.
  split; intros [c H]; exists c; revert H; apply tc_iff; intros a b; [symmetry|]; now apply code_parent_new.
Qed.

(** In particular for requests that only move commits and subtrees. *)
Theorem c26_moves : forall d e allowed cs,
  wf_graph (dag_graph d) -> gaps_close d cs -> (forall t f, FixUpCommit t f ∉ cs) ->
  (exists l, build d e allowed cs = Done (BuiltCycle l)) <-> impossible d cs.
Proof.
  intros d e allowed cs W G N. apply c26_cycle_iff_partial; [exact W|exact G|].
  intros t [f H] _ _. now apply N in H.
Qed.

(** The planner gives up on the constraints exactly when there is no place for the
    children of commits taken out. *)
Theorem c26_gaps : forall d cs, wf_graph (dag_graph d) ->
  (exists cg, build_constraints d cs = Done cg) <-> gaps_close d cs.
Proof. intros d cs W. apply build_constraints_spec. exact W. Qed.

(** The general claim is false: 2 is put on top of its child 3, and 5 is squashed
    into 3. *)
Theorem c26_cycle_refuted : exists d e allowed cs dest cmds,
  wf_graph (dag_graph d) /\ gaps_close d cs /\ impossible d cs /\
  build d e allowed cs = Done (BuiltPlan dest cmds).
Proof.
  set (cs := [MoveSubtree [3] 2; FixUpCommit 3 5]%N).
  assert (E : exists cg, build_constraints (dag_of line 1%N) cs = Done cg) by (eexists; vm_compute; reflexivity).
  assert (B : exists dest cmds, build (dag_of line 1%N) (env_of line) {[2; 3; 4]}%N cs = Done (BuiltPlan dest cmds)).
  { eexists _, _. vm_compute. reflexivity. }
  destruct B as (dest & cmds & B).
  exists (dag_of line 1%N), (env_of line), {[2; 3; 4]}%N, cs, dest, cmds. split_and!.
  - exact line_wf.
  - apply (build_constraints_spec (dag_of line 1%N) cs line_wf). exact E.
  - assert (R2 : requested (dag_of line 1%N) cs 2%N).
    { exists 3%N. left. exists [], [3%N], [FixUpCommit 3%N 5%N]. split_and!; [reflexivity|constructor|].
      apply Forall_cons. split; [cbn; discriminate|constructor]. }
    exists 2%N. eapply tc_l; [|apply tc_once]; [|left; destruct R2 as [p [H|H]]].
    + right. right. split_and!.
      * assert (exists cg, add_constraints (dag_of line 1%N) cs empty_cg = Done cg /\ 3%N ∉ commits_to_move cg) as (cg & E1 & N).
        { eexists. split; [vm_compute; reflexivity|]. decide_it. }
        rewrite (requested_iff (dag_of line 1%N) _ _ _ line_wf E1). exact N.
      * apply visible_spec; [exact line_wf|]. decide_it.
      * exists [2%N]. split; [|constructor]. decide_it.
      * exists 2%N. split; [now left|]. apply tc_once. exists [2%N]. split; [|constructor]. decide_it.
    + exists [], [3%N], [FixUpCommit 3%N 5%N]. split_and!; [reflexivity|constructor|].
      apply Forall_cons. split; [cbn; discriminate|constructor].
    + exists [], [3%N], [FixUpCommit 3%N 5%N]. split_and!; [reflexivity|constructor|].
      apply Forall_cons. split; [cbn; discriminate|constructor].
  - exact B.
Qed.

(** 2 cannot be moved on top of 4, which is above it; it can be moved on top of 5. *)
Example c26_example :
  build (dag_of line 1%N) (env_of line) {[2; 3; 4]}%N [MoveSubtree [4] 2]%N = Done (BuiltCycle [2; 3; 4; 2]%N) /\
  build (dag_of line 1%N) (env_of line) {[2; 3; 4]}%N [MoveSubtree [5] 2]%N =
    Done (BuiltPlan 5 [Reset_ (AtOid 5); Pick 2 [2]; DetectEmpty 2; Pick 3 [3]; DetectEmpty 3;
                       Pick 4 [4]; DetectEmpty 4; RegisterExtra])%N /\
  gaps_close (dag_of line 1%N) [MoveSubtree [4] 2]%N /\ gaps_close (dag_of line 1%N) [MoveSubtree [5] 2]%N.
Proof.
  split_and!; [vm_compute; reflexivity..| |];
    (apply (build_constraints_spec (dag_of line 1%N) _ line_wf); eexists; vm_compute; reflexivity).
Qed.

(** ** C59: the reported cycle *)

(** The report leads from commit to commit that is to go on top of it, and ends at
    a commit it has been at. *)
Theorem c59_report : forall d e allowed cs l, wf_graph (dag_graph d) ->
  build d e allowed cs = Done (BuiltCycle l) ->
  exists pre o, l = pre ++ [o] /\ o ∈ pre /\ NoDup pre /\ walk (new_parent d cs) l.
Proof.
  intros d e allowed cs l W H. destruct (build_cycle_report _ _ _ _ _ W H) as (cg & E & pre & o & -> & Ho & ND & Wk).
  exists pre, o. split_and!; [reflexivity|exact Ho|exact ND|]. clear ND Ho H. revert Wk. generalize (pre ++ [o]).
  intros l. induction l as [|x l IH]; [auto|]. destruct l as [|y l]; [auto|]. intros [A B]. split; [|now apply IH].
  apply code_parent_sound, (code_parent_iff d cs cg); assumption.
Qed.

(** It begins where it ends when no commit has two new parents. *)
Theorem c59_report_closed_partial : forall d e allowed cs l, wf_graph (dag_graph d) ->
  (forall p p' c, new_parent d cs p c -> new_parent d cs p' c -> p = p') ->
  build d e allowed cs = Done (BuiltCycle l) -> exists o mid, l = o :: mid ++ [o].
Proof.
  intros d e allowed cs l W U H. destruct (build_cycle_report _ _ _ _ _ W H) as (cg & E & R).
  eapply report_closed; [|exact R]. intros p p' c H1 H2.
  apply (U p p' c); apply code_parent_sound, (code_parent_iff d cs cg); assumption.
Qed.

(** Otherwise it may begin with commits outside the cycle: 2 goes on top of both
    4 and 1, and 4 on top of 3, the child of 2. *)
Theorem c59_report_closed_refuted : exists d e allowed cs l, wf_graph (dag_graph d) /\
  build d e allowed cs = Done (BuiltCycle l) /\ head l <> last l.
Proof.
  exists (dag_of [(1, []); (2, [1]); (3, [2]); (4, [1])]%N 1%N), (env_of []), {[2; 3; 4]}%N,
    [MoveSubtree [4; 1] 2; MoveSubtree [3] 4]%N, [1; 2; 3; 4; 2]%N.
  split_and!; [unfold wf_graph; cbn; split_and!; set_solver|vm_compute; reflexivity|discriminate].
Qed.

Example c59_example : exists l,
  build (dag_of line 1%N) (env_of line) ∅ [MoveSubtree [4] 2]%N = Done (BuiltCycle l) /\ l = [2; 3; 4; 2]%N.
Proof. eexists. split; vm_compute; reflexivity. Qed.

(** ** C27: permissions *)

(** The commits that may be rewritten: those asked for and what is above them,
    unless one is public. *)
Theorem c27_allowed : forall d force s allowed, wf_graph (dag_graph d) ->
  verify_rewrite_set d force s = Some allowed ->
  (forall c, c ∈ allowed <-> exists a, a ∈ s /\ ancestor (dag_graph d) a c) /\
  (force = false -> forall c, c ∈ allowed -> ~ public d c).
Proof. exact verify_rewrite_set_spec. Qed.

Theorem c27_refused : forall d force s, wf_graph (dag_graph d) ->
  verify_rewrite_set d force s = None <->
  force = false /\ exists a c, a ∈ s /\ ancestor (dag_graph d) a c /\ public d c.
Proof. exact verify_rewrite_set_none. Qed.

(** Nothing outside the allowed commits is moved. *)
Theorem c27_moves_allowed : forall d e allowed cs dest cmds p c,
  wf_graph (dag_graph d) -> (forall fs, Permutation (pe_sort e fs) (elements fs)) -> targets_stay d cs ->
  build d e allowed cs = Done (BuiltPlan dest cmds) -> new_parent d cs p c -> c ∈ allowed.
Proof.
  intros d e allowed cs dest cmds p c W Hs T H N. destruct (build_permitted _ _ _ _ _ _ W Hs H) as (A & _).
  apply (A c p). now apply code_parent_new.
Qed.

(** Without force no public commit is replayed, except for commits squashed into. *)
Theorem c27_not_public_partial : forall d e s allowed cs dest cmds,
  wf_graph (dag_graph d) -> (forall fs, Permutation (pe_sort e fs) (elements fs)) ->
  verify_rewrite_set d false s = Some allowed ->
  build d e allowed cs = Done (BuiltPlan dest cmds) ->
  forall c, c ∈ replayed cmds -> ~ fixup_target cs c ->
    ~ public d c /\ exists a, a ∈ s /\ ancestor (dag_graph d) a c.
Proof.
  intros d e s allowed cs dest cmds W Hs V H c Hc Nt.
  destruct (verify_rewrite_set_spec _ _ _ _ W V) as [V1 V2].
  destruct (build_permitted _ _ _ _ _ _ W Hs H) as (_ & B & _).
  destruct (B c Hc) as [Ha|Ht]; [|tauto]. split; [now apply V2|now apply V1].
Qed.

(** A plan that would move something else is refused. *)
Theorem c27_outside_refused : forall d e allowed cs,
  wf_graph (dag_graph d) -> targets_stay d cs -> (exists c, moves d cs c /\ c ∉ allowed) ->
  forall dest cmds, build d e allowed cs <> Done (BuiltPlan dest cmds).
Proof.
  intros d e allowed cs W T (c & [p Hp] & Hc) dest cmds H. apply build_plan_inv in H.
  destruct H as (cg & s & Ecg & _ & Ep & _). apply Hc. apply (code_parent_new _ _ _ _ T) in Hp.
  apply (code_parent_iff _ _ _ _ _ W Ecg) in Hp. apply edge_moved in Hp. unfold moved, check_permissions in *.
  destruct (decide (c ∈ allowed)); [assumption|set_solver].
Qed.

(** The claim is false for the commit squashed into: 3 is squashed into the main
    branch 2, which is rewritten although only 3 was verified. *)
Theorem c27_fixup_refuted : exists d e s allowed cs dest cmds c,
  wf_graph (dag_graph d) /\ (forall fs, Permutation (pe_sort e fs) (elements fs)) /\
  verify_rewrite_set d false s = Some allowed /\ build d e allowed cs = Done (BuiltPlan dest cmds) /\
  c ∈ replayed cmds /\ public d c.
Proof.
  assert (V : exists a, verify_rewrite_set (dag_of line 2%N) false {[3%N]} = Some a /\ a = {[3; 4]}%N).
  { exists (descendants line {[3%N]}). split; [vm_compute; reflexivity|]. decide_it. }
  destruct V as (a & V & ->).
  assert (B : exists dest cmds, build (dag_of line 2%N) (env_of line) {[3; 4]}%N [FixUpCommit 2 3]%N = Done (BuiltPlan dest cmds)
              /\ 2%N ∈ replayed cmds).
  { eexists _, _. split; [vm_compute; reflexivity|]. decide_it. }
  destruct B as (dest & cmds & B & R).
  exists (dag_of line 2%N), (env_of line), {[3%N]}, {[3; 4]}%N, [FixUpCommit 2 3]%N, dest, cmds, 2%N.
  split_and!; [exact line_wf|intros fs; apply merge_sort_Permutation|exact V|exact B|exact R|].
  apply public_spec; [exact line_wf|]. decide_it.
Qed.

Example c27_example :
  verify_rewrite_set (dag_of line 3%N) false {[2%N]} = None /\
  (exists s, verify_rewrite_set (dag_of line 3%N) false {[4%N]} = Some s /\ s = {[4%N]}) /\
  (exists s, build (dag_of line 3%N) (env_of line) {[4%N]} [MoveSubtree [5] 2]%N = Done (BuiltIllegal s) /\ sorted_oids s = [2; 3]%N) /\
  (exists cmds, build (dag_of line 3%N) (env_of line) {[4%N]} [MoveSubtree [5] 4]%N = Done (BuiltPlan 5%N cmds)).
Proof.
  split_and!; [vm_compute; reflexivity| | |eexists; vm_compute; reflexivity].
  - exists (descendants line {[4%N]}). split; [vm_compute; reflexivity|]. decide_it.
  - eexists. split; vm_compute; reflexivity.
Qed.

(** ** C28: the commits replayed *)

(** A plan for a request that can be carried out replays no commit twice, only what
    gets a new version, all of that except what is squashed into something else,
    and parents before children. *)
Theorem c28_replayed_partial : forall d e allowed cs dest cmds,
  wf_graph (dag_graph d) -> knows d e -> plannable d e cs ->
  build d e allowed cs = Done (BuiltPlan dest cmds) ->
  NoDup (replayed cmds) /\
  (forall c, c ∈ replayed cmds -> rebuilt d cs c) /\
  (forall c, rebuilt d cs c -> ~ fixed_up cs c -> c ∈ replayed cmds) /\
  (forall l1 c l2 p, replayed cmds = l1 ++ c :: l2 ->
     new_parent d cs p c -> rebuilt d cs p -> ~ fixed_up cs p -> p ∈ l1).
Proof. exact build_replays. Qed.

(** Such a request gets a plan unless it is impossible or not permitted. *)
Theorem c28_planned : forall d e allowed cs,
  wf_graph (dag_graph d) -> knows d e -> plannable d e cs -> gaps_close d cs -> ~ impossible d cs ->
  (forall c, moves d cs c -> c ∈ allowed) -> (exists c, rebuilt d cs c) ->
  exists dest cmds, build d e allowed cs = Done (BuiltPlan dest cmds).
Proof. exact build_total. Qed.

(** Moving subtrees whose first commits are no merges can always be carried out. *)
Theorem c28_subtrees : forall d e allowed cs dest cmds,
  wf_graph (dag_graph d) -> knows d e ->
  (forall c r, pe_replace e !! c = Some r -> exists rc, pe_find e r = Some rc) ->
  Forall (fun x => exists p c, x = MoveSubtree [p] c /\ c ∈ vertices (dag_graph d) /\ ~ merge_commit (dag_graph d) c) cs ->
  build d e allowed cs = Done (BuiltPlan dest cmds) ->
  NoDup (replayed cmds) /\
  (forall c, c ∈ replayed cmds <-> moves d cs c) /\
  (forall l1 c l2 p, replayed cmds = l1 ++ c :: l2 -> new_parent d cs p c -> moves d cs p -> p ∈ l1).
Proof.
  intros d e allowed cs dest cmds W K R F H.
  destruct (subtree_moves_plannable d e cs W F R) as [P _].
  assert (Nt : forall t, ~ fixup_target cs t).
  { intros t [f Hx]. rewrite Forall_forall in F. destruct (F _ Hx) as (p & c & E & _). discriminate. }
  assert (Nf : forall f, ~ fixed_up cs f).
  { intros f [t Hx]. apply (Nt t). exists f. exact Hx. }
  assert (Rb : forall c, rebuilt d cs c <-> moves d cs c). { intros c. unfold rebuilt. pose proof (Nt c). tauto. }
  destruct (build_replays _ _ _ _ _ _ W K P H) as (A & B & C & D). split_and!; [exact A| |].
  - intros c. rewrite <- Rb. split; [apply B|]. intros Hc. apply C; auto.
  - intros l1 c l2 p E Hp Hm. eapply D; eauto. now apply Rb.
Qed.

(** The claim is false for merges: 2 alone is moved to 5; its child, the merge 4 of
    2 and 3, is to go on top of 1, but is not in the plan. *)
Theorem c28_merge_lost_refuted : exists d e allowed cs dest cmds c,
  wf_graph (dag_graph d) /\ knows d e /\ build d e allowed cs = Done (BuiltPlan dest cmds) /\
  moves d cs c /\ ~ fixed_up cs c /\ c ∉ replayed cmds.
Proof.
  set (cs := [MoveSubtree [5] 2; MoveChildren 2 2]%N).
  assert (B : exists dest cmds, build (dag_of diamond 1%N) (env_of diamond) {[2; 3; 4; 5]}%N cs = Done (BuiltPlan dest cmds)
              /\ 4%N ∉ replayed cmds).
  { eexists _, _. split; [vm_compute; reflexivity|]. decide_it. }
  destruct B as (dest & cmds & B & N).
  exists (dag_of diamond 1%N), (env_of diamond), {[2; 3; 4; 5]}%N, cs, dest, cmds, 4%N.
  split_and!; [exact diamond_wf|exact (env_knows _ _ diamond_wf)|exact B| | |exact N].
  - exists 1%N. apply code_parent_sound, code_parent_by; [exact diamond_wf|]. vm_compute. reflexivity.
  - intros [t H]. unfold cs in H. repeat (apply elem_of_cons in H; destruct H as [H|H]; [discriminate|]). now apply elem_of_nil in H.
Qed.

(** 5 is squashed into 2, a parent of the merge 4: the merge is replayed first, with
    the old version of 2 as its parent. *)
Theorem c28_merge_order_refuted : exists d e allowed cs dest cmds c p,
  wf_graph (dag_graph d) /\ knows d e /\ build d e allowed cs = Done (BuiltPlan dest cmds) /\
  new_parent d cs p c /\ rebuilt d cs p /\ ~ fixed_up cs p /\
  exists l1 l2 rest, cmds = l1 ++ Reset_ (AtOid p) :: Merge c rest :: l2 /\ p ∉ replayed l1.
Proof.
  set (cs := [FixUpCommit 2 5]%N).
  assert (B : exists dest cmds, build (dag_of diamond' 1%N) (env_of diamond') {[2; 3; 4; 5]}%N cs = Done (BuiltPlan dest cmds)
              /\ exists l2, cmds = [Reset_ (AtOid 3%N)] ++ Reset_ (AtOid 2%N) :: Merge 4%N [AtOid 3%N] :: l2).
  { eexists _, _. split; [vm_compute; reflexivity|]. eexists. reflexivity. }
  destruct B as (dest & cmds & B & l2 & N).
  exists (dag_of diamond' 1%N), (env_of diamond'), {[2; 3; 4; 5]}%N, cs, dest, cmds, 4%N, 2%N.
  split_and!; [exact diamond'_wf|exact (env_knows _ _ diamond'_wf)|exact B| | | |].
  - apply code_parent_sound, code_parent_by; [exact diamond'_wf|]. vm_compute. reflexivity.
  - right. exists 5%N. constructor.
  - intros [t H]. unfold cs in H. repeat (apply elem_of_cons in H; destruct H as [H|H]; [discriminate|]). now apply elem_of_nil in H.
  - exists [Reset_ (AtOid 3)]%N, l2, [AtOid 3]%N. split; [exact N|]. apply not_elem_of_nil.
Qed.

(** Moving 2 takes the merge 4 along. *)
Example c28_example :
  Forall (fun x => exists p c, x = MoveSubtree [p] c /\ c ∈ vertices diamond /\ ~ merge_commit diamond c) [MoveSubtree [5] 2]%N /\
  build (dag_of diamond 1%N) (env_of diamond) {[2; 4]}%N [MoveSubtree [5] 2]%N =
    Done (BuiltPlan 3 [Reset_ (AtOid 3); Reset_ (AtOid 5); Pick 2 [2]; DetectEmpty 2; CreateLabel "parent-4";
                       Reset_ (AtLabel "parent-4"); Merge 4 [AtOid 3]; RegisterExtra])%N.
Proof.
  split; [|vm_compute; reflexivity]. apply Forall_cons. split; [|constructor].
  exists 5%N, 2%N. split_and!; [reflexivity|decide_it|]. intros (ps & H & L).
  apply (parents_of_spec _ _ _ _ diamond_wf) in H. vm_compute in H. subst ps. cbn in L. lia.
Qed.

(** Squashing 3 into 2 on the line: 3 and 4 go on top of 2. *)
Lemma squash_line : let d := dag_of line 1%N in let cs := [FixUpCommit 2 3]%N in
  (forall t, fixup_target cs t <-> t = 2%N) /\ targets_stay d cs /\
  forall p c, new_parent d cs p c <-> p = 2%N /\ (c = 3%N \/ c = 4%N).
Proof.
  intros d cs.
  assert (E1 : exists cg, add_constraints d cs empty_cg = Done cg /\ commits_to_move cg = {[4%N]}).
  { destruct (on_result_spec (add_constraints d cs empty_cg) (fun cg => bool_decide (commits_to_move cg = {[4%N]}))) as (cg & A & B).
    - vm_compute. reflexivity.
    - exists cg. split; [exact A|]. now apply bool_decide_eq_true in B. }
  assert (E2 : exists cg, build_constraints d cs = Done cg /\ cg_inner cg = {[2 := {[3; 4]}]}%N).
  { destruct (on_result_spec (build_constraints d cs) (fun cg => bool_decide (cg_inner cg = {[2 := {[3; 4]}]}%N))) as (cg & A & B).
    - vm_compute. reflexivity.
    - exists cg. split; [exact A|]. now apply bool_decide_eq_true in B. }
  destruct E1 as (cg1 & E1 & M1), E2 as (cg2 & E2 & M2).
  assert (Rq : forall c, requested d cs c <-> c = 4%N).
  { intros c. rewrite (requested_iff d cs cg1 c line_wf E1), M1. apply elem_of_singleton. }
  assert (Tg : forall t, fixup_target cs t <-> t = 2%N).
  { intros t. split; [|intros ->; exists 3%N; constructor]. intros [f H]. unfold cs in H.
    apply elem_of_list_singleton in H. congruence. }
  assert (St : targets_stay d cs).
  { intros t Ht _ (a & Ha & Hp). apply Tg in Ht. subst t. rewrite Rq, Tg in Ha.
    assert (Ha' : a ∈ ancestors line {[2%N]}).
    { apply ancestors_spec; [exact line_wf|]. exists 2%N. split; [now apply elem_of_singleton|]. now apply tc_rtc. }
    destruct Ha as [-> | ->].
    - revert Ha'. assert (4%N ∉ ancestors line {[2%N]}) by decide_it. tauto.
    - now apply (wf_acyclic line 2%N line_wf) in Hp. }
  assert (Np : forall p c, new_parent d cs p c <-> p = 2%N /\ (c = 3%N \/ c = 4%N)).
  { intros p c. rewrite <- (code_parent_new d cs p c St), (code_parent_iff d cs cg2 p c line_wf E2), M2.
    unfold edge, edges_from. destruct (decide (p = 2%N)) as [-> |N].
    - rewrite lookup_singleton, elem_of_union, !elem_of_singleton. tauto.
    - rewrite lookup_singleton_ne by congruence. rewrite elem_of_empty. tauto. }
  split_and!; assumption.
Qed.

(** Squashing 3 into 2 can be carried out. *)
Example c28_example_fixup :
  plannable (dag_of line 1%N) (env_of line) [FixUpCommit 2 3]%N /\
  build (dag_of line 1%N) (env_of line) {[2; 3; 4]}%N [FixUpCommit 2 3]%N =
    Done (BuiltPlan 1 [Reset_ (AtOid 1); Pick 2 [2; 3]; DetectEmpty 2; CreateLabel "label-3"; Reset_ (AtLabel "label-3");
                       Pick 4 [4]; DetectEmpty 4; Reset_ (AtLabel "label-3"); RegisterExtra])%N.
Proof.
  set (d := dag_of line 1%N). set (cs := [FixUpCommit 2 3]%N). split; [|vm_compute; reflexivity].
  destruct squash_line as (Tg & St & Np). fold d cs in Tg, St, Np.
  assert (Rb : forall c, rebuilt d cs c <-> c = 3%N \/ c = 4%N \/ c = 2%N).
  { intros c. unfold rebuilt, moves. setoid_rewrite Np. rewrite Tg. split.
    - intros [[p [_ [H|H]]]|H]; auto.
    - intros [-> |[-> | ->]]; eauto. }
  constructor.
  - intros c Hc. apply Rb in Hc. destruct Hc as [-> |[-> | ->]]; decide_it.
  - intros c r H. cbn in H. rewrite lookup_empty in H. discriminate.
  - intros p p' c _ H H'. apply Np in H, H'. destruct H, H'. congruence.
  - intros c (ps & H & L) Hc. exfalso. apply (parents_of_spec _ _ _ _ line_wf) in H. apply Rb in Hc.
    destruct Hc as [-> |[-> | ->]]; vm_compute in H; subst ps; cbn in L; lia.
  - intros t Ht. apply Tg in Ht. subst t. exists 1%N, [1%N]. split; [|constructor]. decide_it.
  - exact St.
Qed.

(** ** C29: labels *)

Theorem c29_labels : forall d e allowed cs dest cmds,
  build d e allowed cs = Done (BuiltPlan dest cmds) ->
  NoDup (flat_map label_defs cmds) /\
  forall l1 x l2 l, cmds = l1 ++ x :: l2 -> l ∈ label_uses x -> exists y, y ∈ l1 /\ l ∈ label_defs y.
Proof. exact build_labels. Qed.

(** 2 and 3, merged in 4, go on top of 5. *)
Example c29_example : exists dest cmds,
  build (dag_of diamond 1%N) (env_of diamond) {[2; 3; 4]}%N [MoveSubtree [5] 2; MoveSubtree [5] 3]%N = Done (BuiltPlan dest cmds) /\
  flat_map label_defs cmds = ["parent-3"; "parent-7"] /\ flat_map label_uses cmds = ["parent-3"; "parent-7"].
Proof. eexists _, _. split_and!; vm_compute; reflexivity. Qed.

Print Assumptions c26_terminates.
Print Assumptions c26_cycle_iff_partial.
Print Assumptions c26_cycle_refuted.
Print Assumptions c59_report.
Print Assumptions c27_not_public_partial.
Print Assumptions c27_fixup_refuted.
Print Assumptions c28_replayed_partial.
Print Assumptions c28_planned.
Print Assumptions c28_subtrees.
Print Assumptions c29_labels.
