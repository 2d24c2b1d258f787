(** Property C28, continued: the check of a plan. *)
From stdpp Require Import sorting relations.
From Verif Require Import Base DagModel DagSpec DagProofs PlanModel PlanSpec PlanProofs PlanDfsProofs PlanBuildProofs PlanProps PlanCheckModel.
Local Open Scope list_scope.

(** The commits in the warning are those which are to move and are neither replayed nor
    applied with another. *)
Theorem c28_warning : forall d e allowed cs dest cmds, wf_graph (dag_graph d) -> targets_stay d cs ->
  build d e allowed cs = Done (BuiltPlan dest cmds) ->
  forall c, c ∈ build_warning d e allowed cs <->
    moves d cs c /\ c ∉ replayed cmds /\ forall x, x ∈ cmds -> c ∉ applies x.
Proof.
  intros d e allowed cs dest cmds W T HB c. pose proof (build_plan_inv _ _ _ _ _ _ HB) as (cg & s & Ecg & _).
  destruct (build_constraints_spec d cs W) as (_ & _ & H3). destruct (H3 cg Ecg) as (_ & Ht & He).
  destruct (node_rebuilt d cs cg T Ht He) as [HM _]. unfold build_warning. rewrite Ecg, HB. unfold missing_commits.
  rewrite elem_of_difference, elem_of_list_to_set. fold (moved cg c). rewrite HM.
  assert (I : c ∈ flat_map included cmds <-> c ∈ replayed cmds \/ exists x, x ∈ cmds /\ c ∈ applies x).
  { unfold replayed. rewrite !elem_of_list_In, !in_flat_map. split.
    - intros (x & Hx & Hc). apply elem_of_list_In in Hx. apply elem_of_list_In in Hc.
      destruct x; cbn in Hc; try (by apply elem_of_nil in Hc); try (apply elem_of_cons in Hc as [->|Hc]);
        try (left; eexists; split; [apply elem_of_list_In; exact Hx|left; reflexivity]); try (by apply elem_of_nil in Hc).
      right. eexists. split; [exact Hx|exact Hc].
    - intros [(x & Hx & Hc)|(x & Hx & Hc)].
      + exists x. split; [exact Hx|]. destruct x; cbn in Hc |- *; tauto.
      + exists x. split; [by apply elem_of_list_In|]. apply elem_of_list_In in Hc. destruct x; cbn in Hc |- *; tauto. }
  rewrite I. split.
  - intros [M N]. split; [exact M|]. split; [tauto|]. intros x Hx Hc. apply N. right. eauto.
  - intros (M & N1 & N2). split; [exact M|]. intros [H|(x & Hx & Hc)]; [tauto|exact (N2 x Hx Hc)].
Qed.

(** There is none for a request that can be carried out and squashes nothing. *)
Theorem c28_no_warning : forall d e allowed cs dest cmds,
  wf_graph (dag_graph d) -> knows d e -> plannable d e cs -> (forall c, ~ fixed_up cs c) ->
  build d e allowed cs = Done (BuiltPlan dest cmds) -> build_warning d e allowed cs = ∅.
Proof.
  intros d e allowed cs dest cmds W K P Nf HB. apply set_eq. intros c. split; [|intros H; by apply elem_of_empty in H].
  intros H. exfalso. apply (c28_warning _ _ _ _ _ _ W (pl_stay _ _ _ P) HB) in H as (M & N & _). apply N.
  destruct (c28_replayed_partial _ _ _ _ _ _ W K P HB) as (_ & _ & R & _). apply R; [by left|apply Nf].
Qed.

(** The merge lost in [c28_merge_lost_refuted] is noticed, but the plan is carried out. *)
Theorem c28_lost_noticed : exists d e allowed cs dest cmds c,
  wf_graph (dag_graph d) /\ knows d e /\ build d e allowed cs = Done (BuiltPlan dest cmds) /\
  moves d cs c /\ c ∉ replayed cmds /\ build_warning d e allowed cs = {[c]}.
Proof.
  set (cs := [MoveSubtree [5] 2; MoveChildren 2 2]%N).
  assert (B : exists dest cmds, build (dag_of diamond 1%N) (env_of diamond) {[2; 3; 4; 5]}%N cs = Done (BuiltPlan dest cmds)
              /\ 4%N ∉ replayed cmds).
  { eexists _, _. split; [vm_compute; reflexivity|]. decide_it. }
  destruct B as (dest & cmds & B & N).
  exists (dag_of diamond 1%N), (env_of diamond), {[2; 3; 4; 5]}%N, cs, dest, cmds, 4%N.
  split_and!; [exact diamond_wf|exact (env_knows _ _ diamond_wf)|exact B| |exact N|].
  - exists 1%N. apply code_parent_sound, code_parent_by; [exact diamond_wf|]. vm_compute. reflexivity.
  - decide_it.
Qed.

Example c28_no_warning_example : exists dest cmds,
  build (dag_of diamond 1%N) (env_of diamond) {[2; 3; 4; 5]}%N [MoveSubtree [5] 2]%N = Done (BuiltPlan dest cmds) /\
  4%N ∈ replayed cmds /\ build_warning (dag_of diamond 1%N) (env_of diamond) {[2; 3; 4; 5]}%N [MoveSubtree [5] 2]%N = ∅.
Proof. eexists _, _. split; [vm_compute; reflexivity|]. split; decide_it. Qed.

Print Assumptions c28_warning.
Print Assumptions c28_no_warning.
Print Assumptions c28_lost_noticed.
