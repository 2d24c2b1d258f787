(** Proofs about checking out the place reached. *)
From Verif Require Import Base StrModel TextModel TextProofs EventLogModel EventLogRefProofs EvolveModel DagModel
  DagSpec DagProofs DagCompProofs TrailerModel NavModel NavSpec NavProofs.

Local Arguments strip_prefix _ _ : simpl never.
Local Arguments heads_prefix : simpl never.

Lemma head_info s : fst (get_head_info s) = head_at s.
Proof. unfold get_head_info, head_at. now destruct (rs_head s). Qed.

Lemma is_branch_spec r : is_branch r = true <-> local_branch r.
Proof.
  unfold is_branch, local_branch. destruct (strip_prefix heads_prefix r) as [n|] eqn:E.
  - apply strip_prefix_spec in E. split; [intros _; exists n; exact E|reflexivity].
  - split; [discriminate|]. intros [n ->].
    rewrite (proj2 (strip_prefix_spec heads_prefix _ n) eq_refl) in E. discriminate.
Qed.
Lemma render_suffix_branch n : render_suffix (heads_prefix +:+ n) = n.
Proof. unfold render_suffix. now rewrite (proj2 (strip_prefix_spec heads_prefix _ n) eq_refl). Qed.

Lemma branches_at_elem s o r : r ∈ branches_at s o <-> local_branch r /\ rs_refs s !! r = Some o.
Proof.
  unfold branches_at. rewrite elem_of_list_In, in_map_iff. split.
  - intros ([r' o'] & <- & H). apply filter_In in H. destruct H as [H B].
    apply andb_prop in B. destruct B as [B1 B2]. apply is_branch_spec in B1. cbn in B1, B2.
    apply N.eqb_eq in B2. subst. split; [exact B1|]. apply elem_of_map_to_list. now apply elem_of_list_In.
  - intros [B H]. exists (r, o). split; [reflexivity|]. apply filter_In. split.
    + apply elem_of_list_In. now apply elem_of_map_to_list.
    + cbn. apply is_branch_spec in B. rewrite B. apply N.eqb_refl.
Qed.
Lemma nodup_map_filter {A B} (f : A -> B) (p : A -> bool) l : NoDup (List.map f l) -> NoDup (List.map f (List.filter p l)).
Proof.
  induction l as [|x l IH]; cbn; [auto|]. intros H. apply NoDup_cons in H. destruct H as [H1 H2].
  destruct (p x); cbn; [|auto]. apply NoDup_cons. split; [|auto]. intros H. apply H1.
  apply elem_of_list_In. apply elem_of_list_In in H. apply in_map_iff in H. destruct H as (y & E & Hy).
  apply filter_In in Hy. apply in_map_iff. exists y. tauto.
Qed.
Lemma branches_at_nodup s o : NoDup (branches_at s o).
Proof. apply nodup_map_filter. apply NoDup_fst_map_to_list. Qed.
Lemma branches_at_only s o r : branches_at s o = [r] <-> only_branch s o r.
Proof.
  unfold only_branch. split.
  - intros E r'. rewrite <- branches_at_elem, E. apply elem_of_list_singleton.
  - intros H. pose proof (branches_at_nodup s o) as ND.
    assert (E : forall r', r' ∈ branches_at s o <-> r' = r) by (intros r'; rewrite branches_at_elem; apply H).
    destruct (branches_at s o) as [|a [|b l]].
    + exfalso. apply (elem_of_nil r). now apply E.
    + f_equal. apply E. left.
    + exfalso. assert (a = r) by (apply E; left). assert (b = r) by (apply E; right; left). subst.
      apply NoDup_cons in ND. destruct ND as [ND _]. apply ND. left.
Qed.
Lemma branches_not_only s o b : (forall r, ~ only_branch s o r) ->
  match branches_at s o with [r] => Some (render_suffix r) | _ => b end = b.
Proof.
  intros H. destruct (branches_at s o) as [|r [|r' l]] eqn:E; try reflexivity.
  exfalso. apply (H r). now apply branches_at_only.
Qed.

Lemma oid_text_inj a b : oid_ok a -> oid_ok b -> oid_to_string a = oid_to_string b -> a = b.
Proof.
  intros Ha Hb E. assert (X : moid_from_string (moid_to_string (NonZero a)) = moid_from_string (moid_to_string (NonZero b))).
  { cbn [moid_to_string]. now rewrite E. }
  rewrite !moid_text_round_trip in X by assumption. now injection X.
Qed.

Definition head_ok (s : refstate) : Prop := forall h, head_at s = Some h -> oid_ok h.

(** The name chosen for a commit. *)
Lemma name_of_commit s o : oid_ok o -> head_ok s ->
  (forall r, head_at s <> Some o -> only_branch s o r ->
     maybe_get_branch_name s (Some (oid_to_string o)) (Some o) = Some (render_suffix r)) /\
  (head_at s = Some o \/ (forall r, ~ only_branch s o r) ->
     maybe_get_branch_name s (Some (oid_to_string o)) (Some o) = Some (oid_to_string o)).
Proof.
  intros Ho Hs. unfold maybe_get_branch_name. rewrite head_info. split.
  - intros r Hh Hr. replace (match head_at s with
      | Some h => bool_decide (Some o = Some h) || (oid_to_string o =? oid_to_string h)%string
      | None => false end) with false.
    + apply branches_at_only in Hr. now rewrite Hr.
    + destruct (head_at s) as [h|] eqn:E; [|reflexivity]. symmetry. apply orb_false_intro.
      * apply bool_decide_eq_false. congruence.
      * apply String.eqb_neq. intros X. apply Hh. f_equal. symmetry. apply oid_text_inj; [exact Ho|now apply Hs|exact X].
  - intros [E|N].
    + rewrite E. rewrite bool_decide_true by reflexivity. reflexivity.
    + rewrite branches_not_only by exact N.
      destruct (match head_at s with Some h => _ | None => false end); reflexivity.
Qed.
Lemma name_of_text s t : maybe_get_branch_name s (Some t) None = Some t.
Proof. unfold maybe_get_branch_name. rewrite head_info.
  destruct (match head_at s with Some h => _ | None => false end); reflexivity.
Qed.

Lemma checkout_commit rev s o : rev_ok rev -> names_ok s -> oid_ok o ->
  git_checkout rev s (Some (oid_to_string o)) no_args = Some (RefState (Detached o) (rs_refs s)).
Proof.
  intros R N Ho. unfold git_checkout. rewrite (N o Ho), (R o Ho). reflexivity.
Qed.
Lemma checkout_branch rev s o r : local_branch r -> rs_refs s !! r = Some o ->
  git_checkout rev s (Some (render_suffix r)) no_args = Some (RefState (OnBranch r) (rs_refs s)).
Proof.
  intros [n ->] H. unfold git_checkout. rewrite render_suffix_branch, H. reflexivity.
Qed.
Lemma only_branch_there s o r : only_branch s o r -> local_branch r /\ rs_refs s !! r = Some o.
Proof. intros H. apply H. reflexivity. Qed.

(** Checking out a commit by its id. *)
Lemma check_out_oid rev auto s o : rev_ok rev -> names_ok s -> oid_ok o -> head_ok s ->
  (forall r, auto = true -> head_at s <> Some o -> only_branch s o r ->
     check_out_commit rev auto s (Some (TOid o)) no_args = Some (RefState (OnBranch r) (rs_refs s))) /\
  (auto = false \/ head_at s = Some o \/ (forall r, ~ only_branch s o r) ->
     check_out_commit rev auto s (Some (TOid o)) no_args = Some (RefState (Detached o) (rs_refs s))).
Proof.
  intros R N Ho Hs. destruct (name_of_commit s o Ho Hs) as [A B]. unfold check_out_commit, target_text. split.
  - intros r -> Hh Hr. rewrite (A r Hh Hr). apply only_branch_there in Hr.
    eapply checkout_branch; [exact (proj1 Hr)|exact (proj2 Hr)].
  - intros [->|H]; [now apply checkout_commit|]. destruct auto; [|now apply checkout_commit].
    rewrite (B H). now apply checkout_commit.
Qed.
Lemma only_branch_dec s o : (exists r, only_branch s o r) \/ (forall r, ~ only_branch s o r).
Proof.
  destruct (branches_at s o) as [|r [|r' l]] eqn:E.
  - right. intros r H. apply branches_at_only in H. congruence.
  - left. exists r. now apply branches_at_only.
  - right. intros r0 H. apply branches_at_only in H. congruence.
Qed.

Lemma check_out_lands rev auto s o : rev_ok rev -> names_ok s -> oid_ok o -> head_ok s ->
  exists s', check_out_commit rev auto s (Some (TOid o)) no_args = Some s' /\
    head_at s' = Some o /\ rs_refs s' = rs_refs s /\
    (rs_head s' = Detached o \/ exists r, only_branch s o r /\ rs_head s' = OnBranch r).
Proof.
  intros R N Ho Hs. destruct (check_out_oid rev auto s o R N Ho Hs) as [A B].
  destruct (decide (head_at s = Some o)) as [E|E].
  { eexists. split; [apply B; auto|]. cbn. auto. }
  destruct (only_branch_dec s o) as [[r Hr]|X]; [destruct auto|].
  - eexists. split; [apply (A r); auto|]. unfold head_at. cbn. apply only_branch_there in Hr as Hr'.
    split; [tauto|]. split; [reflexivity|]. right. exists r. auto.
  - eexists. split; [apply B; auto|]. cbn. auto.
  - eexists. split; [apply B; auto|]. cbn. auto.
Qed.

Lemma check_out_ref rev auto s o r : only_branch s o r ->
  check_out_commit rev auto s (Some (TRef r)) no_args = Some (RefState (OnBranch r) (rs_refs s)).
Proof.
  intros Hr. apply only_branch_there in Hr. destruct Hr as [B H].
  unfold check_out_commit, target_text. destruct auto; [rewrite name_of_text|];
    now apply (checkout_branch rev s o).
Qed.

Lemma move_target_lands rev auto s dist o : rev_ok rev -> names_ok s -> oid_ok o -> head_ok s ->
  exists s', check_out_commit rev auto s (Some (move_target s dist o)) no_args = Some s' /\
    head_at s' = Some o /\ rs_refs s' = rs_refs s /\
    (rs_head s' = Detached o \/ exists r, only_branch s o r /\ rs_head s' = OnBranch r).
Proof.
  intros R N Ho Hs.
  assert (C : move_target s dist o = TOid o \/ exists r, only_branch s o r /\ move_target s dist o = TRef r).
  { destruct dist as [k []|[]]; cbn [move_target]; auto.
    all: destruct (branches_at s o) as [|r [|r' l]] eqn:E; auto.
    all: right; exists r; split; [now apply branches_at_only|reflexivity]. }
  destruct C as [->|(r & Hr & ->)]; [now apply check_out_lands|].
  eexists. split; [now apply (check_out_ref rev auto s o)|]. apply only_branch_there in Hr as Hr'.
  unfold head_at. cbn. split; [tauto|]. split; [reflexivity|]. right. exists r. auto.
Qed.

(** ** Options *)
Lemma read_distance_spec p dist : read_distance p = Some dist <-> asked_distance p dist.
Proof.
  destruct p as [num all br o n i]. unfold read_distance, asked_distance.
  cbn [no_all no_num no_branches]. destruct all, num as [k|].
  - split; [discriminate|]. destruct dist as [k' b|b]; cbn; intros (_ & H & H'); discriminate.
  - split.
    + intros [= <-]. cbn. auto.
    + destruct dist as [k' b|b]; cbn; intros (H & H' & H''); [discriminate|]. now subst.
  - split.
    + intros [= <-]. cbn. auto.
    + destruct dist as [k' b|b]; cbn; intros (H & H' & H''); [|discriminate].
      destruct H'' as [[= ->]|[? _]]; [now subst|discriminate].
  - split.
    + intros [= <-]. cbn. auto.
    + destruct dist as [k' b|b]; cbn; intros (H & H' & H''); [|discriminate].
      destruct H'' as [?|[_ ->]]; [discriminate|now subst].
Qed.
Lemma read_towards_spec p t : read_towards p = Some t <-> asked_towards p t.
Proof.
  destruct p as [num all br o n i]. unfold read_towards, asked_towards.
  cbn [no_oldest no_newest no_interactive]. destruct o, n, i, t as [[]|]; split;
    try discriminate; try (intros (? & ? & ?); discriminate); auto.
Qed.
