(** C39, C65, C66: the message of a snapshot, HEAD after restoring it, and keeping it. *)
From Verif Require Import Base StrModel StrProofs Utf8Model TextModel RecordModel TrailerModel TrailerSpec TrailerProofs.
Local Open Scope string_scope.
Local Open Scope list_scope.

(** ** C39 *)

(** A snapshot of any state is recognised, and yields what was stored. *)
Theorem c39_reopened : forall st s, snapshot_ok s -> present st (data_commits s) ->
  try_from_base_commit st (snapshot_message s) = Opened s.
Proof. intros st s H P. exact (proj1 (reopen_trailers st _ s H (snapshot_get_trailers s H)) P). Qed.

(** The same for any other message with the same trailers. *)
Theorem c39_paragraph : forall title ts, title_ok title ->
  Forall (fun kv => key_ok (fst kv) /\ value_ok (snd kv)) ts -> ts <> [] ->
  get_trailers (paragraph title ts) = Some ts.
Proof. exact paragraph_trailers. Qed.

(** Whatever is recognised names all its commits in lines of its message. *)
Theorem c39_recognised : forall st m s, try_from_base_commit st m = Opened s ->
  let names key o := exists v, names_at m key v /\ moid_from_string v = Some (NonZero o) /\ is_Some (st !! o) in
  (forall o, ws_head s = Some o -> names "Branchless-head" o) /\
  (forall r, ws_ref s = Some r -> names_at m "Branchless-head-ref" r) /\
  names "Branchless-unstaged" (ws_unstaged s) /\
  names "Branchless-stage-0" (ws_stage0 s) /\ names "Branchless-stage-1" (ws_stage1 s) /\
  names "Branchless-stage-2" (ws_stage2 s) /\ names "Branchless-stage-3" (ws_stage3 s).
Proof. exact opened_sound. Qed.

(** A commit without one of the five markers is not recognised. *)
Theorem c39_unmarked : forall st m key s,
  key ∈ ["Branchless-unstaged"; "Branchless-stage-0"; "Branchless-stage-1"; "Branchless-stage-2"; "Branchless-stage-3"] ->
  ~ marked m key -> try_from_base_commit st m <> Opened s.
Proof. exact unmarked. Qed.

(** Without error, if the message is text and the head is not named either. *)
Theorem c39_ordinary : forall st m, utf8 m = true -> lacks NUL m ->
  ~ marked m "Branchless-head" -> ~ marked m "Branchless-unstaged" -> try_from_base_commit st m = NotASnapshot.
Proof. exact ordinary. Qed.

(** But a commit that is no snapshot may give an error: if its message names as head a
    commit that does not exist, or is not UTF-8. *)
Theorem c39_error_refuted : exists st m, utf8 m = true /\
  (forall key, key ∈ ["Branchless-unstaged"; "Branchless-stage-0"; "Branchless-stage-1"; "Branchless-stage-2"; "Branchless-stage-3"] ->
     ~ marked m key) /\
  try_from_base_commit st m = OpenError.
Proof.
  exists ∅, (paragraph "Describe the format" [("Branchless-head", "1234567890123456789012345678901234567890")]).
  split_and!; [by vm_compute| |by vm_compute].
  intros key Hk M. apply marked_occurs in M.
  repeat (apply elem_of_cons in Hk as [->|Hk]; [by vm_compute in M|]). by apply elem_of_nil in Hk.
Qed.
Theorem c39_not_utf8 : forall st m, utf8 m = false -> try_from_base_commit st m = OpenError.
Proof. exact no_message. Qed.

Definition a_snapshot : wsnapshot := WSnapshot (Some 1%N) (Some "refs/heads/topic") 2%N 3%N 4%N 5%N 6%N.
Definition unborn_snapshot : wsnapshot := WSnapshot None (Some "refs/heads/main") 2%N 3%N 4%N 5%N 6%N.
Definition six_commits : cstore :=
  list_to_map [(1%N, RCommit [] "first"); (2%N, RCommit [1%N] "u"); (3%N, RCommit [1%N] "0"); (4%N, RCommit [1%N] "1");
    (5%N, RCommit [1%N] "2"); (6%N, RCommit [1%N] "3")].
Lemma small_ok (o : N) : (o <> 0 /\ o < 100)%N -> id_ok o.
Proof. intros [H1 H2]. split; [done|]. etransitivity; [exact H2|]. by vm_compute. Qed.
Ltac ref_ok_tac := split_and!; [discriminate|by vm_compute|apply (bool_decide_unpack _); vm_compute; exact I].
Lemma a_snapshot_ok : snapshot_ok a_snapshot.
Proof.
  unfold snapshot_ok, a_snapshot; cbn. split_and!; try (apply small_ok; by vm_compute).
  - intros o [= <-]. by apply small_ok.
  - intros r [= <-]. ref_ok_tac.
Qed.
Lemma unborn_snapshot_ok : snapshot_ok unborn_snapshot.
Proof.
  unfold snapshot_ok, unborn_snapshot; cbn. split_and!; try (apply small_ok; by vm_compute).
  - intros o [=].
  - intros r [= <-]. ref_ok_tac.
Qed.
Lemma six_present s : s ∈ [a_snapshot; unborn_snapshot] -> present six_commits (data_commits s).
Proof.
  intros Hs o Ho. assert (o ∈ [1; 2; 3; 4; 5; 6]%N) as H.
  { repeat (apply elem_of_cons in Hs as [->|Hs]); [..|by apply elem_of_nil in Hs]; cbn in Ho; set_solver. }
  repeat (apply elem_of_cons in H as [->|H]; [eexists; vm_compute; reflexivity|]). by apply elem_of_nil in H.
Qed.
Example c39_example :
  try_from_base_commit six_commits (snapshot_message a_snapshot) = Opened a_snapshot /\
  try_from_base_commit six_commits (snapshot_message unborn_snapshot) = Opened unborn_snapshot /\
  try_from_base_commit six_commits ("Add a file" +:+ String LF (String LF "Signed-off-by: someone")) = NotASnapshot.
Proof.
  split_and!.
  - apply c39_reopened; [apply a_snapshot_ok|apply six_present; by left].
  - apply c39_reopened; [apply unborn_snapshot_ok|apply six_present; by right; left].
  - apply c39_ordinary; [by vm_compute|by apply (bool_decide_unpack _)|intros M; apply marked_occurs in M; by vm_compute in M..].
Qed.

(** Recognising looks at nothing but the message: the same trailers under another title
    make a snapshot of any commit. *)
Theorem c39_copied : forall st s title, snapshot_ok s -> present st (data_commits s) -> title_ok title ->
  try_from_base_commit st (paragraph title (snapshot_trailers s)) = Opened s.
Proof.
  intros st s title H P T. refine (proj1 (reopen_trailers st _ s H _) P).
  apply paragraph_trailers; [exact T|exact (snapshot_trailers_ok s H)|discriminate].
Qed.
Theorem c39_only_snapshots_refuted : exists st m s, (forall s', m <> snapshot_message s') /\
  try_from_base_commit st m = Opened s.
Proof.
  exists six_commits, (paragraph "Keep my work" (snapshot_trailers a_snapshot)), a_snapshot. split.
  - intros s' E. unfold paragraph, snapshot_message, snapshot_title in E. discriminate.
  - apply c39_copied; [apply a_snapshot_ok|apply six_present; by left|].
    unfold title_ok. split_and!; [by apply (bool_decide_unpack _)|by vm_compute|by apply (bool_decide_unpack _)|..].
    + eexists _, _. split_and!; [reflexivity|by vm_compute|done].
    + intros (c & t & E & _). discriminate.
    + discriminate.
Qed.

(** ** C65 *)

(** Restoring, if no command fails, puts HEAD on the branch and commit at which the snapshot
    was taken, and leaves every other reference alone. *)
Theorem c65_head : forall s0 s1 w ok t,
  (ws_head w, ws_ref w) = get_head_info s0 -> restore_refs ok s1 w = (t, true) ->
  get_head_info t = get_head_info s0 /\
  (forall r, ws_ref w <> Some r -> rs_refs t !! r = rs_refs s1 !! r).
Proof.
  intros s0 s1 w ok t E H. assert (is_Some (ws_head w) \/ is_Some (ws_ref w)) as N.
  { unfold get_head_info in E. destruct (rs_head s0); injection E as -> ->; eauto. }
  destruct (restored_head ok s1 w t H N) as [H1 H2]. split; [|exact H2]. rewrite <- E. by apply head_is_info.
Qed.
(** It always comes to that if no command fails. *)
Theorem c65_succeeds : forall s w ok, (forall n, ok n = true) -> exists t, restore_refs ok s w = (t, true).
Proof. intros s w ok H. eexists. apply run_all. intros i _. apply H. Qed.

(** So the branch is moved back, whatever it points to by now. *)
Theorem c65_branch_refuted : exists s0 s1 w ok t r,
  (ws_head w, ws_ref w) = get_head_info s0 /\ restore_refs ok s1 w = (t, true) /\
  rs_refs s1 !! r = Some 7%N /\ rs_refs t !! r = Some 1%N /\ rs_head s1 = Detached 1%N.
Proof.
  exists (RefState (OnBranch "refs/heads/topic") {["refs/heads/topic" := 1%N]}),
    (RefState (Detached 1%N) {["refs/heads/topic" := 7%N]}), a_snapshot, (fun _ => true).
  eexists _, "refs/heads/topic". split_and!; [by vm_compute|reflexivity|by vm_compute|by vm_compute|done].
Qed.

(** If a command fails, HEAD is left where it was, or detached: at the commit of unstaged
    changes or at the snapshot's head. *)
Theorem c65_stopped : forall s w ok t, restore_refs ok s w = (t, false) ->
  (rs_refs t = rs_refs s /\
    (rs_head t = rs_head s \/ rs_head t = Detached (ws_unstaged w) \/
     exists h, ws_head w = Some h /\ rs_head t = Detached h))
  \/ exists r, ws_ref w = Some r /\ rs_refs t !! r = ws_head w /\
       (forall r', r' <> r -> rs_refs t !! r' = rs_refs s !! r') /\
       exists o, rs_head t = Detached o /\ (ws_head w = Some o \/ ws_head w = None /\ o = ws_unstaged w).
Proof. intros s w ok t. exact (stopped_head ok s w t). Qed.
(** So a failure may leave the user on a commit that they have never seen. *)
Theorem c65_stopped_refuted : exists s w ok t, restore_refs ok s w = (t, false) /\
  rs_head s = OnBranch "refs/heads/main" /\ get_head_info s = (Some 1%N, Some "refs/heads/main") /\
  get_head_info t = (Some (ws_unstaged w), None).
Proof.
  exists (RefState (OnBranch "refs/heads/main") {["refs/heads/main" := 1%N]}), a_snapshot, (fun n => Nat.ltb n 2).
  eexists. split_and!; [reflexivity|done|by vm_compute|by vm_compute].
Qed.
Example c65_example : exists t,
  restore_refs (fun _ => true) (RefState (Detached 5%N) {["refs/heads/main" := 1%N]}) unborn_snapshot = (t, true) /\
  get_head_info t = (None, Some "refs/heads/main").
Proof. eexists. split; [reflexivity|]. by vm_compute. Qed.

(** ** C66 *)

(** As long as the snapshot's commit is referenced, Git's garbage collection keeps it and
    the commits of HEAD and of the index; so it can still be opened, if the commit of the
    unstaged changes is reachable as well ... *)
Theorem c66_partial : forall st roots keep b s, snapshot_ok s -> present st (data_commits s) ->
  st !! b = Some (snapshot_commit s) -> b ∈ roots -> keeps st roots keep ->
  reachable st roots (ws_unstaged s) ->
  collect keep st !! b = Some (snapshot_commit s) /\
  try_from_base_commit (collect keep st) (snapshot_message s) = Opened s.
Proof.
  intros st roots keep b s H P E Hb K R. destruct (collected st roots keep b s H P E Hb K) as (H1 & H2 & _). auto.
Qed.
(** ... and not otherwise: that commit is not among the parents of the snapshot. *)
Theorem c66_lost : forall st roots keep b s, snapshot_ok s -> present st (data_commits s) ->
  st !! b = Some (snapshot_commit s) -> b ∈ roots -> keeps st roots keep ->
  ~ reachable st roots (ws_unstaged s) ->
  collect keep st !! b = Some (snapshot_commit s) /\
  try_from_base_commit (collect keep st) (snapshot_message s) = OpenError.
Proof.
  intros st roots keep b s H P E Hb K R. destruct (collected st roots keep b s H P E Hb K) as (H1 & _ & H2). auto.
Qed.
Definition taken : cstore := <[7%N := snapshot_commit a_snapshot]> six_commits.
Lemma taken_present : present taken (data_commits a_snapshot).
Proof.
  intros o Ho. assert (o ∈ [1; 2; 3; 4; 5; 6]%N) as H by (cbn in Ho; set_solver).
  repeat (apply elem_of_cons in H as [->|H]; [eexists; vm_compute; reflexivity|]). by apply elem_of_nil in H.
Qed.
Lemma taken_parents c p : parent_of taken c p ->
  (c = 7%N /\ p ∈ [1; 3; 4; 5; 6]%N) \/ (c ∈ [2; 3; 4; 5; 6]%N /\ p = 1%N).
Proof.
  intros (x & E & Hp). unfold taken in E.
  destruct (decide (c = 7%N)) as [->|N]; [rewrite lookup_insert in E; injection E as <-; left; by split|].
  rewrite lookup_insert_ne in E by done. unfold six_commits in E. apply elem_of_list_to_map_2 in E. right.
  repeat (apply elem_of_cons in E as [[= -> ->]|E]; [cbn in Hp; set_solver|]). by apply elem_of_nil in E.
Qed.
Lemma taken_reachable o : reachable taken [7%N] o <-> o ∈ [1; 3; 4; 5; 6; 7]%N.
Proof.
  split.
  - intros (r & Hr & H). apply elem_of_list_singleton in Hr as ->.
    assert (forall c d, rtc (parent_of taken) c d -> c ∈ [1; 3; 4; 5; 6; 7]%N -> d ∈ [1; 3; 4; 5; 6; 7]%N) as G.
    { induction 1 as [|c p d Hp _ IH]; [done|]. intros Hc. apply IH. apply taken_parents in Hp. set_solver. }
    apply (G _ _ H). set_solver.
  - intros H. exists 7%N. split; [by left|].
    assert (o = 7%N \/ o ∈ [1; 3; 4; 5; 6]%N) as [->|H'] by set_solver; [constructor|].
    apply rtc_once. exists (snapshot_commit a_snapshot). split; [apply lookup_insert|]. exact H'.
Qed.
Theorem c66_refuted : exists st roots keep b s, snapshot_ok s /\ present st (data_commits s) /\
  st !! b = Some (snapshot_commit s) /\ b ∈ roots /\ keeps st roots keep /\
  try_from_base_commit st (snapshot_message s) = Opened s /\
  try_from_base_commit (collect keep st) (snapshot_message s) = OpenError.
Proof.
  exists taken, [7%N], (list_to_set [1; 3; 4; 5; 6; 7]%N), 7%N, a_snapshot.
  assert (keeps taken [7%N] (list_to_set [1; 3; 4; 5; 6; 7]%N)) as K.
  { intros o. rewrite taken_reachable. apply elem_of_list_to_set. }
  split_and!; [apply a_snapshot_ok|apply taken_present|apply lookup_insert|by left|exact K|..].
  - apply c39_reopened; [apply a_snapshot_ok|apply taken_present].
  - eapply (c66_lost taken [7%N]); [apply a_snapshot_ok|apply taken_present|apply lookup_insert|by left|exact K|].
    rewrite taken_reachable. set_solver.
Qed.
(** With a reference to that commit, too, it can be opened. *)
Example c66_example :
  keeps taken [7; 2]%N (list_to_set [1; 2; 3; 4; 5; 6; 7]%N) /\ reachable taken [7; 2]%N (ws_unstaged a_snapshot) /\
  try_from_base_commit (collect (list_to_set [1; 2; 3; 4; 5; 6; 7]%N) taken) (snapshot_message a_snapshot) = Opened a_snapshot.
Proof.
  assert (reachable taken [7; 2]%N 2%N) as R by (exists 2%N; split; [set_solver|constructor]).
  assert (keeps taken [7; 2]%N (list_to_set [1; 2; 3; 4; 5; 6; 7]%N)) as K.
  { intros o. rewrite elem_of_list_to_set. split.
    - intros H. destruct (decide (o = 2%N)) as [->|N]; [exact R|].
      destruct (proj2 (taken_reachable o)) as (r & Hr & P); [set_solver|]. exists r. split; [set_solver|exact P].
    - intros (r & Hr & P).
      assert (forall c d, rtc (parent_of taken) c d -> c ∈ [1; 2; 3; 4; 5; 6; 7]%N -> d ∈ [1; 2; 3; 4; 5; 6; 7]%N) as G.
      { induction 1 as [|c p d Hp _ IH]; [done|]. intros Hc. apply IH. apply taken_parents in Hp. set_solver. }
      apply (G _ _ P). set_solver. }
  split_and!; [exact K|exact R|].
  eapply (c66_partial taken [7; 2]%N); [apply a_snapshot_ok|apply taken_present|apply lookup_insert|by left|exact K|exact R].
Qed.

Print Assumptions c39_reopened.
Print Assumptions c39_paragraph.
Print Assumptions c39_recognised.
Print Assumptions c39_unmarked.
Print Assumptions c39_ordinary.
Print Assumptions c39_error_refuted.
Print Assumptions c39_not_utf8.
Print Assumptions c39_copied.
Print Assumptions c39_only_snapshots_refuted.
Print Assumptions c65_head.
Print Assumptions c65_succeeds.
Print Assumptions c65_branch_refuted.
Print Assumptions c65_stopped.
Print Assumptions c65_stopped_refuted.
Print Assumptions c66_partial.
Print Assumptions c66_lost.
Print Assumptions c66_refuted.
