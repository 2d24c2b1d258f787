(** Property C91: [git test fix]. *)
From stdpp Require Import sorting relations countable.
From Verif Require Import Base TextModel EventLogModel EventLogSpec EventLogProofs EvolveModel EvolveSpec
  DagModel DagSpec DagProofs DagCompProofs StrModel StrProofs HookModel HookSpec PlanModel PlanSpec PlanProofs PlanBuildProofs PlanProps ExecModel ExecSpec ExecAfterProofs ExecProps
  HideModel HideSpec HideProofs HideProps RestackModel RestackSpec RestackProofs RestackProps SyncModel SyncSpec SyncProofs SyncProps
  MoveModel MoveSpec MoveProofs MoveProps ModeModel TreeModel SnapModel AmendModel AmendSpec AmendProofs TestCacheModel FixModel FixSpec FixProofs.
Local Open Scope string_scope.
Local Open Scope list_scope.

(** ** C91 *)

(** When it ends well, the commits the command changed have the contents it left, those
    above keep theirs, and all are put on what their parents became; the report tells what
    became of each commit that was to be fixed. *)
Theorem c91_fixed : forall s r tested outs ts i dry, fixable s r tested outs -> let res := test_fix s ts (TxId i) dry tested outs r in
  fr_end res = Fixed -> exists rw, fr_rewritten res = Some rw /\ fixes_done (fs_restack s) r outs rw (fr_repo res) /\
    forall c x, (c, x) ∈ fr_report res <-> to_fix (rr_store r) outs c /\ rw !! c = Some x.
Proof.
  intros s r tested outs ts i dry A res. unfold res. pose proof (fix_ends s r tested outs ts i dry A) as E. destruct (test_fix _ _ _ _ _ _ _) as [r' rwo rep en].
  cbn [fr_end fr_rewritten fr_repo fr_report]. intros ->. destruct E as [(_ & _ & E) _]. exact E.
Qed.

(** Otherwise no reference, no event and not HEAD changes, and no commit is lost; it tells
    of a reason only if that is the case. *)
Theorem c91_otherwise : forall s r tested outs ts i dry, fixable s r tested outs -> workable (fs_restack s) r -> trees_there s outs ->
  let res := test_fix s ts (TxId i) dry tested outs r in fr_end res <> Fixed ->
  only_commits r (fr_repo res) /\
  match fr_end res with
  | OnDiskRefused => re_on_disk (fs_restack s) = true
  | FixesPublic => re_force (fs_restack s) = false /\ exists c, c ∈ tested /\ is_public (fs_restack s) r c
  | TestsFailed => exists c x, (c, x) ∈ outs /\ not_passed x
  | FixPanics => exists c, to_fix (rr_store r) outs c /\ parents_of (he_graph (re_hide (fs_restack s))) c = []
  | NoFixes => forall c, ~ to_fix (rr_store r) outs c
  | DryRun => dry = true
  | _ => False
  end.
Proof.
  intros s r tested outs ts i dry A K T res. unfold res. pose proof (fix_ends s r tested outs ts i dry A) as E. destruct (test_fix _ _ _ _ _ _ _) as [r' rwo rep en].
  cbn [fr_end fr_rewritten fr_repo fr_report]. intros N. destruct E as [E _].
  assert (S : only_commits r r) by (split; reflexivity).
  destruct en; try contradiction; try (destruct (E (conj K T))).
  - destruct E as [E ->]. auto.
  - destruct E as [E ->]. auto.
  - destruct E as [E ->]. auto.
  - destruct E as (E & _ & O). auto.
  - destruct E as (E & _ & O). auto.
  - destruct E as (E & _ & _ & O & _). auto.
Qed.

(** If all tests passed, no commit tested is public or that is allowed, no commit to fix is a root
    and [--on-disk] was not given, then everything is fixed that is to be. *)
Theorem c91_through : forall s r tested outs ts i, fixable s r tested outs -> workable (fs_restack s) r -> trees_there s outs ->
  re_on_disk (fs_restack s) = false -> (re_force (fs_restack s) = true \/ forall c, c ∈ tested -> ~ is_public (fs_restack s) r c) ->
  (forall c x, (c, x) ∈ outs -> ~ not_passed x) ->
  (forall c, to_fix (rr_store r) outs c -> parents_of (he_graph (re_hide (fs_restack s))) c <> []) ->
  let en := fr_end (test_fix s ts (TxId i) false tested outs r) in
  (en = Fixed /\ exists c, to_fix (rr_store r) outs c) \/ (en = NoFixes /\ forall c, ~ to_fix (rr_store r) outs c).
Proof.
  intros s r tested outs ts i A K T Od Pu Ps Ro en. unfold en. pose proof (fix_ends s r tested outs ts i false A) as E. destruct (test_fix _ _ _ _ _ _ _) as [r' rwo rep en'].
  cbn [fr_end]. destruct E as [E _]. destruct en'; try contradiction; try (destruct (E (conj K T))).
  - destruct E as [E _]. congruence.
  - destruct E as [[E (c & Hc & P)] _]. destruct Pu as [Pu|Pu]; [congruence|destruct (Pu c Hc P)].
  - destruct E as [(c & x & H & N) _]. destruct (Ps c x H N).
  - destruct E as [(c & H & N) _]. destruct (Ro c H N).
  - right. split; [reflexivity|apply E].
  - destruct E as [E _]. discriminate.
  - left. split; [reflexivity|apply E].
Qed.

(** Public commits are rewritten only if that is allowed. *)
Theorem c91_public : forall s r tested outs ts i dry rw c, fixable s r tested outs -> let res := test_fix s ts (TxId i) dry tested outs r in
  fr_rewritten res = Some rw -> fr_end res = Fixed -> re_force (fs_restack s) = false -> is_Some (rw !! c) -> ~ is_public (fs_restack s) r c.
Proof.
  intros s r tested outs ts i dry rw c A res Er Ee F Hc. revert Er Ee. unfold res. pose proof (fix_ends s r tested outs ts i dry A) as E.
  destruct (test_fix _ _ _ _ _ _ _) as [r' rwo rep en]. cbn [fr_end fr_rewritten]. intros -> ->. destruct E as ((_ & _ & rw' & [= <-] & D & _) & _ & P & _).
  assert (Tst : forall o, to_fix (rr_store r) outs o -> o ∈ tested). { intros o (t & (cached & f & k & H & _) & _). exact (fa_outs _ _ _ _ A _ _ H). }
  apply (fd_which _ _ _ _ _ D) in Hc. destruct Hc as [Hc|(o & Ho & _ & Hc)]; [now apply (P F), Tst|].
  intros (m & Hm & An). apply (P F o (Tst o Ho)). exists m. split; [exact Hm|]. etransitivity; [apply tc_rtc, Hc|exact An].
Qed.

(** A dry run tells which commits would be fixed, each with a commit that differs in its contents only. *)
Theorem c91_dry_run : forall s r tested outs ts i dry, fixable s r tested outs -> let res := test_fix s ts (TxId i) dry tested outs r in
  fr_end res = DryRun -> dry = true /\ only_commits r (fr_repo res) /\
  forall c x, (c, x) ∈ fr_report res <-> exists t orig n, changes (rr_store r) outs c t /\ rr_store r !! c = Some orig /\ x = NonZero n /\
    rr_store (fr_repo res) !! n = Some (mk_object (mk_commit (commit_parents (ob_commit orig)) t) (ob_author orig) (ob_committer orig) (ob_message orig)).
Proof.
  intros s r tested outs ts i dry A res. unfold res. pose proof (fix_ends s r tested outs ts i dry A) as E. destruct (test_fix _ _ _ _ _ _ _) as [r' rwo rep en].
  cbn [fr_end fr_rewritten fr_repo fr_report]. intros ->. destruct E as [(E1 & _ & _ & E2 & E3) _]. split; [exact E1|]. split; [exact E2|exact E3].
Qed.

(** ** An example *)
Local Open Scope N_scope.
(** On main, which is at 1, are 2 and 3, their merge 4, where HEAD is with the branch [a],
    and 5.  The command changes 2 and leaves 3 and 4 as they are. *)
Definition fxd_graph : graph := [(1, []); (2, [1]); (3, [1]); (4, [2; 3]); (5, [4])].
Definition fxd_more : list (oid * object) :=
  [(6, mk_object (mk_commit [1] 60) 22 32 42); (7, mk_object (mk_commit [1] 60) 22 33 42);
   (8, mk_object (mk_commit [7; 3] 14) 24 35 44); (9, mk_object (mk_commit [8] 15) 25 36 45)].
Definition fxd_setting (g : graph) (more : list (oid * object)) : fix_setting :=
  mk_fs (mdemo_env g (objects_in g ++ more) (picks []) (fun _ _ => Conflict)) yes.
Definition fxd_log (l : list oid) : list event := List.map (CommitEvent 1%Z (TxId 1%Z)) l.
Definition fxd : rrepo := rdemo_repo fxd_graph [("refs/heads/main", 1); ("refs/heads/a", 4)] (mk_head (Some 4) (Some "refs/heads/a")) (fxd_log [2; 3; 4; 5]).
Definition left_tree (c t : oid) : oid * outcome := (c, OPassed false (mk_fi None (Some t)) false).
Definition fxd_outs : list (oid * outcome) := [left_tree 2 60; left_tree 3 13; left_tree 4 14].
Lemma fxd_fixable g more refs head log outs (tested : commit_set) : ordered_from ∅ g = true ->
  rdemo_good g (objects_in g ++ more) (rdemo_repo g refs head log) = true ->
  bool_decide (tested ⊆ list_to_set (List.map fst g)) = true -> bool_decide (list_to_set (List.map fst outs) ⊆ tested) = true ->
  bool_decide (NoDup (List.map fst outs)) = true -> fixable (fxd_setting g more) (rdemo_repo g refs head log) tested outs.
Proof.
  intros W H T O N. apply bool_decide_eq_true in T, O, N. constructor.
  - now apply mdemo_restackable.
  - intros c Hc. apply T, elem_of_list_to_set, elem_of_list_In, in_map_iff in Hc. destruct Hc as ([c' ps] & <- & Hc). apply vertices_spec. exists ps. now apply elem_of_list_In.
  - intros c x Hc. apply O, elem_of_list_to_set, elem_of_list_In, in_map_iff. exists (c, x). split; [reflexivity|now apply elem_of_list_In].
  - exact N.
Qed.
Example c91_example :
  let s := fxd_setting fxd_graph fxd_more in let tested := {[2; 3; 4]} in let res := test_fix s 9%Z (TxId 9%Z) false tested fxd_outs fxd in
  fixable s fxd tested fxd_outs /\ workable (fs_restack s) fxd /\ trees_there s fxd_outs /\
  fr_end res = Fixed /\ fr_report res = [(2, NonZero 7)] /\
  (exists rw, fr_rewritten res = Some rw /\ fresh fxd_graph (fxd_log [2; 3; 4; 5]) rw /\ rw !! 2 = Some (NonZero 7) /\ rw !! 3 = None /\
     rw !! 4 = Some (NonZero 8) /\ rw !! 5 = Some (NonZero 9)) /\
  hr_refs (rr_repo (fr_repo res)) !! ("refs/heads/a" : refname) = Some 8 /\ hr_head (rr_repo (fr_repo res)) = mk_head (Some 8) (Some "refs/heads/a") /\
  rr_store (fr_repo res) !! 8 = Some (mk_object (mk_commit [7; 3] 14) 24 35 44).
Proof.
  intros s tested res. assert (A : fixable s fxd tested fxd_outs) by (apply fxd_fixable; vm_compute; reflexivity).
  split; [exact A|]. split; [apply mdemo_workable; [apply A|apply picks_fine|discriminate]|]. split; [intros c t _; reflexivity|].
  split; [vm_compute; reflexivity|]. split; [vm_compute; reflexivity|]. split.
  - exists (default ∅ (fr_rewritten res)). split; [vm_compute; reflexivity|]. split; [apply all_fresh_spec; vm_compute; reflexivity|].
    split; [vm_compute; reflexivity|]. split; [vm_compute; reflexivity|]. split; vm_compute; reflexivity.
  - split; [vm_compute; reflexivity|]. split; vm_compute; reflexivity.
Qed.

(** ** What is not so *)

(** A commit without parents is not fixed: the command panics. *)
Definition fxd_roots : graph := [(1, []); (2, [])].
Theorem c91_root_refuted : exists s r tested outs, fixable s r tested outs /\ workable (fs_restack s) r /\ trees_there s outs /\
  re_on_disk (fs_restack s) = false /\ (forall c, c ∈ tested -> ~ is_public (fs_restack s) r c) /\ (forall c x, (c, x) ∈ outs -> ~ not_passed x) /\
  (exists c, to_fix (rr_store r) outs c) /\ fr_end (test_fix s 9%Z (TxId 9%Z) false tested outs r) = FixPanics.
Proof.
  set (s := fxd_setting fxd_roots [(6, mk_object (mk_commit [] 60) 22 32 42)]).
  set (r := rdemo_repo fxd_roots [("refs/heads/main", 1); ("refs/heads/a", 2)] (mk_head (Some 2) (Some "refs/heads/a")) (fxd_log [2])).
  exists s, r, {[2]}, [left_tree 2 60].
  assert (A : fixable s r {[2]} [left_tree 2 60]) by (apply fxd_fixable; vm_compute; reflexivity).
  split; [exact A|]. split; [apply mdemo_workable; [apply A|apply picks_fine|discriminate]|]. split; [intros c t _; reflexivity|]. split; [reflexivity|]. split.
  - intros c Hc (m & Hm & An). apply elem_of_singleton in Hc. subst c. change (Some (1 : oid) = Some m) in Hm. injection Hm as <-.
    apply rtc_inv in An. destruct An as [X|(q & (ps & P & Hq) & _)]; [discriminate|].
    cbn [s fxd_setting fs_restack mdemo_env re_hide he_graph fxd_roots] in P. apply elem_of_cons in P. destruct P as [[= -> ->]|P]; [now apply elem_of_nil in Hq|].
    apply elem_of_list_singleton in P. injection P as -> ->. now apply elem_of_nil in Hq.
  - split.
    + intros c x H N. apply elem_of_list_singleton in H. injection H as -> ->. exact (N _ _ _ eq_refl).
    + split; [|vm_compute; reflexivity]. exists 2, 60. split; [exists false, (mk_fi None (Some 60)), false; split; [left|reflexivity]|].
      eexists. split; [vm_compute; reflexivity|discriminate].
Qed.

(** A commit with a name that is not that of its contents as modelled, such as one with a signature, is
    rewritten although the command changes nothing. *)
Definition fxd_signed : graph := [(1, []); (2, [1])].
Definition fxd_signed_names : list (oid * object) := [(1, object_in fxd_signed 1); (6, object_in fxd_signed 2); (7, mk_object (mk_commit [1] 12) 22 33 42)].
Theorem c91_signed_refuted : exists s r tested outs c x, rr_store r !! c = Some x /\ ee_hash (re_exec (fs_restack s)) x <> c /\
  (forall o, ~ to_fix (rr_store r) outs o) /\ fr_end (test_fix s 9%Z (TxId 9%Z) false tested outs r) = Fixed /\
  fr_rewritten (test_fix s 9%Z (TxId 9%Z) false tested outs r) = Some {[c := NonZero 7]} /\ is_Some (rr_store (fr_repo (test_fix s 9%Z (TxId 9%Z) false tested outs r)) !! 7).
Proof.
  set (s := mk_fs (mdemo_env fxd_signed fxd_signed_names (picks []) (fun _ _ => Conflict)) yes).
  set (r := rdemo_repo fxd_signed [("refs/heads/main", 1); ("refs/heads/a", 2)] (mk_head (Some 2) (Some "refs/heads/a")) (fxd_log [2])).
  exists s, r, {[2]}, [left_tree 2 12], 2, (object_in fxd_signed 2).
  split; [vm_compute; reflexivity|]. split; [vm_compute; discriminate|]. split.
  - intros o (t & (cached & f & k & H & Ht) & x & Hx & N). apply elem_of_list_singleton in H. injection H as -> _ -> _. cbn in Ht. injection Ht as <-.
    apply N. revert Hx. vm_compute. now intros [= <-].
  - split; [vm_compute; reflexivity|]. split; [vm_compute; reflexivity|]. vm_compute. eauto.
Qed.

Print Assumptions c91_fixed.
Print Assumptions c91_otherwise.
Print Assumptions c91_through.
Print Assumptions c91_public.
Print Assumptions c91_dry_run.
Print Assumptions c91_root_refuted.
Print Assumptions c91_signed_refuted.
