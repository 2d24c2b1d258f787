(** C122: going on with an on-disk rebase after conflicts *)
From stdpp Require Import sorting relations.
From Verif Require Import Base TextModel TextProofs EventLogModel DagModel DagSpec DagProofs StrModel StrProofs HookModel HookSpec HookProofs
  PlanModel PlanSpec PlanProps ExecModel ExecSpec ExecProps SeqModel SeqSpec SeqProofs SeqBuildProofs SeqProps SeqUserModel SeqUserSpec SeqUserProofs.
Local Open Scope string_scope.
Local Open Scope list_scope.
Local Arguments oid_to_string _ : simpl never.
Local Arguments oid_from_string _ : simpl never.

(** If the user resolves every conflict, and leaves something of the commit, the
    rebase ends like one where the picks had given these trees in the first place:
    the commits stand where they would, the branches and HEAD go where they would,
    and the event log says so. *)
Theorem c122_resolved : forall d e v noted ans tree allowed cs dest cmds st log head todo gs b groups r r' log' up,
  wf_graph (dag_graph d) -> knows d e -> plannable d e cs -> pe_replace e = ∅ -> (forall t f, FixUpCommit t f ∉ cs) ->
  (forall fs, Permutation (pe_sort e fs) (elements fs)) -> (forall m, Permutation (ge_iter v m) (map_to_list m)) ->
  faithful_names (ge_exec v) -> named (ge_exec v) st -> present d e (ge_exec v) cs st -> fresh_names (ge_exec v) st ->
  build d e allowed cs = Done (BuiltPlan dest cmds) -> handed_over head dest cmds todo ->
  ee_head (ge_exec v) = hi_oid head -> (forall h, hi_oid head = Some h -> is_Some (st !! h)) ->
  (forall c h, ans c h = Resolved (tree c h)) -> leaves_something tree v ->
  run_user v noted ans todo (disk_start log st head) = Went gs -> (forall o, is_Some (gs_store gs !! o) -> oid_ok o) ->
  (forall refs, branch_table (groups refs) refs) -> be_upstream b = Some up ->
  (forall n h, hi_branch head = Some n -> hi_oid head = Some h -> rp_refs r !! n = Some h /\ is_local n = true) ->
  end_of_rebase v b groups head gs r = (r', log', true) ->
  exists l made,
    carried_out_on_disk d cs e (resolved_as tree v) st (rp_store r') (collect_map l) /\ NoDup (map fst l) /\
    (forall n, rp_refs r' !! n = branch_after b (collect_map l) (rp_refs r) n) /\
    rp_rewrites r' = rp_rewrites r ++ l /\
    (forall o, o ∈ made <-> is_Some (rp_store r' !! o) /\ st !! o = None) /\
    log' = log ++ map (CommitEvent (ge_time v) (ge_tx v)) made ++
           map (fun x => RewriteEvent (ge_time v) (ge_tx v) (NonZero (fst x)) (snd x)) l /\
    (forall h, hi_oid head = Some h ->
       ((exists q, final_head r' = Some q /\ lands d cs (collect_map l) h q) \/
        (hi_branch head = Some (be_main b) /\ collect_map l !! h = Some Zero /\ exists t, up = Some t /\ final_head r' = Some t)) /\
       (forall n, hi_branch head = Some n -> is_Some (rp_refs r' !! n) -> rp_checkout r' = CheckOutBranch n)).
Proof.
  intros d e v noted ans tree allowed cs dest cmds st log head todo gs b groups r r' log' up
    W K P Rep Nf Sort Iter Nm Ns Pr Fr HB Hw Eh Hd A L HR Ok Gr Up Br HE.
  rewrite (run_user_resolved v noted ans tree) in HR by assumption.
  apply (c114_end_partial d e (resolved_as tree v) allowed cs dest cmds st log head todo gs b groups r r' log' up); auto.
  now apply resolved_present.
Qed.

(** A commit that is skipped, or whose resolution leaves nothing of it, changes
    nothing if the commit that HEAD is at is not itself empty: at most it is noted as
    rewritten to HEAD. *)
Theorem c122_skipped : forall v noted ans c s h orig x p px,
  oid_ok c -> hs_head (gs_hooks s) = Some h -> gs_store s !! c = Some orig -> is_merge (ob_commit orig) = false ->
  commit_parents (ob_commit orig) <> [h] -> ee_pick (ge_exec v) c h = Conflict ->
  gs_store s !! h = Some x -> commit_parents (ob_commit x) = [p] -> gs_store s !! p = Some px ->
  commit_tree (ob_commit x) <> commit_tree (ob_commit px) ->
  ans c h = Skipped \/ ans c h = Resolved (commit_tree (ob_commit x)) ->
  exists s', sbind (user_words v noted ans (instruction (Pick c [c])) s) (user_words v noted ans (instruction (DetectEmpty c))) = Went s' /\
    gs_store s' = gs_store s /\ gs_labels s' = gs_labels s /\ gs_name s' = gs_name s /\ gs_extra s' = gs_extra s /\
    hs_head (gs_hooks s') = Some h /\ hs_log (gs_hooks s') = hs_log (gs_hooks s) /\
    hs_updated_head (gs_hooks s') = hs_updated_head (gs_hooks s) /\
    hs_rewritten (gs_hooks s') = if noted
      then Some (match hs_rewritten (gs_hooks s) with Some t => t | None => "" end +:+ oid_to_string c +:+ " " +:+ oid_to_string h +:+ String LF "")
      else hs_rewritten (gs_hooks s).
Proof.
  intros v noted ans c s h orig x p px Okc Eh Eo Em Ne Ep Ex Epar Epx Nt An.
  set (s1 := if noted then note_rewritten c s else s).
  assert (E1 : user_words v noted ans (instruction (Pick c [c])) s = Went s1).
  { unfold user_words. rewrite parse_pick by exact Okc. unfold seq_pick. rewrite Eh, Eo, Em. rewrite bool_decide_true by eauto. cbn [orb negb].
    rewrite (bool_decide_false (commit_parents (ob_commit orig) = [h])), andb_false_r by exact Ne. rewrite Ep. unfold seq_answer. rewrite Eh, Eo, Ex.
    destruct An as [-> | ->]; [reflexivity|]. now rewrite N.eqb_refl. }
  assert (Hh : hs_head (gs_hooks s1) = Some h) by (unfold s1, note_rewritten; destruct noted; [rewrite Eh|]; auto).
  assert (Hs : gs_store s1 = gs_store s) by (unfold s1; destruct noted; [apply note_store|reflexivity]).
  exists s1. split.
  { rewrite E1. cbn [sbind]. unfold user_words. rewrite parse_drop by exact Okc. unfold seq_words. rewrite parse_drop by exact Okc. cbn [seq_line].
    unfold hook_drop_commit_if_empty. rewrite Hh, Hs. unfold find_object, commit_is_empty. rewrite Ex. cbn [option_map]. rewrite Epar, Epx. cbn [option_map].
    rewrite (proj2 (N.eqb_neq _ _) Nt). cbn [negb]. destruct s1. reflexivity. }
  rewrite Hs, Hh. unfold s1, note_rewritten. rewrite Eh. destruct noted; split_and!; reflexivity.
Qed.

(** 3 does not apply on 6, and is skipped. *)
Example c122_skipped_example :
  let v := mk_ge (mk_ee (name_as both_names) (fun _ _ => Conflict) (fun _ _ => Conflict) (fun n => n + 1000)%N (fun _ => true) (Some 6%N))
    (fun _ _ => MergeConflict) true map_to_list 7%Z (TxId 9) 77%N in
  let s := disk_start [] (store_of both) (mk_head (Some 6%N) None) in
  oid_ok 3%N /\ hs_head (gs_hooks s) = Some 6%N /\ gs_store s !! 3%N = Some (object_in both 3%N) /\
  commit_parents (ob_commit (object_in both 3%N)) <> [6%N] /\
  gs_store s !! 6%N = Some (object_in both 6%N) /\ gs_store s !! 1%N = Some (object_in both 1%N) /\
  commit_parents (ob_commit (object_in both 6%N)) = [1%N] /\
  commit_tree (ob_commit (object_in both 6%N)) <> commit_tree (ob_commit (object_in both 1%N)) /\
  sbind (user_words v false (fun _ _ => Skipped) (instruction (Pick 3%N [3%N])) s)
    (user_words v false (fun _ _ => Skipped) (instruction (DetectEmpty 3%N))) = Went s.
Proof. cbn zeta. split_and!; try (vm_compute; (reflexivity || discriminate)). split; vm_compute; reflexivity. Qed.

(** The commits of the C113 example; 4 does not apply on 12, and the user resolves
    it as Git did there. *)
Definition clash_git : git_env :=
  mk_ge (mk_ee (name_as both_names) (fun c q => if (N.eqb c 4 && N.eqb q 12)%bool then Conflict else ex_pick c q)
           (fun _ _ => Conflict) (fun n => n + 1000)%N (fun _ => true) (Some 3%N))
    (fun c _ => MergedTree (100 + c)%N) false map_to_list 7%Z (TxId 9) 77%N.
Lemma clash_leaves : leaves_something (fun c _ => 100 + c)%N clash_git.
Proof.
  intros c x. cbn [clash_git ge_exec ee_pick ee_hash]. destruct (N.eqb_spec c 4) as [-> |]; [|discriminate].
  destruct (N.eqb_spec (name_as both_names x) 12) as [E|]; [|discriminate]. intros _.
  assert (Ex : (x = both_made 2 [6] 102)%N).
  { apply (proj1 (both_named false)). cbn [both_git ge_exec ee_hash]. rewrite E. vm_compute. reflexivity. }
  rewrite Ex. cbn. discriminate.
Qed.
Example c122_example :
  let b := mk_be (fun _ => true) (fun _ => true) "refs/heads/master" (Some None) in
  let r := mk_repo (store_of both) {["refs/heads/master" := 1; "refs/heads/foo" := 3; "refs/heads/bar" := 5]}%N both_head [] [] StayPut in
  (exists s, run_todo clash_git both_todo (disk_start [] (store_of both) both_head) = Halted s) /\
  leaves_something (fun c _ => 100 + c)%N clash_git /\
  exists gs r' log',
    run_user clash_git true (fun c _ => Resolved (100 + c)%N) both_todo (disk_start [] (store_of both) both_head) = Went gs /\
    (forall o, is_Some (gs_store gs !! o) -> oid_ok o) /\
    end_of_rebase clash_git b table_of both_head gs r = (r', log', true) /\
    rp_store r' !! 14%N = Some (both_made 4 [12] 104)%N /\
    rp_refs r' = {["refs/heads/master" := 1; "refs/heads/bar" := 15]}%N /\ final_head r' = Some 12%N.
Proof.
  intros b r. split.
  { destruct (run_todo clash_git both_todo (disk_start [] (store_of both) both_head)) as [s|s|] eqn:E; [exfalso|eauto|exfalso];
      revert E; vm_compute; discriminate. }
  split; [exact clash_leaves|].
  pose (R := run_user clash_git true (fun c _ => Resolved (100 + c)%N) both_todo (disk_start [] (store_of both) both_head)).
  destruct (on_went_spec R (fun gs => oids_ok (gs_store gs) && match end_of_rebase clash_git b table_of both_head gs r with
    | (r', log', ok) => ok && bool_decide (rp_store r' !! 14%N = Some (both_made 4 [12] 104)%N) &&
        bool_decide (rp_refs r' = {["refs/heads/master" := 1; "refs/heads/bar" := 15]}%N) && bool_decide (final_head r' = Some 12%N)
    end)%bool) as (gs & E & H).
  { vm_compute. reflexivity. }
  rewrite !andb_true_iff in H. destruct H as [H1 H2]. exists gs.
  destruct (end_of_rebase clash_git b table_of both_head gs r) as [[r' log'] ok]. exists r', log'.
  rewrite !andb_true_iff, !bool_decide_eq_true in H2. destruct H2 as [[[-> H2] H3] H4].
  split; [exact E|]. split; [now apply oids_ok_spec|]. auto.
Qed.

(** 2 and 3 on top of 1; 2 is an empty commit, with the branch x on it. *)
Definition skip_graph : graph := [(1, []); (2, [1]); (3, [1])]%N.
Definition skip_store : store :=
  {[1 := mk_object (mk_commit [] 11) 21 31 41; 2 := mk_object (mk_commit [1] 11) 22 32 42; 3 := mk_object (mk_commit [1] 13) 23 33 43]}%N.
Definition skip_env : plan_env := mk_pe (find_object skip_store) ∅ (fun _ _ => false) sorted_oids.
Definition skip_names : list (oid * object) := map_to_list skip_store.
Definition skip_git : git_env :=
  mk_ge (mk_ee (name_as skip_names) (fun _ _ => Conflict) (fun _ _ => Conflict) (fun n => n + 1000)%N (fun _ => true) (Some 1%N))
    (fun _ _ => MergeConflict) true map_to_list 7%Z (TxId 9) 77%N.
Definition skip_head_ : head_info := mk_head (Some 1%N) (Some "refs/heads/master").
Definition skip_cmds : list command :=
  match build (dag_of skip_graph 1%N) skip_env {[3]}%N [MoveSubtree [2] 3]%N with Done (BuiltPlan _ cmds) => cmds | _ => [] end.
Definition skip_todo : string :=
  match write_state false false skip_head_ false 2%N skip_cmds with
  | Some (files, _) => match List.find (fun f => String.eqb (fst f) "git-rebase-todo") files with Some f => snd f | None => "" end
  | None => ""
  end.

(** Skipping a commit does not only give up that commit: if it was to be put on an
    empty commit, that one is taken for what is left of it.  3 is moved on top of 2,
    conflicts, and is skipped: 2, which was not to be moved, is told to be gone, and
    its branch is deleted. *)
Theorem c122_skip_refuted : forall noted,
  let b := mk_be (fun _ => true) (fun _ => true) "refs/heads/master" (Some None) in
  let r := mk_repo skip_store {["refs/heads/master" := 1; "refs/heads/x" := 2; "refs/heads/y" := 3]}%N skip_head_ [] [] StayPut in
  build (dag_of skip_graph 1%N) skip_env {[3]}%N [MoveSubtree [2] 3]%N = Done (BuiltPlan 2%N skip_cmds) /\
  handed_over skip_head_ 2%N skip_cmds skip_todo /\
  exists gs r' log',
    run_user skip_git noted (fun _ _ => Skipped) skip_todo (disk_start [] skip_store skip_head_) = Went gs /\
    end_of_rebase skip_git b table_of skip_head_ gs r = (r', log', true) /\
    rp_refs r' = {["refs/heads/master" := 1]}%N /\
    RewriteEvent 7%Z (TxId 9) (NonZero 2%N) Zero ∈ log'.
Proof.
  intros noted b r. split; [vm_compute; reflexivity|]. split.
  { exists false. eexists. split; [vm_compute; reflexivity|].
    replace skip_todo with (snd ("git-rebase-todo", skip_todo)) by reflexivity. apply elem_of_list_In. vm_compute. tauto. }
  pose (R := run_user skip_git noted (fun _ _ => Skipped) skip_todo (disk_start [] skip_store skip_head_)).
  destruct (on_went_spec R (fun gs => match end_of_rebase skip_git b table_of skip_head_ gs r with
    | (r', log', ok) => ok && bool_decide (rp_refs r' = {["refs/heads/master" := 1]}%N) &&
        bool_decide (RewriteEvent 7%Z (TxId 9) (NonZero 2%N) Zero ∈ log')
    end)%bool) as (gs & E & H).
  { destruct noted; vm_compute; reflexivity. }
  exists gs. destruct (end_of_rebase skip_git b table_of skip_head_ gs r) as [[r' log'] ok]. exists r', log'.
  rewrite !andb_true_iff, !bool_decide_eq_true in H. destruct H as [[-> H2] H3]. auto.
Qed.

Print Assumptions c122_resolved.
Print Assumptions c122_skipped.
Print Assumptions c122_skip_refuted.
