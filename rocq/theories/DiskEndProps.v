(** C119: what the result of an on-disk rebase says *)
From stdpp Require Import sorting relations.
From Verif Require Import Base TextModel TextProofs EventLogModel DagModel DagSpec DagProofs StrModel StrProofs HookModel HookSpec HookProofs
  PlanModel PlanSpec PlanProps PlanBuildProofs ExecModel ExecSpec ExecProofs ExecBuildProofs ExecAfterProofs ExecProps RestackModel RestackProofs AmendModel
  SeqModel SeqSpec SeqProofs SeqBuildProofs SeqProps SameProofs SameProps DiskModel DiskProofs DiskProps DiskEndProofs.
Local Open Scope string_scope.
Local Open Scope list_scope.
Local Arguments oid_to_string _ : simpl never.
Local Arguments oid_from_string _ : simpl never.

Definition success (res : exec_result) : Prop := exists x, res = Succeeded x.

(** ** C119: an on-disk rebase that is not said to have succeeded changed no branch *)

(** Without success no branch was moved, no rewrite was reported, nothing was recorded
    and nothing was checked out; commits were only added.  With another operation in
    progress or changed files it does not succeed, and nothing at all happens. *)
Theorem c119_not_done : forall v b groups busy changed preserve dest cmds log r r' log' res,
  disk_rebase v b groups busy changed preserve dest cmds log r = Some (r', log', res) ->
  ((busy || changed)%bool = true -> ~ success res /\ r' = r) /\
  (~ success res ->
     rp_refs r' = rp_refs r /\ rp_rewrites r' = rp_rewrites r /\ rp_lines r' = rp_lines r /\ rp_checkout r' = rp_checkout r /\
     rp_store r ⊆ rp_store r' /\ log' = log).
Proof.
  intros v b groups busy changed preserve dest cmds log r r' log' res H. split.
  - intros E. unfold disk_rebase, write_state in H. rewrite E in H. injection H as <- _ <-. split; [|reflexivity]. intros [x X]. discriminate.
  - intros Ns. unfold disk_rebase in H. destruct (write_state _ _ _ _ _ _) as [[files [|]]|]; [|now injection H as <- <- <-..].
    destruct (file_named _ _) as [todo|]; [|now injection H as <- <- <-].
    pose proof (waiting_words v (rp_store r) log (List.map (split_on " ") (lines todo)) (disk_start log (rp_store r) (rp_head r))) as W.
    fold (run_todo v todo (disk_start log (rp_store r) (rp_head r))) in W.
    destruct (run_todo _ _ _) as [gs|gs|]; [| |discriminate].
    + destruct (end_of_rebase _ _ _ _ _ _) as [[r1 log1] ok]. injection H as _ _ <-. elim Ns. now eexists.
    + injection H as <- <- _. destruct (W gs) as [A B _]; [now constructor|reflexivity|]. now split_and!.
Qed.

(** Success means that all was done: what C114 says holds.  Missing, as there, are
    fixups and replacements; and hooks are assumed to succeed, which Git does not check. *)
Theorem c119_done_partial : forall d e v allowed cs dest cmds log b groups busy changed preserve r r' log' res up,
  wf_graph (dag_graph d) -> knows d e -> plannable d e cs -> pe_replace e = ∅ -> (forall t f, FixUpCommit t f ∉ cs) ->
  (forall fs, Permutation (pe_sort e fs) (elements fs)) -> (forall m, Permutation (ge_iter v m) (map_to_list m)) ->
  faithful_names (ge_exec v) -> named (ge_exec v) (rp_store r) -> present d e (ge_exec v) cs (rp_store r) -> fresh_names (ge_exec v) (rp_store r) ->
  build d e allowed cs = Done (BuiltPlan dest cmds) ->
  ee_head (ge_exec v) = hi_oid (rp_head r) -> (forall h, hi_oid (rp_head r) = Some h -> is_Some (rp_store r !! h)) ->
  (forall refs, branch_table (groups refs) refs) -> be_upstream b = Some up ->
  (forall o, be_exists b o = true) -> (forall n, be_writes b n = true) ->
  (forall n h, hi_branch (rp_head r) = Some n -> hi_oid (rp_head r) = Some h -> rp_refs r !! n = Some h /\ is_local n = true) ->
  disk_rebase v b groups busy changed preserve dest cmds log r = Some (r', log', res) -> success res ->
  (forall o, is_Some (rp_store r' !! o) -> oid_ok o) ->
  (busy || changed)%bool = false /\
  exists l made,
    carried_out_on_disk d cs e v (rp_store r) (rp_store r') (collect_map l) /\ NoDup (map fst l) /\
    (forall n, rp_refs r' !! n = branch_after b (collect_map l) (rp_refs r) n) /\
    rp_rewrites r' = rp_rewrites r ++ l /\
    (forall o, o ∈ made <-> is_Some (rp_store r' !! o) /\ rp_store r !! o = None) /\
    log' = log ++ map (CommitEvent (ge_time v) (ge_tx v)) made ++
           map (fun x => RewriteEvent (ge_time v) (ge_tx v) (NonZero (fst x)) (snd x)) l /\
    (forall h, hi_oid (rp_head r) = Some h ->
       ((exists q, final_head r' = Some q /\ lands d cs (collect_map l) h q) \/
        (hi_branch (rp_head r) = Some (be_main b) /\ collect_map l !! h = Some Zero /\ exists t, up = Some t /\ final_head r' = Some t)) /\
       (forall n, hi_branch (rp_head r) = Some n -> is_Some (rp_refs r' !! n) -> rp_checkout r' = CheckOutBranch n)).
Proof.
  intros d e v allowed cs dest cmds log b groups busy changed preserve r r' log' res up
    W K P Rep Nf Sort Iter Nm Ns Pr Fr HB Eh Hd Hg Up Ex Wr Hbr H [x ->] Ok.
  unfold disk_rebase in H. destruct (busy || changed)%bool eqn:Ebc.
  { unfold write_state in H. rewrite Ebc in H. discriminate. }
  split; [reflexivity|]. apply orb_false_iff in Ebc. destruct Ebc as [-> ->].
  destruct (write_state _ _ _ _ _ _) as [[files [|]]|] eqn:Hw; [|discriminate..].
  unfold file_named in H. destruct (List.find _ files) as [[n todo]|] eqn:Ef; cbn [option_map snd] in H; [|discriminate].
  apply find_some in Ef. destruct Ef as [Hin En]. cbn in En. apply String.eqb_eq in En. subst n. apply elem_of_list_In in Hin.
  destruct (run_todo _ _ _) as [gs|gs|] eqn:HR; [|discriminate..].
  destruct (end_of_rebase v b groups (rp_head r) gs r) as [[r1 log1] ok] eqn:Hend. injection H as <- <- _.
  destruct (end_more v b groups (rp_head r) ∅ gs r r1 log1 ok Hend) as [Est _]. rewrite Est in Ok.
  assert (ok = true) as ->.
  { pose proof HR as HR'. unfold run_todo in HR'. rewrite (written_words d e allowed cs dest cmds (rp_head r) preserve files true todo) in HR' by assumption.
    destruct (disk_carried_out d e v allowed cs dest cmds (rp_store r) log (rp_head r) gs) as (l' & Hf & He' & Nd' & HC & Hname & Hextra & Hhead & Hupd); auto.
    destruct (disk_logged v cmds (rp_store r) log (rp_head r) gs Fr HR' Ok) as (os & _ & Hos).
    revert Hend. unfold end_of_rebase. rewrite Hf, Hname, Hextra. unfold hook_post_rewrite. change (String.eqb "rebase" "amend") with false. cbn [andb].
    rewrite Hos, (rewritten_round_trip l' He'). cbn [andb].
    assert (Hsk : exists sk, match hs_updated_head (gs_hooks gs) with None => Some None | Some t => option_map Some (oid_from_string t) end = Some sk).
    { destruct (hs_updated_head (gs_hooks gs)) as [t|]; [|eauto]. destruct (Hupd t eq_refl) as (q & -> & Hq).
      rewrite nzoid_text_round_trip by now apply Ok. eexists. reflexivity. }
    destruct Hsk as [sk ->]. rewrite move_branches_go by (assumption || congruence). cbn. now intros [= _ _ <-]. }
  eapply c114_end_partial; eauto. exists preserve, files. auto.
Qed.

(** ** Examples *)

(** 4 does not apply on top of 12: Git stops there, and 12 was made. *)
Definition stuck_git : git_env := mk_ge stuck (fun c _ => MergedTree (100 + c)%N) false map_to_list 7%Z (TxId 9) 77%N.
Example c119_not_done_example : exists r1,
  disk_rebase stuck_git fork_branches table_of false false false 6%N (fork_cmds 6) [] fork_repo = Some (r1, [], FailedExit) /\
  is_Some (rp_store r1 !! 12%N) /\ hi_oid (rp_head r1) = Some 12%N /\ rp_refs r1 = rp_refs fork_repo /\
  disk_rebase stuck_git fork_branches table_of false true false 6%N (fork_cmds 6) [] fork_repo = Some (fork_repo, [], FailedExit).
Proof.
  assert (B : (match disk_rebase stuck_git fork_branches table_of false false false 6%N (fork_cmds 6) [] fork_repo with
    | Some (r1, [], FailedExit) => bool_decide (is_Some (rp_store r1 !! 12%N)) && bool_decide (hi_oid (rp_head r1) = Some 12%N)
    | _ => false end)%bool = true) by (vm_compute; reflexivity).
  destruct (disk_rebase _ _ _ false _ _ _ _ _ _) as [[[r1 log1] res]|] eqn:E; [|discriminate B].
  destruct log1; [|discriminate B]. destruct res; try discriminate B.
  rewrite !andb_true_iff, !bool_decide_eq_true in B. destruct B as [B1 B2]. exists r1. split; [reflexivity|].
  destruct (c119_not_done _ _ _ _ _ _ _ _ _ _ _ _ _ E) as [_ [Hr _]]; [intros [x X]; discriminate|]. auto.
Qed.

(** By C117's example the rebase succeeds if 4 applies; all is done. *)
Example c119_done_example : exists r1 log1 l,
  disk_rebase (fork_git false) fork_branches table_of false false false 6%N (fork_cmds 6) [] fork_repo = Some (r1, log1, Succeeded None) /\
  carried_out_on_disk (dag_of fork 1%N) (fork_plan 6) (env_in fork) (fork_git false) (store_of fork) (rp_store r1) (collect_map l) /\
  rp_refs r1 !! "refs/heads/bar" = Some 14%N.
Proof.
  assert (B : (match disk_rebase (fork_git false) fork_branches table_of false false false 6%N (fork_cmds 6) [] fork_repo with
    | Some (r1, log1, Succeeded None) => bool_decide (rp_refs r1 !! "refs/heads/bar" = Some 14%N) && oids_ok (rp_store r1)
    | _ => false end)%bool = true) by (vm_compute; reflexivity).
  destruct (disk_rebase _ _ _ _ _ _ _ _ _ _) as [[[r1 log1] [[|]| | |]]|] eqn:E; try discriminate B.
  rewrite andb_true_iff, bool_decide_eq_true in B. destruct B as [B1 B2]. exists r1, log1.
  destruct (fork_named 6%N false (or_intror eq_refl)) as (Nm & Ns & Fr & Pr). destruct (fork_built 6%N (or_intror eq_refl)) as [HB _].
  destruct (fork_fits 6%N) as [P Nf].
  destruct (c119_done_partial (dag_of fork 1%N) (env_in fork) (fork_git false) {[2; 3; 4]}%N (fork_plan 6) 6%N (fork_cmds 6) []
    fork_branches table_of false false false fork_repo r1 log1 (Succeeded None) None) as (_ & l & made & C & _);
    auto using fork_wf, fork_knows, sorted_elements, table_of_spec.
  - intros h [= <-]. eexists. vm_compute. reflexivity.
  - intros n h [= <-] [= <-]. split; [vm_compute; reflexivity|reflexivity].
  - now eexists.
  - now apply oids_ok_spec.
  - eauto.
Qed.

(** ** Replacements: [git amend --reparent --on-disk] *)

(** 2 on top of 1, and 3 on top of 2; 2 was amended to 22, which is checked out with
    its branch.  With [--reparent] 3 is to be replaced by a commit with the same files.
    On disk that commit is made by a shell command, and forgotten. *)
Definition line3 : graph := [(1, []); (2, [1]); (3, [2]); (22, [1])]%N.
Definition reparented (committer : N) : object := mk_object (mk_commit [22%N] 13%N) 23%N committer 43%N.
Definition line3_names : list (oid * object) :=
  List.map (fun v => (fst v, object_in line3 (fst v))) line3 ++
  [(33, reparented 33); (34, reparented 1033); (35, mk_object (mk_commit [22] 13) 77 77 43)]%N.
Definition line3_git : git_env :=
  mk_ge (mk_ee (name_as line3_names) (fun c _ => MadeTree (c + 10)%N) (fun _ _ => Conflict) (fun n => n + 1000)%N (fun _ => true) (Some 22%N))
    (fun _ _ => MergeConflict) true map_to_list 7%Z (TxId 9) 77%N.
Definition line3_dag : dag := mk_dag line3 ∅ {[1]}%N {[22; 3]}%N {[1; 2; 3]}%N ∅.

Definition line3_asked : list constraint * store * gmap oid oid :=
  match requests_above (ge_exec line3_git) true 2%N 22%N [3%N] (store_of line3) ∅ with Some x => x | None => ([], ∅, ∅) end.
Definition line3_plan : oid * list command :=
  let '(cs, st, replace) := line3_asked in
  match build line3_dag (mk_pe (find_object st) replace (fun _ _ => false) sorted_oids) {[3%N]} cs with
  | Done (BuiltPlan dest cmds) => (dest, cmds)
  | _ => (0%N, [])
  end.
Definition line3_repo : repo :=
  mk_repo (snd (fst line3_asked)) {["refs/heads/foo" := 22; "refs/heads/bar" := 3]}%N (mk_head (Some 22%N) (Some "refs/heads/foo")) [] [] StayPut.

(** It is said to have succeeded; but 3 is where it was, on top of the commit that was
    amended, its branch did not follow, nothing is reported, and HEAD has left its
    branch for good.  In memory 3 is replaced. *)
Theorem c119_reparent_refuted : exists d v b h n c st0 cs st replace dest cmds r r' log' here above,
  requests_above (ge_exec v) true h n [c] st0 ∅ = Some (cs, st, replace) /\
  build d (mk_pe (find_object st) replace (fun _ _ => false) sorted_oids) {[c]} cs = Done (BuiltPlan dest cmds) /\
  r = mk_repo st {[here := n; above := c]} (mk_head (Some n) (Some here)) [] [] StayPut /\ is_local here = true /\ is_local above = true /\
  faithful_names (ge_exec v) /\ named (ge_exec v) st /\ parents_of (dag_graph d) c = [h] /\ n <> h /\
  (exists st' rw hd m x, rebase_in_memory (ge_exec v) st dest cmds = Ok (st', rw, hd) /\ rw !! c = Some (NonZero m) /\
     st' !! m = Some x /\ commit_parents (ob_commit x) = [n]) /\
  disk_rebase v b table_of false false false dest cmds [] r = Some (r', log', Succeeded None) /\
  rp_refs r' = rp_refs r /\ rp_rewrites r' = [] /\ log' = [] /\ rp_head r' = mk_head (Some n) None /\ rp_checkout r' = StayPut.
Proof.
  exists line3_dag, line3_git, fork_branches, 2%N, 22%N, 3%N, (store_of line3), (fst (fst line3_asked)), (snd (fst line3_asked)), (snd line3_asked),
    (fst line3_plan), (snd line3_plan), line3_repo.
  assert (B : (match disk_rebase line3_git fork_branches table_of false false false (fst line3_plan) (snd line3_plan) [] line3_repo with
    | Some (r1, [], Succeeded None) => bool_decide (rp_refs r1 = rp_refs line3_repo) && bool_decide (rp_head r1 = mk_head (Some 22%N) None) &&
        match rp_rewrites r1, rp_checkout r1 with [], StayPut => true | _, _ => false end
    | _ => false end)%bool = true) by (vm_compute; reflexivity).
  destruct (disk_rebase _ _ _ _ _ _ _ _ _ _) as [[[r1 log1] res]|] eqn:E; [|discriminate B].
  destruct log1; [|discriminate B]. destruct res as [[|]| | |]; try discriminate B.
  rewrite !andb_true_iff, !bool_decide_eq_true in B. destruct B as [[B1 B2] B3].
  exists r1, [], "refs/heads/foo", "refs/heads/bar". split_and!; auto; try (vm_compute; reflexivity).
  - unfold faithful_names. cbn [line3_git ge_exec ee_hash]. apply name_as_inj.
    + unfold line3_names, line3. cbn. repeat constructor.
    + unfold line3_names, line3. cbn. decide_it.
  - intros o x H. apply elem_of_map_to_list in H. vm_compute in H. apply elem_of_list_In in H.
    repeat (destruct H as [H|H]; [injection H as <- <-; vm_compute; reflexivity|]). destruct H.
  - destruct (on_ok_spec (rebase_in_memory (ge_exec line3_git) (snd (fst line3_asked)) (fst line3_plan) (snd line3_plan))
      (fun st rw hd => bool_decide (rw !! 3%N = Some (NonZero 34%N)) && bool_decide (st !! 34%N = Some (reparented 1033)))%bool)
      as (st & rw & hd & E1 & H); [vm_compute; reflexivity|].
    rewrite andb_true_iff, !bool_decide_eq_true in H. destruct H as [H1 H2]. exists st, rw, hd, 34%N, (reparented 1033). auto.
  - destruct (rp_rewrites r1); [reflexivity|discriminate B3].
  - destruct (rp_rewrites r1); [|discriminate B3]. destruct (rp_checkout r1); [reflexivity|discriminate B3..].
Qed.

Print Assumptions c119_not_done.
Print Assumptions c119_done_partial.
Print Assumptions c119_reparent_refuted.
