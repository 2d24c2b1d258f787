(** C117: choosing between rebasing in memory and on disk *)
From stdpp Require Import sorting relations.
From Verif Require Import Base TextModel TextProofs EventLogModel DagModel DagSpec DagProofs StrModel StrProofs HookModel HookSpec HookProofs
  PlanModel PlanSpec PlanProps PlanBuildProofs ExecModel ExecSpec ExecProofs ExecBuildProofs ExecAfterProofs ExecProps RestackProofs
  SeqModel SeqSpec SeqProofs SeqBuildProofs SeqProps SameProofs SameProps DiskModel DiskProofs.
Local Open Scope string_scope.
Local Open Scope list_scope.
Local Arguments oid_to_string _ : simpl never.
Local Arguments oid_from_string _ : simpl never.

(** ** C117: an attempt in memory makes no difference to rebasing on disk *)

(** If the attempt in memory stops at a commit and the rebase is tried again on disk,
    everything ends as if it had been done on disk from the start, also if Git stops
    for the user: the same branches, HEAD, reported rewrites, events and result.  All
    that is left of the attempt are the objects it made.  What can be merged may
    differ between the two, and so may everything else but the names of objects. *)
Theorem c117_attempt_first : forall e v b groups iter busy changed preserve dest cmds log r c st r1 log1 res,
  ee_hash e = ee_hash (ge_exec v) -> faithful_names (ge_exec v) -> named (ge_exec v) (rp_store r) -> whole (rp_store r) ->
  (forall h, hi_oid (rp_head r) = Some h -> is_Some (rp_store r !! h)) ->
  rebase_in_memory e (rp_store r) dest cmds = StopMerge c st ->
  disk_rebase v b groups busy changed preserve dest cmds log r = Some (r1, log1, res) ->
  let on_disk := disk_of v b groups busy changed preserve dest cmds log in
  execute_plan e b groups iter on_disk false true true dest cmds r = (r1, res) /\
  execute_plan e b groups iter on_disk false false true dest cmds r = (with_store (rp_store r1 ∪ st) r1, res) /\
  disk_rebase v b groups busy changed preserve dest cmds log (with_store st r) = Some (with_store (rp_store r1 ∪ st) r1, log1, res).
Proof.
  intros e v b groups iter busy changed preserve dest cmds log r c st r1 log1 res Eh Nm Ns Wh Hd HM HR on_disk.
  pose proof (rebase_grows e (rp_store r) dest cmds) as G. rewrite HM in G. destruct G as [Hsub Hn].
  assert (Ne : named (ge_exec v) st). { unfold named in *. rewrite <- Eh in *. auto. }
  assert (Hu : rp_store r ∪ st = st) by now apply map_subseteq_union.
  pose proof (disk_more v b groups busy changed preserve dest cmds log r st r1 log1 res Nm Ns Ne Wh Hd HR) as D. rewrite Hu in D.
  split; [|split; [|exact D]].
  - unfold execute_plan, on_disk, disk_of. now rewrite HR.
  - unfold execute_plan. rewrite HM. cbn [negb]. unfold on_disk, disk_of. now rewrite D.
Qed.

(** ** All options lead to the same *)

(** The same repository, as far as users see it. *)
Record agree (old : store) (r1 r2 : repo) : Prop := {
  ag_store : rp_store r1 = rp_store r2;
  ag_refs : forall n, is_local n = true -> rp_refs r1 !! n = rp_refs r2 !! n;
  ag_head : final_head r1 = final_head r2;
  ag_rewrites : forall c x, is_Some (old !! c) -> (c, x) ∈ rp_rewrites r1 <-> (c, x) ∈ rp_rewrites r2 }.
Lemma agree_sym old r1 r2 : agree old r1 r2 -> agree old r2 r1.
Proof. intros [A B C D]. constructor; [now symmetry|intros; now rewrite B by assumption|now symmetry|intros; now rewrite D]. Qed.
Lemma agree_refl old r : agree old r r. Proof. now constructor. Qed.

(** If it succeeds in memory, it succeeds with all options (but "in memory" and "on
    disk" at once), and leads to the same repository.  Missing are fixups and
    replacements, and Git reusing commits that are in place, as for C115. *)
Theorem c117_options_partial : forall d e v allowed cs dest cmds r log st' rw hd b groups preserve
    (in_memory1 on_disk1 resolve1 in_memory2 on_disk2 resolve2 : bool),
  wf_graph (dag_graph d) -> knows d e -> plannable d e cs -> pe_replace e = ∅ -> (forall t f, FixUpCommit t f ∉ cs) ->
  (forall fs, Permutation (pe_sort e fs) (elements fs)) -> (forall m, Permutation (ge_iter v m) (map_to_list m)) ->
  faithful_names (ge_exec v) -> named (ge_exec v) (rp_store r) -> present d e (ge_exec v) cs (rp_store r) -> fresh_names (ge_exec v) (rp_store r) ->
  ge_reuse v = false -> build d e allowed cs = Done (BuiltPlan dest cmds) ->
  ee_head (ge_exec v) = hi_oid (rp_head r) -> is_Some (hi_oid (rp_head r)) ->
  (forall h, hi_oid (rp_head r) = Some h -> is_Some (rp_store r !! h)) ->
  (forall n o, rp_refs r !! n = Some o -> is_local n = true -> is_Some (rp_store r !! o)) ->
  (forall n h, hi_branch (rp_head r) = Some n -> hi_oid (rp_head r) = Some h -> rp_refs r !! n = Some h /\ is_local n = true) ->
  (forall refs, branch_table (groups refs) refs) ->
  (forall o, be_exists b o = true) -> (forall n, be_writes b n = true) -> be_upstream b <> None ->
  rebase_in_memory (ge_exec v) (rp_store r) dest cmds = Ok (st', rw, hd) -> (forall o, is_Some (st' !! o) -> oid_ok o) ->
  (in_memory1 && on_disk1)%bool = false -> (in_memory2 && on_disk2)%bool = false ->
  exists r1 x1 r2 x2,
    let on_disk := disk_of v b groups false false preserve dest cmds log in
    execute_plan (ge_exec v) b groups (ge_iter v) on_disk in_memory1 on_disk1 resolve1 dest cmds r = (r1, Succeeded x1) /\
    execute_plan (ge_exec v) b groups (ge_iter v) on_disk in_memory2 on_disk2 resolve2 dest cmds r = (r2, Succeeded x2) /\
    agree (rp_store r) r1 r2.
Proof.
  intros d e v allowed cs dest cmds r log st' rw hd b groups preserve im1 od1 rs1 im2 od2 rs2
    W K P Rep Nf Sort Iter Nm Ns Pr Fr Anew HB Eh Hsome Hd Hrefs Hbr Hg Ex Wr Up HM Ok O1 O2.
  (* in memory *)
  assert (Mok : exists r1, post_rebase b groups (ge_iter v) rw hd (with_store st' r) = (r1, true)).
  { unfold post_rebase. rewrite move_branches_go by assumption. eauto. }
  destruct Mok as [rm Hpost].
  (* on disk *)
  destruct (c60_written_partial d e allowed cs dest cmds (rp_head r) preserve W Sort Rep Nf HB) as (files & todo0 & Hw & Hin0 & _ & _).
  assert (Hf : exists todo, file_named "git-rebase-todo" files = Some todo /\ ("git-rebase-todo", todo) ∈ files).
  { unfold file_named. destruct (List.find _ files) as [[n t]|] eqn:Ef.
    - apply find_some in Ef. destruct Ef as [Hin En]. cbn in En. apply String.eqb_eq in En. subst n. exists t. split; [reflexivity|].
      now apply elem_of_list_In.
    - exfalso. apply elem_of_list_In in Hin0. pose proof (find_none _ _ Ef _ Hin0) as X. discriminate X. }
  destruct Hf as (todo & Hfile & Hin).
  assert (NMc : Forall (fun x => merge_command x = false) cmds).
  { unfold rebase_in_memory in HM. destruct (List.find merge_command cmds) as [x|] eqn:Ef; [|now apply no_merges_in_memory].
    apply find_some in Ef. destruct Ef as [_ Hm]. destruct x; discriminate. }
  pose proof HM as HM'. apply in_memory_commands in HM'. destruct HM' as (es & Exs & -> & -> & ->).
  pose proof (same_outcome d e v allowed cs dest cmds (rp_store r) log (rp_head r) W K P Rep Nf Sort Iter Nm Ns Pr Fr Anew HB Eh NMc) as A.
  rewrite Exs in A. destruct (A Ok) as (gs & l & HR & Hs & _). clear A.
  assert (Okg : forall o, is_Some (gs_store gs !! o) -> oid_ok o) by now rewrite Hs.
  destruct (disk_carried_out d e v allowed cs dest cmds (rp_store r) log (rp_head r) gs) as (l' & Hf & He' & Nd' & HC & Hname & Hextra & Hhead & Hupd); auto.
  destruct (disk_logged v cmds (rp_store r) log (rp_head r) gs Fr HR Okg) as (os & _ & Hos).
  assert (Hend : exists rd log', end_of_rebase v b groups (rp_head r) gs r = (rd, log', true)).
  { unfold end_of_rebase. rewrite Hf, Hname, Hextra. unfold hook_post_rewrite. change (String.eqb "rebase" "amend") with false. cbn [andb].
    rewrite Hos, (rewritten_round_trip l' He'). cbn [andb].
    assert (Hsk : exists sk, match hs_updated_head (gs_hooks gs) with None => Some None | Some t => option_map Some (oid_from_string t) end = Some sk).
    { destruct (hs_updated_head (gs_hooks gs)) as [t|]; [|eauto]. destruct (Hupd t eq_refl) as (q & -> & Hq).
      rewrite nzoid_text_round_trip by now apply Okg. eexists. reflexivity. }
    destruct Hsk as [sk ->]. rewrite move_branches_go by assumption. eauto. }
  destruct Hend as (rd & log' & Hend).
  assert (HT : run_todo v todo (disk_start log (rp_store r) (rp_head r)) = Went gs).
  { unfold run_todo. now rewrite (written_words d e allowed cs dest cmds (rp_head r) preserve files true todo) by assumption. }
  destruct (c115_same_end_partial d e v allowed cs dest cmds r log (rp_head r) todo (es_store es) (es_rewritten es) (new_head (ge_exec v) es)
    b groups rm gs rd log') as (E1 & E2 & E3 & E4); auto; [exists preserve, files; auto|].
  assert (Ag : agree (rp_store r) rm rd) by now constructor.
  assert (Disk : disk_of v b groups false false preserve dest cmds log r = (rd, Succeeded None)).
  { unfold disk_of, disk_rebase. now rewrite Hw, Hfile, HT, Hend. }
  assert (All : forall im od rs, (im && od)%bool = false -> exists r' x,
    execute_plan (ge_exec v) b groups (ge_iter v) (disk_of v b groups false false preserve dest cmds log) im od rs dest cmds r = (r', Succeeded x) /\
    (r' = rm \/ r' = rd)).
  { intros im od rs H. unfold execute_plan. destruct od.
    - destruct im; [discriminate|]. rewrite Disk. eauto.
    - rewrite HM, Hpost. eauto. }
  destruct (All im1 od1 rs1 O1) as (r1 & x1 & A1 & H1). destruct (All im2 od2 rs2 O2) as (r2 & x2 & A2 & H2).
  exists r1, x1, r2, x2. split; [exact A1|]. split; [exact A2|].
  destruct H1 as [-> | ->], H2 as [-> | ->]; auto using agree_refl, agree_sym.
Qed.

(** ** Examples *)

(** As for C115: 2 is moved on top of 6 with 3 and 4; nothing is left of 3, where HEAD is. *)
Definition fork_branches : branch_env := mk_be (fun _ => true) (fun _ => true) "refs/heads/master" (Some None).
Definition fork_repo : repo :=
  mk_repo (store_of fork) {["refs/heads/master" := 1; "refs/heads/foo" := 3; "refs/heads/bar" := 4]}%N both_head [] [] StayPut.
Definition fork_disk : repo -> repo * exec_result :=
  disk_of (fork_git false) fork_branches table_of false false false 6%N (fork_cmds 6) [].

(** In memory changes of 4 do not apply on top of 12; on disk they do (the user sees
    to it).  The attempt made 12 and 13, which are made again. *)
Definition stuck : exec_env :=
  let ee := ge_exec (fork_git false) in
  mk_ee (ee_hash ee) (fun c q => if (c =? 4)%N then Conflict else fork_pick c q) (ee_amend ee) (ee_stamp ee) (ee_decodes ee) (ee_head ee).
Lemma fork_whole : whole (store_of fork).
Proof.
  intros c x p H Hp. apply fork_store in H. destruct H as [Hc ->]. apply fork_vertices in Hc.
  destruct Hc as [-> |[-> |[-> |[-> | ->]]]]; vm_compute in Hp; try (now apply elem_of_nil in Hp);
    (apply elem_of_list_singleton in Hp; subst p; eexists; vm_compute; reflexivity).
Qed.
Example c117_attempt_first_example : exists st r1 log1,
  rebase_in_memory stuck (store_of fork) 6%N (fork_cmds 6) = StopMerge 4%N st /\ is_Some (st !! 12%N) /\ is_Some (st !! 13%N) /\
  disk_rebase (fork_git false) fork_branches table_of false false false 6%N (fork_cmds 6) [] fork_repo = Some (r1, log1, Succeeded None) /\
  CommitEvent 7%Z (TxId 9) 12%N ∈ log1 /\ rp_refs r1 !! "refs/heads/bar" = Some 14%N /\ final_head r1 = Some 12%N /\
  execute_plan stuck fork_branches table_of map_to_list fork_disk false false true 6%N (fork_cmds 6) fork_repo =
    (with_store (rp_store r1 ∪ st) r1, Succeeded None).
Proof.
  assert (X : exists st, rebase_in_memory stuck (store_of fork) 6%N (fork_cmds 6) = StopMerge 4%N st /\ is_Some (st !! 12%N) /\ is_Some (st !! 13%N)).
  { assert (B : (match rebase_in_memory stuck (store_of fork) 6%N (fork_cmds 6) with
      | StopMerge c st => bool_decide (c = 4%N) && bool_decide (is_Some (st !! 12%N)) && bool_decide (is_Some (st !! 13%N))
      | _ => false end)%bool = true) by (vm_compute; reflexivity).
    destruct (rebase_in_memory stuck (store_of fork) 6%N (fork_cmds 6)) as [|c st|]; try discriminate B.
    rewrite !andb_true_iff, !bool_decide_eq_true in B. destruct B as [[-> B1] B2]. eauto. }
  destruct X as (st & HM & H12 & H13).
  assert (Y : exists r1 log1, disk_rebase (fork_git false) fork_branches table_of false false false 6%N (fork_cmds 6) [] fork_repo = Some (r1, log1, Succeeded None) /\
    CommitEvent 7%Z (TxId 9) 12%N ∈ log1 /\ rp_refs r1 !! "refs/heads/bar" = Some 14%N /\ final_head r1 = Some 12%N).
  { assert (B : (match disk_rebase (fork_git false) fork_branches table_of false false false 6%N (fork_cmds 6) [] fork_repo with
      | Some (r1, log1, Succeeded None) => bool_decide (CommitEvent 7%Z (TxId 9) 12%N ∈ log1) &&
          bool_decide (rp_refs r1 !! "refs/heads/bar" = Some 14%N) && bool_decide (final_head r1 = Some 12%N)
      | _ => false end)%bool = true) by (vm_compute; reflexivity).
    destruct (disk_rebase _ _ _ _ _ _ _ _ _ _) as [[[r1 log1] [[|]| | |]]|]; try discriminate B.
    rewrite !andb_true_iff, !bool_decide_eq_true in B. destruct B as [[B1 B2] B3]. eauto 10. }
  destruct Y as (r1 & log1 & HR & H1 & H2 & H3).
  destruct (fork_named 6%N false (or_intror eq_refl)) as (Nm & Ns & _ & _).
  destruct (c117_attempt_first stuck (fork_git false) fork_branches table_of map_to_list false false false 6%N (fork_cmds 6) [] fork_repo
    4%N st r1 log1 (Succeeded None) eq_refl Nm Ns fork_whole) as (_ & E & _); auto.
  { intros h [= <-]. eexists. vm_compute. reflexivity. }
  exists st, r1, log1. auto 10.
Qed.

(** By default, and on disk. *)
Example c117_options_example : exists r1 x1 r2 x2,
  execute_plan (ge_exec (fork_git false)) fork_branches table_of map_to_list fork_disk false false false 6%N (fork_cmds 6) fork_repo = (r1, Succeeded x1) /\
  execute_plan (ge_exec (fork_git false)) fork_branches table_of map_to_list fork_disk false true false 6%N (fork_cmds 6) fork_repo = (r2, Succeeded x2) /\
  agree (store_of fork) r1 r2.
Proof.
  destruct (on_ok_spec (rebase_in_memory (ge_exec (fork_git false)) (store_of fork) 6%N (fork_cmds 6)) (fun st rw hd => oids_ok st))
    as (st & rw & hd & E & H); [vm_compute; reflexivity|].
  destruct (fork_named 6%N false (or_intror eq_refl)) as (Nm & Ns & Fr & Pr). destruct (fork_built 6%N (or_intror eq_refl)) as [HB _].
  destruct (fork_fits 6%N) as [P Nf].
  apply (c117_options_partial (dag_of fork 1%N) (env_in fork) (fork_git false) {[2; 3; 4]}%N (fork_plan 6) 6%N (fork_cmds 6) fork_repo []
    st rw hd fork_branches table_of false false false false false true false); auto using fork_wf, fork_knows, sorted_elements, table_of_spec.
  - intros h [= <-]. eexists. vm_compute. reflexivity.
  - intros n o Hn _. apply elem_of_map_to_list in Hn. vm_compute in Hn. apply elem_of_list_In in Hn.
    destruct Hn as [Hn|[Hn|[Hn|[]]]]; injection Hn as <- <-; eexists; vm_compute; reflexivity.
  - intros n h [= <-] [= <-]. split; [vm_compute; reflexivity|reflexivity].
  - exact (oids_ok_spec _ H).
Qed.

Print Assumptions c117_attempt_first.
Print Assumptions c117_options_partial.
