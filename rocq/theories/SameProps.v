(** C115: rebasing in memory and on disk *)
From stdpp Require Import sorting relations.
From Verif Require Import Base TextModel TextProofs EventLogModel DagModel DagSpec DagProofs StrModel StrProofs HookModel HookSpec HookProofs
  PlanModel PlanSpec PlanProps PlanBuildProofs ExecModel ExecSpec ExecProofs ExecBuildProofs ExecAfterProofs ExecProps SeqModel SeqSpec SeqProofs SeqBuildProofs SeqProps SameProofs.
Local Open Scope string_scope.
Local Open Scope list_scope.
Local Arguments oid_to_string _ : simpl never.
Local Arguments oid_from_string _ : simpl never.

(** ** C115: it makes no difference whether a rebase is done in memory or on disk *)

Lemma no_merges_in_memory cmds :
  List.find merge_command cmds = None -> Forall (fun x => merge_command x = false) cmds.
Proof. intros H. apply list.Forall_forall. intros x Hx. apply elem_of_list_In in Hx. exact (find_none _ _ H x Hx). Qed.

Lemma no_merges_rebuilt d e allowed cs dest cmds : wf_graph (dag_graph d) -> knows d e -> plannable d e cs ->
  (forall fs, Permutation (pe_sort e fs) (elements fs)) -> build d e allowed cs = Done (BuiltPlan dest cmds) ->
  (forall c, rebuilt d cs c -> ~ merge_commit (dag_graph d) c) -> (forall t f, FixUpCommit t f ∉ cs) ->
  List.find merge_command cmds = None.
Proof.
  intros W K P Sort HB NM Nf. destruct (List.find merge_command cmds) as [x|] eqn:Ef; [|reflexivity]. apply find_some in Ef. exfalso.
  destruct Ef as [Hx Hm]. apply elem_of_list_In in Hx. destruct x as [| | |c ts| | | | |]; try discriminate.
  destruct (build_applies d e allowed cs dest cmds _ c W P Sort HB Hx ltac:(left)) as [Hr|[t H]]; [|now apply Nf in H].
  destruct (build_shaped d e allowed cs dest cmds _ W Sort HB Hx) as (cm & Hf & Hs).
  apply (NM c Hr). eapply merge_commit_spec; eauto. exact (pl_exists _ _ _ P c Hr).
Qed.

(** If the rebase succeeds in memory it does on disk, with the same commits, and the
    same is told of what became of each commit there was.  (On disk the commits made
    and dropped again are told to be gone, too.)  If it stops in memory, then for a
    merge, or it stops on disk as well.  Missing: fixups and replacements, and Git
    reusing commits which are in place already (see [c115_reused_refuted]). *)
Theorem c115_same_commits_partial : forall d e v allowed cs dest cmds st log head todo,
  wf_graph (dag_graph d) -> knows d e -> plannable d e cs -> pe_replace e = ∅ -> (forall t f, FixUpCommit t f ∉ cs) ->
  (forall fs, Permutation (pe_sort e fs) (elements fs)) -> (forall m, Permutation (ge_iter v m) (map_to_list m)) ->
  faithful_names (ge_exec v) -> named (ge_exec v) st -> present d e (ge_exec v) cs st -> fresh_names (ge_exec v) st ->
  (forall c q, ee_pick (ge_exec v) c q <> Broken) -> (forall c q, ee_amend (ge_exec v) c q <> Broken) -> ge_reuse v = false ->
  build d e allowed cs = Done (BuiltPlan dest cmds) -> handed_over head dest cmds todo ->
  ee_head (ge_exec v) = hi_oid head -> (forall h, hi_oid head = Some h -> is_Some (st !! h)) ->
  match rebase_in_memory (ge_exec v) st dest cmds with
  | Ok (st', rw, _) => (forall o, is_Some (st' !! o) -> oid_ok o) ->
      exists gs text l, run_todo v todo (disk_start log st head) = Went gs /\ gs_store gs = st' /\
        hs_rewritten (gs_hooks gs) = Some text /\ read_rewritten_list text = Some l /\
        (forall c, is_Some (st !! c) -> collect_map l !! c = rw !! c) /\
        (forall c x, st !! c = None -> collect_map l !! c = Some x -> x = Zero)
  | StopMerge _ st' => (forall c, rebuilt d cs c -> ~ merge_commit (dag_graph d) c) -> (forall o, is_Some (st' !! o) -> oid_ok o) ->
      exists gs, run_todo v todo (disk_start log st head) = Halted gs /\ gs_store gs = st'
  | Err _ => False
  end.
Proof.
  intros d e v allowed cs dest cmds st log head todo W K P Rep Nf Sort Iter Nm Ns Pr Fr Pk Am Anew HB (pre & files & Hw & Hin) Eh Hd.
  assert (Nfx : forall f, ~ fixed_up cs f) by (intros f [t H]; now apply Nf in H).
  unfold run_todo. rewrite (written_words d e allowed cs dest cmds head pre files true todo) by assumption.
  pose proof (build_runs d e (ge_exec v) allowed cs dest cmds st W K P ltac:(intros p c _ _; apply Nfx)
    ltac:(intros c r rc _ _ H; rewrite Rep, lookup_empty in H; discriminate) Sort Nm Ns Pr Pk Am HB) as Runs.
  pose proof (no_merges_rebuilt d e allowed cs dest cmds W K P Sort HB) as NM.
  pose proof (same_outcome d e v allowed cs dest cmds st log head W K P Rep Nf Sort Iter Nm Ns Pr Fr Anew HB Eh) as A.
  unfold rebase_in_memory in *.
  destruct (List.find merge_command cmds) as [x|] eqn:Ef.
  { apply find_some in Ef. destruct Ef as [_ Hm]. destruct x; try discriminate Hm. intros H _. now specialize (NM H Nf). }
  specialize (A (no_merges_in_memory cmds Ef)).
  destruct (exec_commands (ge_exec v) cmds (mk_es st dest ∅ ∅ None)) as [es|c st'|st'] eqn:Ex; cbn [ebind] in *.
  - intros Ok. destruct (A Ok) as (gs & l & HR & Hs & Hl & He & Hrw & Hnew & Hu & Hq). exists gs.
    destruct (disk_carried_out d e v allowed cs dest cmds st log head gs) as (l' & Hf & _); auto; [now rewrite Hs|].
    rewrite Hf in Hl. cbn in Hl. exists (write_rewritten_list l), l. split; [exact HR|]. split; [exact Hs|]. split; [congruence|].
    split; [now apply rewritten_round_trip|]. auto.
  - intros _ Ok. exact (A Ok).
  - destruct Runs as [[r H]|(c & st2 & H & _)]; discriminate.
Qed.

(** And at the end the repository is the same: the commits, every local branch, the
    commit of HEAD, and what is reported of each commit there was. *)
Theorem c115_same_end_partial : forall d e v allowed cs dest cmds r log head todo st' rw hd b groups r1 gs r2 log',
  wf_graph (dag_graph d) -> knows d e -> plannable d e cs -> pe_replace e = ∅ -> (forall t f, FixUpCommit t f ∉ cs) ->
  (forall fs, Permutation (pe_sort e fs) (elements fs)) -> (forall m, Permutation (ge_iter v m) (map_to_list m)) ->
  faithful_names (ge_exec v) -> named (ge_exec v) (rp_store r) -> present d e (ge_exec v) cs (rp_store r) -> fresh_names (ge_exec v) (rp_store r) ->
  ge_reuse v = false ->
  build d e allowed cs = Done (BuiltPlan dest cmds) -> handed_over head dest cmds todo ->
  ee_head (ge_exec v) = hi_oid head -> rp_head r = head -> is_Some (hi_oid head) ->
  (forall h, hi_oid head = Some h -> is_Some (rp_store r !! h)) ->
  (forall n o, rp_refs r !! n = Some o -> is_local n = true -> is_Some (rp_store r !! o)) ->
  (forall n h, hi_branch head = Some n -> hi_oid head = Some h -> rp_refs r !! n = Some h /\ is_local n = true) ->
  (forall refs, branch_table (groups refs) refs) ->
  rebase_in_memory (ge_exec v) (rp_store r) dest cmds = Ok (st', rw, hd) -> (forall o, is_Some (st' !! o) -> oid_ok o) ->
  post_rebase b groups (ge_iter v) rw hd (with_store st' r) = (r1, true) ->
  run_todo v todo (disk_start log (rp_store r) head) = Went gs -> end_of_rebase v b groups head gs r = (r2, log', true) ->
  rp_store r1 = rp_store r2 /\ (forall n, is_local n = true -> rp_refs r1 !! n = rp_refs r2 !! n) /\
  final_head r1 = final_head r2 /\
  (forall c x, is_Some (rp_store r !! c) -> (c, x) ∈ rp_rewrites r1 <-> (c, x) ∈ rp_rewrites r2).
Proof.
  intros d e v allowed cs dest cmds r log head todo st' rw hd b groups r1 gs r2 log'
    W K P Rep Nf Sort Iter Nm Ns Pr Fr Anew HB (pre & files & Hw & Hin) Eh Erh Hsome Hd Hrefs Hbr Hg HM Ok Hpost HR Hend.
  assert (NMc : Forall (fun x => merge_command x = false) cmds).
  { unfold rebase_in_memory in HM. destruct (List.find merge_command cmds) as [x|] eqn:Ef; [|now apply no_merges_in_memory].
    apply find_some in Ef. destruct Ef as [_ Hm]. destruct x; discriminate. }
  unfold run_todo in HR. rewrite (written_words d e allowed cs dest cmds head pre files true todo) in HR by assumption.
  apply in_memory_commands in HM. destruct HM as (es & Ex & -> & -> & ->).
  pose proof (same_outcome d e v allowed cs dest cmds (rp_store r) log head W K P Rep Nf Sort Iter Nm Ns Pr Fr Anew HB Eh NMc) as A.
  rewrite Ex in A. destruct (A Ok) as (gs' & l & HR' & Hs & Hl & He & Hrw & Hnew & Hu & Hq). rewrite HR in HR'. injection HR' as <-.
  destruct (disk_carried_out d e v allowed cs dest cmds (rp_store r) log head gs) as (l' & Hf & He' & Nd' & HC & Hname & Hextra & Hhead & _); auto; [now rewrite Hs|].
  rewrite Hf in Hl. cbn in Hl.
  assert (l' = l) as ->. { apply (f_equal read_rewritten_list) in Hl. rewrite !rewritten_round_trip in Hl by assumption. congruence. }
  destruct (end_spec v b groups head gs r r2 log' _ l Hg Hname Hextra Hf (rewritten_round_trip l He) Hend) as (E1 & E2 & E3 & E4).
  destruct (post_rebase_refs b groups (ge_iter v) (es_rewritten es) (new_head (ge_exec v) es) Hg (Iter _) _ _ Hpost) as (A1 & _ & _ & _ & A4).
  cbn [with_store rp_refs rp_rewrites rp_store] in A1, A4.
  assert (St1 : rp_store r1 = es_store es). { revert Hpost. unfold post_rebase. destruct (mr_ok _); [|discriminate]. intros [= <-]. reflexivity. }
  assert (Same : forall n, is_local n = true -> rp_refs r1 !! n = rp_refs r2 !! n).
  { intros n Hn. rewrite (A1 n Hn), E2. unfold branch_after. destruct (rp_refs r !! n) as [o|] eqn:Er; [|reflexivity]. rewrite Hn.
    now rewrite (Hrw o (Hrefs n o Er Hn)). }
  split; [congruence|]. split; [exact Same|]. split.
  - destruct Hsome as [h Hh]. pose proof (E4 h Hh) as F2.
    pose proof (post_rebase_head b groups (ge_iter v) (es_rewritten es) (new_head (ge_exec v) es) _ _ h Hpost) as F1.
    cbn [with_store rp_head] in F1. rewrite Erh in F1. specialize (F1 Hh).
    rewrite <- (Hrw h (Hd h Hh)) in F1. destruct (Hhead h Hh) as (q & _ & Hz).
    assert (Zero_ : collect_map l !! h = Some Zero -> new_head (ge_exec v) es = Some q /\ hs_updated_head (gs_hooks gs) = Some (oid_to_string q) /\ oid_ok q).
    { intros Z. destruct (Hz Z) as [Hup Hqs]. assert (Oq : oid_ok q) by (apply Ok; now rewrite <- Hs). split_and!; auto.
      unfold new_head. rewrite Eh, Hh, <- (Hrw h (Hd h Hh)), Z. rewrite Hu in Hup. destruct (es_skipped_head es) as [q'|] eqn:Esk; [|discriminate].
      cbn in Hup. apply (f_equal (fun o => match o with Some t => oid_from_string t | None => None end)) in Hup. cbv beta iota in Hup.
      rewrite !nzoid_text_round_trip in Hup; [congruence|exact Oq|]. apply Ok. now apply Hq. }
    destruct (hi_branch head) as [n|] eqn:Eb.
    + destruct (Hbr n h eq_refl Hh) as [Hn Hloc]. rewrite (Same n Hloc) in F1. pose proof (E2 n) as Rn.
      destruct (rp_refs r2 !! n) as [o|] eqn:Er2; [destruct F1 as [_ F1]; congruence|].
      unfold branch_after in Rn. rewrite Hn, Hloc in Rn. destruct (collect_map l !! h) as [[|o]|] eqn:Z; [|discriminate..].
      destruct (Zero_ eq_refl) as (B1 & B2 & B3). rewrite (F1 q B1), (F2 q B2 B3). reflexivity.
    + destruct (collect_map l !! h) as [[|o]|] eqn:Z; [|congruence|destruct F1; congruence].
      destruct (Zero_ eq_refl) as (B1 & B2 & B3). rewrite (F1 q B1), (F2 q B2 B3). reflexivity.
  - intros c x Hc. rewrite A4, E3, !elem_of_app. rewrite (elem_of_map_to_list (es_rewritten es) c x), <- (Hrw c Hc).
    rewrite (collect_in l c x Nd'). reflexivity.
Qed.

(** ** Examples *)

(** 2 on top of 1, 3 and 4 on top of 2; 6 on top of 1.  2 is moved on top of 6;
    nothing is left of 3, where HEAD is. *)
Definition fork : graph := [(1, []); (2, [1]); (3, [2]); (4, [2]); (6, [1])]%N.
Definition fork_names : list (oid * object) :=
  List.map (fun v => (fst v, object_in fork (fst v))) fork ++
  [(12, both_made 2 [6] 102); (13, both_made 3 [12] 102); (14, both_made 4 [12] 104);
   (22, both_made 2 [1] 102); (23, both_made 3 [22] 103); (24, both_made 4 [22] 104)]%N.
Definition fork_pick (c q : oid) : attempt := if ((c =? 3) && (q =? 12))%N%bool then MadeTree 102%N else MadeTree (100 + c)%N.
Definition fork_git (reuse : bool) : git_env :=
  mk_ge (mk_ee (name_as fork_names) fork_pick (fun _ _ => Conflict) (fun n => n + 1000)%N (fun _ => true) (Some 3%N))
    (fun c _ => MergedTree (100 + c)%N) reuse map_to_list 7%Z (TxId 9) 77%N.
Definition fork_plan (p : oid) : list constraint := [MoveSubtree [p] 2%N].

Lemma fork_vertices c : c ∈ vertices fork -> (c = 1 \/ c = 2 \/ c = 3 \/ c = 4 \/ c = 6)%N.
Proof. unfold vertices, fork. cbn. set_solver. Qed.
Lemma fork_store c x : store_of fork !! c = Some x -> c ∈ vertices fork /\ x = object_in fork c.
Proof. apply store_of_lookup. Qed.
Lemma fork_wf : wf_graph fork.
Proof. unfold fork, wf_graph. cbn. split_and!; set_solver. Qed.
Lemma fork_knows : knows (dag_of fork 1%N) (env_in fork).
Proof.
  intros c Hc. apply fork_vertices in Hc.
  destruct Hc as [-> |[-> |[-> |[-> | ->]]]]; eexists; (split; [vm_compute; reflexivity|reflexivity]).
Qed.
Lemma fork_subtrees p : Forall (fun x => exists p c, x = MoveSubtree [p] c /\ c ∈ vertices fork /\ ~ merge_commit fork c) (fork_plan p).
Proof.
  apply Forall_singleton. exists p, 2%N. split_and!; [reflexivity|decide_it|]. intros (ps & H & L). unfold fork in H.
  rewrite !elem_of_cons, elem_of_nil in H. destruct H as [H|[H|[H|[H|[H|[]]]]]]; injection H; intros; subst; cbn in L; try lia; discriminate.
Qed.
Lemma fork_named p reuse : p = 1%N \/ p = 6%N -> faithful_names (ge_exec (fork_git reuse)) /\ named (ge_exec (fork_git reuse)) (store_of fork) /\
  fresh_names (ge_exec (fork_git reuse)) (store_of fork) /\ present (dag_of fork 1%N) (env_in fork) (ge_exec (fork_git reuse)) (fork_plan p) (store_of fork).
Proof.
  intros Hp0. split_and!.
  - unfold faithful_names. cbn [fork_git ge_exec ee_hash]. apply name_as_inj.
    + unfold fork_names, fork. cbn. repeat constructor.
    + unfold fork_names, fork. cbn. decide_it.
  - unfold named. cbn [fork_git ge_exec ee_hash]. intros o x H. apply fork_store in H. destruct H as [H ->]. apply fork_vertices in H.
    destruct H as [-> |[-> |[-> |[-> | ->]]]]; vm_compute; reflexivity.
  - intros orig ps t. destruct (store_of fork !! _) as [y|] eqn:E; [|reflexivity]. exfalso. apply fork_store in E. destruct E as [Hc Ey].
    apply fork_vertices in Hc. revert Hc. cbn [fork_git ge_exec ee_hash]. unfold name_as.
    destruct (find_name fork_names _) as [w|] eqn:Ef; [|lia]. apply find_name_spec in Ef. destruct Ef as [Hin Hb].
    unfold remade in Hb. cbn [fork_git ge_exec ee_stamp] in Hb. clear Ey. unfold fork_names, fork in Hin. cbn in Hin.
    rewrite !elem_of_cons, elem_of_nil in Hin.
    destruct Hin as [-> |[-> |[-> |[-> |[-> |[-> |[-> |[-> |[-> |[-> |[-> |[]]]]]]]]]]]]; cbn in *; try lia; injection Hb; intros; lia.
  - constructor.
    + intros c x H. exact H.
    + intros c Hc. apply fork_vertices in Hc. destruct Hc as [-> |[-> |[-> |[-> | ->]]]]; eexists; (split; [vm_compute; reflexivity|reflexivity]).
    + intros q c H.
      assert (Hp : q ∈ vertices fork).
      { destruct H as [H|[H|H]].
        - destruct H as (before & ps & after & E & Hin & _).
          assert (Hx : MoveSubtree ps c ∈ fork_plan p) by (rewrite E; apply elem_of_app; right; left).
          apply elem_of_list_singleton in Hx. injection Hx as -> _. apply elem_of_list_singleton in Hin. subst q. destruct Hp0 as [-> | ->]; decide_it.
        - exfalso. destruct H as (_ & _ & before & x & after & a & b & E & T & _).
          assert (Hx : x ∈ fork_plan p) by (rewrite E; apply elem_of_app; right; left). apply elem_of_list_singleton in Hx. subst x.
          destruct T as [T|(t & T & _)]; discriminate.
        - destruct H as (_ & _ & H & _). apply (parent_vertices _ _ _ fork_wf) in H. apply H. }
      apply fork_vertices in Hp. destruct Hp as [-> |[-> |[-> |[-> | ->]]]]; eexists; vm_compute; reflexivity.
    + intros f [t H]. apply elem_of_list_singleton in H. discriminate.
    + intros c r H. cbn in H. rewrite lookup_empty in H. discriminate.
Qed.


Definition fork_cmds (p : oid) : list command :=
  match build (dag_of fork 1%N) (env_in fork) {[2; 3; 4]}%N (fork_plan p) with Done (BuiltPlan _ cmds) => cmds | _ => [] end.
Definition fork_todo (p : oid) : string :=
  match write_state false false both_head false p (fork_cmds p) with
  | Some (files, _) => match List.find (fun f => String.eqb (fst f) "git-rebase-todo") files with Some f => snd f | None => "" end
  | None => ""
  end.
Lemma fork_built p : p = 1%N \/ p = 6%N -> build (dag_of fork 1%N) (env_in fork) {[2; 3; 4]}%N (fork_plan p) = Done (BuiltPlan p (fork_cmds p)) /\
  handed_over both_head p (fork_cmds p) (fork_todo p).
Proof.
  intros [-> | ->]; (split; [vm_compute; reflexivity|]; exists false; eexists; (split; [vm_compute; reflexivity|]);
  match goal with |- (?a, ?b) ∈ _ => replace b with (snd (a, b)) by reflexivity end; apply elem_of_list_In; vm_compute; tauto).
Qed.
Lemma fork_fits p : plannable (dag_of fork 1%N) (env_in fork) (fork_plan p) /\ (forall t f, FixUpCommit t f ∉ fork_plan p).
Proof.
  destruct (subtrees_fit (dag_of fork 1%N) (env_in fork) (fork_plan p) fork_wf eq_refl (fork_subtrees p)) as (P & _ & _ & N).
  split; [exact P|]. intros t f H. apply (N f). now exists t.
Qed.
Definition on_ok (x : exec (store * gmap oid moid * option oid)) (f : store -> gmap oid moid -> option oid -> bool) : bool :=
  match x with Ok (st, rw, hd) => f st rw hd | _ => false end.
Lemma on_ok_spec x f : on_ok x f = true -> exists st rw hd, x = Ok (st, rw, hd) /\ f st rw hd = true.
Proof. destruct x as [[[st rw] hd]| |]; [eauto|discriminate..]. Qed.

(** In memory 2 and 4 are made anew, 3 is dropped and HEAD goes to 12; so on disk. *)
Example c115_same_commits_example : exists st rw gs text l,
  rebase_in_memory (ge_exec (fork_git false)) (store_of fork) 6%N (fork_cmds 6) = Ok (st, rw, Some 12%N) /\
  rw = {[2 := NonZero 12; 3 := Zero; 4 := NonZero 14]}%N /\
  run_todo (fork_git false) (fork_todo 6) (disk_start [] (store_of fork) both_head) = Went gs /\ gs_store gs = st /\
  hs_rewritten (gs_hooks gs) = Some text /\ read_rewritten_list text = Some l /\ collect_map l !! 4%N = Some (NonZero 14%N).
Proof.
  destruct (on_ok_spec (rebase_in_memory (ge_exec (fork_git false)) (store_of fork) 6%N (fork_cmds 6)) (fun st rw hd =>
    oids_ok st && bool_decide (rw = {[2 := NonZero 12; 3 := Zero; 4 := NonZero 14]}%N) && bool_decide (hd = Some 12%N))%bool)
    as (st & rw & hd & E & H); [vm_compute; reflexivity|].
  rewrite !andb_true_iff, !bool_decide_eq_true in H. destruct H as [[Hok Hrw] ->].
  destruct (fork_named 6%N false (or_intror eq_refl)) as (Nm & Ns & Fr & Pr). destruct (fork_built 6%N (or_intror eq_refl)) as [HB Hw].
  destruct (fork_fits 6%N) as [P Nf].
  pose proof (c115_same_commits_partial (dag_of fork 1%N) (env_in fork) (fork_git false) {[2; 3; 4]}%N (fork_plan 6) 6%N (fork_cmds 6)
    (store_of fork) [] both_head (fork_todo 6) fork_wf fork_knows P eq_refl Nf (sorted_elements) ltac:(intros m; reflexivity) Nm Ns Pr Fr) as T.
  specialize (T ltac:(intros c q; cbn; unfold fork_pick; destruct (_ && _)%bool; discriminate) ltac:(intros c q; discriminate) eq_refl HB Hw eq_refl
    ltac:(intros h [= <-]; eexists; vm_compute; reflexivity)).
  rewrite E in T. destruct (T (oids_ok_spec _ Hok)) as (gs & text & l & A1 & A2 & A3 & A4 & A5 & _).
  exists st, rw, gs, text, l. split_and!; auto. rewrite A5, Hrw by (eexists; vm_compute; reflexivity). vm_compute. reflexivity.
Qed.

(** foo, checked out at 3, is deleted either way, HEAD goes to 12, bar moves to 14. *)
Example c115_same_end_example :
  let b := mk_be (fun _ => true) (fun _ => true) "refs/heads/master" (Some None) in
  let r := mk_repo (store_of fork) {["refs/heads/master" := 1; "refs/heads/foo" := 3; "refs/heads/bar" := 4]}%N both_head [] [] StayPut in
  exists st rw hd r1 gs r2 log',
    rebase_in_memory (ge_exec (fork_git false)) (store_of fork) 6%N (fork_cmds 6) = Ok (st, rw, hd) /\ (forall o, is_Some (st !! o) -> oid_ok o) /\
    post_rebase b table_of map_to_list rw hd (with_store st r) = (r1, true) /\
    run_todo (fork_git false) (fork_todo 6) (disk_start [] (store_of fork) both_head) = Went gs /\
    end_of_rebase (fork_git false) b table_of both_head gs r = (r2, log', true) /\
    rp_refs r1 !! "refs/heads/foo" = None /\ rp_refs r2 !! "refs/heads/bar" = Some 14%N /\ final_head r1 = Some 12%N /\
    (forall n o, rp_refs r !! n = Some o -> is_local n = true -> is_Some (rp_store r !! o)).
Proof.
  intros b r.
  destruct (on_ok_spec (rebase_in_memory (ge_exec (fork_git false)) (store_of fork) 6%N (fork_cmds 6)) (fun st rw hd =>
    oids_ok st && match post_rebase b table_of map_to_list rw hd (with_store st r) with
      (r1, ok) => ok && bool_decide (rp_refs r1 !! "refs/heads/foo" = None) && bool_decide (final_head r1 = Some 12%N) end)%bool)
    as (st & rw & hd & E & H); [vm_compute; reflexivity|].
  destruct (on_went_spec (run_todo (fork_git false) (fork_todo 6) (disk_start [] (store_of fork) both_head)) (fun gs =>
    match end_of_rebase (fork_git false) b table_of both_head gs r with
      (r2, log', ok) => ok && bool_decide (rp_refs r2 !! "refs/heads/bar" = Some 14%N) end)%bool) as (gs & E' & H'); [vm_compute; reflexivity|].
  destruct (post_rebase b table_of map_to_list rw hd (with_store st r)) as [r1 ok] eqn:Ep.
  destruct (end_of_rebase (fork_git false) b table_of both_head gs r) as [[r2 log'] ok'] eqn:Ee.
  rewrite !andb_true_iff, !bool_decide_eq_true in H. destruct H as [Hok [[-> H1] H2]].
  rewrite !andb_true_iff, !bool_decide_eq_true in H'. destruct H' as [-> H3].
  exists st, rw, hd, r1, gs, r2, log'. split_and!; auto; [now apply oids_ok_spec|].
  intros n o Hn _. apply elem_of_map_to_list in Hn. vm_compute in Hn. apply elem_of_list_In in Hn.
  destruct Hn as [Hn|[Hn|[Hn|[]]]]; injection Hn as <- <-; eexists; vm_compute; reflexivity.
Qed.

(** If Git reuses the commits which are in place already, the results differ: 2 is
    on top of 1 and to be moved there; in memory it is made anew, on disk it is not. *)
Theorem c115_reused_refuted : exists d e v allowed cs dest cmds st head todo st' rw hd gs text l c,
  wf_graph (dag_graph d) /\ knows d e /\ plannable d e cs /\ pe_replace e = ∅ /\ (forall t f, FixUpCommit t f ∉ cs) /\
  faithful_names (ge_exec v) /\ named (ge_exec v) st /\ present d e (ge_exec v) cs st /\ fresh_names (ge_exec v) st /\
  build d e allowed cs = Done (BuiltPlan dest cmds) /\ handed_over head dest cmds todo /\ ee_head (ge_exec v) = hi_oid head /\
  rebase_in_memory (ge_exec v) st dest cmds = Ok (st', rw, hd) /\ (forall o, is_Some (st' !! o) -> oid_ok o) /\
  run_todo v todo (disk_start [] st head) = Went gs /\
  hs_rewritten (gs_hooks gs) = Some text /\ read_rewritten_list text = Some l /\
  gs_store gs = st /\ collect_map l !! c = Some (NonZero c) /\ exists n, rw !! c = Some (NonZero n) /\ st !! n = None /\ is_Some (st' !! n).
Proof.
  destruct (on_ok_spec (rebase_in_memory (ge_exec (fork_git true)) (store_of fork) 1%N (fork_cmds 1)) (fun st rw hd =>
    oids_ok st && bool_decide (rw !! 2%N = Some (NonZero 22%N)) && bool_decide (is_Some (st !! 22%N)))%bool)
    as (st & rw & hd & E & H); [vm_compute; reflexivity|].
  rewrite !andb_true_iff, !bool_decide_eq_true in H. destruct H as [[Hok Hrw] H22].
  destruct (on_went_spec (run_todo (fork_git true) (fork_todo 1) (disk_start [] (store_of fork) both_head)) (fun gs =>
    bool_decide (gs_store gs = store_of fork) && match hs_rewritten (gs_hooks gs) with
    | Some text => match read_rewritten_list text with
      | Some l => bool_decide (collect_map l !! 2%N = Some (NonZero 2%N))
      | None => false end
    | None => false end)%bool) as (gs & E' & H'); [vm_compute; reflexivity|].
  destruct (hs_rewritten (gs_hooks gs)) as [text|] eqn:Et; [|rewrite andb_false_r in H'; discriminate].
  destruct (read_rewritten_list text) as [l|] eqn:El; [|rewrite andb_false_r in H'; discriminate].
  rewrite !andb_true_iff, !bool_decide_eq_true in H'. destruct H' as [Hs Hl].
  destruct (fork_named 1%N true (or_introl eq_refl)) as (Nm & Ns & Fr & Pr). destruct (fork_built 1%N (or_introl eq_refl)) as [HB Hw].
  destruct (fork_fits 1%N) as [P Nf].
  exists (dag_of fork 1%N), (env_in fork), (fork_git true), {[2; 3; 4]}%N, (fork_plan 1), 1%N, (fork_cmds 1), (store_of fork), both_head, (fork_todo 1),
    st, rw, hd, gs, text, l, 2%N.
  split; [exact fork_wf|]. split; [exact fork_knows|]. split; [exact P|]. split; [reflexivity|]. split; [exact Nf|].
  split; [exact Nm|]. split; [exact Ns|]. split; [exact Pr|]. split; [exact Fr|]. split; [exact HB|]. split; [exact Hw|]. split; [reflexivity|].
  split; [exact E|]. split; [now apply oids_ok_spec|]. split; [exact E'|]. split; [exact Et|]. split; [exact El|]. split; [exact Hs|].
  split; [exact Hl|]. exists 22%N. split; [exact Hrw|]. split; [vm_compute; reflexivity|exact H22].
Qed.

Print Assumptions c115_same_commits_partial.
Print Assumptions c115_same_end_partial.
Print Assumptions c115_reused_refuted.
