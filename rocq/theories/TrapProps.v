(** Property C124: testing commits in the working copy. *)
From Verif Require Import Base ModeModel TreeModel TreeSpec TreeWitness SnapModel SnapSpec SnapProofs SnapWitness SnapProps
  SnapCmdModel SnapCmdSpec SnapCmdProofs SnapCmdProps TrapModel TrapSpec TrapProofs.
From Verif Require StrModel HookModel PlanModel ExecModel SeqModel.
Local Open Scope N_scope.
Local Open Scope list_scope.
Local Open Scope string_scope.

(** Whatever was tested and whatever the commands did to files, and wherever the run
    stopped: once the rebase is aborted, HEAD, the branch, all references, the index and
    every file of the commit are as before, and no rebase is in progress. *)
Theorem c124_interrupted st tree_of busy touched os s s1 s2 s' :
  set_abort_trap st tree_of busy s s1 true -> tests_run st tree_of touched os s1 s2 -> rebase_abort st tree_of s2 s' ->
  head_on_branch s ->
  same_place s s' /\ ts_rebase s' = None /\ (forall p k, ts_index s' p k = ts_index s p k) /\
  forall h p, ts_head s = Some h -> file_in st (tree_of h) p -> ts_disk s' p = ts_disk s p.
Proof.
  intros T R A H. destruct (trap_set _ _ _ _ _ T) as (h & _ & Hh & U & S & ->).
  destruct (tests_place _ _ _ _ _ _ R eq_refl) as (P1 & P2 & P3). cbn in P2, P3. unfold rebase_abort in A. rewrite P3 in A.
  destruct A as (A1 & A2 & A3 & A4 & (D1 & _ & D3)). split; [|split; [exact A3|split]].
  - split; [congruence|]. split; [exact A2|]. rewrite A4, P2. destruct (ts_branch s) as [n|] eqn:B; [|reflexivity].
    apply insert_id. rewrite (H n B). exact Hh.
  - intros p k. rewrite D3. symmetry. exact (clean_index st (tree_of h) s p k S).
  - intros h' p E (x & X & Tx). rewrite Hh in E. injection E as <-. specialize (D1 p). rewrite X in D1. rewrite D1. symmetry.
    exact (clean_file st (tree_of h) s p x U S X Tx).
Qed.

(** The same of a run that comes to its end. *)
Theorem c124_back st tree_of busy touched os s s' :
  run_tests st tree_of busy touched os s s' true -> head_on_branch s ->
  same_place s s' /\ ts_rebase s' = None /\ (forall p k, ts_index s' p k = ts_index s p k) /\
  forall h p, ts_head s = Some h -> file_in st (tree_of h) p -> ts_disk s' p = ts_disk s p.
Proof.
  intros [[_ [=]]|(s1 & s2 & T & R & A & _)] H. exact (c124_interrupted _ _ _ _ _ _ _ _ _ T R A H).
Qed.

(** While commits are tested, no reference moves and HEAD is detached; the commit and
    branch to go back to stay known to Git. *)
Theorem c124_meanwhile st tree_of busy touched os s s1 s2 :
  set_abort_trap st tree_of busy s s1 true -> tests_run st tree_of touched os s1 s2 ->
  ts_branch s2 = None /\ ts_refs s2 = ts_refs s /\
  exists h, ts_head s = Some h /\ ts_rebase s2 = Some (h, ts_branch s).
Proof.
  intros T R. destruct (trap_set _ _ _ _ _ T) as (h & _ & Hh & _ & _ & ->).
  destruct (tests_place _ _ _ _ _ _ R eq_refl) as (P1 & P2 & P3). split; [exact P1|]. split; [exact P2|]. exists h. split; [exact Hh|exact P3].
Qed.

(** A file that is in neither HEAD's nor any tested commit, and below no file of
    theirs, stays as it is, unless a command touches it.  Missing: other untracked files,
    see [c124_untracked_refuted]. *)
Theorem c124_others_partial st tree_of busy touched os s s' p :
  run_tests st tree_of busy touched os s s' true ->
  (forall h, ts_head s = Some h -> foreign st (tree_of h) p) -> (forall o, o ∈ os -> foreign st (tree_of o) p) ->
  ~ touched p -> ts_disk s p <> WFolder -> ts_disk s' p = ts_disk s p.
Proof.
  intros [[_ [=]]|(s1 & s2 & T & R & A & _)] Fh Fo Nt Nf. pose proof (trap_set _ _ _ _ _ T) as (h & _ & Hh & _ & S & ->).
  assert (Ni : ~ in_index (ts_index s) p).
  { intros [k K]. apply K. rewrite (clean_index st (tree_of h) s p k S). apply foreign_index. exact (Fh h Hh). }
  destruct (tests_foreign _ _ _ _ _ _ p R Fo Nt Ni Nf) as [E N]. cbn in E.
  destruct (tests_place _ _ _ _ _ _ R eq_refl) as (_ & _ & P3). cbn in P3. unfold rebase_abort in A. rewrite P3 in A.
  destruct A as (_ & _ & _ & _ & D). rewrite <- E in Nf. destruct (reset_foreign _ _ _ _ _ _ p D (Fh h Hh) N Nf) as [E' _]. congruence.
Qed.

(** During another operation, without a commit, or with files that differ from the index,
    nothing is tested and nothing changes. *)
Theorem c124_refused st tree_of busy touched os s s' ok :
  run_tests st tree_of busy touched os s s' ok -> busy = true \/ ts_head s = None \/ unstaged s -> ok = false /\ s' = s.
Proof.
  intros R C. assert (X : forall s1 b, set_abort_trap st tree_of busy s s1 b -> b = false /\ s1 = s).
  { intros s1 b T. unfold set_abort_trap in T. destruct busy; [tauto|]. destruct (ts_head s) as [h|]; [|tauto].
    destruct C as [[=]|[[=]|U]]. destruct T as [(_ & ? & ?)|(N & _)]; [auto|contradiction]. }
  destruct R as [[T ->]|(s1 & s2 & T & _)].
  - split; [reflexivity|]. apply (X _ _ T).
  - destruct (X _ _ T) as [[=] _].
Qed.

(** When it tests, there was nothing to lose: every file of the index was as in the
    commit. *)
Theorem c124_only_clean st tree_of busy touched os s s' :
  run_tests st tree_of busy touched os s s' true ->
  exists h, busy = false /\ ts_head s = Some h /\ ~ unstaged s /\ forall p k, ts_index s p k = index_of_tree st (tree_of h) p k.
Proof.
  intros [[_ [=]]|(s1 & s2 & T & _)]. destruct (trap_set _ _ _ _ _ T) as (h & -> & Hh & U & S & _).
  exists h. repeat split; [exact Hh|exact U|]. intros p k. exact (clean_index _ _ _ _ _ S).
Qed.

(** What Git is told is the one word `break`: it stops at once, with nothing done. *)
Theorem c124_break v log str head preserve dest :
  exists files, ExecModel.write_state false false head preserve dest [PlanModel.Break_] = Some (files, true) /\
    ("git-rebase-todo", "break" +:+ String StrModel.LF EmptyString) ∈ files /\
    SeqModel.run_todo v ("break" +:+ String StrModel.LF EmptyString) (SeqModel.disk_start log str head)
    = SeqModel.Halted (SeqModel.disk_start log str head).
Proof.
  unfold ExecModel.write_state. cbn [orb existsb ExecModel.replaces_original List.map ExecModel.to_rebase_command HookModel.all_some].
  eexists. split; [reflexivity|]. split; [|reflexivity]. apply elem_of_app. right. apply elem_of_app. left. left.
Qed.

(** ** Concrete runs *)

(** HEAD, on [main], has the files [a] and [b]; another commit has [a], changed, and [x];
    [x] and [y] are in the working copy without having been added. *)
Definition trap_now : tree := list_to_map [("a", file 1); ("b", file 2)].
Definition trap_other : tree := list_to_map [("a", file 5); ("x", file 6)].
Definition trap_trees : oid -> tree := fun o => if (o =? 1)%N then trap_now else trap_other.
Definition trap_store : tree_store := store_of [].
Definition trap_start : tstate :=
  mk_ts (Some 1) (Some "refs/heads/main") (list_to_map [("refs/heads/main", 1); ("refs/heads/other", 2)])
    (index_of_tree trap_store trap_now) (disk_of [on "a" 1; on "b" 2; on "x" 8; on "y" 9]) None.
(** The command writes [b] only. *)
Definition trap_touched (p : path) : Prop := p = ["b"].

Lemma trap_entry p x : entry_at trap_store trap_now p = Some x -> p = ["a"] /\ x = file 1 \/ p = ["b"] /\ x = file 2.
Proof.
  destruct p as [|n [|m q]]; [discriminate| |].
  - intros H. cbn in H. unfold trap_now in H. cbn in H. rewrite !lookup_insert_Some, lookup_empty in H.
    destruct H as [[<- <-]|[_ [[<- <-]|[_ H]]]]; [auto|auto|discriminate].
  - intros H. cbn [entry_at] in H. destruct (trap_now !! n) as [y|] eqn:E; [|discriminate]. unfold trap_now in E. cbn in E.
    rewrite !lookup_insert_Some, lookup_empty in E.
    destruct E as [[<- <-]|[_ [[<- <-]|[_ E]]]]; [| |discriminate]; vm_compute in H; discriminate.
Qed.
Lemma trap_start_clean : ~ unstaged trap_start.
Proof.
  intros (p & [H|[H|[H|H]]]); [by apply H..|]. unfold trap_start in H. cbn [ts_index ts_disk] in H. unfold index_of_tree in H.
  destruct (entry_at trap_store trap_now p) as [[o m]|] eqn:E; [|exact H].
  destruct (trap_entry _ _ E) as [[-> [= -> ->]]|[-> [= -> ->]]]; apply H; vm_compute; reflexivity.
Qed.
Lemma trap_starts : set_abort_trap trap_store trap_trees false trap_start (detached trap_start 1) true.
Proof.
  cbn. right. split; [exact trap_start_clean|]. split; [reflexivity|]. split; [|reflexivity].
  intros _ (p & k & H). by apply H.
Qed.
Lemma trap_on_branch : head_on_branch trap_start.
Proof. intros n [= <-]. vm_compute. reflexivity. Qed.

(** Testing the other commit, with any contents that the command leaves in [b]. *)
Lemma trap_tested (b : wnode) : exists s2 s', tests_run trap_store trap_trees trap_touched [2] (detached trap_start 1) s2 /\
  rebase_abort trap_store trap_trees s2 s' /\ ts_disk s2 ["b"] = b /\ ts_disk s2 ["a"] = WFile 5 false.
Proof.
  destruct (discardable trap_store trap_other (ts_index trap_start) (ts_disk trap_start)) as (i1 & d1 & D1).
  set (s1 := mk_ts (Some 2) None (ts_refs trap_start) i1 d1 (Some (1, Some "refs/heads/main"))).
  set (s2 := mk_ts (Some 2) None (ts_refs trap_start) i1 (fun p => if decide (p = ["b"]) then b else d1 p) (Some (1, Some "refs/heads/main"))).
  destruct (discardable trap_store trap_now (ts_index s2) (ts_disk s2)) as (i3 & d3 & D3).
  exists s2, (mk_ts (Some 1) (Some "refs/heads/main") (<["refs/heads/main" := 1]> (ts_refs trap_start)) i3 d3 None).
  split; [|split; [|split]].
  - apply (one_more _ _ _ _ _ _ s1 s2).
    + split; [reflexivity|]. split; [reflexivity|]. split; [reflexivity|]. split; [reflexivity|exact D1].
    + split; [reflexivity|]. split; [reflexivity|]. split; [reflexivity|]. split; [done|]. intros p Np. split; [|reflexivity].
      cbn [ts_disk s2]. destruct (decide (p = ["b"])) as [E|E]; [by destruct Np|reflexivity].
    + constructor.
  - split; [reflexivity|]. split; [reflexivity|]. split; [reflexivity|]. split; [reflexivity|exact D3].
  - reflexivity.
  - destruct D1 as [D1 _]. specialize (D1 ["a"]). exact D1.
Qed.

Example c124_example : exists s2 s', run_tests trap_store trap_trees false trap_touched [2] trap_start s' true /\
  tests_run trap_store trap_trees trap_touched [2] (detached trap_start 1) s2 /\
  ts_disk s2 ["a"] = WFile 5 false /\ ts_disk s2 ["b"] = WFile 77 false /\
  same_place trap_start s' /\ ts_disk s' ["a"] = WFile 1 false /\ ts_disk s' ["b"] = WFile 2 false /\ ts_disk s' ["y"] = WFile 9 false.
Proof.
  destruct (trap_tested (WFile 77 false)) as (s2 & s' & R & A & Hb & Ha).
  assert (RT : run_tests trap_store trap_trees false trap_touched [2] trap_start s' true).
  { right. exists (detached trap_start 1), s2. split; [exact trap_starts|]. split; [exact R|]. split; [exact A|reflexivity]. }
  destruct (c124_back _ _ _ _ _ _ _ RT trap_on_branch) as (P & _ & _ & F).
  assert (Fa : forall t q x, ["y"] <> q -> q `prefix_of` ["y"] -> entry_at trap_store t q = Some x -> is_tree x = true).
  { intros t q x Nq [r E]. destruct q as [|n q]; [discriminate|]. injection E as <- E. apply eq_sym, app_eq_nil in E as [-> ->]. by destruct Nq. }
  exists s2, s'. split; [exact RT|]. split; [exact R|]. split; [exact Ha|]. split; [exact Hb|]. split; [exact P|]. split; [|split].
  - rewrite (F 1 ["a"]); [reflexivity|reflexivity|]. exists (file 1). split; reflexivity.
  - rewrite (F 1 ["b"]); [reflexivity|reflexivity|]. exists (file 2). split; reflexivity.
  - rewrite (c124_others_partial _ _ _ _ _ _ _ ["y"] RT); [reflexivity| | | |discriminate].
    + intros h [= <-]. split; [reflexivity|]. intros q x Q1 Q2. exact (Fa _ q x (not_eq_sym Q2) Q1).
    + intros o Ho. apply elem_of_list_singleton in Ho as ->. split; [reflexivity|]. intros q x Q1 Q2. exact (Fa _ q x (not_eq_sym Q2) Q1).
    + discriminate.
Qed.

(** Not so for a file that was not added to the index when a tested commit has a file of
    that name: it is lost, though the run was not refused and no command touched it. *)
Theorem c124_untracked_refuted : exists st tree_of touched os s s' p,
  run_tests st tree_of false touched os s s' true /\ head_on_branch s /\ ~ touched p /\
  ts_disk s p = WFile 8 false /\ ts_disk s' p <> WFile 8 false /\ forall b e, ts_disk s' p <> WFile b e.
Proof.
  destruct (trap_tested (WFile 77 false)) as (s2 & s' & R & A & _).
  exists trap_store, trap_trees, trap_touched, [2], trap_start, s', ["x"].
  assert (X : ts_disk s' ["x"] = WNothing \/ ts_disk s' ["x"] = WFolder).
  { assert (I : in_index (ts_index s2) ["x"]).
    { inversion R as [|o os a s1 b c R1 C1 T1|o os a s1 c R1 T1]; subst; inversion T1; subst.
      - destruct R1 as (_ & _ & _ & _ & (_ & _ & D)). destruct C1 as (_ & _ & _ & _ & C). exists Stage0.
        destruct (C ["x"] ltac:(discriminate)) as [_ ->]. rewrite D. discriminate.
      - destruct R1 as (_ & _ & _ & _ & (_ & _ & D)). exists Stage0. rewrite D. discriminate. }
    destruct (tests_place _ _ _ _ _ _ R eq_refl) as (_ & _ & P3). cbn in P3. unfold rebase_abort in A. rewrite P3 in A.
    destruct A as (_ & _ & _ & _ & (D & _)). specialize (D ["x"]). exact (proj1 D I). }
  split; [right; exists (detached trap_start 1), s2; split; [exact trap_starts|split; [exact R|split; [exact A|reflexivity]]]|].
  split; [exact trap_on_branch|]. split; [discriminate|]. split; [reflexivity|].
  split; [destruct X as [-> | ->]; discriminate|]. intros b e. destruct X as [-> | ->]; discriminate.
Qed.

(** A change that is staged is not noticed before HEAD is detached.  No test is run, but
    HEAD has left its branch and a rebase is in progress; and leaving the rebase with
    `git rebase --abort` loses the change. *)
Theorem c124_staged_refuted : exists st tree_of touched os s s' p,
  run_tests st tree_of false touched os s s' false /\ head_on_branch s /\ ts_rebase s = None /\
  ts_branch s <> None /\ ts_branch s' = None /\ ts_rebase s' <> None /\
  ts_disk s p = WFile 3 false /\ ts_index s p Stage0 = Some (NonZero 3, mode_number Blob) /\
  (forall s'', rebase_abort st tree_of s' s'' -> ts_disk s'' p = WFile 1 false /\ ts_index s'' p Stage0 = Some (NonZero 1, mode_number Blob)) /\
  exists s'', rebase_abort st tree_of s' s''.
Proof.
  set (i := fun p k => if decide (p = ["a"]) then match k with Stage0 => Some (NonZero 3, mode_number Blob) | _ => None end else index_of_tree trap_store trap_now p k).
  set (s := mk_ts (Some 1) (Some "refs/heads/main") (ts_refs trap_start) i (disk_of [on "a" 3; on "b" 2]) None).
  exists trap_store, trap_trees, (fun _ => False), [2], s, (detached s 1), ["a"].
  split; [|split; [|split; [|split; [|split; [|split; [|split; [|split; [|split]]]]]]]].
  - left. split; [|reflexivity]. cbn. right. split; [|split; [reflexivity|split; [discriminate|]]].
    + intros (p & H). cbn [ts_index ts_disk s] in H. unfold i in H. destruct (decide (p = ["a"])) as [->|Np].
      * destruct H as [H|[H|[H|H]]]; [by apply H..|]. apply H. vm_compute. reflexivity.
      * destruct H as [H|[H|[H|H]]]; [by apply H..|]. unfold index_of_tree in H.
        destruct (entry_at trap_store trap_now p) as [[o m]|] eqn:E; [|exact H].
        destruct (trap_entry _ _ E) as [[-> _]|[-> [= -> ->]]]; [by apply Np|]. apply H. vm_compute. reflexivity.
    + intros N. exfalso. apply N. exists ["a"], Stage0. discriminate.
  - intros n [= <-]. vm_compute. reflexivity.
  - reflexivity.
  - discriminate.
  - reflexivity.
  - discriminate.
  - reflexivity.
  - reflexivity.
  - intros s'' A. cbn in A. destruct A as (_ & _ & _ & _ & (D1 & _ & D3)). split; [|rewrite D3; reflexivity].
    specialize (D1 ["a"]). exact D1.
  - destruct (discardable trap_store trap_now i (disk_of [on "a" 3; on "b" 2])) as (i3 & d3 & D3).
    exists (mk_ts (Some 1) (Some "refs/heads/main") (<["refs/heads/main" := 1]> (ts_refs trap_start)) i3 d3 None).
    cbn. auto.
Qed.

Print Assumptions c124_interrupted.
Print Assumptions c124_back.
Print Assumptions c124_meanwhile.
Print Assumptions c124_others_partial.
Print Assumptions c124_refused.
Print Assumptions c124_only_clean.
Print Assumptions c124_break.
Print Assumptions c124_untracked_refuted.
Print Assumptions c124_staged_refuted.
