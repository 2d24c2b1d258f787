(** Claims C92 to C94: kept test results, the options of [git test], and the
    quoting in its hints. *)
From Verif Require Import Base TextModel TextProofs SnapModel TestCacheModel TestCacheSpec TestCacheProofs.
Local Open Scope N_scope.
Local Open Scope string_scope.

(** ** C92: an answer that was kept is the answer of a run that took place *)

(** Whatever was run, cut short, shown or cleaned before: when the command is
    not run, then the answer is that somebody else is running it; or that the
    file cannot be read, because a run was stopped while writing it; or the
    answer of a run on the same contents of a command with the same slug. *)
Theorem c92_kept : forall h busy o tree res, Forall good_op h ->
  ~ command_runs busy o tree (cache_after h) ->
  let x := (run_test busy o tree res (cache_after h)).1 in
  ro_cache o = true
  /\ (x = OInProgress /\ (tree, slug (ro_command o)) ∈ busy
      \/ x = OReadCacheFailed /\ torn_before h tree (slug (ro_command o))
      \/ exists code a i command, ran_before h tree (slug (ro_command o)) code a i command
           /\ tells_of code a i true x).
Proof.
  intros h busy o tree res G N x. rewrite command_runs_spec in N. subst x. unfold run_test.
  pose proof (cache_origin h tree (slug (ro_command o))) as O. revert N. unfold make_test_files.
  destruct (ro_cache o) eqn:C; cbn [negb fst]; [|done]. intros N. split; [done|]. revert N.
  change (key o tree) with (tree, slug (ro_command o)). case_bool_decide as B; cbn [fst]; [auto|].
  destruct (cache_after h !! (tree, slug (ro_command o))) as [f|] eqn:E; cbn [default from_option id fst]; [|done].
  specialize (O f eq_refl). destruct f as [| | | |sv]; cbn [fst]; try done; intros _; right; [left; auto|right].
  destruct O as (code & a & i & c & R & ->). exists code, a, i, c. split; [done|].
  destruct (good_ran _ _ _ _ _ _ _ G R) as [G1 G2]. now apply (read_saved_of (mk_ro c true i)).
Qed.

(** For a command of which the slug says everything, that was the same command. *)
Theorem c92_same_command : forall h tree command code a i command',
  plain command -> plain command' -> ran_before h tree (slug command) code a i command' -> command' = command.
Proof. intros h tree c code a i c' P P' (h1 & busy & h2 & _ & E & _). now apply slug_inj. Qed.

(** A result is used from then on, until the results for these contents are
    cleaned: nothing is run again, and the answer is that of the run. *)
Theorem c92_not_again : forall h1 busy o tree code a h2 busy' o' res,
  good_op (Run busy o tree (Exited code a)) -> ro_cache o = true ->
  command_runs busy o tree (cache_after h1) -> not_cleaned tree h2 ->
  ro_cache o' = true -> slug (ro_command o') = slug (ro_command o) -> (tree, slug (ro_command o)) ∉ busy' ->
  let k := cache_after (h1 ++ Run busy o tree (Exited code a) :: h2)%list in
  ~ command_runs busy' o' tree k
  /\ tells_of code a (ro_interactive o) true (run_test busy' o' tree res k).1
  /\ (run_test busy' o' tree res k).2 = k.
Proof.
  intros h1 busy o tree code a h2 busy' o' res [G1 G2] C R N C' S B k. rewrite command_runs_spec in *.
  assert (E : k !! (tree, slug (ro_command o)) = Some (Result (saved_of o code a))).
  { subst k. rewrite cons_middle, app_assoc. apply result_lasts; [|done].
    rewrite cache_after_snoc. cbn [apply_op]. unfold run_test.
    destruct (make_test_files busy o tree (cache_after h1)) as [? k1]. cbn [fst] in R. subst.
    cbn [snd]. rewrite C. apply lookup_insert. }
  unfold run_test, make_test_files. rewrite C'. cbn [negb]. unfold key. rewrite S, bool_decide_false by done.
  rewrite E. cbn [default from_option id fst snd]. split; [done|]. split; [|done]. now apply read_saved_of.
Qed.

(** Without a result the command is run, and what it tells is reported. *)
Theorem c92_run : forall h busy o tree, Forall good_op h -> (tree, slug (ro_command o)) ∉ busy ->
  ~ torn_before h tree (slug (ro_command o)) ->
  (forall code a i c, ~ ran_before h tree (slug (ro_command o)) code a i c) ->
  command_runs busy o tree (cache_after h).
Proof.
  intros h busy o tree G B T R. destruct (make_test_files busy o tree (cache_after h)).1 eqn:E;
    [|now apply command_runs_spec]. exfalso.
  destruct (c92_kept h busy o tree Killed G) as (_ & [[_ ?]|[[_ ?]|(code & a & i & c & H & _)]]); try done.
  - rewrite command_runs_spec, E. done.
  - now apply (R code a i c).
Qed.
Theorem c92_reports : forall busy o tree k code a, command_runs busy o tree k ->
  tells_of code a (ro_interactive o) false (run_test busy o tree (Exited code a) k).1.
Proof.
  intros busy o tree k code a R. apply command_runs_spec in R. unfold run_test.
  destruct (make_test_files busy o tree k) as [f k1]. cbn [fst] in R. subst f. cbn [fst]. apply status_tells.
Qed.

(** A command that could not be run to its end is run the next time. *)
Theorem c92_unfinished : forall busy o tree res k busy' o' tree',
  command_runs busy o tree k -> (forall code a, res <> Exited code a) ->
  slug (ro_command o') = slug (ro_command o) -> tree' = tree -> (tree, slug (ro_command o)) ∉ busy' ->
  ro_cache o = true ->
  command_runs busy' o' tree' (run_test busy o tree res k).2.
Proof.
  intros busy o tree res k busy' o' tree' R N S -> B C. rewrite command_runs_spec in *.
  assert (E : (make_test_files busy o tree k).2 !! (tree, slug (ro_command o)) = Some Empty).
  { revert R. unfold make_test_files. rewrite C. cbn [negb]. case_bool_decide; [done|].
    change (tree, slug (ro_command o)) with (key o tree).
    destruct (default Absent (k !! key o tree)); cbn [fst snd]; try done; intros _; apply lookup_insert. }
  unfold run_test. destruct (make_test_files busy o tree k) as [f k1]. cbn [fst snd] in R, E. subst f.
  assert (E2 : (match res with NoDirectory => (OCheckoutFailed, k1) | NoStart => (OSpawnFailed, k1) | Killed => (OSignalled, k1)
     | Exited code a => (status_of o code a, if ro_cache o then <[key o tree := Result (saved_of o code a)]> k1 else k1) end).2 = k1).
  { destruct res as [| | |code a]; try done. now destruct (N code a). }
  rewrite E2. unfold make_test_files. destruct (ro_cache o'); cbn [negb]; [|done]. unfold key. rewrite S.
  rewrite bool_decide_false by done. rewrite E. done.
Qed.

(** [--no-cache]: the command is run, and the kept results stay as they are. *)
Theorem c92_no_cache : forall busy o tree res k, ro_cache o = false ->
  command_runs busy o tree k /\ (run_test busy o tree res k).2 = k.
Proof.
  intros busy o tree res k C. rewrite command_runs_spec. unfold run_test, make_test_files. rewrite C. cbn.
  split; [done|]. now destruct res.
Qed.

(** [git test clean]: for the contents given nothing is kept, everything else
    stays, and each directory found is counted once. *)
Theorem c92_clean : forall trees k, let res := clean trees k in
  (forall busy o t, t ∈ trees -> (t, slug (ro_command o)) ∉ busy -> command_runs busy o t res.2)
  /\ (forall t s, t ∉ trees -> res.2 !! (t, s) = k !! (t, s))
  /\ exists l, NoDup l /\ length l = res.1 /\ forall t, t ∈ l <-> t ∈ trees /\ exists s, is_Some (k !! (t, s)).
Proof.
  intros trees k res. subst res. split; [|split].
  - intros busy o t Ht B. apply command_runs_spec. unfold make_test_files. destruct (ro_cache o); cbn [negb]; [|done].
    unfold key. rewrite bool_decide_false by done.
    destruct ((clean trees k).2 !! (t, slug (ro_command o))) as [f|] eqn:E; [|done].
    now apply clean_at in E as [_ E].
  - intros t s Ht. apply option_eq. intros f. rewrite clean_at. cbn. tauto.
  - apply clean_count.
Qed.

(** [git test show] never loses a result and never makes one up. *)
Theorem c92_show : forall busy o tree k x f, (apply_op (Show busy o tree) k !! x = Some f -> k !! x = Some f \/ f = Absent \/ f = Empty)
  /\ (forall sv, k !! x = Some (Result sv) -> apply_op (Show busy o tree) k !! x = Some (Result sv)).
Proof. intros. split; [apply mtf_at|intros; now apply mtf_keeps]. Qed.

(** The answer need not be about the command given: different commands may
    share a slug. *)
Theorem c92_slug_refuted : exists h o tree res, Forall good_op h
  /\ ~ command_runs ∅ o tree (cache_after h)
  /\ (run_test ∅ o tree res (cache_after h)).1 = OFailed true 1 false
  /\ forall code a i command, ran_before h tree (slug (ro_command o)) code a i command -> command <> ro_command o.
Proof.
  exists [Run ∅ (mk_ro "make lint" true false) 7 (Exited 1 (mk_lb (Some 3) NoChanges (NonZero 7)))].
  exists (mk_ro "make/lint" true false), 7%N, (Exited 0 (mk_lb (Some 3) NoChanges (NonZero 7))).
  split; [|split; [|split]].
  - constructor; [|constructor]. split; intros o [= <-]; done.
  - intros H. vm_compute in H. discriminate.
  - vm_compute. reflexivity.
  - intros code a i c (h1 & busy & h2 & E & _). destruct h1 as [|x h1]; [injection E; intros; subst; discriminate|].
    destruct h1; discriminate.
Qed.

(** Two commits with the same contents: the second is answered from the first;
    the first had its command cut short at first, and the fix is remembered. *)
Example c92_example :
  let o := mk_ro "cargo fmt" true false in
  let left := mk_lb (Some 11) Unstaged (NonZero 21) in
  let h := [CutShort ∅ o 20 false; Run ∅ o 20 (Exited 0 left); Show ∅ o 30] in
  Forall good_op h
  /\ (run_test ∅ o 20 NoStart (cache_after h)).1 = OPassed true (mk_fi (Some 11) (Some 21)) false
  /\ command_runs ∅ o 30 (cache_after h)
  /\ command_runs ∅ (mk_ro "cargo test" true false) 20 (cache_after h)
  /\ (clean [20; 20; 30; 40] (cache_after h)).1 = 2%nat.
Proof.
  intros o left h. subst h. repeat simple refine (conj _ _).
  { constructor; [exact I|]. constructor; [split; intros x [= <-]; done|]. constructor; [exact I|constructor]. }
  all: vm_compute; reflexivity.
Qed.
Example c92_torn_example :
  let o := mk_ro "cargo test" true false in
  (run_test ∅ o 20 Killed (cache_after [CutShort ∅ o 20 true])).1 = OReadCacheFailed
  /\ (run_test ∅ o 20 Killed (cache_after [CutShort ∅ o 20 true; Clean [20]])).1 = OSignalled.
Proof. split; vm_compute; reflexivity. Qed.

(** ** C93: how many jobs, and where *)

(** What [--interactive] and [--strategy] say is done; one interactive job. *)
Theorem c93_options : forall r c n s i, resolve_jobs r c = Resolved n s i ->
  i = raw_interactive r
  /\ (forall s', raw_strategy r = Some s' -> s = s')
  /\ (i = true -> n = 1%N)
  /\ (forall j, raw_jobs r = Some j -> n = if decide (j = 0%N) then tc_cpus c else j)
  /\ (tc_cpus c <> 0%N -> n <> 0%N).
Proof.
  intros [rs ri rj] [ts tj cpus] n s i. unfold resolve_jobs, configured_strategy, configured_jobs. cbn.
  destruct rs as [[]|], ri, rj as [j|], ts as [[[]|]|], tj as [tj|]; cbn; try done;
    repeat case_decide; cbn; try done; intros [= <- <- <-]; split_and!; intros; simplify_eq; try done;
    repeat case_decide; try done; try lia.
Qed.

(** When it is refused. *)
Theorem c93_refused : forall r c,
  (resolve_jobs r c = BadStrategy <-> raw_strategy r = None /\ tc_strategy c = Some None)
  /\ (resolve_jobs r c = BadJobs <-> (raw_strategy r = None -> tc_strategy c <> Some None) /\ exists j, tc_jobs c = Some j /\ (j < 0)%Z)
  /\ (resolve_jobs r c = JobsInteractive -> raw_interactive r = true /\ exists j, raw_jobs r = Some j /\ j <> 1%N)
  /\ (resolve_jobs r c = JobsWorkingCopy -> raw_strategy r = Some WorkingCopy /\ raw_interactive r = false /\ exists j, raw_jobs r = Some j /\ j <> 1%N)
  /\ (forall j, raw_jobs r = Some j -> j <> 1%N -> raw_interactive r = true \/ raw_strategy r = Some WorkingCopy -> forall n s i, resolve_jobs r c <> Resolved n s i).
Proof.
  intros [rs ri rj] [ts tj cpus]. unfold resolve_jobs, configured_strategy, configured_jobs. cbn.
  destruct rs as [[]|], ri, rj as [j|], ts as [[[]|]|], tj as [tj|]; cbn;
    repeat case_decide; cbn; split_and!; intros; try done; try (split; intros); try done;
    repeat match goal with H : _ /\ _ |- _ => destruct H | H : exists _, _ |- _ => destruct H end; simplify_eq; try lia; try done; eauto;
    try (now exfalso; eauto); try (split_and!; try done; eauto); try (destruct_or!; done); exfalso; now apply H.
Qed.

(** Jobs in the working copy run one at a time, if the number of jobs or the
    strategy is given on the command line, or the configuration has no number. *)
Theorem c93_working_copy_partial : forall r c n i, resolve_jobs r c = Resolved n WorkingCopy i ->
  raw_strategy r <> None \/ raw_jobs r <> None \/ tc_jobs c = None \/ raw_interactive r = true -> n = 1%N.
Proof.
  intros [rs ri rj] [ts tj cpus] n i. unfold resolve_jobs, configured_strategy, configured_jobs. cbn.
  destruct rs as [[]|], ri, rj as [j|], ts as [[[]|]|], tj as [tj|]; cbn; try done;
    repeat case_decide; cbn; try done; intros [= <- <-] [?|[?|[?|?]]]; try done.
Qed.
(** Otherwise not: with [branchless.test.jobs] set and nothing on the command
    line, several jobs are to share the one working copy. *)
Theorem c93_working_copy_refuted : exists r c n i, tc_cpus c <> 0%N /\ resolve_jobs r c = Resolved n WorkingCopy i /\ (1 < n)%N.
Proof. exists (mk_raw None false None), (mk_tc None (Some 4%Z) 8), 4%N, false. done. Qed.

Example c93_example :
  resolve_jobs (mk_raw None false (Some 0%N)) (mk_tc (Some (Some WorkingCopy)) None 8) = Resolved 8 Worktree false
  /\ resolve_jobs (mk_raw (Some WorkingCopy) false None) (mk_tc None (Some 4%Z) 8) = Resolved 1 WorkingCopy false
  /\ resolve_jobs (mk_raw (Some Worktree) true (Some 2%N)) (mk_tc None None 8) = JobsInteractive
  /\ resolve_jobs (mk_raw None true None) (mk_tc (Some (Some Worktree)) (Some 4%Z) 8) = Resolved 1 Worktree true.
Proof. split_and!; vm_compute; reflexivity. Qed.

(** ** C94: the argument quoted in the hint *)

(** Pasted into a shell, the quoted text is read as the argument, provided it
    holds no backslash, dollar sign or backtick. *)
Theorem c94_quoted_partial : forall s, without ["092"%char; "$"%char; "`"%char] s -> shell_reads (shell_escape s) = Some s.
Proof.
  intros s H. unfold shell_escape, shell_reads. rewrite Ascii.eqb_refl, escape_reads.
  - f_equal. apply doubled_id. revert H. apply without_sub. intros c ->%elem_of_list_singleton. left.
  - revert H. apply without_sub. intros c H. now right.
Qed.
(** And only then. *)
Theorem c94_otherwise : forall s, shell_reads (shell_escape s) = Some s -> without ["092"%char; "$"%char; "`"%char] s.
Proof.
  intros s. unfold shell_escape, shell_reads. rewrite Ascii.eqb_refl. intros H.
  assert (W : without ["$"%char; "`"%char] s).
  { destruct (decide (without ["$"%char; "`"%char] s)) as [?|n]; [done|]. rewrite escape_fails in H by done. discriminate. }
  rewrite escape_reads in H by done. injection H as H. apply doubled_same in H. clear -W H.
  induction s as [|c s IH]; cbn [without] in *; [done|]. destruct W as [W1 W], H as [H1 H]. split; [|auto].
  intros [->|?]%elem_of_cons; [apply H1; left|done].
Qed.
(** A backslash comes out as two. *)
Theorem c94_backslash : forall s, without ["$"%char; "`"%char] s -> shell_reads (shell_escape s) = Some (doubled s).
Proof. intros s H. unfold shell_escape, shell_reads. now rewrite Ascii.eqb_refl, escape_reads. Qed.
Theorem c94_refuted : exists s, shell_reads (shell_escape s) <> Some s.
Proof. exists (String "a" (String "092" (String "." EmptyString))). vm_compute. discriminate. Qed.

Example c94_example : let q := String "034" EmptyString in
  let s := ("stack() & message(" ++ q ++ "fix it" ++ q ++ ")")%string in
  without ["092"%char; "$"%char; "`"%char] s /\ shell_reads (shell_escape s) = Some s /\ shell_escape s <> (q ++ s ++ q)%string.
Proof.
  intros q s. subst s q. split; [apply (bool_decide_unpack _); vm_compute; exact I|]. split; [vm_compute; reflexivity|].
  vm_compute. discriminate.
Qed.

Print Assumptions c92_kept.
Print Assumptions c92_not_again.
Print Assumptions c92_clean.
Print Assumptions c93_options.
Print Assumptions c94_quoted_partial.
