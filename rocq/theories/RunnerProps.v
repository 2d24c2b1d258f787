(** C44, C45: running tests in parallel. *)
From Verif Require Import Base TextModel EventLogModel EvolveModel DagModel DagSpec DagProofs.
From Verif Require Import BisectModel BisectSpec BisectProofs BisectProps.
From Verif Require Import RunnerModel RunnerSpec QueueProofs RunnerProofs RunnerRunProofs.
Local Open Scope N_scope.

(** ** C44 *)

(** Whatever the calls and their order, if no call of [set] lists a job twice
    then no job is handed out twice, and only jobs that were set are. *)
Theorem c44_once cs out q :
  (forall jobs, QSet jobs ∈ cs -> NoDup jobs) ->
  queue_calls wq_new cs = Some (out, q) ->
  NoDup (handed out) /\ forall j, j ∈ handed out -> exists jobs, QSet jobs ∈ cs /\ j ∈ jobs.
Proof.
  intros Hs H.
  destruct (calls_handed cs wq_new out q) as (H1 & _ & H3); [|apply NoDup_nil_2|done|done|].
  - intros j Hj. by apply elem_of_nil in Hj.
  - split; [done|]. intros j Hj. destruct (H3 j Hj) as [Hn|Hn]; [by apply elem_of_nil in Hn|done].
Qed.

(** Jobs are handed out in the order last set, leaving out those handed out
    before; a call of [pop_blocking] beyond them waits. *)
Theorem c44_order cs out q jobs n :
  queue_calls wq_new cs = Some (out, q) -> QClose ∉ cs ->
  let todo := List.filter (fun j => negb (bool_decide (j ∈ handed out))) jobs in
  (forall out' q', queue_calls wq_new (cs ++ QSet jobs :: replicate n QPop) = Some (out', q') ->
     out' = out ++ List.map Some (firstn n todo)) /\
  (is_Some (queue_calls wq_new (cs ++ QSet jobs :: replicate n QPop)) <-> (n <= length todo)%nat).
Proof. exact (order_after_set cs out q jobs n). Qed.

(** Once closed, nothing is handed out and no call waits. *)
Theorem c44_closed cs1 cs2 out1 q1 :
  queue_calls wq_new cs1 = Some (out1, q1) ->
  exists out2 q2, queue_calls wq_new (cs1 ++ QClose :: cs2) = Some (out1 ++ out2, q2) /\ handed out2 = [].
Proof. exact (closed_after cs1 cs2 out1 q1). Qed.

(** A list with a repeated job hands it out twice: [set] does not deduplicate. *)
Theorem c44_duplicates_refuted :
  exists cs out q j, queue_calls wq_new cs = Some (out, q) /\ handed out = [j; j].
Proof.
  exists [QSet [7; 7]; QPop; QPop], [Some 7; Some 7]. eexists. exists 7.
  split; [vm_compute; reflexivity|reflexivity].
Qed.

(** In a run of the tests, every commit is tested at most once, and only the
    commits given are. *)
Theorem c44_run cf ls ev s :
  wf_graph (cf_graph cf) -> executes cf ls ev s ->
  NoDup (started ev) /\ (forall j, j ∈ started ev -> j ∈ cf_commits cf) /\
  NoDup (List.map fst (finished ev)).
Proof.
  intros Hwf He. pose proof (executes_inv cf Hwf ls ev s He) as Hi. split; [apply Hi|]. split; [apply Hi|].
  exact (finished_once cf Hwf ls ev s He).
Qed.

Example c44_example :
  fst <$> queue_calls wq_new [QSet [1; 2; 3]; QPop; QSet [3; 1; 4; 2]; QPop; QPop; QClose; QPop; QSet [9]; QPop]
  = Some [Some 1; Some 3; Some 4; None; None].
Proof. vm_compute. reflexivity. Qed.
Example c44_example_waits : queue_calls wq_new [QSet [1]; QPop; QSet [1]; QPop] = None.
Proof. vm_compute. reflexivity. Qed.

(** ** C45 *)

(** Every execution ends: its length is bounded by the commits and workers. *)
Theorem c45_terminates cf ls ev s :
  wf_graph (cf_graph cf) -> executes cf ls ev s ->
  (length ls <= 5 * length (cf_commits cf) + 2 * cf_num_jobs cf + 5)%nat.
Proof. intros Hwf He. pose proof (executes_length cf Hwf ls ev s He) as H. lia. Qed.

(** Unless a test panicked its thread, a run that has not returned can go on
    without anything going wrong. *)
Theorem c45_no_deadlock cf ls ev s :
  wf_graph (cf_graph cf) -> executes cf ls ev s -> no_panic ev -> returned s = None ->
  exists l s', (forall w, l <> LPanic w) /\ (forall w, l <> LError w) /\ (forall w, l <> LSetup w false) /\
    runner_step cf s l = Some s'.
Proof. intros Hwf He. exact (progress cf ev s (executes_inv cf Hwf ls ev s He)). Qed.

(** A test panicking its thread can leave the run waiting for ever. *)
Theorem c45_panic_refuted :
  exists cf ls ev s, wf_graph (cf_graph cf) /\ executes cf ls ev s /\ returned s = None /\
    forall l, runner_step cf s l = None.
Proof.
  exists (Config stack_graph [1] None 2).
  exists [LSetup 0 true; LSetup 1 true; LCoordinator; LCoordinator; LPop 0; LPanic 0].
  exists [EStarted 0 1; EPanicked 0 1]. eexists. split; [exact stack_graph_wf|]. split.
  - eapply (run_from_executes _ _ [] [] _ [EStarted 0 1; EPanicked 0 1]); [apply executes_start|]. vm_compute. reflexivity.
  - split; [reflexivity|]. intros [[|[|w]] ok|[|[|w]]|[|[|w]] t|[|[|w]]|[|[|w]]|]; reflexivity.
Qed.

(** The results are outcomes of tests that finished, at most one for each commit,
    in the order of the commits. *)
Theorem c45_results_true cf ls ev s r :
  wf_graph (cf_graph cf) -> executes cf ls ev s -> returned s = Some (inl r) ->
  (forall o t, (o, t) ∈ tr_outputs r -> o ∈ cf_commits cf /\ (o, t) ∈ finished ev) /\
  NoDup (List.map fst (tr_outputs r)) /\ List.map fst (tr_outputs r) `sublist_of` cf_commits cf /\
  (forall o c, tr_abort r = Some (o, c) -> (o, TestAbort c) ∈ tr_outputs r) /\
  (tr_abort r = None -> forall o c, (o, TestAbort c) ∉ tr_outputs r).
Proof.
  intros Hwf He Hr. destruct (outputs_true cf Hwf ls ev s r He Hr) as (H1 & H2 & H3).
  destruct (outputs_abort cf Hwf ls ev s r He Hr) as [H4 H5]. done.
Qed.

(** Without a search and unless aborted, there is a result for every commit. *)
Theorem c45_results_all cf ls ev s r :
  wf_graph (cf_graph cf) -> executes cf ls ev s -> returned s = Some (inl r) ->
  cf_strategy cf = None -> tr_abort r = None -> (0 < cf_num_jobs cf)%nat -> NoDup (cf_commits cf) ->
  List.map fst (tr_outputs r) = cf_commits cf.
Proof. intros Hwf. exact (outputs_complete cf Hwf ls ev s r). Qed.

(** A run fails only for a reason: a worker reported an error, a thread panicked,
    or, in a search, a commit failed and one built on it passed. *)
Theorem c45_errors cf ls ev s e :
  wf_graph (cf_graph cf) -> executes cf ls ev s -> returned s = Some (inr e) ->
  (exists w j, e = WorkerFailed w j /\ EErrored w j ∈ ev) \/
  (e = WorkerPanicked /\ ((exists w j, EPanicked w j ∈ ev) \/ exists w, ESetupFailed w ∈ ev)) \/
  (exists a d c, e = NotifyFailed (InconsistentStateTransition a Bad d Good) /\ cf_strategy cf <> None /\
     ancestor (cf_graph cf) a d /\ (a, TestFailed c) ∈ finished ev /\ (d, TestPassed) ∈ finished ev).
Proof. intros Hwf. exact (error_reason cf Hwf ls ev s e). Qed.

(** A parallel search finds the boundary, for every schedule, strategy and number
    of workers. *)
Theorem c45_search cf ls ev s r verdict :
  wf_graph (cf_graph cf) -> executes cf ls ev s -> returned s = Some (inl r) ->
  cf_strategy cf <> None -> tr_abort r = None -> (0 < cf_num_jobs cf)%nat ->
  monotone (cf_graph cf) verdict ->
  (forall o t, (o, t) ∈ finished ev -> search_status t = verdict o) ->
  (forall o, o ∈ bd_success (tr_bounds r) <->
     o ∈ cf_commits cf /\ verdict o = Good /\
     forall x, x ∈ cf_commits cf -> verdict x = Good -> ancestor (cf_graph cf) o x -> x = o) /\
  (forall o, o ∈ bd_failure (tr_bounds r) <->
     o ∈ cf_commits cf /\ verdict o = Bad /\
     forall x, x ∈ cf_commits cf -> verdict x = Bad -> ancestor (cf_graph cf) x o -> x = o).
Proof. intros Hwf. exact (search_result cf Hwf ls ev s r verdict). Qed.

(** If nothing goes wrong in the workers, a run that ends has results. *)
Theorem c45_succeeds cf ls ev s x :
  wf_graph (cf_graph cf) -> executes cf ls ev s -> no_trouble ev -> returned s = Some x ->
  (cf_strategy cf <> None -> exists verdict, monotone (cf_graph cf) verdict /\
     forall o t, (o, t) ∈ finished ev -> search_status t = verdict o) ->
  exists r, x = inl r.
Proof.
  intros Hwf He (Hp & Herr & Hsu) Hx Hv. destruct x as [r|e]; [by exists r|]. exfalso.
  destruct (c45_errors cf ls ev s e Hwf He Hx) as [(w & j & _ & H)|[(_ & [(w & j & H)|(w & H)])|(a & d & c & _ & Hst & Hanc & H1 & H2)]].
  - by apply (Herr w j).
  - by apply (Hp w j).
  - by apply (Hsu w).
  - destruct (Hv Hst) as (verdict & [_ Hmono] & Hf). apply (Hmono a d Hanc).
    + symmetry. exact (Hf a (TestFailed c) H1).
    + symmetry. exact (Hf d TestPassed H2).
Qed.

(** Two workers testing three commits; the second test ends first. *)
Definition example_config : config := Config stack_graph [1; 2; 3] None 2.
Definition example_labels : list label :=
  [LSetup 0 true; LCoordinator; LCoordinator; LPop 0; LSetup 1 true; LPop 1; LFinish 1 TestPassed;
   LPop 1; LCoordinator; LFinish 0 (TestFailed 1); LCoordinator; LFinish 1 TestPassed; LCoordinator; LCoordinator;
   LCoordinator; LCoordinator; LCoordinator; LPop 0; LPop 1; LCoordinator].
Definition example_events : list event :=
  [EStarted 0 1; EStarted 1 2; EFinished 1 2 TestPassed; EStarted 1 3; EFinished 0 1 (TestFailed 1);
   EFinished 1 3 TestPassed].
Example c45_example :
  exists s, executes example_config example_labels example_events s /\
    returned s = Some (inl (TestResults (Bounds ∅ ∅) [(1, TestFailed 1); (2, TestPassed); (3, TestPassed)] None)).
Proof.
  eexists. split.
  - eapply (run_from_executes _ _ [] [] _ example_events); [apply executes_start|]. vm_compute. reflexivity.
  - reflexivity.
Qed.

(** Two workers searching a stack of seven commits where 6 and 7 are bad. *)
Definition search_config : config := Config stack_graph [1; 2; 3; 4; 5; 6; 7] (Some Binary) 2.
Definition search_labels : list label :=
  [LSetup 0 true; LSetup 1 true; LCoordinator; LCoordinator; LPop 0; LPop 1; LFinish 0 TestPassed;
   LFinish 1 TestPassed; LCoordinator; LCoordinator; LPop 0; LCoordinator; LCoordinator; LPop 1;
   LFinish 1 TestPassed; LFinish 0 (TestFailed 2);
   LCoordinator; LCoordinator; LCoordinator; LCoordinator; LCoordinator; LPop 0; LPop 1; LCoordinator].
Definition search_events : list event :=
  [EStarted 0 4; EStarted 1 2; EFinished 0 4 TestPassed; EFinished 1 2 TestPassed; EStarted 0 6;
   EStarted 1 5; EFinished 1 5 TestPassed; EFinished 0 6 (TestFailed 2)].
Example c45_search_example :
  exists s, executes search_config search_labels search_events s /\
    (match returned s with
     | Some (inl r) => Some (tr_outputs r, elements (bd_success (tr_bounds r)), elements (bd_failure (tr_bounds r)), tr_abort r)
     | _ => None
     end) = Some ([(2, TestPassed); (4, TestPassed); (5, TestPassed); (6, TestFailed 2)], [5], [6], None).
Proof. apply (run_observed _ _ _ (fun s => match returned s with Some (inl r) => _ | _ => None end)). vm_compute. reflexivity. Qed.
Example c45_search_hypotheses :
  no_trouble search_events /\ monotone stack_graph from_6 /\
  forall o t, (o, t) ∈ finished search_events -> search_status t = from_6 o.
Proof.
  split; [|split; [exact from_6_monotone|]].
  - assert (H : forall e, e ∈ search_events -> (forall w j, e <> EPanicked w j) /\ (forall w j, e <> EErrored w j) /\
              forall w, e <> ESetupFailed w).
    { intros e Hin. repeat (apply elem_of_cons in Hin as [->|Hin]; [done|]). by apply elem_of_nil in Hin. }
    split; [|split].
    + intros w j Hin. by apply (proj1 (H _ Hin) w j).
    + intros w j Hin. by apply (proj1 (proj2 (H _ Hin)) w j).
    + intros w Hin. by apply (proj2 (proj2 (H _ Hin)) w).
  - intros o t Hin. repeat (apply elem_of_cons in Hin as [Hin|Hin]; [injection Hin as -> ->; reflexivity|]). by apply elem_of_nil in Hin.
Qed.

Print Assumptions c44_once.
Print Assumptions c44_order.
Print Assumptions c44_closed.
Print Assumptions c44_duplicates_refuted.
Print Assumptions c44_run.
Print Assumptions c45_terminates.
Print Assumptions c45_no_deadlock.
Print Assumptions c45_panic_refuted.
Print Assumptions c45_results_true.
Print Assumptions c45_results_all.
Print Assumptions c45_errors.
Print Assumptions c45_search.
Print Assumptions c45_succeeds.
