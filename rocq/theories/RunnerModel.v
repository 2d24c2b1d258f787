(** Model of the parallel test runner (git-branchless-test/src/worker.rs and
    [run_tests_inner], [event_loop] in git-branchless-test/src/lib.rs).

    Threads interleave in atomic steps: calls on the work queue hold its mutex
    (a wait on the condition variable is a step that is not enabled), the
    channel is an unbounded queue of messages, and everything else is local to
    one thread.  A job is identified by its commit: the description stored with
    it is computed from the commit.  Running a test is one step with any
    outcome.  Progress reporting and rendering are left out. *)
From Verif Require Import Base TextModel EventLogModel EvolveModel DagModel BisectModel.

(** ** The work queue (worker.rs:21-36, 44-106) *)

Record work_queue := WorkQueue {
  wq_jobs : list oid;
  wq_accepted : gset oid;
  wq_active : bool;
}.
(** [WorkQueue::new] (worker.rs:45-50). *)
Definition wq_new : work_queue := WorkQueue [] ∅ true.
(** [WorkQueue::set] (worker.rs:52-59). *)
Definition wq_set (q : work_queue) (jobs : list oid) : work_queue :=
  WorkQueue (List.filter (fun j => negb (bool_decide (j ∈ wq_accepted q))) jobs)
            (wq_accepted q) (wq_active q).
(** [WorkQueue::close] (worker.rs:61-66). *)
Definition wq_close (q : work_queue) : work_queue := WorkQueue [] (wq_accepted q) false.
(** [WorkQueue::pop_blocking] (worker.rs:68-105): [None] is waiting. *)
Definition wq_pop (q : work_queue) : option (option oid * work_queue) :=
  if negb (wq_active q) then Some (None, q)
  else match wq_jobs q with
       | [] => None
       | j :: jobs => Some (Some j, WorkQueue jobs ({[j]} ∪ wq_accepted q) (wq_active q))
       end.

(** ** Tests and messages *)

(** [TestStatus] (lib.rs:791-848), without captured messages and paths. *)
Inductive test_status :=
| CheckoutFailed | SpawnTestFailed | TerminatedBySignal | AlreadyInProgress | ReadCacheFailed
| TestIndeterminate (exit_code : Z) | TestAbort (exit_code : Z)
| TestFailed (exit_code : Z) | TestPassed.

(** The meaning of a result for the search and for going on (lib.rs:1652-1679). *)
Definition search_status (t : test_status) : bstatus :=
  match t with
  | CheckoutFailed | SpawnTestFailed | TerminatedBySignal | AlreadyInProgress | ReadCacheFailed
  | TestIndeterminate _ | TestAbort _ => Indeterminate
  | TestFailed _ => Bad
  | TestPassed => Good
  end.
Definition aborts (o : oid) (t : test_status) : option (oid * Z) :=
  match t with TestAbort code => Some (o, code) | _ => None end.

(** [JobResult] (worker.rs:16-19). *)
Inductive job_result := JobDone (j : oid) (t : test_status) | JobError (worker : nat) (j : oid).

(** Where a worker thread is (worker.rs:108-161): before its setup, about to
    take a job, running one, returned, or panicked. *)
Inductive worker_state := WSetup | WReady | WRunning (j : oid) | WExited | WPanicked.

(** ** The coordinator *)

(** The arguments of [run_tests_inner] (lib.rs:1257-1278): the commits, their
    graph, the search strategy and the number of jobs. *)
Record config := Config {
  cf_graph : graph;
  cf_commits : list oid;
  cf_strategy : option strategy;
  cf_num_jobs : nat;
}.

(** [ScheduledJob] (lib.rs:1519-1523). *)
Inductive scheduled_job := JScheduled | JComplete (t : test_status).
Notation schedule := (gmap oid scheduled_job).

(** The variables of [event_loop] (lib.rs:1511-1525). *)
Record coordinator := Coordinator {
  co_scheduled : schedule;
  co_search : search;
  co_abort : option (oid * Z);
}.

(** Reasons to fail: a worker's error (lib.rs:1637-1643), an error of the search
    (1557, 1584, 1681), a commit without job (the indexing at 1591), a thread
    that panicked (1453-1457, 1463). *)
Inductive run_error :=
| WorkerFailed (w : nat) (j : oid)
| SearchFailed (o : oid) (s : bstatus)
| SearchFuel
| NotifyFailed (e : notify_error)
| NoSuchJob (j : oid)
| WorkerPanicked.

(** [TestResults] (lib.rs:1190-1200). *)
Record test_results := TestResults {
  tr_bounds : bounds;
  tr_outputs : list (oid * test_status);
  tr_abort : option (oid * Z);
}.

(** Where the coordinating thread is: before the loop, at its top, waiting for a
    message, after the loop, after closing the queue, returned. *)
Inductive control :=
| CStart | CTop | CReceive
| CLeft (r : option run_error)
| CClosed (r : option run_error)
| CReturned (r : test_results + run_error).

(** ** [event_loop] (lib.rs:1511-1710) *)

Definition is_complete (s : schedule) (o : oid) : bool :=
  match s !! o with Some (JComplete _) => true | _ => false end.
Definition is_done (p : oid * scheduled_job) : bool :=
  match snd p with JComplete _ => true | JScheduled => false end.

(** Scheduling jobs (lib.rs:1536-1538, 1598-1604). *)
Definition schedule_jobs (s : schedule) (jobs : list oid) : schedule :=
  fold_left (fun s j => <[j := JScheduled]> s) jobs s.
(** Dropping the jobs not complete (lib.rs:1549-1555). *)
Definition keep_complete (s : schedule) : schedule := filter (fun p => is_done p = true) s.
(** Whether there are jobs to wait for (lib.rs:1609-1619). *)
Definition in_progress (s : schedule) : bool := existsb (fun p => negb (is_done p)) (map_to_list s).

(** The keys of [commit_jobs] (lib.rs:1356-1380), an [IndexMap]: each commit
    once, in the order of first occurrence. *)
Definition job_keys (cf : config) : list oid :=
  fold_left (fun acc o => if bool_decide (o ∈ acc) then acc else acc ++ [o]) (cf_commits cf) [].

(** Enough for the search to find its proposals. *)
Definition enough (cf : config) : nat := 2 ^ S (length (cf_commits cf)).

(** The start (lib.rs:1524-1540): without a strategy all jobs are scheduled. *)
Definition event_loop_start (cf : config) (co : coordinator) (q : work_queue) : coordinator * work_queue :=
  match cf_strategy cf with
  | None =>
    (Coordinator (schedule_jobs (co_scheduled co) (job_keys cf)) (co_search co) (co_abort co),
     wq_set q (job_keys cf))
  | Some _ => (co, q)
  end.

(** The loop up to receiving a message (lib.rs:1542-1619). *)
Definition wait_or_leave (s : schedule) : control := if in_progress s then CReceive else CLeft None.
Definition loop_top (cf : config) (co : coordinator) (q : work_queue) : control * coordinator * work_queue :=
  match co_abort co with
  | Some _ => (CLeft None, co, q)
  | None =>
    match cf_strategy cf with
    | None => (wait_or_leave (co_scheduled co), co, q)
    | Some st =>
      let s := keep_complete (co_scheduled co) in
      match search_next (enough cf) (co_search co) st (is_complete s) (cf_num_jobs cf) with
      | AlreadySearchedMidpoint o b => (CLeft (Some (SearchFailed o b)), co, q)
      | OutOfFuel => (CLeft (Some SearchFuel), co, q)
      | Proposed [] => (CLeft None, Coordinator s (co_search co) (co_abort co), q)
      | Proposed l =>
        match List.find (fun j => negb (bool_decide (j ∈ job_keys cf))) l with
        | Some j => (CLeft (Some (NoSuchJob j)), co, q)
        | None =>
          let s' := schedule_jobs s l in
          (wait_or_leave s', Coordinator s' (co_search co) (co_abort co), wq_set q l)
        end
      end
    end
  end.

(** Handling a message (lib.rs:1631-1695). *)
Definition receive (cf : config) (co : coordinator) (m : job_result) : control * coordinator :=
  match m with
  | JobError w j => (CLeft (Some (WorkerFailed w j)), co)
  | JobDone j t =>
    let notified :=
      match cf_strategy cf with
      | None => inl (co_search co)
      | Some _ => search_notify (co_search co) j (search_status t)
      end in
    match notified with
    | inr e => (CLeft (Some (NotifyFailed e)), co)
    | inl se =>
      (CTop, Coordinator (<[j := JComplete t]> (co_scheduled co)) se
               (match aborts j t with Some e => Some e | None => co_abort co end))
    end
  end.

(** The results in the order of the commits (lib.rs:1470-1493). *)
Fixpoint ordered_outputs (s : schedule) (commits : list oid) : list (oid * test_status) :=
  match commits with
  | [] => []
  | o :: commits' =>
    match s !! o with
    | Some (JComplete t) => (o, t) :: ordered_outputs (delete o s) commits'
    | _ => ordered_outputs s commits'
    end
  end.
Definition make_results (cf : config) (co : coordinator) : test_results :=
  TestResults
    (match cf_strategy cf with None => Bounds ∅ ∅ | Some _ => search_bounds (co_search co) end)
    (ordered_outputs (co_scheduled co) (cf_commits cf)) (co_abort co).

(** ** All threads *)

Record system := System {
  sy_queue : work_queue;
  sy_workers : list worker_state;
  sy_channel : list job_result;
  sy_control : control;
  sy_co : coordinator;
}.

(** The start of [run_tests_inner]'s scope (lib.rs:1356-1437). *)
Definition runner_init (cf : config) : system :=
  System wq_new (replicate (cf_num_jobs cf) WSetup) [] CStart
    (Coordinator ∅ (search_commits (cf_graph cf) (cf_commits cf)) None).

(** The receiver is dropped when [event_loop] returns. *)
Definition receiver_alive (c : control) : bool :=
  match c with CStart | CTop | CReceive => true | _ => false end.
Definition ended (w : worker_state) : bool :=
  match w with WExited | WPanicked => true | _ => false end.
Definition panicked (w : worker_state) : bool :=
  match w with WPanicked => true | _ => false end.

(** Steps: a worker's setup succeeds or fails, a worker calls [pop_blocking], a
    worker's test ends with an output or an error, or panics, the coordinator
    goes on. *)
Inductive label :=
| LSetup (w : nat) (ok : bool)
| LPop (w : nat)
| LFinish (w : nat) (t : test_status)
| LError (w : nat)
| LPanic (w : nat)
| LCoordinator.

Definition set_worker (s : system) (w : nat) (st : worker_state) : system :=
  System (sy_queue s) (<[w := st]> (sy_workers s)) (sy_channel s) (sy_control s) (sy_co s).
Definition send (s : system) (m : job_result) : system :=
  System (sy_queue s) (sy_workers s)
    (if receiver_alive (sy_control s) then sy_channel s ++ [m] else sy_channel s) (sy_control s) (sy_co s).

(** The coordinator: [event_loop], closing the queue (lib.rs:1447), waiting for
    the workers (1450-1458, or the end of the scope, 1463) and the results. *)
Definition coordinator_step (cf : config) (s : system) : option system :=
  match sy_control s with
  | CStart =>
    let '(co, q) := event_loop_start cf (sy_co s) (sy_queue s) in
    Some (System q (sy_workers s) (sy_channel s) CTop co)
  | CTop =>
    let '(c, co, q) := loop_top cf (sy_co s) (sy_queue s) in
    Some (System q (sy_workers s) (sy_channel s) c co)
  | CReceive =>
    match sy_channel s with
    | m :: ch =>
      let '(c, co) := receive cf (sy_co s) m in
      Some (System (sy_queue s) (sy_workers s) ch c co)
    | [] => if forallb ended (sy_workers s)
            then Some (System (sy_queue s) (sy_workers s) [] (CLeft None) (sy_co s))
            else None
    end
  | CLeft r => Some (System (wq_close (sy_queue s)) (sy_workers s) (sy_channel s) (CClosed r) (sy_co s))
  | CClosed r =>
    if forallb ended (sy_workers s)
    then Some (System (sy_queue s) (sy_workers s) (sy_channel s)
                (CReturned (match r with
                            | Some e => inr e
                            | None => if existsb panicked (sy_workers s) then inr WorkerPanicked
                                      else inl (make_results cf (sy_co s))
                            end)) (sy_co s))
    else None
  | CReturned _ => None
  end.

(** One step of the threads: workers as in worker.rs:118-160. *)
Definition runner_step (cf : config) (s : system) (l : label) : option system :=
  match l with
  | LSetup w ok =>
    match sy_workers s !! w with
    | Some WSetup => Some (set_worker s w (if ok then WReady else WPanicked))
    | _ => None
    end
  | LPop w =>
    match sy_workers s !! w with
    | Some WReady =>
      match wq_pop (sy_queue s) with
      | None => None
      | Some (None, _) => Some (set_worker s w WExited)
      | Some (Some j, q) =>
        Some (System q (<[w := WRunning j]> (sy_workers s)) (sy_channel s) (sy_control s) (sy_co s))
      end
    | _ => None
    end
  | LFinish w t =>
    match sy_workers s !! w with
    | Some (WRunning j) =>
      Some (set_worker (send s (JobDone j t)) w
              (if receiver_alive (sy_control s) then WReady else WExited))
    | _ => None
    end
  | LError w =>
    match sy_workers s !! w with
    | Some (WRunning j) => Some (set_worker (send s (JobError w j)) w WReady)
    | _ => None
    end
  | LPanic w =>
    match sy_workers s !! w with
    | Some (WRunning _) => Some (set_worker s w WPanicked)
    | _ => None
    end
  | LCoordinator => coordinator_step cf s
  end.
