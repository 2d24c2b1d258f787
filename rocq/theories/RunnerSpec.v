(** What can be observed of running tests: which tests are started, by which
    worker, and how they end. *)
From Verif Require Import Base TextModel EventLogModel EvolveModel DagModel DagSpec BisectModel BisectSpec RunnerModel.

Inductive event :=
| EStarted (w : nat) (j : oid)
| EFinished (w : nat) (j : oid) (t : test_status)
| EErrored (w : nat) (j : oid)
| EPanicked (w : nat) (j : oid)
| ESetupFailed (w : nat).

Definition running_job (s : system) (w : nat) : option oid :=
  match sy_workers s !! w with Some (WRunning j) => Some j | _ => None end.

(** The event of a step from [s] to [s']. *)
Definition events_of (s : system) (l : label) (s' : system) : list event :=
  match l with
  | LPop w => match running_job s' w with Some j => [EStarted w j] | None => [] end
  | LFinish w t => match running_job s w with Some j => [EFinished w j t] | None => [] end
  | LError w => match running_job s w with Some j => [EErrored w j] | None => [] end
  | LPanic w => match running_job s w with Some j => [EPanicked w j] | None => [] end
  | LSetup w false => [ESetupFailed w]
  | LSetup _ true | LCoordinator => []
  end.

(** Executions from the start: any schedule of the threads, any outcomes. *)
Inductive executes (cf : config) : list label -> list event -> system -> Prop :=
| executes_start : executes cf [] [] (runner_init cf)
| executes_step ls ev s l s' :
    executes cf ls ev s -> runner_step cf s l = Some s' ->
    executes cf (ls ++ [l]) (ev ++ events_of s l s') s'.

(** An execution along given steps, computed. *)
Fixpoint run_from (cf : config) (s : system) (ls : list label) : option (list event * system) :=
  match ls with
  | [] => Some ([], s)
  | l :: ls' =>
    match runner_step cf s l with
    | None => None
    | Some s' =>
      match run_from cf s' ls' with
      | None => None
      | Some (ev, s'') => Some (events_of s l s' ++ ev, s'')
      end
    end
  end.

Definition started (ev : list event) : list oid :=
  omap (fun e => match e with EStarted _ j => Some j | _ => None end) ev.
Definition finished (ev : list event) : list (oid * test_status) :=
  omap (fun e => match e with EFinished _ j t => Some (j, t) | _ => None end) ev.

(** No test panics the thread it runs in. *)
Definition no_panic (ev : list event) : Prop := forall w j, EPanicked w j ∉ ev.
(** Nothing goes wrong in the workers themselves. *)
Definition no_trouble (ev : list event) : Prop :=
  no_panic ev /\ (forall w j, EErrored w j ∉ ev) /\ (forall w, ESetupFailed w ∉ ev).

Definition returned (s : system) : option (test_results + run_error) :=
  match sy_control s with CReturned r => Some r | _ => None end.

(** ** The queue by itself: a sequence of calls by any threads, each taking
    effect at once, with what the calls of [pop_blocking] give; [None] if one of
    these never returns. *)
Inductive queue_call := QSet (jobs : list oid) | QPop | QClose.
Fixpoint queue_calls (q : work_queue) (cs : list queue_call) : option (list (option oid) * work_queue) :=
  match cs with
  | [] => Some ([], q)
  | QSet jobs :: cs' => queue_calls (wq_set q jobs) cs'
  | QClose :: cs' => queue_calls (wq_close q) cs'
  | QPop :: cs' =>
    match wq_pop q with
    | None => None
    | Some (r, q') =>
      match queue_calls q' cs' with
      | None => None
      | Some (out, q'') => Some (r :: out, q'')
      end
    end
  end.
(** The jobs handed out. *)
Definition handed (out : list (option oid)) : list oid := omap (fun x => x) out.
