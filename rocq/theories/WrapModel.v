(** Model of [git branchless wrap] (git-branchless/src/commands/wrap.rs) with the
    programs that run below the Git command, as far as the event log is concerned. *)
From Verif Require Import Base TextModel EventLogModel.
Local Open Scope list_scope.

(** The variable for a program that is started: as it is, the transaction of the
    program that starts it, or none (git-branchless-lib/src/git/run.rs:137-144,
    216-223, 317-324, 432-438; git-branchless-test/src/lib.rs:2639-2646). *)
Inductive passing := Inherits | OwnTx | Suppresses.

(** What a program of git-branchless does, such as a hook: it records events for its
    transaction (which may fail), and starts programs (such as Git, which calls
    hooks).  [Meanwhile]: some other program is started by the user. *)
Inductive script :=
| Stop
| Records (fault : bool) (es : txid -> list event) (rest : script)
| Runs (p : passing) (message : string) (child rest : script)
| Meanwhile (message : string) (other rest : script).

(** [env] is the variable, [t] its transaction (core/eventlog.rs:530-577 and 618-656). *)
Fixpoint run_script (env : option string) (t : txid) (s : script) (d : db) : db :=
  match s with
  | Stop => d
  | Records fault es rest => run_script env t rest (fst (add_events (fun _ => false) fault d (es t)))
  | Runs p message child rest =>
      let env' := match p with
                  | Inherits => env
                  | OwnTx => Some (txid_to_string t)
                  | Suppresses => Some (txid_to_string TxSuppressed)
                  end in
      let (t', d') := make_transaction_id env' message d in
      run_script env t rest (run_script env' t' child d')
  | Meanwhile message other rest =>
      let (t', d') := make_transaction_id None message d in
      run_script env t rest (run_script None t' other d')
  end.

(** The hooks which Git calls, one after another (commands/wrap.rs:23-33). *)
Definition run_hooks (env : option string) (hooks : list (string * script)) (d : db) : db :=
  fold_left (fun d h => let (t, d') := make_transaction_id env (fst h) d in run_script env t (snd h) d') hooks d.

(** [make_event_tx_id] (commands/wrap.rs:53-66): the message. *)
Definition wrap_message (args : list string) : string := match args with a :: _ => a | [] => "wrap" end.
(** [wrap] (commands/wrap.rs:68-79); [found]: there is a repository. *)
Definition wrap (found : bool) (env : option string) (args : list string) (hooks : list (string * script)) (d : db) : db :=
  if found then
    let (t, d') := make_transaction_id env (wrap_message args) d in
    run_hooks (Some (txid_to_string t)) hooks d'
  else run_hooks env hooks d.
