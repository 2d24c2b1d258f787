(** Model of [rebase_on_disk] (git-branchless-lib/src/core/rewrite/execute.rs:1153-1191),
    from the files that are written for Git to the end of Git's rebase. *)
From Verif Require Import Base TextModel EventLogModel DagModel StrModel HookModel PlanModel ExecModel SeqModel.
Local Open Scope string_scope.
Local Open Scope list_scope.

(** One of the files that were written (execute.rs:1036-1130). *)
Definition file_named (n : string) (files : list (string * string)) : option string :=
  option_map snd (List.find (fun f => String.eqb (fst f) n) files).

(** Where Git stops for the user to go on: HEAD is detached there (execute.rs:1140-1148;
    Git's exit code is passed on, 1186-1190). *)
Definition stopped_repo (s : git_state) (r : repo) : repo :=
  mk_repo (gs_store s) (rp_refs r) (mk_head (hs_head (gs_hooks s)) None) (rp_lines r) (rp_rewrites r) (rp_checkout r).

(** [rebase_on_disk], and what [execute_rebase_plan] says of it (execute.rs:1153-1191 and
    1327-1361), with the event log.  [None] for errors of Git's in carrying out the
    instructions: where those leave the repository is not modelled.  Git does not mind
    if the post-rewrite hook fails. *)
Definition disk_rebase (v : git_env) (b : branch_env) (groups : gmap refname oid -> list (oid * list refname))
  (busy changed preserve : bool) (dest : oid) (cmds : list command) (log : list event) (r : repo)
  : option (repo * list event * exec_result) :=
  match write_state busy changed (rp_head r) preserve dest cmds with
  | None => Some (r, log, FailedExit)
  | Some (_, false) => Some (r, log, InternalError)
  | Some (files, true) =>
      match file_named "git-rebase-todo" files with
      | None => Some (r, log, FailedExit)
      | Some todo =>
          match run_todo v todo (disk_start log (rp_store r) (rp_head r)) with
          | Went gs =>
              let '(r', log', _) := end_of_rebase v b groups (rp_head r) gs r in
              Some (r', log', Succeeded None)
          | Halted gs => Some (stopped_repo gs r, hs_log (gs_hooks gs), FailedExit)
          | Wrong => None
          end
      end
  end.

(** As [execute_plan] needs it (execute.rs:1327-1361). *)
Definition disk_of (v : git_env) (b : branch_env) (groups : gmap refname oid -> list (oid * list refname))
  (busy changed preserve : bool) (dest : oid) (cmds : list command) (log : list event) (r : repo) : repo * exec_result :=
  match disk_rebase v b groups busy changed preserve dest cmds log r with
  | Some (r', _, res) => (r', res)
  | None => (r, FailedExit)
  end.
