(** Model of [git sync] (git-branchless/src/commands/sync.rs).

    Not modelled: [git fetch] (the model starts with the references it leaves), resolving
    revsets (see RevsetModel), which give the sets [sets], and the descriptions of commits
    and errors; of the messages, which commits they name is kept.  [git rebase] for a
    main branch that is checked out and only has to be forwarded is a parameter that tells
    whether it succeeds and what its hooks record.  The rest is as for [git restack]. *)
From Verif Require Import Base TextModel EventLogModel DagModel StrModel HookModel PlanModel ExecModel HideModel RestackModel.
Local Open Scope string_scope.
Local Open Scope list_scope.

(** [get_stack_roots] (sync.rs:31-46). *)
Definition stack_roots (d : dag) (sets : list commit_set) : commit_set :=
  let draft_roots := roots (dag_graph d) (draft_commits d) in
  match sets with
  | [] => draft_roots
  | _ => roots (dag_graph d) (range (dag_graph d) draft_roots (⋃ sets))
  end.

(** What was done: the stacks that were moved, with what became of their commits if that
    is known (the code does not use it), those that could not be moved, with the commit
    that is in the way, and those already in place; [false] for an exit code other than
    zero or an error. *)
Record sync_result := mk_sr {
  sy_repo : rrepo;
  sy_done : list (oid * option (gmap oid moid));
  sy_failed : list (oid * oid);
  sy_skipped : list oid;
  sy_ok : bool }.

(** [execute_plans] (sync.rs:392-501). *)
Definition run_plan (e : restack_env) (ts : timestamp) (tx : txid) (dest : oid) (cmds : list command) (r : rrepo)
  : rrepo * exec_result :=
  let (r', res) := execute_plan (runner e r) (he_branch (re_hide e)) (he_groups (re_hide e)) (re_iter e) (re_disk e)
                     (re_in_memory e) (re_on_disk e) (re_resolve e) dest cmds (start_repo r) in
  (after_plan e ts tx r r', res).
Fixpoint execute_plans (e : restack_env) (ts : timestamp) (tx : txid) (plans : list (oid * option (oid * list command)))
  (s : sync_result) : sync_result :=
  match plans with
  | [] => s
  | (c, p) :: plans' =>
      match rr_store (sy_repo s) !! c, p with
      | None, _ => mk_sr (sy_repo s) (sy_done s) (sy_failed s) (sy_skipped s) false
      | Some _, None =>
          execute_plans e ts tx plans' (mk_sr (sy_repo s) (sy_done s) (sy_failed s) (sy_skipped s ++ [c]) true)
      | Some _, Some (dest, cmds) =>
          let (r', res) := run_plan e ts tx dest cmds (sy_repo s) in
          match res with
          | Succeeded rw => execute_plans e ts tx plans' (mk_sr r' (sy_done s ++ [(c, rw)]) (sy_failed s) (sy_skipped s) true)
          | DeclinedToMerge at_ => execute_plans e ts tx plans' (mk_sr r' (sy_done s) (sy_failed s ++ [(c, at_)]) (sy_skipped s) true)
          | FailedExit | InternalError => mk_sr r' (sy_done s) (sy_failed s) (sy_skipped s) false
          end
      end
  end.
Definition begin_with (r : rrepo) (ok : bool) : sync_result := mk_sr r [] [] [] ok.

(** The plans for the stacks (sync.rs:344-372); [None] if one cannot be made. *)
Definition plan_stack (e : restack_env) (d : dag) (st : store) (allowed : commit_set) (main c : oid)
  : option (option (oid * list command)) :=
  match st !! c with
  | None => None
  | Some x =>
      if decide (commit_parents (ob_commit x) = [main]) then Some None
      else match build d (planner e st) allowed [MoveSubtree [main] c] with
           | Done (BuiltPlan dest cmds) => Some (Some (dest, cmds))
           | Done BuiltNothing => Some None
           | _ => None
           end
  end.
Fixpoint plan_stacks (e : restack_env) (d : dag) (st : store) (allowed : commit_set) (main : oid) (l : list oid)
  : option (list (oid * option (oid * list command))) :=
  match l with
  | [] => Some []
  | c :: l' =>
      match plan_stack e d st allowed main c, plan_stacks e d st allowed main l' with
      | Some p, Some ps => Some ((c, p) :: ps)
      | _, _ => None
      end
  end.

(** [execute_sync_plans] (sync.rs:297-390). *)
Definition sync_stacks (e : restack_env) (ts : timestamp) (tx : txid) (sets : list commit_set) (r : rrepo) : sync_result :=
  match open_repo (re_hide e) (rr_repo r), hr_refs (rr_repo r) !! he_main (re_hide e) with
  | Some d, Some main =>
      let rs := stack_roots d sets in
      match verify_rewrite_set d (re_force e) rs with
      | None => begin_with r false
      | Some allowed =>
          match plan_stacks e d (rr_store r) allowed main (re_order e rs) with
          | None => begin_with r false
          | Some plans => execute_plans e ts tx plans (begin_with r true)
          end
      end
  | _, _ => begin_with r false
  end.

(** What is printed about the main branch. *)
Inductive main_message :=
| NotTracking
| NotUpdating
| Forwarding (to : oid)
| Syncing.

(** [execute_main_branch_sync_plan] (sync.rs:135-295); [head] is HEAD when the command
    started (sync.rs:104) and [forward] is [git rebase]. *)
Definition set_main (e : restack_env) (up : oid) (r : rrepo) : gmap refname oid :=
  <[he_main (re_hide e) := up]> (hr_refs (rr_repo r)).
Definition sync_main (e : restack_env) (ts : timestamp) (tx : txid) (forward : option (list event)) (head : head_info) (r : rrepo)
  : option main_message * sync_result :=
  let h := rr_repo r in
  match open_repo (re_hide e) h, hr_refs h !! he_main (re_hide e) with
  | Some d, Some main =>
      match be_upstream (he_branch (re_hide e)) with
      | None => (None, begin_with r false)
      | Some None => (Some NotTracking, begin_with r true)
      | Some (Some up) =>
          let own := only (dag_graph d) {[main]} {[up]} in
          if decide (own = ∅) then
            let msg := if decide (main = up) then NotUpdating else Forwarding up in
            if decide (hi_branch head = Some (he_main (re_hide e))) then
              match forward with
              | Some es => (Some msg, begin_with (mk_rrepo (rr_store r)
                              (mk_hrepo (set_main e up r) (mk_head (Some up) (hi_branch head)) (hr_log h ++ es))) true)
              | None => (Some msg, begin_with r false)
              end
            else if be_writes (he_branch (re_hide e)) (he_main (re_hide e))
            then (Some msg, begin_with (mk_rrepo (rr_store r) (mk_hrepo (set_main e up r) (hr_head h) (hr_log h))) true)
            else (Some msg, begin_with r false)
          else
            match verify_rewrite_set d true own with
            | None => (Some Syncing, begin_with r false)
            | Some allowed =>
                match re_order e (roots (dag_graph d) own) with
                | [c] =>
                    match build d (planner e (rr_store r)) allowed [MoveSubtree [up] c] with
                    | Done (BuiltPlan dest cmds) => (Some Syncing, execute_plans e ts tx [(c, Some (dest, cmds))] (begin_with r true))
                    | Done BuiltNothing => (Some Syncing, begin_with r true)
                    | _ => (Some Syncing, begin_with r false)
                    end
                | _ => (Some Syncing, begin_with r true)
                end
            end
      end
  | _, _ => (None, begin_with r false)
  end.

(** [sync] (sync.rs:49-133): first the main branch if asked to, then the stacks; [e'] are
    the surroundings when the repository is opened again. *)
Definition sync (e e' : restack_env) (ts : timestamp) (tx : txid) (forward : option (list event)) (pull : bool)
  (sets : list commit_set) (r : rrepo) : list sync_result :=
  if pull then
    let m := snd (sync_main e ts tx forward (hr_head (rr_repo r)) r) in
    if sy_ok m then [m; sync_stacks e' ts tx sets (sy_repo m)] else [m]
  else [sync_stacks e ts tx sets r].
