(** Model of [git restack] (git-branchless/src/commands/restack.rs).

    Not modelled: resolving revsets (see RevsetModel), which give the set [chosen]; the
    smartlog shown at the end (see SlogModel); the descriptions of errors.  An on-disk
    rebase is a parameter, and so are the events recorded while the new HEAD is checked
    out.  Hooks find no rebase underway. *)
From stdpp Require Import sorting.
From Verif Require Import Base TextModel EventLogModel EvolveModel DagModel StrModel HookModel PlanModel ExecModel HideModel.
Local Open Scope string_scope.
Local Open Scope list_scope.

(** The repository: the commits, and references, HEAD and event log. *)
Record rrepo := mk_rrepo { rr_store : store; rr_repo : hrepo }.

(** The surroundings: those of references and hooks (see HideModel); how changes are
    applied; commits found upstream; the orders in which sets of commits, squashed
    commits and rewritten commits are gone through; an on-disk rebase; the events of
    checking out; the options of the command. *)
Record restack_env := mk_re {
  re_hide : hide_env;
  re_exec : exec_env;
  re_upstream : root -> oid -> bool;
  re_order : commit_set -> list oid;
  re_sort : gset oid -> list oid;
  re_iter : gmap oid moid -> list (oid * moid);
  re_disk : repo -> repo * exec_result;
  re_checked_out : repo -> list event;
  re_force : bool;
  re_in_memory : bool;
  re_on_disk : bool;
  re_resolve : bool }.

(** The commits to be moved, with the place they go to (restack.rs:107-124); [None]
    when the fuel of the lookup runs out. *)
Fixpoint find_rebases (order : commit_set -> list oid) (d : dag) (rp : replayer) (cur : cursor) (l : list oid)
  : option (list (oid * list oid)) :=
  match l with
  | [] => Some []
  | o :: l' =>
      match find_abandoned_children d rp cur o, find_rebases order d rp cur l' with
      | None, _ | _, None => None
      | Some None, Some rs => Some rs
      | Some (Some (target, kids)), Some rs => Some ((target, order kids) :: rs)
      end
  end.

(** The requests to the builder (restack.rs:147-155). *)
Definition rebase_requests (rs : list (oid * list oid)) : list constraint :=
  flat_map (fun r => List.map (MoveSubtree [fst r]) (snd r)) rs.

(** The plan (restack.rs:99-170). *)
Inductive restack_plan :=
| PlanFailed
| PlanRefused
| PlanNothing
| PlanMade (dest : oid) (cmds : list command).
Definition planner (e : restack_env) (st : store) : plan_env :=
  mk_pe (find_object st) ∅ (re_upstream e) (re_sort e).
Definition plan_restack (e : restack_env) (d : dag) (rp : replayer) (cur : cursor) (chosen : option commit_set) (st : store)
  : restack_plan :=
  let cs := match chosen with Some cs => cs | None => obsolete_commits d end in
  match find_rebases (re_order e) d rp cur (re_order e cs) with
  | None => PlanFailed
  | Some rs =>
      match verify_rewrite_set d (re_force e) (list_to_set (flat_map snd rs)) with
      | None => PlanRefused
      | Some allowed =>
          match build d (planner e st) allowed (rebase_requests rs) with
          | Done (BuiltPlan dest cmds) => PlanMade dest cmds
          | Done BuiltNothing => PlanNothing
          | Done (BuiltCycle _) | Done (BuiltIllegal _) => PlanRefused
          | _ => PlanFailed
          end
      end
  end.

(** The events of the post-rewrite hook, run with one line for each rewritten commit
    (core/rewrite/execute.rs:932-947). *)
Definition rewrite_events (ts : timestamp) (tx : txid) (l : list (oid * moid)) : list event :=
  stored tx (hs_log (fst (hook_post_rewrite ts tx "rebase" (write_rewritten_list l)
                            (mk_hooks [] false None None None None None)))).

(** HEAD after the check-out (core/rewrite/execute.rs:949-959, 301-315). *)
Definition checked_out_head (r : repo) : head_info :=
  match rp_checkout r with
  | StayPut => rp_head r
  | CheckOutCommit o => mk_head (Some o) None
  | CheckOutBranch n => mk_head (rp_refs r !! n) (Some n)
  end.

(** The repository after carrying out a plan: with the events of the hooks run when the
    branches were moved, the commits rewritten and the new HEAD checked out. *)
Definition start_repo (r : rrepo) : repo :=
  mk_repo (rr_store r) (hr_refs (rr_repo r)) (hr_head (rr_repo r)) [] [] StayPut.
Definition runner (e : restack_env) (r : rrepo) : exec_env :=
  let x := re_exec e in
  mk_ee (ee_hash x) (ee_pick x) (ee_amend x) (ee_stamp x) (ee_decodes x) (hi_oid (hr_head (rr_repo r))).
Definition after_plan (e : restack_env) (ts : timestamp) (tx : txid) (r : rrepo) (r' : repo) : rrepo :=
  mk_rrepo (rp_store r')
    (mk_hrepo (rp_refs r') (checked_out_head r')
       (hr_log (rr_repo r) ++ hook_events (re_hide e) ts tx (rp_lines r')
          ++ rewrite_events ts tx (rp_rewrites r') ++ re_checked_out e r')).

(** [restack_commits] (restack.rs:83-207): the repository, what became of the commits
    if that is known, the lines printed, and [false] for an error. *)
Record restack_result := mk_rr {
  rs_repo : rrepo; rs_rewritten : option (gmap oid moid); rs_out : list string; rs_ok : bool }.
Definition restack_commits (e : restack_env) (ts : timestamp) (tx : txid) (d : dag) (chosen : option commit_set) (r : rrepo)
  : restack_result :=
  let rp := replay (he_main (re_hide e)) (hr_log (rr_repo r)) in
  match plan_restack e d rp (default_cursor rp) chosen (rr_store r) with
  | PlanFailed | PlanRefused => mk_rr r None [] false
  | PlanNothing => mk_rr r None ["No abandoned commits to restack."] true
  | PlanMade dest cmds =>
      let (r', res) := execute_plan (runner e r) (he_branch (re_hide e)) (he_groups (re_hide e)) (re_iter e) (re_disk e)
                         (re_in_memory e) (re_on_disk e) (re_resolve e) dest cmds (start_repo r) in
      let r1 := after_plan e ts tx r r' in
      match res with
      | Succeeded rw => mk_rr r1 rw ["Finished restacking commits."] true
      | FailedExit => mk_rr r1 None ["You can resolve the error and try running `git restack` again."] false
      | DeclinedToMerge _ | InternalError => mk_rr r1 None [] false
      end
  end.

(** The commits of branches that were rewritten (restack.rs:220-240). *)
Fixpoint rewritten_targets (rp : replayer) (cur : cursor) (l : list oid) (m : gmap oid moid) : option (gmap oid moid) :=
  match l with
  | [] => Some m
  | o :: l' =>
      match find_rewrite_target rp cur o with
      | None => None
      | Some None => rewritten_targets rp cur l' m
      | Some (Some new) => rewritten_targets rp cur l' (<[o := new]> m)
      end
  end.

(** [restack_branches] (restack.rs:209-258). *)
Definition restack_branches (e : restack_env) (ts : timestamp) (tx : txid) (r : rrepo) : restack_result :=
  let h := rr_repo r in
  let rp := replay (he_main (re_hide e)) (hr_log h) in
  match rewritten_targets rp (default_cursor rp) (List.map snd (local_branches (hr_refs h))) ∅ with
  | None => mk_rr r None [] false
  | Some rw =>
      if decide (rw = ∅) then mk_rr r None ["No abandoned branches to restack."] true
      else
        let m := move_branches (he_branch (re_hide e)) rw (he_groups (re_hide e) (hr_refs h)) (hr_refs h) in
        let es := match mr_lines m with Some ls => hook_events (re_hide e) ts tx ls | None => [] end in
        let head := match hi_branch (hr_head h) with
                    | Some n => mk_head (mr_refs m !! n) (Some n)
                    | None => hr_head h
                    end in
        mk_rr (mk_rrepo (rr_store r) (mk_hrepo (mr_refs m) head (hr_log h ++ es))) (Some rw)
          (if mr_ok m then ["Finished restacking branches."] else []) (mr_ok m)
  end.

(** [restack] (restack.rs:264-363). *)
Definition restack (e : restack_env) (ts : timestamp) (tx : txid) (chosen : option commit_set) (r : rrepo) : restack_result :=
  match open_repo (re_hide e) (rr_repo r) with
  | None => mk_rr r None [] false
  | Some d =>
      let a := restack_commits e ts tx d chosen r in
      if rs_ok a then
        let b := restack_branches e ts tx (rs_repo a) in
        mk_rr (rs_repo b) (rs_rewritten a) (rs_out a ++ rs_out b) (rs_ok b)
      else a
  end.
