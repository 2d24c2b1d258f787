(** Model of [git amend] (git-branchless/src/commands/amend.rs).

    Not modelled: running [git status] (see StatusModel for its output) and the commits of
    the snapshot of the working copy (see SnapModel), of which only the event is kept; the
    messages; restoring a snapshot when HEAD is one.  [git reset] is described by what it
    does to HEAD and the references; the events recorded meanwhile are a parameter.  Commits
    that nothing refers to are left out when the command ends with an error.  The rest is as
    for [git restack]. *)
From Verif Require Import Base TextModel EventLogModel DagModel StrModel HookModel PlanModel ExecModel HideModel RestackModel SyncModel
  ModeModel TreeModel SnapModel.
From Verif Require NavModel.
Local Open Scope string_scope.
Local Open Scope list_scope.

(** The surroundings: whether the index has unresolved conflicts, the status, the snapshot,
    what is needed to make trees, the new time of the author (that of the committer is part
    of [re_exec]; both are kept if the setting branchless.restack.preserveTimestamps is on,
    amend.rs:148-156), and the events recorded by resetting. *)
Record amend_setting := mk_as {
  as_restack : restack_env;
  as_unmerged : bool;
  as_status : list sn_entry;
  as_snapshot : oid;
  as_trees : tree_env;
  as_merger : merger;
  as_files : amend_env;
  as_store : tree_store;
  as_author : N -> N;
  as_reset : hrepo -> list event }.

(** The changes to be amended (amend.rs:114-137): those of the index if there are any. *)
Definition staged_entries (l : list sn_entry) : list sn_entry := List.filter (fun x => is_changed (sn_index x)) l.
Definition unstaged_entries (l : list sn_entry) : list sn_entry := List.filter (fun x => is_changed (sn_wc x)) l.
Definition changes_of (l : list sn_entry) : amend_from :=
  match staged_entries l with
  | [] => FromWorkingCopy (List.map (fun x => mk_we (sn_path x) (sn_orig x) (sn_mode x)) (unstaged_entries l))
  | staged => FromIndex (flat_map sn_paths staged)
  end.
(** [AmendFastOptions::is_empty] (git/repo.rs:452-461) for these. *)
Definition no_changes (f : amend_from) : bool :=
  match f with FromIndex [] | FromWorkingCopy [] => true | _ => false end.

(** The new commit (amend.rs:146-164) with [Commit::amend_commit] (git/object.rs:295-315). *)
Definition tree_of (st : store) (o : oid) : option oid :=
  match st !! o with Some x => Some (commit_tree (ob_commit x)) | None => None end.
Definition with_trees (st : store) (x : object) : option tcommit :=
  match all_some (List.map (tree_of st) (commit_parents (ob_commit x))) with
  | Some ts => Some (mk_tcommit ts (commit_tree (ob_commit x)))
  | None => None
  end.
Definition amended_object (s : amend_setting) (x : object) (t : oid) : object :=
  mk_object (mk_commit (commit_parents (ob_commit x)) t) (as_author s (ob_author x))
    (ee_stamp (re_exec (as_restack s)) (ob_committer x)) (ob_message x).

(** How Git reads the name of a commit (gitrevisions): a full id, or else the first
    reference that is there. *)
Definition git_rev (refs : gmap refname oid) (s : string) : option oid :=
  match (if Nat.eqb (String.length s) 40 then oid_from_string s else None) with
  | Some o => Some o
  | None =>
      fold_right (fun n r => match refs !! (n : refname) with Some o => Some o | None => r end) None
        [s; "refs/" +:+ s; "refs/tags/" +:+ s; "refs/heads/" +:+ s; "refs/remotes/" +:+ s; "refs/remotes/" +:+ s +:+ "/HEAD"]
  end.
(** [git reset]: moves the branch checked out, or else HEAD. *)
Definition git_reset (s : string) (refs : gmap refname oid) (b : option refname) : option (gmap refname oid * head_info) :=
  match git_rev refs s with
  | None => None
  | Some o => Some (match b with Some n => (<[n := o]> refs, mk_head (Some o) (Some n)) | None => (refs, mk_head (Some o) None) end)
  end.

(** Switching to the new commit (amend.rs:166-210), with [check_out_commit]
    (core/check_out.rs:108-199) resetting; [false] for an error and [None] when the reset
    fails. *)
Definition reset_text (head : head_info) (n : oid) : string :=
  match hi_branch head with Some b => NavModel.render_suffix b | None => oid_to_string n end.
Definition switch_to (s : amend_setting) (ts : timestamp) (tx : txid) (h n : oid) (r : rrepo) : rrepo * option bool :=
  let e := as_restack s in
  let head := hr_head (rr_repo r) in
  let refs := mark_new (rr_store r) [NonZero n] (hr_refs (rr_repo r)) in
  let m := move_branches (he_branch (re_hide e)) {[h := NonZero n]} (he_groups (re_hide e) refs) refs in
  let log := hr_log (rr_repo r) ++ stored tx [RewriteEvent ts tx (NonZero h) (NonZero n)]
               ++ match mr_lines m with Some ls => hook_events (re_hide e) ts tx ls | None => [] end in
  let r1 := mk_hrepo (mr_refs m) (match hi_branch head with Some b => mk_head (mr_refs m !! b) (Some b) | None => head end) log in
  if mr_ok m then
    match git_reset (reset_text head n) (mr_refs m) (hi_branch head) with
    | None => (mk_rrepo (rr_store r) r1, None)
    | Some (refs', head') => (mk_rrepo (rr_store r) (mk_hrepo refs' head' (log ++ as_reset s r1)), Some true)
    end
  else (mk_rrepo (rr_store r) r1, Some false).

(** The graph after [Dag::sync_from_oids] (core/dag.rs:281-316) with a new commit
    (amend.rs:181-186): its sets of commits are those from the beginning. *)
Definition with_commit (n : oid) (ps : list oid) (d : dag) : dag :=
  if decide (n ∈ vertices (dag_graph d)) then d
  else mk_dag (dag_graph d ++ [(n, ps)]) (head_commit d) (main_branch_commit d) (branch_commits d) (observed_commits d) (obsolete_commits d).

(** The requests for the commits above (amend.rs:236-277), with the commits made for
    [--reparent]. *)
Definition on_top (h n p : oid) : oid := if decide (p = h) then n else p.
Fixpoint requests_above (e : exec_env) (reparent : bool) (h n : oid) (l : list oid) (st : store) (replace : gmap oid oid)
  : option (list constraint * store * gmap oid oid) :=
  match l with
  | [] => Some ([], st, replace)
  | c :: l' =>
      match st !! c with
      | None => None
      | Some x =>
          let ps := List.map (on_top h n) (commit_parents (ob_commit x)) in
          let rest := if reparent then
              if (forallb (fun p => bool_decide (is_Some (st !! p))) ps && ee_decodes e (ob_message x))%bool then
                let (o, st') := add_object e (mk_object (mk_commit ps (commit_tree (ob_commit x))) (ob_author x) (ob_committer x) (ob_message x)) st in
                requests_above e reparent h n l' st' (<[c := o]> replace)
              else None
            else requests_above e reparent h n l' st replace in
          match rest with
          | Some (cs, st', replace') => Some (MoveSubtree ps c :: cs, st', replace')
          | None => None
          end
      end
  end.

(** What was done: the repository, the new commit, what became of the commits above it if
    that is known, and how the command ended. *)
Inductive amend_end :=
| NoCommit
| Unresolved
| RewritesPublic
| NothingToAmend
| AmendFails
| ResetFails
| NotPlanned
| RestackFails
| Amended
| AmendedAlone (at_ : oid).
Record amend_result := mk_ar { ar_repo : rrepo; ar_new : option oid; ar_rewritten : option (gmap oid moid); ar_end : amend_end }.

(** Restacking what is above (amend.rs:212-349). *)
Definition commits_above (d : dag) (h : oid) : commit_set :=
  filter_visible d (descendants (dag_graph d) (children (dag_graph d) {[h]})).
Definition restack_above (s : amend_setting) (ts : timestamp) (tx : txid) (reparent : bool) (d : dag) (h n : oid) (r : rrepo)
  : amend_result :=
  let e := as_restack s in
  let above := commits_above d h in
  match verify_rewrite_set d (re_force e) above with
  | None => mk_ar r (Some n) None NotPlanned
  | Some allowed =>
      match requests_above (re_exec e) reparent h n (re_order e above) (rr_store r) ∅ with
      | None => mk_ar r (Some n) None AmendFails
      | Some (cs, st, replace) =>
          let r := mk_rrepo st (rr_repo r) in
          match build d (mk_pe (find_object st) replace (re_upstream e) (re_sort e)) allowed cs with
          | Done BuiltNothing => mk_ar r (Some n) None Amended
          | Done (BuiltPlan dest cmds) =>
              let (r', res) := run_plan e ts tx dest cmds r in
              match res with
              | Succeeded rw => mk_ar r' (Some n) rw Amended
              | DeclinedToMerge c => mk_ar r' (Some n) None (AmendedAlone c)
              | FailedExit => mk_ar r' (Some n) None RestackFails
              | InternalError => mk_ar r' (Some n) None AmendFails
              end
          | Done (BuiltCycle _) | Done (BuiltIllegal _) => mk_ar r (Some n) None NotPlanned
          | _ => mk_ar r (Some n) None AmendFails
          end
      end
  end.

(** [amend] (amend.rs:36-382); an exit code of zero is that of [NothingToAmend], [Amended]
    and [AmendedAlone]. *)
Definition amend (s : amend_setting) (ts : timestamp) (tx : txid) (reparent : bool) (r : rrepo) : amend_result :=
  let e := as_restack s in
  let stop := mk_ar r None None in
  match open_repo (re_hide e) (rr_repo r), hi_oid (hr_head (rr_repo r)) with
  | None, _ => stop AmendFails
  | _, None => stop NoCommit
  | Some d, Some h =>
      match rr_store r !! h with
      | None => stop AmendFails
      | Some x =>
          if as_unmerged s then stop Unresolved
          else match verify_rewrite_set d (re_force e) (filter_visible d (descendants (dag_graph d) {[h]})) with
          | None => stop RewritesPublic
          | Some _ =>
              let snapshot := SnapshotEvent ts tx (NonZero h) (as_snapshot s) (hi_branch (hr_head (rr_repo r))) in
              let r0 := mk_rrepo (rr_store r) (mk_hrepo (hr_refs (rr_repo r)) (hr_head (rr_repo r)) (hr_log (rr_repo r) ++ stored tx [snapshot])) in
              let from := changes_of (as_status s) in
              if no_changes from then mk_ar r0 None None NothingToAmend
              else match with_trees (rr_store r) x with
              | None => mk_ar r0 None None AmendFails
              | Some tc =>
                  match amend_fast (as_trees s) (as_merger s) (as_files s) (as_store s) tc from with
                  | Picked t _ =>
                      let (n, st) := add_object (re_exec e) (amended_object s x t) (rr_store r) in
                      match switch_to s ts tx h n (mk_rrepo st (rr_repo r0)) with
                      | (r1, Some true) => restack_above s ts tx reparent (with_commit n (commit_parents (ob_commit x)) d) h n r1
                      | (r1, Some false) => mk_ar r1 (Some n) None AmendFails
                      | (r1, None) => mk_ar r1 (Some n) None ResetFails
                      end
                  | PickConflict | PickFailed => mk_ar r0 None None AmendFails
                  end
              end
          end
      end
  end.
