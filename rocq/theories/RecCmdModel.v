(** Model of [git record] (git-branchless-record/src/lib.rs).

    Not modelled: taking the snapshot of the working copy, of which only the kind of changes
    is looked at (see SnapModel); choosing changes interactively (see RecordModel); the
    messages; other worktrees, which could keep a branch from being moved.  [git commit] is
    described by the commit it makes and what it does to HEAD and its branch; the contents of
    that commit and the events recorded by hooks are parameters.  The rest is as for [git
    restack]. *)
From Verif Require Import Base TextModel EventLogModel DagModel StrModel HookModel PlanModel ExecModel HideModel RestackModel SyncModel
  MoveModel TrailerModel NavModel AmendModel.
From Verif Require SnapModel.
Local Open Scope string_scope.
Local Open Scope list_scope.

(** What [git commit] is asked to take (git-branchless-record/src/lib.rs:160-168 and 408-415): all changes to tracked
    files, the index, or the index after the chosen changes were put there. *)
Inductive commit_kind := TakeAll | TakeIndex | TakeChosen.
(** The tree, author, committer and message of a commit. *)
Record contents := mk_contents { ct_tree : oid; ct_author : N; ct_committer : N; ct_message : N }.

(** When hooks run: after making the branch, committing, putting the branch back, and
    switching back. *)
Inductive moment := AfterCreate | AfterCommit | AfterDetach | AfterSwitch.

(** The surroundings: those of rebasing, in which the graph is that once the commit is made;
    the kind of changes there are; the commits being merged, if a merge is to be finished;
    what [git commit] would take, [None] if it fails or is given up; the setting
    branchless.navigation.autoSwitchBranches; the events recorded. *)
Record record_setting := mk_rv {
  rv_restack : restack_env;
  rv_changes : SnapModel.changes_type;
  rv_merging : list oid;
  rv_contents : commit_kind -> option contents;
  rv_auto : bool;
  rv_hooks : moment -> rrepo -> list event }.

(** [RecordArgs] (git-branchless-opts/src/lib.rs:304-332) without the message. *)
Record record_args := mk_ra {
  rg_interactive : bool;
  rg_create : option string;
  rg_detach : bool;
  rg_insert : bool;
  rg_stash : bool }.
(** The combinations accepted (git-branchless-opts/src/lib.rs:321 and 330). *)
Definition accepted (a : record_args) : bool :=
  match rg_create a with
  | Some _ => negb (rg_detach a || rg_stash a)
  | None => negb (rg_detach a && rg_stash a)
  end.

(** HEAD and the references, as seen by [git checkout] (see NavModel). *)
Definition head_state (r : hrepo) : option refstate :=
  match hi_branch (hr_head r), hi_oid (hr_head r) with
  | Some b, _ => Some (RefState (OnBranch b) (hr_refs r))
  | None, Some o => Some (RefState (Detached o) (hr_refs r))
  | None, None => None
  end.
Definition log_more (es : list event) (r : rrepo) : rrepo :=
  mk_rrepo (rr_store r) (mk_hrepo (hr_refs (rr_repo r)) (hr_head (rr_repo r)) (hr_log (rr_repo r) ++ es)).
Definition put_state (v : record_setting) (m : moment) (r : rrepo) (s : refstate) : rrepo :=
  let (o, b) := get_head_info s in
  let r' := mk_rrepo (rr_store r) (mk_hrepo (rs_refs s) (mk_head o b) (hr_log (rr_repo r))) in
  log_more (rv_hooks v m r') r'.

(** Checking out (core/check_out.rs:108-199), with names read as in AmendModel.  If there is
    no commit yet, making a branch just says which one is going to be born. *)
Definition go_to (v : record_setting) (m : moment) (t : option checkout_target) (a : checkout_args) (r : rrepo) : option rrepo :=
  match head_state (rr_repo r) with
  | None => None
  | Some s =>
      match hi_oid (hr_head (rr_repo r)), t, ca_create a with
      | None, None, Some b =>
          if bool_decide (hr_refs (rr_repo r) !! (heads_prefix +:+ b : refname) = None)
          then Some (put_state v m r (RefState (OnBranch (heads_prefix +:+ b)) (rs_refs s))) else None
      | _, _, _ =>
          match check_out_commit (git_rev (rs_refs s)) (rv_auto v) s t a with
          | Some s' => Some (put_state v m r s')
          | None => None
          end
      end
  end.

(** [git commit]: the commit made is on top of HEAD and the commits being merged. *)
Definition new_object (v : record_setting) (c : contents) (r : rrepo) : object :=
  mk_object (mk_commit (match hi_oid (hr_head (rr_repo r)) with Some h => [h] | None => [] end ++ rv_merging v) (ct_tree c))
    (ct_author c) (ct_committer c) (ct_message c).
Definition git_commit (v : record_setting) (k : commit_kind) (r : rrepo) : option (oid * rrepo) :=
  match rv_contents v k with
  | None => None
  | Some c =>
      let (n, st) := add_object (re_exec (rv_restack v)) (new_object v c r) (rr_store r) in
      let h := rr_repo r in
      let refs := match hi_branch (hr_head h) with Some b => <[b := n]> (hr_refs h) | None => hr_refs h end in
      let r' := mk_rrepo st (mk_hrepo refs (mk_head (Some n) (hi_branch (hr_head h))) (hr_log h)) in
      Some (n, log_more (rv_hooks v AfterCommit r') r')
  end.
Definition kind_of (v : record_setting) (a : record_args) : commit_kind :=
  if rg_interactive a then TakeChosen
  else match rv_changes v with SnapModel.Unstaged => TakeAll | _ => TakeIndex end.

(** Putting the branch back (git-branchless-record/src/lib.rs:171-208): without a parent the branch is deleted, with one
    HEAD is detached and the branch moved; [None] for the error of 205. *)
Definition put_back (v : record_setting) (r : rrepo) : option rrepo :=
  let h := rr_repo r in
  match hr_head h with
  | mk_head (Some o) (Some b) =>
      match rr_store r !! o with
      | None => None
      | Some x =>
          match commit_parents (ob_commit x) with
          | [] => Some (put_state v AfterDetach r (RefState (OnBranch b) (delete b (hr_refs h))))
          | [p] => Some (put_state v AfterDetach r (RefState (Detached o) (<[(heads_prefix +:+ render_suffix b : refname) := p]> (hr_refs h))))
          | _ => None
          end
      end
  | _ => Some r
  end.
(** The place to switch back to (git-branchless-record/src/lib.rs:209-219), with HEAD as it was after committing. *)
Definition back_target (h : head_info) : option checkout_target :=
  match hi_branch h, hi_oid h with
  | Some b, _ => Some (TRef b)
  | None, Some o => Some (TOid o)
  | None, None => None
  end.

(** [insert_before_siblings] (git-branchless-record/src/lib.rs:419-568), which executes in memory (543-551). *)
Inductive insert_end :=
| NothingAbove
| Inserted
| PublicAbove
| ConflictAbove (at_ : oid)
| CycleAbove
| IllegalAbove
| InsertFails.
Definition in_memory_only (e : restack_env) : restack_env :=
  mk_re (re_hide e) (re_exec e) (re_upstream e) (re_order e) (re_sort e) (re_iter e) (re_disk e) (re_checked_out e) false true false false.
Definition siblings (d : dag) (o : oid) : commit_set :=
  filter_visible d (children (dag_graph d) (parents (dag_graph d) {[o]}) ∖ {[o]}).
(** The requests (git-branchless-record/src/lib.rs:470-487); [None] if a commit cannot be read. *)
Definition instead_of (ps : list oid) (o p : oid) : oid := if decide (p ∈ ps) then o else p.
Fixpoint sibling_requests (st : store) (ps : list oid) (o : oid) (l : list oid) : option (list constraint) :=
  match l with
  | [] => Some []
  | c :: l' =>
      match st !! c, sibling_requests st ps o l' with
      | Some x, Some cs => Some (MoveSubtree (List.map (instead_of ps o) (commit_parents (ob_commit x))) c :: cs)
      | _, _ => None
      end
  end.
Definition insert_before_siblings (e0 : restack_env) (ts : timestamp) (tx : txid) (r : rrepo)
  : rrepo * option (gmap oid moid) * insert_end :=
  let e := in_memory_only e0 in
  match hi_oid (hr_head (rr_repo r)) with
  | None => (r, None, NothingAbove)
  | Some o =>
      match open_repo (re_hide e) (rr_repo r), rr_store r !! o with
      | Some d, Some x =>
          let sibs := siblings d o in
          match verify_rewrite_set d (re_force e) sibs with
          | None => (r, None, PublicAbove)
          | Some allowed =>
              match sibling_requests (rr_store r) (commit_parents (ob_commit x)) o (re_order e sibs) with
              | None => (r, None, InsertFails)
              | Some cs =>
                  match build d (planner e (rr_store r)) allowed cs with
                  | Done BuiltNothing => (r, None, NothingAbove)
                  | Done (BuiltPlan dest cmds) =>
                      let (r', res) := run_plan e ts tx dest cmds r in
                      match res with
                      | Succeeded rw => (r', rw, Inserted)
                      | DeclinedToMerge c => (r', None, ConflictAbove c)
                      | FailedExit | InternalError => (r', None, InsertFails)
                      end
                  | Done (BuiltCycle _) => (r, None, CycleAbove)
                  | Done (BuiltIllegal _) => (r, None, IllegalAbove)
                  | _ => (r, None, InsertFails)
                  end
              end
          end
      | _, _ => (r, None, InsertFails)
      end
  end.

(** What was done: the repository, the new commit, what became of the commits above if that is
    known, and how the command ended. *)
Inductive record_end :=
| NothingToRecord
| StillConflicts
| CreateFails
| AlreadyStaged
| CommitFails
| PutBackFails
| SwitchFails
| Recorded
| RecordedAndInserted (i : insert_end).
Record record_result := mk_rr { rc_repo : rrepo; rc_new : option oid; rc_rewritten : option (gmap oid moid); rc_end : record_end }.
(** The exit code is zero (git-branchless-record/src/lib.rs:104, 246, 499, 539 and 561-564). *)
Definition exits_well (x : record_end) : bool :=
  match x with
  | NothingToRecord | Recorded => true
  | RecordedAndInserted (NothingAbove | Inserted | PublicAbove | ConflictAbove _) => true
  | _ => false
  end.

(** [record] (git-branchless-record/src/lib.rs:75-247). *)
Definition record (v : record_setting) (ts : timestamp) (tx : txid) (a : record_args) (r : rrepo) : record_result :=
  match rv_changes v with
  | SnapModel.NoChanges => mk_rr r None None NothingToRecord
  | SnapModel.Conflicts => mk_rr r None None StillConflicts
  | _ =>
      match (match rg_create a with
             | Some b => go_to v AfterCreate None (CheckoutArgs (Some b) false) r
             | None => Some r
             end) with
      | None => mk_rr r None None CreateFails
      | Some r1 =>
          if (rg_interactive a && match rv_changes v with SnapModel.Staged => true | _ => false end)%bool
          then mk_rr r1 None None AlreadyStaged
          else match git_commit v (kind_of v a) r1 with
          | None => mk_rr r1 None None CommitFails
          | Some (n, r2) =>
              let finish r := 
                if rg_insert a then
                  let '(r', rw, x) := insert_before_siblings (rv_restack v) ts tx r in mk_rr r' (Some n) rw (RecordedAndInserted x)
                else mk_rr r (Some n) None Recorded in
              if (rg_detach a || rg_stash a)%bool then
                match put_back v r2 with
                | None => mk_rr r2 (Some n) None PutBackFails
                | Some r3 =>
                    if rg_stash a then
                      match back_target (hr_head (rr_repo r2)) with
                      | None => finish r3
                      | Some t =>
                          match go_to v AfterSwitch (Some t) no_args r3 with
                          | None => mk_rr r3 (Some n) None SwitchFails
                          | Some r4 => finish r4
                          end
                      end
                    else finish r3
                end
              else finish r2
          end
      end
  end.
