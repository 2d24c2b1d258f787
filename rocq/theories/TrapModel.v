(** Model of testing commits in the working copy with `git test run --strategy
    working-copy`: the rebase that is started so that an interrupted run can be taken
    back, and what is done to the working copy meanwhile (git-branchless-test/src/lib.rs). *)
From Verif Require Import Base ModeModel TreeModel SnapModel SnapCmdModel.

(** The part of a repository that is concerned: HEAD and the branch it is attached to,
    the references, the index, the files, and the rebase in progress: the commit in
    `orig-head` and the branch in `head-name` (execute.rs:1035-1062). *)
Record tstate := mk_ts {
  ts_head : option oid; ts_branch : option refname; ts_refs : gmap refname oid;
  ts_index : full_index; ts_disk : disk; ts_rebase : option (oid * option refname) }.

(** `git diff --quiet` fails ([has_changed_files], git/repo.rs:968-981): something in the
    index is in conflict, or differs from the file. *)
Definition unstaged (s : tstate) : Prop :=
  exists p,
    ts_index s p Stage1 <> None \/ ts_index s p Stage2 <> None \/ ts_index s p Stage3 <> None \/
    match ts_index s p Stage0 with
    | Some (NonZero o, m) => ts_disk s p <> node_of (o, m)
    | Some (Zero, _) => True
    | None => False
    end.
(** The index differs from the tree of HEAD, of which `git rebase --continue` complains
    (Git's sequencer.c, [commit_staged_changes]). *)
Definition staged (st : tree_store) (t : tree) (s : tstate) : Prop :=
  exists p k, ts_index s p k <> index_of_tree st t p k.

Section trap.
  (** The stored trees and the trees of commits. *)
  Context (st : tree_store) (tree_of : oid -> tree).

  (** HEAD detached, as it is left by [write_rebase_state_to_disk] (execute.rs:984-1151,
      at its end;      the files are those of [write_state] in ExecModel.v). *)
  Definition detached (s : tstate) (h : oid) : tstate :=
    mk_ts (Some h) None (ts_refs s) (ts_index s) (ts_disk s) (Some (h, ts_branch s)).

  (** [set_abort_trap] for the working copy (lib.rs:671-751), by way of
      [rebase_on_disk] (execute.rs:984-1191) with the one instruction `break`.  Whether it
      succeeded is [ok].  [busy]: a rebase, merge or the like is in progress. *)
  Definition set_abort_trap (busy : bool) (s s' : tstate) (ok : bool) : Prop :=
    if busy then s' = s /\ ok = false
    else match ts_head s with
         | None => s' = s /\ ok = false
         | Some h =>
             (unstaged s /\ s' = s /\ ok = false) \/
             (~ unstaged s /\ s' = detached s h /\ (ok = true <-> ~ staged st (tree_of h) s))
         end.

  (** `git reset --hard <commit>`: the branch HEAD is attached to moves along. *)
  Definition reset_to (o : oid) (s s' : tstate) : Prop :=
    ts_head s' = Some o /\ ts_branch s' = ts_branch s /\ ts_rebase s' = ts_rebase s /\
    ts_refs s' = match ts_branch s with Some n => <[n := o]> (ts_refs s) | None => ts_refs s end /\
    discarded st (tree_of o) (ts_index s) (ts_disk s) (ts_index s') (ts_disk s').

  (** A command being tested, which may do what it likes to files and to the index at the
      paths [touched], and may move a detached HEAD, as by committing.  It is taken not to
      move references, nor to end the rebase. *)
  Definition command_run (touched : path -> Prop) (s s' : tstate) : Prop :=
    ts_branch s' = ts_branch s /\ ts_refs s' = ts_refs s /\ ts_rebase s' = ts_rebase s /\
    (ts_branch s <> None -> ts_head s' = ts_head s) /\
    forall p, ~ touched p -> ts_disk s' p = ts_disk s p /\ forall k, ts_index s' p k = ts_index s p k.

  (** [prepare_working_directory] for the working copy (lib.rs:2497-2614), then the
      command in it ([run_test], lib.rs:2185-2330), for one commit after the other.  A
      run that stops early, or in which some commits have results already or cannot be
      checked out, tests fewer commits.  The commits the code tests are in
      BisectModel.v. *)
  Inductive tests_run (touched : path -> Prop) : list oid -> tstate -> tstate -> Prop :=
  | no_more s : tests_run touched [] s s
  | one_more o os s s1 s2 s' :
      reset_to o s s1 -> command_run touched s1 s2 -> tests_run touched os s2 s' -> tests_run touched (o :: os) s s'
  | only_reset o os s s1 s' : reset_to o s s1 -> tests_run touched os s1 s' -> tests_run touched (o :: os) s s'.

  (** `git rebase --abort`, by [clear_abort_trap] (lib.rs:754-766) or by the user after an
      interrupted run: Git goes back to the branch and commit in the files. *)
  Definition rebase_abort (s s' : tstate) : Prop :=
    match ts_rebase s with
    | None => s' = s
    | Some (o, b) =>
        ts_head s' = Some o /\ ts_branch s' = b /\ ts_rebase s' = None /\
        ts_refs s' = match b with Some n => <[n := o]> (ts_refs s) | None => ts_refs s end /\
        discarded st (tree_of o) (ts_index s) (ts_disk s) (ts_index s') (ts_disk s')
    end.

  (** [run_tests] (lib.rs:1204-1254) in the working copy; [ok] is false when no test was
      run. *)
  Definition run_tests (busy : bool) (touched : path -> Prop) (os : list oid) (s s' : tstate) (ok : bool) : Prop :=
    (set_abort_trap busy s s' false /\ ok = false) \/
    (exists s1 s2, set_abort_trap busy s s1 true /\ tests_run touched os s1 s2 /\ rebase_abort s2 s' /\ ok = true).
End trap.
