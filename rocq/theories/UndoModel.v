(** Model of [git undo] (git-branchless-undo/src/lib.rs) and of garbage
    collection (git-branchless-lib/src/core/gc.rs). *)
From Verif Require Import Base TextModel EventLogModel.
Local Open Scope Z_scope.

(** [inverse_event] (git-branchless-undo/src/lib.rs:649-718).  The conversion
    of the current time, which fails only before 1970, is left out. *)
Definition inverse_event (now : timestamp) (tx : txid) (e : event) : event :=
  match e with
  | CommitEvent _ _ o | UnobsoleteEvent _ _ o => ObsoleteEvent now tx o
  | ObsoleteEvent _ _ o => UnobsoleteEvent now tx o
  | RewriteEvent _ _ old new => RewriteEvent now tx new old
  | RefUpdateEvent _ _ name old new _ => RefUpdateEvent now tx name new old None
  | SnapshotEvent _ _ _ _ _ => e
  end.

(** The filter of [undo_events] (git-branchless-undo/src/lib.rs:801-813): HEAD
    updates without a previous value are not undone. *)
Definition undo_keeps (e : event) : bool :=
  match e with
  | RefUpdateEvent _ _ name Zero _ _ => negb (String.eqb name "HEAD")
  | _ => true
  end.

(** The inverse events (git-branchless-undo/src/lib.rs:797-815). *)
Definition inverse_events (now : timestamp) (tx : txid) (since : list event) : list event :=
  List.map (inverse_event now tx) (List.filter undo_keeps (rev since)).

(** [UndoCheckoutTarget] (git-branchless-undo/src/lib.rs:721-725): the commit,
    whether HEAD is to be detached, and the branch given to [-B]. *)
Record checkout_target := mk_target {
  ct_oid : oid; ct_detach : bool; ct_branch : option refname }.

(** [extract_checkout_target] (git-branchless-undo/src/lib.rs:727-780). *)
Fixpoint extract_checkout (acc : option checkout_target) (es : list event)
  : option checkout_target * list event :=
  match es with
  | [] => (acc, [])
  | e :: es' =>
      match e with
      | RefUpdateEvent _ _ name _ (NonZero o) _ =>
          if String.eqb name "HEAD"
          then extract_checkout (Some (mk_target o true None)) es'
          else let (t, rest) := extract_checkout acc es' in (t, e :: rest)
      | SnapshotEvent _ _ _ o name =>
          extract_checkout (Some (mk_target o false name)) es'
      | _ => let (t, rest) := extract_checkout acc es' in (t, e :: rest)
      end
  end.

(** References (other than HEAD) and stored log of the repository. *)
Record world := mk_world { w_refs : gmap refname oid; w_log : list event }.

(** The loop body of [undo_events] (git-branchless-undo/src/lib.rs:863-921).
    References are changed through libgit2, which runs no hooks, so these
    changes leave no trace in the event log.  [create_reference] is taken to
    succeed; events of a suppressed transaction are not stored (C01). *)
Definition undo_step (w : world) (e : event) : world :=
  match e with
  | RefUpdateEvent _ _ _ Zero Zero _ => w
  | RefUpdateEvent _ _ name (NonZero _) Zero _ => mk_world (delete name (w_refs w)) (w_log w)
  | RefUpdateEvent _ _ name _ (NonZero o) _ => mk_world (<[name := o]> (w_refs w)) (w_log w)
  | SnapshotEvent _ _ _ _ _ => w
  | CommitEvent _ tx _ | ObsoleteEvent _ tx _ | UnobsoleteEvent _ tx _ | RewriteEvent _ tx _ _ =>
      match tx with
      | TxSuppressed => w
      | TxId _ => mk_world (w_refs w) (w_log w ++ [e])
      end
  end.

(** [undo_events] (git-branchless-undo/src/lib.rs:783-942) up to the final
    checkout, whose target is returned.  [None] is the slicing panic.  Output is
    left out.  [confirmed] is the user's answer. *)
Definition undo_events (r : replayer) (c : cursor) (now : timestamp) (tx : txid)
  (confirmed : bool) (w : world) : option (world * option checkout_target) :=
  match events_since_cursor r c with
  | None => None
  | Some since =>
      match inverse_events now tx since with
      | [] => Some (w, None)
      | inv =>
          if confirmed then
            let (t, rest) := extract_checkout None inv in
            Some (fold_left undo_step rest w, t)
          else Some (w, None)
      end
  end.

(** Non-interactive [undo] (git-branchless-undo/src/lib.rs:946-994): undo the
    last transaction of the stored log. *)
Definition undo_last (main : refname) (now : timestamp) (tx : txid) (confirmed : bool) (w : world)
  : option (world * option checkout_target) :=
  let r := replay main (w_log w) in
  match advance_tx r (default_cursor r) (-1) with
  | None => None
  | Some c => undo_events r c now tx confirmed w
  end.

(** ** Garbage collection *)

(** What a reference peels to: a commit, or something else. *)
Inductive ref_target := ToCommit (o : oid) | ToOther.

(** [find_dangling_references] (core/gc.rs:25-61), over the list of all
    references of the repository. *)
Definition find_dangling (refs : list (refname * ref_target)) (r : replayer) (c : cursor)
  : list (refname * ref_target) :=
  List.filter (fun p =>
    if is_gc_ref (fst p) then
      match snd p with
      | ToCommit o => match commit_status r c o with
                      | Active | Inactive => false
                      | Obsolete => true
                      end
      | ToOther => false
      end
    else false) refs.

(** [gc] (core/gc.rs:101-128): delete each dangling reference. *)
Definition gc (refs : gmap refname ref_target) (r : replayer) : gmap refname ref_target :=
  fold_left (fun m p => delete (fst p) m)
    (find_dangling (map_to_list refs) r (default_cursor r)) refs.

(** [mark_commit_reachable] (core/gc.rs:74-96).  [exists_commit] is
    [find_commit]; the name is always valid. *)
Definition mark_reachable (exists_commit : oid -> bool) (o : oid)
  (refs : gmap refname ref_target) : gmap refname ref_target :=
  if exists_commit o
  then <[String.append "refs/branchless/" (oid_to_string o) := ToCommit o]> refs
  else refs.
