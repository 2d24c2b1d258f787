(** The commands [git branchless snapshot create] and [snapshot restore]
    (git-branchless/src/commands/snapshot.rs). *)
From Verif Require Import Base ModeModel TreeModel SnapModel.
Local Open Scope list_scope.

(** How `git reset --hard` ends: it fails without a commit at HEAD, and may fail for
    reasons of its own. *)
Definition reset_done (h : option oid) (works : bool) : bool := match h with Some _ => works | None => false end.

(** `git reset --hard HEAD --` of the working copy [d] with the index [i].  Besides
    [hard_reset] of SnapModel.v: where there is nothing and HEAD has nothing, nothing
    appears. *)
Definition discarded (st : tree_store) (t : tree) (i : full_index) (d : disk) (i' : full_index) (d' : disk) : Prop :=
  hard_reset st t i d d' /\ (forall p, entry_at st t p = None -> d p = WNothing -> d' p = WNothing) /\
  (forall p s, i' p s = index_of_tree st t p s).

(** [create] (commands/snapshot.rs:16-55): the snapshot, of which the name is printed,
    the index and working copy left, and whether it succeeded.  A command that fails is
    taken to leave the files alone. *)
Definition snapshot_create (e : tree_env) (tgt : oid -> path) (st : tree_store) (h : option oid) (t : tree) (i : full_index) (d : disk)
  (l : list sn_entry) (works : bool) (sn : snapshot) (st1 : tree_store) (i' : full_index) (d' : disk) (ok : bool) : Prop :=
  create_snapshot e st h i (seen_disk tgt d) l = Some (sn, st1) /\ ok = reset_done h works /\
  if reset_done h works then discarded st1 t i d i' d' else (forall p s, i' p s = i p s) /\ forall p, d' p = d p.
