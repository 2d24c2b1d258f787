(** What users expect of testing in the working copy, in terms of a repository before and
    after. *)
From Verif Require Import Base ModeModel TreeModel SnapModel TrapModel.

(** HEAD is attached to a branch only where the branch is. *)
Definition head_on_branch (s : tstate) : Prop :=
  forall n, ts_branch s = Some n -> ts_refs s !! n = ts_head s.

(** The same commit, branch and references. *)
Definition same_place (s s' : tstate) : Prop :=
  ts_head s' = ts_head s /\ ts_branch s' = ts_branch s /\ ts_refs s' = ts_refs s.
(** A file of a tree. *)
Definition file_in (st : tree_store) (t : tree) (p : path) : Prop :=
  exists x, entry_at st t p = Some x /\ is_tree x = false.
(** A path that has nothing to do with a tree: not in it, and not below one of its files. *)
Definition foreign (st : tree_store) (t : tree) (p : path) : Prop :=
  entry_at st t p = None /\
  forall q x, q `prefix_of` p -> q <> p -> entry_at st t q = Some x -> is_tree x = true.
