(** Files that have nothing to do with the index or HEAD. *)
From Verif Require Import Base ModeModel TreeModel TreeSpec SnapModel.
Local Open Scope list_scope.

(** A file that is neither in the index nor in HEAD, nor above or below one that is. *)
Definition apart (st : tree_store) (t : tree) (i : full_index) (p : path) : Prop :=
  ~ in_index i p /\ file_at st t p = None /\ p <> [] /\ forall q, clash p q -> ~ in_index i q /\ file_at st t q = None.
