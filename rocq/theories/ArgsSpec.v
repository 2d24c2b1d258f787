(** How programs are called. *)
From Verif Require Import Base StrProofs.
Local Open Scope string_scope.
Local Open Scope list_scope.

(** A path to a program of the given name, in some directory or none. *)
Definition program (path name : string) : Prop :=
  lacks "/" name /\ (path = name \/ exists dir, path = dir +:+ String "/" name).

(** The hooks that can be run by hand or by Git (git-branchless-opts/src/lib.rs:186-241). *)
Definition hook_names : list string :=
  ["detect-empty-commit"; "pre-auto-gc"; "post-applypatch"; "post-checkout"; "post-commit"; "post-merge"; "post-rewrite";
   "reference-transaction"; "register-extra-post-rewrite-hook"; "skip-upstream-applied-commit"].
