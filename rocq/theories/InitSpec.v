(** The parts of a hook script: lines of the user and managed blocks. *)
From Verif Require Import Base StrModel StrProofs InitModel.
Local Open Scope string_scope.
Local Open Scope list_scope.

Inductive part := User (line : string) | Managed (body : list string).

Definition marker (l : string) : Prop := l = MARKER_START \/ l = MARKER_END.

(** A managed block starts at its marker and reaches to the closing marker, to
    the next opening one, or to the end; other closing markers mean nothing. *)
Inductive hook_parts : list string -> list part -> Prop :=
| parts_nil : hook_parts [] []
| parts_user l ls ps : ~ marker l -> hook_parts ls ps -> hook_parts (l :: ls) (User l :: ps)
| parts_stray ls ps : hook_parts ls ps -> hook_parts (MARKER_END :: ls) ps
| parts_block body ls ps :
    Forall (fun l => ~ marker l) body -> hook_parts ls ps ->
    hook_parts (MARKER_START :: body ++ MARKER_END :: ls) (Managed body :: ps)
| parts_cut body ls ps :
    Forall (fun l => ~ marker l) body -> hook_parts (MARKER_START :: ls) ps ->
    hook_parts (MARKER_START :: body ++ MARKER_START :: ls) (Managed body :: ps)
| parts_open body :
    Forall (fun l => ~ marker l) body -> hook_parts (MARKER_START :: body) [Managed body].

(** The script with the given parts. *)
Definition part_lines (p : part) : list string :=
  match p with User l => [l] | Managed body => MARKER_START :: body ++ [MARKER_END] end.
Definition script (ps : list part) : string := unlines (List.concat (List.map part_lines ps)).

Definition user_lines (ps : list part) : list string :=
  omap (fun p => match p with User l => Some l | Managed _ => None end) ps.
Definition is_managed (p : part) : bool := match p with Managed _ => true | User _ => false end.

(** Every managed block gets the new body; there is at least one. *)
Definition with_body (body : list string) (ps : list part) : list part :=
  let ps' := List.map (fun p => match p with User l => User l | Managed _ => Managed body end) ps in
  if existsb is_managed ps then ps' else ps' ++ [Managed body].

(** Lines that can be written and read back. *)
Definition plain (l : string) : Prop := lacks LF l /\ lacks CR l.
