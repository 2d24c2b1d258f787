(** How an edited text is divided among commits. *)
From Verif Require Import Base StrModel StrProofs RewordModel.
Local Open Scope string_scope.
Local Open Scope list_scope.

Definition occurs (p s : string) : Prop := exists a b, s = a +:+ p +:+ b.

(** The pieces of a text between the marks. *)
Definition marked (text : string) (ps : list string) : Prop :=
  ps <> [] /\ text = join "++ reword" ps /\ Forall (fun p => ~ occurs "++ reword" p) ps.

(** A piece of more than one line is a section: the name on its first line and the
    text below. *)
Inductive sections : list string -> list (string * string) -> Prop :=
| sec_nil : sections [] []
| sec_skip p ps l : lacks LF p -> sections ps l -> sections (p :: ps) l
| sec_take h b ps l : lacks LF h -> sections ps l -> sections ((h +:+ String LF b) :: ps) ((trim h, b) :: l).

Definition names (l : list (string * string)) : list string := List.map fst l.

(** Commits that can be told apart, by names without white space. *)
Definition proper_commits (commits : list rcommit) : Prop :=
  NoDup (List.map rc_oid commits) /\ NoDup (List.map rc_short commits) /\
  Forall (fun c => rc_short c <> "" /\ Forall (fun a => is_space a = false) (list_ascii_of_string (rc_short c))) commits.
