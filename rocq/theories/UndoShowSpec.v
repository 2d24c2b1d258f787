(** What the announcement of [git undo] should tell. *)
From Verif Require Import Base TextModel StrModel EventLogModel EventLogSpec UndoModel.
Local Open Scope string_scope.
Local Open Scope list_scope.

(** Descriptions of commits that tell commits apart and do not look like those of
    references; and events with names that references may have. *)
Definition telling (desc : oid -> string) : Prop :=
  (forall a b, desc a = desc b -> a = b) /\
  (forall o w, w ∈ ["branch "; "remote branch "; "ref "] -> forall s, desc o <> w +:+ s).
Definition name_ok (r : refname) : Prop := " "%char ∉ list_ascii_of_string r.
Definition names_ok (e : event) : Prop :=
  match e with
  | RefUpdateEvent _ _ name _ _ _ | SnapshotEvent _ _ _ _ (Some name) => name_ok name
  | _ => True
  end.

(** Two events show and hide the same commits. *)
Definition same_commits (e1 e2 : event) : Prop :=
  forall o, (shows e1 o <-> shows e2 o) /\ (hides e1 o <-> hides e2 o).

(** The first line of a text, with the newline if it has one, and an answer of yes. *)
Definition is_first_line (l s : string) : Prop :=
  exists rest, s = l +:+ rest /\ (forall p q, l = p +:+ String LF q -> q = "") /\ (rest <> "" -> exists p, l = p +:+ String LF "").
Definition says_yes (l : string) : Prop :=
  exists a y b, l = a +:+ String y b /\ (y = "y"%char \/ y = "Y"%char) /\
    Forall (fun c => is_space c = true) (list_ascii_of_string a) /\ Forall (fun c => is_space c = true) (list_ascii_of_string b).
