(** The format of `git status --porcelain=v2 -z`, as documented by Git. *)
From Verif Require Import Base StrModel Utf8Model ModeModel StatusModel.
Local Open Scope string_scope.
Local Open Scope list_scope.

(** The three kinds of records. *)
Inductive srecord :=
| Ordinary (x y : ascii) (sub : string) (m_head m_index m_wc : file_mode) (h_head h_index : string) (path : string)
| RenamedCopied (x y : ascii) (sub : string) (m_head m_index m_wc : file_mode) (h_head h_index : string)
    (letter : ascii) (score : string) (path orig : string)
| Conflicted (x y : ascii) (sub : string) (m1 m2 m3 m_wc : file_mode) (h1 h2 h3 : string) (path : string).

Definition sp (a b : string) : string := a +:+ " " +:+ b.
Definition nul_end (s : string) : string := s +:+ String NUL "".
Definition render (r : srecord) : string :=
  match r with
  | Ordinary x y sub mh mi mw hh hi p =>
    nul_end (sp "1" (sp (String x (String y "")) (sp sub (sp (mode_text mh) (sp (mode_text mi) (sp (mode_text mw)
      (sp hh (sp hi p))))))))
  | RenamedCopied x y sub mh mi mw hh hi l sc p o =>
    nul_end (sp "2" (sp (String x (String y "")) (sp sub (sp (mode_text mh) (sp (mode_text mi) (sp (mode_text mw)
      (sp hh (sp hi (sp (String l sc) (p +:+ String NUL o))))))))))
  | Conflicted x y sub m1 m2 m3 mw h1 h2 h3 p =>
    nul_end (sp "u" (sp (String x (String y "")) (sp sub (sp (mode_text m1) (sp (mode_text m2) (sp (mode_text m3)
      (sp (mode_text mw) (sp h1 (sp h2 (sp h3 p))))))))))
  end.
Definition output (rs : list srecord) : string := fold_right (fun r s => render r +:+ s) "" rs.

(** What may stand in the fields. *)
Definition all_in (P : ascii -> Prop) (s : string) : Prop := forall c, c ∈ list_ascii_of_string s -> P c.
Definition status_letter (c : ascii) : Prop := c ∈ list_ascii_of_string ".MTADRCU".
Definition submodule_field (s : string) : Prop := s <> "" /\ all_in (fun c => c ∈ list_ascii_of_string "NSCMU.") s.
Definition hex_digit (c : ascii) : Prop := c ∈ list_ascii_of_string "0123456789abcdef".
Definition digit (c : ascii) : Prop := c ∈ list_ascii_of_string "0123456789".
Definition object_id (s : string) : Prop := String.length s = 40%nat /\ all_in hex_digit s.
Definition score_digits (s : string) : Prop := (1 <= String.length s <= 3)%nat /\ all_in digit s.
Definition git_path (s : string) : Prop := s <> "" /\ all_in (fun c => c <> NUL) s.

Definition well_formed (r : srecord) : Prop :=
  match r with
  | Ordinary x y sub mh mi mw hh hi p =>
    status_letter x /\ status_letter y /\ submodule_field sub /\ object_id hh /\ object_id hi /\ git_path p
  | RenamedCopied x y sub mh mi mw hh hi l sc p o =>
    status_letter x /\ status_letter y /\ submodule_field sub /\ object_id hh /\ object_id hi /\
    (l = "R"%char \/ l = "C"%char) /\ score_digits sc /\ git_path p /\ git_path o
  | Conflicted x y sub m1 m2 m3 mw h1 h2 h3 p =>
    status_letter x /\ status_letter y /\ submodule_field sub /\ object_id h1 /\ object_id h2 /\ object_id h3 /\ git_path p
  end.

(** The paths of a record, and what is said about it. *)
Definition record_paths (r : srecord) : list string :=
  match r with
  | Ordinary _ _ _ _ _ _ _ _ p | Conflicted _ _ _ _ _ _ _ _ _ _ p => [p]
  | RenamedCopied _ _ _ _ _ _ _ _ _ _ p o => [p; o]
  end.
Definition expected (r : srecord) : status_entry :=
  match r with
  | Ordinary x y _ _ _ mw _ _ p => StatusEntry (status_of x) (status_of y) mw p None
  | RenamedCopied x y _ _ _ mw _ _ _ _ p o => StatusEntry (status_of x) (status_of y) mw p (Some o)
  | Conflicted _ y _ _ _ _ mw _ _ _ p => StatusEntry Unmerged (status_of y) mw p None
  end.

(** A path whose beginning looks like another field: hexadecimal digits (or bytes
    outside ASCII, among which are digits of other scripts) and a space; or a
    letter R or C, such digits and a space. *)
Definition outside_ascii (c : ascii) : Prop := (128 <= N_of_ascii c)%N.
Definition like_id (p : string) : Prop :=
  exists w rest, p = sp w rest /\ w <> "" /\ all_in (fun c => hex_digit c \/ outside_ascii c) w.
Definition like_score (p : string) : Prop :=
  exists c w rest, p = String c (sp w rest) /\ (c = "R"%char \/ c = "C"%char) /\ w <> "" /\
    all_in (fun c => digit c \/ outside_ascii c) w.
Definition clear_path (r : srecord) : Prop :=
  match r with
  | Ordinary _ _ _ _ _ _ _ _ p => ~ like_id p /\ ~ like_score p
  | Conflicted _ _ _ _ _ _ _ _ _ _ p => ~ like_score p
  | RenamedCopied _ _ _ _ _ _ _ _ _ _ _ _ => True
  end.

(** Words followed by one space each, then a text; and the words that may stand in a line. *)
Definition words (ws : list string) (s : string) : string := fold_right sp s ws.
Definition six_digits (s : string) : Prop := String.length s = 6%nat /\ all_in digit s.
Definition hex_word (s : string) : Prop := s <> "" /\ all_in hex_digit s.
Definition score_word (s : string) : Prop := exists l d, s = String l d /\ (l = "R"%char \/ l = "C"%char) /\ score_digits d.
Definition path_text (p : string) (o : option string) : string :=
  p +:+ match o with Some o => String NUL o | None => "" end.
