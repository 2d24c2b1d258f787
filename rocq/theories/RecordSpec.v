(** What the sections of a changed file ought to be, in terms of the two texts. *)
From Verif Require Import Base StrModel RecordModel.
Local Open Scope string_scope.
Local Open Scope list_scope.

(** A difference of two files, as a sequence of changes and a common end: each
    change follows some common lines and puts some lines in place of others. *)
Record change := Change { c_same : list string; c_gone : list string; c_added : list string }.
Definition change_real (c : change) : Prop := c_gone c <> [] \/ c_added c <> [].

(** The lines of the old and of the new file; more generally, those after
    accepting some of the changes ([choose] is asked by number of the change). *)
Fixpoint mixed (choose : nat -> bool) (k : nat) (cs : list change) (tail : list string) : list string :=
  match cs with
  | [] => tail
  | c :: cs' => c_same c ++ (if choose k then c_added c else c_gone c) ++ mixed choose (S k) cs' tail
  end.
Definition old_lines (cs : list change) (tail : list string) : list string := mixed (fun _ => false) 0 cs tail.
Definition new_lines (cs : list change) (tail : list string) : list string := mixed (fun _ => true) 0 cs tail.

(** Two changes are separated by a common line: otherwise they are one. *)
Definition separated (cs : list change) : Prop :=
  Forall change_real cs /\ Forall (fun c => c_same c <> []) (tail cs).

(** The headers of the hunks without context lines, in the format of diff: where
    lines are removed (added), the number of the first of them; otherwise the
    number of the line before, zero at the beginning. *)
Definition header_start (before : nat) (ls : list string) : nat :=
  match ls with [] => before | _ => S before end.
Fixpoint headers (o n : nat) (cs : list change) : list hunk :=
  match cs with
  | [] => []
  | c :: cs' =>
    let o' := o + length (c_same c) in
    let n' := n + length (c_same c) in
    Hunk (header_start o' (c_gone c)) (length (c_gone c)) (header_start n' (c_added c)) (length (c_added c))
    :: headers (o' + length (c_gone c)) (n' + length (c_added c)) cs'
  end.

(** The text obtained when some of the shown lines are chosen: common lines,
    chosen added lines, removed lines that are not chosen. *)
Definition line_kept (choose : bool) (l : changed_line) : bool :=
  match cl_type l with Added => choose | Removed => negb choose end.
Fixpoint chosen_text (choose : nat -> bool) (k : nat) (ss : list section) : list string :=
  match ss with
  | [] => []
  | Unchanged ls :: ss' => ls ++ chosen_text choose k ss'
  | Changed ls :: ss' => List.map cl_line (List.filter (line_kept (choose k)) ls) ++ chosen_text choose (S k) ss'
  | _ :: ss' => chosen_text choose k ss'
  end.

(** The changed lines shown, section by section. *)
Definition changed_sections (ss : list section) : list (list changed_line) :=
  omap (fun s => match s with Changed ls => Some ls | _ => None end) ss.
Definition shown_change (c : change) : list changed_line :=
  List.map (ChangedLine false Removed) (c_gone c) ++ List.map (ChangedLine false Added) (c_added c).

(** The sections shown for modes. *)
Definition mode_sections (ss : list section) : list (N * N) :=
  omap (fun s => match s with ModeSection _ b a => Some (b, a) | _ => None end) ss.

(** All bytes of a list of lines. *)
Definition bytes (ls : list string) : string := fold_right String.append "" ls.

(** One changed file of a difference, and the calls libgit2 makes for it; the
    path is the same on both sides (renames are not looked for). *)
Record fdelta := FDelta { f_path : string; f_delta : delta }.
Definition calls_for (f : fdelta) : list callback :=
  let p := f_path f in let d := f_delta f in
  OnFile p p (d_old_oid d) (d_old_mode d) (d_new_oid d) (d_new_mode d) ::
  match d_content d with
  | Hunks l => List.map (OnHunk p) l
  | BinaryDelta ob nb => [OnBinary p p (d_old_oid d) (d_old_mode d) (d_new_oid d) (d_new_mode d) ob nb]
  end.

(** The contents of a blob that both libgit2 and Rust take for text. *)
Definition text_of (e : record_env) (o : moid) (s : string) : Prop :=
  match o with
  | Zero => s = ""
  | NonZero o => re_blob e o = Some s /\ re_is_binary e s = false /\ Utf8Model.utf8 s = true
  end.

(** The lines of a text: together they are the text, none is empty, and only the
    last may lack the line feed at its end; there are no other line feeds. *)
Definition no_lf (s : string) : Prop := forall a b, s <> a +:+ String LF b.
Inductive text_lines : list string -> Prop :=
| tl_nil : text_lines []
| tl_last l : l <> "" -> no_lf l -> text_lines [l]
| tl_line l ls : no_lf l -> text_lines ls -> text_lines ((l +:+ String LF "") :: ls).
