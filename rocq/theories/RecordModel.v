(** Model of the sections shown by `git record --interactive`
    (git-branchless-lib/src/git/diff.rs).

    libgit2 delivers the difference of two trees by callbacks; the model takes the
    sequence of calls.  Contents of blobs are strings of bytes.  Whether libgit2
    considers contents as binary, and the errors of reading and writing blobs, are
    given.  The types of the crate scm-record are modelled as far as they are
    constructed here; the descriptions of binary contents (an id and a size) are
    kept as a pair.  Choosing lines on the screen is not modelled. *)
From Verif Require Import Base StrModel Utf8Model.
Local Open Scope string_scope.
Local Open Scope list_scope.

(** [GitHunk] (diff.rs:18-24). *)
Record hunk := Hunk { h_old_start : nat; h_old_lines : nat; h_new_start : nat; h_new_lines : nat }.

(** [DeltaFileContent] and [Delta] (diff.rs:30-46). *)
Inductive delta_content := Hunks (l : list hunk) | BinaryDelta (old_num_bytes new_num_bytes : N).
Record delta := Delta {
  d_old_oid : moid; d_old_mode : N;
  d_new_oid : moid; d_new_mode : N;
  d_content : delta_content }.

(** scm-record's [ChangeType], [SectionChangedLine], [Section] and [File], as
    built at diff.rs:121-130, 139-154, 290-296, 315-319, 345-350 and 375-380. *)
Inductive change_type := Added | Removed.
Record changed_line := ChangedLine { cl_checked : bool; cl_type : change_type; cl_line : string }.
Inductive section :=
| Unchanged (lines : list string)
| Changed (lines : list changed_line)
| ModeSection (is_checked : bool) (before after : N)
| BinarySection (is_checked : bool) (old_description new_description : option (moid * N)).
Record rfile := RFile { rf_path : string; rf_mode : N; rf_sections : list section }.

(** scm-record's [FileMode::absent()] (used at diff.rs:128). *)
Definition ABSENT : N := 0%N.

(** The calls made by libgit2's [foreach] (diff.rs:48-103): a file, a binary file,
    or a hunk of the file whose new path is given. *)
Inductive callback :=
| OnFile (old_path new_path : string) (old_oid : moid) (old_mode : N) (new_oid : moid) (new_mode : N)
| OnBinary (old_path new_path : string) (old_oid : moid) (old_mode : N) (new_oid : moid) (new_mode : N)
    (old_size new_size : N)
| OnHunk (new_path : string) (h : hunk).

(** How a step may end: with a value, with an error, or by a panic. *)
Inductive outcome (A : Type) := Done (x : A) | Failed | Panicked.
Arguments Done {A} _.
Arguments Failed {A}.
Arguments Panicked {A}.
Definition obind {A B} (x : outcome A) (f : A -> outcome B) : outcome B :=
  match x with Done a => f a | Failed => Failed | Panicked => Panicked end.
Fixpoint omapM {A B} (f : A -> outcome B) (l : list A) : outcome (list B) :=
  match l with
  | [] => Done []
  | x :: l' => obind (f x) (fun y => obind (omapM f l') (fun ys => Done (y :: ys)))
  end.

(** One call (diff.rs:49-100).  [get_mut(path).unwrap()] and a hunk of a binary
    file panic (86, 95-97). *)
Definition on_callback (m : gmap string delta) (c : callback) : outcome (gmap string delta) :=
  match c with
  | OnFile op np oo om no nm =>
    let d := Delta oo om no nm (Hunks []) in Done (<[np := d]> (<[op := d]> m))
  | OnBinary op np oo om no nm os ns =>
    let d := Delta oo om no nm (BinaryDelta os ns) in Done (<[np := d]> (<[op := d]> m))
  | OnHunk np h =>
    match m !! np with
    | None => Panicked
    | Some d =>
      match d_content d with
      | Hunks l =>
        Done (<[np := Delta (d_old_oid d) (d_old_mode d) (d_new_oid d) (d_new_mode d) (Hunks (l ++ [h]))]> m)
      | BinaryDelta _ _ => Panicked
      end
    end
  end.
Fixpoint collect_deltas (m : gmap string delta) (l : list callback) : outcome (gmap string delta) :=
  match l with
  | [] => Done m
  | c :: l' => obind (on_callback m c) (fun m' => collect_deltas m' l')
  end.

(** What the repository answers: the contents of a blob ([find_blob_or_fail],
    diff.rs:173), whether libgit2 takes contents for binary ([is_binary], 175), and
    whether writing the blob of a path fails other than by absence (198-202). *)
Record record_env := RecordEnv {
  re_blob : oid -> option string;
  re_is_binary : string -> bool;
  re_write_fails : string -> bool }.

(** Rust's [str::split_inclusive('\n')] (diff.rs:187-190). *)
Fixpoint split_inclusive (s : string) : list string :=
  match s with
  | EmptyString => []
  | String c s' =>
    if Ascii.eqb c LF then String c "" :: split_inclusive s'
    else match split_inclusive s' with
         | x :: xs => String c x :: xs
         | [] => [String c ""]
         end
  end.

(** [BlobContents] and [get_lines_from_blob] (diff.rs:163-194). *)
Inductive blob_contents := AbsentBlob | BinaryBlob (num_bytes : N) | TextBlob (lines : list string).
Definition get_lines_from_blob (e : record_env) (o : moid) : outcome blob_contents :=
  match o with
  | Zero => Done AbsentBlob
  | NonZero o =>
    match re_blob e o with
    | None => Failed
    | Some s =>
      if re_is_binary e s then Done (BinaryBlob (N.of_nat (String.length s)))
      else if utf8 s then Done (TextBlob (split_inclusive s))
      else Done (BinaryBlob (N.of_nat (String.length s)))
    end
  end.

(** [v[a..b]] on a slice: out of range it panics. *)
Definition range (l : list string) (a b : nat) : outcome (list string) :=
  if (Nat.leb a b && Nat.leb b (length l))%bool then Done (firstn (b - a) (skipn a l)) else Panicked.

(** The lines a hunk is taken from, or the section shown in its place
    (diff.rs:214-256). *)
Definition hunk_lines (old_oid new_oid : moid) (before after : blob_contents)
    : (list string * list string) + section :=
  match before, after with
  | BinaryBlob ob, BinaryBlob nb => inr (BinarySection false (Some (old_oid, ob)) (Some (new_oid, nb)))
  | _, BinaryBlob nb => inr (BinarySection false None (Some (new_oid, nb)))
  | BinaryBlob _, TextBlob a => inl ([], a)
  | BinaryBlob _, AbsentBlob => inl ([], [])
  | AbsentBlob, TextBlob a => inl ([], a)
  | AbsentBlob, AbsentBlob => inl ([], [])
  | TextBlob b, TextBlob a => inl (b, a)
  | TextBlob b, AbsentBlob => inl (b, [])
  end.

(** One hunk (diff.rs:258-351).  [idx] is [unchanged_hunk_line_idx].  The lines
    266-277 give the start of the hunk, counted from zero; the assertions there
    and at 302 and 324 panic. *)
Definition start_of (start : nat) : nat :=
  match start with O => O | S n => n end.
Definition hunk_sections (before after : list string) (idx : nat) (h : hunk) : outcome (list section * nat) :=
  if (Nat.eqb (h_old_start h) 0 && negb (Nat.eqb (h_old_lines h) 0))%bool then Panicked
  else if (Nat.eqb (h_new_start h) 0 && negb (Nat.eqb (h_new_lines h) 0))%bool then Panicked
  else
    let old_is_empty := (Nat.eqb (h_old_start h) 0 && Nat.eqb (h_old_lines h) 0)%bool in
    let old_start := start_of (h_old_start h) in
    let new_start := start_of (h_new_start h) in
    obind
      (if Nat.leb idx old_start then
         let end_ := if (Nat.eqb (h_old_lines h) 0 && negb old_is_empty)%bool then S old_start else old_start in
         obind (range before idx end_) (fun ls => Done ([Unchanged ls], end_ + h_old_lines h))
       else Done ([], idx))
      (fun '(unchanged, idx') =>
         obind (range before old_start (old_start + h_old_lines h)) (fun gone =>
         obind (range after new_start (new_start + h_new_lines h)) (fun added =>
           let ls := List.map (ChangedLine false Removed) gone ++ List.map (ChangedLine false Added) added in
           Done (unchanged ++ match ls with [] => [] | _ => [Changed ls] end, idx')))).

(** The hunks of a file (diff.rs:206-352). *)
Fixpoint sections_of_hunks (old_oid new_oid : moid) (before after : blob_contents) (idx : nat) (l : list hunk)
    : outcome (list section * nat) :=
  match l with
  | [] => Done ([], idx)
  | h :: l' =>
    match hunk_lines old_oid new_oid before after with
    | inr s =>
      obind (sections_of_hunks old_oid new_oid before after idx l') (fun '(ss, i) => Done (s :: ss, i))
    | inl (b, a) =>
      obind (hunk_sections b a idx h) (fun '(s, idx') =>
      obind (sections_of_hunks old_oid new_oid before after idx' l') (fun '(ss, i) => Done (s ++ ss, i)))
    end
  end.

(** The unchanged lines after the last hunk (diff.rs:354-364). *)
Definition rest_of_file (before : blob_contents) (idx : nat) : list section :=
  match before with
  | TextBlob b => if Nat.ltb idx (length b) then [Unchanged (skipn idx b)] else []
  | _ => []
  end.

(** [hunks.sort_by_key] (diff.rs:158): a stable sort by insertion. *)
Definition hunk_leb (x y : hunk) : bool :=
  (Nat.ltb (h_old_start x) (h_old_start y) ||
   (Nat.eqb (h_old_start x) (h_old_start y) && Nat.leb (h_old_lines x) (h_old_lines y)))%bool.
Fixpoint insert_hunk (x : hunk) (l : list hunk) : list hunk :=
  match l with
  | [] => [x]
  | y :: l' => if hunk_leb x y then x :: l else y :: insert_hunk x l'
  end.
Definition sort_hunks (l : list hunk) : list hunk := fold_right insert_hunk [] l.

(** One file (diff.rs:108-380). *)
Definition process_file (e : record_env) (path : string) (d : delta) : outcome rfile :=
  match d_new_oid d with
  | Zero => Done (RFile path (d_old_mode d) [ModeSection false (d_old_mode d) ABSENT])
  | NonZero _ =>
    match d_content d with
    | BinaryDelta ob nb =>
      Done (RFile path (d_old_mode d) [BinarySection false (Some (d_old_oid d, ob)) (Some (d_new_oid d, nb))])
    | Hunks l =>
      if re_write_fails e path then Failed
      else
        obind (get_lines_from_blob e (d_old_oid d)) (fun before =>
        obind (get_lines_from_blob e (d_new_oid d)) (fun after =>
        obind (sections_of_hunks (d_old_oid d) (d_new_oid d) before after 0 (sort_hunks l)) (fun '(ss, idx) =>
          let mode := if N.eqb (d_old_mode d) (d_new_mode d) then []
                      else [ModeSection false (d_old_mode d) (d_new_mode d)] in
          Done (RFile path (d_old_mode d) (mode ++ ss ++ rest_of_file before idx)))))
    end
  end.

(** Sorting the files by path (diff.rs:383).  Paths are compared as strings of
    bytes; Rust compares them component by component. *)
Definition file_leb (x y : rfile) : bool :=
  match String.compare (rf_path x) (rf_path y) with Gt => false | _ => true end.
Fixpoint insert_file (x : rfile) (l : list rfile) : list rfile :=
  match l with
  | [] => [x]
  | y :: l' => if file_leb x y then x :: l else y :: insert_file x l'
  end.
Definition sort_files (l : list rfile) : list rfile := fold_right insert_file [] l.

(** [process_diff_for_record] (diff.rs:27-385).  The map of deltas is visited in
    the order of [map_to_list]; the code does so in an arbitrary order. *)
Definition process_diff_for_record (e : record_env) (calls : list callback) : outcome (list rfile) :=
  obind (collect_deltas ∅ calls) (fun m =>
  obind (omapM (fun '(p, d) => process_file e p d) (map_to_list m)) (fun l => Done (sort_files l))).
