(** Model of reading the output of `git status --porcelain=v2 -z`
    (git-branchless-lib/src/git/repo.rs and git-branchless-lib/src/git/status.rs).

    The output is a string of bytes.  The regular expression is modelled by a
    matcher that tries the alternatives in the order of preference of the regex
    crate.  Its classes of digits and word characters are those of ASCII; the
    crate also accepts those of Unicode.  A class that excludes NUL only matches
    well-formed UTF-8, as in the crate.  Running git is not modelled. *)
From Verif Require Import Base StrModel Utf8Model ModeModel.
Local Open Scope string_scope.
Local Open Scope list_scope.

(** [StatusEntry] (status.rs:166-177) and [paths] (status.rs:181-187). *)
Record status_entry := StatusEntry {
  se_index : file_status;
  se_wc : file_status;
  se_mode : file_mode;
  se_path : string;
  se_orig : option string }.
Definition se_paths (x : status_entry) : list string :=
  se_path x :: match se_orig x with Some o => [o] | None => [] end.

Definition NUL : ascii := ascii_of_N 0.
Definition SP : ascii := ascii_of_N 32.

(** Classes of characters of the expression (status.rs:198-207). *)
Definition in_range (lo hi : N) (c : ascii) : bool := (N.leb lo (N_of_ascii c) && N.leb (N_of_ascii c) hi)%bool.
Definition is_digit (c : ascii) : bool := in_range 48 57 c.
Definition is_word (c : ascii) : bool :=
  (is_digit c || in_range 65 90 c || in_range 97 122 c || N.eqb (N_of_ascii c) 95)%bool.
Definition is_word_dot (c : ascii) : bool := (is_word c || Ascii.eqb c ".")%bool.
Definition is_hex (c : ascii) : bool := (is_digit c || in_range 97 102 c)%bool.

(** The longest beginning in a class, and what follows. *)
Fixpoint span (P : ascii -> bool) (s : string) : string * string :=
  match s with
  | EmptyString => ("", "")
  | String c s' => if P c then let '(a, b) := span P s' in (String c a, b) else ("", s)
  end.

(** A run of between [lo] and [hi] characters of a class, then a space.  No class
    used contains the space, so that only the longest run can match. *)
Definition field (P : ascii -> bool) (lo : nat) (hi : option nat) (s : string) : option (string * string) :=
  let '(a, b) := span P s in
  if (Nat.leb lo (String.length a) && match hi with Some h => Nat.leb (String.length a) h | None => true end)%bool then
    match b with
    | String c rest => if Ascii.eqb c SP then Some (a, rest) else None
    | EmptyString => None
    end
  else None.
Definition mode_field (s : string) : option (string * string) := field is_digit 6 (Some 6%nat) s.
Definition id_field (s : string) : option (string * string) := field is_hex 1 None s.

(** The first alternative that matches. *)
Definition orelse {A} (x y : option A) : option A := match x with Some _ => x | None => y end.

(** [(?P<path>[^\x00]+)(\x00(?P<orig_path>[^\x00]+))?$] (status.rs:206). *)
Definition is_nul (c : ascii) : bool := Ascii.eqb c NUL.
Definition text_run (s : string) : bool := (negb (String.eqb s "") && utf8 s)%bool.
Definition match_path (s : string) : option (string * option string) :=
  let '(p, rest) := span (fun c => negb (is_nul c)) s in
  if text_run p then
    match rest with
    | EmptyString => Some (p, None)
    | String _ rest' =>
      let '(o, rest'') := span (fun c => negb (is_nul c)) rest' in
      if (text_run o && String.eqb rest'' "")%bool then Some (p, Some o) else None
    end
  else None.

(** [([CR]\d{1,3} )?] and the rest (status.rs:204). *)
Definition score_field (s : string) : option string :=
  match s with
  | String c s' =>
    if (Ascii.eqb c "C" || Ascii.eqb c "R")%bool then
      match field is_digit 1 (Some 3%nat) s' with Some (_, rest) => Some rest | None => None end
    else None
  | EmptyString => None
  end.
Definition match_score (s : string) : option (string * option string) :=
  orelse (match score_field s with Some rest => match_path rest | None => None end) (match_path s).

(** [([a-f\d]+ ){2,3}] and the rest (status.rs:204): three are preferred to two. *)
Definition match_ids (s : string) : option (string * option string) :=
  match id_field s with
  | None => None
  | Some (_, s1) =>
    match id_field s1 with
    | None => None
    | Some (_, s2) =>
      orelse (match id_field s2 with Some (_, s3) => match_score s3 | None => None end) (match_score s2)
    end
  end.

(** [(\d{6} ){2,3}(?P<working_copy_filemode>\d{6}) ] and the rest
    (status.rs:202). *)
Definition match_wc_mode (s : string) : option (string * (string * option string)) :=
  match mode_field s with
  | None => None
  | Some (m, rest) => match match_ids rest with Some x => Some (m, x) | None => None end
  end.
Definition match_modes (s : string) : option (string * (string * option string)) :=
  match mode_field s with
  | None => None
  | Some (_, s1) =>
    match mode_field s1 with
    | None => None
    | Some (_, s2) =>
      orelse (match mode_field s2 with Some (_, s3) => match_wc_mode s3 | None => None end) (match_wc_mode s2)
    end
  end.

(** [TryFrom<&[u8]> for StatusEntry] (status.rs:190-256).  The prefix and the
    status indicators are at status.rs:199-201; [None] is an error. *)
Definition parse_status_entry (line : string) : option status_entry :=
  match line with
  | String p (String s1 (String x (String y (String s2 rest)))) =>
    if ((Ascii.eqb p "1" || Ascii.eqb p "2" || Ascii.eqb p "u") && Ascii.eqb s1 SP &&
        is_word_dot x && is_word_dot y && Ascii.eqb s2 SP)%bool then
      match field is_word_dot 1 None rest with
      | None => None
      | Some (_, rest') =>
        match match_modes rest' with
        | None => None
        | Some (m, (path, orig)) =>
          match mode_of_text m with
          | None => None
          | Some m => Some (StatusEntry (if Ascii.eqb p "u" then Unmerged else status_of x) (status_of y) m path orig)
          end
        end
      end
    else None
  | _ => None
  end.

(** [not_null_terminator] (repo.rs:1005) and [take_while] (repo.rs:1018-1021): the bytes before
    the next NUL and, after it, the rest. *)
Definition take_line (s : string) : string * string :=
  let '(a, b) := span (fun c => negb (is_nul c)) s in
  (a, match b with EmptyString => "" | String _ b' => b' end).

(** One round of the loop (repo.rs:1014-1047).  A header line is not skipped:
    nothing is taken from the iterator (1035). *)
Inductive status_step := StatusNext (rest : string) (found : list status_entry) | StatusEnd (found : list status_entry) | StatusFails.
Definition status_round (s : string) (found : list status_entry) : status_step :=
  match s with
  | EmptyString => StatusEnd found
  | String c _ =>
    let entry line rest :=
      match parse_status_entry line with Some x => StatusNext rest (found ++ [x]) | None => StatusFails end in
    if (Ascii.eqb c "1" || Ascii.eqb c "u")%bool then let '(line, rest) := take_line s in entry line rest
    else if Ascii.eqb c "2" then
      let '(line, rest) := take_line s in
      let '(more, rest') := take_line rest in
      entry (line +:+ String NUL more) rest'
    else if Ascii.eqb c "#" then StatusNext s found
    else StatusFails
  end.

(** The loop of [get_status] (repo.rs:984-1047), for a number of rounds. *)
Inductive status_result := Running (rest : string) (found : list status_entry) | Entries (found : list status_entry) | StatusError.
Fixpoint status_loop (rounds : nat) (s : string) (found : list status_entry) : status_result :=
  match rounds with
  | O => Running s found
  | S n =>
    match status_round s found with
    | StatusNext s' found' => status_loop n s' found'
    | StatusEnd found' => Entries found'
    | StatusFails => StatusError
    end
  end.
