(** Model of the message of a snapshot, of how it is read back, and of what
    restoring does to HEAD and the branches (git-branchless-lib/src/git/snapshot.rs,
    git-branchless-lib/src/git/object.rs and git-branchless-lib/src/core/check_out.rs).

    Trailers are read by libgit2 (trailer.c), whose source is not part of /repo;
    the functions marked "trailer.c" follow its published implementation.  That
    code works with byte offsets into the message; here the message is a list of
    lines, each with its line feed.  All offsets that it computes are beginnings
    of lines, so offset 0 is line 0. *)
From Verif Require Import Base StrModel Utf8Model TextModel RecordModel.
Local Open Scope string_scope.
Local Open Scope list_scope.
Local Open Scope nat_scope.

(** The end of the string, [strcat] of pieces, and the first character. *)
Fixpoint cat (l : list string) : string :=
  match l with [] => "" | x :: xs => x +:+ cat xs end.
Definition starts_space (s : string) : bool :=
  match s with String c _ => is_space c | EmptyString => false end.
Definition is_comment (s : string) : bool :=
  match s with String c _ => Ascii.eqb c "#" | EmptyString => false end.

(** trailer.c, [is_blank_line]. *)
Fixpoint is_blank_line (s : string) : bool :=
  match s with
  | EmptyString => true
  | String c s' => if Ascii.eqb c LF then true else if is_space c then is_blank_line s' else false
  end.

(** trailer.c, [find_patch_start]: the lines before a line of three dashes
    followed by white space. *)
Definition is_patch_line (s : string) : bool :=
  match s with
  | String a (String b (String c (String d _))) =>
    (Ascii.eqb a "-" && Ascii.eqb b "-" && Ascii.eqb c "-" && is_space d)%bool
  | _ => false
  end.
Fixpoint before_patch (ls : list string) : list string :=
  match ls with
  | [] => []
  | l :: ls' => if is_patch_line l then [] else l :: before_patch ls'
  end.

(** trailer.c, [ignore_non_trailer]: where the comments, empty lines and old lists
    of conflicts at the end begin.  [boc] is 0 if there are none; so they are
    never found to begin at the first line. *)
Fixpoint non_trailer_start (ls : list string) (bol boc : nat) (conflicts : bool) : nat :=
  match ls with
  | [] => boc
  | l :: ls' =>
    if (is_comment l || String.prefix (String LF "") l)%bool then
      non_trailer_start ls' (S bol) (if Nat.eqb boc 0 then bol else boc) conflicts
    else if String.prefix ("Conflicts:" +:+ String LF "") l then
      non_trailer_start ls' (S bol) (if Nat.eqb boc 0 then bol else boc) true
    else if (conflicts && String.prefix (String "009" "") l)%bool then
      non_trailer_start ls' (S bol) boc conflicts
    else if Nat.eqb boc 0 then non_trailer_start ls' (S bol) 0 conflicts
    else non_trailer_start ls' (S bol) 0 false
  end.
(** trailer.c, [find_trailer_end]. *)
Definition before_comments (ls : list string) : list string :=
  let boc := non_trailer_start ls 0 0 false in
  if Nat.eqb boc 0 then ls else take boc ls.

(** trailer.c, [git__isalnum] and [find_separator]: the number of characters before
    the colon, or 0 if none is found. *)
Definition is_alnum (c : ascii) : bool :=
  let n := N_of_ascii c in
  ((N.leb 48 n && N.leb n 57) || (N.leb 65 n && N.leb n 90) || (N.leb 97 n && N.leb n 122))%bool.
Definition is_key_char (c : ascii) : bool := (is_alnum c || Ascii.eqb c "-")%bool.
Definition is_blank (c : ascii) : bool := (Ascii.eqb c " " || Ascii.eqb c "009")%bool.
Fixpoint find_separator (s : string) (pos : nat) (space : bool) : nat :=
  match s with
  | EmptyString => 0
  | String c s' =>
    if Ascii.eqb c ":" then pos
    else if (negb space && is_key_char c)%bool then find_separator s' (S pos) space
    else if (Nat.ltb 0 pos && is_blank c)%bool then find_separator s' (S pos) true
    else 0
  end.

(** trailer.c, [git_generated_prefixes]. *)
Definition is_generated (s : string) : bool :=
  (String.prefix "Signed-off-by: " s || String.prefix "(cherry picked from commit " s)%bool.

(** trailer.c, [find_trailer_start].  The title (first loop): the number of lines
    up to the first blank one. *)
Fixpoint title_lines (ls : list string) : nat :=
  match ls with
  | [] => 0
  | l :: ls' => if is_comment l then S (title_lines ls') else if is_blank_line l then 0 else S (title_lines ls')
  end.
(** The lines as found by [last_line], which does not look at the first byte: a line
    feed there does not end a line. *)
Definition last_lines (ls : list string) : list string :=
  match ls with
  | x :: y :: ls' => if String.eqb x (String LF "") then (x +:+ y) :: ls' else ls
  | _ => ls
  end.
(** What follows the first line feed, as [next_line]. *)
Fixpoint next_line (s : string) : string :=
  match s with
  | EmptyString => ""
  | String c s' => if Ascii.eqb c LF then s' else next_line s'
  end.
(** The second loop, over the lines from the last one; [after] are those already
    seen.  [None] if there are no trailers. *)
Fixpoint trailer_block (rev_lines after : list string) (only_spaces recognized : bool)
  (trailers others continuations : nat) : option (list string) :=
  match rev_lines with
  | [] => None
  | l :: ls =>
    if is_comment l then
      trailer_block ls (l :: after) only_spaces recognized trailers (others + continuations) 0
    else if is_blank_line l then
      if only_spaces then trailer_block ls (l :: after) only_spaces recognized trailers others continuations
      else
        let others := others + continuations in
        if ((recognized && Nat.leb others (trailers * 3)) || (Nat.ltb 0 trailers && Nat.eqb others 0))%bool
        then Some (next_line l :: after)
        else None
    else if is_generated l then trailer_block ls (l :: after) false true (S trailers) others 0
    else if (Nat.leb 1 (find_separator l 0 false) && negb (starts_space l))%bool then
      trailer_block ls (l :: after) false recognized (S trailers) others 0
    else if starts_space l then
      trailer_block ls (l :: after) false recognized trailers others (S continuations)
    else trailer_block ls (l :: after) false recognized trailers (S others + continuations) 0
  end.

(** trailer.c, [extract_trailer_block]. *)
Definition extract_trailer_block (message : string) : string :=
  let ls := before_comments (before_patch (split_inclusive message)) in
  let n := title_lines ls in
  let ls := if Nat.eqb n 0 then last_lines ls else drop n ls in
  match trailer_block (rev ls) [] true false 0 0 0 with
  | Some b => cat b
  | None => ""
  end.

(** trailer.c, [git_message_trailers]: the automaton.  The state at the beginning of
    a line is [InKey ""]. *)
Inductive tstate :=
| InKey (k : string)
| AfterKey (k : string)
| BeforeValue (k : string)
| InValue (k v : string)
| AfterValue (k v : string)
| Skip.
Definition snoc (s : string) (c : ascii) : string := s +:+ String c "".
Definition on_key_char (k : string) (c : ascii) : tstate :=
  if is_key_char c then InKey (snoc k c)
  else if is_blank c then AfterKey k
  else if Ascii.eqb c ":" then BeforeValue k
  else if Ascii.eqb c LF then InKey "" else Skip.
Fixpoint parse_trailers (st : tstate) (s : string) : list (string * string) :=
  match s with
  | EmptyString =>
    match st with
    | InValue k v | AfterValue k v => [(k, v)]
    | _ => []
    end
  | String c s' =>
    match st with
    | InKey k => parse_trailers (on_key_char k c) s'
    | AfterKey k =>
      if is_blank c then parse_trailers (AfterKey k) s'
      else if Ascii.eqb c ":" then parse_trailers (BeforeValue k) s'
      else if Ascii.eqb c LF then parse_trailers (InKey "") s' else parse_trailers Skip s'
    | BeforeValue k =>
      if is_blank c then parse_trailers (BeforeValue k) s'
      else parse_trailers (InValue k (String c "")) s'
    | InValue k v =>
      if Ascii.eqb c LF then parse_trailers (AfterValue k v) s'
      else parse_trailers (InValue k (snoc v c)) s'
    | AfterValue k v =>
      if Ascii.eqb c " " then parse_trailers (InValue k (snoc (snoc v LF) c)) s'
      else (k, v) :: parse_trailers (on_key_char "" c) s'
    | Skip => if Ascii.eqb c LF then parse_trailers (InKey "") s' else parse_trailers Skip s'
    end
  end.

(** [Commit::get_trailers] (git/object.rs:153-168).  [None] for an error: the message
    is not UTF-8 (155-157), or contains a zero byte, which cannot be passed to
    libgit2 (159-160). *)
Definition has_nul (s : string) : bool := existsb (Ascii.eqb "000") (list_ascii_of_string s).
Definition get_trailers (message : string) : option (list (string * string)) :=
  if (negb (utf8 message) || has_nul message)%bool then None
  else Some (List.filter (fun kv => (utf8 (fst kv) && utf8 (snd kv))%bool)
               (parse_trailers (InKey "") (extract_trailer_block message))).

(** A commit: its parents and its message.  Trees are the matter of SnapModel.v. *)
Record rcommit := RCommit { rc_parents : list oid; rc_message : string }.
Notation cstore := (gmap oid rcommit).

(** [WorkingCopySnapshot] (git/snapshot.rs:48-86), the commits by their ids. *)
Record wsnapshot := WSnapshot {
  ws_head : option oid;
  ws_ref : option refname;
  ws_unstaged : oid;
  ws_stage0 : oid;
  ws_stage1 : oid;
  ws_stage2 : oid;
  ws_stage3 : oid }.
Global Instance wsnapshot_eq_dec : EqDecision wsnapshot.
Proof. solve_decision. Defined.

(** The keys (git/snapshot.rs:41-43, git/index.rs:27-34). *)
Definition head_key : string := "Branchless-head".
Definition ref_key : string := "Branchless-head-ref".
Definition unstaged_key : string := "Branchless-unstaged".
Definition stage0_key : string := "Branchless-stage-0".
Definition stage1_key : string := "Branchless-stage-1".
Definition stage2_key : string := "Branchless-stage-2".
Definition stage3_key : string := "Branchless-stage-3".

(** [create]: the trailers (git/snapshot.rs:156-172), the message (174-185) and the
    parents (199-214) of the snapshot's commit. *)
Definition snapshot_trailers (s : wsnapshot) : list (string * string) :=
  (head_key, moid_to_string (match ws_head s with Some o => NonZero o | None => Zero end))
  :: match ws_ref s with Some r => [(ref_key, r)] | None => [] end
  ++ [(unstaged_key, oid_to_string (ws_unstaged s));
      (stage0_key, oid_to_string (ws_stage0 s));
      (stage1_key, oid_to_string (ws_stage1 s));
      (stage2_key, oid_to_string (ws_stage2 s));
      (stage3_key, oid_to_string (ws_stage3 s))].
Definition snapshot_title : string := "branchless: automated working copy snapshot".
Definition trailer_line (kv : string * string) : string := fst kv +:+ ": " +:+ snd kv.
Definition snapshot_message (s : wsnapshot) : string :=
  snapshot_title +:+ String LF (String LF
    (join (String LF "") (map trailer_line (snapshot_trailers s)) +:+ String LF "")).
Definition snapshot_parents (s : wsnapshot) : list oid :=
  match ws_head s with Some o => [o] | None => [] end
  ++ [ws_stage0 s; ws_stage1 s; ws_stage2 s; ws_stage3 s].
Definition snapshot_commit (s : wsnapshot) : rcommit := RCommit (snapshot_parents s) (snapshot_message s).

(** [try_from_base_commit] (git/snapshot.rs:233-297): its [find_commit] (238-255) and
    the rest. *)
Inductive found := Found (o : oid) | NotFound | Missing.
Fixpoint find_commit (st : cstore) (ts : list (string * string)) (key : string) : found :=
  match ts with
  | [] => NotFound
  | (k, v) :: ts' =>
    if String.eqb k key then
      match moid_from_string v with
      | Some (NonZero o) => match st !! o with Some _ => Found o | None => Missing end
      | Some Zero => NotFound
      | None => find_commit st ts' key
      end
    else find_commit st ts' key
  end.
Definition find_ref (ts : list (string * string)) : option refname :=
  option_map snd (List.find (fun kv => String.eqb (fst kv) ref_key) ts).
Inductive opened := Opened (s : wsnapshot) | NotASnapshot | OpenError.
Definition with_commit (f : found) (k : oid -> opened) : opened :=
  match f with Found o => k o | NotFound => NotASnapshot | Missing => OpenError end.
Definition try_from_base_commit (st : cstore) (message : string) : opened :=
  match get_trailers message with
  | None => OpenError
  | Some ts =>
    match find_commit st ts head_key with
    | Missing => OpenError
    | h =>
      let head := match h with Found o => Some o | _ => None end in
      with_commit (find_commit st ts unstaged_key) (fun u =>
      with_commit (find_commit st ts stage0_key) (fun c0 =>
      with_commit (find_commit st ts stage1_key) (fun c1 =>
      with_commit (find_commit st ts stage2_key) (fun c2 =>
      with_commit (find_commit st ts stage3_key) (fun c3 =>
        Opened (WSnapshot head (find_ref ts) u c0 c1 c2 c3))))))
    end
  end.

(** HEAD and the references.  A reference other than HEAD is taken to name a commit
    directly. *)
Inductive headref := Detached (o : oid) | OnBranch (r : refname).
Record refstate := RefState { rs_head : headref; rs_refs : gmap refname oid }.

(** [get_head_info] and [resolve_reference] (git/repo.rs:671-699). *)
Definition get_head_info (s : refstate) : option oid * option refname :=
  match rs_head s with
  | Detached o => (Some o, None)
  | OnBranch r => (rs_refs s !! r, Some r)
  end.

(** The commands of [restore_snapshot] (core/check_out.rs:241-355): 255-257, 265-271,
    275-288, 322-328, 332-343 and 345-351. *)
Inductive git_command :=
| GResetHard
| GCheckout (o : oid)
| GReset (o : oid)
| GUpdateIndex
| GUpdateRef (r : refname) (o : moid)
| GSymbolicRef (r : refname).
Definition restore_commands (s : wsnapshot) : list git_command :=
  GResetHard :: GCheckout (ws_unstaged s)
  :: match ws_head s with Some o => [GReset o] | None => [] end
  ++ GUpdateIndex
  :: match ws_ref s with
     | Some r => [GUpdateRef r (match ws_head s with Some o => NonZero o | None => Zero end); GSymbolicRef r]
     | None => []
     end.

(** What these commands of Git do to HEAD and the references, if they succeed.  [git
    reset] moves the current branch, if any; [git update-ref] with the zero id deletes. *)
Definition run_git (s : refstate) (c : git_command) : refstate :=
  match c with
  | GResetHard | GUpdateIndex => s
  | GCheckout o => RefState (Detached o) (rs_refs s)
  | GReset o =>
    match rs_head s with
    | Detached _ => RefState (Detached o) (rs_refs s)
    | OnBranch r => RefState (OnBranch r) (<[r := o]> (rs_refs s))
    end
  | GUpdateRef r (NonZero o) => RefState (rs_head s) (<[r := o]> (rs_refs s))
  | GUpdateRef r Zero => RefState (rs_head s) (delete r (rs_refs s))
  | GSymbolicRef r => RefState (OnBranch r) (rs_refs s)
  end.
(** The commands are run until one fails ([try_exit_code!], and 328 for the index);
    [ok n] tells whether the [n]-th succeeds.  The second component tells whether all
    did. *)
Fixpoint run_gits (ok : nat -> bool) (n : nat) (s : refstate) (l : list git_command) : refstate * bool :=
  match l with
  | [] => (s, true)
  | c :: l' => if ok n then run_gits ok (S n) (run_git s c) l' else (s, false)
  end.
Definition restore_refs (ok : nat -> bool) (s : refstate) (w : wsnapshot) : refstate * bool :=
  run_gits ok 0 s (restore_commands w).

(** Garbage collection by Git: what is reachable from the given commits is kept.  [keep]
    is the set of the reachable commits. *)
Definition collect (keep : gset oid) (st : cstore) : cstore := filter (fun x => x.1 ∈ keep) st.
