(** Model of the messages of `git reword` (git-branchless-reword/src/lib.rs).

    Text is a string of bytes and white space that of ASCII; the comment character
    is a byte.  [message_prettify] is libgit2's function of that name; texts with
    NUL bytes, which it refuses, are left out.  The commits to be reworded, their
    short names, the template and the editor are given.  Resolving the commits and
    the option --fixup are not modelled; the rebase that follows is in the files
    Plan* and Exec*. *)
From stdpp Require Import pretty.
From Verif Require Import Base StrModel.
Local Open Scope string_scope.
Local Open Scope list_scope.

(** [message_prettify] (git-branchless-lib/src/git/repo.rs:295-309), that is,
    libgit2's git_message_prettify: leave out comments, strip lines on the right,
    one empty line for several, none at the beginning or end.  [started] tells
    whether something was written, [pending] whether empty lines were seen. *)
Definition is_comment (cc : option ascii) (l : string) : bool :=
  match cc, l with Some c, String a _ => Ascii.eqb a c | _, _ => false end.
Fixpoint prettify_lines (cc : option ascii) (ls : list string) (started pending : bool) : list string :=
  match ls with
  | [] => []
  | l :: ls' =>
    if is_comment cc l then prettify_lines cc ls' started pending
    else if String.eqb (trim_end l) "" then prettify_lines cc ls' started true
    else (if pending && started then [""] else []) ++ trim_end l :: prettify_lines cc ls' true false
  end.
Definition message_prettify (s : string) (cc : option ascii) : string :=
  unlines (prettify_lines cc (split_on LF s) false false).

(** Rust's [str::split] by a text that is not empty, [str::contains] and
    [str::split_once]; [skip] counts the characters of a match still to be passed
    over (lib.rs:587, 595, 596). *)
Fixpoint split_go (pat s : string) (skip : nat) : list string :=
  match s with
  | EmptyString => [""]
  | String c s' =>
    match skip with
    | S k => split_go pat s' k
    | O =>
      if starts_with pat s then "" :: split_go pat s' (String.length pat - 1)
      else match split_go pat s' 0 with
           | x :: xs => String c x :: xs
           | [] => [String c ""]
           end
    end
  end.
Definition split_str (pat s : string) : list string := split_go pat s 0.
Fixpoint contains (pat s : string) : bool :=
  starts_with pat s || match s with EmptyString => false | String _ s' => contains pat s' end.
Fixpoint split_once (c : ascii) (s : string) : option (string * string) :=
  match s with
  | EmptyString => None
  | String a s' =>
    if Ascii.eqb a c then Some ("", s')
    else match split_once c s' with Some (x, y) => Some (String a x, y) | None => None end
  end.

(** A commit to be reworded; the message is [None] if it is not valid text
    (lib.rs:432-442). *)
Record rcommit := RCommit { rc_oid : oid; rc_short : string; rc_message : option string }.

Definition MARK : string := "++ reword".

(** [ParseMessageResult] (lib.rs:562-572). *)
Record parsed := Parsed { p_duplicates : list string; p_messages : gmap oid string; p_unexpected : list string }.

(** The body of the loop of [parse_bulk_edit_message] (lib.rs:602-615). *)
Definition parse_section (cc : ascii) (commits_oids : gmap string oid) (st : parsed) (sec : string * string) : parsed :=
  let '(hash, msg) := sec in
  match commits_oids !! hash with
  | None => Parsed (p_duplicates st) (p_messages st) (p_unexpected st ++ [hash])
  | Some o =>
    if bool_decide (is_Some (p_messages st !! o))
    then Parsed (p_duplicates st ++ [hash]) (p_messages st) (p_unexpected st)
    else Parsed (p_duplicates st) (<[o := message_prettify msg (Some cc)]> (p_messages st)) (p_unexpected st)
  end.
(** [parse_bulk_edit_message] (lib.rs:575-622). *)
Definition short_oids (commits : list rcommit) : gmap string oid :=
  fold_left (fun m c => <[rc_short c := rc_oid c]> m) commits ∅.
Definition add_mark (message : string) (commits : list rcommit) : string :=
  match commits with
  | [c] => if negb (contains MARK message) then MARK +:+ " " +:+ rc_short c +:+ String LF message else message
  | _ => message
  end.
Definition bulk_sections (message : string) : list (string * string) :=
  List.map (fun '(hash, msg) => (trim hash, msg)) (omap (split_once LF) (split_str MARK message)).
Definition parse_bulk_edit_message (message : string) (commits : list rcommit) (cc : ascii) : parsed :=
  fold_left (parse_section cc (short_oids commits)) (bulk_sections (add_mark message commits)) (Parsed [] ∅ []).

(** [PrepareMessagesResult] (lib.rs:356-374). *)
Inductive prepared :=
| EmptyMessage
| IdenticalMessage
| MismatchedCommits (duplicates missing unexpected : list string)
| Prepared (messages : gmap oid string).

(** [InitialCommitMessages] (lib.rs:50-59) without --fixup; the text of the template
    is "" if there is none. *)
Inductive initial_messages := Discard (template : string) | Messages (l : list string).

(** The text shown for one commit (lib.rs:416-464). *)
Definition LFs : string := String LF "".
Definition original_text (cc : ascii) (im : initial_messages) (message : string) : string :=
  match im with
  | Discard template =>
    let t := trim template in
    (if String.eqb t "" then LFs else t +:+ LFs +:+ LFs) +:+
    String cc " Original message:" +:+ LFs +:+ String cc " " +:+
    join (String LF (String cc " ")) (split_on LF (trim message))
  | Messages _ => trim message
  end.
Definition commit_text (cc : ascii) (im : initial_messages) (many : bool) (c : rcommit) (message : string) : string :=
  let msg := original_text cc im message in
  if many then MARK +:+ " " +:+ rc_short c +:+ LFs +:+ msg +:+ LFs +:+ LFs else msg +:+ LFs +:+ LFs.
(** The explanation at the end (lib.rs:467-488), with [Pluralize]
    (git-branchless-lib/src/core/formatting.rs:42-70). *)
Definition footer (cc : ascii) (n : nat) : string :=
  String cc " Rewording: Please enter the commit " +:+ (if Nat.eqb n 1 then "message" else "messages") +:+
  " to apply to " +:+
  (if Nat.eqb n 1 then "this 1 commit" else "these " +:+ pretty (N.of_nat n) +:+ " commits") +:+ "." +:+ LFs +:+
  String cc " Lines starting with '" +:+ String cc "' will be ignored, and an empty message aborts" +:+ LFs +:+
  String cc " rewording.".
Definition many (commits : list rcommit) : bool := negb (Nat.eqb (length commits) 1).
Definition initial_text (cc : ascii) (im : initial_messages) (commits : list rcommit) : option string :=
  texts ← mapM (fun c => m ← rc_message c; Some (commit_text cc im (many commits) c m)) commits;
  Some (fold_right (fun x y => x +:+ y) (footer cc (length commits)) texts).

(** After the editor was left (lib.rs:490-557); the order of [missing], which the
    caller sorts, is that of the commits. *)
Definition finish_editing (cc : ascii) (commits : list rcommit) (shown edited : string) : prepared :=
  if String.eqb edited shown then IdenticalMessage
  else
    let message := message_prettify edited (Some cc) in
    if String.eqb (trim message) "" then EmptyMessage
    else
      let p := parse_bulk_edit_message message commits cc in
      let input_oids : gset oid := list_to_set (List.map rc_oid commits) in
      let parsed_oids : gset oid := dom (p_messages p) in
      if negb (bool_decide (input_oids = parsed_oids))
         || negb (bool_decide (p_duplicates p = [])) || negb (bool_decide (p_unexpected p = []))
      then MismatchedCommits (p_duplicates p)
             (List.map rc_short (List.filter (fun c => negb (bool_decide (rc_oid c ∈ parsed_oids))) commits))
             (p_unexpected p)
      else Prepared (p_messages p).

(** [prepare_messages] (lib.rs:379-558); [None] is an error: a message that is not
    text, or an editor that failed. *)
Definition prepare_messages (cc : ascii) (im : initial_messages) (commits : list rcommit)
    (editor : string -> option string) : option prepared :=
  let '(message, load_editor) :=
    match im with
    | Discard template => (template, true)
    | Messages l => let m := trim (join (LFs +:+ LFs) l) in (m, String.eqb m "")
    end in
  if negb load_editor then
    let m := message_prettify message None in
    if String.eqb (trim m) "" then Some EmptyMessage
    else Some (Prepared (list_to_map (List.map (fun c => (rc_oid c, m)) commits)))
  else
    shown ← initial_text cc im commits;
    edited ← editor shown;
    Some (finish_editing cc commits shown edited).

(** What [reword] does with it (lib.rs:180-268): the messages by commit; [None] if
    nothing is reworded.  The inner [None] is the panic of [unwrap]. *)
Definition reword_with (commits : list rcommit) (r : option prepared) : option (option (list (oid * string))) :=
  match r with
  | Some (Prepared messages) =>
    Some (mapM (fun c => m ← messages !! rc_oid c; Some (rc_oid c, m)) commits)
  | _ => None
  end.
