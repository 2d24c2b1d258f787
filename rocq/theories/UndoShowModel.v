(** Model of what [git undo] announces before it asks for confirmation
    (git-branchless-undo/src/lib.rs:112-428 and 816-831).

    The description of a commit, which has its short name and the first line of its
    message, is a parameter. *)
From Verif Require Import Base TextModel StrModel EventLogModel UndoModel NavModel.
Local Open Scope string_scope.
Local Open Scope list_scope.

(** [CategorizedReferenceName::friendly_describe] (git/reference.rs:212-223). *)
Definition friendly_ref (r : refname) : string :=
  match strip_prefix heads_prefix r with
  | Some s => "branch " +:+ s
  | None => match strip_prefix remotes_prefix r with Some s => "remote branch " +:+ s | None => "ref " +:+ r end
  end.

(** Rust's [str::repeat] for a space. *)
Fixpoint spaces (n : nat) : string := match n with O => "" | S n' => String " " (spaces n') end.

(** git-branchless-undo/src/lib.rs:113-114. *)
Definition empty_event_message : string :=
  "This may be an unsupported use-case; see https://github.com/arxanas/git-branchless/issues/57".

(** [describe_event] (git-branchless-undo/src/lib.rs:112-402). *)
Definition describe_event (desc : oid -> string) (e : event) : list string :=
  match e with
  | CommitEvent _ _ o => ["Commit " +:+ desc o; ""]
  | ObsoleteEvent _ _ o | RewriteEvent _ _ (NonZero o) Zero => ["Hide commit " +:+ desc o; ""]
  | UnobsoleteEvent _ _ o | RewriteEvent _ _ Zero (NonZero o) => ["Unhide commit " +:+ desc o; ""]
  | RefUpdateEvent _ _ name Zero Zero _ => ["Empty event for " +:+ name; empty_event_message]
  | RefUpdateEvent _ _ name Zero (NonZero new) _ =>
      if String.eqb name "HEAD" then ["Check out to " +:+ desc new; ""]
      else ["Create " +:+ friendly_ref name +:+ " at " +:+ desc new; ""]
  | RefUpdateEvent _ _ name (NonZero old) Zero _ => ["Delete " +:+ friendly_ref name +:+ " at " +:+ desc old; ""]
  | RefUpdateEvent _ _ name (NonZero old) (NonZero new) _ =>
      if String.eqb name "HEAD" then ["Check out from " +:+ desc old; "            to " +:+ desc new]
      else ["Move " +:+ friendly_ref name +:+ " from " +:+ desc old;
            "     " +:+ spaces (String.length (friendly_ref name)) +:+ "   to " +:+ desc new]
  | RewriteEvent _ _ (NonZero old) (NonZero new) => ["Rewrite commit " +:+ desc old; "           as " +:+ desc new]
  | RewriteEvent _ _ Zero Zero => ["Empty rewrite event."; empty_event_message]
  | SnapshotEvent _ _ (NonZero head) o (Some name) =>
      ["Restore snapshot for " +:+ friendly_ref name; "         pointing to " +:+ desc head; "     backed up using " +:+ desc o]
  | SnapshotEvent _ _ (NonZero head) o None => ["Restore snapshot for " +:+ desc head; "     backed up using " +:+ desc o]
  | SnapshotEvent _ _ Zero o (Some name) => ["Restore snapshot for " +:+ friendly_ref name; "     backed up using " +:+ desc o]
  | SnapshotEvent _ _ Zero o None => ["Restore snapshot backed up using " +:+ desc o]
  end.

(** [describe_events_numbered] (git-branchless-undo/src/lib.rs:404-428), from number [i] on. *)
Fixpoint describe_from (desc : oid -> string) (i : Z) (es : list event) : list string :=
  match es with
  | [] => []
  | e :: es' =>
      let num_header := isize_to_string i +:+ ". " in
      match describe_event desc e with
      | [] => []
      | first :: more => (num_header +:+ first) :: List.map (fun l => spaces (String.length num_header) +:+ l) more
      end ++ describe_from desc (i + 1) es'
  end.
Definition describe_events_numbered (desc : oid -> string) (es : list event) : list string := describe_from desc 1 es.

(** [read_line]: up to the end of the first line (called at
    git-branchless-undo/src/lib.rs:833-846). *)
Fixpoint first_line (s : string) : string :=
  match s with
  | EmptyString => ""
  | String c s' => if Ascii.eqb c LF then String c "" else String c (first_line s')
  end.
(** Whether the user agrees (git-branchless-undo/src/lib.rs:833-846); [input] is what can be
    read, [None] if it cannot. *)
Definition answer (skip_confirmation : bool) (input : option string) : bool :=
  skip_confirmation ||
  match input with
  | Some s => let user_input := trim (first_line s) in String.eqb user_input "y" || String.eqb user_input "Y"
  | None => false
  end.
