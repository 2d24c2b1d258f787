(** Model of how a message is edited (git-branchless-reword/src/lib.rs:61-83,
    git-branchless-reword/src/dialoguer_edit.rs:59-160 and
    git-branchless-lib/src/core/config.rs:171-197).

    How the words of a command are split (the crate shell-words) and what the editor does
    are parameters.  Simplified: not on Windows; making the temporary file succeeds; all
    text is UTF-8. *)
From Verif Require Import Base StrModel RewordModel.
Local Open Scope string_scope.
Local Open Scope list_scope.

(** Where the editor is looked for: what [git var GIT_EDITOR] prints, if it succeeds;
    variables of the environment; [core.editor] in the configuration. *)
Record surroundings := mk_sur { git_var : option string; env_git_editor : option string; core_editor : option string;
                                env_visual : option string; env_editor : option string }.

(** [get_editor] (git-branchless-lib/src/core/config.rs:171-197). *)
Definition get_editor (w : surroundings) : option string :=
  match git_var w with
  | Some out => Some (trim_end out)
  | None => match env_git_editor w with Some e => Some e | None => core_editor w end
  end.

(** [get_default_editor] (git-branchless-reword/src/dialoguer_edit.rs:59-71). *)
Definition get_default_editor (w : surroundings) : string :=
  match env_visual w with
  | Some e => e
  | None => match env_editor w with Some e => e | None => "vi" end
  end.

(** The editor: it does not start, or it exits with or without success and leaves a
    text in the file, or none that can be read. *)
Inductive left_editor := NotStarted | Exited (success : bool) (file : option string).
(** What comes of it. *)
Inductive edited := Edited (s : string) | EditError | EditPanic.

(** [trim_end_matches] for line feeds and carriage returns
    (git-branchless-reword/src/dialoguer_edit.rs:153-156). *)
Definition is_newline (c : ascii) : bool := (Ascii.eqb c (ascii_of_nat 10) || Ascii.eqb c (ascii_of_nat 13))%bool.
Fixpoint trim_newlines (s : string) : string :=
  match s with
  | EmptyString => ""
  | String c s' => let t := trim_newlines s' in if (String.eqb t "" && is_newline c)%bool then "" else String c t
  end.

(** [Editor::edit] (git-branchless-reword/src/dialoguer_edit.rs:120-159), with [require_save]
    false, so that the exit code is not looked at, and [trim_newlines] true. *)
Definition edit (split : string -> option (list string)) (run : string -> list string -> string -> left_editor)
    (editor : string) (text : string) : edited :=
  let go cmd args :=
    match run cmd args text with
    | NotStarted => EditError
    | Exited _ None => EditError
    | Exited _ (Some s) => Edited (trim_newlines s)
    end in
  match split editor with
  | Some [] => EditPanic
  | Some (cmd :: args) => go cmd args
  | None => go editor []
  end.

(** [edit_message] (git-branchless-reword/src/lib.rs:63-83). *)
Definition edit_message (w : surroundings) (split : string -> option (list string))
    (run : string -> list string -> string -> left_editor) (message : string) : edited :=
  match get_editor w with
  | Some program => if String.eqb program ":" then Edited message else edit split run program message
  | None => edit split run (get_default_editor w) message
  end.

(** [prepare_messages] with this editor (git-branchless-reword/src/lib.rs:178-180); an
    error or a panic ends the command. *)
Definition prepare_with_editor (w : surroundings) (split : string -> option (list string))
    (run : string -> list string -> string -> left_editor) (cc : ascii) (im : initial_messages) (commits : list rcommit)
    : option prepared :=
  prepare_messages cc im commits
    (fun shown => match edit_message w split run shown with Edited s => Some s | EditError | EditPanic => None end).
