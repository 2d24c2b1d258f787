(** Model of installing git-branchless in a repository
    (git-branchless-init/src/lib.rs): hooks, aliases and the main branch.

    Files are their contents; a file that cannot be read as text is
    [Unreadable].  Directories, permissions, man pages and output are left out,
    and so is the test setup that runs every command as a binary of its own
    ([should_use_separate_command_binary]).  The set of local branches, the
    value of init.defaultBranch, the configuration of the user and the line
    typed by the user are given. *)
From Verif Require Import Base StrModel.
Local Open Scope string_scope.
Local Open Scope list_scope.

(** lib.rs:139-141 *)
Definition SHEBANG : string := "#!/bin/sh".
Definition MARKER_START : string := "## START BRANCHLESS CONFIG".
Definition MARKER_END : string := "## END BRANCHLESS CONFIG".
Definition NL : string := String LF "".

(** [append_hook] (lib.rs:143-149). *)
Definition append_hook (new_lines hook_contents : string) : string :=
  new_lines +:+ MARKER_START +:+ NL +:+ hook_contents +:+ MARKER_END +:+ NL.

(** [update_between_lines] (lib.rs:151-173): the loop, then the end. *)
Fixpoint update_loop (ls : list string) (updated new_lines : string) (found ignoring : bool) :
    string * bool * bool :=
  match ls with
  | [] => (new_lines, found, ignoring)
  | line :: ls' =>
    if String.eqb line MARKER_START then update_loop ls' updated (append_hook new_lines updated) true true
    else if String.eqb line MARKER_END then update_loop ls' updated new_lines found false
    else if negb ignoring then update_loop ls' updated (new_lines +:+ line +:+ NL) found ignoring
    else update_loop ls' updated new_lines found ignoring
  end.
Definition update_between_lines (text updated : string) : string :=
  let '(new_lines, found, ignoring) := update_loop (lines text) updated "" false false in
  if ignoring then new_lines
  else if negb found then append_hook new_lines updated
  else new_lines.

(** What [read_to_string] finds at a path (lib.rs:209-222). *)
Inductive hook_file := Missing | Text (s : string) | Unreadable.

(** [Hook] (lib.rs:107-121). *)
Inductive hook_kind := RegularHook | MultiHook.

(** [update_hook_contents] (lib.rs:207-230): the new contents, [None] if the file
    cannot be read. *)
Definition update_hook_contents (k : hook_kind) (f : hook_file) (hook_contents : string) : option string :=
  match k with
  | RegularHook =>
    match f with
    | Text s => Some (update_between_lines s hook_contents)
    | Missing =>
      Some (SHEBANG +:+ NL +:+ MARKER_START +:+ NL +:+ hook_contents +:+ NL +:+ MARKER_END +:+ NL)
    | Unreadable => None
    end
  | MultiHook => Some (SHEBANG +:+ NL +:+ hook_contents)
  end.

(** A double quote (lib.rs:40). *)
Definition q : string := String (ascii_of_N 34) "".
(** [ALL_HOOKS] (lib.rs:36-85). *)
Definition simple_hook (name : string) : string * string :=
  (name, unlines [""; "git branchless hook " +:+ name +:+ " " +:+ q +:+ "$@" +:+ q]).
Definition ALL_HOOKS : list (string * string) :=
  [simple_hook "post-applypatch"; simple_hook "post-checkout"; simple_hook "post-commit";
   simple_hook "post-merge"; simple_hook "post-rewrite"; simple_hook "pre-auto-gc";
   ("reference-transaction",
    unlines [""; "# Avoid canceling the reference transaction in the case that `branchless` fails";
             "# for whatever reason.";
             "git branchless hook reference-transaction " +:+ q +:+ "$@" +:+ q +:+ " || (";
             "echo 'branchless: Failed to process reference transaction!'";
             "echo 'branchless: Some events (e.g. branch updates) may have been lost.'";
             "echo 'branchless: This is a bug. Please report it.'"; ")"])].
(** The script of [uninstall_hooks] (lib.rs:292-295). *)
Definition UNINSTALLED : string :=
  unlines [""; "# This hook has been uninstalled."; "# Run `git branchless init` to reinstall."].

(** [install_hook] (lib.rs:233-242) over the files of the hooks, one for each
    name ([determine_hook_path], lib.rs:125-137, sends all hooks of a repository to
    files of one kind). *)
Definition hook_dir := string -> hook_file.
Definition write_file (d : hook_dir) (name s : string) : hook_dir :=
  fun n => if String.eqb n name then Text s else d n.
(** [install_hooks], [uninstall_hooks] (lib.rs:245-274, 276-299): the files and
    whether all went well. *)
Fixpoint install_each (k : hook_kind) (d : hook_dir) (hooks : list (string * string)) : hook_dir * bool :=
  match hooks with
  | [] => (d, true)
  | (name, script) :: hooks' =>
    match update_hook_contents k (d name) script with
    | Some s => install_each k (write_file d name s) hooks'
    | None => (d, false)
    end
  end.
Definition install_hooks (k : hook_kind) (d : hook_dir) : hook_dir * bool := install_each k d ALL_HOOKS.
Definition uninstall_hooks (k : hook_kind) (d : hook_dir) : hook_dir * bool :=
  install_each k d (List.map (fun h => (fst h, UNINSTALLED)) ALL_HOOKS).

(** [install_alias] (lib.rs:318-349): the configuration file of git-branchless,
    given the default configuration of the user. *)
Definition config_map := string -> option string.
Definition config_set (c : config_map) (key : string) (v : option string) : config_map :=
  fun k => if String.eqb k key then v else c k.
Definition install_alias (c user : config_map) (wrapped : bool) (from to : string) : config_map :=
  let key := "alias." +:+ from in
  let c := match c key with Some _ => config_set c key None | None => c end in
  match user key with
  | Some _ => c
  | None => config_set c key (Some (if wrapped then "branchless-" +:+ to else "branchless " +:+ to))
  end.
(** [ALL_ALIASES] (lib.rs:87-105) and the loop of [install_aliases]
    (lib.rs:386-388). *)
Definition ALL_ALIASES : list (string * string) :=
  [("amend", "amend"); ("hide", "hide"); ("move", "move"); ("next", "next"); ("prev", "prev");
   ("query", "query"); ("record", "record"); ("restack", "restack"); ("reword", "reword");
   ("sl", "smartlog"); ("smartlog", "smartlog"); ("submit", "submit"); ("sw", "switch");
   ("sync", "sync"); ("test", "test"); ("undo", "undo"); ("unhide", "unhide")].
Definition install_aliases (c user : config_map) (wrapped : bool) : config_map :=
  fold_left (fun c a => install_alias c user wrapped (fst a) (snd a)) ALL_ALIASES c.

(** [detect_main_branch_name] (lib.rs:352-376). *)
Definition MAIN_BRANCHES : list string :=
  ["master"; "main"; "mainline"; "devel"; "develop"; "development"; "trunk"].
Definition detect_main_branch_name (branch : string -> bool) (default : option string) : option string :=
  match default with
  | Some name => if branch name then Some name else List.find branch MAIN_BRANCHES
  | None => List.find branch MAIN_BRANCHES
  end.

(** The main branch chosen by [set_configs] (lib.rs:472-518), [None] being an
    error; [typed] is the line typed if asked. *)
Definition choose_main_branch (arg : option string) (branch : string -> bool) (default : option string)
    (typed : string) : option string :=
  match arg with
  | Some name => Some name
  | None =>
    match detect_main_branch_name branch default with
    | Some name => Some name
    | None => let name := trim typed in if String.eqb name "" then None else Some name
    end
  end.
