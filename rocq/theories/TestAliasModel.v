(** Model of which command [git test] runs (git-branchless-test/src/lib.rs:148-201 and
    244-268), and of the keys of Git's configuration that aliases are kept under.

    Simplified: the configuration has one value for a key, and of its keys only those
    that begin with [branchless.] are here; the aliases listed after the advice, and how a
    shell reads the advice, are not modelled. *)
From Verif Require Import Base StatusModel.
Local Open Scope string_scope.
Local Open Scope list_scope.

(** Keys are read by Git ([git_config_parse_key]) and by libgit2
    ([git_config__normalize_name]), which [Config::get] (git-branchless-lib/src/git/config.rs:198-200)
    calls.  What is after the last dot is the name. *)
Fixpoint split_last (l : list ascii) : option (list ascii * list ascii) :=
  match l with
  | [] => None
  | c :: l' =>
      match split_last l' with
      | Some (a, b) => Some (c :: a, b)
      | None => if Ascii.eqb c "." then Some ([], l') else None
      end
  end.

(** Not the program's: C's [isalpha], [isalnum], [tolower] as Git uses them
    (called for git-branchless-lib/src/git/config.rs:198-200). *)
Definition key_alpha (c : ascii) : bool := (in_range 65 90 c || in_range 97 122 c)%bool.
Definition key_alnum (c : ascii) : bool := (key_alpha c || is_digit c)%bool.
Definition key_lower (c : ascii) : ascii := if in_range 65 90 c then ascii_of_N (N_of_ascii c + 32) else c.

(** Names have letters, digits and hyphens.  The first is a letter for Git; libgit2 also
    takes a digit there (called for git-branchless-lib/src/git/config.rs:198-200). *)
Definition name_valid (git : bool) (name : list ascii) : bool :=
  match name with
  | [] => false
  | c :: _ => ((if git then key_alpha c else key_alnum c) && forallb (fun c => key_alnum c || Ascii.eqb c "-") name)%bool
  end.

(** A key as it is compared: the name in lower case, and what is before it, without
    newlines (called for git-branchless-lib/src/git/config.rs:198-200). *)
Notation config_key := (list ascii * list ascii)%type.
Definition newline : ascii := ascii_of_N 10.
Definition normal_key (git : bool) (key : list ascii) : option config_key :=
  match split_last key with
  | Some (sub, name) =>
      if (name_valid git name && negb (existsb (Ascii.eqb newline) sub))%bool then Some (sub, List.map key_lower name) else None
  | None => None
  end.

(** The key of an alias, after [branchless.] (git-branchless-test/src/lib.rs:154). *)
Definition alias_prefix : list ascii := list_ascii_of_string "test.alias.".
Definition alias_key (alias : option string) : list ascii :=
  alias_prefix ++ list_ascii_of_string match alias with Some a => a | None => "default" end.

(** The configuration (git-branchless-lib/src/git/config.rs:192-219). *)
Notation config := (gmap config_key string).
(** [config.get(..).unwrap_or_default()] (git-branchless-test/src/lib.rs:155): keys that
    are no keys are not set. *)
Definition config_get (cfg : config) (key : list ascii) : option string :=
  match normal_key false key with Some k => cfg !! k | None => None end.
(** [git config <key> <value>], which the advice (git-branchless-test/src/lib.rs:161-184)
    tells to run; [None] if Git refuses the key. *)
Definition git_config (cfg : config) (key : list ascii) (value : string) : option config :=
  match normal_key true key with Some k => Some (<[k := value]> cfg) | None => None end.

(** What comes of the options: a command, or exit code 1 after the advice to run
    [git config] with a key, or a panic. *)
Inductive resolved := Command (command : string) | Advice (key : list ascii) | Unreachable.

(** [resolve_test_command_alias] (git-branchless-test/src/lib.rs:148-201). *)
Definition resolve_alias (cfg : config) (alias : option string) : resolved :=
  match config_get cfg (alias_key alias) with
  | Some command => Command command
  | None => Advice (alias_key alias)
  end.

(** [ResolvedTestOptions::resolve] (git-branchless-test/src/lib.rs:244-268); [shell] is the
    environment variable [SHELL]. *)
Definition resolve_command (cfg : config) (shell : option string) (exec alias : option string) (interactive : bool) : resolved :=
  match exec, alias with
  | Some command, None => Command command
  | None, None =>
      match interactive, shell with
      | true, Some sh => Command sh
      | _, _ => resolve_alias cfg None
      end
  | None, Some a => resolve_alias cfg (Some a)
  | Some _, Some _ => Unreachable
  end.
