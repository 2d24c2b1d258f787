(** Model of how the name by which the program was called becomes a command
    (git-branchless-opts/src/lib.rs:999-1059), as on Unix, where programs have no
    suffix. *)
From Verif Require Import Base StrModel Utf8Model.
Local Open Scope string_scope.
Local Open Scope list_scope.

(** Rust's [Path::file_name]: the last part of a path, after parts that are empty or a
    single dot are left out; nothing if it is two dots. *)
Definition path_parts (p : string) : list string :=
  List.filter (fun x => negb (String.eqb x "" || String.eqb x ".")) (split_on "/" p).
Definition file_name (p : string) : option string :=
  match last (path_parts p) with
  | Some x => if String.eqb x ".." then None else Some x
  | None => None
  end.
(** [OsStr::to_str]. *)
Definition to_str (s : string) : option string := if utf8 s then Some s else None.

(** The part after the name of the program is known (git-branchless-opts/src/lib.rs:1021-1056):
    the name [exe_name] is looked at again, not the arguments made of it. *)
Definition named_args (exe_name : string) (rest : list string) : list string :=
  match strip_prefix "git-branchless-" exe_name with
  | Some subcommand => "git-branchless" :: subcommand :: rest
  | None => exe_name :: rest
  end.
Definition hook_args (exe_name : string) (args : list string) : list string :=
  match args with
  | first :: subcommand :: rest =>
      if String.eqb exe_name "git-branchless" then
        match (match to_str subcommand with Some arg => strip_prefix "hook-" arg | None => None end) with
        | Some hook_subcommand => first :: "hook" :: hook_subcommand :: rest
        | None => first :: subcommand :: rest
        end
      else args
  | _ => args
  end.
(** [rewrite_args] (git-branchless-opts/src/lib.rs:999-1059). *)
Definition rewrite_args (args : list string) : list string :=
  match args with
  | [] => args
  | first_arg :: rest =>
      match (match file_name first_arg with Some n => to_str n | None => None end) with
      | None => args
      | Some exe_name => hook_args exe_name (named_args exe_name rest)
      end
  end.
