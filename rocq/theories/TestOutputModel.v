(** Model of how the result of a test is shown, with what the command printed
    (git-branchless-test/src/lib.rs:84-105 and 864-1128).

    Styles are left out, as is the description of the commit at the end of the first
    line; the error in the text of a command that cannot be started is a parameter. *)
From Verif Require Import Base TextModel StrModel Utf8Model TestCacheModel.
Local Open Scope string_scope.
Local Open Scope list_scope.

(** [Verbosity], from the number of flags (git-branchless-test/src/lib.rs:84-105). *)
Inductive verbosity := VNone | VPartial | VFull.
Definition verbosity_of (flags : nat) : verbosity :=
  match flags with 0%nat => VNone | 1%nat => VPartial | _ => VFull end.

(** [get_icon] (git-branchless-test/src/lib.rs:866-877). *)
Inductive icon := Exclamation | Cross | CheckMark.
Definition icon_of (x : outcome) : icon :=
  match x with
  | OCheckoutFailed | OSpawnFailed | OInProgress | OReadCacheFailed | OSignalled | OIndeterminate _ => Exclamation
  | OFailed _ _ _ | OAbort _ => Cross
  | OPassed _ _ _ => CheckMark
  end.

(** [TestStatus::describe] (git-branchless-test/src/lib.rs:895-1007): what comes before the
    description of the commit, whose tree is [tree]. *)
Definition comma_join (l : list string) : string := String.concat ", " l.
Definition status_text (err : string) (apply_fixes : bool) (tree : moid) (x : outcome) : string :=
  match x with
  | OCheckoutFailed => "Failed to check out: "
  | OSpawnFailed => "Failed to spawn command: " +:+ err +:+ ": "
  | OSignalled => "Command terminated by signal: "
  | OInProgress => "Command already in progress? "
  | OReadCacheFailed => "Could not read cached command result: "
  | OIndeterminate code => "Exit code indicated to skip this commit (exit code " +:+ isize_to_string code +:+ "): "
  | OAbort code => "Exit code indicated to abort command (exit code " +:+ isize_to_string code +:+ "): "
  | OFailed cached code interactive =>
      "Failed (" +:+ comma_join ((if cached : bool then ["cached"] else []) ++ ["exit code " +:+ isize_to_string code] ++
        (if interactive : bool then ["interactive"] else [])) +:+ "): "
  | OPassed cached fixed interactive =>
      let words := (if cached : bool then ["cached"] else []) ++
        match fi_tree fixed, tree with
        | Some t, NonZero original =>
            if N.eqb t original then [] else [if apply_fixes then "fixed" else "fixable"]
        | _, _ => []
        end ++ (if interactive : bool then ["interactive"] else []) in
      "Passed" +:+ match words with [] => "" | _ => " (" +:+ comma_join words +:+ ")" end +:+ ": "
  end.

(** [abbreviate_lines] (git-branchless-test/src/lib.rs:1041-1080) of a file with what the
    command printed; [None] if it cannot be opened.  It must be UTF-8. *)
Definition context_lines : nat := 5.
Definition more_lines (n : nat) : string := "<" +:+ isize_to_string (Z.of_nat n) +:+ " more lines>".
Definition abbreviate_lines (v : verbosity) (file : option string) : list string :=
  let show all :=
    match (match file with Some s => if utf8 s then Some s else None | None => None end) with
    | None => ["<failed to read file>"]
    | Some contents =>
        let ls := lines contents in
        let missing := (length ls - 2 * context_lines)%nat in
        match ls with
        | [] => ["<no output>"]
        | _ =>
            if (Nat.eqb missing 0 || all)%bool then ls
            else firstn context_lines ls ++ [more_lines missing] ++ skipn (length ls - context_lines) ls
        end
    end in
  match v with VNone => [] | VPartial => show false | VFull => show true end.

(** Whether nothing was kept (git-branchless-test/src/lib.rs:1082-1093). *)
Definition was_interactive (x : outcome) : bool :=
  match x with OFailed _ _ i | OPassed _ _ i => i | _ => false end.
(** [TestOutput::describe] (git-branchless-test/src/lib.rs:1021-1128): the lines shown, the
    first being [description]; [out] and [err] are the paths and contents of the files. *)
Definition describe_output (v : verbosity) (x : outcome) (description : string) (out err : string * option string) : list string :=
  match v with
  | VNone => [description]
  | _ =>
      let part name (f : string * option string) :=
        if was_interactive x then [] else (name +:+ f.1) :: abbreviate_lines v f.2 in
      [description] ++ part "Stdout: " out ++ part "Stderr: " err
  end.
