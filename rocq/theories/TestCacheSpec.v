(** What kept test results, the options of [git test] and its hints should do. *)
From Verif Require Import Base TextModel SnapModel TestCacheModel.
Local Open Scope string_scope.

(** ** Results *)

(** What a command that ended with [code] tells the user, per the documentation
    of exit codes: 0 passes, 125 skips, 127 aborts, anything else fails.  The
    flag for an answer that was kept is free. *)
Definition contents_left (a : left_behind) (t : option oid) : Prop :=
  match t with
  | Some t => (lb_changes a = NoChanges \/ lb_changes a = Unstaged) /\ lb_tree a = NonZero t
  | None => lb_changes a = Staged \/ lb_changes a = Conflicts \/ lb_tree a = Zero
  end.
Inductive tells_of (code : Z) (a : left_behind) (interactive cached : bool) : outcome -> Prop :=
| Tells_pass t : code = 0%Z -> contents_left a t ->
    tells_of code a interactive cached (OPassed cached (mk_fi (lb_head a) t) interactive)
| Tells_skip : code = 125%Z -> tells_of code a interactive cached (OIndeterminate 125)
| Tells_abort : code = 127%Z -> tells_of code a interactive cached (OAbort 127)
| Tells_fail : code <> 0%Z -> code <> 125%Z -> code <> 127%Z ->
    tells_of code a interactive cached (OFailed cached code interactive).

(** The command is run: if it were killed, that is what would be reported. *)
Definition command_runs (busy : gset (oid * string)) (o : run_options) (tree : oid) (k : cache) : Prop :=
  (run_test busy o tree Killed k).1 = OSignalled.

(** Nothing in [h] throws the results for [tree] away. *)
Definition not_cleaned (tree : oid) (h : list op) : Prop :=
  forall trees, Clean trees ∈ h -> tree ∉ trees.

(** Names are as the object store makes them. *)
Definition good_op (x : op) : Prop :=
  match x with
  | Run _ _ _ (Exited _ a) =>
      (forall o, lb_head a = Some o -> oid_ok o) /\ (forall o, lb_tree a = NonZero o -> oid_ok o)
  | _ => True
  end.

(** [h] holds a run of a command with the slug [s] on [tree] that used the
    cache, really ran the command, and saw it exit with [code]; its result has
    not been thrown away since. *)
Definition ran_before (h : list op) (tree : oid) (s : string) (code : Z) (a : left_behind) (interactive : bool)
    (command : string) : Prop :=
  exists h1 busy h2, h = (h1 ++ Run busy (mk_ro command true interactive) tree (Exited code a) :: h2)%list
  /\ slug command = s /\ command_runs busy (mk_ro command true interactive) tree (cache_after h1)
  /\ not_cleaned tree h2.

(** [h] holds a run that was stopped while it wrote its result. *)
Definition torn_before (h : list op) (tree : oid) (s : string) : Prop :=
  exists h1 busy o h2, h = (h1 ++ CutShort busy o tree true :: h2)%list
  /\ slug (ro_command o) = s /\ ro_cache o = true /\ not_cleaned tree h2.

(** A command in whose slug nothing is lost. *)
Fixpoint plain (s : string) : Prop :=
  match s with
  | EmptyString => True
  | String c s' => c <> "/"%char /\ c <> "010"%char /\ c <> "_"%char /\ plain s'
  end.

(** ** Quoting *)

(** What a POSIX shell takes for the rest of a double-quoted word: [None] if
    the word is not complete, is followed by something, or holds an expansion. *)
Fixpoint in_quotes (s : string) : option string :=
  match s with
  | EmptyString => None
  | String c s' =>
      if Ascii.eqb c "034" then match s' with EmptyString => Some EmptyString | _ => None end
      else if (Ascii.eqb c "$" || Ascii.eqb c "`")%bool then None
      else if Ascii.eqb c "092" then
        match s' with
        | EmptyString => None
        | String d s'' =>
            if (Ascii.eqb d "$" || Ascii.eqb d "`" || Ascii.eqb d "034" || Ascii.eqb d "092")%bool
            then option_map (String d) (in_quotes s'')
            else if Ascii.eqb d "010" then in_quotes s''
            else option_map (fun r => String c (String d r)) (in_quotes s'')
        end
      else option_map (String c) (in_quotes s')
  end.
Definition shell_reads (s : string) : option string :=
  match s with
  | String c s' => if Ascii.eqb c "034" then in_quotes s' else None
  | EmptyString => None
  end.

Fixpoint without (bad : list ascii) (s : string) : Prop :=
  match s with
  | EmptyString => True
  | String c s' => c ∉ bad /\ without bad s'
  end.
Fixpoint doubled (s : string) : string :=
  match s with
  | EmptyString => EmptyString
  | String c s' => if Ascii.eqb c "092" then String c (String c (doubled s')) else String c (doubled s')
  end.
