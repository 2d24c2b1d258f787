(** Model of revset evaluation (git-branchless-revset/src/eval.rs, builtins.rs,
    pattern.rs, resolve.rs).

    What the evaluator asks of the repository is gathered in [env].  Commits are
    assumed to be in the graph already: syncing a named commit into the graph
    (eval.rs:167-174) is not modelled.  Set queries, evaluated lazily in the
    code, are evaluated eagerly. *)
From Verif Require Import Base TextModel EventLogModel EvolveModel DagModel RevsetSyntaxModel.
From Coq Require Import DecimalString.
Local Open Scope string_scope.
Local Open Scope list_scope.

(** [Pattern] (pattern.rs:20-27).  A compiled glob or regular expression is the
    set of texts it matches; a date is a time stamp. *)
Inductive pattern :=
| PExact (s : string)
| PSubstring (s : string)
| PGlob (m : string -> bool)
| PRegex (m : string -> bool)
| PBefore (t : Z)
| PAfter (t : Z).

(** What is read from a commit; [None] for text that is not UTF-8 or a time that
    cannot be converted. *)
Record commit_info := mk_commit_info {
  ci_message : option string;
  ci_paths : list (option string);
  ci_author_name : option string;
  ci_author_email : option string;
  ci_author_time : option Z;
  ci_committer_name : option string;
  ci_committer_email : option string;
  ci_committer_time : option Z;
  ci_tree : moid;
  ci_tests : list (string * Z * option oid) }.

(** The repository as seen by the evaluator. *)
Record env := mk_env {
  env_head : option oid;
  env_revparse : string -> option oid;
  env_dag : dag;
  env_replayer : replayer;
  env_alias : string -> option string;
  env_info : oid -> commit_info;
  env_branch_names : oid -> list refname;
  env_glob : string -> option (string -> bool);
  env_regex : string -> option (string -> bool);
  env_date : string -> option Z;
  env_latest_test : option string }.

(** [EvalError] (eval.rs:29-98); the last case is the model running out of
    fuel. *)
Inductive eval_error :=
| UnboundName (n : string)
| UnboundFunction (n : string)
| ArityMismatch (n : string) (expected : list nat) (actual : nat)
| UnexpectedSetLength (expected : Z) (actual : nat)
| ParseAlias (alias : string)
| ParseInt (s : string)
| ExpectedNumberNotFunction (f : string)
| ExpectedPatternNotFunction (f : string)
| NoLatestTestCommand
| PatternFailed (p : string)
| OutOfFuel.
Inductive result A := Ok (a : A) | Err (e : eval_error).
Arguments Ok {A}. Arguments Err {A}.
Definition rbind {A B} (r : result A) (k : A -> result B) : result B :=
  match r with Ok a => k a | Err e => Err e end.
Notation "'let?' x := r 'in' k" := (rbind r (fun x => k)) (at level 200, x pattern, r at level 100, k at level 200).

(** Rust's [str::contains]. *)
Fixpoint contains (p s : string) : bool :=
  starts_with p s ||
  match s with
  | EmptyString => false
  | String _ s' => contains p s'
  end.
Definition newline : ascii := ascii_of_N 10.
(** [str::strip_suffix] of one newline, or the text itself (pattern.rs:52). *)
Fixpoint strip_newline (s : string) : string :=
  match s with
  | EmptyString => ""
  | String c EmptyString => if Ascii.eqb c newline then "" else s
  | String c s' => String c (strip_newline s')
  end.

(** [Pattern::matches_text] (pattern.rs:51-60). *)
Definition matches_text (p : pattern) (subject : string) : bool :=
  let subject := strip_newline subject in
  match p with
  | PExact s => String.eqb s subject
  | PSubstring s => contains s subject
  | PGlob m => m subject
  | PRegex m => m subject
  | PBefore _ | PAfter _ => false
  end.

(** [Pattern::matches_date] (pattern.rs:62-76). *)
Definition matches_date (p : pattern) (time : option Z) : bool :=
  match p with
  | PExact _ | PSubstring _ | PGlob _ | PRegex _ => false
  | PBefore d => match time with Some t => Z.leb t d | None => false end
  | PAfter d => match time with Some t => Z.leb d t | None => false end
  end.

(** [Pattern::new] (pattern.rs:78-125). *)
Definition pattern_new (v : env) (s : string) : result pattern :=
  match strip_prefix "exact:" s with
  | Some p => Ok (PExact p)
  | None =>
  match strip_prefix "substring:" s with
  | Some p => Ok (PSubstring p)
  | None =>
  match strip_prefix "substr:" s with
  | Some p => Ok (PSubstring p)
  | None =>
  match strip_prefix "glob:" s with
  | Some p => match env_glob v p with Some m => Ok (PGlob m) | None => Err (PatternFailed s) end
  | None =>
  match strip_prefix "regex:" s with
  | Some p => match env_regex v p with Some m => Ok (PRegex m) | None => Err (PatternFailed s) end
  | None =>
  match strip_prefix "before:" s with
  | Some p => match env_date v p with Some t => Ok (PBefore t) | None => Err (PatternFailed s) end
  | None =>
  match strip_prefix "after:" s with
  | Some p => match env_date v p with Some t => Ok (PAfter t) | None => Err (PatternFailed s) end
  | None => Ok (PSubstring s)
  end end end end end end end.

(** [FUNCTIONS] (builtins.rs:29-71). *)
Inductive builtin :=
| BAll | BNone | BUnion | BIntersection | BDifference | BOnly | BRange | BNot
| BAncestors | BAncestorsNth | BDescendants | BParents | BParentsNth | BChildren | BSiblings
| BRoots | BHeads | BBranches | BMain | BPublic | BDraft | BStack
| BMessage | BPathsChanged | BAuthorName | BAuthorEmail | BAuthorDate
| BCommitterName | BCommitterEmail | BCommitterDate
| BExactly | BCurrent | BMerges | BTestsPassed | BTestsFailed | BTestsFixable.
Definition functions : list (string * builtin) :=
  [("all", BAll); ("none", BNone); ("union", BUnion); ("intersection", BIntersection);
   ("difference", BDifference); ("only", BOnly); ("range", BRange); ("not", BNot);
   ("ancestors", BAncestors); ("ancestors.nth", BAncestorsNth); ("descendants", BDescendants);
   ("parents", BParents); ("parents.nth", BParentsNth); ("children", BChildren);
   ("siblings", BSiblings); ("roots", BRoots); ("heads", BHeads); ("branches", BBranches);
   ("main", BMain); ("public", BPublic); ("draft", BDraft); ("stack", BStack);
   ("message", BMessage); ("paths.changed", BPathsChanged); ("author.name", BAuthorName);
   ("author.email", BAuthorEmail); ("author.date", BAuthorDate);
   ("committer.name", BCommitterName); ("committer.email", BCommitterEmail);
   ("committer.date", BCommitterDate); ("exactly", BExactly); ("current", BCurrent);
   ("merges", BMerges); ("tests.passed", BTestsPassed); ("tests.failed", BTestsFailed);
   ("tests.fixable", BTestsFixable)].
Fixpoint assoc {A} (n : string) (l : list (string * A)) : option A :=
  match l with
  | [] => None
  | (k, a) :: l' => if String.eqb k n then Some a else assoc n l'
  end.
Definition find_function (n : string) : option builtin := assoc n functions.

(** [eval_name] (eval.rs:139-176). *)
Definition eval_name (v : env) (n : string) : result commit_set :=
  if String.eqb n "." || String.eqb n "@" then
    Ok (match env_head v with Some o => {[o]} | None => ∅ end)
  else match env_revparse v n with
       | Some o => Ok {[o]}
       | None => Err (UnboundName n)
       end.

(** Rust's [str::parse::<usize>], 64 bits wide: digits with an optional plus
    sign. *)
Definition usize_from_string (s : string) : option Z :=
  let s := match s with
           | String c s' => if Ascii.eqb c "+" then s' else s
           | EmptyString => s
           end in
  match NilZero.uint_of_string s with
  | Some u => let z := Z.of_N (N.of_uint u) in if Z.ltb z (2 ^ 64) then Some z else None
  | None => None
  end.

Section eval.
  (** [eval_inner] with less fuel. *)
  Variable ev : env -> expr -> result commit_set.

  (** [eval0] (eval.rs:213-227), [eval0_or_1] (230-247), [eval1] (250-263),
      [eval1_pattern] (283-301), [eval0_or_1_pattern] (266-280), [eval2]
      (304-322), [eval_number_rhs] (325-347). *)
  Definition eval0 (name : string) (args : list expr) : result unit :=
    match args with
    | [] => Ok tt
    | _ => Err (ArityMismatch name [0] (length args))
    end.
  Definition eval0_or_1 (v : env) (name : string) (args : list expr) : result (option commit_set) :=
    match args with
    | [] => Ok None
    | [e] => let? s := ev v e in Ok (Some s)
    | _ => Err (ArityMismatch name [0; 1] (length args))
    end.
  Definition eval1 (v : env) (name : string) (args : list expr) : result commit_set :=
    match args with
    | [e] => ev v e
    | _ => Err (ArityMismatch name [1] (length args))
    end.
  Definition eval1_pattern (v : env) (name : string) (args : list expr) : result pattern :=
    match args with
    | [Name p] => pattern_new v p
    | [Call f _] => Err (ExpectedPatternNotFunction f)
    | _ => Err (ArityMismatch name [1] (length args))
    end.
  Definition eval0_or_1_pattern (v : env) (name : string) (args : list expr)
    : result (option pattern) :=
    match args with
    | [] => Ok None
    | [_] => let? p := eval1_pattern v name args in Ok (Some p)
    | _ => Err (ArityMismatch name [0; 1] (length args))
    end.
  Definition eval2 (v : env) (name : string) (args : list expr) : result (commit_set * commit_set) :=
    match args with
    | [l; r] => let? s1 := ev v l in let? s2 := ev v r in Ok (s1, s2)
    | _ => Err (ArityMismatch name [2] (length args))
    end.
  Definition eval_number_rhs (v : env) (name : string) (args : list expr) : result (commit_set * Z) :=
    match args with
    | [l; Name n] =>
        let? s := ev v l in
        match usize_from_string n with
        | Some z => Ok (s, z)
        | None => Err (ParseInt n)
        end
    | [_; Call f _] => Err (ExpectedNumberNotFunction f)
    | _ => Err (ArityMismatch name [2] (length args))
    end.

  (** [make_pattern_matcher] and [make_pattern_matcher_set] (builtins.rs:300-339,
      pattern.rs:133-249): filter the visible commits. *)
  Definition filter_set (f : oid -> bool) (s : commit_set) : commit_set :=
    list_to_set (List.filter f (elements s)).
  Definition matching (v : env) (f : commit_info -> bool) : result commit_set :=
    Ok (filter_set (fun o => f (env_info v o)) (visible_commits (env_dag v))).
  Definition opt_matches (p : pattern) (s : option string) : bool :=
    match s with Some s => matches_text p s | None => false end.

  (** [eval_test_command_pattern] (builtins.rs:584-597). *)
  Definition test_pattern (v : env) (name : string) (args : list expr) : result pattern :=
    let? p := eval0_or_1_pattern v name args in
    match p with
    | Some p => Ok p
    | None => match env_latest_test v with
              | Some c => Ok (PExact c)
              | None => Err NoLatestTestCommand
              end
    end.

  (** The environment of the argument of [current] (builtins.rs:507-515). *)
  Definition with_hidden (v : env) : env :=
    mk_env (env_head v) (env_revparse v) (clear_obsolete (env_dag v)) (env_replayer v) (env_alias v)
      (env_info v) (env_branch_names v) (env_glob v) (env_regex v) (env_date v) (env_latest_test v).

  (** The loop of [fn_current] (builtins.rs:531-546); the error stands for exhausted
      fuel of the lookup. *)
  Fixpoint rewrite_targets (v : env) (os : list oid) : result (list oid) :=
    match os with
    | [] => Ok []
    | o :: os' =>
        match find_rewrite_target (env_replayer v) (default_cursor (env_replayer v)) o with
        | None => Err OutOfFuel
        | Some m =>
            let? rest := rewrite_targets v os' in
            Ok (match m with
                | Some (NonZero o') => o' :: rest
                | Some Zero => rest
                | None => o :: rest
                end)
        end
    end.

  (** The functions [fn_all] to [fn_tests_fixable] (builtins.rs:74-687), in the order
      of the file where not forced otherwise. *)
  Definition eval_builtin (v : env) (b : builtin) (name : string) (args : list expr)
    : result commit_set :=
    let d := env_dag v in
    let g := dag_graph d in
    match b with
    | BAll => let? _ := eval0 name args in Ok (filter_visible d (ancestors g (visible_heads d)))
    | BNone => let? _ := eval0 name args in Ok ∅
    | BUnion => let? (l, r) := eval2 v name args in Ok (l ∪ r)
    | BIntersection => let? (l, r) := eval2 v name args in Ok (l ∩ r)
    | BDifference => let? (l, r) := eval2 v name args in Ok (l ∖ r)
    | BOnly => let? (l, r) := eval2 v name args in Ok (only g l r)
    | BRange => let? (l, r) := eval2 v name args in Ok (range g l r)
    | BNot => let? s := eval1 v name args in Ok (ancestors g (visible_heads d) ∖ s)
    | BAncestors => let? s := eval1 v name args in Ok (ancestors g s)
    | BDescendants => let? s := eval1 v name args in Ok (descendants g s)
    | BParents => let? s := eval1 v name args in Ok (parents g s)
    | BChildren => let? s := eval1 v name args in Ok (children g s)
    | BSiblings => let? s := eval1 v name args in Ok (children g (parents g s) ∖ s)
    | BRoots => let? s := eval1 v name args in Ok (roots g s)
    | BHeads => let? s := eval1 v name args in Ok (heads g s)
    | BBranches =>
        let? p := eval0_or_1_pattern v name args in
        match p with
        | None => Ok (branch_commits d)
        | Some p =>
            Ok (filter_set (fun o => existsb (fun n => match strip_prefix "refs/heads/" n with
                                                       | Some suffix => matches_text p suffix
                                                       | None => false
                                                       end) (env_branch_names v o))
                  (branch_commits d))
        end
    | BParentsNth =>
        let? (s, n) := eval_number_rhs v name args in
        Ok (list_to_set (flat_map (fun o =>
              if Z.leb 1 n then
                match nth_error (parents_of g o) (Z.to_nat (n - 1)) with
                | Some p => [p]
                | None => []
                end
              else []) (elements s)))
    | BAncestorsNth =>
        let? (s, n) := eval_number_rhs v name args in
        Ok (list_to_set (flat_map (fun o => match first_ancestor_nth g o (Z.to_nat n) with
                                            | Some a => [a]
                                            | None => []
                                            end) (elements s)))
    | BMain => let? _ := eval0 name args in Ok (main_branch_commit d)
    | BPublic => let? _ := eval0 name args in Ok (public_commits d)
    | BDraft => let? _ := eval0 name args in Ok (draft_commits d)
    | BStack =>
        let? s := eval0_or_1 v name args in
        Ok (stack_commits d (match s with Some s => s | None => head_commit d end))
    | BMessage => let? p := eval1_pattern v name args in
        matching v (fun i => opt_matches p (ci_message i))
    | BPathsChanged => let? p := eval1_pattern v name args in
        matching v (fun i => existsb (opt_matches p) (ci_paths i))
    | BAuthorName => let? p := eval1_pattern v name args in
        matching v (fun i => opt_matches p (ci_author_name i))
    | BAuthorEmail => let? p := eval1_pattern v name args in
        matching v (fun i => opt_matches p (ci_author_email i))
    | BAuthorDate => let? p := eval1_pattern v name args in
        matching v (fun i => matches_date p (ci_author_time i))
    | BCommitterName => let? p := eval1_pattern v name args in
        matching v (fun i => opt_matches p (ci_committer_name i))
    | BCommitterEmail => let? p := eval1_pattern v name args in
        matching v (fun i => opt_matches p (ci_committer_email i))
    | BCommitterDate => let? p := eval1_pattern v name args in
        matching v (fun i => matches_date p (ci_committer_time i))
    | BExactly =>
        let? (s, n) := eval_number_rhs v name args in
        if Z.eqb (Z.of_nat (size s)) n then Ok s else Err (UnexpectedSetLength n (size s))
    | BCurrent =>
        let v' := with_hidden v in
        let? s := eval1 v' name args in
        let? os := rewrite_targets v' (elements s) in
        Ok (list_to_set os)
    | BMerges =>
        let? _ := eval0 name args in
        Ok (filter_set (fun o => Nat.ltb 1 (length (parents_of g o))) (visible_commits d))
    | BTestsPassed => let? p := test_pattern v name args in
        matching v (fun i => existsb (fun t => match t with (command, exit_code, _) =>
          Z.eqb exit_code 0 && matches_text p command end) (ci_tests i))
    | BTestsFailed => let? p := test_pattern v name args in
        matching v (fun i => existsb (fun t => match t with (command, exit_code, _) =>
          negb (Z.eqb exit_code 0) && negb (Z.eqb exit_code 125) && negb (Z.eqb exit_code 127)
          && matches_text p command end) (ci_tests i))
    | BTestsFixable => let? p := test_pattern v name args in
        matching v (fun i => existsb (fun t => match t with (command, exit_code, tree) =>
          Z.eqb exit_code 0 && matches_text p command &&
          match tree, ci_tree i with
          | Some t1, NonZero t2 => negb (N.eqb t1 t2)
          | _, _ => false
          end end) (ci_tests i))
    end.

  (** The map from placeholders to arguments (eval.rs:196-200). *)
  Definition placeholder (i : nat) : string := "$" +:+ NilZero.string_of_uint (Nat.to_uint i).
  Fixpoint arg_map (i : nat) (args : list expr) : gmap string expr :=
    match args with
    | [] => ∅
    | a :: args' => <[placeholder i := a]> (arg_map (S i) args')
    end.

  (** [eval_fn] (eval.rs:179-210). *)
  Definition eval_fn (v : env) (name : string) (args : list expr) : result commit_set :=
    match find_function name with
    | Some b => eval_builtin v b name args
    | None =>
        match env_alias v name with
        | Some template =>
            match parse template with
            | None => Err (ParseAlias template)
            | Some e => ev v (replace_names (arg_map 1 args) e)
            end
        | None => Err (UnboundFunction name)
        end
    end.

  (** [eval_inner] (eval.rs:124-136). *)
  Definition eval_inner (v : env) (e : expr) : result commit_set :=
    match e with
    | Name n => eval_name v n
    | Call f args => let? s := eval_fn v f args in Ok (filter_visible (env_dag v) s)
    end.
End eval.

(** [eval] (eval.rs:110-121).  The recursion of the code is bounded only by the
    stack: an alias may call itself. *)
Fixpoint eval (fuel : nat) (v : env) (e : expr) : result commit_set :=
  match fuel with
  | O => Err OutOfFuel
  | S fuel' => eval_inner (eval fuel') v e
  end.

(** [resolve_commits] (resolve.rs:74-117) for one revset text: what Git can
    resolve is taken as is, then the text is parsed and evaluated. *)
Inductive resolve_result := Resolved (s : commit_set) | ParseFailed | EvalFailed (e : eval_error).
Definition resolve_commit (fuel : nat) (v : env) (show_hidden : bool) (text : string) : resolve_result :=
  let v := if show_hidden then with_hidden v else v in
  match env_revparse v text with
  | Some o => Resolved {[o]}
  | None =>
      match parse text with
      | None => ParseFailed
      | Some e => match eval fuel v e with Ok s => Resolved s | Err err => EvalFailed err end
      end
  end.
