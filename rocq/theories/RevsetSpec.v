(** The documented meaning of revsets, as sets of commits described through the
    commit graph, the event log and the texts of the commits. *)
From Verif Require Import Base TextModel EventLogModel EvolveModel EventLogSpec EvolveSpec DagModel DagSpec
  RevsetSyntaxModel RevsetModel.
From Coq Require Import DecimalString.
Local Open Scope string_scope.
Local Open Scope list_scope.

(** ** Numbers and patterns *)

(** A decimal numeral, with an optional plus sign, that fits 64 bits. *)
Definition number (s : string) (z : Z) : Prop :=
  exists u, u <> Decimal.Nil /\ (s = NilZero.string_of_uint u \/ s = "+" +:+ NilZero.string_of_uint u) /\
    z = Z.of_N (N.of_uint u) /\ (z < 2 ^ 64)%Z.

(** The prefixes that select a kind of pattern. *)
Definition prefixes : list string :=
  ["exact:"; "substring:"; "substr:"; "glob:"; "regex:"; "before:"; "after:"].
Inductive pattern_text (v : env) : string -> pattern -> Prop :=
| pt_exact x : pattern_text v ("exact:" +:+ x) (PExact x)
| pt_substring x : pattern_text v ("substring:" +:+ x) (PSubstring x)
| pt_substr x : pattern_text v ("substr:" +:+ x) (PSubstring x)
| pt_glob x m : env_glob v x = Some m -> pattern_text v ("glob:" +:+ x) (PGlob m)
| pt_regex x m : env_regex v x = Some m -> pattern_text v ("regex:" +:+ x) (PRegex m)
| pt_before x t : env_date v x = Some t -> pattern_text v ("before:" +:+ x) (PBefore t)
| pt_after x t : env_date v x = Some t -> pattern_text v ("after:" +:+ x) (PAfter t)
| pt_none x : (forall p y, p ∈ prefixes -> x <> p +:+ y) -> pattern_text v x (PSubstring x).

(** [body] is [text] without one newline at its end. *)
Definition without_newline (text body : string) : Prop :=
  text = body +:+ String newline "" \/ (text = body /\ forall x, text <> x +:+ String newline "").

(** Texts and times a pattern selects. *)
Definition selects (p : pattern) (text : string) : Prop :=
  exists body, without_newline text body /\
  match p with
  | PExact s => body = s
  | PSubstring s => exists before after, body = before +:+ s +:+ after
  | PGlob m | PRegex m => m body = true
  | PBefore _ | PAfter _ => False
  end.
Definition selects_time (p : pattern) (time : option Z) : Prop :=
  match p, time with
  | PBefore d, Some t => (t <= d)%Z
  | PAfter d, Some t => (d <= t)%Z
  | _, _ => False
  end.

(** ** Sets of commits *)

(** [n] steps to the first parent. *)
Inductive first_parents (g : graph) : nat -> oid -> oid -> Prop :=
| fp_0 o : first_parents g 0 o o
| fp_S n o p ps a : (o, p :: ps) ∈ g -> first_parents g n p a -> first_parents g (S n) o a.

(** The stack of a set: draft commits that share a draft ancestor with it. *)
Definition in_stack (d : dag) (A : oid -> Prop) (o : oid) : Prop :=
  exists a x, visible d a /\ ~ public d a /\ A x /\ ancestor (dag_graph d) a x /\
    ancestor (dag_graph d) a o /\ visible d o /\ ~ public d o.

(** Functions without arguments. *)
Definition doc0 (v : env) (f : string) (o : oid) : option Prop :=
  let d := env_dag v in
  if String.eqb f "all" then Some (visible d o)
  else if String.eqb f "none" then Some False
  else if String.eqb f "main" then Some (o ∈ main_branch_commit d)
  else if String.eqb f "public" then Some (public d o)
  else if String.eqb f "draft" then Some (visible d o /\ ~ public d o)
  else if String.eqb f "branches" then Some (o ∈ branch_commits d)
  else if String.eqb f "stack" then Some (in_stack d (fun x => x ∈ head_commit d) o)
  else if String.eqb f "merges" then
    Some (visible d o /\ exists p q ps, (o, p :: q :: ps) ∈ dag_graph d)
  else None.

(** Functions of one set. *)
Definition doc1 (v : env) (f : string) (A : oid -> Prop) (o : oid) : option Prop :=
  let d := env_dag v in
  let g := dag_graph d in
  if String.eqb f "not" then Some (visible d o /\ ~ A o)
  else if String.eqb f "ancestors" then Some (exists x, A x /\ ancestor g o x)
  else if String.eqb f "descendants" then Some (exists x, A x /\ ancestor g x o)
  else if String.eqb f "parents" then Some (exists x, A x /\ parent g o x)
  else if String.eqb f "children" then Some (exists x, A x /\ parent g x o)
  else if String.eqb f "siblings" then
    Some (~ A o /\ exists x p, A x /\ parent g p x /\ parent g p o)
  else if String.eqb f "roots" then Some (A o /\ forall p, A p -> ~ parent g p o)
  else if String.eqb f "heads" then Some (A o /\ forall c, A c -> ~ parent g o c)
  else if String.eqb f "stack" then Some (in_stack d A o)
  else None.

(** Functions of two sets. *)
Definition doc2 (v : env) (f : string) (A B : oid -> Prop) (o : oid) : option Prop :=
  let g := dag_graph (env_dag v) in
  if String.eqb f "union" then Some (A o \/ B o)
  else if String.eqb f "intersection" then Some (A o /\ B o)
  else if String.eqb f "difference" then Some (A o /\ ~ B o)
  else if String.eqb f "only" then
    Some ((exists x, A x /\ ancestor g o x) /\ ~ exists x, B x /\ ancestor g o x)
  else if String.eqb f "range" then
    Some (exists a b, A a /\ B b /\ ancestor g a o /\ ancestor g o b)
  else None.

(** Functions of a set and a number. *)
Definition doc_number (v : env) (f : string) (A : oid -> Prop) (n : Z) (o : oid) : option Prop :=
  let g := dag_graph (env_dag v) in
  if String.eqb f "parents.nth" then
    Some (exists x ps, A x /\ (x, ps) ∈ g /\ (1 <= n)%Z /\ ps !! Z.to_nat (n - 1) = Some o)
  else if String.eqb f "ancestors.nth" then Some (exists x, A x /\ first_parents g (Z.to_nat n) x o)
  else None.

(** Functions of a pattern. *)
Definition opt_selects (p : pattern) (s : option string) : Prop := exists t, s = Some t /\ selects p t.
Definition doc_pattern (v : env) (f : string) (p : pattern) (o : oid) : option Prop :=
  let d := env_dag v in
  let i := env_info v o in
  if String.eqb f "branches" then
    Some (o ∈ branch_commits d /\
          exists n, ("refs/heads/" +:+ n : refname) ∈ env_branch_names v o /\ selects p n)
  else if String.eqb f "message" then Some (visible d o /\ opt_selects p (ci_message i))
  else if String.eqb f "paths.changed" then
    Some (visible d o /\ exists t, t ∈ ci_paths i /\ opt_selects p t)
  else if String.eqb f "author.name" then Some (visible d o /\ opt_selects p (ci_author_name i))
  else if String.eqb f "author.email" then Some (visible d o /\ opt_selects p (ci_author_email i))
  else if String.eqb f "author.date" then Some (visible d o /\ selects_time p (ci_author_time i))
  else if String.eqb f "committer.name" then Some (visible d o /\ opt_selects p (ci_committer_name i))
  else if String.eqb f "committer.email" then Some (visible d o /\ opt_selects p (ci_committer_email i))
  else if String.eqb f "committer.date" then Some (visible d o /\ selects_time p (ci_committer_time i))
  else None.

(** Functions of recorded test results. *)
Definition doc_tests (v : env) (f : string) (p : pattern) (o : oid) : option Prop :=
  let d := env_dag v in
  let i := env_info v o in
  if String.eqb f "tests.passed" then
    Some (visible d o /\ exists c t, (c, 0%Z, t) ∈ ci_tests i /\ selects p c)
  else if String.eqb f "tests.failed" then
    Some (visible d o /\ exists c e t, (c, e, t) ∈ ci_tests i /\ e <> 0%Z /\ e <> 125%Z /\ e <> 127%Z /\ selects p c)
  else if String.eqb f "tests.fixable" then
    Some (visible d o /\ exists c t t', (c, 0%Z, Some t) ∈ ci_tests i /\ selects p c /\
          ci_tree i = NonZero t' /\ t <> t')
  else None.

(** The newest version of a commit: the end of its rewrites. *)
Definition newest (es : list event) (o o' : oid) : Prop :=
  chain_end es o (NonZero o') \/ (o = o' /\ forall new, ~ rewritten es o new).

(** The repository with no commit hidden. *)
Definition nothing_hidden (v : env) : env :=
  mk_env (env_head v) (env_revparse v)
    (mk_dag (dag_graph (env_dag v)) (head_commit (env_dag v)) (main_branch_commit (env_dag v))
       (branch_commits (env_dag v)) (observed_commits (env_dag v)) ∅)
    (env_replayer v) (env_alias v) (env_info v) (env_branch_names v) (env_glob v) (env_regex v) (env_date v)
    (env_latest_test v).

(** All built-in names. *)
Definition documented : list string :=
  ["all"; "none"; "main"; "public"; "draft"; "branches"; "stack"; "merges";
   "not"; "ancestors"; "descendants"; "parents"; "children"; "siblings"; "roots"; "heads";
   "union"; "intersection"; "difference"; "only"; "range"; "parents.nth"; "ancestors.nth"; "exactly";
   "message"; "paths.changed"; "author.name"; "author.email"; "author.date";
   "committer.name"; "committer.email"; "committer.date";
   "tests.passed"; "tests.failed"; "tests.fixable"; "current"].

(** The numbers of arguments each function takes. *)
Definition arities (f : string) : list nat :=
  if decide (f ∈ ["branches"; "stack"; "tests.passed"; "tests.failed"; "tests.fixable"]) then [0; 1]
  else if decide (f ∈ ["all"; "none"; "main"; "public"; "draft"; "merges"]) then [0]
  else if decide (f ∈ ["union"; "intersection"; "difference"; "only"; "range"; "parents.nth";
                       "ancestors.nth"; "exactly"]) then [2]
  else [1].

(** ** Aliases *)

(** The written form of the placeholder of the [i]-th argument. *)
Definition dollar (i : nat) : string := "$" +:+ NilZero.string_of_uint (Nat.to_uint i).
(** Replacing the placeholders of a body by the arguments, and nothing else. *)
Inductive expands (args : list expr) : expr -> expr -> Prop :=
| x_arg i a : nth_error args i = Some a -> expands args (Name (dollar (S i))) a
| x_name n : (forall i a, nth_error args i = Some a -> n <> dollar (S i)) -> expands args (Name n) (Name n)
| x_call f es es' : Forall2 (expands args) es es' -> expands args (Call f es) (Call f es').

(** ** Expressions *)

(** [describes s P]: the set [s] consists of the commits [o] with [P o], where
    [P o] is documented. *)
Definition describes (s : commit_set) (P : oid -> option Prop) : Prop :=
  forall o, exists Q, P o = Some Q /\ (o ∈ s <-> Q).
Definition members (s : commit_set) : oid -> Prop := fun o => o ∈ s.

Inductive means : env -> expr -> commit_set -> Prop :=
| m_head v n o : n = "." \/ n = "@" -> env_head v = Some o -> means v (Name n) {[o]}
| m_unborn v n : n = "." \/ n = "@" -> env_head v = None -> means v (Name n) ∅
| m_name v n o : n <> "." -> n <> "@" -> env_revparse v n = Some o -> means v (Name n) {[o]}
| m_call v f args s s' : fn_means v f args s ->
    (forall o, o ∈ s' <-> o ∈ s /\ visible (env_dag v) o) -> means v (Call f args) s'
with fn_means : env -> string -> list expr -> commit_set -> Prop :=
| f_0 v f s : describes s (doc0 v f) -> fn_means v f [] s
| f_1 v f e a s : means v e a -> describes s (doc1 v f (members a)) -> fn_means v f [e] s
| f_2 v f e1 e2 a b s : means v e1 a -> means v e2 b ->
    describes s (doc2 v f (members a) (members b)) -> fn_means v f [e1; e2] s
| f_number v f e n z a s : means v e a -> number n z ->
    describes s (doc_number v f (members a) z) -> fn_means v f [e; Name n] s
| f_exactly v e n a : means v e a -> number n (Z.of_nat (size a)) -> fn_means v "exactly" [e; Name n] a
| f_pattern v f t p s : pattern_text v t p -> describes s (doc_pattern v f p) -> fn_means v f [Name t] s
| f_tests v f t p s : pattern_text v t p -> describes s (doc_tests v f p) -> fn_means v f [Name t] s
| f_latest v f c s : env_latest_test v = Some c -> describes s (doc_tests v f (PExact c)) -> fn_means v f [] s
| f_current v e a s : means (nothing_hidden v) e a ->
    (forall o, o ∈ s <-> exists x, x ∈ a /\ newest (events (env_replayer v)) x o) ->
    fn_means v "current" [e] s
| f_alias v f args template body e s : f ∉ documented -> env_alias v f = Some template ->
    parse template = Some body -> expands args body e -> means v e s -> fn_means v f args s.

Scheme means_mut := Induction for means Sort Prop
with fn_means_mut := Induction for fn_means Sort Prop.

(** [f] is called somewhere in an expression. *)
Inductive calls (f : string) : expr -> Prop :=
| calls_here args : calls f (Call f args)
| calls_arg g args e : e ∈ args -> calls f e -> calls f (Call g args).

(** No alias leads back to itself: [rank] decreases from each alias to the
    aliases its body calls. *)
Definition acyclic_aliases (v : env) (rank : string -> nat) : Prop :=
  forall f template body g, f ∉ documented -> env_alias v f = Some template -> parse template = Some body ->
  calls g body -> g ∉ documented -> (rank g < rank f)%nat.

(** A repository whose graph and event log are well formed. *)
Definition wf_env (v : env) : Prop :=
  wf_graph (dag_graph (env_dag v)) /\ exists main log, env_replayer v = replay main log.
