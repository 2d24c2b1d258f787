(** Properties C20, C21, C24, C25 and C57: evaluation of revsets. *)
From Verif Require Import Base TextModel EventLogModel EventLogSpec EvolveSpec DagModel DagSpec DagProps
  RevsetSyntaxModel RevsetModel RevsetSpec RevsetTextProofs RevsetProofs.
Local Open Scope string_scope.
Local Open Scope list_scope.

(** A repository used in the examples: the graph 1 - 2 - 3 - 4, 2 - 5 - 6, 7
    merging 4 and 6, with main at 2 and HEAD at 4; 3 and 6 are hidden, and 6 was
    rewritten to 5.  Names are the numbers of the commits. *)
Definition ex_names (n : string) : option oid :=
  assoc n [("c1", 1); ("c2", 2); ("c3", 3); ("c4", 4); ("c5", 5); ("c6", 6); ("c7", 7)]%N.
Definition ex_info (o : oid) : commit_info :=
  mk_commit_info (Some ("Fix bug " +:+ (if N.eqb o 4 then "four" else "other") +:+ String newline ""))
    [Some "src/lib.rs"] (Some "Ann") (Some "ann@x") (Some (Z.of_N o * 100)%Z) (Some "Bob") (Some "bob@x") None
    (NonZero o) (if N.eqb o 5 then [("make", 0%Z, Some 9%N)] else [("make", 1%Z, None); ("lint", 125%Z, None)]).
Definition ex_aliases (f : string) : option string :=
  assoc f [("mine", "descendants($1) & ancestors($2)"); ("both", "mine($1, $2) + mine($2, $1)");
           ("all", "none()"); ("broken", "(("); ("loop", "loop()"); ("ping", "pong()"); ("pong", "ping()")].
Definition ex_env : env :=
  mk_env (Some 4%N) ex_names ex_dag
    (replay "refs/heads/main" [RewriteEvent 1%Z (TxId 1) (NonZero 6%N) (NonZero 5%N)])
    ex_aliases ex_info (fun _ => []) (fun _ => None) (fun _ => None)
    (fun t => if String.eqb t "yesterday" then Some 450%Z else None) (Some "make").
Lemma ex_env_wf : wf_env ex_env.
Proof. split; [exact ex_graph_wf|]. eexists _, _. reflexivity. Qed.
Definition gives (text : string) (l : list oid) : bool :=
  match parse text with
  | Some e => match eval 20 ex_env e with Ok s => bool_decide (s = list_to_set l) | Err _ => false end
  | None => false
  end.

(** ** C20: only visible commits *)

Theorem c20_calls_visible : forall fuel v f args s o, wf_env v ->
  eval fuel v (Call f args) = Ok s -> o ∈ s -> visible (env_dag v) o.
Proof. exact call_visible. Qed.

(** A commit that is not visible comes from naming it. *)
Theorem c20_hidden_only_by_name : forall fuel v e s o, wf_env v ->
  eval fuel v e = Ok s -> o ∈ s -> ~ visible (env_dag v) o -> exists n, e = Name n /\ s = {[o]}.
Proof. exact hidden_by_name. Qed.

(** From the text of a revset: either Git knows the whole text, or the result of
    a call is visible. *)
Theorem c20_resolved_visible : forall fuel v text s o, wf_env v ->
  resolve_commit fuel v false text = Resolved s -> o ∈ s -> ~ visible (env_dag v) o ->
  (env_revparse v text = Some o \/ exists n, parse text = Some (Name n)) /\ s = {[o]}.
Proof. exact resolved_visible. Qed.

Example c20_example :
  visible_commits (env_dag ex_env) = {[1; 2; 3; 4; 5]}%N /\
  gives "descendants(c2)" [2; 3; 4; 5]%N = true /\ gives "c6 + c5" [5]%N = true /\ gives "c6" [6]%N = true /\
  gives "not(c3)" [1; 2; 4; 5]%N = true.
Proof. split; [decide_it|]. vm_compute. auto. Qed.

(** ** C21: the documented meaning *)

Theorem c21_meaning : forall v e s, wf_env v ->
  (exists fuel, eval fuel v e = Ok s) <-> means v e s.
Proof. exact eval_spec. Qed.
Theorem c21_one_answer : forall v e s s', wf_env v -> means v e s -> means v e s' -> s = s'.
Proof. exact means_unique. Qed.

(** The answer does not depend on the depth of recursion that was allowed. *)
Theorem c21_fuel_irrelevant : forall n m v e r, (n <= m)%nat ->
  eval n v e = r -> r <> Err OutOfFuel -> eval m v e = r.
Proof. exact eval_more. Qed.

(** A wrong number of arguments is reported, with the numbers that are right. *)
Theorem c21_arity : forall fuel v f args, f ∈ documented -> length args ∉ arities f ->
  eval (S fuel) v (Call f args) = Err (ArityMismatch f (arities f) (length args)).
Proof. exact call_arity. Qed.

(** Texts: what Git knows is taken as it is. *)
Theorem c21_resolve : forall v text s, wf_env v ->
  (exists fuel, resolve_commit fuel v false text = Resolved s) <->
  (exists o, env_revparse v text = Some o /\ s = {[o]}) \/
  (env_revparse v text = None /\ exists e, parse text = Some e /\ means v e s).
Proof. exact resolve_meaning. Qed.

Example c21_example :
  gives "c3 | c5" [3; 5]%N = true /\ gives "stack()" [3; 4]%N = true /\ gives "siblings(c3)" [5]%N = true /\
  gives "c4~2" [2]%N = true /\ gives "only(c4, c5)" [3; 4]%N = true /\ gives "c2:c4" [2; 3; 4]%N = true /\
  gives "roots(draft())" [3; 5]%N = true /\ gives "heads(draft())" [4; 5]%N = true /\
  gives "current(c6)" [5]%N = true /\ gives "parents(c4)" [3]%N = true /\ gives "merges()" [] = true /\
  gives "message(four)" [4]%N = true /\ gives "author.date('after:yesterday')" [5]%N = true /\
  gives "tests.passed()" [5]%N = true /\ gives "tests.failed(lint)" [] = true /\ gives "tests.fixable()" [5]%N = true /\
  gives "exactly(c3, 1)" [3]%N = true /\ gives "exactly(c3, 2)" [3]%N = false /\ gives "@" [4]%N = true.
Proof. vm_compute. split_and!; reflexivity. Qed.

(** ** C24: aliases *)

(** Every body has exactly one expansion for given arguments ... *)
Theorem c24_expansion : forall args body,
  exists e, expands args body e /\ forall e', expands args body e' -> e' = e.
Proof. exact expands_total. Qed.
(** ... and a call has the visible commits of the expansion. *)
Theorem c24_alias_is_macro : forall v f args template body e s, wf_env v ->
  f ∉ documented -> env_alias v f = Some template -> parse template = Some body -> expands args body e ->
  (exists fuel, eval fuel v (Call f args) = Ok s) <->
  exists fuel s0, eval fuel v e = Ok s0 /\ forall o, o ∈ s <-> o ∈ s0 /\ visible (env_dag v) o.
Proof. exact alias_spec. Qed.
(** An alias with the name of a built-in function has no effect. *)
Theorem c24_builtins_fixed : forall v aliases, (forall f, f ∉ documented -> aliases f = env_alias v f) ->
  forall fuel e, eval fuel (set_aliases v aliases) e = eval fuel v e.
Proof. exact builtins_fixed. Qed.
(** What is neither is reported, as is an alias that does not parse. *)
Theorem c24_unknown : forall fuel v f args, f ∉ documented ->
  (env_alias v f = None -> eval (S fuel) v (Call f args) = Err (UnboundFunction f)) /\
  (forall template, env_alias v f = Some template -> parse template = None ->
   eval (S fuel) v (Call f args) = Err (ParseAlias template)).
Proof. exact unknown_function. Qed.

Example c24_example :
  expands [Name "a"; Call "f" [Name "$1"]] (Call "g" [Name "$2"; Name "$1"; Name "$3"; Name "$10"])
    (Call "g" [Call "f" [Name "$1"]; Name "a"; Name "$3"; Name "$10"]) /\
  gives "mine(c2, c4)" [2; 3; 4]%N = true /\ gives "both(c4, c2)" [2; 3; 4]%N = true /\
  gives "all()" [1; 2; 3; 4; 5]%N = true /\ gives "mine(c2, c4, c1)" [2; 3; 4]%N = true.
Proof. split; [apply expands_spec|]; vm_compute; auto. Qed.

(** ** C25: patterns *)

(** How the text of a pattern is read. *)
Theorem c25_prefix : forall v text p, pattern_new v text = Ok p <-> pattern_text v text p.
Proof. exact pattern_new_spec. Qed.
(** Which texts and times it selects. *)
Theorem c25_text : forall p text, matches_text p text = true <-> selects p text.
Proof. exact matches_text_spec. Qed.
Theorem c25_date : forall p time, matches_date p time = true <-> selects_time p time.
Proof. exact matches_date_spec. Qed.
(** A prefix is only recognised at the start, and any other text is looked for as
    it stands. *)
Theorem c25_no_prefix : forall v text body, (forall p y, p ∈ prefixes -> text <> p +:+ y) ->
  (forall x, body <> x +:+ String newline "") ->
  exists p, pattern_new v text = Ok p /\
    (matches_text p body = true <-> exists a b, body = a +:+ text +:+ b) /\
    (matches_text p (body +:+ String newline "") = true <-> exists a b, body = a +:+ text +:+ b).
Proof. exact no_prefix. Qed.

Example c25_example :
  let m t s := match pattern_new ex_env t with Ok p => Some (matches_text p s) | Err _ => None end in
  m "exact:fix" (String.append "fix" (String newline "")) = Some true /\ m "exact:fix" "fixed" = Some false /\
  m "substr:fix" "a fixed b" = Some true /\ m "fix" "a fixed b" = Some true /\ m "after:yesterday" "fix" = Some false /\
  m "glob:a" "a" = None.
Proof. vm_compute. split_and!; reflexivity. Qed.

(** ** C57: evaluation stops *)

(** Missing for the full claim: aliases that lead back to themselves. *)
Theorem c57_stops_partial : forall v rank e, wf_env v -> acyclic_aliases v rank ->
  exists fuel, eval fuel v e <> Err OutOfFuel.
Proof. intros v rank e. exact (acyclic_stops v rank e). Qed.
(** Those never stop: the code recurses until the stack overflows. *)
Theorem c57_stops_refuted : exists v, wf_env v /\ forall fuel, eval fuel v (Call "loop" []) = Err OutOfFuel.
Proof.
  exists ex_env. split; [exact ex_env_wf|]. induction fuel as [|fuel IH]; [reflexivity|].
  rewrite eval_S. change (eval_fn (eval fuel) ex_env "loop" []) with (eval fuel ex_env (Call "loop" [])).
  rewrite IH. reflexivity.
Qed.

(** Aliases in two layers. *)
Example c57_example :
  acyclic_aliases (set_aliases ex_env (fun f => assoc f [("mine", "descendants($1) & ancestors($2)");
                                                        ("both", "mine($1, $2) + mine($2, $1)")]))
    (fun f => if String.eqb f "both" then 1%nat else 0%nat).
Proof.
  intros f t body g D A P C Dg. cbn [set_aliases env_alias assoc] in A.
  destruct (String.eqb_spec "mine" f) as [<-|_]; [|destruct (String.eqb_spec "both" f) as [<-|_]; [|discriminate]].
  - injection A as <-. vm_compute in P. injection P as <-. apply calls_called in C. exfalso. apply Dg.
    cbn [called flat_map app] in C.
    repeat (apply elem_of_cons in C; destruct C as [->|C]; [decide_it|]). now apply elem_of_nil in C.
  - injection A as <-. vm_compute in P. injection P as <-. apply calls_called in C.
    cbn [called flat_map app] in C.
    repeat (apply elem_of_cons in C; destruct C as [->|C]; [vm_compute; lia|]). now apply elem_of_nil in C.
Qed.

Print Assumptions c20_calls_visible.
Print Assumptions c20_hidden_only_by_name.
Print Assumptions c20_resolved_visible.
Print Assumptions c21_meaning.
Print Assumptions c21_one_answer.
Print Assumptions c21_fuel_irrelevant.
Print Assumptions c21_arity.
Print Assumptions c21_resolve.
Print Assumptions c24_expansion.
Print Assumptions c24_alias_is_macro.
Print Assumptions c24_builtins_fixed.
Print Assumptions c24_unknown.
Print Assumptions c25_prefix.
Print Assumptions c25_text.
Print Assumptions c25_date.
Print Assumptions c25_no_prefix.
Print Assumptions c57_stops_partial.
Print Assumptions c57_stops_refuted.
