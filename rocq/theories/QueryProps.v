(** Property C116: [git query]. *)
From Verif Require Import Base TextModel EventLogModel DagModel DagSpec DagProps RevsetSyntaxModel RevsetModel RevsetSpec RevsetProofs RevsetProps
  ExecModel NavModel QueryModel QuerySpec QueryProofs.
Local Open Scope string_scope.
Local Open Scope list_scope.

(** ** C116: what is asked for is printed *)

(** With [--raw]: the hash of each commit asked for, once, ancestors first. *)
Theorem c116_commits : forall fuel v refs describe hidden text out r, wf_env v ->
  query fuel v refs describe hidden false true text = (out, r) -> r <> QueryRefused ->
  exists s cs, asked v hidden text s /\ r = QueryDone /\ out = List.map oid_to_string cs /\ NoDup cs /\
    (forall o, o ∈ cs <-> o ∈ s /\ o ∈ vertices (dag_graph (env_dag v))) /\ ancestors_first (dag_graph (env_dag v)) cs.
Proof.
  intros fuel v refs describe hidden text out r W H N. revert H. unfold query.
  destruct (resolve_commit fuel v hidden text) as [s| |err] eqn:E; [|intros [= <- <-]; now destruct N..]. cbv zeta iota. intros H.
  exists s, (dag_sort (dag_graph (env_dag v)) s). destruct (sort_spec (dag_graph (env_dag v)) s (proj1 W)) as (A & B & C).
  assert (P : print_commits (fun o => Some (oid_to_string o)) (dag_sort (dag_graph (env_dag v)) s) =
    (List.map oid_to_string (dag_sort (dag_graph (env_dag v)) s), QueryDone)) by (apply print_all; now rewrite List.map_map).
  rewrite P in H. injection H as <- <-. split; [eapply resolved_asked; eauto|]. auto.
Qed.

(** Otherwise the descriptions of these commits; an error leaves those printed
    which come before a commit that cannot be described. *)
Theorem c116_described : forall fuel v refs describe hidden text out r, wf_env v ->
  query fuel v refs describe hidden false false text = (out, r) -> r <> QueryRefused ->
  exists s cs, asked v hidden text s /\ NoDup cs /\
    (forall o, o ∈ cs <-> o ∈ s /\ o ∈ vertices (dag_graph (env_dag v))) /\ ancestors_first (dag_graph (env_dag v)) cs /\
    match r with
    | QueryDone => List.map describe cs = List.map Some out
    | _ => exists cs1 c cs2, cs = cs1 ++ c :: cs2 /\ List.map describe cs1 = List.map Some out /\ describe c = None
    end.
Proof.
  intros fuel v refs describe hidden text out r W H N. revert H. unfold query.
  destruct (resolve_commit fuel v hidden text) as [s| |err] eqn:E; [|intros [= <- <-]; now destruct N..]. cbv zeta iota. intros H.
  exists s, (dag_sort (dag_graph (env_dag v)) s). destruct (sort_spec (dag_graph (env_dag v)) s (proj1 W)) as (A & B & C).
  split; [eapply resolved_asked; eauto|]. split; [exact A|]. split; [exact B|]. split; [exact C|].
  destruct r; [now apply print_all in H|..]; destruct (print_broken _ _ _ _ H ltac:(discriminate)) as (Er & X); exact X.
Qed.

(** With [--branches]: the short name of each local branch at one of these commits,
    once, in the order of the commits and by name. *)
Theorem c116_branches : forall fuel v refs describe hidden raw text out r, wf_env v ->
  (forall o, o ∈ branch_commits (env_dag v) <-> exists n, refs !! ("refs/heads/" +:+ n) = Some o) ->
  query fuel v refs describe hidden true raw text = (out, r) -> r <> QueryRefused ->
  exists s, asked v hidden text s /\ r = QueryDone /\ NoDup out /\
    (forall short, short ∈ out <-> exists n o, called n short /\ refs !! n = Some o /\ o ∈ s /\ o ∈ vertices (dag_graph (env_dag v))) /\
    forall l1 a l2 b l3 na nb p q, out = l1 ++ a :: l2 ++ b :: l3 -> called na a -> called nb b -> refs !! na = Some p -> refs !! nb = Some q ->
      ~ proper_ancestor (dag_graph (env_dag v)) q p /\ (p = q -> String.leb a b = true).
Proof.
  intros fuel v refs describe hidden raw text out r W B H N. revert H. unfold query.
  destruct (resolve_commit fuel v hidden text) as [s| |err] eqn:E; [|intros [= <- <-]; now destruct N..]. cbv zeta iota. intros [= <- <-].
  exists s. split; [eapply resolved_asked; eauto|]. split; [reflexivity|]. split; [apply suffix_nodup, W|]. split.
  - intros short. rewrite (suffix_mem (dag_graph (env_dag v)) refs s _ (proj1 W) B). unfold called. split; [intros (o & ?); eauto|].
    intros (n & o & -> & ?). eauto.
  - intros l1 a l2 b l3 na nb p q Eq -> -> Hp Hq. eapply suffix_order; eauto. apply W.
Qed.

(** A text that stands for something is answered, whatever is to be printed; one
    that is refused stands for nothing, and nothing is printed.  (Unless an alias
    leads back to itself.) *)
Theorem c116_answered : forall v refs describe hidden branches raw text s, wf_env v -> asked v hidden text s ->
  exists fuel, snd (query fuel v refs describe hidden branches raw text) <> QueryRefused.
Proof.
  intros v refs describe hidden branches raw text s W A. apply asked_resolved in A; [|exact W]. destruct A as (fuel & E). exists fuel.
  unfold query. rewrite E. destruct branches; [discriminate|]. cbv zeta.
  destruct (print_commits _ _) as [out r] eqn:Ep. cbn. intros ->. now destruct (print_broken _ _ _ _ Ep ltac:(discriminate)).
Qed.
Theorem c116_refused : forall fuel v refs describe hidden branches raw text out, wf_env v ->
  query fuel v refs describe hidden branches raw text = (out, QueryRefused) ->
  out = [] /\ (resolve_commit fuel v hidden text <> EvalFailed RevsetModel.OutOfFuel -> forall s, ~ asked v hidden text s).
Proof.
  intros fuel v refs describe hidden branches raw text out W H.
  assert (X : out = [] /\ forall s, resolve_commit fuel v hidden text <> Resolved s).
  { revert H. unfold query. destruct (resolve_commit fuel v hidden text) as [s| |err]; [|intros [= <-]; split; [reflexivity|discriminate]..].
    destruct branches; [discriminate|]. cbv zeta. intros Ep. now destruct (print_broken _ _ _ _ Ep ltac:(discriminate)). }
  destruct X as [-> X]. split; [reflexivity|]. intros F. eapply refused_text; eauto.
Qed.

(** ** Examples *)

(** The repository of [ex_env] with branches at 2, 4 and 5. *)
Definition ex_query_env : env :=
  mk_env (env_head ex_env) (env_revparse ex_env)
    (mk_dag (dag_graph ex_dag) (head_commit ex_dag) (main_branch_commit ex_dag) {[2; 4; 5]}%N (observed_commits ex_dag) (obsolete_commits ex_dag))
    (env_replayer ex_env) (env_alias ex_env) (env_info ex_env) (env_branch_names ex_env) (env_glob ex_env) (env_regex ex_env) (env_date ex_env) (env_latest_test ex_env).
Definition ex_query_refs : gmap refname oid :=
  {["refs/heads/main" := 2; "refs/heads/b" := 4; "refs/heads/a" := 4; "refs/heads/0" := 5; "refs/tags/t" := 3]}%N.

Example c116_example :
  wf_env ex_query_env /\
  query 20 ex_query_env ex_query_refs (fun _ => None) false false true "c5 + c4 + c3" =
    (List.map oid_to_string [3; 4; 5]%N, QueryDone) /\
  query 20 ex_query_env ex_query_refs (fun o => if N.eqb o 4 then None else Some "x") false false false "c5 + c4 + c3" = (["x"], QueryBroken) /\
  query 20 ex_query_env ex_query_refs (fun _ => None) false true true "c5 + c4 + c3" = (["a"; "b"; "0"], QueryDone) /\
  query 20 ex_query_env ex_query_refs (fun _ => None) false true true "c5 + (" = ([], QueryRefused) /\
  query 20 ex_query_env ex_query_refs (fun _ => None) true false true "c6 + c5" = (List.map oid_to_string [5; 6]%N, QueryDone).
Proof. split; [split; [exact ex_graph_wf|]; eexists _, _; reflexivity|]. vm_compute. split_and!; reflexivity. Qed.
Example c116_branches_example : forall o,
  o ∈ branch_commits (env_dag ex_query_env) <-> exists n, ex_query_refs !! ("refs/heads/" +:+ n) = Some o.
Proof.
  intros o. cbn [ex_query_env env_dag branch_commits]. split.
  - rewrite !elem_of_union, !elem_of_singleton. intros [[-> | ->] | ->]; [exists "main"|exists "a"|exists "0"]; vm_compute; reflexivity.
  - intros (n & H). apply elem_of_map_to_list in H.
    assert (Hl : map_to_list ex_query_refs ≡ₚ [("refs/heads/main", 2); ("refs/heads/b", 4); ("refs/heads/a", 4); ("refs/heads/0", 5); ("refs/tags/t", 3)]%N).
    { unfold ex_query_refs. rewrite !map_to_list_insert by (vm_compute; reflexivity). rewrite map_to_list_singleton. reflexivity. }
    rewrite Hl in H. rewrite !elem_of_cons, elem_of_nil in H. destruct H as [H|[H|[H|[H|[H|[]]]]]]; [| | | |discriminate];
      injection H as _ ->; set_solver.
Qed.

Print Assumptions c116_commits.
Print Assumptions c116_described.
Print Assumptions c116_branches.
Print Assumptions c116_answered.
Print Assumptions c116_refused.
