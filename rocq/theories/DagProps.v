(** Properties C15, C18, C19, C55, C56: the commit graph. *)
From Verif Require Import Base TextModel EventLogModel EventLogSpec EventLogProofs EvolveModel EvolveSpec
  DagModel DagSpec DagProofs DagCompProofs.

(** A graph used in the examples:
    1 - 2 - 3 - 4 (main at 2), 2 - 5 - 6, 7 merges 4 and 6. *)
Definition ex_graph : graph :=
  [(1, []); (2, [1]); (3, [2]); (4, [3]); (5, [2]); (6, [5]); (7, [4; 6])]%N.
Lemma ex_graph_wf : wf_graph ex_graph.
Proof. unfold ex_graph, wf_graph. cbn. split_and!; set_solver. Qed.
Definition ex_dag : dag :=
  mk_dag ex_graph {[4%N]} {[2%N]} ∅ {[3; 4; 5; 6]}%N {[3; 6]}%N.

(** ** C15: abandoned children *)

Theorem c15_abandoned_children : forall d main log c o,
  valid_cursor (replay main log) c -> wf_graph (dag_graph d) ->
  exists res, find_abandoned_children d (replay main log) c o = Some res /\
    (res = None <-> forall new, ~ rewritten (upto (events (replay main log)) c) o new) /\
    forall target kids, res = Some (target, kids) ->
      (chain_end (upto (events (replay main log)) c) o (NonZero target) \/
       (target = o /\ chain_end (upto (events (replay main log)) c) o Zero)) /\
      forall k, k ∈ kids <-> parent (dag_graph d) o k /\ visible d k /\ k ∉ obsolete_commits d.
Proof. exact abandoned_spec. Qed.

(** 3 was rewritten to 8; its child 4 is abandoned. *)
Example c15_example :
  let log := [CommitEvent 1%Z (TxId 1) 3%N; CommitEvent 1%Z (TxId 1) 4%N;
    RewriteEvent 1%Z (TxId 2) (NonZero 3%N) (NonZero 8%N)] in
  let r := replay "refs/heads/main"%string log in
  find_abandoned_children ex_dag r 3%Z 3%N = Some (Some (8%N, {[4%N]})) /\
  find_abandoned_children ex_dag r 2%Z 3%N = Some None.
Proof. cbv zeta. split; decide_it. Qed.

(** ** C18: visible, public and draft commits *)

Theorem c18_public : forall d o, wf_graph (dag_graph d) ->
  (is_public_commit d o = true <-> public d o) /\ (o ∈ public_commits d <-> public d o).
Proof. intros d o W. split; [exact (is_public_spec d o W)|exact (public_spec d o W)]. Qed.
Theorem c18_visible : forall d o, wf_graph (dag_graph d) -> o ∈ visible_commits d <-> visible d o.
Proof. exact visible_spec. Qed.
Theorem c18_draft : forall d o, wf_graph (dag_graph d) ->
  o ∈ draft_commits d <-> visible d o /\ ~ public d o.
Proof. exact draft_spec. Qed.
Theorem c18_partition : forall d, wf_graph (dag_graph d) ->
  visible_commits d = public_commits d ∪ draft_commits d /\ public_commits d ## draft_commits d.
Proof.
  intros d W. split.
  - apply set_eq. intros o. rewrite elem_of_union, visible_spec, public_spec, draft_spec by exact W.
    split; [|intros [H|[H _]]; [apply public_visible; exact H|exact H]].
    intros H. destruct (is_public_commit d o) eqn:E.
    + left. apply is_public_spec; assumption.
    + right. split; [exact H|]. intros P. apply is_public_spec in P; [congruence|exact W].
  - apply elem_of_disjoint. intros o H1 H2. apply public_spec in H1; [|exact W].
    apply draft_spec in H2; [|exact W]. tauto.
Qed.
Theorem c18_filter_visible : forall d s o, wf_graph (dag_graph d) ->
  o ∈ filter_visible d s <-> o ∈ s /\ visible d o.
Proof. exact filter_visible_spec. Qed.
(** With the graph opened at a cursor: what keeps a commit visible. *)
Theorem c18_opened_at_cursor : forall main log c g head m branches o,
  valid_cursor (replay main log) c ->
  kept (open_dag g (replay main log) c head m branches) o <->
  commit_status (replay main log) c o = Active \/ head = Some o \/ o = m \/ o ∈ branches.
Proof. exact open_dag_kept. Qed.

Example c18_example :
  visible_commits ex_dag = {[1; 2; 3; 4; 5]}%N /\ public_commits ex_dag = {[1; 2]}%N /\
  draft_commits ex_dag = {[3; 4; 5]}%N /\ visible ex_dag 3%N /\ ~ visible ex_dag 6%N.
Proof.
  split_and!; try decide_it.
  - apply visible_spec; [exact ex_graph_wf|]. decide_it.
  - rewrite <- visible_spec by exact ex_graph_wf. decide_it.
Qed.

(** ** C19: connected components *)

Theorem c19_components : forall g order s,
  (forall x, x ∈ s -> x ∈ order) ->
  exists cs, connected_components g order s = Some cs /\
    ⋃ cs = s /\
    (forall C, C ∈ cs -> C <> ∅) /\
    (forall i j C D, cs !! i = Some C -> cs !! j = Some D -> i <> j -> C ## D) /\
    (forall C x y, C ∈ cs -> x ∈ C -> y ∈ C <-> connected g s x y).
Proof. exact connected_components_spec. Qed.

Example c19_example :
  connected_components ex_graph [6; 5; 4; 3; 1]%N {[1; 3; 4; 5; 6]}%N = Some [{[5; 6]}%N; {[3; 4]}%N; {[1%N]}].
Proof. decide_it. Qed.

(** ** C55: stacks *)

Theorem c55_stack : forall d s o, wf_graph (dag_graph d) ->
  o ∈ stack_commits d s <->
  exists a x, visible d a /\ ~ public d a /\ x ∈ s /\ ancestor (dag_graph d) a x /\
    ancestor (dag_graph d) a o /\ visible d o /\ ~ public d o.
Proof. exact stack_spec. Qed.

(** Missing for the full claim: draft merge commits. *)
Theorem c55_stack_component_partial : forall d x o, wf_graph (dag_graph d) ->
  (forall c p q, c ∈ draft_commits d -> p ∈ draft_commits d -> q ∈ draft_commits d ->
     parent (dag_graph d) p c -> parent (dag_graph d) q c -> p = q) ->
  x ∈ draft_commits d ->
  o ∈ stack_commits d {[x]} <-> connected (dag_graph d) (draft_commits d) x o.
Proof. exact stack_component. Qed.

(** With a merge commit the stack is not the whole component. *)
Theorem c55_stack_component_refuted : exists d x o, wf_graph (dag_graph d) /\
  x ∈ draft_commits d /\ connected (dag_graph d) (draft_commits d) x o /\ o ∉ stack_commits d {[x]}.
Proof.
  exists (mk_dag ex_graph {[7%N]} {[2%N]} ∅ ∅ ∅), 3%N, 5%N.
  split_and!; [exact ex_graph_wf|decide_it| |decide_it].
  assert (D : forall x, x ∈ [3; 4; 5; 6; 7]%N -> x ∈ draft_commits (mk_dag ex_graph {[7%N]} {[2%N]} ∅ ∅ ∅)).
  { intros x Hx. repeat (apply elem_of_cons in Hx; destruct Hx as [->|Hx]; [decide_it|]).
    now apply elem_of_nil in Hx. }
  assert (L : forall a b ps, a ∈ [3; 4; 5; 6; 7]%N -> b ∈ [3; 4; 5; 6; 7]%N -> (b, ps) ∈ ex_graph -> a ∈ ps ->
    link ex_graph (draft_commits (mk_dag ex_graph {[7%N]} {[2%N]} ∅ ∅ ∅)) a b /\
    link ex_graph (draft_commits (mk_dag ex_graph {[7%N]} {[2%N]} ∅ ∅ ∅)) b a).
  { intros a b ps Ha Hb H1 H2. assert (parent ex_graph a b) by (exists ps; auto).
    split; (split; [apply D; assumption|split; [apply D; assumption|auto]]). }
  cbn [dag_graph].
  apply (rtc_l _ _ 4%N). { apply (L 3 4 [3])%N; decide_it. }
  apply (rtc_l _ _ 7%N). { apply (L 4 7 [4; 6])%N; decide_it. }
  apply (rtc_l _ _ 6%N). { apply (L 6 7 [4; 6])%N; decide_it. }
  apply rtc_once. apply (L 5 6 [5])%N; decide_it.
Qed.

Example c55_example : stack_commits ex_dag {[4%N]} = {[3; 4]}%N /\ stack_commits ex_dag {[3; 5]}%N = {[3; 4; 5]}%N.
Proof. split; decide_it. Qed.

(** ** C56: order of listed commits *)

(** The graph's own order never shows a descendant before an ancestor. *)
Theorem c56_graph_order : forall g s l1 a l2 b l3, wf_graph g ->
  dag_sort g s = l1 ++ a :: l2 ++ b :: l3 -> ~ proper_ancestor g b a.
Proof. exact dag_sort_order. Qed.
Theorem c56_graph_order_complete : forall g s, wf_graph g ->
  NoDup (dag_sort g s) /\ forall o, o ∈ dag_sort g s <-> o ∈ s /\ o ∈ vertices g.
Proof. intros g s W. split; [exact (dag_sort_nodup g s W)|exact (dag_sort_mem g s)]. Qed.

(** The comparison with tie-breaking respects ancestry and is antisymmetric. *)
Theorem c56_comparison_ancestry : forall g time a b, wf_graph g ->
  proper_ancestor g a b -> commit_cmp g time a b = Lt.
Proof. exact commit_cmp_ancestor. Qed.
Theorem c56_comparison_antisymmetric : forall g time a b, wf_graph g -> a <> b ->
  commit_cmp g time a b = CompOpp (commit_cmp g time b a).
Proof. exact commit_cmp_antisym. Qed.

(** Missing for the full claim: times that do not grow along parent links. *)
Theorem c56_comparison_transitive_partial : forall g time a b c, wf_graph g ->
  (forall p q, parent g p q -> (time p < time q)%Z) ->
  a <> b -> b <> c ->
  commit_cmp g time a b = Lt -> commit_cmp g time b c = Lt -> commit_cmp g time a c = Lt.
Proof.
  intros g time a b c W T H1 H2 L1 L2.
  apply (commit_cmp_lex g time a b W T H1) in L1. apply (commit_cmp_lex g time b c W T H2) in L2.
  assert (a <> c) by (intros ->; lia).
  apply (commit_cmp_lex g time a c W T); [assumption|]. lia.
Qed.

(** Three commits made within the same second are enough for a cycle. *)
Theorem c56_comparison_transitive_refuted : exists g time a b c, wf_graph g /\
  commit_cmp g time a b = Lt /\ commit_cmp g time b c = Lt /\ commit_cmp g time c a = Lt.
Proof.
  exists [(5, []); (1, [5]); (3, [])]%N, (fun _ => 0%Z), 5%N, 1%N, 3%N.
  split; [unfold wf_graph; cbn; split_and!; set_solver|]. split_and!; vm_compute; reflexivity.
Qed.

Example c56_example : dag_sort ex_graph {[6; 2; 3]}%N = [2; 3; 6]%N.
Proof. vm_compute. reflexivity. Qed.

Print Assumptions c15_abandoned_children.
Print Assumptions c18_partition.
Print Assumptions c18_opened_at_cursor.
Print Assumptions c19_components.
Print Assumptions c55_stack_component_partial.
Print Assumptions c55_stack_component_refuted.
Print Assumptions c56_comparison_transitive_refuted.
