(** Evaluation of revsets agrees with their documented meaning. *)
From Verif Require Import Base TextModel EventLogModel EvolveModel EventLogSpec EventLogProofs EventLogNavProofs
  EventLogRefProofs EvolveSpec EvolveProofs DagModel DagSpec DagProofs DagCompProofs
  RevsetSyntaxModel RevsetSyntaxProofs RevsetModel RevsetSpec RevsetTextProofs.
Local Open Scope string_scope.
Local Open Scope list_scope.
Local Arguments strip_prefix _ _ : simpl never.
Local Arguments contains _ _ : simpl never.
Local Arguments matches_text _ _ : simpl never.
Local Arguments pattern_new _ _ : simpl never.
Local Arguments usize_from_string _ : simpl never.

Lemma describes_unique s s' P : describes s P -> describes s' P -> s = s'.
Proof.
  intros H H'. apply set_eq. intros o. destruct (H o) as (Q & E & HQ), (H' o) as (Q' & E' & HQ').
  assert (Q = Q') as <- by congruence. tauto.
Qed.

Lemma filter_set_spec f s o : o ∈ filter_set f s <-> o ∈ s /\ f o = true.
Proof.
  unfold filter_set. rewrite elem_of_list_to_set, elem_of_list_In, filter_In, <- elem_of_list_In, elem_of_elements.
  reflexivity.
Qed.

Lemma nth_error_at {A} (l : list A) n : nth_error l n = l !! n.
Proof. revert n. induction l as [|x l IH]; intros [|n]; cbn; auto. Qed.

Lemma existsb_elem {A} (f : A -> bool) l : existsb f l = true <-> exists x, x ∈ l /\ f x = true.
Proof. rewrite existsb_exists. setoid_rewrite elem_of_list_In. reflexivity. Qed.

Lemma wf_hidden v : wf_env v -> wf_env (with_hidden v).
Proof. exact id. Qed.

Ltac doc_cases D :=
  repeat match type of D with
  | (if String.eqb ?f ?x then _ else _) = _ =>
      destruct (String.eqb_spec f x) as [->|_]; [clear D|]
  end.

(** ** Functions by the shape of their arguments *)

Lemma eval_doc0 v f Q : wf_env v -> doc0 v f 0%N = Some Q ->
  exists s, describes s (doc0 v f) /\ forall ev, eval_fn ev v f [] = Ok s.
Proof.
  intros [W _] D. unfold doc0 in D. cbv zeta in D.
  doc_cases D; [..|discriminate]; eexists; (split; [|intros ev; reflexivity]);
    intros o; (eexists; split; [reflexivity|]).
  - rewrite filter_visible_spec by exact W. fold (visible_commits (env_dag v)).
    rewrite visible_spec by exact W. tauto.
  - set_solver.
  - reflexivity.
  - apply public_spec. exact W.
  - apply draft_spec. exact W.
  - reflexivity.
  - apply stack_spec. exact W.
  - rewrite filter_set_spec, visible_spec by exact W.
    apply and_iff_compat_l. rewrite Nat.ltb_lt. split.
    + intros L. destruct (decide (o ∈ vertices (dag_graph (env_dag v)))) as [Hv|Hv].
      * apply vertices_spec in Hv. destruct Hv as (ps & Hps).
        rewrite (parents_of_spec _ _ _ _ W Hps) in L.
        destruct ps as [|p [|q ps]]; cbn in L; [lia|lia|]. eauto.
      * rewrite parents_of_none in L by exact Hv. cbn in L. lia.
    + intros (p & q & ps & H). rewrite (parents_of_spec _ _ _ _ W H). cbn. lia.
Qed.

Lemma eval_doc1 v f a Q : wf_env v -> doc1 v f (members a) 0%N = Some Q ->
  exists s, describes s (doc1 v f (members a)) /\
    forall ev e, ev v e = Ok a -> eval_fn ev v f [e] = Ok s.
Proof.
  intros [W _] D. unfold doc1 in D. cbv zeta in D.
  doc_cases D; [..|discriminate]; eexists;
    (split; [|intros ev e He; unfold eval_fn; cbn; rewrite He; reflexivity]);
    intros o; (eexists; split; [reflexivity|]); unfold members.
  - rewrite elem_of_difference. fold (visible_commits (env_dag v)). rewrite visible_spec by exact W. reflexivity.
  - apply ancestors_spec. exact W.
  - apply descendants_spec. exact W.
  - apply parents_spec.
  - apply children_spec.
  - rewrite elem_of_difference, children_spec. setoid_rewrite parents_spec. split.
    + intros [(p & (x & Hx & H1) & H2) H3]. split; [exact H3|]. eauto.
    + intros [H3 (x & p & Hx & H1 & H2)]. split; [|exact H3]. eauto.
  - apply roots_spec.
  - apply heads_spec.
  - apply stack_spec. exact W.
Qed.

Lemma eval_doc2 v f a b Q : wf_env v -> doc2 v f (members a) (members b) 0%N = Some Q ->
  exists s, describes s (doc2 v f (members a) (members b)) /\
    forall ev e1 e2, ev v e1 = Ok a -> ev v e2 = Ok b -> eval_fn ev v f [e1; e2] = Ok s.
Proof.
  intros [W _] D. unfold doc2 in D. cbv zeta in D.
  doc_cases D; [..|discriminate]; eexists;
    (split; [|intros ev e1 e2 H1 H2; unfold eval_fn; cbn; rewrite H1; cbn; rewrite H2; reflexivity]);
    intros o; (eexists; split; [reflexivity|]); unfold members.
  - apply elem_of_union.
  - apply elem_of_intersection.
  - apply elem_of_difference.
  - apply only_spec. exact W.
  - apply range_spec. exact W.
Qed.

Lemma first_parents_spec g n x o : wf_graph g -> first_ancestor_nth g x n = Some o <-> first_parents g n x o.
Proof.
  intros W. revert x. induction n as [|n IH]; intros x; cbn.
  - split; [intros [= <-]; constructor|inversion 1; reflexivity].
  - destruct (decide (x ∈ vertices g)) as [Hv|Hv].
    + apply vertices_spec in Hv. destruct Hv as (ps & Hps). rewrite (parents_of_spec _ _ _ _ W Hps). split.
      * destruct ps as [|p ps]; [discriminate|]. rewrite IH. intros H. econstructor; eassumption.
      * inversion 1 as [|? ? p qs ? Hp Hr]; subst.
        pose proof (wf_vertex_unique _ _ _ _ _ W Hps Hp) as ->. apply IH. exact Hr.
    + rewrite parents_of_none by exact Hv. split; [discriminate|].
      inversion 1 as [|? ? p qs ? Hp Hr]; subst. exfalso. apply Hv, vertices_spec. eauto.
Qed.

Lemma eval_doc_number v f a n z Q : wf_env v -> number n z -> doc_number v f (members a) z 0%N = Some Q ->
  exists s, describes s (doc_number v f (members a) z) /\
    forall ev e, ev v e = Ok a -> eval_fn ev v f [e; Name n] = Ok s.
Proof.
  intros [W _] N D. apply number_spec in N. unfold doc_number in D. cbv zeta in D.
  doc_cases D; [..|discriminate]; eexists;
    (split; [|intros ev e He; unfold eval_fn; cbn; rewrite He; cbn; rewrite N; reflexivity]);
    intros o; (eexists; split; [reflexivity|]); unfold members;
    rewrite elem_of_list_to_set, elem_of_list_In, in_flat_map;
    setoid_rewrite <- elem_of_list_In; setoid_rewrite elem_of_elements.
  - split.
    + intros (x & Hx & H). destruct (Z.leb_spec 1 z); [|now apply elem_of_nil in H].
      destruct (nth_error _ _) as [p|] eqn:E; [|now apply elem_of_nil in H].
      apply elem_of_list_singleton in H. subst p.
      destruct (decide (x ∈ vertices (dag_graph (env_dag v)))) as [Hv|Hv].
      * apply vertices_spec in Hv. destruct Hv as (ps & Hps). rewrite (parents_of_spec _ _ _ _ W Hps) in E.
        exists x, ps. rewrite <- nth_error_at. auto.
      * rewrite parents_of_none in E by exact Hv. rewrite nth_error_at in E. discriminate.
    + intros (x & ps & Hx & Hps & L & E). exists x. split; [exact Hx|].
      destruct (Z.leb_spec 1 z); [|lia].
      rewrite (parents_of_spec _ _ _ _ W Hps), nth_error_at, E. set_solver.
  - split.
    + intros (x & Hx & H). destruct (first_ancestor_nth _ _ _) as [p|] eqn:E; [|now apply elem_of_nil in H].
      apply elem_of_list_singleton in H. subst p. exists x. split; [exact Hx|].
      apply first_parents_spec; assumption.
    + intros (x & Hx & H). exists x. split; [exact Hx|]. apply first_parents_spec in H; [|exact W].
      rewrite H. set_solver.
Qed.

Lemma eval_doc_pattern v f t p Q : wf_env v -> pattern_text v t p -> doc_pattern v f p 0%N = Some Q ->
  exists s, describes s (doc_pattern v f p) /\ forall ev, eval_fn ev v f [Name t] = Ok s.
Proof.
  intros [W _] N D. apply pattern_new_spec in N. unfold doc_pattern in D. cbv zeta in D.
  doc_cases D; [..|discriminate]; eexists;
    (split; [|intros ev; unfold eval_fn; cbn; rewrite N; reflexivity]);
    intros o; (eexists; split; [reflexivity|]);
    rewrite filter_set_spec, ?visible_spec by exact W; apply and_iff_compat_l.
  - rewrite existsb_elem. split.
    + intros (n & Hn & H). destruct (strip_prefix _ n) as [x|] eqn:E; [|discriminate].
      apply strip_prefix_spec in E. subst n. exists x. rewrite <- matches_text_spec. auto.
    + intros (n & Hn & H). eexists. split; [exact Hn|]. rewrite strip_prefix_app. apply matches_text_spec. exact H.
  - apply opt_matches_spec.
  - rewrite existsb_elem. setoid_rewrite opt_matches_spec. reflexivity.
  - apply opt_matches_spec.
  - apply opt_matches_spec.
  - apply matches_date_spec.
  - apply opt_matches_spec.
  - apply opt_matches_spec.
  - apply matches_date_spec.
Qed.

(** The test functions, given how the pattern is found. *)
Lemma eval_doc_tests v f args p Q : wf_env v -> doc_tests v f p 0%N = Some Q ->
  (forall name, test_pattern v name args = Ok p) ->
  exists s, describes s (doc_tests v f p) /\ forall ev, eval_fn ev v f args = Ok s.
Proof.
  intros [W _] D N. unfold doc_tests in D. cbv zeta in D.
  doc_cases D; [..|discriminate]; eexists;
    (split; [|intros ev; unfold eval_fn; cbn; rewrite N; reflexivity]);
    intros o; (eexists; split; [reflexivity|]);
    rewrite filter_set_spec, visible_spec by exact W; apply and_iff_compat_l; rewrite existsb_elem.
  - split.
    + intros ([[c e] t] & H & M). apply andb_true_iff in M. destruct M as [M1 M2].
      apply Z.eqb_eq in M1. subst e. apply matches_text_spec in M2. eauto.
    + intros (c & t & H & M). exists (c, 0%Z, t). split; [exact H|]. cbn. apply matches_text_spec. exact M.
  - split.
    + intros ([[c e] t] & H & M). rewrite !andb_true_iff, !negb_true_iff, !Z.eqb_neq in M.
      destruct M as [[[M1 M2] M3] M4]. apply matches_text_spec in M4. eauto 9.
    + intros (c & e & t & H & M1 & M2 & M3 & M). exists (c, e, t). split; [exact H|].
      rewrite !andb_true_iff, !negb_true_iff, !Z.eqb_neq. split_and!; [assumption..|].
      apply matches_text_spec. exact M.
  - split.
    + intros ([[c e] t] & H & M). rewrite !andb_true_iff in M. destruct M as [[M1 M2] M3].
      apply Z.eqb_eq in M1. subst e. apply matches_text_spec in M2.
      destruct t as [t|]; [|discriminate]. destruct (ci_tree (env_info v o)) as [|t'] eqn:E; [discriminate|].
      apply negb_true_iff, N.eqb_neq in M3. exists c, t, t'. auto.
    + intros (c & t & t' & H & M & E & Ne). exists (c, 0%Z, Some t). split; [exact H|].
      rewrite !andb_true_iff, E, negb_true_iff, N.eqb_neq. split_and!; [reflexivity| |exact Ne].
      apply matches_text_spec. exact M.
Qed.

(** ** Newest versions *)

Lemma upto_all r : upto (events r) (default_cursor r) = events r.
Proof. rewrite default_cursor_spec. unfold upto. rewrite Nat2Z.id. apply firstn_all. Qed.

Lemma rewrite_targets_spec v os : wf_env v ->
  exists ts, rewrite_targets v os = Ok ts /\
    forall o, o ∈ ts <-> exists x, x ∈ os /\ newest (events (env_replayer v)) x o.
Proof.
  intros [_ (main & log & E)]. induction os as [|x os (ts & IH & M)]; cbn [rewrite_targets].
  - exists []. split; [reflexivity|]. intros o. split; [intros H; now apply elem_of_nil in H|].
    intros (x & H & _). now apply elem_of_nil in H.
  - assert (C : valid_cursor (env_replayer v) (default_cursor (env_replayer v))).
    { rewrite default_cursor_spec. unfold valid_cursor. lia. }
    assert (I : replay_inv (env_replayer v)) by (rewrite E; apply replay_invariant).
    destruct (find_rewrite_target_spec _ _ x I C) as (res & F & S). rewrite upto_all in S.
    rewrite F, IH. cbn [rbind]. eexists. split; [reflexivity|]. intros o.
    assert (St : (exists y, y ∈ x :: os /\ newest (events (env_replayer v)) y o) <->
                 newest (events (env_replayer v)) x o \/ o ∈ ts).
    { rewrite M. split.
      - intros (y & [->|Hy]%elem_of_cons & H); eauto.
      - intros [H|(y & Hy & H)]; [exists x|exists y]; (split; [|exact H]); [constructor|now constructor]. }
    rewrite St. destruct res as [[|x']|].
    + split; [auto|]. intros [[H|[-> H]]|H]; [| |exact H].
      * pose proof (chain_end_unique _ _ _ _ H S). discriminate.
      * exfalso. destruct S; eapply H; eassumption.
    + rewrite elem_of_cons. split; (intros [H|H]; [left|right; exact H]).
      * subst x'. left. exact S.
      * destruct H as [H|[-> H]]; [pose proof (chain_end_unique _ _ _ _ H S); congruence|].
        exfalso. destruct S; eapply H; eassumption.
    + rewrite elem_of_cons. split; (intros [H|H]; [left|right; exact H]).
      * subst o. right. auto.
      * destruct H as [H|[-> _]]; [|reflexivity]. exfalso. destruct H; eapply S; eassumption.
Qed.

(** ** All functions *)

Lemma assoc_in {A} f (l : list (string * A)) b : assoc f l = Some b -> f ∈ map fst l.
Proof.
  induction l as [|[x a] l IH]; cbn; [discriminate|]. destruct (String.eqb_spec x f) as [<-|]; [constructor|].
  intros H. constructor. auto.
Qed.

Lemma assoc_not_in {A} f (l : list (string * A)) : assoc f l = None -> f ∉ map fst l.
Proof.
  induction l as [|[x a] l IH]; cbn; [intros _ H; now apply elem_of_nil in H|].
  destruct (String.eqb_spec x f) as [<-|N]; [discriminate|].
  intros H [E|E]%elem_of_cons; [congruence|]. now apply IH.
Qed.

Lemma documented_spec f : find_function f = None <-> f ∉ documented.
Proof.
  assert (T : Forall (fun f => f ∈ documented) (map fst functions)).
  { apply (bool_decide_eq_true_1 _). vm_compute. reflexivity. }
  assert (T' : Forall (fun f => f ∈ map fst functions) documented).
  { apply (bool_decide_eq_true_1 _). vm_compute. reflexivity. }
  rewrite Forall_forall in T, T'. split.
  - intros H I. eapply assoc_not_in; [exact H|]. apply T', I.
  - intros H. destruct (find_function f) as [b|] eqn:F; [|reflexivity]. destruct H. apply T. eapply assoc_in, F.
Qed.

(** A sound evaluator of arguments gives a sound evaluator of calls. *)
Definition sound (ev : env -> expr -> result commit_set) : Prop :=
  forall v e s, wf_env v -> ev v e = Ok s -> means v e s.

Lemma eval_fn_sound ev v f args s : sound ev -> wf_env v -> eval_fn ev v f args = Ok s -> fn_means v f args s.
Proof.
  intros S W H.
  destruct (find_function f) as [b|] eqn:F.
  2: { unfold eval_fn in H. rewrite F in H. destruct (env_alias v f) as [t|] eqn:A; [|discriminate].
       destruct (parse t) as [e|] eqn:P; [|discriminate].
       eapply f_alias; [apply documented_spec; exact F|exact A|exact P|apply expands_spec; reflexivity|].
       apply S; assumption. }
  (* the shapes of arguments *)
  assert (H0 : forall Q, args = [] -> doc0 v f 0%N = Some Q -> fn_means v f args s).
  { intros Q -> D. destruct (eval_doc0 v f Q W D) as (s' & Hd & Hs). rewrite Hs in H. injection H as <-. now constructor. }
  assert (H1 : forall e a Q, args = [e] -> ev v e = Ok a -> doc1 v f (members a) 0%N = Some Q -> fn_means v f args s).
  { intros e a Q -> He D. destruct (eval_doc1 v f a Q W D) as (s' & Hd & Hs).
    rewrite (Hs ev e He) in H. injection H as <-. eapply f_1; [apply S; eassumption|exact Hd]. }
  assert (H2 : forall e1 e2 a b Q, args = [e1; e2] -> ev v e1 = Ok a -> ev v e2 = Ok b ->
                 doc2 v f (members a) (members b) 0%N = Some Q -> fn_means v f args s).
  { intros e1 e2 a b' Q -> He1 He2 D. destruct (eval_doc2 v f a b' Q W D) as (s' & Hd & Hs).
    rewrite (Hs ev e1 e2 He1 He2) in H. injection H as <-.
    eapply f_2; [apply S; eassumption|apply S; eassumption|exact Hd]. }
  assert (Hn : forall e n z a Q, args = [e; Name n] -> ev v e = Ok a -> usize_from_string n = Some z ->
                 doc_number v f (members a) z 0%N = Some Q -> fn_means v f args s).
  { intros e n z a Q -> He N D. apply number_spec in N. destruct (eval_doc_number v f a n z Q W N D) as (s' & Hd & Hs).
    rewrite (Hs ev e He) in H. injection H as <-. eapply f_number; [apply S; eassumption|exact N|exact Hd]. }
  assert (Hp : forall t p Q, args = [Name t] -> pattern_new v t = Ok p -> doc_pattern v f p 0%N = Some Q ->
                 fn_means v f args s).
  { intros t p Q -> N D. apply pattern_new_spec in N. destruct (eval_doc_pattern v f t p Q W N D) as (s' & Hd & Hs).
    rewrite Hs in H. injection H as <-. eapply f_pattern; [exact N|exact Hd]. }
  assert (Ht : forall p Q name, test_pattern v name args = Ok p -> doc_tests v f p 0%N = Some Q -> fn_means v f args s).
  { intros p Q name N D.
    assert (A : (exists t, args = [Name t] /\ pattern_new v t = Ok p) \/
                (args = [] /\ exists c, env_latest_test v = Some c /\ p = PExact c)).
    { destruct args as [|[t|g l] [|? ?]]; try discriminate N.
      - right. cbn in N. destruct (env_latest_test v) as [c|]; [|discriminate]. injection N as <-. eauto.
      - left. exists t. split; [reflexivity|]. unfold test_pattern in N. cbn in N.
        destruct (pattern_new v t); [exact N|discriminate]. }
    assert (N' : forall name, test_pattern v name args = Ok p).
    { intros name'. destruct A as [(t & -> & E)|(-> & c & E & ->)]; unfold test_pattern; cbn; rewrite E; reflexivity. }
    destruct (eval_doc_tests v f args p Q W D N') as (s' & Hd & Hs). rewrite Hs in H. injection H as <-.
    destruct A as [(t & -> & E)|(-> & c & E & ->)].
    - eapply f_tests; [apply pattern_new_spec; exact E|exact Hd].
    - eapply f_latest; eassumption. }
  unfold eval_fn in H. rewrite F in H. unfold find_function, functions in F. cbn [assoc] in F.
  repeat match type of F with
  | (if String.eqb ?x f then _ else _) = _ =>
      destruct (String.eqb_spec x f) as [<-|_]; [injection F as <-|]
  end; [..|discriminate]; cbn [eval_builtin] in H; cbv zeta in H.
  all: try match type of H with
  | rbind (eval0 _ ?args) _ = _ => solve [destruct args; [|discriminate H]; eapply H0; reflexivity]
  | rbind (eval1 _ ?v _ ?args) _ = Ok ?s => solve [
      destruct args as [|e [|? ?]]; [discriminate H| |discriminate H];
      cbn in H; destruct (ev v e) as [a|] eqn:He; [|discriminate H]; eapply H1; [reflexivity|exact He|reflexivity]]
  | rbind (eval2 _ ?v _ ?args) _ = _ => solve [
      destruct args as [|e1 [|e2 [|? ?]]]; [discriminate H|discriminate H| |discriminate H];
      cbn in H; destruct (ev v e1) as [a|] eqn:He1; [|discriminate H]; cbn in H;
      destruct (ev v e2) as [b'|] eqn:He2; [|discriminate H];
      eapply H2; [reflexivity|exact He1|exact He2|reflexivity]]
  | rbind (eval_number_rhs _ ?v _ ?args) _ = _ => solve [
      destruct args as [|e [|[n|g l] [|? ?]]]; try discriminate H;
      cbn in H; destruct (ev v e) as [a|] eqn:He; [|discriminate H]; cbn in H;
      destruct (usize_from_string n) as [z|] eqn:N; [|discriminate H];
      eapply Hn; [reflexivity|exact He|exact N|reflexivity]]
  | rbind (eval1_pattern ?v _ ?args) _ = _ => solve [
      destruct args as [|[t|g l] [|? ?]]; try discriminate H;
      cbn in H; destruct (pattern_new v t) as [p|] eqn:N; [|discriminate H];
      eapply Hp; [reflexivity|exact N|reflexivity]]
  | rbind (test_pattern ?v ?name ?args) _ = _ => solve [
      destruct (test_pattern v name args) as [p|] eqn:N; [|discriminate H]; eapply Ht; [exact N|reflexivity]]
  end.
  - (* branches *)
    destruct args as [|[t|g l] [|? ?]]; try discriminate H; [eapply H0; reflexivity|].
    cbn in H. destruct (pattern_new v t) as [p|] eqn:N; [|discriminate H].
    eapply Hp; [reflexivity|exact N|reflexivity].
  - (* stack *)
    destruct args as [|e [|? ?]]; try discriminate H; [eapply H0; reflexivity|].
    cbn in H. destruct (ev v e) as [a|] eqn:He; [|discriminate H]. eapply H1; [reflexivity|exact He|reflexivity].
  - (* exactly *)
    destruct args as [|e [|[n|g l] [|? ?]]]; try discriminate H.
    cbn in H. destruct (ev v e) as [a|] eqn:He; [|discriminate H]. cbn in H.
    destruct (usize_from_string n) as [z|] eqn:N; [|discriminate H]. cbn in H.
    destruct (Z.eqb_spec (Z.of_nat (size a)) z) as [<-|]; [|discriminate H]. injection H as <-.
    apply f_exactly; [apply S; assumption|apply number_spec; exact N].
  - (* current *)
    destruct args as [|e [|? ?]]; try discriminate H. cbn in H.
    destruct (ev (with_hidden v) e) as [a|] eqn:He; [|discriminate H]. cbn in H.
    destruct (rewrite_targets_spec (with_hidden v) (elements a) W) as (ts & Et & Ht').
    rewrite Et in H. injection H as <-. eapply f_current; [apply S; [exact W|exact He]|].
    intros o. rewrite elem_of_list_to_set, Ht'. setoid_rewrite elem_of_elements. reflexivity.
Qed.

Lemma eval_inner_sound ev : sound ev -> sound (eval_inner ev).
Proof.
  intros S v e s W H. destruct e as [n|f args]; cbn in H.
  - unfold eval_name in H. destruct (String.eqb_spec n ".") as [->|H1]; cbn in H.
    { injection H as <-. destruct (env_head v) eqn:E; [apply m_head|apply m_unborn]; auto. }
    destruct (String.eqb_spec n "@") as [->|H2]; cbn in H.
    { injection H as <-. destruct (env_head v) eqn:E; [apply m_head|apply m_unborn]; auto. }
    destruct (env_revparse v n) as [o|] eqn:E; [|discriminate]. injection H as <-. apply m_name; assumption.
  - destruct (eval_fn ev v f args) as [x|] eqn:E; [|discriminate]. injection H as <-.
    eapply m_call; [eapply eval_fn_sound; eassumption|]. intros o. apply filter_visible_spec. apply W.
Qed.

Lemma eval_sound fuel : sound (eval fuel).
Proof.
  induction fuel as [|fuel IH]; [intros v e s _ H; discriminate|]. apply eval_inner_sound. exact IH.
Qed.

(** ** More fuel does not change an answer *)

Definition le_res {A} (r r' : result A) : Prop := r = Err OutOfFuel \/ r = r'.

Lemma le_refl {A} (r : result A) : le_res r r. Proof. now right. Qed.
Lemma le_bind {A B} (r r' : result A) (k k' : A -> result B) :
  le_res r r' -> (forall a, le_res (k a) (k' a)) -> le_res (rbind r k) (rbind r' k').
Proof. intros [->| ->] H; [now left|]. destruct r' as [a|]; cbn; [apply H|apply le_refl]. Qed.

Lemma eval_fn_mono ev ev' v f args : (forall v e, le_res (ev v e) (ev' v e)) ->
  le_res (eval_fn ev v f args) (eval_fn ev' v f args).
Proof.
  intros M. unfold eval_fn.
  destruct (find_function f) as [b|].
  2: { destruct (env_alias v f) as [t|]; [|apply le_refl]. destruct (parse t); [apply M|apply le_refl]. }
  assert (M1 : forall v n, le_res (eval1 ev v n args) (eval1 ev' v n args)).
  { intros v' n. unfold eval1. destruct args as [|e [|? ?]]; try apply le_refl. apply M. }
  assert (M2 : forall n, le_res (eval2 ev v n args) (eval2 ev' v n args)).
  { intros n. unfold eval2. destruct args as [|e1 [|e2 [|? ?]]]; try apply le_refl.
    apply le_bind; [apply M|]. intros a. apply le_bind; [apply M|]. intros; apply le_refl. }
  assert (Mn : forall n, le_res (eval_number_rhs ev v n args) (eval_number_rhs ev' v n args)).
  { intros n. unfold eval_number_rhs. destruct args as [|e [|[m|g l] [|? ?]]]; try apply le_refl.
    apply le_bind; [apply M|]. intros; apply le_refl. }
  assert (M01 : forall n, le_res (eval0_or_1 ev v n args) (eval0_or_1 ev' v n args)).
  { intros n. unfold eval0_or_1. destruct args as [|e [|? ?]]; try apply le_refl.
    apply le_bind; [apply M|]. intros; apply le_refl. }
  unfold eval_builtin.
  destruct b; cbv zeta; try apply le_refl;
    (apply le_bind; [first [apply M1|apply M2|apply Mn|apply M01]|intros x; try destruct x; apply le_refl]).
Qed.

Lemma eval_mono_step fuel v e : le_res (eval fuel v e) (eval (S fuel) v e).
Proof.
  revert v e. induction fuel as [|fuel IH]; intros v e; [now left|].
  change (eval (S (S fuel)) v e) with (eval_inner (eval (S fuel)) v e).
  change (eval (S fuel) v e) with (eval_inner (eval fuel) v e) at 1.
  destruct e as [n|f args]; cbn [eval_inner]; [apply le_refl|].
  apply le_bind; [apply eval_fn_mono; exact IH|]. intros; apply le_refl.
Qed.

Lemma le_trans {A} (a b c : result A) : le_res a b -> le_res b c -> le_res a c.
Proof. intros [->| ->] H; [now left|exact H]. Qed.

Lemma eval_mono n m v e : (n <= m)%nat -> le_res (eval n v e) (eval m v e).
Proof.
  intros L. induction L as [|m L IH]; [apply le_refl|]. eapply le_trans; [exact IH|apply eval_mono_step].
Qed.

Lemma eval_more n m v e r : (n <= m)%nat -> eval n v e = r -> r <> Err OutOfFuel -> eval m v e = r.
Proof. intros L E N. destruct (eval_mono n m v e L) as [H|H]; congruence. Qed.

(** ** Completeness *)

Lemma describes_some s P : describes s P -> exists Q, P 0%N = Some Q.
Proof. intros H. destruct (H 0%N) as (Q & E & _). eauto. Qed.

Lemma eval_complete v e s : means v e s -> wf_env v -> exists fuel, eval fuel v e = Ok s.
Proof.
  intros H. revert v e s H.
  apply (means_mut (fun v e s _ => wf_env v -> exists fuel, eval fuel v e = Ok s)
    (fun v f args s _ => wf_env v -> exists fuel, eval_fn (eval fuel) v f args = Ok s)).
  - intros v n o Hn E W. exists 1%nat. cbn. unfold eval_name. destruct Hn as [->| ->]; cbn; rewrite E; reflexivity.
  - intros v n Hn E W. exists 1%nat. cbn. unfold eval_name. destruct Hn as [->| ->]; cbn; rewrite E; reflexivity.
  - intros v n o N1 N2 E W. exists 1%nat. cbn. unfold eval_name.
    destruct (String.eqb_spec n "."); [done|]. destruct (String.eqb_spec n "@"); [done|]. cbn. rewrite E. reflexivity.
  - intros v f args s s' _ IH Hs W. destruct (IH W) as (fuel & E). exists (S fuel).
    change (rbind (eval_fn (eval fuel) v f args) (fun s => Ok (filter_visible (env_dag v) s)) = Ok s').
    rewrite E. cbn. f_equal. apply set_eq. intros o. rewrite Hs. apply filter_visible_spec. apply W.
  - intros v f s D W. destruct (describes_some _ _ D) as (Q & E).
    destruct (eval_doc0 v f Q W E) as (s' & D' & H). rewrite (describes_unique _ _ _ D D'). exists O. apply H.
  - intros v f e a s _ IH D W. destruct (IH W) as (fuel & He). destruct (describes_some _ _ D) as (Q & E).
    destruct (eval_doc1 v f a Q W E) as (s' & D' & H). rewrite (describes_unique _ _ _ D D').
    exists fuel. apply H. exact He.
  - intros v f e1 e2 a b s _ IH1 _ IH2 D W. destruct (IH1 W) as (n1 & He1). destruct (IH2 W) as (n2 & He2).
    destruct (describes_some _ _ D) as (Q & E). destruct (eval_doc2 v f a b Q W E) as (s' & D' & H).
    rewrite (describes_unique _ _ _ D D'). exists (Nat.max n1 n2). apply H.
    + eapply eval_more; [|exact He1|discriminate]. lia.
    + eapply eval_more; [|exact He2|discriminate]. lia.
  - intros v f e n z a s _ IH N D W. destruct (IH W) as (fuel & He). destruct (describes_some _ _ D) as (Q & E).
    destruct (eval_doc_number v f a n z Q W N E) as (s' & D' & H). rewrite (describes_unique _ _ _ D D').
    exists fuel. apply H. exact He.
  - intros v e n a _ IH N W. destruct (IH W) as (fuel & He). exists fuel. apply number_spec in N.
    unfold eval_fn. cbn. rewrite He. cbn. rewrite N. cbn. rewrite Z.eqb_refl. reflexivity.
  - intros v f t p s N D W. destruct (describes_some _ _ D) as (Q & E).
    destruct (eval_doc_pattern v f t p Q W N E) as (s' & D' & H). rewrite (describes_unique _ _ _ D D').
    exists O. apply H.
  - intros v f t p s N D W. destruct (describes_some _ _ D) as (Q & E). apply pattern_new_spec in N.
    destruct (eval_doc_tests v f [Name t] p Q W E) as (s' & D' & H).
    { intros name. unfold test_pattern. cbn. rewrite N. reflexivity. }
    rewrite (describes_unique _ _ _ D D'). exists O. apply H.
  - intros v f c s N D W. destruct (describes_some _ _ D) as (Q & E).
    destruct (eval_doc_tests v f [] (PExact c) Q W E) as (s' & D' & H).
    { intros name. unfold test_pattern. cbn. rewrite N. reflexivity. }
    rewrite (describes_unique _ _ _ D D'). exists O. apply H.
  - intros v e a s _ IH Hs W. destruct (IH W) as (fuel & He). exists fuel.
    change (nothing_hidden v) with (with_hidden v) in He. unfold eval_fn. cbn. rewrite He. cbn.
    destruct (rewrite_targets_spec (with_hidden v) (elements a) W) as (ts & Et & Ht). rewrite Et. cbn.
    f_equal. apply set_eq. intros o. rewrite Hs, elem_of_list_to_set, Ht.
    setoid_rewrite elem_of_elements. reflexivity.
  - intros v f args t body e s F A P X _ IH W. destruct (IH W) as (fuel & He). exists fuel.
    apply documented_spec in F. apply expands_spec in X. unfold eval_fn. rewrite F, A, P, X. exact He.
Qed.

Lemma eval_spec v e s : wf_env v -> (exists fuel, eval fuel v e = Ok s) <-> means v e s.
Proof.
  intros W. split; [intros (fuel & H); eapply eval_sound; eassumption|]. intros H. apply eval_complete; assumption.
Qed.

Lemma means_unique v e s s' : wf_env v -> means v e s -> means v e s' -> s = s'.
Proof.
  intros W H H'. apply eval_spec in H, H'; [|exact W..]. destruct H as (n & E), H' as (m & E').
  pose proof (eval_more n (Nat.max n m) v e _ ltac:(lia) E ltac:(discriminate)).
  pose proof (eval_more m (Nat.max n m) v e _ ltac:(lia) E' ltac:(discriminate)). congruence.
Qed.

(** ** Errors *)

Lemma eval_arity ev v f args : f ∈ documented -> length args ∉ arities f ->
  eval_fn ev v f args = Err (ArityMismatch f (arities f) (length args)).
Proof.
  intros D L. destruct (find_function f) as [b|] eqn:F; [|now apply documented_spec in F].
  unfold eval_fn. rewrite F. unfold find_function, functions in F. cbn [assoc] in F.
  repeat match type of F with
  | (if String.eqb ?x f then _ else _) = _ =>
      destruct (String.eqb_spec x f) as [<-|_]; [injection F as <-|]
  end; [..|discriminate];
    (match type of L with _ ∉ arities ?n => let r := eval vm_compute in (arities n) in change (arities n) with r in * end);
    cbn [eval_builtin]; cbv zeta; destruct args as [|e1 [|e2 [|e3 args]]]; cbn [length] in L;
    try (exfalso; apply L; repeat constructor; fail); try destruct e1; try reflexivity; try destruct e2; reflexivity.
Qed.

(** Only an argument can run out of fuel. *)
Lemma eval_builtin_fuel ev v f b args : wf_env v -> find_function f = Some b -> eval_fn ev v f args = Err OutOfFuel ->
  exists e, e ∈ args /\ (ev v e = Err OutOfFuel \/ ev (with_hidden v) e = Err OutOfFuel).
Proof.
  intros W F H. unfold eval_fn in H. rewrite F in H. clear F.
  assert (P : forall t, pattern_new v t <> Err OutOfFuel).
  { intros t. unfold pattern_new. repeat (case_match; try discriminate). }
  assert (T : forall n, test_pattern v n args <> Err OutOfFuel).
  { intros n. unfold test_pattern, eval0_or_1_pattern, eval1_pattern.
    destruct args as [|[t|g l] [|? ?]]; cbn; try discriminate; [destruct (env_latest_test v); discriminate|].
    destruct (pattern_new v t) eqn:E; cbn; [discriminate|]. intros E'. apply (P t). congruence. }
  unfold eval_builtin in H. cbv zeta in H.
  destruct b.
  all: try match type of H with
  | rbind (eval0 _ ?args) _ = _ => solve [destruct args; discriminate H]
  | rbind (eval1_pattern _ _ ?args) _ = _ => solve [
      destruct args as [|[t|g l] [|? ?]]; try discriminate H; cbn in H;
      destruct (pattern_new v t) eqn:E; [discriminate H|]; exfalso; apply (P t); cbn in H; congruence]
  | rbind (eval0_or_1_pattern _ _ ?args) _ = _ => solve [
      destruct args as [|[t|g l] [|? ?]]; try discriminate H; cbn in H;
      destruct (pattern_new v t) eqn:E; [discriminate H|]; exfalso; apply (P t); cbn in H; congruence]
  | rbind (test_pattern _ ?n ?args) _ = _ => solve [
      destruct (test_pattern v n args) eqn:E; [discriminate H|]; exfalso; apply (T n); cbn in H; congruence]
  | rbind (eval2 _ ?v _ ?args) _ = _ => solve [
      destruct args as [|e1 [|e2 [|? ?]]]; try discriminate H; cbn in H;
      destruct (ev v e1) as [a|] eqn:E1; cbn in H;
      [|exists e1; split; [constructor|left; congruence]];
      destruct (ev v e2) as [a2|] eqn:E2; cbn in H; [discriminate H|];
      exists e2; split; [repeat constructor|left; congruence]]
  | rbind (eval0_or_1 _ ?v _ ?args) _ = _ => solve [
      destruct args as [|e1 [|? ?]]; try discriminate H; cbn in H;
      destruct (ev v e1) as [a|] eqn:E1; cbn in H; [discriminate H|];
      exists e1; split; [constructor|left; congruence]]
  | rbind (eval_number_rhs _ ?v _ ?args) _ = _ => solve [
      destruct args as [|e1 [|[n|g l] [|? ?]]]; try discriminate H; cbn in H;
      destruct (ev v e1) as [a|] eqn:E1; cbn in H;
      [|exists e1; split; [constructor|left; congruence]];
      destruct (usize_from_string n); cbn in H; try discriminate H; case_match; discriminate H]
  | rbind (eval1 _ ?v' _ ?args) _ = _ =>
      destruct args as [|e1 [|? ?]]; try discriminate H; cbn [eval1] in H;
      destruct (ev v' e1) as [a|] eqn:E1; cbn in H;
      [|exists e1; split; [constructor|first [left; congruence|right; congruence]]];
      try discriminate H
  end.
  destruct (rewrite_targets_spec (with_hidden v) (elements a) W) as (ts & E & _).
  rewrite E in H. discriminate H.
Qed.

(** ** Aliases that do not lead back to themselves *)

(** Evaluation of [e] stops. *)
Definition stops (v : env) (e : expr) : Prop := exists fuel, eval fuel v e <> Err OutOfFuel.
Definition stops2 (v : env) (e : expr) : Prop := stops v e /\ stops (with_hidden v) e.

Lemma stops_all v es : Forall (stops2 v) es ->
  exists fuel, forall e, e ∈ es -> eval fuel v e <> Err OutOfFuel /\ eval fuel (with_hidden v) e <> Err OutOfFuel.
Proof.
  induction es as [|e es IH]; intros F; [exists O; intros e H; now apply elem_of_nil in H|].
  apply Forall_cons in F. destruct F as [[(n1 & H1) (n2 & H2)] F]. destruct (IH F) as (n & H).
  set (k := Nat.max n1 (Nat.max n2 n)). exists k. assert (n1 <= k /\ n2 <= k /\ n <= k)%nat as (L1 & L2 & L3) by lia. intros x [->|Hx]%elem_of_cons.
  - split; [rewrite (eval_more n1 k v e _ L1 eq_refl H1)|
            rewrite (eval_more n2 k (with_hidden v) e _ L2 eq_refl H2)]; assumption.
  - destruct (H x Hx) as [H3 H4].
    split; [rewrite (eval_more n k v x _ L3 eq_refl H3)|
            rewrite (eval_more n k (with_hidden v) x _ L3 eq_refl H4)]; assumption.
Qed.

Lemma with_hidden_idem v : with_hidden (with_hidden v) = with_hidden v.
Proof. reflexivity. Qed.

Lemma stops2_hidden v e : stops2 v e -> stops2 (with_hidden v) e.
Proof. intros [_ H]. split; exact H. Qed.

Lemma eval_S n v f args : eval (S n) v (Call f args) =
  rbind (eval_fn (eval n) v f args) (fun s => Ok (filter_visible (env_dag v) s)).
Proof. reflexivity. Qed.

Lemma stops_call v f args fuel : eval_fn (eval fuel) v f args <> Err OutOfFuel -> stops v (Call f args).
Proof.
  intros H. exists (S fuel). rewrite eval_S. destruct (eval_fn (eval fuel) v f args) as [s|er]; cbn; [discriminate|].
  congruence.
Qed.

Lemma stops_builtin v f b args : wf_env v -> find_function f = Some b -> Forall (stops2 v) args -> stops v (Call f args).
Proof.
  intros W F A. destruct (stops_all v args A) as (fuel & H). apply (stops_call v f args fuel). intros E.
  destruct (eval_builtin_fuel _ _ _ _ _ W F E) as (e & He & [X|X]); now apply (H e He) in X.
Qed.

(** Calls of [f] stop when the arguments do. *)
Definition safe (v : env) (f : string) : Prop := forall args, Forall (stops2 v) args -> stops2 v (Call f args).

Lemma stops_body v m e : (forall x a, m !! x = Some a -> stops2 v a) -> (forall f, calls f e -> safe v f) ->
  stops2 v (replace_names m e).
Proof.
  intros M. induction e as [n|f args IH] using expr_ind'; intros S; cbn [replace_names].
  - destruct (m !! n) as [a|] eqn:E; [eauto|].
    split; exists 1%nat; cbn; unfold eval_name; repeat case_match; discriminate.
  - apply S; [constructor|]. apply Forall_forall. intros x Hx.
    apply elem_of_list_In, in_map_iff in Hx. destruct Hx as (e & <- & He). apply elem_of_list_In in He.
    rewrite Forall_forall in IH. apply IH; [exact He|]. intros g Hg. apply S. econstructor; eassumption.
Qed.

Lemma safe_aliases v rank : wf_env v -> acyclic_aliases v rank -> forall f, safe v f.
Proof.
  intros W R f. remember (rank f) as n eqn:En. revert f En.
  induction n as [n IH] using lt_wf_ind. intros f -> args A.
  assert (A' : Forall (stops2 (with_hidden v)) args)
    by (eapply Forall_impl; [exact A|]; intros ?; apply stops2_hidden).
  destruct (find_function f) as [b|] eqn:F.
  { split; eapply stops_builtin; try eassumption; exact W. }
  pose proof (proj1 (documented_spec f) F) as D.
  destruct (env_alias v f) as [t|] eqn:E.
  2: { split; (apply (stops_call _ _ _ O)); unfold eval_fn; rewrite F; cbn; rewrite E; discriminate. }
  destruct (parse t) as [body|] eqn:P.
  2: { split; (apply (stops_call _ _ _ O)); unfold eval_fn; rewrite F; cbn [with_hidden env_alias]; rewrite E, P; discriminate. }
  assert (B : stops2 v (replace_names (arg_map 1 args) body)).
  { apply stops_body.
    - intros x a H. apply arg_map_lookup in H. destruct H as (i & _ & H). rewrite Forall_forall in A. apply A.
      apply elem_of_list_In. eapply nth_error_In, H.
    - intros g Hg. destruct (find_function g) as [b|] eqn:G.
      { intros args' Ha. split; (eapply stops_builtin; [exact W|exact G|]); [exact Ha|].
        eapply Forall_impl; [exact Ha|]. intros ?. apply stops2_hidden. }
      apply documented_spec in G. apply (IH (rank g)); [|reflexivity]. eapply R; eassumption. }
  destruct B as [(n1 & H1) (n2 & H2)].
  split; [apply (stops_call _ _ _ n1)|apply (stops_call _ _ _ n2)]; unfold eval_fn; rewrite F;
    cbn [with_hidden env_alias]; rewrite E, P; assumption.
Qed.

Lemma acyclic_stops v rank e : wf_env v -> acyclic_aliases v rank -> stops v e.
Proof.
  intros W R. pose proof (safe_aliases v rank W R) as S.
  assert (H : stops2 v (replace_names ∅ e)).
  { apply stops_body; [intros x a H; now rewrite lookup_empty in H|]. intros; apply S. }
  assert (E : forall e, replace_names ∅ e = e).
  { clear. intros e. induction e as [n|f args IH] using expr_ind'; cbn; [reflexivity|].
    f_equal. induction IH; cbn; congruence. }
  rewrite E in H. apply H.
Qed.

(** ** Aliases as macros *)

Lemma expands_total args body : exists e, expands args body e /\ forall e', expands args body e' -> e' = e.
Proof.
  exists (replace_names (arg_map 1 args) body). split; [now apply expands_spec|].
  intros e' H. apply expands_spec in H. congruence.
Qed.

Lemma alias_spec v f args t body e s : wf_env v -> f ∉ documented -> env_alias v f = Some t ->
  parse t = Some body -> expands args body e ->
  (exists fuel, eval fuel v (Call f args) = Ok s) <->
  exists fuel s0, eval fuel v e = Ok s0 /\ forall o, o ∈ s <-> o ∈ s0 /\ visible (env_dag v) o.
Proof.
  intros W D A P X. apply documented_spec in D. apply expands_spec in X. split.
  - intros (fuel & H). destruct fuel as [|fuel]; [discriminate|]. rewrite eval_S in H. unfold eval_fn in H.
    rewrite D, A, P, X in H. destruct (eval fuel v e) as [s0|] eqn:E; [|discriminate].
    cbn in H. injection H as <-. exists fuel, s0. split; [exact E|]. intros o. apply filter_visible_spec, W.
  - intros (fuel & s0 & E & Hs). exists (S fuel). rewrite eval_S. unfold eval_fn. rewrite D, A, P, X, E. cbn.
    f_equal. apply set_eq. intros o. rewrite Hs. apply filter_visible_spec, W.
Qed.

(** The repository with other aliases. *)
Definition set_aliases (v : env) (al : string -> option string) : env :=
  mk_env (env_head v) (env_revparse v) (env_dag v) (env_replayer v) al (env_info v) (env_branch_names v)
    (env_glob v) (env_regex v) (env_date v) (env_latest_test v).

Lemma builtins_fixed v al : (forall f, f ∉ documented -> al f = env_alias v f) ->
  forall fuel e, eval fuel (set_aliases v al) e = eval fuel v e.
Proof.
  intros H fuel. revert v H. induction fuel as [|fuel IH]; intros v H e; [reflexivity|].
  destruct e as [n|f args]; [reflexivity|]. rewrite !eval_S. f_equal.
  unfold eval_fn. destruct (find_function f) as [b|] eqn:F.
  2: { cbn [set_aliases env_alias]. rewrite H by now apply documented_spec.
       destruct (env_alias v f); [|reflexivity]. destruct (parse _); [|reflexivity]. apply IH. exact H. }
  assert (E1 : forall n, eval1 (eval fuel) (set_aliases v al) n args = eval1 (eval fuel) v n args).
  { intros n. unfold eval1. destruct args as [|e [|? ?]]; auto. }
  assert (E1' : forall n, eval1 (eval fuel) (with_hidden (set_aliases v al)) n args = eval1 (eval fuel) (with_hidden v) n args).
  { intros n. unfold eval1. destruct args as [|e [|? ?]]; auto. apply (IH (with_hidden v)). exact H. }
  assert (E01 : forall n, eval0_or_1 (eval fuel) (set_aliases v al) n args = eval0_or_1 (eval fuel) v n args).
  { intros n. unfold eval0_or_1. destruct args as [|e [|? ?]]; auto. now rewrite IH. }
  assert (E2 : forall n, eval2 (eval fuel) (set_aliases v al) n args = eval2 (eval fuel) v n args).
  { intros n. unfold eval2. destruct args as [|e [|e2 [|? ?]]]; auto. now rewrite !IH. }
  assert (En : forall n, eval_number_rhs (eval fuel) (set_aliases v al) n args = eval_number_rhs (eval fuel) v n args).
  { intros n. unfold eval_number_rhs. destruct args as [|e [|[m|g l] [|? ?]]]; auto. now rewrite IH. }
  assert (Er : forall os, rewrite_targets (with_hidden (set_aliases v al)) os = rewrite_targets (with_hidden v) os).
  { induction os as [|o os IHo]; cbn [rewrite_targets]; [reflexivity|]. now rewrite IHo. }
  unfold eval_builtin. cbv zeta.
  destruct b; rewrite ?E1, ?E1', ?E01, ?E2, ?En; try reflexivity.
  destruct (eval1 _ _ _ _); cbn [rbind]; [|reflexivity]. now rewrite Er.
Qed.

Lemma call_visible fuel v f args s o : wf_env v -> eval fuel v (Call f args) = Ok s -> o ∈ s -> visible (env_dag v) o.
Proof.
  intros W H Ho. apply eval_sound in H; [|exact W]. inversion H as [| | |? ? ? s0 ? _ Hs]; subst. now apply Hs in Ho.
Qed.

Lemma hidden_by_name fuel v e s o : wf_env v ->
  eval fuel v e = Ok s -> o ∈ s -> ~ visible (env_dag v) o -> exists n, e = Name n /\ s = {[o]}.
Proof.
  intros W H Ho N. destruct e as [n|f args]; [|exfalso; apply N; eapply call_visible; eassumption].
  exists n. split; [reflexivity|]. apply eval_sound in H; [|exact W].
  inversion H; subst; try set_solver.
Qed.

Lemma resolved_visible fuel v text s o : wf_env v ->
  resolve_commit fuel v false text = Resolved s -> o ∈ s -> ~ visible (env_dag v) o ->
  (env_revparse v text = Some o \/ exists n, parse text = Some (Name n)) /\ s = {[o]}.
Proof.
  intros W H Ho N. unfold resolve_commit in H. cbv zeta in H.
  destruct (env_revparse v text) as [x|] eqn:E.
  - injection H as <-. apply elem_of_singleton in Ho. subst x. auto.
  - destruct (parse text) as [e|] eqn:P; [|discriminate]. destruct (eval fuel v e) as [s'|] eqn:Ev; [|discriminate].
    injection H as <-. destruct (hidden_by_name _ _ _ _ _ W Ev Ho N) as (n & -> & Hs). eauto.
Qed.

Lemma call_arity fuel v f args : f ∈ documented -> length args ∉ arities f ->
  eval (S fuel) v (Call f args) = Err (ArityMismatch f (arities f) (length args)).
Proof. intros D L. rewrite eval_S, eval_arity by assumption. reflexivity. Qed.

Lemma resolve_meaning v text s : wf_env v ->
  (exists fuel, resolve_commit fuel v false text = Resolved s) <->
  (exists o, env_revparse v text = Some o /\ s = {[o]}) \/
  (env_revparse v text = None /\ exists e, parse text = Some e /\ means v e s).
Proof.
  intros W. unfold resolve_commit. cbv zeta. destruct (env_revparse v text) as [o|].
  - split; [intros (_ & [= <-]); eauto|]. intros [(x & [= <-] & ->)|[? _]]; [|discriminate]. exists O. reflexivity.
  - destruct (parse text) as [e|].
    + split.
      * intros (fuel & H). right. split; [reflexivity|]. exists e. split; [reflexivity|].
        destruct (eval fuel v e) eqn:E; [|discriminate]. injection H as <-. eapply eval_sound; eassumption.
      * intros [(x & ? & _)|(_ & e' & [= <-] & M)]; [discriminate|].
        apply eval_spec in M; [|exact W]. destruct M as (fuel & E). exists fuel. rewrite E. reflexivity.
    + split; [intros (_ & ?); discriminate|]. intros [(x & ? & _)|(_ & e' & ? & _)]; discriminate.
Qed.

Lemma unknown_function fuel v f args : f ∉ documented ->
  (env_alias v f = None -> eval (S fuel) v (Call f args) = Err (UnboundFunction f)) /\
  (forall template, env_alias v f = Some template -> parse template = None ->
   eval (S fuel) v (Call f args) = Err (ParseAlias template)).
Proof.
  intros D. apply documented_spec in D. rewrite eval_S. unfold eval_fn. rewrite D.
  split; [intros ->; reflexivity|]. intros t -> ->. reflexivity.
Qed.

Lemma no_prefix v text body : (forall p y, p ∈ prefixes -> text <> p +:+ y) ->
  (forall x, body <> x +:+ String newline "") ->
  exists p, pattern_new v text = Ok p /\
    (matches_text p body = true <-> exists a b, body = a +:+ text +:+ b) /\
    (matches_text p (body +:+ String newline "") = true <-> exists a b, body = a +:+ text +:+ b).
Proof.
  intros P N. exists (PSubstring text). split; [apply pattern_new_spec; now constructor|].
  split; rewrite matches_text_spec; (split; [intros (b & Hb & H)|intros H; exists body]); cbn in *.
  - destruct Hb as [Hb|[-> _]]; [now apply N in Hb|exact H].
  - split; [|exact H]. right. auto.
  - destruct Hb as [Hb|[_ Hb]]; [|now destruct (Hb body)].
    apply app_char_inj in Hb. subst b. exact H.
  - split; [|exact H]. now left.
Qed.

(** The functions called in an expression, listed. *)
Fixpoint called (e : expr) : list string :=
  match e with
  | Name _ => []
  | Call f args => f :: flat_map called args
  end.
Lemma calls_called f e : calls f e -> f ∈ called e.
Proof.
  induction 1 as [args|g args e He _ IH]; cbn [called]; [constructor|]. constructor.
  apply elem_of_list_In, in_flat_map. exists e. rewrite <- !elem_of_list_In. auto.
Qed.
