(** Proofs about connected components, stacks and further graph queries. *)
From Verif Require Import Base TextModel EventLogModel DagModel DagSpec DagProofs.

Definition adj (g : graph) (a b : oid) : Prop := parent g a b \/ parent g b a.
Lemma adj_sym g a b : adj g a b -> adj g b a.
Proof. unfold adj. tauto. Qed.

Lemma neighbours_spec g s x : x ∈ parents g s ∪ children g s <-> exists y, y ∈ s /\ adj g x y.
Proof.
  rewrite elem_of_union, parents_spec, children_spec. unfold adj. split.
  - intros [(c & Hc & H)|(p & Hp & H)]; eauto.
  - intros (y & Hy & [H|H]); eauto.
Qed.

Lemma connected_sym g s a b : connected g s a b -> connected g s b a.
Proof.
  intros H. induction H as [x|x y z (H1 & H2 & H3) _ IH]; [apply rtc_refl|].
  eapply rtc_r; [exact IH|]. split; [exact H2|]. split; [exact H1|]. tauto.
Qed.

(** ** The inner loop *)

Lemma grow_spec fuel g s o : forall commits component tc,
  (size tc < fuel)%nat ->
  commits ⊆ tc -> tc ⊆ s -> component ⊆ s -> component ## tc ->
  (forall x y, x ∈ component -> y ∈ tc -> adj g x y -> y ∈ commits) ->
  (forall x, x ∈ component ∪ commits -> connected g s o x) ->
  exists C R, grow_component fuel g commits component tc = Some (C, R) /\
    C ∪ R = component ∪ tc /\ C ## R /\ component ∪ commits ⊆ C /\
    (forall x y, x ∈ C -> y ∈ R -> ~ adj g x y) /\
    (forall x, x ∈ C -> connected g s o x).
Proof.
  induction fuel as [|fuel IH]; intros commits component tc Hf H1 H2 H3 H4 H5 H6; [lia|].
  cbn [grow_component]. destruct (decide (commits = ∅)) as [->|Hne].
  - exists component, tc. split; [reflexivity|]. split; [reflexivity|]. split; [exact H4|].
    split; [set_solver|]. split.
    + intros x y Hx Hy Ha. specialize (H5 x y Hx Hy Ha). set_solver.
    + intros x Hx. apply H6. set_solver.
  - assert (Hsz : (size (tc ∖ commits) < size tc)%nat).
    { apply subset_size. apply set_choose_L in Hne. destruct Hne as [z Hz]. set_solver. }
    destruct (IH ((parents g commits ∪ children g commits) ∩ (tc ∖ commits)) (component ∪ commits) (tc ∖ commits))
      as (C & R & E & A1 & A2 & A3 & A4 & A5).
    + lia.
    + set_solver.
    + set_solver.
    + set_solver.
    + set_solver.
    + intros x y Hx Hy Ha. apply elem_of_intersection. split; [|exact Hy].
      apply elem_of_union in Hx. destruct Hx as [Hx|Hx].
      * exfalso. assert (y ∈ commits); [|set_solver]. apply (H5 x y Hx); [set_solver|exact Ha].
      * apply neighbours_spec. exists x. split; [exact Hx|apply adj_sym; exact Ha].
    + intros x Hx. apply elem_of_union in Hx. destruct Hx as [Hx|Hx]; [apply H6; exact Hx|].
      apply elem_of_intersection in Hx. destruct Hx as [Hx Hx'].
      apply neighbours_spec in Hx. destruct Hx as (y & Hy & Ha).
      eapply rtc_r; [apply (H6 y); set_solver|]. split; [set_solver|]. split; [set_solver|].
      unfold adj in Ha. tauto.
    + exists C, R. split; [exact E|]. split.
      * rewrite A1. apply set_eq. intros z. rewrite !elem_of_union, elem_of_difference.
        destruct (decide (z ∈ commits)); set_solver.
      * split; [exact A2|]. split; [set_solver|]. split; [exact A4|exact A5].
Qed.

(** ** The outer loop *)

Record comps_ok (g : graph) (s tc : commit_set) (cs : list commit_set) : Prop := {
  ok_union : ⋃ cs ∪ tc = s;
  ok_rest : ⋃ cs ## tc;
  ok_apart : forall x y, x ∈ ⋃ cs -> y ∈ tc -> ~ adj g x y;
  ok_nonempty : forall C, C ∈ cs -> C <> ∅;
  ok_disjoint : forall i j C D, cs !! i = Some C -> cs !! j = Some D -> i <> j -> C ## D;
  ok_connected : forall C x y, C ∈ cs -> x ∈ C -> y ∈ C -> connected g s x y;
  ok_closed : forall C x y, C ∈ cs -> x ∈ C -> link g s x y -> y ∈ C }.

Lemma union_snoc (cs : list commit_set) C : ⋃ (cs ++ [C]) = ⋃ cs ∪ C.
Proof. rewrite union_list_app_L. cbn. set_solver. Qed.

Lemma elem_union (cs : list commit_set) x : x ∈ ⋃ cs <-> exists C, C ∈ cs /\ x ∈ C.
Proof. apply elem_of_union_list. Qed.

Lemma comps_step g s tc cs o C R :
  comps_ok g s tc cs -> o ∈ tc ->
  C ∪ R = tc -> C ## R -> o ∈ C ->
  (forall x y, x ∈ C -> y ∈ R -> ~ adj g x y) ->
  (forall x, x ∈ C -> connected g s o x) ->
  comps_ok g s R (cs ++ [C]).
Proof.
  intros K Ho HU HD HoC HA HC. destruct K as [K1 K2 K3 K4 K5 K6 K7].
  assert (Csub : C ⊆ tc) by set_solver. assert (Rsub : R ⊆ tc) by set_solver.
  split.
  - rewrite union_snoc. set_solver.
  - rewrite union_snoc. set_solver.
  - intros x y Hx Hy. rewrite union_snoc in Hx. apply elem_of_union in Hx. destruct Hx as [Hx|Hx].
    + apply K3; [exact Hx|set_solver].
    + apply HA; assumption.
  - intros D HD'. apply elem_of_app in HD'. destruct HD' as [HD'|HD'%elem_of_list_singleton]; [auto|].
    subst. set_solver.
  - assert (Hc : forall D, D ∈ cs -> D ## C).
    { intros D HD'. apply elem_of_disjoint. intros x Hx1 Hx2.
      assert (x ∈ ⋃ cs) by (apply elem_union; eauto). set_solver. }
    intros i j D E Hi Hj Hij. apply lookup_app_Some in Hi, Hj.
    destruct Hi as [Hi|[Hi1 Hi2]]; destruct Hj as [Hj|[Hj1 Hj2]].
    + eapply K5; eassumption.
    + apply list_lookup_singleton_Some in Hj2. destruct Hj2 as [_ <-].
      apply Hc. eapply elem_of_list_lookup_2. exact Hi.
    + apply list_lookup_singleton_Some in Hi2. destruct Hi2 as [_ <-].
      symmetry. apply Hc. eapply elem_of_list_lookup_2. exact Hj.
    + apply list_lookup_singleton_Some in Hi2, Hj2. destruct Hi2 as [Hi2 _], Hj2 as [Hj2 _]. lia.
  - intros D x y HD' Hx Hy. apply elem_of_app in HD'. destruct HD' as [HD'|HD'%elem_of_list_singleton]; [eauto|].
    subst. eapply rtc_transitive; [apply connected_sym, HC; exact Hx|apply HC; exact Hy].
  - intros D x y HD' Hx Hl. apply elem_of_app in HD'. destruct HD' as [HD'|HD'%elem_of_list_singleton]; [eauto|].
    subst D. destruct Hl as (L1 & L2 & L3).
    assert (Hy : y ∈ ⋃ cs \/ y ∈ C \/ y ∈ R) by set_solver.
    destruct Hy as [Hy|[Hy|Hy]]; [|exact Hy|].
    + exfalso. apply (K3 y x); [exact Hy|set_solver|]. unfold adj. tauto.
    + exfalso. apply (HA x y); [exact Hx|exact Hy|]. unfold adj. tauto.
Qed.

Lemma components_loop_spec fuel g s : forall todo tc cs,
  (size tc < fuel)%nat ->
  comps_ok g s tc cs -> (forall x, x ∈ tc -> x ∈ todo) ->
  exists cs', components_loop fuel g todo tc cs = Some cs' /\ comps_ok g s ∅ cs'.
Proof.
  induction todo as [|o todo IH]; intros tc cs Hf K Ht; cbn [components_loop].
  - exists cs. split; [reflexivity|].
    assert (tc = ∅) as <-; [|exact K]. apply set_eq. intros x. split; [|set_solver].
    intros Hx. apply Ht in Hx. now apply elem_of_nil in Hx.
  - destruct (decide (tc = ∅)) as [->|Hne]; [exists cs; auto|].
    destruct (decide (o ∈ tc)) as [Ho|Ho].
    + destruct (grow_spec fuel g s o {[o]} ∅ tc) as (C & R & E & A1 & A2 & A3 & A4 & A5).
      * exact Hf.
      * set_solver.
      * destruct K. set_solver.
      * set_solver.
      * set_solver.
      * set_solver.
      * intros x Hx. assert (x = o) as -> by set_solver. apply rtc_refl.
      * rewrite E. assert (C ∪ R = tc) by set_solver. apply IH.
        -- assert (R ⊆ tc) as HR by set_solver. apply subseteq_size in HR. lia.
        -- eapply comps_step; try eassumption. set_solver.
        -- intros x Hx. assert (Hx' : x ∈ tc) by set_solver. apply Ht in Hx'. apply elem_of_cons in Hx'.
           destruct Hx' as [->|?]; [|assumption]. exfalso. assert (o ∈ C) by set_solver. set_solver.
    + apply IH; [exact Hf|exact K|]. intros x Hx. specialize (Ht x Hx). apply elem_of_cons in Ht.
      destruct Ht as [->|?]; [done|assumption].
Qed.

Lemma comps_start g s : comps_ok g s s [].
Proof.
  split; cbn.
  - set_solver.
  - set_solver.
  - set_solver.
  - intros C H. now apply elem_of_nil in H.
  - intros i j C D H. rewrite lookup_nil in H. discriminate.
  - intros C x y H. now apply elem_of_nil in H.
  - intros C x y H. now apply elem_of_nil in H.
Qed.

Lemma connected_components_spec g order s :
  (forall x, x ∈ s -> x ∈ order) ->
  exists cs, connected_components g order s = Some cs /\
    ⋃ cs = s /\
    (forall C, C ∈ cs -> C <> ∅) /\
    (forall i j C D, cs !! i = Some C -> cs !! j = Some D -> i <> j -> C ## D) /\
    (forall C x y, C ∈ cs -> x ∈ C -> y ∈ C <-> connected g s x y).
Proof.
  intros Ho.
  destruct (components_loop_spec (S (S (size s))) g s order s []) as (cs & E & K).
  - lia.
  - apply comps_start.
  - exact Ho.
  - destruct K as [K1 K2 K3 K4 K5 K6 K7]. assert (U : ⋃ cs = s) by set_solver.
    exists cs. unfold connected_components. rewrite E. rewrite U, intersection_idemp_L, Nat.eqb_refl.
    split; [reflexivity|]. split; [reflexivity|]. split; [exact K4|]. split; [exact K5|].
    intros C x y HC Hx. split; [eauto|]. intros H. induction H as [x|x y z H _ IH]; [exact Hx|].
    apply IH. eapply K7; eassumption.
Qed.

(** ** Range, only, common ancestors *)

Lemma range_spec g r h o : wf_graph g ->
  o ∈ range g r h <-> exists a d, a ∈ r /\ d ∈ h /\ ancestor g a o /\ ancestor g o d.
Proof.
  intros W. unfold range. rewrite elem_of_intersection, descendants_spec, ancestors_spec by exact W.
  split; [intros [(a & H1 & H2) (d & H3 & H4)]|intros (a & d & H1 & H2 & H3 & H4)]; eauto 7.
Qed.

Lemma only_spec g a b o : wf_graph g ->
  o ∈ only g a b <-> (exists d, d ∈ a /\ ancestor g o d) /\ ~ exists d, d ∈ b /\ ancestor g o d.
Proof. intros W. unfold only. rewrite elem_of_difference, !ancestors_spec by exact W. reflexivity. Qed.

Lemma common_ancestors_spec g s o : wf_graph g ->
  o ∈ common_ancestors g s <-> s <> ∅ /\ forall x, x ∈ s -> ancestor g o x.
Proof.
  intros W. unfold common_ancestors.
  assert (S1 : forall x a, a ∈ ancestors g {[x]} <-> ancestor g a x).
  { intros x a. rewrite ancestors_spec by exact W. split; [intros (d & ->%elem_of_singleton & H); exact H|].
    intros H. exists x. split; [set_solver|exact H]. }
  assert (F : forall xs acc, o ∈ fold_left (fun acc y => acc ∩ ancestors g {[y]}) xs acc <->
              o ∈ acc /\ forall x, x ∈ xs -> ancestor g o x).
  { induction xs as [|x xs IH]; intros acc; cbn.
    - split; [|tauto]. intros H. split; [exact H|]. intros x Hx. now apply elem_of_nil in Hx.
    - rewrite IH, elem_of_intersection, S1. split.
      + intros [[H1 H2] H3]. split; [exact H1|]. intros y Hy. apply elem_of_cons in Hy. destruct Hy as [->|Hy]; auto.
      + intros [H1 H2]. split; [split; [exact H1|apply H2; constructor]|]. intros y Hy. apply H2. now constructor. }
  destruct (elements s) as [|x xs] eqn:E.
  - apply elements_empty_inv, leibniz_equiv in E. subst. set_solver.
  - rewrite F, S1.
    assert (M : forall y, y ∈ s <-> y = x \/ y ∈ xs).
    { intros y. rewrite <- elem_of_elements, E, elem_of_cons. reflexivity. }
    split.
    + intros [H1 H2]. split.
      * intros ->. assert (x ∈ (∅ : commit_set)) by (apply M; auto). set_solver.
      * intros y Hy. apply M in Hy. destruct Hy as [->|Hy]; auto.
    + intros [_ H]. split; [apply H, M; auto|]. intros y Hy. apply H, M. auto.
Qed.

(** ** Sorting *)

Lemma dag_sort_mem g s o : o ∈ dag_sort g s <-> o ∈ s /\ o ∈ vertices g.
Proof.
  unfold dag_sort, vertices. rewrite elem_of_list_In, filter_In, bool_decide_eq_true, <- elem_of_list_In, elem_of_list_to_set.
  tauto.
Qed.

Lemma wf_nodup seen g : well_ordered seen g -> NoDup (List.map fst g).
Proof.
  revert seen. induction g as [|[o ps] g IH]; intros seen W; cbn; [constructor|].
  cbn in W. destruct W as (A & B & C). constructor; [|eapply IH; exact C].
  intros H. apply elem_of_list_In, in_map_iff in H. destruct H as ([o' qs] & E & H). cbn in E. subst o'.
  apply elem_of_list_In in H. destruct (well_ordered_vertex _ _ _ _ C H) as [N _]. set_solver.
Qed.

Lemma nodup_filter {A} (f : A -> bool) l : NoDup l -> NoDup (List.filter f l).
Proof.
  induction 1 as [|x l Hx _ IH]; cbn; [constructor|]. destruct (f x); [|exact IH].
  constructor; [|exact IH]. rewrite elem_of_list_In, filter_In, <- elem_of_list_In. tauto.
Qed.

Lemma dag_sort_nodup g s : wf_graph g -> NoDup (dag_sort g s).
Proof. intros W. apply nodup_filter. eapply wf_nodup. exact W. Qed.

(** In the sorted list ancestors come first. *)
Lemma dag_sort_order_aux seen g (s : commit_set) : well_ordered seen g ->
  forall l1 a l2 b l3, List.filter (fun o => bool_decide (o ∈ s)) (List.map fst g) = l1 ++ a :: l2 ++ b :: l3 ->
  (rank g a < rank g b)%nat.
Proof.
  revert seen. induction g as [|[o ps] g IH]; intros seen W l1 a l2 b l3 E; cbn in E.
  - destruct l1; discriminate.
  - pose proof (wf_nodup _ _ W) as ND. cbn in ND. cbn in W. destruct W as (_ & _ & C).
    assert (IH' := IH _ C). clear IH.
    cbn [rank]. destruct (bool_decide (o ∈ s)) eqn:B.
    + destruct l1 as [|y l1]; cbn in E; injection E as -> E.
      * rewrite N.eqb_refl. destruct (N.eqb_spec a b) as [->|]; [|lia].
        exfalso. inversion ND as [|? ? N _]; subst. apply N.
        assert (b ∈ List.filter (fun o => bool_decide (o ∈ s)) (List.map fst g)) as Hb.
        { rewrite E. apply elem_of_app. right. constructor. }
        rewrite elem_of_list_In, filter_In, <- elem_of_list_In in Hb. tauto.
      * pose proof (IH' _ _ _ _ _ E) as L.
        assert (Hm : forall z, z ∈ l1 ++ a :: l2 ++ b :: l3 -> N.eqb y z = false).
        { intros z Hz. apply N.eqb_neq. intros ->. inversion ND as [|? ? N _]; subst. apply N.
          rewrite <- E in Hz. rewrite elem_of_list_In, filter_In, <- elem_of_list_In in Hz. tauto. }
        rewrite (Hm a), (Hm b); [lia| |].
        -- apply elem_of_app. right. apply elem_of_cons. right. apply elem_of_app. right. constructor.
        -- apply elem_of_app. right. constructor.
    + pose proof (IH' _ _ _ _ _ E) as L.
      assert (Hm : forall z, z ∈ l1 ++ a :: l2 ++ b :: l3 -> N.eqb o z = false).
      { intros z Hz. apply N.eqb_neq. intros ->. rewrite <- E in Hz.
        rewrite elem_of_list_In, filter_In in Hz. destruct Hz as [_ Hz]. congruence. }
      rewrite (Hm a), (Hm b); [lia| |].
      -- apply elem_of_app. right. apply elem_of_cons. right. apply elem_of_app. right. constructor.
      -- apply elem_of_app. right. constructor.
Qed.

Lemma dag_sort_order g s l1 a l2 b l3 : wf_graph g ->
  dag_sort g s = l1 ++ a :: l2 ++ b :: l3 -> ~ proper_ancestor g b a.
Proof.
  intros W E H. apply proper_ancestor_rank in H; [|exact W].
  pose proof (dag_sort_order_aux _ _ _ W _ _ _ _ _ E). lia.
Qed.

(** ** Stacks *)

Lemma stack_spec d s o : wf_graph (dag_graph d) ->
  o ∈ stack_commits d s <->
  exists a x, visible d a /\ ~ public d a /\ x ∈ s /\ ancestor (dag_graph d) a x /\
    ancestor (dag_graph d) a o /\ visible d o /\ ~ public d o.
Proof.
  intros W. unfold stack_commits. rewrite range_spec by exact W.
  assert (R1 := fun r h o => range_spec (dag_graph d) r h o W).
  assert (R2 := fun o => draft_spec d o W).
  setoid_rewrite R1. setoid_rewrite (roots_spec (dag_graph d)). setoid_rewrite R2. split.
  - intros (a & e & (r & x & ((Hr1 & Hr2) & _) & Hx & Hra & Hax) & (He1 & He2) & Hao & Hoe).
    exists r, x. split_and!; try assumption.
    + eapply rtc_transitive; eassumption.
    + eapply rtc_transitive; eassumption.
    + eapply visible_closed; eassumption.
    + intros P. apply Hr2. eapply public_closed; [|exact P]. eapply rtc_transitive; eassumption.
  - intros (a & x & Ha1 & Ha2 & Hx & Hax & Hao & Ho1 & Ho2).
    assert (Hd : a ∈ draft_commits d) by (apply draft_spec; auto).
    destruct (above_root (dag_graph d) _ a W Hd) as (r & Hr & Hra).
    apply roots_spec in Hr. destruct Hr as [Hr1 Hr2]. apply draft_spec in Hr1; [|exact W].
    exists a, o. split_and!; try assumption; [|apply rtc_refl].
    exists r, x. split_and!; try assumption; try apply Hr1.
    intros p Hp. apply Hr2. apply draft_spec; [exact W|]. exact Hp.
Qed.

(** In a graph where draft commits have at most one draft parent, the stack of a
    draft commit is its connected component among the draft commits. *)
Lemma stack_component d x o : wf_graph (dag_graph d) ->
  (forall c p q, c ∈ draft_commits d -> p ∈ draft_commits d -> q ∈ draft_commits d ->
     parent (dag_graph d) p c -> parent (dag_graph d) q c -> p = q) ->
  x ∈ draft_commits d ->
  o ∈ stack_commits d {[x]} <-> connected (dag_graph d) (draft_commits d) x o.
Proof.
  intros W F Hx. rewrite stack_spec by exact W. set (g := dag_graph d) in *.
  assert (D := fun o => draft_spec d o W).
  assert (P : forall a b, a ∈ draft_commits d -> b ∈ draft_commits d -> ancestor g a b ->
            connected g (draft_commits d) a b).
  { intros a b Ha Hb H. induction H as [a|a c b Hac Hcb IH]; [apply rtc_refl|].
    assert (Hc : c ∈ draft_commits d).
    { apply D. apply D in Ha, Hb. split; [eapply visible_closed; [exact Hcb|apply Hb]|].
      intros Pc. apply (proj2 Ha). eapply public_closed; [|exact Pc]. apply rtc_once. exact Hac. }
    eapply rtc_l; [|apply IH; assumption]. split; [exact Ha|]. split; [exact Hc|]. left. exact Hac. }
  split.
  - intros (a & y & Ha1 & Ha2 & ->%elem_of_singleton & Hax & Hao & Ho1 & Ho2).
    assert (a ∈ draft_commits d) by (apply D; auto). assert (o ∈ draft_commits d) by (apply D; auto).
    unfold connected. transitivity a; [apply connected_sym, P; assumption|apply P; assumption].
  - intros H.
    assert (I : exists a, a ∈ draft_commits d /\ ancestor g a x /\ ancestor g a o /\ o ∈ draft_commits d).
    { revert o H. apply (rtc_ind_r (fun o => exists a, a ∈ draft_commits d /\ ancestor g a x /\ ancestor g a o /\
                              o ∈ draft_commits d) x).
      - exists x. split_and!; [exact Hx|apply rtc_refl|apply rtc_refl|exact Hx].
      - intros y z _ (Hy & Hz & Hl) (a & Ha & Hax & Hay & _).
        destruct Hl as [Hl|Hl].
        + exists a. split_and!; try assumption. eapply rtc_r; eassumption.
        + apply rtc_inv_r in Hay. destruct Hay as [<-|(p & Hap & Hpy)].
          * exists z. split_and!; try assumption; [|apply rtc_refl]. eapply rtc_l; eassumption.
          * assert (p = z) as <-.
            { apply (F y); try assumption. apply D. apply D in Hy, Ha. split.
              - eapply visible_closed; [apply rtc_once; exact Hpy|apply Hy].
              - intros Pp. apply (proj2 Ha). eapply public_closed; [exact Hap|exact Pp]. }
            exists a. auto. }
    destruct I as (a & Ha & Hax & Hao & Ho). apply D in Ha, Ho.
    exists a, x. split_and!; try apply Ha; try apply Ho; try assumption. set_solver.
Qed.

(** ** The comparison used for sorting *)

Lemma commit_cmp_ancestor g time a b : wf_graph g -> proper_ancestor g a b -> commit_cmp g time a b = Lt.
Proof.
  intros W H. unfold commit_cmp.
  assert (E : is_ancestor g a b = true) by (apply is_ancestor_spec; [exact W|apply tc_rtc; exact H]).
  rewrite E. reflexivity.
Qed.

Lemma commit_cmp_antisym g time a b : wf_graph g -> a <> b ->
  commit_cmp g time a b = CompOpp (commit_cmp g time b a).
Proof.
  intros W Hne. unfold commit_cmp.
  destruct (is_ancestor g a b) eqn:E1; destruct (is_ancestor g b a) eqn:E2; try reflexivity.
  - exfalso. apply is_ancestor_spec in E1, E2; [|exact W..]. apply Hne. eapply ancestor_antisym; eassumption.
  - rewrite (Z.compare_antisym (time b) (time a)), (N.compare_antisym b a).
    destruct (time b ?= time a)%Z; reflexivity.
Qed.

(** If times strictly grow along parent links the comparison is the
    lexicographic one, hence transitive. *)
Lemma commit_cmp_lex g time a b : wf_graph g ->
  (forall p c, parent g p c -> (time p < time c)%Z) -> a <> b ->
  commit_cmp g time a b = Lt <-> (time a < time b)%Z \/ (time a = time b /\ (a < b)%N).
Proof.
  intros W T Hne.
  assert (TA : forall x y, ancestor g x y -> x = y \/ (time x < time y)%Z).
  { intros x y H. induction H as [x|x y z H _ IH]; [auto|]. right. specialize (T x y H).
    destruct IH as [->|IH]; lia. }
  unfold commit_cmp. destruct (is_ancestor g a b) eqn:E1.
  - apply is_ancestor_spec in E1; [|exact W]. apply TA in E1. destruct E1 as [?|E1]; [done|]. tauto.
  - destruct (is_ancestor g b a) eqn:E2.
    + apply is_ancestor_spec in E2; [|exact W]. apply TA in E2. destruct E2 as [?|E2]; [congruence|].
      split; [discriminate|]. lia.
    + destruct (Z.compare_spec (time a) (time b)) as [E|E|E].
      * rewrite N.compare_lt_iff. lia.
      * tauto.
      * split; [discriminate|lia].
Qed.
