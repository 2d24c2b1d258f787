(** Proofs about the search state: bounds, reports and what they imply. *)
From Verif Require Import Base TextModel EventLogModel EvolveModel DagModel DagSpec DagProofs.
From Verif Require Import BisectModel BisectSpec.

Section Graph.
  Context (sg : search_graph).
  Notation g := (sg_graph sg).
  Notation cs := (sg_commits sg).
  Hypothesis Hwf : wf_graph g.

  Lemma sg_ancestors_spec a o : a ∈ sg_ancestors sg o <-> ancestor g a o /\ a ∈ cs.
  Proof.
    unfold sg_ancestors. rewrite elem_of_intersection, ancestors_spec by done.
    split.
    - intros [(d & Hd & Ha) Hc]. apply elem_of_singleton in Hd. subst. by split.
    - intros [Ha Hc]. split; [|done]. exists o. split; [by apply elem_of_singleton|done].
  Qed.

  Lemma sg_descendants_spec d o : d ∈ sg_descendants sg o <-> ancestor g o d /\ d ∈ cs.
  Proof.
    unfold sg_descendants. rewrite elem_of_intersection, descendants_spec by done.
    split.
    - intros [(a & Ha & Hd) Hc]. apply elem_of_singleton in Ha. subst. by split.
    - intros [Ha Hc]. split; [|done]. exists o. split; [by apply elem_of_singleton|done].
  Qed.

  Lemma sg_is_ancestor_spec a d : sg_is_ancestor sg a d = true <-> ancestor g a d /\ a ∈ cs.
  Proof. unfold sg_is_ancestor. rewrite bool_decide_eq_true. apply sg_ancestors_spec. Qed.

  Lemma ancestors_all_spec s o : o ∈ ancestors_all sg s <-> o ∈ cs /\ exists x, x ∈ s /\ ancestor g o x.
  Proof.
    unfold ancestors_all. rewrite elem_of_union_list. split.
    - intros (X & HX & Ho). apply elem_of_list_In, in_map_iff in HX as (x & <- & Hx).
      apply elem_of_list_In, elem_of_elements in Hx. apply sg_ancestors_spec in Ho as [H1 H2].
      split; [done|]. by exists x.
    - intros (Hc & x & Hx & Ha). exists (sg_ancestors sg x). split.
      + apply elem_of_list_In, in_map_iff. exists x. split; [done|]. by apply elem_of_list_In, elem_of_elements.
      + by apply sg_ancestors_spec.
  Qed.

  Lemma descendants_all_spec s o : o ∈ descendants_all sg s <-> o ∈ cs /\ exists x, x ∈ s /\ ancestor g x o.
  Proof.
    unfold descendants_all. rewrite elem_of_union_list. split.
    - intros (X & HX & Ho). apply elem_of_list_In, in_map_iff in HX as (x & <- & Hx).
      apply elem_of_list_In, elem_of_elements in Hx. apply sg_descendants_spec in Ho as [H1 H2].
      split; [done|]. by exists x.
    - intros (Hc & x & Hx & Ha). exists (sg_descendants sg x). split.
      + apply elem_of_list_In, in_map_iff. exists x. split; [done|]. by apply elem_of_list_In, elem_of_elements.
      + by apply sg_descendants_spec.
  Qed.

  Lemma ancestor_heads_spec s o : s ⊆ cs ->
    o ∈ ancestor_heads sg s <-> o ∈ s /\ forall x, x ∈ s -> ancestor g o x -> x = o.
  Proof.
    intros Hs. unfold ancestor_heads. rewrite elem_of_filter, forallb_forall. split.
    - intros [Hf Ho]. split; [done|]. intros x Hx Ha.
      assert (Hin : In x (elements s)) by (by apply elem_of_list_In, elem_of_elements).
      apply Hf, orb_true_iff in Hin as [Heq|Hn].
      + apply N.eqb_eq in Heq. done.
      + apply negb_true_iff, bool_decide_eq_false in Hn. exfalso. apply Hn.
        apply sg_ancestors_spec. split; [done|by apply Hs].
    - intros [Ho Hm]. split; [|done]. intros x Hx. apply elem_of_list_In, elem_of_elements in Hx.
      destruct (N.eqb_spec o x) as [->|Hne]; [done|]. cbn. apply negb_true_iff, bool_decide_eq_false.
      intros Ha. apply sg_ancestors_spec in Ha as [Ha _]. apply Hne. symmetry. by apply Hm.
  Qed.

  Lemma descendant_roots_spec s o : s ⊆ cs ->
    o ∈ descendant_roots sg s <-> o ∈ s /\ forall x, x ∈ s -> ancestor g x o -> x = o.
  Proof.
    intros Hs. unfold descendant_roots. rewrite elem_of_filter, forallb_forall. split.
    - intros [Hf Ho]. split; [done|]. intros x Hx Ha.
      assert (Hin : In x (elements s)) by (by apply elem_of_list_In, elem_of_elements).
      apply Hf, orb_true_iff in Hin as [Heq|Hn].
      + apply N.eqb_eq in Heq. done.
      + apply negb_true_iff, bool_decide_eq_false in Hn. exfalso. apply Hn.
        apply sg_descendants_spec. split; [done|by apply Hs].
    - intros [Ho Hm]. split; [|done]. intros x Hx. apply elem_of_list_In, elem_of_elements in Hx.
      destruct (N.eqb_spec o x) as [->|Hne]; [done|]. cbn. apply negb_true_iff, bool_decide_eq_false.
      intros Ha. apply sg_descendants_spec in Ha as [Ha _]. apply Hne. symmetry. by apply Hm.
  Qed.

  Lemma ancestor_neq_rank a d : ancestor g a d -> a <> d -> (rank g a < rank g d)%nat.
  Proof.
    intros Ha Hne. apply rtc_tc in Ha as [->|Ha]; [done|]. by apply proper_ancestor_rank.
  Qed.

  Lemma below_ancestor_head s o : s ⊆ cs -> o ∈ s -> exists h, h ∈ ancestor_heads sg s /\ ancestor g o h.
  Proof.
    intros Hs. remember (length g - rank g o)%nat as n eqn:Hn. revert o Hn.
    induction (lt_wf n) as [n _ IH]. intros o Hn Ho.
    destruct (decide (o ∈ ancestor_heads sg s)) as [Hh|Hh].
    - exists o. split; [done|apply rtc_refl].
    - assert (exists x, x ∈ s /\ ancestor g o x /\ x <> o) as (x & Hx & Ha & Hne).
      { destruct (decide (Exists (fun x => ancestor_heads sg s = ancestor_heads sg s /\ sg_is_ancestor sg o x = true /\ x <> o) (elements s))) as [He|He].
        - apply Exists_exists in He as (x & Hx & _ & Ha & Hne). exists x.
          apply elem_of_elements in Hx. apply sg_is_ancestor_spec in Ha as [Ha _]. done.
        - exfalso. apply Hh, ancestor_heads_spec; [done|]. split; [done|]. intros x Hx Ha.
          destruct (decide (x = o)) as [|Hne]; [done|]. exfalso. apply He, Exists_exists. exists x.
          split; [by apply elem_of_elements|]. split; [done|]. split; [|done].
          apply sg_is_ancestor_spec. split; [done|by apply Hs]. }
      pose proof (ancestor_neq_rank o x Ha (fun E => Hne (eq_sym E))) as Hr.
      pose proof (rank_bound g x) as Hb.
      destruct (IH (length g - rank g x)%nat ltac:(lia) x eq_refl Hx) as (h & Hh' & Hah).
      exists h. split; [done|]. exact (transitivity Ha Hah).
  Qed.

  Lemma above_descendant_root s o : s ⊆ cs -> o ∈ s -> exists r, r ∈ descendant_roots sg s /\ ancestor g r o.
  Proof.
    intros Hs. remember (rank g o)%nat as n eqn:Hn. revert o Hn.
    induction (lt_wf n) as [n _ IH]. intros o Hn Ho.
    destruct (decide (o ∈ descendant_roots sg s)) as [Hh|Hh].
    - exists o. split; [done|apply rtc_refl].
    - assert (exists x, x ∈ s /\ ancestor g x o /\ x <> o) as (x & Hx & Ha & Hne).
      { destruct (decide (Exists (fun x => sg_is_ancestor sg x o = true /\ x <> o) (elements s))) as [He|He].
        - apply Exists_exists in He as (x & Hx & Ha & Hne). exists x.
          apply elem_of_elements in Hx. apply sg_is_ancestor_spec in Ha as [Ha _]. done.
        - exfalso. apply Hh, descendant_roots_spec; [done|]. split; [done|]. intros x Hx Ha.
          destruct (decide (x = o)) as [|Hne]; [done|]. exfalso. apply He, Exists_exists. exists x.
          split; [by apply elem_of_elements|]. split; [|done].
          apply sg_is_ancestor_spec. split; [done|by apply Hs]. }
      pose proof (ancestor_neq_rank x o Ha Hne) as Hr.
      destruct (IH (rank g x)%nat ltac:(lia) x eq_refl Hx) as (h & Hh' & Hah).
      exists h. split; [done|]. exact (transitivity Hah Ha).
  Qed.

  Lemma ancestor_heads_subset s : ancestor_heads sg s ⊆ s.
  Proof. intros o Ho. by apply elem_of_filter in Ho as [_ Ho]. Qed.
  Lemma descendant_roots_subset s : descendant_roots sg s ⊆ s.
  Proof. intros o Ho. by apply elem_of_filter in Ho as [_ Ho]. Qed.

  Lemma ancestors_all_heads s o : s ⊆ cs ->
    o ∈ ancestors_all sg (ancestor_heads sg s) <-> o ∈ ancestors_all sg s.
  Proof.
    intros Hs. rewrite !ancestors_all_spec. split; intros (Hc & x & Hx & Ha); (split; [done|]).
    - exists x. split; [by apply ancestor_heads_subset|done].
    - destruct (below_ancestor_head s x Hs Hx) as (h & Hh & Hxh). exists h. split; [done|].
      exact (transitivity Ha Hxh).
  Qed.
  Lemma descendants_all_roots s o : s ⊆ cs ->
    o ∈ descendants_all sg (descendant_roots sg s) <-> o ∈ descendants_all sg s.
  Proof.
    intros Hs. rewrite !descendants_all_spec. split; intros (Hc & x & Hx & Ha); (split; [done|]).
    - exists x. split; [by apply descendant_roots_subset|done].
    - destruct (above_descendant_root s x Hs Hx) as (h & Hh & Hxh). exists h. split; [done|].
      exact (transitivity Hxh Ha).
  Qed.
End Graph.

(** ** The map of statuses *)

Lemma st_get_insert m o s o' :
  st_get (st_insert m o s) o' = if N.eqb o o' then Some s else st_get m o'.
Proof.
  induction m as [|[x sx] m IH]; cbn.
  - done.
  - destruct (N.eqb_spec x o) as [->|Hx]; cbn.
    + destruct (N.eqb_spec o o'); done.
    + rewrite IH. destruct (N.eqb_spec x o') as [->|]; [|done].
      destruct (N.eqb_spec o o') as [->|]; [done|done].
Qed.

Lemma st_insert_keys_old m o s : is_Some (st_get m o) ->
  List.map fst (st_insert m o s) = List.map fst m.
Proof.
  induction m as [|[x sx] m IH]; cbn; intros [v Hv]; [done|].
  destruct (N.eqb_spec x o) as [->|Hx]; cbn; [done|]. rewrite IH by (by exists v). done.
Qed.

Lemma st_insert_keys_new m o s : st_get m o = None ->
  List.map fst (st_insert m o s) = List.map fst m ++ [o].
Proof.
  induction m as [|[x sx] m IH]; cbn; intros Hv; [done|].
  destruct (N.eqb_spec x o) as [->|Hx]; cbn; [done|]. by rewrite IH.
Qed.

Lemma st_get_key m o : is_Some (st_get m o) <-> o ∈ List.map fst m.
Proof.
  induction m as [|[x sx] m IH]; cbn.
  - split; [intros [v Hv]; done|intros H; by apply elem_of_nil in H].
  - rewrite elem_of_cons. destruct (N.eqb_spec x o) as [->|Hx].
    + split; [by left|by eexists].
    + rewrite IH. split; [by right|]. intros [->|H]; [done|done].
Qed.

Lemma st_get_elem m o s : NoDup (List.map fst m) -> st_get m o = Some s <-> (o, s) ∈ m.
Proof.
  induction m as [|[x sx] m IH]; cbn; intros Hnd.
  - split; [done|intros H; by apply elem_of_nil in H].
  - apply NoDup_cons in Hnd as [Hx Hnd]. rewrite elem_of_cons.
    destruct (N.eqb_spec x o) as [->|Hne].
    + split.
      * intros [= ->]. by left.
      * intros [[= ->]|H]; [done|]. exfalso. apply Hx. apply elem_of_list_In, in_map_iff.
        exists (o, s). split; [done|by apply elem_of_list_In].
    + rewrite IH by done. split; [by right|]. intros [[= -> ->]|H]; done.
Qed.

Lemma st_insert_nodup m o s : NoDup (List.map fst m) -> NoDup (List.map fst (st_insert m o s)).
Proof.
  intros Hnd. destruct (st_get m o) as [v|] eqn:E.
  - by rewrite st_insert_keys_old by (by eexists).
  - rewrite st_insert_keys_new by done. apply NoDup_app. split; [done|]. split.
    + intros x Hx Hin. apply elem_of_list_singleton in Hin. subst.
      apply st_get_key in Hx as [v Hv]. congruence.
    + apply NoDup_singleton.
Qed.

Lemma with_status_spec m o s : NoDup (List.map fst m) -> o ∈ with_status s m <-> st_get m o = Some s.
Proof.
  intros Hnd. unfold with_status. rewrite elem_of_list_to_set, st_get_elem by done.
  rewrite elem_of_list_In, in_map_iff. split.
  - intros ([x sx] & Hfst & Hin). cbn in Hfst. subst. apply filter_In in Hin as [Hin Hs].
    apply bool_decide_eq_true in Hs. cbn in Hs. subst. by apply elem_of_list_In.
  - intros Hin. exists (o, s). split; [done|]. apply filter_In. split; [by apply elem_of_list_In|].
    by apply bool_decide_eq_true.
Qed.

(** ** The state after reports *)

Lemma new_nodes nodes : forall m, NoDup (List.map fst m) -> (forall o s, st_get m o = Some s -> s = Untested) ->
  let m' := fold_left (fun m o => st_insert m o Untested) nodes m in
  NoDup (List.map fst m') /\ (forall o s, st_get m' o = Some s -> s = Untested) /\
  (forall o, is_Some (st_get m' o) <-> is_Some (st_get m o) \/ o ∈ nodes).
Proof.
  induction nodes as [|n nodes IH]; cbn; intros m Hnd Hun.
  - split; [done|]. split; [done|]. intros o. rewrite elem_of_nil. tauto.
  - destruct (IH (st_insert m n Untested)) as (H1 & H2 & H3).
    + by apply st_insert_nodup.
    + intros o s Hg. rewrite st_get_insert in Hg. destruct (N.eqb n o); [congruence|by apply Hun in Hg].
    + split; [done|]. split; [done|]. intros o. rewrite H3, st_get_insert, elem_of_cons.
      destruct (N.eqb_spec n o) as [->|Hne].
      * split; [by right; left|]. intros _. left. by eexists.
      * split; [intros [H|H]; [by left|by right; right]|]. intros [H|[->|H]]; [by left|done|by right].
Qed.

Lemma new_nodes_keys nodes : forall m, NoDup (List.map fst m ++ nodes) ->
  List.map fst (fold_left (fun m o => st_insert m o Untested) nodes m) = List.map fst m ++ nodes.
Proof.
  induction nodes as [|n nodes IH]; cbn; intros m Hnd.
  - by rewrite app_nil_r.
  - assert (st_get m n = None) as Hn.
    { destruct (st_get m n) as [v|] eqn:E; [|done]. exfalso. apply NoDup_app in Hnd as (_ & Hd & _).
      apply (Hd n); [|by left]. apply st_get_key. by eexists. }
    rewrite IH.
    + rewrite st_insert_keys_new by done. by rewrite <- app_assoc.
    + rewrite st_insert_keys_new by done. by rewrite <- app_assoc.
Qed.

(** What the state of a search after a history satisfies. *)
Record search_inv (g : graph) (nodes : list oid) (h : history) (se : search) : Prop := {
  si_graph : se_graph se = SearchGraph g (list_to_set nodes);
  si_nodup : NoDup (List.map fst (se_nodes se));
  si_keys : List.map fst (se_nodes se) = List.map fst (se_nodes (search_commits g nodes));
  si_dom : forall o, is_Some (st_get (se_nodes se) o) <-> o ∈ nodes;
  si_good : forall o, (o, Good) ∈ h <-> st_get (se_nodes se) o = Some Good;
  si_bad : forall o, (o, Bad) ∈ h <-> st_get (se_nodes se) o = Some Bad;
  si_tested : forall o, o ∈ nodes -> tested h o <-> st_get (se_nodes se) o <> Some Untested;
  si_in : forall o s, (o, s) ∈ h -> o ∈ nodes /\ s <> Untested;
  si_consistent : forall x y, (x, Good) ∈ h -> (y, Bad) ∈ h -> ~ ancestor g y x;
}.

Section Inv.
  Context (g : graph) (nodes : list oid).
  Hypothesis Hwf : wf_graph g.

  Lemma known_disjoint h se o : search_inv g nodes h se -> ~ (known_good g h o /\ known_bad g h o).
  Proof.
    intros Hi [(x & Hx & Hox) (y & Hy & Hyo)]. eapply (si_consistent _ _ _ _ Hi x y Hx Hy).
    exact (transitivity Hyo Hox).
  Qed.

  Lemma good_nodes_spec h se o : search_inv g nodes h se ->
    o ∈ with_status Good (se_nodes se) <-> (o, Good) ∈ h.
  Proof. intros Hi. rewrite with_status_spec by apply Hi. by rewrite (si_good _ _ _ _ Hi). Qed.
  Lemma bad_nodes_spec h se o : search_inv g nodes h se ->
    o ∈ with_status Bad (se_nodes se) <-> (o, Bad) ∈ h.
  Proof. intros Hi. rewrite with_status_spec by apply Hi. by rewrite (si_bad _ _ _ _ Hi). Qed.

  Lemma status_subset h se s : search_inv g nodes h se ->
    with_status s (se_nodes se) ⊆ sg_commits (se_graph se).
  Proof.
    intros Hi o Ho. rewrite with_status_spec in Ho by apply Hi. rewrite (si_graph _ _ _ _ Hi). cbn.
    apply elem_of_list_to_set, (si_dom _ _ _ _ Hi). by eexists.
  Qed.

  Lemma inv_wf h se : search_inv g nodes h se -> wf_graph (sg_graph (se_graph se)).
  Proof. intros Hi. by rewrite (si_graph _ _ _ _ Hi). Qed.

  Lemma inv_graph h se : search_inv g nodes h se -> sg_graph (se_graph se) = g.
  Proof. intros Hi. by rewrite (si_graph _ _ _ _ Hi). Qed.
  Lemma inv_commits h se : search_inv g nodes h se -> sg_commits (se_graph se) = list_to_set nodes.
  Proof. intros Hi. by rewrite (si_graph _ _ _ _ Hi). Qed.

  Lemma success_bounds_spec h se o : search_inv g nodes h se ->
    o ∈ success_bounds se <-> (o, Good) ∈ h /\ forall x, (x, Good) ∈ h -> ancestor g o x -> x = o.
  Proof.
    intros Hi. unfold success_bounds.
    rewrite (ancestor_heads_spec _ (inv_wf h se Hi)) by (by eapply status_subset).
    rewrite (good_nodes_spec h se o Hi), (si_graph _ _ _ _ Hi). cbn.
    split; intros [H1 H2]; (split; [done|]); intros x Hx; apply H2; by apply (good_nodes_spec h se x Hi).
  Qed.
  Lemma failure_bounds_spec h se o : search_inv g nodes h se ->
    o ∈ failure_bounds se <-> (o, Bad) ∈ h /\ forall x, (x, Bad) ∈ h -> ancestor g x o -> x = o.
  Proof.
    intros Hi. unfold failure_bounds.
    rewrite (descendant_roots_spec _ (inv_wf h se Hi)) by (by eapply status_subset).
    rewrite (bad_nodes_spec h se o Hi), (si_graph _ _ _ _ Hi). cbn.
    split; intros [H1 H2]; (split; [done|]); intros x Hx; apply H2; by apply (bad_nodes_spec h se x Hi).
  Qed.

  Lemma implied_good_spec h se o : search_inv g nodes h se ->
    o ∈ ancestors_all (se_graph se) (success_bounds se) <-> o ∈ nodes /\ known_good g h o.
  Proof.
    intros Hi. unfold success_bounds.
    rewrite (ancestors_all_heads _ (inv_wf h se Hi)) by (by eapply status_subset).
    rewrite (ancestors_all_spec _ (inv_wf h se Hi)). rewrite (inv_commits h se Hi), (inv_graph h se Hi).
    rewrite elem_of_list_to_set. unfold known_good.
    split; intros (Hc & x & Hx & Ha); (split; [done|]); exists x; (split; [|done]); by apply (good_nodes_spec h se x Hi).
  Qed.
  Lemma implied_bad_spec h se o : search_inv g nodes h se ->
    o ∈ descendants_all (se_graph se) (failure_bounds se) <-> o ∈ nodes /\ known_bad g h o.
  Proof.
    intros Hi. unfold failure_bounds.
    rewrite (descendants_all_roots _ (inv_wf h se Hi)) by (by eapply status_subset).
    rewrite (descendants_all_spec _ (inv_wf h se Hi)). rewrite (inv_commits h se Hi), (inv_graph h se Hi).
    rewrite elem_of_list_to_set. unfold known_bad.
    split; intros (Hc & x & Hx & Ha); (split; [done|]); exists x; (split; [|done]); by apply (bad_nodes_spec h se x Hi).
  Qed.

  (** [o] is in the ancestors of a success bound iff known good, per pair. *)
  Lemma bound_above h se o : search_inv g nodes h se -> o ∈ nodes ->
    (exists x, x ∈ elements (success_bounds se) /\ sg_is_ancestor (se_graph se) o x = true) <-> known_good g h o.
  Proof.
    intros Hi Ho. pose proof (implied_good_spec h se o Hi) as Hs.
    rewrite (ancestors_all_spec _ (inv_wf h se Hi)) in Hs. split.
    - intros (x & Hx & Ha). apply Hs. apply (sg_is_ancestor_spec _ (inv_wf h se Hi)) in Ha as [Ha Hc].
      split; [done|]. exists x. by rewrite elem_of_elements in Hx.
    - intros Hk. destruct Hs as [_ Hs]. destruct (Hs (conj Ho Hk)) as (Hc & x & Hx & Ha).
      exists x. split; [by apply elem_of_elements|]. by apply (sg_is_ancestor_spec _ (inv_wf h se Hi)).
  Qed.
  Lemma bound_below h se o : search_inv g nodes h se -> o ∈ nodes ->
    (exists x, x ∈ elements (failure_bounds se) /\ sg_is_ancestor (se_graph se) x o = true) <-> known_bad g h o.
  Proof.
    intros Hi Ho. pose proof (implied_bad_spec h se o Hi) as Hs.
    rewrite (descendants_all_spec _ (inv_wf h se Hi)) in Hs. split.
    - intros (x & Hx & Ha). apply Hs. apply (sg_is_ancestor_spec _ (inv_wf h se Hi)) in Ha as [Ha Hc].
      split; [|exists x; by rewrite elem_of_elements in Hx].
      rewrite (si_graph _ _ _ _ Hi). cbn. by apply elem_of_list_to_set.
    - intros Hk. destruct Hs as [_ Hs]. destruct (Hs (conj Ho Hk)) as (Hc & x & Hx & Ha).
      exists x. split; [by apply elem_of_elements|]. apply (sg_is_ancestor_spec _ (inv_wf h se Hi)).
      split; [done|]. rewrite (si_graph _ _ _ _ Hi). cbn. apply elem_of_list_to_set.
      apply (failure_bounds_spec h se x Hi) in Hx as [Hx _]. by apply (si_in _ _ _ _ Hi) in Hx as [Hx _].
  Qed.

  Lemma find_none_iff {A} (f : A -> bool) l : List.find f l = None <-> ~ exists x, x ∈ l /\ f x = true.
  Proof.
    split.
    - intros Hf (x & Hx & Hfx). apply (find_none f l) with (x := x) in Hf; [congruence|by apply elem_of_list_In].
    - intros Hn. destruct (List.find f l) as [x|] eqn:E; [|done]. exfalso. apply find_some in E as [Hin Hfx].
      apply Hn. exists x. split; [by apply elem_of_list_In|done].
  Qed.

  Lemma search_start : search_inv g nodes [] (search_commits g nodes).
  Proof.
    destruct (new_nodes nodes [] ltac:(apply NoDup_nil_2) ltac:(done)) as (H1 & H2 & H3).
    unfold search_commits, search_new. split; cbn [se_graph se_nodes].
    - done.
    - done.
    - done.
    - intros o. rewrite H3. split; [intros [[v Hv]|H]; done|by right].
    - intros o. split; [intros H; by apply elem_of_nil in H|intros H; by apply H2 in H].
    - intros o. split; [intros H; by apply elem_of_nil in H|intros H; by apply H2 in H].
    - intros o Ho. split; [intros [s Hs]; by apply elem_of_nil in Hs|].
      intros Hne. exfalso. apply Hne. destruct (proj2 (H3 o) (or_intror Ho)) as [v Hv].
      rewrite Hv. f_equal. by eapply H2.
    - intros o s H. by apply elem_of_nil in H.
    - intros x y H. by apply elem_of_nil in H.
  Qed.

  (** Which reports are accepted. *)
  Lemma notify_accepts h se o s : search_inv g nodes h se -> o ∈ nodes ->
    (exists se', search_notify se o s = inl se') <-> compatible g h o s.
  Proof.
    intros Hi Ho. unfold search_notify.
    assert (Hgood : (o, Good) ∈ h -> known_good g h o) by (intros H; exists o; split; [done|apply rtc_refl]).
    assert (Hbad : (o, Bad) ∈ h -> known_bad g h o) by (intros H; exists o; split; [done|apply rtc_refl]).
    pose proof (si_good _ _ _ _ Hi o) as HG. pose proof (si_bad _ _ _ _ Hi o) as HB.
    pose proof (bound_above h se o Hi Ho) as HA. pose proof (bound_below h se o Hi Ho) as HBe.
    pose proof (known_disjoint h se o Hi) as Hd.
    assert (HfA := find_none_iff (fun x => sg_is_ancestor (se_graph se) o x) (elements (success_bounds se))).
    assert (HfB := find_none_iff (fun f => sg_is_ancestor (se_graph se) f o) (elements (failure_bounds se))).
    destruct s; cbn [compatible].
    - destruct (st_get (se_nodes se) o) as [[| | |]|]; cbn; split.
      1,7,9: by intros [se' _]; split; intros [=]%HG || intros [=]%HB.
      all: try (by intros _; eexists).
      all: try (by intros [se' [=]]).
      + intros [H _]. exfalso. by apply H, HG.
      + intros [_ H]. exfalso. by apply H, HB.
    - destruct (st_get (se_nodes se) o) as [[| | |]|] eqn:Est; cbn.
      3:{ split; [by intros [se' [=]]|]. intros H. exfalso. apply H, Hbad. by apply HB. }
      all: destruct (List.find (fun f => sg_is_ancestor (se_graph se) f o) (elements (failure_bounds se))) as [f|] eqn:Ef;
        split; [intros [se' [=]]|intros H; exfalso; assert (Hx : ~ Some f = None) by done; apply Hx, HfB;
                intros He; apply H; by apply HBe
               |intros _ Hk; apply HBe in Hk; by apply HfB in Hk|by intros _; eexists].
    - destruct (st_get (se_nodes se) o) as [[| | |]|] eqn:Est; cbn.
      2:{ split; [by intros [se' [=]]|]. intros H. exfalso. apply H, Hgood. by apply HG. }
      all: destruct (List.find (fun x => sg_is_ancestor (se_graph se) o x) (elements (success_bounds se))) as [f|] eqn:Ef;
        split; [intros [se' [=]]|intros H; exfalso; assert (Hx : ~ Some f = None) by done; apply Hx, HfA;
                intros He; apply H; by apply HA
               |intros _ Hk; apply HA in Hk; by apply HfA in Hk|by intros _; eexists].
    - destruct (st_get (se_nodes se) o) as [[| | |]|]; cbn; split.
      1,7,9: by intros [se' _]; split; intros [=]%HG || intros [=]%HB.
      all: try (by intros _; eexists).
      all: try (by intros [se' [=]]).
      + intros [H _]. exfalso. by apply H, HG.
      + intros [_ H]. exfalso. by apply H, HB.
  Qed.

  Lemma notify_state se o s se' : search_notify se o s = inl se' ->
    se' = Search (se_graph se) (st_insert (se_nodes se) o s).
  Proof.
    unfold search_notify. intros H.
    repeat match type of H with context [match ?x with _ => _ end] => destruct x end; congruence.
  Qed.

  Lemma tested_snoc h o s x : tested (h ++ [(o, s)]) x <-> tested h x \/ x = o.
  Proof.
    unfold tested. split.
    - intros [t Ht]. apply elem_of_app in Ht as [Ht|Ht]; [left; by exists t|].
      apply elem_of_list_singleton in Ht. right. congruence.
    - intros [[t Ht]| ->]; [exists t; apply elem_of_app; by left|exists s; apply elem_of_app; right; by left].
  Qed.

  Lemma elem_of_snoc (h : history) p x : x ∈ h ++ [p] <-> x ∈ h \/ x = p.
  Proof. rewrite elem_of_app, elem_of_list_singleton. done. Qed.

  Lemma notify_inv h se o s se' : search_inv g nodes h se -> o ∈ nodes -> s <> Untested ->
    search_notify se o s = inl se' -> search_inv g nodes (h ++ [(o, s)]) se'.
  Proof.
    intros Hi Ho Hs Hn.
    assert (Hc : compatible g h o s) by (apply (notify_accepts h se o s Hi Ho); by eexists).
    apply notify_state in Hn as ->.
    assert (Hsome : is_Some (st_get (se_nodes se) o)) by (by apply (si_dom _ _ _ _ Hi)).
    assert (Hrefl : ancestor g o o) by apply rtc_refl.
    split; cbn [se_graph se_nodes].
    - apply Hi.
    - apply st_insert_nodup, Hi.
    - rewrite st_insert_keys_old by done. apply Hi.
    - intros x. rewrite st_get_insert. destruct (N.eqb_spec o x) as [->|Hne]; [|apply Hi].
      split; [done|by eexists].
    - intros x. rewrite st_get_insert, elem_of_snoc, (si_good _ _ _ _ Hi).
      destruct (N.eqb_spec o x) as [->|Hne].
      + split; [|intros [= ->]; by right]. intros [H|[= <-]]; [|done].
        apply (si_good _ _ _ _ Hi) in H. destruct s; cbn in Hc; try done.
        * exfalso. apply Hc. by exists x.
        * exfalso. by apply (proj1 Hc).
      + split; [intros [H|[= <-]]; done|by left].
    - intros x. rewrite st_get_insert, elem_of_snoc, (si_bad _ _ _ _ Hi).
      destruct (N.eqb_spec o x) as [->|Hne].
      + split; [|intros [= ->]; by right]. intros [H|[= <-]]; [|done].
        apply (si_bad _ _ _ _ Hi) in H. destruct s; cbn in Hc; try done.
        * exfalso. apply Hc. by exists x.
        * exfalso. by apply (proj2 Hc).
      + split; [intros [H|[= <-]]; done|by left].
    - intros x Hx. rewrite tested_snoc, st_get_insert, (si_tested _ _ _ _ Hi) by done.
      destruct (N.eqb_spec o x) as [->|Hne].
      + split; [intros _ [= ->]; done|by right].
      + split; [intros [H| ->]; done|by left].
    - intros x t Hx. apply elem_of_snoc in Hx as [Hx|[= -> ->]]; [by apply (si_in _ _ _ _ Hi)|done].
    - intros x y Hx Hy Ha. apply elem_of_snoc in Hx as [Hx|[= -> <-]]; apply elem_of_snoc in Hy as [Hy|[= -> Hy]].
      + by eapply (si_consistent _ _ _ _ Hi).
      + subst s. apply Hc. by exists x.
      + apply Hc. by exists y.
  Qed.

  Lemma searching_inv h se : searching g nodes h se -> search_inv g nodes h se.
  Proof.
    induction 1 as [|h se o s se' _ IH Ho Hs Hn]; [apply search_start|by eapply notify_inv].
  Qed.
End Inv.

(** A rejected report names a true contradiction. *)
Lemma notify_error_true g nodes h se o s e : wf_graph g -> search_inv g nodes h se ->
  search_notify se o s = inr e ->
  (exists from, e = IllegalStateTransition o from s /\ (o, from) ∈ h /\ from <> s) \/
  (exists a, e = InconsistentStateTransition a Bad o Good /\ s = Good /\ (a, Bad) ∈ h /\ ancestor g a o) \/
  (exists d, e = InconsistentStateTransition o Bad d Good /\ s = Bad /\ (d, Good) ∈ h /\ ancestor g o d).
Proof.
  intros Hwf Hi. pose proof (inv_wf g nodes Hwf h se Hi) as Hwf'. unfold search_notify.
  assert (Hrest : match
      match s with
      | Untested | Indeterminate => None
      | Good =>
        match List.find (fun f => sg_is_ancestor (se_graph se) f o) (elements (failure_bounds se)) with
        | Some f => Some (InconsistentStateTransition f Bad o Good)
        | None => None
        end
      | Bad =>
        match List.find (fun x => sg_is_ancestor (se_graph se) o x) (elements (success_bounds se)) with
        | Some x => Some (InconsistentStateTransition o Bad x Good)
        | None => None
        end
      end with Some e => inr e | None => inl (Search (se_graph se) (st_insert (se_nodes se) o s)) end = inr e ->
    (exists a, e = InconsistentStateTransition a Bad o Good /\ s = Good /\ (a, Bad) ∈ h /\ ancestor g a o) \/
    (exists d, e = InconsistentStateTransition o Bad d Good /\ s = Bad /\ (d, Good) ∈ h /\ ancestor g o d)).
  { destruct s; [intros [=]| | |intros [=]].
    - destruct (List.find _ _) as [f|] eqn:E; intros [= <-]. left. exists f. apply find_some in E as [E1 E2].
      apply elem_of_list_In, elem_of_elements in E1. apply (failure_bounds_spec g nodes Hwf h se f Hi) in E1 as [E1 _].
      apply sg_is_ancestor_spec in E2 as [E2 _]; [|done]. rewrite (inv_graph g nodes h se Hi) in E2. done.
    - destruct (List.find _ _) as [f|] eqn:E; intros [= <-]. right. exists f. apply find_some in E as [E1 E2].
      apply elem_of_list_In, elem_of_elements in E1. apply (success_bounds_spec g nodes Hwf h se f Hi) in E1 as [E1 _].
      apply sg_is_ancestor_spec in E2 as [E2 _]; [|done]. rewrite (inv_graph g nodes h se Hi) in E2. done. }
  destruct (st_get (se_nodes se) o) as [[| | |]|] eqn:Est; try (intros H; right; exact (Hrest H)).
  - destruct (bool_decide (s = Good)) eqn:Es; [intros H; right; exact (Hrest H)|].
    intros [= <-]. left. exists Good. apply bool_decide_eq_false in Es.
    split; [done|]. split; [by apply (si_good _ _ _ _ Hi)|congruence].
  - destruct (bool_decide (s = Bad)) eqn:Es; [intros H; right; exact (Hrest H)|].
    intros [= <-]. left. exists Bad. apply bool_decide_eq_false in Es.
    split; [done|]. split; [by apply (si_bad _ _ _ _ Hi)|congruence].
Qed.
