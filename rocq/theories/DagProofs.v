(** Proofs about the commit graph. *)
From Verif Require Import Base TextModel TextProofs EventLogModel EventLogSpec EventLogProofs
  EventLogNavProofs EventLogRefProofs EvolveModel EvolveSpec EvolveProofs DagModel DagSpec.

Lemma existsb_in (s : commit_set) (l : list oid) :
  existsb (fun x => bool_decide (x ∈ s)) l = true <-> exists x, x ∈ l /\ x ∈ s.
Proof.
  rewrite existsb_exists. split.
  - intros (x & H1 & H2). apply bool_decide_eq_true in H2. exists x. split; [apply elem_of_list_In|]; assumption.
  - intros (x & H1 & H2). exists x. split; [apply elem_of_list_In; assumption|]. apply bool_decide_eq_true. assumption.
Qed.

(** ** Basic sets *)

Lemma vertices_spec g o : o ∈ vertices g <-> exists ps, (o, ps) ∈ g.
Proof.
  unfold vertices. rewrite elem_of_list_to_set, elem_of_list_In, in_map_iff. split.
  - intros ([o' ps] & <- & H). exists ps. apply elem_of_list_In. exact H.
  - intros (ps & H). exists (o, ps). split; [reflexivity|]. apply elem_of_list_In. exact H.
Qed.

Lemma parents_spec g s p : p ∈ parents g s <-> exists c, c ∈ s /\ parent g p c.
Proof.
  unfold parents, parent. rewrite elem_of_list_to_set, elem_of_list_In, in_flat_map. split.
  - intros ([c ps] & H1 & H2). cbn in H2. destruct (decide (c ∈ s)) as [Hc|]; [|destruct H2].
    exists c. split; [exact Hc|]. exists ps. split; apply elem_of_list_In; assumption.
  - intros (c & Hc & ps & H1 & H2). exists (c, ps). split; [apply elem_of_list_In; exact H1|]. cbn.
    rewrite decide_True by exact Hc. apply elem_of_list_In. exact H2.
Qed.

Lemma children_spec g s c : c ∈ children g s <-> exists p, p ∈ s /\ parent g p c.
Proof.
  unfold children, parent. rewrite elem_of_list_to_set, elem_of_list_In, in_map_iff. split.
  - intros ([c' ps] & <- & H). apply filter_In in H. destruct H as [H1 H2].
    apply existsb_in in H2. destruct H2 as (p & Hp1 & Hp2).
    exists p. split; [exact Hp2|]. exists ps. split; [apply elem_of_list_In; exact H1|exact Hp1].
  - intros (p & Hp & ps & H1 & H2). exists (c, ps). split; [reflexivity|]. apply filter_In.
    split; [apply elem_of_list_In; exact H1|]. apply existsb_in. eauto.
Qed.

(** ** Well-formed graphs *)

Lemma well_ordered_app seen g1 g2 :
  well_ordered seen (g1 ++ g2) <-> well_ordered seen g1 /\ well_ordered (vertices g1 ∪ seen) g2.
Proof.
  revert seen. induction g1 as [|[o ps] g1 IH]; intros seen; cbn [app well_ordered].
  - assert (vertices [] ∪ seen = seen) as -> by (unfold vertices; set_solver). tauto.
  - rewrite IH. assert (vertices ((o, ps) :: g1) ∪ seen = vertices g1 ∪ ({[o]} ∪ seen)) as -> by (unfold vertices; set_solver).
    tauto.
Qed.

Lemma well_ordered_vertex seen g o ps :
  well_ordered seen g -> (o, ps) ∈ g -> o ∉ seen /\ forall p, p ∈ ps -> p ∈ vertices g ∪ seen.
Proof.
  revert seen. induction g as [|[o' ps'] g IH]; intros seen H Hin; [now apply elem_of_nil in Hin|].
  cbn in H. destruct H as (H1 & H2 & H3). apply elem_of_cons in Hin. destruct Hin as [E|Hin].
  - injection E as -> ->. split; [exact H1|]. intros p Hp. specialize (H2 p Hp). set_solver.
  - destruct (IH _ H3 Hin) as [A B]. split; [set_solver|]. intros p Hp. specialize (B p Hp).
    unfold vertices in *. set_solver.
Qed.

Lemma wf_vertex_unique seen g o ps ps' :
  well_ordered seen g -> (o, ps) ∈ g -> (o, ps') ∈ g -> ps = ps'.
Proof.
  revert seen. induction g as [|[o' qs] g IH]; intros seen H H1 H2; [now apply elem_of_nil in H1|].
  cbn in H. destruct H as (A & B & C).
  apply elem_of_cons in H1, H2. destruct H1 as [E1|H1]; destruct H2 as [E2|H2].
  - congruence.
  - injection E1 as -> ->. destruct (well_ordered_vertex _ _ _ _ C H2) as [N _]. set_solver.
  - injection E2 as -> ->. destruct (well_ordered_vertex _ _ _ _ C H1) as [N _]. set_solver.
  - eapply IH; eassumption.
Qed.

Lemma parents_of_spec seen g o ps : well_ordered seen g -> (o, ps) ∈ g -> parents_of g o = ps.
Proof.
  revert seen. induction g as [|[o' qs] g IH]; intros seen H H1; [now apply elem_of_nil in H1|].
  cbn. destruct (N.eqb_spec o' o) as [->|Hne].
  - symmetry. eapply wf_vertex_unique; [exact H|exact H1|constructor].
  - apply elem_of_cons in H1. destruct H1 as [E|H1]; [congruence|]. cbn in H. eapply IH; [apply H|exact H1].
Qed.

Lemma parents_of_none g o : o ∉ vertices g -> parents_of g o = [].
Proof.
  induction g as [|[o' qs] g IH]; intros H; [reflexivity|]. cbn.
  destruct (N.eqb_spec o' o) as [->|Hne].
  - exfalso. apply H. apply vertices_spec. exists qs. constructor.
  - apply IH. intros H'. apply H. apply vertices_spec in H'. destruct H' as [ps H'].
    apply vertices_spec. exists ps. now constructor.
Qed.

Lemma parent_parents_of g p c : wf_graph g -> parent g p c <-> p ∈ parents_of g c.
Proof.
  intros W. split.
  - intros (ps & H1 & H2). rewrite (parents_of_spec _ _ _ _ W H1). exact H2.
  - intros H. destruct (decide (c ∈ vertices g)) as [Hc|Hc].
    + apply vertices_spec in Hc. destruct Hc as [ps Hc]. exists ps. split; [exact Hc|].
      rewrite (parents_of_spec _ _ _ _ W Hc) in H. exact H.
    + rewrite parents_of_none in H by exact Hc. now apply elem_of_nil in H.
Qed.

Lemma parent_vertices g p c : wf_graph g -> parent g p c -> p ∈ vertices g /\ c ∈ vertices g.
Proof.
  intros W (ps & H1 & H2). split.
  - destruct (well_ordered_vertex _ _ _ _ W H1) as [_ B]. specialize (B p H2). set_solver.
  - apply vertices_spec. eauto.
Qed.

(** Position in the list, used as a rank. *)
Fixpoint rank (g : graph) (o : oid) : nat :=
  match g with
  | [] => 0
  | (o', _) :: g' => if N.eqb o' o then 0 else S (rank g' o)
  end.

Lemma parent_rank_aux seen g p c ps :
  well_ordered seen g -> (c, ps) ∈ g -> p ∈ ps -> (rank g p < rank g c)%nat \/ p ∈ seen.
Proof.
  revert seen. induction g as [|[o qs] g IH]; intros seen H Hin Hp; [now apply elem_of_nil in Hin|].
  cbn in H. destruct H as (A & B & C). apply elem_of_cons in Hin. destruct Hin as [E|Hin].
  - injection E as -> ->. right. auto.
  - cbn. destruct (N.eqb_spec o c) as [->|Hne].
    + destruct (well_ordered_vertex _ _ _ _ C Hin) as [N _]. set_solver.
    + destruct (N.eqb_spec o p) as [->|Hne']; [lia|].
      destruct (IH _ C Hin Hp) as [L|L]; [lia|]. right. set_solver.
Qed.

Lemma parent_rank g p c : wf_graph g -> parent g p c -> (rank g p < rank g c)%nat.
Proof.
  intros W (ps & H1 & H2). destruct (parent_rank_aux _ _ _ _ _ W H1 H2) as [L|L]; [exact L|set_solver].
Qed.

Lemma proper_ancestor_rank g a d : wf_graph g -> proper_ancestor g a d -> (rank g a < rank g d)%nat.
Proof.
  intros W H. induction H as [x y H|x y z H _ IH].
  - apply parent_rank; assumption.
  - pose proof (parent_rank g x y W H). lia.
Qed.

Lemma wf_acyclic g a : wf_graph g -> ~ proper_ancestor g a a.
Proof. intros W H. apply proper_ancestor_rank in H; [lia|exact W]. Qed.

Lemma ancestor_rank g a d : wf_graph g -> ancestor g a d -> (rank g a <= rank g d)%nat.
Proof.
  intros W H. induction H as [x|x y z H _ IH]; [lia|]. pose proof (parent_rank g x y W H). lia.
Qed.

Lemma ancestor_antisym g a b : wf_graph g -> ancestor g a b -> ancestor g b a -> a = b.
Proof.
  intros W H1 H2. destruct H1 as [x|x y z H H1]; [reflexivity|].
  pose proof (parent_rank g x y W H). apply ancestor_rank in H1, H2; [|assumption..]. lia.
Qed.

(** ** Ancestors and descendants *)

Lemma ancestor_cons_mono x g a d : ancestor g a d -> ancestor (x :: g) a d.
Proof.
  intros H. induction H as [|y z w (ps & H1 & H2) _ IH]; [apply rtc_refl|].
  eapply rtc_l; [|exact IH]. exists ps. split; [now constructor|exact H2].
Qed.

Lemma ancestors_spec_gen seen g s a :
  well_ordered seen g ->
  a ∈ ancestors g s <-> exists d, d ∈ s /\ ancestor g a d.
Proof.
  revert seen a. induction g as [|[o ps] g IH]; intros seen a W.
  - cbn. split.
    + intros H. exists a. split; [exact H|apply rtc_refl].
    + intros (d & Hd & H). inversion H as [|? y ? (? & H1 & _)]; subst; [exact Hd|]. now apply elem_of_nil in H1.
  - cbn in W. destruct W as (A & B & C). cbn [ancestors fold_right fst snd]. fold (ancestors g s).
    assert (IH' := fun a => IH _ a C). clear IH. rename IH' into IH.
    (* nothing in [g] is a parent of [o], so a path leaves [g] only through [o] *)
    assert (P : forall x y, parent ((o, ps) :: g) x y <-> (y = o /\ x ∈ ps) \/ parent g x y).
    { intros x y. split.
      - intros (qs & H1 & H2). apply elem_of_cons in H1. destruct H1 as [E|H1].
        + injection E as -> ->. auto.
        + right. exists qs. auto.
      - intros [[-> H]|(qs & H1 & H2)].
        + exists ps. split; [constructor|exact H].
        + exists qs. split; [now constructor|exact H2]. }
    (* parents of [o] have no further parents *)
    assert (Q : forall x y, y ∈ ps -> ~ parent ((o, ps) :: g) x y).
    { intros x y Hy Hxy. apply P in Hxy. destruct Hxy as [[-> Hx]|(qs & H1 & _)].
      - apply A. auto.
      - destruct (well_ordered_vertex _ _ _ _ C H1) as [N _]. apply N. set_solver. }
    assert (R : forall x d, ancestor ((o, ps) :: g) x d ->
              ancestor g x d \/ (x ∈ ps /\ ancestor g o d)).
    { intros x d H. induction H as [x|x y z Hxy Hyz IHp]; [left; apply rtc_refl|].
      apply P in Hxy. destruct IHp as [IHp|[IHp1 IHp2]].
      - destruct Hxy as [[-> Hx]|Hxy]; [right; auto|]. left. eapply rtc_l; eassumption.
      - exfalso. destruct Hxy as [[-> Hx]|Hxy].
        + apply A. auto.
        + apply (Q x y IHp1). apply P. auto. }
    destruct (decide (o ∈ ancestors g s)) as [Ho|Ho].
    + rewrite elem_of_union, elem_of_list_to_set, IH. apply IH in Ho. destruct Ho as (d0 & Hd0 & Ho).
      split.
      * intros [(d & Hd & H)|H].
        -- exists d. split; [exact Hd|]. apply ancestor_cons_mono. exact H.
        -- exists d0. split; [exact Hd0|]. eapply rtc_l; [apply P; left; split; [reflexivity|exact H]|].
           apply ancestor_cons_mono. exact Ho.
      * intros (d & Hd & H). apply R in H. destruct H as [H|[H _]]; [left; eauto|auto].
    + rewrite IH. split.
      * intros (d & Hd & H). exists d. split; [exact Hd|]. apply ancestor_cons_mono. exact H.
      * intros (d & Hd & H). apply R in H. destruct H as [H|[_ H]]; [eauto|].
        exfalso. apply Ho. apply IH. eauto.
Qed.

Lemma ancestors_spec g s a :
  wf_graph g -> a ∈ ancestors g s <-> exists d, d ∈ s /\ ancestor g a d.
Proof. apply ancestors_spec_gen. Qed.

Lemma descendants_spec_gen seen g s d :
  well_ordered seen g ->
  d ∈ descendants g s <-> exists a, a ∈ s /\ ancestor g a d.
Proof.
  revert seen s. induction g as [|[o ps] g IH]; intros seen s W.
  - cbn. split.
    + intros H. exists d. split; [exact H|apply rtc_refl].
    + intros (a & Ha & H). inversion H as [|? y ? (? & H1 & _)]; subst; [exact Ha|]. now apply elem_of_nil in H1.
  - cbn in W. destruct W as (A & B & C). cbn [descendants fold_left fst snd].
    match goal with |- context [fold_left _ g ?s'] => fold (descendants g s') end.
    rewrite (IH _ _ C). clear IH.
    assert (P : forall x y, parent ((o, ps) :: g) x y <-> (y = o /\ x ∈ ps) \/ parent g x y).
    { intros x y. split.
      - intros (qs & H1 & H2). apply elem_of_cons in H1. destruct H1 as [E|H1].
        + injection E as -> ->. auto.
        + right. exists qs. auto.
      - intros [[-> H]|(qs & H1 & H2)].
        + exists ps. split; [constructor|exact H].
        + exists qs. split; [now constructor|exact H2]. }
    assert (Q : forall x y, y ∈ ps -> ~ parent ((o, ps) :: g) x y).
    { intros x y Hy Hxy. apply P in Hxy. destruct Hxy as [[-> Hx]|(qs & H1 & _)].
      - apply A. auto.
      - destruct (well_ordered_vertex _ _ _ _ C H1) as [N _]. apply N. set_solver. }
    assert (R : forall x d, ancestor ((o, ps) :: g) x d ->
              ancestor g x d \/ (x ∈ ps /\ ancestor g o d)).
    { intros x d' H. induction H as [x|x y z Hxy Hyz IHp]; [left; apply rtc_refl|].
      apply P in Hxy. destruct IHp as [IHp|[IHp1 IHp2]].
      - destruct Hxy as [[-> Hx]|Hxy]; [right; auto|]. left. eapply rtc_l; eassumption.
      - exfalso. destruct Hxy as [[-> Hx]|Hxy].
        + apply A. auto.
        + apply (Q x y IHp1). apply P. auto. }
    unfold has_parent_in. cbn [snd fst].
    destruct (existsb (fun x => bool_decide (x ∈ s)) ps) eqn:E.
    + apply existsb_in in E. destruct E as (p & Hp1 & Hp2). split.
      * intros (a & Ha & H). apply elem_of_union in Ha. destruct Ha as [Ha|Ha].
        -- apply elem_of_singleton in Ha. subst a. exists p. split; [exact Hp2|].
           eapply rtc_l; [apply P; left; split; [reflexivity|exact Hp1]|]. apply ancestor_cons_mono. exact H.
        -- exists a. split; [exact Ha|]. apply ancestor_cons_mono. exact H.
      * intros (a & Ha & H). apply R in H. destruct H as [H|[_ H]].
        -- exists a. split; [set_solver|exact H].
        -- exists o. split; [set_solver|exact H].
    + split.
      * intros (a & Ha & H). exists a. split; [exact Ha|]. apply ancestor_cons_mono. exact H.
      * intros (a & Ha & H). apply R in H. destruct H as [H|[Hp H]]; [eauto|].
        exfalso. assert (X : existsb (fun x => bool_decide (x ∈ s)) ps = true) by (apply existsb_in; eauto).
        congruence.
Qed.

Lemma descendants_spec g s d :
  wf_graph g -> d ∈ descendants g s <-> exists a, a ∈ s /\ ancestor g a d.
Proof. apply descendants_spec_gen. Qed.

Lemma is_ancestor_spec g a d : wf_graph g -> is_ancestor g a d = true <-> ancestor g a d.
Proof.
  intros W. unfold is_ancestor. rewrite bool_decide_eq_true, ancestors_spec by exact W.
  split; [intros (x & ->%elem_of_singleton & H); exact H|]. intros H. exists d. split; [set_solver|exact H].
Qed.

Lemma ancestors_ext s s' g : wf_graph g -> (forall d, d ∈ s -> exists d', d' ∈ s' /\ ancestor g d d') ->
  ancestors g s ⊆ ancestors g s'.
Proof.
  intros W H a Ha. apply ancestors_spec in Ha; [|exact W]. destruct Ha as (d & Hd & Ha).
  destruct (H d Hd) as (d' & Hd' & Hdd). apply ancestors_spec; [exact W|]. exists d'. split; [exact Hd'|].
  eapply rtc_transitive; eassumption.
Qed.

(** ** Heads and roots *)

Lemma heads_spec g s o : o ∈ heads g s <-> o ∈ s /\ forall c, c ∈ s -> ~ parent g o c.
Proof.
  unfold heads. rewrite elem_of_difference, parents_spec. split.
  - intros [H1 H2]. split; [exact H1|]. intros c Hc Hp. apply H2. eauto.
  - intros [H1 H2]. split; [exact H1|]. intros (c & Hc & Hp). exact (H2 c Hc Hp).
Qed.

Lemma roots_spec g s o : o ∈ roots g s <-> o ∈ s /\ forall p, p ∈ s -> ~ parent g p o.
Proof.
  unfold roots. rewrite elem_of_difference, children_spec. split.
  - intros [H1 H2]. split; [exact H1|]. intros p Hp Hc. apply H2. eauto.
  - intros [H1 H2]. split; [exact H1|]. intros (p & Hp & Hc). exact (H2 p Hp Hc).
Qed.

Lemma rank_bound g o : (rank g o <= length g)%nat.
Proof. induction g as [|[o' ps] g IH]; cbn; [lia|]. destruct (N.eqb o' o); cbn; lia. Qed.

(** Every commit of a set lies below a head and above a root of it. *)
Lemma below_head g s o : wf_graph g -> o ∈ s -> exists h, h ∈ heads g s /\ ancestor g o h.
Proof.
  intros W. remember (length g - rank g o)%nat as k eqn:E. revert o E.
  induction k as [k IH] using (well_founded_induction lt_wf); intros o -> Ho.
  destruct (decide (o ∈ heads g s)) as [H|H]; [exists o; split; [exact H|apply rtc_refl]|].
  assert (X : o ∈ parents g s).
  { destruct (decide (o ∈ parents g s)) as [X|X]; [exact X|]. exfalso. apply H. unfold heads, roots. apply elem_of_difference. auto. }
  apply parents_spec in X. destruct X as (c & Hc & Hp).
  pose proof (parent_rank g o c W Hp). pose proof (rank_bound g c).
  destruct (IH (length g - rank g c)%nat ltac:(lia) c eq_refl Hc) as (h & Hh & Ha).
  exists h. split; [exact Hh|]. eapply rtc_l; eassumption.
Qed.

Lemma above_root g s o : wf_graph g -> o ∈ s -> exists r, r ∈ roots g s /\ ancestor g r o.
Proof.
  intros W. remember (rank g o)%nat as k eqn:E. revert o E.
  induction k as [k IH] using (well_founded_induction lt_wf); intros o -> Ho.
  destruct (decide (o ∈ roots g s)) as [H|H]; [exists o; split; [exact H|apply rtc_refl]|].
  assert (X : o ∈ children g s).
  { destruct (decide (o ∈ children g s)) as [X|X]; [exact X|]. exfalso. apply H. unfold heads, roots. apply elem_of_difference. auto. }
  apply children_spec in X. destruct X as (p & Hp & Hc).
  pose proof (parent_rank g p o W Hc).
  destruct (IH (rank g p) ltac:(lia) p eq_refl Hp) as (r & Hr & Ha).
  exists r. split; [exact Hr|]. eapply rtc_r; eassumption.
Qed.

Lemma ancestors_heads g s : wf_graph g -> ancestors g (heads g s) = ancestors g s.
Proof.
  intros W. apply set_eq. intros a. rewrite !ancestors_spec by exact W. split.
  - intros (d & Hd & H). exists d. split; [unfold heads in Hd; set_solver|exact H].
  - intros (d & Hd & H). destruct (below_head g s d W Hd) as (h & Hh & Hdh).
    exists h. split; [exact Hh|]. eapply rtc_transitive; eassumption.
Qed.

Lemma descendants_roots g s : wf_graph g -> descendants g (roots g s) = descendants g s.
Proof.
  intros W. apply set_eq. intros d. rewrite !descendants_spec by exact W. split.
  - intros (a & Ha & H). exists a. split; [unfold roots in Ha; set_solver|exact H].
  - intros (a & Ha & H). destruct (above_root g s a W Ha) as (r & Hr & Hra).
    exists r. split; [exact Hr|]. eapply rtc_transitive; eassumption.
Qed.

Lemma heads_ancestors_spec g s o : wf_graph g ->
  o ∈ heads_ancestors g s <-> o ∈ s /\ forall c, c ∈ s -> ~ proper_ancestor g o c.
Proof.
  intros W. unfold heads_ancestors. rewrite elem_of_difference, ancestors_spec by exact W. split.
  - intros [H1 H2]. split; [exact H1|]. intros c Hc Hp. apply H2.
    apply tc_rtc_r in Hp || idtac.
    assert (X : exists p, ancestor g o p /\ parent g p c).
    { clear - Hp. induction Hp as [x y H|x y z H _ (p & A & B)].
      - exists x. split; [apply rtc_refl|exact H].
      - exists p. split; [eapply rtc_l; eassumption|exact B]. }
    destruct X as (p & A & B). exists p. split; [apply parents_spec; eauto|exact A].
  - intros [H1 H2]. split; [exact H1|]. intros (p & Hp & Ha). apply parents_spec in Hp.
    destruct Hp as (c & Hc & Hp). apply (H2 c Hc). eapply tc_rtc_l; [exact Ha|]. apply tc_once. exact Hp.
Qed.

(** ** Visible, public and draft commits *)

Lemma seeds_spec d o :
  o ∈ ∅ ∪ (observed_commits d ∖ obsolete_commits d) ∪ head_commit d ∪ main_branch_commit d ∪ branch_commits d
  <-> kept d o.
Proof. unfold kept. set_solver. Qed.

Lemma visible_spec d o : wf_graph (dag_graph d) -> o ∈ visible_commits d <-> visible d o.
Proof.
  intros W. unfold visible_commits, visible_heads. rewrite ancestors_heads, ancestors_spec by exact W.
  unfold visible. setoid_rewrite seeds_spec. reflexivity.
Qed.

Lemma public_spec d o : wf_graph (dag_graph d) -> o ∈ public_commits d <-> public d o.
Proof. intros W. unfold public_commits. apply ancestors_spec. exact W. Qed.

Lemma is_public_spec d o : wf_graph (dag_graph d) -> is_public_commit d o = true <-> public d o.
Proof.
  intros W. unfold is_public_commit, public. rewrite existsb_exists. split.
  - intros (m & H1 & H2). exists m. apply is_ancestor_spec in H2; [|exact W].
    split; [|exact H2]. apply elem_of_elements, elem_of_list_In. exact H1.
  - intros (m & H1 & H2). exists m. split; [apply elem_of_list_In, elem_of_elements; exact H1|].
    apply is_ancestor_spec; assumption.
Qed.

Lemma draft_spec d o : wf_graph (dag_graph d) -> o ∈ draft_commits d <-> visible d o /\ ~ public d o.
Proof.
  intros W. unfold draft_commits, only. rewrite elem_of_difference.
  fold (visible_commits d). fold (public_commits d). rewrite visible_spec, public_spec by exact W. reflexivity.
Qed.

Lemma public_visible d o : public d o -> visible d o.
Proof. intros (m & Hm & H). exists m. split; [|exact H]. unfold kept. auto. Qed.

Lemma filter_visible_spec d s o : wf_graph (dag_graph d) -> o ∈ filter_visible d s <-> o ∈ s /\ visible d o.
Proof.
  intros W. unfold filter_visible, range. rewrite !elem_of_intersection.
  fold (visible_commits d). rewrite visible_spec, descendants_spec by exact W. split; [tauto|].
  intros [H1 H2]. split; [exact H1|]. split; [|exact H2]. exists o. split; [exact H1|apply rtc_refl].
Qed.

Lemma visible_closed d a o : ancestor (dag_graph d) a o -> visible d o -> visible d a.
Proof. intros H (v & Hv & Ho). exists v. split; [exact Hv|]. eapply rtc_transitive; eassumption. Qed.

Lemma public_closed d a o : ancestor (dag_graph d) a o -> public d o -> public d a.
Proof. intros H (v & Hv & Ho). exists v. split; [exact Hv|]. eapply rtc_transitive; eassumption. Qed.

(** ** Opening at a cursor *)

Lemma open_dag_observed main log c g head m branches o :
  valid_cursor (replay main log) c ->
  o ∈ observed_commits (open_dag g (replay main log) c head m branches) <->
  exists e, e ∈ upto (events (replay main log)) c /\ concerns e o.
Proof.
  intros Hc. cbn. rewrite elem_of_list_to_set. apply cursor_oids_spec; [apply replay_invariant|exact Hc].
Qed.

Lemma open_dag_obsolete main log c g head m branches o :
  valid_cursor (replay main log) c ->
  o ∈ obsolete_commits (open_dag g (replay main log) c head m branches) <->
  commit_status (replay main log) c o = Obsolete.
Proof.
  intros Hc. cbn. rewrite elem_of_list_to_set, elem_of_list_In, filter_In, <- elem_of_list_In.
  rewrite cursor_oids_spec by (apply replay_invariant || exact Hc). split.
  - intros [_ H]. destruct (commit_status (replay main log) c o); congruence.
  - intros H. split; [|rewrite H; reflexivity].
    apply commit_status_spec in H; [|apply replay_invariant|exact Hc]. cbn in H.
    destruct H as (e & (b & a & E & C & _) & _). exists e. split; [|exact C].
    rewrite E. apply elem_of_app. right. constructor.
Qed.

Lemma open_dag_kept main log c g head m branches o :
  valid_cursor (replay main log) c ->
  kept (open_dag g (replay main log) c head m branches) o <->
  commit_status (replay main log) c o = Active \/ head = Some o \/ o = m \/ o ∈ branches.
Proof.
  intros Hc. unfold kept. rewrite open_dag_obsolete, open_dag_observed by exact Hc.
  assert (X : (exists e, e ∈ upto (events (replay main log)) c /\ concerns e o) /\
              commit_status (replay main log) c o <> Obsolete <->
              commit_status (replay main log) c o = Active).
  { pose proof (commit_status_spec (replay main log) c o (commit_status (replay main log) c o)
      (replay_invariant main log) Hc) as S. destruct S as [S _]. specialize (S eq_refl).
    destruct (commit_status (replay main log) c o) eqn:E; cbn in S.
    - split; [reflexivity|]. intros _. split; [|discriminate].
      destruct S as (e & (b & a & E' & C & _) & _). exists e. split; [|exact C].
      rewrite E'. apply elem_of_app. right. constructor.
    - split; [|discriminate]. intros [(e & He & C) _]. exfalso. exact (S e He C).
    - split; [|discriminate]. intros [_ H]. done. }
  rewrite X. cbn. rewrite elem_of_list_to_set. destruct head; set_solver.
Qed.

(** ** Abandoned children *)

Lemma abandoned_spec d main log c o :
  valid_cursor (replay main log) c -> wf_graph (dag_graph d) ->
  exists res, find_abandoned_children d (replay main log) c o = Some res /\
    (res = None <-> forall new, ~ rewritten (upto (events (replay main log)) c) o new) /\
    forall target kids, res = Some (target, kids) ->
      (chain_end (upto (events (replay main log)) c) o (NonZero target) \/
       (target = o /\ chain_end (upto (events (replay main log)) c) o Zero)) /\
      forall k, k ∈ kids <-> parent (dag_graph d) o k /\ visible d k /\ k ∉ obsolete_commits d.
Proof.
  intros Hc W. unfold find_abandoned_children.
  destruct (find_rewrite_target_spec _ c o (replay_invariant main log) Hc) as (res & -> & H).
  destruct res as [m|].
  - eexists. split; [reflexivity|]. split.
    + split; [discriminate|]. intros N. exfalso. destruct H; eapply N; eassumption.
    + intros target kids E. injection E as <- <-. split.
      * destruct m as [|x]; [right; auto|left; exact H].
      * intros k. rewrite elem_of_difference, filter_visible_spec, children_spec by exact W. split.
        -- intros [[(p & ->%elem_of_singleton & Hp) Hv] Ho]. auto.
        -- intros (Hp & Hv & Ho). split; [|exact Ho]. split; [|exact Hv]. exists o. split; [set_solver|exact Hp].
  - exists None. split; [reflexivity|]. split; [split; [intros _; exact H|reflexivity]|discriminate].
Qed.
