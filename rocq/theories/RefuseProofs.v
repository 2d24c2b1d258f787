(** Proofs about refusals of [git move]. *)
From stdpp Require Import sorting relations.
From Verif Require Import Base TextModel EventLogModel EventLogSpec EventLogProofs EvolveModel EvolveSpec
  DagModel DagSpec DagProofs DagCompProofs StrModel StrProofs HookModel HookSpec PlanModel PlanSpec PlanProofs PlanBuildProofs ExecModel ExecSpec
  HideModel HideSpec HideProofs RestackModel RestackSpec RestackProofs SyncModel SyncSpec SyncProofs
  MoveModel MoveSpec MoveProofs MoveReqProofs MoveExactProofs RefuseSpec.
Local Open Scope list_scope.

Section refuse.
Context (e : restack_env) (r : rrepo) (d : dag) (a : move_args).
Let g := he_graph (re_hide e).
Let h := rr_repo r.
Hypothesis R : restackable e r.
Hypothesis Op : open_repo (re_hide e) h = Some d.
Let E : commit_set := ⋃ (ma_exacts a).

Lemma rf_graph : dag_graph d = g. Proof. exact (dag_is e r d R Op). Qed.
Lemma rf_wf : wf_graph g. Proof. exact (graph_wf e r R). Qed.
Lemma rf_given x : given_exact a x <-> x ∈ E. Proof. unfold E. rewrite elem_union. reflexivity. Qed.
Lemma rf_same x y : same_range g a x y <-> x ∈ E /\ connected g E x y.
Proof.
  split.
  - intros H. induction H as [x Hx|x y z H [IH1 IH2] P Hz|x y z H [IH1 IH2] P Hz].
    + split; [now apply rf_given|constructor].
    + split; [exact IH1|]. eapply rtc_r; [exact IH2|]. unfold link. split_and!; auto; [|now apply rf_given].
      clear -IH1 IH2. revert IH1. induction IH2 as [|x y z (A & B & _)]; auto.
    + split; [exact IH1|]. eapply rtc_r; [exact IH2|]. unfold link. split_and!; auto; [|now apply rf_given].
      clear -IH1 IH2. revert IH1. induction IH2 as [|x y z (A & B & _)]; auto.
  - intros [Hx H]. revert x Hx H. intros x Hx. revert y. apply (rtc_ind_r (fun y => same_range g a x y)).
    + constructor. now apply rf_given.
    + intros y z _ (A & B & [P|P]) IH.
      * eapply sr_up; eauto. now apply rf_given.
      * eapply sr_down; eauto. now apply rf_given.
Qed.
Lemma rf_first x : range_first g a x <-> x ∈ E /\ forall p, parent g p x -> p ∉ E.
Proof. unfold range_first. rewrite rf_given. setoid_rewrite rf_given. reflexivity. Qed.

(** *** Ranges *)
Section with_ranges.
Context (comps : list commit_set).
Hypothesis C1 : ⋃ comps = E.
Hypothesis C2 : forall C, C ∈ comps -> C <> ∅.
Hypothesis C3 : forall C x y, C ∈ comps -> x ∈ C -> y ∈ C <-> connected g E x y.
Lemma rf_in_comp x : x ∈ E -> exists C, C ∈ comps /\ x ∈ C.
Proof. rewrite <- C1, elem_union. auto. Qed.
Lemma rf_comp_in C x : C ∈ comps -> x ∈ C -> x ∈ E.
Proof. intros H Hx. rewrite <- C1, elem_union. eauto. Qed.
Lemma rf_link C x y : C ∈ comps -> x ∈ C -> y ∈ E -> parent g x y \/ parent g y x -> y ∈ C.
Proof. intros H Hx Hy P. apply (C3 C x y H Hx). apply rtc_once. split; [eapply rf_comp_in; eauto|]. split; [exact Hy|exact P]. Qed.
Lemma rf_root C x : C ∈ comps -> x ∈ roots g C <-> x ∈ C /\ range_first g a x.
Proof.
  intros H. rewrite roots_spec, rf_first. split.
  - intros [Hx N]. split; [exact Hx|]. split; [eapply rf_comp_in; eauto|]. intros p P Hp. apply (N p); [|exact P]. eapply rf_link; eauto.
  - intros [Hx [_ N]]. split; [exact Hx|]. intros p Hp P. apply (N p P). eapply rf_comp_in; eauto.
Qed.
Lemma rf_head C x : C ∈ comps -> x ∈ heads g C <-> x ∈ C /\ forall y, parent g x y -> ~ given_exact a y.
Proof.
  intros H. rewrite heads_spec. split; intros [Hx N]; (split; [exact Hx|]).
  - intros y P Hy. apply rf_given in Hy. apply (N y); [|exact P]. eapply rf_link; eauto.
  - intros y Hy P. apply (N y P). apply rf_given. eapply rf_comp_in; eauto.
Qed.
Lemma rf_same_comp C x y : C ∈ comps -> x ∈ C -> same_range g a x y <-> y ∈ C.
Proof. intros H Hx. rewrite rf_same, (C3 C x y H Hx). split; [intros [_ K]; exact K|]. intros K. split; [eapply rf_comp_in; eauto|exact K]. Qed.
Lemma rf_parents x : Nat.eqb (size (parents g {[x]})) 1 = true <-> exists p, forall q, parent g q x <-> q = p.
Proof.
  assert (P : forall q, q ∈ parents g {[x]} <-> parent g q x).
  { intros q. rewrite parents_spec. split; [intros (c & Hc & P); now apply elem_of_singleton in Hc as ->|]. intros P. exists x. split; [now apply elem_of_singleton|exact P]. }
  rewrite Nat.eqb_eq. split.
  - intros H. apply size_1_elem_of in H. destruct H as [p H]. exists p. intros q. rewrite <- P. rewrite H. apply elem_of_singleton.
  - intros [p H]. assert (parents g {[x]} = {[p]}) as ->; [|apply size_singleton]. apply set_eq. intros q. rewrite P, H, elem_of_singleton. reflexivity.
Qed.

Definition well_started (l : list (oid * commit_set)) : Prop :=
  forall s C, (s, C) ∈ l -> (forall x, x ∈ roots g C <-> x = s) /\ exists p, forall q, parent g q s <-> q = p.
Lemma rf_checked : match exact_components e d comps with
  | Go l => List.map snd l = comps /\ well_started l
  | Stop (ExactRoots _) => two_starts g a
  | Stop (ExactParents _) => odd_start g a
  | Stop _ => False
  end.
Proof.
  assert (K : forall l', (forall C, C ∈ l' -> C ∈ comps) -> match exact_components e d l' with
    | Go l => List.map snd l = l' /\ well_started l
    | Stop (ExactRoots _) => two_starts g a
    | Stop (ExactParents _) => odd_start g a
    | Stop _ => False
    end); [|now apply K].
  induction l' as [|C l' IH]; intros Sub; cbn [exact_components].
  - split; [reflexivity|]. intros s C H. now apply elem_of_nil in H.
  - specialize (IH ltac:(intros; apply Sub; now right)). assert (HC : C ∈ comps) by (apply Sub; left). rewrite rf_graph.
    pose proof (ra_sets _ _ R (roots g C)) as Pm.
    assert (In : forall x, x ∈ re_order e (roots g C) <-> x ∈ roots g C) by (intros x; rewrite Pm; apply elem_of_elements).
    assert (ND : NoDup (re_order e (roots g C))) by (rewrite Pm; apply NoDup_elements).
    destruct (re_order e (roots g C)) as [|s [|s' ss]].
    + pose proof (C2 C HC) as N. apply set_choose_L in N. destruct N as [x Hx]. destruct (above_root g C x rf_wf Hx) as (y & Hy & _).
      apply In in Hy. now apply elem_of_nil in Hy.
    + assert (Rt : forall x, x ∈ roots g C <-> x = s) by (intros x; rewrite <- In; apply elem_of_list_singleton).
      destruct (Nat.eqb (size (parents g {[s]})) 1) eqn:Es.
      * apply rf_parents in Es. destruct (exact_components e d l') as [l|w]; cbn [and_then]; [|exact IH].
        destruct IH as [Sl Wl]. split; [cbn; now rewrite Sl|]. intros s' C' H. apply elem_of_cons in H. destruct H as [[= -> ->]|H]; [auto|now apply (Wl s')].
      * exists s. split; [apply (rf_root C s HC); now apply Rt|]. intros P. apply rf_parents in P. congruence.
    + assert (Hs : s ∈ roots g C) by (apply In; left). assert (Hs' : s' ∈ roots g C) by (apply In; right; left).
      apply (rf_root C _ HC) in Hs, Hs'. exists s, s'. split.
      { intros ->. inversion_clear ND as [|? ? N _]. apply N. left. }
      split; [apply Hs|]. split; [apply Hs'|]. apply (rf_same_comp C s s' HC); [apply Hs|apply Hs'].
Qed.

Context (l : list (oid * commit_set)).
Hypothesis Sl : List.map snd l = comps.
Hypothesis Wl : well_started l.
Let starts : list oid := re_sort e (list_to_set (List.map fst l)).
Lemma rf_comp s C : (s, C) ∈ l -> C ∈ comps.
Proof. intros H. rewrite <- Sl. apply elem_of_list_In, in_map_iff. exists (s, C). split; [reflexivity|now apply elem_of_list_In]. Qed.
Lemma rf_some C : C ∈ comps -> exists s, (s, C) ∈ l.
Proof. rewrite <- Sl. intros H. apply elem_of_list_In, in_map_iff in H. destruct H as ([s C'] & <- & H). exists s. now apply elem_of_list_In. Qed.
Lemma rf_is_first s C : (s, C) ∈ l -> range_first g a s /\ s ∈ C.
Proof. intros H. assert (K : s ∈ roots g C) by now apply (proj1 (Wl s C H)). apply (rf_root C s (rf_comp s C H)) in K. now destruct K. Qed.
Lemma rf_first_is s : range_first g a s -> exists C, (s, C) ∈ l.
Proof.
  intros F. assert (Hs : s ∈ E) by now apply rf_first in F. destruct (rf_in_comp s Hs) as (C & HC & Hx). destruct (rf_some C HC) as [s' H].
  exists C. assert (s = s') as ->; [|exact H]. apply (proj1 (Wl s' C H)). now apply rf_root.
Qed.
Lemma rf_starts s : s ∈ starts <-> range_first g a s.
Proof.
  unfold starts. rewrite (ra_sort _ _ R), elem_of_elements, elem_of_list_to_set, elem_of_list_In, in_map_iff. split.
  - intros ([s' C] & <- & H). apply elem_of_list_In in H. exact (proj1 (rf_is_first s' C H)).
  - intros F. destruct (rf_first_is s F) as [C H]. exists (s, C). split; [reflexivity|now apply elem_of_list_In].
Qed.
Lemma rf_component s C : (s, C) ∈ l -> component_of l s = C.
Proof.
  intros H. unfold component_of. destruct (List.find _ l) as [[s' C']|] eqn:F.
  - apply find_some in F. destruct F as [F1 F2]. apply elem_of_list_In in F1. cbn [fst snd] in *. apply bool_decide_eq_true in F2. subst s'.
    pose proof (rf_comp _ _ F1) as K1. pose proof (rf_comp _ _ H) as K2. destruct (rf_is_first _ _ F1) as [_ I1]. destruct (rf_is_first _ _ H) as [_ I2].
    apply set_eq. intros x. now rewrite (C3 C' s x K1 I1), (C3 C s x K2 I2).
  - exfalso. apply elem_of_list_In in H. apply (find_none _ _ F) in H. cbn [fst] in H. apply bool_decide_eq_false in H. now apply H.
Qed.
Lemma rf_places x s : range_first g a x -> s ∈ possible_destinations d l starts x <-> range_below g a s x.
Proof.
  intros Fx. unfold possible_destinations, range_below. rewrite elem_of_list_In, filter_In, <- elem_of_list_In, rf_starts, rf_graph, andb_true_iff, negb_true_iff, bool_decide_eq_false.
  rewrite (is_ancestor_spec g s x rf_wf). split.
  - intros (F & N & A). split; [exact F|]. split; [exact A|]. intros Sm. destruct (rf_first_is s F) as [C H]. apply N. rewrite (rf_component s C H).
    apply (rf_same_comp C s x (rf_comp s C H)); [apply (rf_is_first s C H)|exact Sm].
  - intros (F & A & N). split; [exact F|]. split; [|exact A]. intros Hx. apply N. destruct (rf_first_is s F) as [C H]. rewrite (rf_component s C H) in Hx.
    apply (rf_same_comp C s x (rf_comp s C H)); [apply (rf_is_first s C H)|exact Hx].
Qed.

(** *** One after another *)
Lemma chain_none k : one_after_another d k = None -> forall l1 x l2 y l3, k = l1 ++ x :: l2 ++ y :: l3 -> ancestor g x y.
Proof.
  intros H. assert (S : StronglySorted (ancestor g) k).
  { apply Sorted_StronglySorted; [intros x y z; apply rtc_transitive|]. induction k as [|x [|y k] IH]; [constructor|repeat constructor|].
    change ((if is_ancestor (dag_graph d) x y then one_after_another d (y :: k) else Some (x, y)) = None) in H.
    rewrite rf_graph in H. destruct (is_ancestor g x y) eqn:A; [|discriminate]. constructor; [now apply IH|].
    constructor. now apply is_ancestor_spec in A; [|exact rf_wf]. }
  clear H. intros l1. revert k S. induction l1 as [|z l1 IH]; intros k S x l2 y l3 ->; cbn [app] in S; inversion_clear S as [|? ? S' F].
  - rewrite Forall_forall in F. apply F. apply elem_of_app. right. left.
  - now apply (IH _ S' x l2 y l3).
Qed.
Lemma chain_line k : one_after_another d k = None -> forall x y, x ∈ k -> y ∈ k -> ancestor g x y \/ ancestor g y x.
Proof.
  intros H x y Hx Hy. apply elem_of_list_split in Hx. destruct Hx as (l1 & l2 & ->). apply elem_of_app in Hy. destruct Hy as [Hy|Hy].
  - apply elem_of_list_split in Hy. destruct Hy as (l3 & l4 & ->). right. apply (chain_none _ H l3 y l4 x l2). now rewrite <- app_assoc.
  - apply elem_of_cons in Hy. destruct Hy as [->|Hy]; [left; constructor|]. apply elem_of_list_split in Hy. destruct Hy as (l3 & l4 & ->).
    left. apply (chain_none _ H l1 x l3 y l4). reflexivity.
Qed.
Lemma chain_some k x y : one_after_another d k = Some (x, y) -> ~ ancestor g x y /\ exists l1 l3, k = l1 ++ x :: y :: l3.
Proof.
  induction k as [|z [|w k] IH]; [discriminate..|].
  change ((if is_ancestor (dag_graph d) z w then one_after_another d (w :: k) else Some (z, w)) = Some (x, y) -> ~ ancestor g x y /\ exists l1 l3, z :: w :: k = l1 ++ x :: y :: l3).
  rewrite rf_graph. destruct (is_ancestor g z w) eqn:A.
  - intros H. destruct (IH H) as (N & l1 & l3 & K). split; [exact N|]. exists (z :: l1), l3. cbn [app]. congruence.
  - intros [= -> ->]. split; [|exists [], k; reflexivity]. intros A'. apply (is_ancestor_spec g x y rf_wf) in A'. congruence.
Qed.
Lemma filter_pair (f : oid -> bool) k : forall l1 x y l3, List.filter f k = l1 ++ x :: y :: l3 -> exists k1 k2 k3, k = k1 ++ x :: k2 ++ y :: k3.
Proof.
  assert (One : forall k y l3, List.filter f k = y :: l3 -> exists k2 k3, k = k2 ++ y :: k3).
  { clear k. induction k as [|z k IH]; intros y l3 H; [discriminate|]. cbn [List.filter] in H. destruct (f z).
    - injection H as -> _. exists [], k. reflexivity.
    - destruct (IH _ _ H) as (k2 & k3 & ->). exists (z :: k2), k3. reflexivity. }
  induction k as [|z k IH]; intros l1 x y l3 H; [now destruct l1|]. cbn [List.filter] in H. destruct (f z).
  - destruct l1 as [|w l1]; cbn [app] in H.
    + injection H as -> H. destruct (One _ _ _ H) as (k2 & k3 & ->). exists [], k2, k3. reflexivity.
    + injection H as -> H. destruct (IH _ _ _ _ H) as (k1 & k2 & k3 & ->). exists (w :: k1), k2, k3. reflexivity.
  - destruct (IH _ _ _ _ H) as (k1 & k2 & k3 & ->). exists (z :: k1), k2, k3. reflexivity.
Qed.
Lemma rf_dest dest x : range_first g a x ->
  match component_dest e d l starts dest x with
  | Go _ => forall s s', range_below g a s x -> range_below g a s' x -> ancestor g s s' \/ ancestor g s' s
  | Stop (ManyPlaces _) => sorts_up e -> two_places g a
  | Stop _ => False
  end.
Proof.
  intros Fx. unfold component_dest. destruct (last (possible_destinations d l starts x)) as [z|] eqn:L.
  - destruct (one_after_another d (possible_destinations d l starts x)) as [[s s']|] eqn:O.
    + intros Su. destruct (chain_some _ _ _ O) as (N & l1 & l3 & K). exists x, s, s'. split; [exact Fx|].
      split; [apply rf_places; [exact Fx|]; rewrite K; apply elem_of_app; right; left|].
      split; [apply rf_places; [exact Fx|]; rewrite K; apply elem_of_app; right; right; left|]. split; [exact N|].
      destruct (filter_pair _ _ _ _ _ _ K) as (k1 & k2 & k3 & K'). exact (Su _ _ _ _ _ _ K').
    + assert (Ch : forall s s', range_below g a s x -> range_below g a s' x -> ancestor g s s' \/ ancestor g s' s).
      { intros s s' H H'. apply (rf_places x _ Fx) in H, H'. exact (chain_line _ O s s' H H'). }
      destruct (set_first _ _); exact Ch.
  - apply last_None in L. intros s s' H. apply (rf_places x _ Fx) in H. rewrite L in H. now apply elem_of_nil in H.
Qed.
Lemma rf_all fixup insert dest todo : (forall s, s ∈ todo -> s ∈ starts) ->
  match all_component_requests e d fixup insert dest l starts todo with
  | Go _ => forall x, x ∈ todo -> forall s s', range_below g a s x -> range_below g a s' x -> ancestor g s s' \/ ancestor g s' s
  | Stop (ManyPlaces _) => sorts_up e -> two_places g a
  | Stop _ => False
  end.
Proof.
  induction todo as [|x todo IH]; intros Sub; cbn [all_component_requests]; [intros x H; now apply elem_of_nil in H|].
  assert (Fx : range_first g a x) by (apply rf_starts, Sub; left). pose proof (rf_dest dest x Fx) as D.
  unfold component_requests. destruct (component_dest e d l starts dest x) as [p|w]; cbn [and_then]; [|exact D].
  destruct (rf_first_is x Fx) as [C H]. destruct (proj2 (Wl x C H)) as [q Hq]. rewrite rf_graph.
  rewrite (first_one e (ra_sets _ _ R) (parents g {[x]}) q).
  2:{ intros y. rewrite parents_spec. split; [intros (c & Hc & P); apply elem_of_singleton in Hc as ->; now apply Hq|].
      intros ->. exists x. split; [now apply elem_of_singleton|now apply Hq]. }
  cbn [and_then]. specialize (IH ltac:(intros; apply Sub; now right)).
  destruct (all_component_requests e d fixup insert dest l starts todo) as [cs|w]; cbn [and_then]; [|exact IH].
  intros y Hy. apply elem_of_cons in Hy. destruct Hy as [->|Hy]; [exact D|now apply IH].
Qed.

(** *** What is moved with --insert *)
Lemma rf_last : one_after_another d starts = None -> forall x,
  x ∈ (match last starts with Some s => heads g (component_of l s) | None => ∅ end : commit_set) <->
  given_exact a x /\ (forall y, parent g x y -> ~ given_exact a y) /\
   exists s, range_first g a s /\ same_range g a s x /\ forall s', range_first g a s' -> ancestor g s' s.
Proof.
  intros O x. destruct (last starts) as [s|] eqn:L.
  - apply last_Some in L. destruct L as [k L]. assert (Fs : range_first g a s) by (apply rf_starts; rewrite L; apply elem_of_app; right; left).
    assert (Up : forall s', range_first g a s' -> ancestor g s' s).
    { intros s' F. apply rf_starts in F. rewrite L in F. apply elem_of_app in F. destruct F as [F|F].
      - apply elem_of_list_split in F. destruct F as (k1 & k2 & ->). apply (chain_none _ O k1 s' k2 s []). rewrite L, <- app_assoc. reflexivity.
      - apply elem_of_list_singleton in F as ->. constructor. }
    destruct (rf_first_is s Fs) as [C H]. rewrite (rf_component s C H), (rf_head C x (rf_comp s C H)). pose proof (proj2 (rf_is_first s C H)) as Hs.
    split.
    + intros [Hx N]. split; [apply rf_given; eapply rf_comp_in; [eapply rf_comp; exact H|exact Hx]|]. split; [exact N|]. exists s. split; [exact Fs|].
      split; [now apply (rf_same_comp C s x (rf_comp s C H) Hs)|exact Up].
    + intros (Gx & N & s' & F' & Sm & Up'). split; [|exact N]. assert (s' = s) as ->.
      { apply (ancestor_antisym g); [exact rf_wf|now apply Up|now apply Up']. }
      now apply (rf_same_comp C s x (rf_comp s C H) Hs).
  - split; [intros H; set_solver|]. intros (_ & _ & s & F & _). apply rf_starts in F. apply last_None in L. rewrite L in F. now apply elem_of_nil in F.
Qed.
End with_ranges.

Lemma rf_head_known : exists o, hi_oid (hr_head h) = Some o.
Proof. exact (ra_head _ _ R). Qed.
Lemma rf_order_one (s : commit_set) : match re_order e s with [x] => s = {[x]} | _ => forall x, s <> {[x]} end.
Proof.
  pose proof (ra_sets _ _ R s) as Pm. destruct (re_order e s) as [|x [|y k]].
  - intros x ->. rewrite elements_singleton in Pm. apply Permutation_nil_l in Pm. discriminate.
  - apply set_eq. intros z. rewrite elem_of_singleton, <- elem_of_elements, <- Pm. apply elem_of_list_singleton.
  - intros z ->. rewrite elements_singleton in Pm. apply Permutation_length in Pm. discriminate.
Qed.
Lemma rf_bases : exists bases : commit_set,
  (if match ma_sources a, ma_bases a, ma_exacts a with [], [], [] => true | _, _, _ => false end
   then match hi_oid (hr_head h) with Some h => Go {[h]} | None => Stop NoHead end else Go (⋃ (ma_bases a))) = Go bases /\
  forall b, b ∈ bases <-> given_base a r b.
Proof.
  destruct rf_head_known as [hd Hh].
  destruct (ma_sources a) as [|s l] eqn:E1, (ma_bases a) as [|s' l'] eqn:E2, (ma_exacts a) as [|s'' l''] eqn:E3;
    unfold given_base; fold h; rewrite ?Hh, ?E1, ?E2, ?E3; eexists; (split; [reflexivity|]).
  all: intros b; rewrite ?elem_of_singleton, ?elem_union; split.
  all: try (intros (C & HC & _); now apply elem_of_nil in HC).
  all: try (intros [(C & HC & _)|(X1 & X2 & X3 & X4)]; [now apply elem_of_nil in HC|]; try discriminate; congruence).
  all: try (intros [H|(X1 & X2 & X3 & X4)]; [exact H|discriminate]).
  all: try (intros H; left; exact H).
  intros ->. right. auto.
Qed.
Lemma rf_base_commits dest : plain_bases g a r dest -> forall (bases : commit_set) c, (forall b, b ∈ bases -> given_base a r b) ->
  c ∈ base_commits e d dest bases <-> exists b, b ∈ bases /\ branch_start g b dest c.
Proof.
  intros Pb bases c G. unfold base_commits. rewrite elem_union.
  assert (K : forall b, b ∈ bases -> resolve_base e d (gca_one e d {[b; dest]}) b = c <-> branch_start g b dest c).
  { intros b Hb. rewrite <- rf_graph. apply resolve_base_spec; [exact (ra_sets _ _ R)|rewrite rf_graph; exact rf_wf|].
    rewrite rf_graph. intros x. apply (Pb b x). now apply G. }
  split.
  - intros (C & HC & Hc). apply elem_of_list_In, in_map_iff in HC. destruct HC as (b & <- & Hb). apply elem_of_list_In in Hb.
    rewrite (ra_sets _ _ R), elem_of_elements in Hb. apply elem_of_singleton in Hc. exists b. split; [exact Hb|]. now apply K.
  - intros (b & Hb & Hc). exists {[c]}. split; [|now apply elem_of_singleton]. apply elem_of_list_In, in_map_iff. exists b.
    split; [f_equal; now apply K|]. apply elem_of_list_In. now rewrite (ra_sets _ _ R), elem_of_elements.
Qed.
Definition why_refused (w : move_stop) : Prop :=
  match w with
  | ExactRoots _ => two_starts g a
  | ExactParents _ => odd_start g a
  | NotOneDest _ => forall o, ~ meant_dest a r o
  | ManyPlaces _ => sorts_up e -> two_places g a
  | NotOneLineage _ _ => ma_insert a = true /\ (sorts_up e -> two_lines g a)
  | ManyHeads => ma_insert a = true /\ (forall o, meant_dest a r o -> plain_bases g a r o -> not_one_last g a r o)
  | WouldRewritePublic => True
  | _ => False
  end.
Lemma rf_requests : match move_requests e d (hi_oid (hr_head h)) a with
  | Go _ => ~ unclear g a r
  | Stop w => why_refused w
  end.
Proof.
  destruct rf_head_known as [hd Hh]. rewrite Hh. unfold move_requests. fold E.
  assert (D : exists dests : commit_set, (match ma_dest a with Some s => Go s | None => Go {[hd]} end) = Go dests /\ forall o, meant_dest a r o <-> dests = {[o]}).
  { unfold meant_dest. fold h. rewrite Hh. destruct (ma_dest a) as [s|]; eexists; (split; [reflexivity|]); intros o; [reflexivity|]. split; [now intros [= ->]|]. intros H.
    f_equal. assert (X : hd ∈ ({[hd]} : commit_set)) by now apply elem_of_singleton. rewrite H in X. now apply elem_of_singleton in X. }
  destruct D as (dests & -> & Dm). cbn [and_then].
  destruct (connected_components_spec g (re_order e E) E) as (comps & Ec & C1 & C2 & _ & C3).
  { intros x Hx. now rewrite (ra_sets _ _ R), elem_of_elements. }
  rewrite rf_graph, Ec. pose proof (rf_checked comps C1 C2 C3) as Ck. destruct (exact_components e d comps) as [l|w]; cbn [and_then].
  2:{ destruct w; try exact Ck; destruct Ck. }
  destruct Ck as [Sl Wl]. pose proof (rf_order_one dests) as Od.
  assert (Bad : (forall x, dests <> {[x]}) -> why_refused (NotOneDest (length (re_order e dests)))) by (intros H o Ho; apply Dm in Ho; exact (H o Ho)).
  destruct (re_order e dests) as [|dest [|y k]]; [exact (Bad Od)| |exact (Bad Od)].
  pose proof rf_bases as Db. rewrite Hh in Db.
  destruct Db as (bases & -> & Be). cbn [and_then].
  destruct (verify_rewrite_set d (re_force e) _) as [allowed|]; [|exact Logic.I].
  set (starts := re_sort e (list_to_set (List.map fst l))).
  pose proof (rf_all comps C1 C3 l Sl Wl (ma_fixup a) (ma_insert a) dest starts (fun s H => H)) as Al. fold starts in Al.
  destruct (all_component_requests e d (ma_fixup a) (ma_insert a) dest l starts starts) as [cs|w]; cbn [and_then]; [|destruct w; try exact Al; destruct Al].
  assert (St : forall s, s ∈ starts <-> range_first g a s) by (intros s; eapply rf_starts; eauto).
  assert (No : ~ (forall o, ~ meant_dest a r o) /\ ~ two_starts g a /\ ~ odd_start g a /\ ~ two_places g a).
  { split_and!.
    - intros H. apply (H dest). now apply Dm.
    - intros (x & y & N & Fx & Fy & Sm). destruct (rf_first_is comps C1 C3 l Sl Wl x Fx) as [C H]. apply N.
      pose proof (rf_comp comps l Sl x C H) as HC. pose proof (proj2 (rf_is_first comps C1 C3 l Sl Wl x C H)) as Hx.
      symmetry. apply (proj1 (Wl x C H)). apply (rf_root comps C1 C3 C y HC). split; [|exact Fy]. now apply (rf_same_comp comps C1 C3 C x y HC Hx).
    - intros (x & Fx & N). destruct (rf_first_is comps C1 C3 l Sl Wl x Fx) as [C H]. apply N. exact (proj2 (Wl x C H)).
    - intros (x & s & s' & Fx & B & B' & N & N'). apply St in Fx. destruct (Al x Fx s s' B B'); contradiction. }
  destruct No as (No1 & No2 & No3 & No4).
  destruct (ma_insert a) eqn:In; cbn [and_then].
  2:{ intros [H|[H|[H|[H|[H _]]]]]; try contradiction. congruence. }
  unfold insert_requests. destruct (one_after_another d starts) as [[s s']|] eqn:O; cbn [and_then].
  { split; [exact In|]. intros Su. destruct (chain_some _ _ _ O) as (N & l1 & l3 & K). exists s, s'.
    split; [apply St; rewrite K; apply elem_of_app; right; left|]. split; [apply St; rewrite K; apply elem_of_app; right; right; left|].
    split; [exact N|]. exact (Su _ l1 s [] s' l3 K). }
  rewrite rf_graph.
  assert (Md : forall o, meant_dest a r o -> o = dest).
  { intros o Ho. apply Dm in Ho. assert (X : o ∈ dests) by (rewrite Ho; now apply elem_of_singleton). rewrite Od in X. now apply elem_of_singleton in X. }
  assert (Tp : plain_bases g a r dest -> forall x,
    x ∈ heads g (descendants g (⋃ (ma_sources a) ∪ base_commits e d dest bases)) ∪
        (match last starts with Some s => heads g (component_of l s) | None => ∅ end) <-> last_moved g a r dest x).
  { intros Pb x. rewrite elem_of_union. unfold last_moved. rewrite <- (rf_last comps C1 C2 C3 l Sl Wl O x). fold starts.
    apply or_iff_compat_r. rewrite heads_spec. setoid_rewrite (fun o => descendants_spec g (⋃ ma_sources a ∪ base_commits e d dest bases) o rf_wf).
    assert (Sg : forall c, c ∈ ⋃ ma_sources a ∪ base_commits e d dest bases <-> subtree_given g a r dest c).
    { intros c. rewrite elem_of_union, elem_union, (rf_base_commits dest Pb bases c) by (intros; now apply Be). setoid_rewrite Be. reflexivity. }
    setoid_rewrite Sg. split; intros [H N]; (split; [exact H|]).
    - intros y P. apply (N y); [|exact P]. destruct H as (c & Hc & A). exists c. split; [exact Hc|]. eapply rtc_r; eauto.
    - intros y _ P. exact (N y P). }
  match goal with |- context [re_order e ?S] => pose proof (rf_order_one S) as Os; destruct (re_order e S) as [|t [|t' ts]] eqn:Eo end.
  - split; [exact In|]. intros o Ho Pb [x Hx]. apply Md in Ho as ->. apply (Os x). apply set_eq. intros y. rewrite (Tp Pb y), (Hx y), elem_of_singleton. reflexivity.
  - cbn [and_then]. intros [H|[H|[H|[H|[_ [(s & s' & F & F' & N & N')|(o & Ho & Pb & N)]]]]]]; try contradiction.
    + apply St in F, F'. destruct (chain_line _ O s s' F F'); contradiction.
    + apply Md in Ho as ->. apply N. exists t. intros y. rewrite <- (Tp Pb y), Os, elem_of_singleton. reflexivity.
  - split; [exact In|]. intros o Ho Pb [x Hx]. apply Md in Ho as ->. apply (Os x). apply set_eq. intros y. rewrite (Tp Pb y), (Hx y), elem_of_singleton. reflexivity.
Qed.
End refuse.
