From Verif Require Import Base TextModel EventLogModel EventLogSpec EventLogProofs EvolveSpec
  DagModel DagSpec DagProofs DagCompProofs StrModel StrProofs HookModel PlanModel PlanSpec PlanProofs PlanBuildProofs PlanProps
  ExecModel ExecSpec ExecProofs ExecBuildProofs ExecAfterProofs ExecProps HideModel HideSpec HideProofs RestackModel RestackSpec RestackProofs
  SyncModel SyncSpec SyncProofs MoveModel MoveSpec MoveProofs MoveReqProofs.
Local Open Scope list_scope.

(** ** Nearest commits *)
Section near.
Context (g : graph) (P : oid -> Prop).
Lemma proper_last x c : proper_ancestor g x c -> exists q, ancestor g x q /\ parent g q c.
Proof. induction 1 as [x c H|x y c H T (q & A & Q)]; [exists x; split; [constructor|exact H]|]. exists q. split; [eapply rtc_l; eauto|exact Q]. Qed.
Lemma nearest_is p c : nearest g P p c -> P p /\ proper_ancestor g p c.
Proof.
  induction 1 as [p c H Hp|p q c H N K [IH1 IH2]]; [split; [exact Hp|now apply tc_once]|]. split; [exact IH1|]. eapply tc_r; eauto.
Qed.
Hypothesis W : wf_graph g.
Hypothesis D : forall x, P x \/ ~ P x.
(** Where there are no merges there is one, and all others are below it. *)
Lemma nearest_some c : (forall x y, P x -> proper_ancestor g x y -> ancestor g y c -> ~ merge_commit g y) ->
  (exists n, nearest g P n c /\ forall x, P x -> proper_ancestor g x c -> ancestor g x n) \/ forall x, P x -> ~ proper_ancestor g x c.
Proof.
  remember (rank g c) as n eqn:E. assert (L : (rank g c <= n)%nat) by lia. clear E. revert c L.
  induction n as [n IH] using lt_wf_ind. intros c L NM.
  destruct (parent_dec (mk_dag g ∅ ∅ ∅ ∅ ∅) W c) as [[q Q]|N]; cbn [dag_graph] in *.
  2:{ right. intros x _ A. apply proper_last in A. destruct A as (q & _ & Q). exact (N q Q). }
  assert (One : forall x, P x -> proper_ancestor g x c -> ancestor g x q).
  { intros x Hx A. destruct (proper_last x c A) as (q' & A' & Q'). assert (q' = q) as ->; [|exact A'].
    apply (only_one_parent g c q' q W); auto. apply (NM x c Hx A). constructor. }
  destruct (D q) as [Hq|Nq].
  - left. exists q. split; [now apply nearest_here|exact One].
  - assert (Rq : (rank g q < n)%nat) by (pose proof (parent_rank g q c W Q); lia).
    destruct (IH (rank g q) Rq q (Nat.le_refl _)) as [(m & Hm & U)|N].
    + intros x y Hx A B. apply (NM x y Hx A). eapply rtc_r; eauto.
    + left. exists m. split; [eapply nearest_below; eauto|]. intros x Hx A. pose proof (One x Hx A) as A'. apply rtc_tc in A'.
      destruct A' as [->|A']; [contradiction|]. now apply U.
    + right. intros x Hx A. pose proof (One x Hx A) as A'. apply rtc_tc in A'. destruct A' as [->|A']; [contradiction|]. exact (N x Hx A').
Qed.
End near.

(** ** Ranges of commits *)
Section ranges.
Context (d : dag) (E : commit_set).
Let g := dag_graph d.
Hypothesis W : wf_graph g.
Hypothesis One : forall c, c ∈ E -> exists p, only_parent g c p.
Context (comps : list commit_set).
Hypothesis C1 : ⋃ comps = E.
Hypothesis C2 : forall C, C ∈ comps -> C <> ∅.
Hypothesis C3 : forall C x y, C ∈ comps -> x ∈ C -> y ∈ C <-> connected g E x y.

Lemma comp_sub C x : C ∈ comps -> x ∈ C -> x ∈ E.
Proof. intros HC Hx. rewrite <- C1. apply elem_union. eauto. Qed.
Lemma comp_some x : x ∈ E -> exists C, C ∈ comps /\ x ∈ C.
Proof. rewrite <- C1. apply elem_union. Qed.
Lemma comp_eq C C' x : C ∈ comps -> C' ∈ comps -> x ∈ C -> x ∈ C' -> C = C'.
Proof. intros H H' X X'. apply set_eq. intros y. now rewrite (C3 C x y H X), (C3 C' x y H' X'). Qed.
Lemma comp_link C x y : C ∈ comps -> x ∈ C -> y ∈ E -> parent g x y \/ parent g y x -> y ∈ C.
Proof.
  intros H X Y L. apply (C3 C x y H X). eapply rtc_l; [|constructor]. split; [now apply (comp_sub C)|]. split; [exact Y|tauto].
Qed.
Definition step_in (C : commit_set) (p c : oid) : Prop := parent g p c /\ p ∈ C /\ c ∈ C.
(** All of a range is above any first commit of it. *)
Lemma comp_path C s x : C ∈ comps -> s ∈ roots g C -> x ∈ C -> rtc (step_in C) s x.
Proof.
  intros H Hs Hx. apply roots_spec in Hs. destruct Hs as [Hs Rs].
  assert (K : connected g E s x) by (now apply (C3 C s x H Hs)).
  assert (X : x ∈ C /\ rtc (step_in C) s x); [|apply X]. clear Hx. revert x K. apply rtc_ind_r; [split; [exact Hs|constructor]|].
  intros y z _ (Hy & Hz & L) [Cy IH]. assert (Cz : z ∈ C) by (apply (comp_link C y z); tauto).
  split; [exact Cz|]. destruct L as [L|L]; [eapply rtc_r; [exact IH|]; now split|].
  apply rtc_inv_r in IH. destruct IH as [<-|(q & IH & Q)]; [destruct (Rs z Cz L)|].
  destruct (One y Hy) as [p Hp]. destruct Q as (Q & _). apply Hp in Q, L. now subst.
Qed.
Lemma comp_root C : C ∈ comps -> exists s, forall x, x ∈ roots g C <-> x = s.
Proof.
  intros H. destruct (set_choose_L C (C2 C H)) as [x Hx]. destruct (above_root g C x W Hx) as (s & Hs & _). exists s. intros y. split; [|now intros ->].
  intros Hy. pose proof (comp_path C s y H Hs) as K. apply roots_spec in Hy. destruct Hy as [Hy Ry]. specialize (K Hy).
  apply rtc_inv_r in K. destruct K as [K|(q & _ & Q & Cq & _)]; [now symmetry|]. destruct (Ry q Cq Q).
Qed.
Lemma step_in_ancestor C x y : rtc (step_in C) x y -> ancestor g x y.
Proof. induction 1 as [x|x y z [H _] _ IH]; [constructor|eapply rtc_l; eauto]. Qed.
End ranges.

(** ** Requests for single commits *)
Section exact.
Context (e : restack_env) (r : rrepo) (d : dag) (a : move_args) (dest : oid).
Let g := he_graph (re_hide e).
Let h := rr_repo r.
Hypothesis X : pickable e r a dest.
Hypothesis Op : open_repo (re_hide e) h = Some d.
Let R := pk_order _ _ _ _ X.
Let E : commit_set := ⋃ (ma_exacts a).

Lemma ex_graph : dag_graph d = g. Proof. exact (dag_is e r d R Op). Qed.
Lemma ex_wf : wf_graph g. Proof. exact (graph_wf e r R). Qed.
Lemma ex_given c : c ∈ E <-> given_exact a c. Proof. apply elem_union. Qed.
Lemma ex_shown_below x y : ancestor g x y -> shown g h y -> shown g h x.
Proof. intros A (v & B & K). exists v. split; [eapply rtc_transitive; eauto|exact K]. Qed.
Lemma ex_no_merge c x : c ∈ E -> ancestor g c x -> shown g h x -> ~ merge_commit g x.
Proof. intros H. apply (pk_merge _ _ _ _ X). now apply ex_given. Qed.
Lemma ex_only c : c ∈ E -> exists p, only_parent g c p.
Proof.
  intros H. destruct (pk_parent _ _ _ _ X c) as [p P]; [now apply ex_given|]. exists p. intros q. split; [|now intros ->].
  intros Q. apply (only_one_parent g c q p ex_wf); auto. apply (ex_no_merge c c H); [constructor|]. apply (pk_shown _ _ _ _ X). now apply ex_given.
Qed.
Lemma ex_shown c : c ∈ E -> shown g h c.
Proof. intros H. apply (pk_shown _ _ _ _ X). now apply ex_given. Qed.

(** The ranges. *)
Context (comps : list commit_set).
Hypothesis C1 : ⋃ comps = E.
Hypothesis C2 : forall C, C ∈ comps -> C <> ∅.
Hypothesis C3 : forall C x y, C ∈ comps -> x ∈ C -> y ∈ C <-> connected g E x y.
Definition rooted (l : list (oid * commit_set)) : Prop :=
  forall s C, (s, C) ∈ l -> forall x, x ∈ roots g C <-> x = s.
Lemma exact_components_go : exists l, exact_components e d comps = Go l /\ List.map snd l = comps /\ rooted l.
Proof.
  assert (K : forall l', (forall C, C ∈ l' -> C ∈ comps) -> exists l, exact_components e d l' = Go l /\ List.map snd l = l' /\ rooted l).
  { induction l' as [|C l' IH]; intros Sub; [exists []; split; [reflexivity|]; split; [reflexivity|]; intros s C H; now apply elem_of_nil in H|].
    destruct IH as (l & El & Sl & Rl); [intros; apply Sub; now right|]. assert (HC : C ∈ comps) by (apply Sub; left).
    pose proof (comp_root (mk_dag g ∅ ∅ ∅ ∅ ∅) E ex_wf ex_only comps C1 C2 C3 C HC) as [s Hs]. cbn [dag_graph] in Hs.
    exists ((s, C) :: l). cbn [exact_components]. rewrite ex_graph. rewrite (order_one e (ra_sets _ _ R) _ s Hs).
    assert (Hc : s ∈ C) by (pose proof (proj2 (Hs s) eq_refl) as Hr; apply roots_spec in Hr; apply Hr).
    destruct (ex_only s) as [p Hp]; [eapply comp_sub; eauto|].
    assert (parents g {[s]} = {[p]}) as ->.
    { apply set_eq. intros x. rewrite parents_spec, elem_of_singleton. split; [intros (c & Hcs & P); apply elem_of_singleton in Hcs as ->; now apply Hp|].
      intros ->. exists s. split; [now apply elem_of_singleton|now apply Hp]. }
    rewrite size_singleton. cbn [Nat.eqb]. rewrite El. cbn [and_then List.map snd]. split; [reflexivity|]. split; [now rewrite Sl|].
    intros s' C' H. apply elem_of_cons in H. destruct H as [[= -> ->]|H]; [exact Hs|now apply (Rl s')]. }
  apply K. auto.
Qed.

Context (l : list (oid * commit_set)).
Hypothesis Sl : List.map snd l = comps.
Hypothesis Rl : rooted l.
Let starts : list oid := re_sort e (list_to_set (List.map fst l)).
Lemma l_comp s C : (s, C) ∈ l -> C ∈ comps.
Proof. intros H. rewrite <- Sl. apply elem_of_list_In, in_map_iff. exists (s, C). split; [reflexivity|now apply elem_of_list_In]. Qed.
Lemma l_root s C : (s, C) ∈ l -> s ∈ C /\ forall p, parent g p s -> p ∉ C.
Proof.
  intros H. pose proof (proj2 (Rl s C H s) eq_refl) as K. apply roots_spec in K. destruct K as [K1 K2]. split; [exact K1|].
  intros p P Hp. exact (K2 p Hp P).
Qed.
Lemma l_some C : C ∈ comps -> exists s, (s, C) ∈ l.
Proof.
  rewrite <- Sl. intros H. apply elem_of_list_In, in_map_iff in H. destruct H as ([s C'] & <- & H). exists s. now apply elem_of_list_In.
Qed.
Lemma l_sub s C x : (s, C) ∈ l -> x ∈ C -> x ∈ E.
Proof. intros H. apply (comp_sub E comps C1 C). eapply l_comp; eauto. Qed.
Lemma l_start s C : (s, C) ∈ l -> s ∈ E.
Proof. intros H. eapply l_sub; eauto. now apply l_root. Qed.
Lemma l_in x : x ∈ E -> exists s C, (s, C) ∈ l /\ x ∈ C.
Proof.
  intros H. destruct (comp_some E comps C1 x H) as (C & HC & Hx). destruct (l_some C HC) as [s Hs]. eauto.
Qed.
Lemma l_one s s' C C' x : (s, C) ∈ l -> (s', C') ∈ l -> x ∈ C -> x ∈ C' -> s = s' /\ C = C'.
Proof.
  intros H H' Y Y'. pose proof (l_comp _ _ H) as HC. pose proof (l_comp _ _ H') as HC'.
  assert (C = C') as -> by (eapply (comp_eq (mk_dag g ∅ ∅ ∅ ∅ ∅) E comps C3); eauto). split; [|reflexivity].
  apply (Rl s' C' H' s). now apply (Rl s C' H).
Qed.
Lemma l_path s C x : (s, C) ∈ l -> x ∈ C -> rtc (step_in (mk_dag g ∅ ∅ ∅ ∅ ∅) C) s x.
Proof.
  intros H Hx. apply (comp_path (mk_dag g ∅ ∅ ∅ ∅ ∅) E ex_only comps C1 C3); [eapply l_comp; eauto| |exact Hx]. cbn [dag_graph]. now apply (Rl s C H).
Qed.
Lemma l_above s C x : (s, C) ∈ l -> x ∈ C -> ancestor g s x.
Proof. intros H Hx. apply (step_in_ancestor (mk_dag g ∅ ∅ ∅ ∅ ∅) C). now apply l_path. Qed.
Lemma component_of_spec s C : (s, C) ∈ l -> component_of l s = C.
Proof.
  intros H. unfold component_of. destruct (List.find _ l) as [[s' C']|] eqn:F.
  - apply find_some in F. destruct F as [F1 F2]. apply elem_of_list_In in F1. cbn [fst snd] in *. apply bool_decide_eq_true in F2. subst s'.
    destruct (l_one s s C' C s F1 H); auto; now apply l_root.
  - exfalso. apply elem_of_list_In in H. apply (find_none _ _ F) in H. cbn [fst] in H. apply bool_decide_eq_false in H. now apply H.
Qed.
Lemma starts_in s : s ∈ starts <-> exists C, (s, C) ∈ l.
Proof.
  unfold starts. rewrite (ra_sort _ _ R), elem_of_elements, elem_of_list_to_set, elem_of_list_In, in_map_iff. split.
  - intros ([s' C] & <- & H). exists C. now apply elem_of_list_In.
  - intros [C H]. exists (s, C). split; [reflexivity|now apply elem_of_list_In].
Qed.
Lemma E_dec x : x ∈ E \/ x ∉ E. Proof. destruct (decide (x ∈ E)); auto. Qed.
Lemma not_E_dec x : x ∉ E \/ ~ (x ∉ E). Proof. destruct (decide (x ∈ E)); auto. Qed.

(** The parent of the first commit of a range is not among those given. *)
Lemma start_parent s C p : (s, C) ∈ l -> parent g p s -> p ∉ E.
Proof.
  intros H P Hp. destruct (l_root s C H) as [Hs N]. apply (N p P).
  apply (comp_link (mk_dag g ∅ ∅ ∅ ∅ ∅) E comps C1 C3 C s p); auto. eapply l_comp; eauto.
Qed.
Lemma range_nearest s C p x : (s, C) ∈ l -> parent g p s -> x ∈ C -> nearest g (fun y => y ∉ E) p x.
Proof.
  intros H P Hx. pose proof (l_path s C x H Hx) as K. revert x K Hx. apply (rtc_ind_r (fun x => x ∈ C -> nearest g (fun y => y ∉ E) p x)).
  - intros _. apply nearest_here; [exact P|]. eapply start_parent; eauto.
  - intros y z _ (Q & Hy & Hz) IH _. eapply nearest_below; [exact Q| |now apply IH]. intros N. apply N. eapply l_sub; eauto.
Qed.
Lemma nearest_kid s C p k x : (s, C) ∈ l -> parent g p s -> x ∈ C -> parent g x k -> nearest g (fun y => y ∉ E) p k.
Proof.
  intros H P Hx K. eapply nearest_below; [exact K| |eapply range_nearest; eauto]. intros N. apply N. eapply l_sub; eauto.
Qed.

(** *** Where a range goes *)
Lemma possible_in s x : x ∈ possible_destinations d l starts s <-> exists C, (x, C) ∈ l /\ s ∉ C /\ ancestor g x s.
Proof.
  unfold possible_destinations. rewrite elem_of_list_In, filter_In, <- elem_of_list_In, starts_in, andb_true_iff, negb_true_iff.
  rewrite ex_graph, is_ancestor_spec by exact ex_wf. split.
  - intros [[C H] [N A]]. exists C. split; [exact H|]. rewrite (component_of_spec x C H) in N. apply bool_decide_eq_false in N. auto.
  - intros (C & H & N & A). split; [eauto|]. rewrite (component_of_spec x C H). split; [now apply bool_decide_eq_false|exact A].
Qed.
Lemma one_after_another_spec k z : one_after_another d k = None -> last k = Some z -> forall x, x ∈ k -> ancestor g x z.
Proof.
  induction k as [|x [|y k] IH]; intros O L.
  - discriminate.
  - cbn in L. injection L as <-. intros y Hy. apply elem_of_list_singleton in Hy as ->. constructor.
  - change ((if is_ancestor (dag_graph d) x y then one_after_another d (y :: k) else Some (x, y)) = None) in O. rewrite ex_graph in O. destruct (is_ancestor g x y) eqn:A; [|discriminate].
    apply is_ancestor_spec in A; [|exact ex_wf]. change (last (y :: k) = Some z) in L. specialize (IH O L).
    intros w Hw. apply elem_of_cons in Hw. destruct Hw as [->|Hw]; [|now apply IH]. eapply rtc_transitive; [exact A|]. apply IH. left.
Qed.
Lemma start_nearest s C : (s, C) ∈ l ->
  (exists n, nearest g (fun x => x ∈ E) n s /\ forall x, x ∈ E -> proper_ancestor g x s -> ancestor g x n) \/ forall x, x ∈ E -> ~ proper_ancestor g x s.
Proof.
  intros H. apply nearest_some; [exact ex_wf|exact E_dec|]. intros x y Hx A B. apply (ex_no_merge x y Hx); [now apply tc_rtc|].
  eapply ex_shown_below; [exact B|]. apply ex_shown. eapply l_start; eauto.
Qed.
Lemma component_dest_spec s C : (s, C) ∈ l ->
  match component_dest e d l starts dest s with
  | Go p => nearest g (fun x => x ∈ E) p s \/ ((forall q, ~ nearest g (fun x => x ∈ E) q s) /\ p = dest)
  | Stop w => w = ManyPlaces s
  end.
Proof.
  intros H. unfold component_dest.
  destruct (last (possible_destinations d l starts s)) as [z|] eqn:L.
  - destruct (one_after_another d (possible_destinations d l starts s)) as [|] eqn:O; [reflexivity|].
    pose proof (one_after_another_spec _ z O L) as Up.
    assert (Hz : z ∈ possible_destinations d l starts s) by (apply last_Some in L; destruct L as [l' ->]; apply elem_of_app; right; left).
    apply possible_in in Hz. destruct Hz as (Cz & Hz & Nz & Az).
    assert (Ez : z ∈ E) by (eapply l_start; eauto).
    assert (Pz : proper_ancestor g z s).
    { apply rtc_tc in Az. destruct Az as [->|Az]; [|exact Az]. destruct Nz. now apply (l_root s Cz). }
    destruct (start_nearest s C H) as [(n & Hn & Un)|N]; [|destruct (N z Ez Pz)].
    destruct (nearest_is _ _ _ _ Hn) as [En Pn].
    (* the range of [n] is that of [z] *)
    destruct (l_in n En) as (s' & C' & H' & Cn).
    assert (Ns : s ∉ C').
    { intros Hs. destruct (l_one s s' C C' s H H' (proj1 (l_root s C H)) Hs) as [<- <-]. pose proof (l_above s C n H Cn) as A.
      apply (wf_acyclic g s ex_wf). eapply tc_rtc_l; [exact A|exact Pn]. }
    assert (Ps : s' ∈ possible_destinations d l starts s).
    { apply possible_in. exists C'. split; [exact H'|]. split; [exact Ns|]. eapply rtc_transitive; [exact (l_above s' C' n H' Cn)|now apply tc_rtc]. }
    apply Up in Ps. pose proof (Un z Ez Pz) as Zn.
    assert (Cz' : z ∈ C').
    { pose proof (l_path s' C' n H' Cn) as K.
      assert (G : forall n, rtc (step_in (mk_dag g ∅ ∅ ∅ ∅ ∅) C') s' n -> ancestor g z n -> n ∈ C' -> z ∈ C').
      { intros n0 K0. revert n0 K0. apply (rtc_ind_r (fun n => ancestor g z n -> n ∈ C' -> z ∈ C')).
        - intros A Hs. now rewrite (ancestor_antisym g z s' ex_wf A Ps).
        - intros y w _ (Q & Hy & Hw) IH A _. apply rtc_inv_r in A. destruct A as [->|(q & A & Q')]; [exact Hw|].
          destruct (ex_only w) as [p Hp]; [eapply l_sub; eauto|]. apply Hp in Q, Q'. subst. now apply IH. }
      apply (G n K Zn). apply rtc_inv_r in K. destruct K as [<-|(q & _ & _ & _ & Hn')]; [now apply (l_root s' C')|exact Hn']. }
    destruct (l_one z s' Cz C' z Hz H' (proj1 (l_root z Cz Hz)) Cz') as [<- <-].
    rewrite (component_of_spec z Cz Hz). rewrite (first_one e (ra_sets _ _ R) _ n); [now left|].
    rewrite ex_graph. intros x. rewrite heads_spec. setoid_rewrite elem_of_intersection.
    assert (An : forall y, y ∈ ancestors g {[s]} <-> ancestor g y s).
    { intros y. rewrite ancestors_spec by exact ex_wf. split; [intros (w & Hw & A); apply elem_of_singleton in Hw as ->; exact A|].
      intros A. exists s. split; [now apply elem_of_singleton|exact A]. }
    setoid_rewrite An. split.
    + intros [[Ax Cx] Hx]. assert (Px : proper_ancestor g x s).
      { apply rtc_tc in Ax. destruct Ax as [->|Ax]; [|exact Ax]. contradiction. }
      pose proof (Un x (l_sub z Cz x Hz Cx) Px) as Xn. 
      pose proof (l_path z Cz n Hz Cn) as K. pose proof (l_above z Cz x Hz Cx) as Zx.
      assert (G : forall n, rtc (step_in (mk_dag g ∅ ∅ ∅ ∅ ∅) Cz) z n -> ancestor g x n -> ancestor g n s -> n ∈ Cz -> x = n).
      { intros n0 K0. revert n0 K0. apply (rtc_ind_r (fun n => ancestor g x n -> ancestor g n s -> n ∈ Cz -> x = n)).
        - intros A _ _. now apply (ancestor_antisym g x z ex_wf).
        - intros y w _ (Q & Hy & Hw) IH A B _. apply rtc_inv_r in A. destruct A as [->|(q & A & Q')]; [reflexivity|]. exfalso.
          destruct (ex_only w) as [p Hp]; [eapply l_sub; eauto|]. apply Hp in Q as Qe, Q'. subst q. subst y.
          assert (x = p) as ->; [apply IH; auto; eapply rtc_l; eauto|]. apply (Hx w); [|exact Q]. auto. }
      apply (G n K Xn); [now apply tc_rtc|]. apply rtc_inv_r in K. destruct K as [<-|(q & _ & _ & _ & Hn')]; [now apply (l_root z Cz)|exact Hn'].
    + intros ->. split; [split; [now apply tc_rtc|exact Cn]|]. intros y [Ay Cy] P.
      assert (Py : proper_ancestor g y s) by (apply rtc_tc in Ay; destruct Ay as [->|Ay]; [contradiction|exact Ay]).
      pose proof (Un y (l_sub z Cz y Hz Cy) Py) as A. apply (wf_acyclic g n ex_wf). eapply tc_rtc_r; [apply tc_once; exact P|exact A].
  - right. split; [|reflexivity]. intros q Hq. apply nearest_is in Hq. destruct Hq as [Eq Pq].
    destruct (l_in q Eq) as (s' & C' & H' & Cq). assert (Ps : s' ∈ possible_destinations d l starts s).
    { apply possible_in. exists C'. split; [exact H'|]. split; [|eapply rtc_transitive; [exact (l_above s' C' q H' Cq)|now apply tc_rtc]].
      intros Hs. destruct (l_one s s' C C' s H H' (proj1 (l_root s C H)) Hs) as [<- <-]. pose proof (l_above s C q H Cq) as A.
      apply (wf_acyclic g s ex_wf). eapply tc_rtc_l; [exact A|exact Pq]. }
    apply last_None in L. rewrite L in Ps. now apply elem_of_nil in Ps.
Qed.
Lemma line_below x y s : x ∈ E -> ancestor g x s -> ancestor g y s -> shown g h s -> ancestor g x y \/ ancestor g y x.
Proof.
  intros Hx A. revert s A. apply (rtc_ind_r (fun s => ancestor g y s -> shown g h s -> ancestor g x y \/ ancestor g y x)); [auto|].
  intros w z A P IH B Sh. apply rtc_inv_r in B. destruct B as [->|(q & B & Q)]; [left; eapply rtc_r; eauto|].
  assert (q = w) as ->; [|apply IH; [exact B|]; eapply ex_shown_below; [|exact Sh]; now apply rtc_once].
  apply (only_one_parent g z q w ex_wf); auto. apply (ex_no_merge x z Hx); [eapply rtc_r; eauto|exact Sh].
Qed.
(** When commits are sorted there is no doubt. *)
Lemma component_dest_go s C : sorts_up e -> (s, C) ∈ l -> exists p, component_dest e d l starts dest s = Go p.
Proof.
  intros So H. unfold component_dest. destruct (last (possible_destinations d l starts s)) as [z|] eqn:L; [|eauto].
  assert (O : one_after_another d (possible_destinations d l starts s) = None); [|rewrite O; destruct (set_first _ _); eauto].
  assert (G : forall k, (forall l1 x l2 y l3, k = l1 ++ x :: l2 ++ y :: l3 -> ancestor g x y) -> one_after_another d k = None).
  { induction k as [|x [|y k] IH]; intros A; [reflexivity..|].
    change ((if is_ancestor (dag_graph d) x y then one_after_another d (y :: k) else Some (x, y)) = None). rewrite ex_graph.
    assert (is_ancestor g x y = true) as ->; [apply is_ancestor_spec; [exact ex_wf|]; apply (A [] x [] y k); reflexivity|].
    apply IH. intros l1 u l2 v l3 Ek. apply (A (x :: l1) u l2 v l3). now rewrite Ek. }
  apply G. intros l1 x l2 y l3 Ek.
  assert (Hx : x ∈ possible_destinations d l starts s) by (rewrite Ek; apply elem_of_app; right; left).
  assert (Hy : y ∈ possible_destinations d l starts s) by (rewrite Ek; apply elem_of_app; right; right; apply elem_of_app; right; left).
  assert (Ny : ~ ancestor g y x).
  { (* the order is that of [starts] *)
    assert (Sub : forall k l1 x l2 y l3, List.filter (fun r => (negb (bool_decide (s ∈ component_of l r)) && is_ancestor (dag_graph d) r s)%bool) k = l1 ++ x :: l2 ++ y :: l3 ->
      exists k1 k2 k3, k = k1 ++ x :: k2 ++ y :: k3).
    { clear. intros k. induction k as [|w k IH]; intros l1 x l2 y l3 Ek; [destruct l1; discriminate|]. cbn [List.filter] in Ek.
      destruct (_ && _)%bool.
      - destruct l1 as [|w' l1]; cbn in Ek; injection Ek as -> Ek.
        + assert (Hy : y ∈ k). { eapply elem_of_list_In, (proj1 (filter_In _ y k)). rewrite Ek. apply in_app_iff. right. now left. }
          apply elem_of_list_split in Hy. destruct Hy as (k2 & k3 & ->). exists [], k2, k3. reflexivity.
        + destruct (IH l1 x l2 y l3 Ek) as (k1 & k2 & k3 & ->). exists (w' :: k1), k2, k3. reflexivity.
      - destruct (IH l1 x l2 y l3 Ek) as (k1 & k2 & k3 & ->). exists (w :: k1), k2, k3. reflexivity. }
    destruct (Sub starts l1 x l2 y l3 Ek) as (k1 & k2 & k3 & Es). exact (So _ _ _ _ _ _ Es). }
  apply possible_in in Hx, Hy. destruct Hx as (Cx & Hx & Nx & Ax), Hy as (Cy & Hy & Nyc & Ay).
  destruct (line_below x y s) as [A|A]; auto; [eapply l_start; eauto|apply ex_shown; eapply l_start; eauto|]. contradiction.
Qed.

(** *** The requests *)
Definition kid (C : commit_set) (k : oid) : Prop := shown g h k /\ k ∉ C /\ exists x, x ∈ C /\ parent g x k.
Definition asks (ins : bool) (s : oid) (C : commit_set) (x : constraint) : Prop :=
  (exists p, x = MoveSubtree [p] s /\ component_dest e d l starts dest s = Go p) \/
  (exists p k, x = MoveSubtree [p] k /\ kid C k /\ parent g p s) \/
  (exists p k, ins = true /\ x = MoveChildren k p /\ kid C k /\ component_dest e d l starts dest s = Go p /\ ancestor g k p).
Lemma kids_spec C k : k ∈ re_order e (filter_visible d (children g C ∖ C)) <-> kid C k.
Proof.
  rewrite (ra_sets _ _ R), elem_of_elements, filter_visible_spec by (rewrite ex_graph; exact ex_wf). rewrite (shown_is e r d R Op).
  rewrite elem_of_difference, children_spec. unfold kid. fold g h.
  split; [intros [[K N] Sh]; exact (conj Sh (conj N K))|intros (Sh & N & K); exact (conj (conj K N) Sh)].
Qed.
Lemma component_requests_spec ins s C : (s, C) ∈ l ->
  match component_requests e d false ins dest l starts s with
  | Go cs => (exists p, component_dest e d l starts dest s = Go p) /\ forall x, x ∈ cs <-> asks ins s C x
  | Stop w => component_dest e d l starts dest s = Stop w
  end.
Proof.
  intros H. unfold component_requests. rewrite (component_of_spec s C H). unfold asks.
  destruct (component_dest e d l starts dest s) as [p|w] eqn:Ed; cbn [and_then]; [|reflexivity].
  destruct (ex_only s) as [q Hq]; [eapply l_start; eauto|]. rewrite ex_graph.
  rewrite (first_one e (ra_sets _ _ R) (parents g {[s]}) q).
  2:{ intros x. rewrite parents_spec. split; [intros (c & Hc & P); apply elem_of_singleton in Hc as ->; now apply Hq|].
      intros ->. exists s. split; [now apply elem_of_singleton|now apply Hq]. }
  split; [eauto|].
  intros x. rewrite elem_of_app, elem_of_list_singleton. split.
  - intros [Hx|Hx].
    + apply elem_of_list_In, in_flat_map in Hx. destruct Hx as (k & Hk & Hx). apply elem_of_list_In, kids_spec in Hk. apply elem_of_list_In in Hx.
      destruct (ins && is_ancestor g k p)%bool eqn:Ei.
      * apply andb_true_iff in Ei. destruct Ei as [Ei A]. apply is_ancestor_spec in A; [|exact ex_wf].
        unfold move_range in Hx. apply elem_of_cons in Hx. destruct Hx as [->|Hx].
        -- right. left. exists q, k. split; [reflexivity|]. split; [exact Hk|now apply Hq].
        -- apply elem_of_list_singleton in Hx as ->. right. right. exists p, k. auto.
      * apply elem_of_list_singleton in Hx as ->. right. left. exists q, k. split; [reflexivity|]. split; [exact Hk|now apply Hq].
    + left. exists p. auto.
  - intros [(p' & -> & [= ->])|[(p' & k & -> & Hk & P)|(p' & k & -> & -> & Hk & [= ->] & A)]]; [now right|left|left].
    + apply Hq in P as ->. apply elem_of_list_In, in_flat_map. exists k. split; [apply elem_of_list_In; now apply kids_spec|]. apply elem_of_list_In.
      destruct (ins && is_ancestor g k p)%bool; left.
    + apply elem_of_list_In, in_flat_map. exists k. split; [apply elem_of_list_In; now apply kids_spec|]. apply elem_of_list_In.
      apply is_ancestor_spec in A; [|exact ex_wf]. rewrite A. right. left.
Qed.
Lemma all_requests_spec ins todo : (forall s, s ∈ todo -> s ∈ starts) ->
  match all_component_requests e d false ins dest l starts todo with
  | Go cs => (forall s, s ∈ todo -> exists p, component_dest e d l starts dest s = Go p) /\
      forall x, x ∈ cs <-> exists s C, s ∈ todo /\ (s, C) ∈ l /\ asks ins s C x
  | Stop w => exists s C, (s, C) ∈ l /\ component_dest e d l starts dest s = Stop w
  end.
Proof.
  induction todo as [|s todo IH]; intros Sub; cbn [all_component_requests].
  - split; [intros s H; now apply elem_of_nil in H|]. intros x. split; [intros H; now apply elem_of_nil in H|]. intros (s & C & H & _). now apply elem_of_nil in H.
  - destruct (proj1 (starts_in s)) as [C HC]; [apply Sub; left|].
    pose proof (component_requests_spec ins s C HC) as K. destruct (component_requests e d false ins dest l starts s) as [cs|w]; cbn [and_then]; [|eauto].
    specialize (IH ltac:(intros; apply Sub; now right)).
    destruct (all_component_requests e d false ins dest l starts todo) as [cs'|w]; cbn [and_then]; [|exact IH].
    destruct K as [K1 K2], IH as [IH1 IH2]. split; [intros s' Hs; apply elem_of_cons in Hs; destruct Hs as [->|Hs]; [exact K1|now apply IH1]|].
    intros x. rewrite elem_of_app, K2, IH2. split.
    + intros [H|(s' & C' & H1 & H2 & H3)]; [exists s, C; split; [left|auto]|exists s', C'; split; [now right|auto]].
    + intros (s' & C' & H1 & H2 & H3). apply elem_of_cons in H1. destruct H1 as [->|H1]; [|right; eauto]. left.
      destruct (l_one s s C C' s HC H2 (proj1 (l_root s C HC)) (proj1 (l_root s C' H2))) as [_ ->]. exact H3.
Qed.

(** What they mean. *)
Definition told_exact (c p : oid) : Prop :=
  (exists C, (c, C) ∈ l /\ component_dest e d l starts dest c = Go p) \/
  (exists s C, (s, C) ∈ l /\ kid C c /\ parent g p s).
Lemma kid_out C s k : (s, C) ∈ l -> kid C k -> k ∉ E.
Proof.
  intros H (_ & N & x & Hx & P) Hk. apply N. apply (comp_link (mk_dag g ∅ ∅ ∅ ∅ ∅) E comps C1 C3 C x k); auto. eapply l_comp; eauto.
Qed.
Lemma kid_no_merge C s k : (s, C) ∈ l -> kid C k -> ~ merge_commit g k.
Proof.
  intros H (Sh & _ & x & Hx & P). apply (ex_no_merge x k); [eapply l_sub; eauto|now apply rtc_once|exact Sh].
Qed.
Lemma told_exact_one c p p' : told_exact c p -> told_exact c p' -> p = p'.
Proof.
  intros [(C & H & D)|(s & C & H & K & P)] [(C' & H' & D')|(s' & C' & H' & K' & P')].
  - congruence.
  - destruct (kid_out _ _ _ H' K'). eapply l_start; eauto.
  - destruct (kid_out _ _ _ H K). eapply l_start; eauto.
  - pose proof (kid_no_merge _ _ _ H K) as NM. destruct K as (_ & _ & x & Hx & Px), K' as (_ & _ & x' & Hx' & Px').
    rewrite (only_one_parent g c x' x ex_wf NM Px' Px) in Hx'.
    destruct (l_one s s' C C' x H H' Hx Hx') as [<- <-]. destruct (ex_only s) as [q Hq]; [eapply l_start; eauto|]. apply Hq in P, P'. congruence.
Qed.
Lemma told_exact_shown c p : told_exact c p -> shown g h c.
Proof. intros [(C & H & _)|(s & C & H & K & _)]; [apply ex_shown; eapply l_start; eauto|apply K]. Qed.
Lemma told_exact_simple c p : told_exact c p -> c ∈ vertices g /\ ~ merge_commit g c.
Proof.
  intros H. split; [apply (SyncProofs.shown_known e r); [exact R|]; eapply told_exact_shown; eauto|].
  destruct H as [(C & H & _)|(s & C & H & K & _)]; [|eapply kid_no_merge; eauto]. apply (ex_no_merge c c); [eapply l_start; eauto|constructor|].
  apply ex_shown. eapply l_start; eauto.
Qed.
Lemma told_exact_above c p o : told_exact c p -> ancestor g c o -> exists x, x ∈ E /\ ancestor g x o.
Proof.
  intros [(C & H & _)|(s & C & H & (_ & _ & x & Hx & P) & _)] A; [exists c; split; [eapply l_start; eauto|exact A]|].
  exists x. split; [eapply l_sub; eauto|eapply rtc_l; eauto].
Qed.
(** Every commit goes where it should. *)
Lemma exact_goes p c : shown g h c -> as_told g told_exact p c -> (forall s C, (s, C) ∈ l -> exists p, component_dest e d l starts dest s = Go p) ->
  picked_onto g (fun x => x ∈ E) dest p c.
Proof.
  intros Sh [[(C & H & D)|(s & C & H & K & P)]|[N P]] All.
  - left. split; [eapply l_start; eauto|]. pose proof (component_dest_spec c C H) as S. now rewrite D in S.
  - right. split; [eapply kid_out; eauto|]. destruct K as (_ & _ & x & Hx & Q). eapply nearest_kid; eauto.
  - destruct (decide (c ∈ E)) as [Hc|Nc].
    + left. split; [exact Hc|]. left. apply nearest_here; [exact P|]. destruct (l_in c Hc) as (s & C & H & Cc).
      destruct (decide (p ∈ C)) as [Hp|Np]; [eapply l_sub; eauto|]. exfalso.
      assert (c = s) as ->.
      { apply (Rl s C H c). apply roots_spec. split; [exact Cc|]. intros q Hq Q. destruct (ex_only c Hc) as [p' Hp']. apply Hp' in P, Q. congruence. }
      destruct (All s C H) as [p' D]. apply (N p'). left. eauto.
    + right. split; [exact Nc|]. apply nearest_here; [exact P|]. intros Hp. destruct (l_in p Hp) as (s & C & H & Cp).
      destruct (ex_only s) as [q Hq]; [eapply l_start; eauto|]. apply (N q). right. exists s, C. split; [exact H|]. split; [|now apply Hq].
      split; [exact Sh|]. split; [intros Cc; apply Nc; eapply l_sub; eauto|eauto].
Qed.

Context (cs : list constraint).
Hypothesis All : forall s C, (s, C) ∈ l -> exists p, component_dest e d l starts dest s = Go p.
Hypothesis Hcs : forall x, x ∈ cs <-> exists s C, s ∈ starts /\ (s, C) ∈ l /\ asks false s C x.
Lemma ex_in x : x ∈ cs <-> exists c p, x = MoveSubtree [p] c /\ told_exact c p.
Proof.
  rewrite Hcs. split.
  - intros (s & C & _ & H & [(p & -> & D)|[(p & k & -> & K & P)|(p & k & Y & _)]]); [| |discriminate].
    + exists s, p. split; [reflexivity|]. left. eauto.
    + exists k, p. split; [reflexivity|]. right. eauto.
  - intros (c & p & -> & [(C & H & D)|(s & C & H & K & P)]).
    + exists c, C. split; [apply starts_in; eauto|]. split; [exact H|]. left. eauto.
    + exists s, C. split; [apply starts_in; eauto|]. split; [exact H|]. right. left. eauto.
Qed.
Lemma ex_F : Forall (simple_request g) cs.
Proof.
  apply Forall_forall. intros x Hx. apply ex_in in Hx. destruct Hx as (c & p & -> & H). left. exists p, c. split; [reflexivity|].
  eapply told_exact_simple; eauto.
Qed.
Lemma ex_T c p : placed cs c p <-> told_exact c p.
Proof.
  rewrite (consistent_told g cs ex_F).
  - rewrite ex_in. split; [intros (c' & p' & [= -> ->] & H); exact H|eauto].
  - intros q q' c' H H'. apply ex_in in H, H'. destruct H as (? & ? & [= -> ->] & H), H' as (? & ? & [= <- ->] & H'). eapply told_exact_one; eauto.
Qed.
Lemma ex_no_range x u v : x ∈ cs -> ~ takes_out x u v.
Proof. intros H. apply ex_in in H. destruct H as (c & p & -> & _). intros [Y|(t & Y & _)]; discriminate. Qed.
Lemma ex_NG x p : ~ closes_gap d cs x p.
Proof.
  intros (_ & _ & b & y & t & u & v & K & Y & _). eapply ex_no_range; [|exact Y]. rewrite K. apply elem_of_app; right; left.
Qed.
Lemma ex_gaps : gaps_close d cs.
Proof. intros b x t u v K Y. exfalso. eapply ex_no_range; [|exact Y]. rewrite K. apply elem_of_app; right; left. Qed.
Lemma ex_asked o : (exists c, asked_by told_exact c /\ ancestor g c o) <-> exists c, given_exact a c /\ ancestor g c o.
Proof.
  split.
  - intros (c & [p H] & A). destruct (told_exact_above c p o H A) as (x & Hx & A'). exists x. split; [now apply ex_given|exact A'].
  - intros (c & Hc & A). apply ex_given in Hc. destruct (l_in c Hc) as (s & C & H & Cc). exists s. split.
    + destruct (All s C H) as [p D]. exists p. left. eauto.
    + eapply rtc_transitive; [exact (l_above s C c H Cc)|exact A].
Qed.
Lemma ex_picked p c : shown g h c -> as_told g told_exact p c -> picked_onto g (given_exact a) dest p c.
Proof.
  intros Sh H. apply exact_goes in H; auto.
  assert (N : forall (P Q : oid -> Prop) p c, (forall x, P x <-> Q x) -> nearest g P p c -> nearest g Q p c).
  { intros P Q p' c' PQ N. induction N as [p' c' K Hp|p' q c' K Nq N IH]; [apply nearest_here; [exact K|now apply PQ]|].
    apply (nearest_below _ _ p' q c'); [exact K|now rewrite <- PQ|exact IH]. }
  destruct H as [[Hc [H|[H ->]]]|[Hc H]].
  - left. split; [now apply ex_given|]. left. eapply N; [|exact H]. intros x. cbn. apply ex_given.
  - left. split; [now apply ex_given|]. right. split; [|reflexivity]. intros q K. apply (H q). eapply N; [|exact K]. intros x. cbn. symmetry. apply ex_given.
  - right. split; [now rewrite <- ex_given|]. eapply N; [|exact H]. intros x. cbn. now rewrite ex_given.
Qed.
Lemma ex_new_parent p x : new_parent d cs p x <->
  told_exact x p \/ ((forall q, ~ told_exact x q) /\ visible d x /\ (exists a q, told_exact a q /\ ancestor g a x) /\ parent g p x).
Proof.
  rewrite <- ex_graph. apply many_new_parent; [rewrite ex_graph; exact ex_F|exact ex_NG|exact ex_T].
Qed.
Lemma ex_new_picked p x : new_parent d cs p x -> picked_onto g (fun x => x ∈ E) dest p x.
Proof.
  intros H. apply ex_new_parent in H. destruct H as [H|(N & V & _ & P)].
  - apply exact_goes; auto; [eapply told_exact_shown; eauto|now left].
  - apply exact_goes; auto; [now apply (shown_is e r d R Op)|right; auto].
Qed.
Lemma ex_possible : dest ∉ E -> ~ impossible d cs.
Proof.
  intros ND [x T].
  assert (K : forall y z, tc (new_parent d cs) y z -> (z ∉ E -> y ∉ E /\ tc (parent g) y z) /\ (z ∈ E -> y ∉ E \/ tc (parent g) y z)).
  { assert (One : forall y z, new_parent d cs y z -> (z ∉ E -> y ∉ E /\ tc (parent g) y z) /\ (z ∈ E -> y ∉ E \/ tc (parent g) y z)).
    { intros y z H. apply ex_new_picked in H. destruct H as [[Hz H]|[Nz H]].
      - split; [contradiction|]. intros _. destruct H as [H|[_ ->]]; [|auto]. right. now apply nearest_is in H.
      - split; [|contradiction]. intros _. apply nearest_is in H. exact H. }
    intros y z H. induction H as [y z H|y w z H H' [IH1 IH2]]; [now apply One|].
    destruct (One y w H) as [O1 O2]. split.
    - intros Nz. destruct (IH1 Nz) as [Nw Tw]. destruct (O1 Nw) as [Ny Ty]. split; [exact Ny|eapply tc_transitive; eauto].
    - intros Hz. destruct (IH2 Hz) as [Nw|Tw]; [destruct (O1 Nw); now left|].
      destruct (decide (w ∈ E)) as [Hw|Nw]; [|destruct (O1 Nw); now left]. destruct (O2 Hw) as [Ny|Ty]; [now left|]. right. eapply tc_transitive; eauto. }
  destruct (K x x T) as [K1 K2]. destruct (decide (x ∈ E)) as [Hx|Nx].
  - destruct (K2 Hx) as [Nx|C]; [contradiction|]. exact (wf_acyclic g x ex_wf C).
  - destruct (K1 Nx) as [_ C]. exact (wf_acyclic g x ex_wf C).
Qed.
Lemma ex_impossible : dest ∈ E -> impossible d cs.
Proof.
  intros Hd. exists dest.
  assert (K : forall c, c ∈ E -> tc (new_parent d cs) dest c); [|now apply K].
  intros c. remember (rank g c) as n eqn:En. revert c En. induction n as [n IH] using lt_wf_ind. intros c En Hc.
  assert (Np : exists p, new_parent d cs p c).
  { destruct (l_in c Hc) as (s & C & H & Cc). destruct (All s C H) as [ps Ds].
    destruct (decide (c = s)) as [->|Ncs]; [exists ps; apply ex_new_parent; left; left; eauto|].
    destruct (ex_only c Hc) as [p Hp]. exists p. apply ex_new_parent. right. split_and!.
    - intros q [(C' & H' & _)|(s' & C' & H' & K' & _)]; [|exact (kid_out C' s' c H' K' Hc)].
      destruct (l_one s c C C' c H H' Cc (proj1 (l_root c C' H'))) as [Y _]. congruence.
    - apply (shown_is e r d R Op), ex_shown, Hc.
    - exists s, ps. split; [left; eauto|]. eapply l_above; eauto.
    - now apply Hp. }
  destruct Np as [p Hp]. pose proof (ex_new_picked p c Hp) as [[_ Pk]|[Nc _]]; [|contradiction].
  destruct Pk as [Nr|[_ ->]]; [|now apply tc_once]. apply nearest_is in Nr. destruct Nr as [Ep A]. eapply tc_r; [|exact Hp].
  pose proof (proper_ancestor_rank g p c ex_wf A). apply (IH (rank g p)); auto. lia.
Qed.
End exact.

Section picking.
Context (e : restack_env) (r : rrepo) (a : move_args) (dest : oid).
Let g := he_graph (re_hide e).
Hypothesis X : pickable e r a dest.
Let R := pk_order _ _ _ _ X.
Let E : commit_set := ⋃ (ma_exacts a).

Lemma ex_requests d : open_repo (re_hide e) (rr_repo r) = Some d -> exists comps l,
  ⋃ comps = E /\ (forall C, C ∈ comps -> C <> ∅) /\ (forall C x y, C ∈ comps -> x ∈ C -> y ∈ C <-> connected g E x y) /\
  List.map snd l = comps /\ rooted e l /\
  move_requests e d (hi_oid (hr_head (rr_repo r))) a =
  match verify_rewrite_set d (re_force e) E with
  | None => Stop WouldRewritePublic
  | Some allowed => and_then (all_component_requests e d false false dest l (re_sort e (list_to_set (List.map fst l))) (re_sort e (list_to_set (List.map fst l))))
      (fun cs => Go (allowed, cs))
  end.
Proof.
  intros Op. pose proof (ex_graph e r d a dest X Op) as G. fold g in G.
  destruct (connected_components_spec g (re_order e E) E) as (comps & Ec & C1 & C2 & _ & C3).
  { intros x Hx. now rewrite (ra_sets _ _ R), elem_of_elements. }
  destruct (exact_components_go e r d a dest X Op comps C1 C2 C3) as (l & El & Sl & Rl).
  exists comps, l. split_and!; auto.
  destruct (pk_only _ _ _ _ X) as (S0 & B0 & X0 & F0 & I0). unfold move_requests. fold E. rewrite G, S0, B0, F0, I0.
  assert (Dm : (match ma_dest a, hi_oid (hr_head (rr_repo r)) with
            | Some s, _ => Go s
            | None, Some h => Go {[h]}
            | None, None => Stop NoHead
            end) = Go ({[dest]} : commit_set)).
  { pose proof (pk_dest _ _ _ _ X) as H. unfold meant_dest in H. destruct (ma_dest a) as [s|]; [now subst|]. now rewrite H. }
  rewrite Dm. cbn [and_then]. rewrite Ec, El. cbn [and_then]. rewrite (order_one e (ra_sets _ _ R) _ dest) by set_solver.
  assert (Df : match ma_exacts a with [] => true | _ => false end = false) by (destruct (ma_exacts a); [congruence|reflexivity]).
  rewrite Df. cbn [and_then orb]. 
  assert (Bc : forall y, y ∉ base_commits e d dest (⋃ [])).
  { intros y. unfold base_commits. rewrite (order_none e (ra_sets _ _ R)) by set_solver. cbn. set_solver. }
  assert (Se : ⋃ [] ∪ base_commits e d dest (⋃ []) ∪ ⋃ List.map snd l ∪ ∅ = E) by (rewrite Sl, C1; set_solver).
  rewrite Se. destruct (verify_rewrite_set d (re_force e) E) as [allowed|]; [|reflexivity].
  destruct (all_component_requests _ _ _ _ _ _ _ _) as [cs|w]; cbn [and_then]; [|reflexivity].
  unfold source_requests. rewrite (order_none e (ra_sets _ _ R)).
  - cbn [flat_map app]. now rewrite app_nil_r.
  - intros y Hy. apply roots_spec in Hy. destruct Hy as [Hy _]. apply elem_of_union in Hy. destruct Hy as [Hy|Hy]; [set_solver|exact (Bc y Hy)].
Qed.

(** All that is needed of the requests. *)
Record exact_requests (d : dag) (cs : list constraint) (told : oid -> oid -> Prop) : Prop := {
  er_F : Forall (simple_request g) cs;
  er_NG : forall x p, ~ closes_gap d cs x p;
  er_T : forall c p, placed cs c p <-> told c p;
  er_V : forall c p, told c p -> shown g (rr_repo r) c;
  er_gaps : gaps_close d cs;
  er_asked : forall o, (exists c, asked_by told c /\ ancestor g c o) <-> exists c, given_exact a c /\ ancestor g c o;
  er_picked : forall p c, shown g (rr_repo r) c -> as_told g told p c -> picked_onto g (given_exact a) dest p c;
  er_possible : ~ given_exact a dest -> ~ impossible d cs;
  er_impossible : given_exact a dest -> impossible d cs;
  er_dest : forall c p, told c p -> p = dest \/ p ∈ vertices g;
  er_some : forall c, given_exact a c -> exists c p, told c p;
  er_none : (forall c, ~ given_exact a c) -> cs = [] }.
Lemma ex_plan d : open_repo (re_hide e) (rr_repo r) = Some d ->
  match verify_rewrite_set d (re_force e) E with
  | None => move_requests e d (hi_oid (hr_head (rr_repo r))) a = Stop WouldRewritePublic
  | Some allowed =>
      (exists c, move_requests e d (hi_oid (hr_head (rr_repo r))) a = Stop (ManyPlaces c) /\ ~ sorts_up e) \/
      exists cs told, move_requests e d (hi_oid (hr_head (rr_repo r))) a = Go (allowed, cs) /\ exact_requests d cs told
  end.
Proof.
  intros Op. destruct (ex_requests d Op) as (comps & l & C1 & C2 & C3 & Sl & Rl & Rq).
  destruct (verify_rewrite_set d (re_force e) E) as [allowed|]; [|exact Rq].
  assert (K : match all_component_requests e d false false dest l (re_sort e (list_to_set (List.map fst l))) (re_sort e (list_to_set (List.map fst l))) with
    | Go cs => (forall s, s ∈ re_sort e (list_to_set (List.map fst l)) -> exists p, component_dest e d l (re_sort e (list_to_set (List.map fst l))) dest s = Go p) /\
        forall x, x ∈ cs <-> exists s C, s ∈ re_sort e (list_to_set (List.map fst l)) /\ (s, C) ∈ l /\ asks e r d dest l false s C x
    | Stop w => exists s C, (s, C) ∈ l /\ component_dest e d l (re_sort e (list_to_set (List.map fst l))) dest s = Stop w
    end) by (eapply all_requests_spec; eauto).
  destruct (all_component_requests _ _ _ _ _ _ _ _) as [cs|w]; cbn [and_then] in Rq.
  2:{ left. destruct K as (s & C & H & K). exists s.
      assert (D : match component_dest e d l (re_sort e (list_to_set (List.map fst l))) dest s with
                  | Go p => nearest g (fun x => x ∈ E) p s \/ ((forall q, ~ nearest g (fun x => x ∈ E) q s) /\ p = dest)
                  | Stop w => w = ManyPlaces s end) by (eapply component_dest_spec; eauto).
      rewrite K in D. split; [congruence|]. intros Su.
      assert (exists p, component_dest e d l (re_sort e (list_to_set (List.map fst l))) dest s = Go p) as [p D'] by (eapply component_dest_go; eauto). congruence. }
  right. destruct K as [K1 K2].
  assert (All : forall s C, (s, C) ∈ l -> exists p, component_dest e d l (re_sort e (list_to_set (List.map fst l))) dest s = Go p).
  { intros s C H. apply K1. apply (starts_in e r a dest X l). eauto. }
  exists cs, (told_exact e r d dest l). split; [exact Rq|]. split.
  - eapply ex_F; eauto.
  - eapply ex_NG; eauto.
  - eapply ex_T; eauto.
  - eapply told_exact_shown; eauto.
  - eapply ex_gaps; eauto.
  - eapply ex_asked; eauto.
  - eapply ex_picked; eauto.
  - intros N. eapply ex_possible; eauto. intros H. apply N. now apply (ex_given a).
  - intros N. eapply ex_impossible; eauto. now apply (ex_given a).
  - intros c p H. destruct H as [(C & H & D)|(s & C & H & _ & P)]; [|right; exact (proj1 (parent_vertices _ _ _ (ex_wf e r a dest X) P))].
    assert (D' : match component_dest e d l (re_sort e (list_to_set (List.map fst l))) dest c with
                  | Go p => nearest g (fun x => x ∈ E) p c \/ ((forall q, ~ nearest g (fun x => x ∈ E) q c) /\ p = dest)
                  | Stop w => w = ManyPlaces c end) by (eapply component_dest_spec; eauto).
    rewrite D in D'. destruct D' as [D'|[_ D']]; [right|now left]. apply nearest_is in D'. destruct D' as [D' _].
    apply (SyncProofs.shown_known e r); [exact R|]. eapply ex_shown; eauto.
  - intros c Hc. assert (Hr : exists c', given_exact a c' /\ ancestor g c' c) by (exists c; split; [exact Hc|constructor]).
    assert (Ha : exists c', asked_by (told_exact e r d dest l) c' /\ ancestor g c' c) by (eapply ex_asked; eauto).
    destruct Ha as (c' & [p Hp] & _). eauto.
  - intros N. destruct cs as [|x cs]; [reflexivity|]. exfalso.
    assert (Hx : x ∈ x :: cs) by left. apply K2 in Hx. destruct Hx as (s & C & _ & H & _). apply (N s). apply (ex_given a).
    eapply l_start; eauto.
Qed.

Lemma ex_opens : exists d m, open_repo (re_hide e) (rr_repo r) = Some d /\ hr_refs (rr_repo r) !! he_main (re_hide e) = Some m.
Proof. destruct (io_exists _ _ (ra_order _ _ R)) as [m Hm]. unfold open_repo. rewrite Hm. eauto. Qed.
Lemma ex_comes_to ts i : comes_to e r (given_exact a) (picked_onto g (given_exact a) dest) (move e ts (TxId i) a r).
Proof.
  destruct ex_opens as (d & m & Op & Hm). pose proof (ex_plan d Op) as P.
  destruct (verify_rewrite_set d (re_force e) E) as [allowed|]; [|unfold comes_to, move; now rewrite Op, P].
  destruct P as [(c & P & _)|(cs & told & Rq & P)]; [unfold comes_to, move; now rewrite Op, P|].
  pose proof (move_comes_to e r d cs told R (pk_memory _ _ _ _ X) Op (er_F _ _ _ P) (er_NG _ _ _ P) (er_T _ _ _ P) (er_V _ _ _ P) ts i a allowed Rq) as H.
  unfold comes_to in *. destruct (mv_end _); auto. destruct H as (rw & Er & H). exists rw. split; [exact Er|].
  eapply move_done_ext; [| |exact H].
  - intros o _. apply (er_asked _ _ _ P).
  - intros p o Sh _. apply (er_picked _ _ _ P); exact Sh.
Qed.
Lemma ex_allowed d m : open_repo (re_hide e) (rr_repo r) = Some d -> hr_refs (rr_repo r) !! he_main (re_hide e) = Some m ->
  (verify_rewrite_set d (re_force e) E = None <-> exact_public e r a) /\
  forall allowed, verify_rewrite_set d (re_force e) E = Some allowed ->
    (forall x, x ∈ allowed <-> exists c, given_exact a c /\ ancestor g c x).
Proof.
  intros Op Hm. pose proof (ex_graph e r d a dest X Op) as G. fold g in G.
  assert (W : wf_graph (dag_graph d)) by (rewrite G; exact (ex_wf e r a dest X)).
  assert (Pu : forall o, public d o <-> is_public e r o).
  { intros o. rewrite (proj1 (unmerged_draft e r d m (ra_order _ _ R) Op Hm)). unfold is_public. rewrite Hm. split; [eauto|]. intros (x & [= <-] & A). exact A. }
  split.
  - rewrite verify_rewrite_set_none by exact W. unfold exact_public. fold g. rewrite G. setoid_rewrite Pu. setoid_rewrite <- (ex_given a). reflexivity.
  - intros allowed Ev x. apply verify_rewrite_set_spec in Ev; [|exact W]. destruct Ev as [Ev _]. rewrite Ev, G. setoid_rewrite <- (ex_given a). reflexivity.
Qed.
Lemma ex_ends ts i : workable e r -> sorts_up e -> dest ∈ vertices g ->
  match mv_end (move e ts (TxId i) a r) with
  | NothingToDo => forall c, ~ given_exact a c
  | NotMoved WouldRewritePublic => exact_public e r a
  | NotMoved (PlanCycle _) => given_exact a dest
  | NotMoved _ => False
  | _ => goes_through e r (given_exact a) (move e ts (TxId i) a r)
  end.
Proof.
  intros Wk Su Hd. destruct ex_opens as (d & m & Op & Hm). destruct (ex_allowed d m Op Hm) as [Vn Va]. pose proof (ex_plan d Op) as P.
  destruct (verify_rewrite_set d (re_force e) E) as [allowed|] eqn:Ev.
  2:{ unfold move. rewrite Op, P. cbn [mv_end]. now apply Vn. }
  destruct P as [(c & _ & P)|(cs & told & Rq & P)]; [contradiction|].
  assert (Em : (forall c, ~ given_exact a c) \/ exists c, given_exact a c).
  { destruct (elements E) as [|c l] eqn:El.
    - left. intros c H. apply (ex_given a), elem_of_elements in H. fold E in H. rewrite El in H. now apply elem_of_nil in H.
    - right. exists c. apply (ex_given a), elem_of_elements. fold E. rewrite El. left. }
  destruct Em as [N|[c Hc]].
  { rewrite (er_none _ _ _ P N) in Rq. now rewrite (move_nothing e r d R Op ts (TxId i) a allowed Rq). }
  destruct (decide (dest ∈ E)) as [Hde|Nde].
  { apply (ex_given a) in Hde. destruct (move_cycle e r d cs R Op (er_F _ _ _ P) ts (TxId i) a allowed Rq (er_gaps _ _ _ P) (er_impossible _ _ _ P Hde)) as [l ->]. exact Hde. }
  assert (H : goes_through e r (given_exact a) (move e ts (TxId i) a r)).
  { pose proof (move_goes_through e r d cs told R (pk_memory _ _ _ _ X) Op (er_F _ _ _ P) (er_NG _ _ _ P) (er_T _ _ _ P) (er_V _ _ _ P) ts i a allowed Rq Wk) as H.
    unfold goes_through in *. assert (Y : match mv_end (move e ts (TxId i) a r) with
      | Moved => True | Declined x => shown (he_graph (re_hide e)) (rr_repo r) x /\ (exists c, asked_by told c /\ ancestor (he_graph (re_hide e)) c x) /\
      (merge_commit (he_graph (re_hide e)) x \/ exists q, ee_pick (re_exec e) x q = Conflict) | _ => False end).
    { apply H.
      - intros c' p K. destruct (er_dest _ _ _ P c' p K) as [->|K']; [exact Hd|exact K'].
      - apply (er_gaps _ _ _ P).
      - apply (er_possible _ _ _ P). intros K. apply Nde. now apply (ex_given a).
      - intros c' p x K A. apply (Va allowed eq_refl). apply (er_asked _ _ _ P). exists c'. split; [now exists p|exact A].
      - apply (er_some _ _ _ P c Hc). }
    clear H. destruct (mv_end _); auto. destruct Y as (Y1 & Y2 & Y3). split; [exact Y1|]. split; [|exact Y3]. now apply (er_asked _ _ _ P). }
  pose proof H as H'. unfold goes_through in H'. destruct (mv_end (move e ts (TxId i) a r)); try contradiction; exact H.
Qed.
Lemma ex_refused_self ts tx : ~ exact_public e r a -> sorts_up e -> given_exact a dest ->
  exists l, move e ts tx a r = mk_mr r None (NotMoved (PlanCycle l)).
Proof.
  intros NP Su Hd. destruct ex_opens as (d & m & Op & Hm). destruct (ex_allowed d m Op Hm) as [Vn Va]. pose proof (ex_plan d Op) as P.
  destruct (verify_rewrite_set d (re_force e) E) as [allowed|] eqn:Ev; [|destruct NP; now apply Vn].
  destruct P as [(c & _ & P)|(cs & told & Rq & P)]; [contradiction|].
  exact (move_cycle e r d cs R Op (er_F _ _ _ P) ts tx a allowed Rq (er_gaps _ _ _ P) (er_impossible _ _ _ P Hd)).
Qed.
Lemma ex_refused_public ts tx : exact_public e r a -> move e ts tx a r = mk_mr r None (NotMoved WouldRewritePublic).
Proof.
  intros Pb. destruct ex_opens as (d & m & Op & Hm). destruct (ex_allowed d m Op Hm) as [Vn Va]. pose proof (ex_plan d Op) as P.
  apply Vn in Pb. rewrite Pb in P. unfold move. now rewrite Op, P.
Qed.
End picking.
