(** Proofs about running a search to its end. *)
From Verif Require Import Base TextModel EventLogModel EvolveModel DagModel DagSpec DagProofs.
From Verif Require Import BisectModel BisectSpec BisectProofs BisectSearchProofs.

Section Honest.
  Context (g : graph) (nodes : list oid) (verdict : oid -> bstatus).
  Hypothesis Hwf : wf_graph g.
  Hypothesis Hmono : monotone g verdict.

  Lemma honest_compatible h o : honest verdict h -> compatible g h o (verdict o).
  Proof.
    intros Hh. destruct Hmono as [Hun Hm]. destruct (verdict o) eqn:E; cbn.
    - by apply Hun in E.
    - intros (x & Hx & Ha). apply Hh in Hx. by apply (Hm x o Ha).
    - intros (x & Hx & Ha). apply Hh in Hx. by apply (Hm o x Ha).
    - split; intros Hx; apply Hh in Hx; congruence.
  Qed.

  Lemma honest_accepted h se o : searching g nodes h se -> honest verdict h -> o ∈ nodes ->
    exists se', search_notify se o (verdict o) = inl se'.
  Proof.
    intros Hs Hh Ho. apply (searching_inv g nodes Hwf) in Hs.
    apply (notify_accepts g nodes Hwf h se o (verdict o) Hs Ho). by apply honest_compatible.
  Qed.

  Lemma honest_snoc h o : honest verdict h -> honest verdict (h ++ [(o, verdict o)]).
  Proof.
    intros Hh x s Hx. apply elem_of_snoc in Hx as [Hx|[= -> ->]]; [by apply Hh|done].
  Qed.

  Lemma decided_good h o : honest verdict h -> ~ undecided g h o -> verdict o = Good -> known_good g h o.
  Proof.
    intros Hh Hd Hv. destruct Hmono as [_ Hm].
    destruct (decide (Exists (fun p => p = (o, Good)) h)) as [He|He].
    { apply Exists_exists in He as (p & Hp & ->). exists o. split; [done|apply rtc_refl]. }
    destruct (decide (Exists (fun p => p.2 = Good /\ is_ancestor g o p.1 = true) h)) as [Hg|Hg].
    { apply Exists_exists in Hg as ([x s] & Hp & Hs & Ha). cbn in Hs, Ha. subst s.
      exists x. split; [done|]. by apply is_ancestor_spec in Ha. }
    exfalso. apply Hd. split; [|split].
    - intros [s Hs]. apply He, Exists_exists. exists (o, s). split; [done|]. apply Hh in Hs as Hs'. congruence.
    - intros (x & Hx & Ha). apply Hg, Exists_exists. exists (x, Good). split; [done|]. split; [done|].
      by apply is_ancestor_spec.
    - intros (x & Hx & Ha). apply Hh in Hx. by apply (Hm x o Ha).
  Qed.
  Lemma decided_bad h o : honest verdict h -> ~ undecided g h o -> verdict o = Bad -> known_bad g h o.
  Proof.
    intros Hh Hd Hv. destruct Hmono as [_ Hm].
    destruct (decide (Exists (fun p => p = (o, Bad)) h)) as [He|He].
    { apply Exists_exists in He as (p & Hp & ->). exists o. split; [done|apply rtc_refl]. }
    destruct (decide (Exists (fun p => p.2 = Bad /\ is_ancestor g p.1 o = true) h)) as [Hg|Hg].
    { apply Exists_exists in Hg as ([x s] & Hp & Hs & Ha). cbn in Hs, Ha. subst s.
      exists x. split; [done|]. by apply is_ancestor_spec in Ha. }
    exfalso. apply Hd. split; [|split].
    - intros [s Hs]. apply He, Exists_exists. exists (o, s). split; [done|]. apply Hh in Hs as Hs'. congruence.
    - intros (x & Hx & Ha). apply Hh in Hx. by apply (Hm o x Ha).
    - intros (x & Hx & Ha). apply Hg, Exists_exists. exists (x, Bad). split; [done|]. split; [done|].
      by apply is_ancestor_spec.
  Qed.

  Lemma known_good_not_bad h o : honest verdict h -> known_good g h o -> verdict o <> Bad.
  Proof. intros Hh (x & Hx & Ha) Hv. apply Hh in Hx. by apply (proj2 Hmono o x Ha). Qed.
  Lemma known_bad_not_good h o : honest verdict h -> known_bad g h o -> verdict o <> Good.
  Proof. intros Hh (x & Hx & Ha) Hv. apply Hh in Hx. by apply (proj2 Hmono x o Ha). Qed.

  (** Once nothing is undecided, the bounds are the boundary. *)
  Lemma final_success h se o : searching g nodes h se -> honest verdict h ->
    (forall x, x ∈ nodes -> ~ undecided g h x) ->
    o ∈ success_bounds se <->
    o ∈ nodes /\ verdict o = Good /\
    forall x, x ∈ nodes -> verdict x = Good -> ancestor g o x -> x = o.
  Proof.
    intros Hs Hh Hd. apply (searching_inv g nodes Hwf) in Hs as Hi.
    rewrite (success_bounds_spec g nodes Hwf h se o Hi). split.
    - intros [Ho Hmax]. split; [by apply (si_in _ _ _ _ Hi) in Ho as [Ho _]|].
      split; [by apply Hh in Ho|]. intros x Hx Hv Ha.
      destruct (decided_good h x Hh (Hd x Hx) Hv) as (z & Hz & Hxz).
      assert (z = o) by (apply Hmax; [done|exact (transitivity Ha Hxz)]). subst z.
      by apply (ancestor_antisym g).
    - intros (Ho & Hv & Hmax).
      destruct (decided_good h o Hh (Hd o Ho) Hv) as (z & Hz & Hoz).
      assert (Hzo : z = o).
      { apply Hmax; [by apply (si_in _ _ _ _ Hi) in Hz as [Hz _]|by apply Hh in Hz|done]. }
      subst z. split; [done|]. intros x Hx Ha.
      apply Hmax; [by apply (si_in _ _ _ _ Hi) in Hx as [Hx _]|by apply Hh in Hx|done].
  Qed.
  Lemma final_failure h se o : searching g nodes h se -> honest verdict h ->
    (forall x, x ∈ nodes -> ~ undecided g h x) ->
    o ∈ failure_bounds se <->
    o ∈ nodes /\ verdict o = Bad /\
    forall x, x ∈ nodes -> verdict x = Bad -> ancestor g x o -> x = o.
  Proof.
    intros Hs Hh Hd. apply (searching_inv g nodes Hwf) in Hs as Hi.
    rewrite (failure_bounds_spec g nodes Hwf h se o Hi). split.
    - intros [Ho Hmax]. split; [by apply (si_in _ _ _ _ Hi) in Ho as [Ho _]|].
      split; [by apply Hh in Ho|]. intros x Hx Hv Ha.
      destruct (decided_bad h x Hh (Hd x Hx) Hv) as (z & Hz & Hxz).
      assert (z = o) by (apply Hmax; [done|exact (transitivity Hxz Ha)]). subst z.
      by apply (ancestor_antisym g).
    - intros (Ho & Hv & Hmax).
      destruct (decided_bad h o Hh (Hd o Ho) Hv) as (z & Hz & Hoz).
      assert (Hzo : z = o).
      { apply Hmax; [by apply (si_in _ _ _ _ Hi) in Hz as [Hz _]|by apply Hh in Hz|done]. }
      subst z. split; [done|]. intros x Hx Ha.
      apply Hmax; [by apply (si_in _ _ _ _ Hi) in Hx as [Hx _]|by apply Hh in Hx|done].
  Qed.

  (** ** The loop with one job *)

  Definition results (tests : list oid) : history := List.map (fun o => (o, verdict o)) tests.

  Lemma results_honest tests : honest verdict (results tests).
  Proof.
    intros o s H. unfold results in H. apply elem_of_list_In, in_map_iff in H as (x & [= -> <-] & _). done.
  Qed.
  Lemma results_tested tests o : tested (results tests) o <-> o ∈ tests.
  Proof.
    unfold tested, results. split.
    - intros [s H]. apply elem_of_list_In, in_map_iff in H as (x & [= -> <-] & H). by apply elem_of_list_In.
    - intros H. exists (verdict o). apply elem_of_list_In, in_map_iff. exists o. split; [done|by apply elem_of_list_In].
  Qed.
  Lemma results_snoc tests o : results (tests ++ [o]) = results tests ++ [(o, verdict o)].
  Proof. unfold results. by rewrite map_app. Qed.

  Definition open_commits (se : search) : list oid := candidates (se_graph se) (search_bounds se, se_nodes se).

  Lemma undecided_later h o s x : undecided g (h ++ [(o, s)]) x -> undecided g h x /\ x <> o.
  Proof.
    intros (Ht & Hg & Hb). split; [split; [|split]|].
    - intros H. apply Ht, tested_snoc. by left.
    - intros (y & Hy & Ha). apply Hg. exists y. split; [|done]. apply elem_of_snoc. by left.
    - intros (y & Hy & Ha). apply Hb. exists y. split; [|done]. apply elem_of_snoc. by left.
    - intros ->. apply Ht, tested_snoc. by right.
  Qed.

  Lemma fewer_open h se o se' : searching g nodes h se -> honest verdict h -> o ∈ open_commits se ->
    search_notify se o (verdict o) = inl se' ->
    searching g nodes (h ++ [(o, verdict o)]) se' /\ (length (open_commits se') < length (open_commits se))%nat.
  Proof.
    intros Hs Hh Ho Hn. pose proof (searching_inv g nodes Hwf h se Hs) as Hi.
    apply (inv_candidates g nodes Hwf h se o Hi) in Ho as Ho'. destruct Ho' as [Hon Hu].
    assert (Hs' : searching g nodes (h ++ [(o, verdict o)]) se').
    { econstructor; [done|done|apply Hmono|done]. }
    split; [done|]. pose proof (searching_inv g nodes Hwf _ se' Hs') as Hi'.
    assert (Hle : (o :: open_commits se') ⊆+ open_commits se).
    { apply NoDup_submseteq.
      - apply NoDup_cons. split.
        + intros Hc. apply (inv_candidates g nodes Hwf _ se' o Hi') in Hc as [_ Hc].
          by apply undecided_later in Hc as [_ Hc].
        + apply candidates_nodup. by eapply inv_state_ok.
      - intros x Hx. apply elem_of_cons in Hx as [->|Hx]; [done|].
        apply (inv_candidates g nodes Hwf _ se' x Hi') in Hx as [Hx Hux].
        apply (inv_candidates g nodes Hwf h se x Hi). split; [done|]. by apply undecided_later in Hux as [Hux _]. }
    apply submseteq_length in Hle. cbn [length] in Hle. lia.
  Qed.

  Lemma bisect_total search_fuel st : (2 ^ S (length nodes) <= search_fuel)%nat ->
    forall fuel se tests, searching g nodes (results tests) se -> NoDup tests ->
    (length (open_commits se) < fuel)%nat ->
    exists se' more, bisect fuel search_fuel st verdict tests se = Bisected se' (tests ++ more) /\
      searching g nodes (results (tests ++ more)) se' /\ NoDup (tests ++ more) /\
      (forall o, o ∈ more -> o ∈ nodes /\ undecided g (results tests) o) /\
      (forall x, x ∈ nodes -> ~ undecided g (results (tests ++ more)) x) /\
      (length more <= length (open_commits se))%nat.
  Proof.
    intros Hsf. induction fuel as [|fuel IH]; intros se tests Hs Hnd Hf; [lia|].
    pose proof (searching_inv g nodes Hwf _ se Hs) as Hi. cbn [bisect].
    destruct (search_next_total g nodes Hwf _ se st (fun o => bool_decide (o ∈ tests)) 1 search_fuel Hi Hsf) as [l Hl].
    rewrite Hl. destruct (search_next_sound g nodes Hwf _ se st _ 1 search_fuel l Hi Hl) as (H1 & H2 & H3 & H4).
    destruct l as [|o l].
    - exists se, []. rewrite app_nil_r. split; [done|]. split; [done|]. split; [done|]. split; [|split].
      + intros o Ho. by apply elem_of_nil in Ho.
      + intros x Hx Hu. assert (Hc : x ∈ ([] : list oid)); [|by apply elem_of_nil in Hc].
        apply (H4 (Nat.lt_0_succ 0)); [done|done|]. apply bool_decide_eq_false. intros Hxt. apply (proj1 Hu). by apply results_tested.
      + apply Nat.le_0_l.
    - destruct (H3 o ltac:(by left)) as (Ho & Hu & Hsk). apply bool_decide_eq_false in Hsk.
      destruct (honest_accepted _ se o Hs (results_honest tests) Ho) as [se1 Hn]. rewrite Hn.
      assert (Hop : o ∈ open_commits se) by (by apply (inv_candidates g nodes Hwf _ se o Hi)).
      destruct (fewer_open _ se o se1 Hs (results_honest tests) Hop Hn) as [Hs1 Hlt].
      rewrite <- results_snoc in Hs1.
      destruct (IH se1 (tests ++ [o]) Hs1) as (se' & more & Hb & Hs' & Hnd' & Hin & Hdone & Hlen).
      + apply NoDup_app. split; [done|]. split; [|apply NoDup_singleton].
        intros x Hx Hc. apply elem_of_list_singleton in Hc. by subst.
      + lia.
      + exists se', (o :: more).
        assert (Happ : (tests ++ [o]) ++ more = tests ++ o :: more) by (by rewrite <- app_assoc).
        rewrite Happ in *. split; [done|]. split; [done|]. split; [done|]. split; [|split].
        * intros x Hx. apply elem_of_cons in Hx as [->|Hx]; [done|]. destruct (Hin x Hx) as [Hxn Hux].
          split; [done|]. rewrite results_snoc in Hux. by apply undecided_later in Hux as [Hux _].
        * done.
        * cbn [length]. lia.
  Qed.

  (** ** Binary search on a stack *)

  Lemma stacked_app l1 l2 : stacked g (l1 ++ l2) -> stacked g l1 /\ stacked g l2 /\
    forall x y, x ∈ l1 -> y ∈ l2 -> proper_ancestor g x y.
  Proof.
    induction l1 as [|a l1 IH]; cbn; intros H.
    - split; [constructor|]. split; [done|]. intros x y Hx. by apply elem_of_nil in Hx.
    - inversion H as [|? ? Ha Hl]; subst. destruct (IH Hl) as (H1 & H2 & H3). split; [|split; [done|]].
      + constructor; [|done]. intros x Hx. apply Ha, elem_of_app. by left.
      + intros x y Hx Hy. apply elem_of_cons in Hx as [->|Hx]; [apply Ha, elem_of_app; by right|by apply H3].
  Qed.
  Lemma stacked_filter f l : stacked g l -> stacked g (List.filter f l).
  Proof.
    induction 1 as [|a l Ha Hl IH]; cbn; [constructor|]. destruct (f a); [|done]. constructor; [|done].
    intros x Hx. apply Ha. apply elem_of_list_In, filter_In in Hx as [Hx _]. by apply elem_of_list_In.
  Qed.
  Lemma stacked_nodup l : stacked g l -> NoDup l.
  Proof.
    induction 1 as [|a l Ha Hl IH]; [apply NoDup_nil_2|]. apply NoDup_cons. split; [|done].
    intros Hc. apply Ha in Hc. by apply (wf_acyclic g) in Hc.
  Qed.
  Lemma stacked_sublist l1 l2 : sublist l1 l2 -> stacked g l2 -> stacked g l1.
  Proof.
    induction 1 as [|x l1 l2 Hsub IH|x l1 l2 Hsub IH]; intros Hst; [done| |].
    - inversion Hst as [|? ? Ha Hl]; subst. constructor; [|by apply IH]. intros y Hy. apply Ha.
      apply (elem_of_submseteq _ _ _ Hy), sublist_submseteq, Hsub.
    - inversion Hst as [|? ? Ha Hl]; subst. by apply IH.
  Qed.
  Lemma filter_sublist {A} (f : A -> bool) l : sublist (List.filter f l) l.
  Proof. induction l as [|x l IH]; cbn; [constructor|]. destruct (f x); by constructor. Qed.
  Lemma map_sublist {A B} (f : A -> B) l1 l2 : sublist l1 l2 -> sublist (List.map f l1) (List.map f l2).
  Proof. induction 1; cbn; by constructor. Qed.

  Lemma open_stacked h se : searching g nodes h se -> stacked g nodes -> stacked g (open_commits se).
  Proof.
    intros Hs Hst. pose proof (searching_inv g nodes Hwf h se Hs) as Hi.
    apply stacked_sublist with nodes; [|done].
    assert (Hkeys : List.map fst (se_nodes se) = nodes).
    { rewrite (si_keys _ _ _ _ Hi). unfold search_commits, search_new. cbn [se_nodes].
      rewrite new_nodes_keys; [done|]. by apply stacked_nodup. }
    rewrite <- Hkeys. unfold open_commits, candidates, nodes_to_search. cbn.
    etransitivity; [apply filter_sublist|]. apply map_sublist, filter_sublist.
  Qed.

  Lemma subset_length (l1 l2 : list oid) : NoDup l1 -> (forall x, x ∈ l1 -> x ∈ l2) -> (length l1 <= length l2)%nat.
  Proof. intros Hnd Hsub. by apply submseteq_length, NoDup_submseteq. Qed.

  Lemma binary_halves h se o se' : searching g nodes h se -> honest verdict h -> stacked g nodes ->
    verdict o <> Indeterminate ->
    nth_error (open_commits se) (Nat.div2 (length (open_commits se))) = Some o ->
    search_notify se o (verdict o) = inl se' ->
    (length (open_commits se') <= Nat.div2 (length (open_commits se)))%nat.
  Proof.
    intros Hs Hh Hst Hind Hmid Hn. pose proof (open_stacked h se Hs Hst) as Hos.
    assert (Ho : o ∈ open_commits se) by (apply nth_error_In in Hmid; by apply elem_of_list_In).
    destruct (fewer_open h se o se' Hs Hh Ho Hn) as [Hs' _].
    pose proof (searching_inv g nodes Hwf h se Hs) as Hi.
    pose proof (searching_inv g nodes Hwf _ se' Hs') as Hi'.
    assert (Hnd' : NoDup (open_commits se')) by (apply candidates_nodup; by eapply inv_state_ok).
    apply nth_error_split in Hmid as (c1 & c2 & Hc & Hlen).
    assert (Hsub : forall x, x ∈ open_commits se' -> (x ∈ c1 \/ x ∈ c2) /\ undecided g (h ++ [(o, verdict o)]) x).
    { intros x Hx. apply (inv_candidates g nodes Hwf _ se' x Hi') in Hx as [Hx Hux].
      split; [|done]. apply undecided_later in Hux as [Hux Hne].
      assert (Hin : x ∈ open_commits se) by (by apply (inv_candidates g nodes Hwf h se x Hi)).
      rewrite Hc in Hin. apply elem_of_app in Hin as [Hin|Hin]; [by left|].
      apply elem_of_cons in Hin as [->|Hin]; [done|by right]. }
    rewrite Hc in Hos. destruct (stacked_app c1 (o :: c2) Hos) as (_ & Hos2 & Hcross).
    inversion Hos2 as [|? ? Hoc2 _]; subst.
    destruct (verdict o) eqn:Hv.
    - by apply Hmono in Hv.
    - assert (Hle : (length (open_commits se') <= length c2)%nat).
      { apply subset_length; [done|]. intros x Hx. destruct (Hsub x Hx) as [[Hx1|Hx2] Hu]; [|done].
        exfalso. apply (proj1 (proj2 Hu)). exists o. split; [apply elem_of_snoc; by right|].
        apply tc_rtc. apply Hcross; [done|by left]. }
      rewrite Hc in *. rewrite app_length in *. cbn [length] in *.
      pose proof (Nat.div2_odd (length c1 + S (length c2))) as Hdo.
      assert (Hb : (Nat.b2n (Nat.odd (length c1 + S (length c2))) <= 1)%nat) by (destruct (Nat.odd _); cbn; lia).
      lia.
    - rewrite <- Hlen. apply subset_length; [done|]. intros x Hx. destruct (Hsub x Hx) as [[Hx1|Hx2] Hu]; [done|].
      exfalso. apply (proj2 (proj2 Hu)). exists o. split; [apply elem_of_snoc; by right|].
      apply tc_rtc. by apply Hoc2.
    - done.
  Qed.

  Definition binary_cost (k : nat) : nat := match k with O => 0 | _ => S (Nat.log2 k) end.
  Lemma binary_cost_half k j : (0 < k)%nat -> (j <= Nat.div2 k)%nat -> (S (binary_cost j) <= binary_cost k)%nat.
  Proof.
    intros Hk Hj. destruct k as [|k]; [lia|]. unfold binary_cost at 2. destruct j as [|j]; [cbn; lia|].
    unfold binary_cost. apply le_n_S. apply Nat.log2_le_pow2; [lia|]. rewrite Nat.pow_succ_r'.
    pose proof (Nat.log2_spec (S j) ltac:(lia)) as [Hl _].
    pose proof (Nat.div2_odd (S k)) as Hd. lia.
  Qed.

  Lemma bisect_binary search_fuel : (2 ^ S (length nodes) <= search_fuel)%nat ->
    stacked g nodes -> (forall o, o ∈ nodes -> verdict o <> Indeterminate) ->
    forall fuel se tests se' tests', searching g nodes (results tests) se ->
    bisect fuel search_fuel Binary verdict tests se = Bisected se' tests' ->
    (length tests' <= length tests + binary_cost (length (open_commits se)))%nat.
  Proof.
    intros Hsf Hst Hind. induction fuel as [|fuel IH]; intros se tests se' tests' Hs Hb; [done|].
    pose proof (searching_inv g nodes Hwf _ se Hs) as Hi. cbn [bisect] in Hb.
    destruct (search_next_total g nodes Hwf _ se Binary (fun o => bool_decide (o ∈ tests)) 1 search_fuel Hi Hsf) as [l Hl].
    rewrite Hl in Hb. destruct (search_next_sound g nodes Hwf _ se Binary _ 1 search_fuel l Hi Hl) as (H1 & H2 & H3 & H4).
    destruct l as [|o l].
    - injection Hb as <- <-. lia.
    - destruct (H3 o ltac:(by left)) as (Ho & Hu & Hsk).
      destruct (search_notify se o (verdict o)) as [se1|] eqn:Hn; [|discriminate Hb].
      assert (Hop : o ∈ open_commits se) by (by apply (inv_candidates g nodes Hwf _ se o Hi)).
      destruct (fewer_open _ se o se1 Hs (results_honest tests) Hop Hn) as [Hs1 Hlt].
      assert (Hmid : nth_error (open_commits se) (Nat.div2 (length (open_commits se))) = Some o).
      { destruct (midpoint (se_graph se) Binary (search_bounds se) (se_nodes se)) as [m|] eqn:Hm.
        - assert (Hmin : m ∈ open_commits se) by (by eapply (midpoint_some _ Binary (search_bounds se, se_nodes se))).
          assert (Hskm : bool_decide (m ∈ tests) = false).
          { apply bool_decide_eq_false. apply (inv_candidates g nodes Hwf _ se m Hi) in Hmin as [_ Hum].
            intros Hmt. apply (proj1 Hum). by apply results_tested. }
          destruct search_fuel as [|sf].
          { exfalso. pose proof (Nat.pow_nonzero 2 (S (length nodes)) ltac:(lia)). lia. }
          pose proof (first_proposal (se_graph se) Binary (inv_wf g nodes Hwf _ se Hi) (fun o => bool_decide (o ∈ tests)) sf 1
            (search_bounds se) (se_nodes se) m (inv_state_ok g nodes _ se Hi) Hm Hskm ltac:(lia) _ Hl) as Hhd.
          cbn in Hhd. injection Hhd as ->. exact Hm.
        - pose proof (midpoint_none (se_graph se) Binary (search_bounds se, se_nodes se) Hm) as Hnil.
          unfold open_commits in Hop. rewrite Hnil in Hop. by apply elem_of_nil in Hop. }
      pose proof (binary_halves _ se o se1 Hs (results_honest tests) Hst (Hind o Ho) Hmid Hn) as Hhalf.
      rewrite <- results_snoc in Hs1. pose proof (IH _ _ _ _ Hs1 Hb) as Hrec.
      rewrite app_length in Hrec. cbn [length] in Hrec.
      pose proof (binary_cost_half (length (open_commits se)) (length (open_commits se1)) ltac:(lia) Hhalf). lia.
  Qed.
End Honest.

(** ** The order of linear searches *)

Lemma head_filter {A} (f : A -> bool) l x : head (List.filter f l) = Some x ->
  exists l1 l2, l = l1 ++ x :: l2 /\ f x = true /\ forall y, y ∈ l1 -> f y = false.
Proof.
  induction l as [|a l IH]; cbn; intros H; [done|]. destruct (f a) eqn:E.
  - cbn in H. injection H as ->. exists [], l. split; [done|]. split; [done|].
    intros y Hy. by apply elem_of_nil in Hy.
  - destruct (IH H) as (l1 & l2 & -> & Hf & Hn). exists (a :: l1), l2. split; [done|]. split; [done|].
    intros y Hy. apply elem_of_cons in Hy as [->|Hy]; [done|by apply Hn].
Qed.

Lemma last_filter {A} (f : A -> bool) l x : last (List.filter f l) = Some x ->
  exists l1 l2, l = l1 ++ x :: l2 /\ f x = true /\ forall y, y ∈ l2 -> f y = false.
Proof.
  induction l as [|a l IH] using rev_ind; cbn; intros H; [done|]. rewrite List.filter_app in H. cbn in H.
  destruct (f a) eqn:E.
  - rewrite last_snoc in H. injection H as ->. exists l, []. split; [done|]. split; [done|].
    intros y Hy. by apply elem_of_nil in Hy.
  - rewrite app_nil_r in H. destruct (IH H) as (l1 & l2 & -> & Hf & Hn). exists l1, (l2 ++ [a]).
    split; [by rewrite <- app_assoc|]. split; [done|].
    intros y Hy. apply elem_of_app in Hy as [Hy|Hy]; [by apply Hn|]. by apply elem_of_list_singleton in Hy as ->.
Qed.

(** The open commits as a filter of the given ones, in their order. *)
Lemma filter_map_fst (f : oid -> bool) (m : statuses) : NoDup (List.map fst m) ->
  List.filter f (List.map fst (List.filter (fun p => bool_decide (snd p = Untested)) m)) =
  List.filter (fun o => f o && bool_decide (st_get m o = Some Untested)) (List.map fst m).
Proof.
  induction m as [|[x s] m IH]; cbn [List.map List.filter fst snd st_get]; intros Hnd; [done|].
  apply NoDup_cons in Hnd as [Hx Hnd].
  assert (Heq : List.filter (fun o => f o && bool_decide ((if N.eqb x o then Some s else st_get m o) = Some Untested)) (List.map fst m)
              = List.filter (fun o => f o && bool_decide (st_get m o = Some Untested)) (List.map fst m)).
  { apply filter_ext_in. intros o Ho. destruct (N.eqb_spec x o) as [->|]; [|done].
    exfalso. apply Hx. by apply elem_of_list_In. }
  rewrite Heq. rewrite N.eqb_refl. destruct (decide (s = Untested)) as [->|Hs].
  - rewrite (bool_decide_eq_true_2 (Untested = Untested)), (bool_decide_eq_true_2 (Some Untested = Some Untested)) by done.
    cbn [List.map List.filter fst]. rewrite andb_true_r, IH by done. done.
  - rewrite (bool_decide_eq_false_2 (s = Untested)), (bool_decide_eq_false_2 (Some s = Some Untested)) by congruence.
    rewrite andb_false_r. by apply IH.
Qed.

Section Order.
  Context (g : graph) (nodes : list oid).
  Hypothesis Hwf : wf_graph g.

  Lemma open_filter h se : searching g nodes h se -> NoDup nodes ->
    exists f, open_commits se = List.filter f nodes /\ forall o, o ∈ nodes -> f o = true <-> undecided g h o.
  Proof.
    intros Hs Hnd. pose proof (searching_inv g nodes Hwf h se Hs) as Hi.
    assert (Hkeys : List.map fst (se_nodes se) = nodes).
    { rewrite (si_keys _ _ _ _ Hi). unfold search_commits, search_new. cbn [se_nodes]. by rewrite new_nodes_keys. }
    eexists. split.
    - unfold open_commits, candidates, nodes_to_search. cbn [fst snd].
      rewrite filter_map_fst by apply Hi. rewrite Hkeys. reflexivity.
    - intros o Ho. pose proof (inv_candidates g nodes Hwf h se o Hi) as Hc.
      unfold candidates, nodes_to_search in Hc. cbn [fst snd] in Hc.
      rewrite filter_map_fst, Hkeys in Hc by apply Hi.
      rewrite elem_of_list_In, filter_In, <- elem_of_list_In in Hc. tauto.
  Qed.

  Lemma linear_first h se st skip want fuel o l : searching g nodes h se -> NoDup nodes ->
    st <> Binary -> (0 < want)%nat -> (2 ^ S (length nodes) <= fuel)%nat ->
    (forall o, skip o = true -> tested h o) ->
    search_next fuel se st skip want = Proposed (o :: l) ->
    exists l1 l2, nodes = l1 ++ o :: l2 /\ undecided g h o /\
      forall x, x ∈ (match st with Linear => l1 | _ => l2 end) -> ~ undecided g h x.
  Proof.
    intros Hs Hnd Hst Hw Hf Hskip H. pose proof (searching_inv g nodes Hwf h se Hs) as Hi.
    destruct (open_filter h se Hs Hnd) as (f & Hop & Hfs).
    destruct (midpoint (se_graph se) st (search_bounds se) (se_nodes se)) as [m|] eqn:Hm.
    - assert (Hmin : m ∈ open_commits se) by (by eapply (midpoint_some _ st (search_bounds se, se_nodes se))).
      assert (Hskm : skip m = false).
      { apply (inv_candidates g nodes Hwf _ se m Hi) in Hmin as [_ Hum].
        destruct (skip m) eqn:E; [|done]. by apply Hskip, (proj1 Hum) in E. }
      destruct fuel as [|sf].
      { exfalso. pose proof (Nat.pow_nonzero 2 (S (length nodes)) ltac:(lia)). lia. }
      pose proof (first_proposal (se_graph se) st (inv_wf g nodes Hwf _ se Hi) skip sf want
        (search_bounds se) (se_nodes se) m (inv_state_ok g nodes _ se Hi) Hm Hskm Hw _ H) as Hhd.
      cbn in Hhd. injection Hhd as ->.
      unfold midpoint in Hm. fold (candidates (se_graph se) (search_bounds se, se_nodes se)) in Hm.
      change (nodes_to_search (se_graph se) (search_bounds se) (se_nodes se)) with (open_commits se) in Hm.
      rewrite Hop in Hm. destruct st; [| |done].
      + apply head_filter in Hm as (l1 & l2 & Hl & Hfm & Hn). exists l1, l2. split; [done|].
        split; [apply Hfs; [|done]; rewrite Hl; apply elem_of_app; right; by left|].
        intros x Hx Hu. apply Hfs in Hu; [|rewrite Hl; apply elem_of_app; by left]. by rewrite Hn in Hu.
      + apply last_filter in Hm as (l1 & l2 & Hl & Hfm & Hn). exists l1, l2. split; [done|].
        split; [apply Hfs; [|done]; rewrite Hl; apply elem_of_app; right; by left|].
        intros x Hx Hu. apply Hfs in Hu; [|rewrite Hl; apply elem_of_app; right; by right]. by rewrite Hn in Hu.
    - exfalso. pose proof (midpoint_none (se_graph se) st (search_bounds se, se_nodes se) Hm) as Hnil.
      destruct (search_next_sound g nodes Hwf _ se st _ want fuel _ Hi H) as (_ & _ & H3 & _).
      destruct (H3 o ltac:(by left)) as (Ho & Hu & _).
      assert (Hc := proj2 (inv_candidates g nodes Hwf h se o Hi) (conj Ho Hu)).
      rewrite Hnil in Hc. by apply elem_of_nil in Hc.
  Qed.
End Order.
