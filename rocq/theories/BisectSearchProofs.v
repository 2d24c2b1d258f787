(** Proofs about the proposals of a search. *)
From Verif Require Import Base TextModel EventLogModel EvolveModel DagModel DagSpec DagProofs.
From Verif Require Import BisectModel BisectSpec BisectProofs.

Section Iter.
  Context (sg : search_graph) (st : strategy).
  Notation g := (sg_graph sg).
  Notation cs := (sg_commits sg).
  Hypothesis Hwf : wf_graph g.

  (** A state of the iteration over the commits being tested. *)
  Definition state_ok (p : bounds * statuses) : Prop :=
    bd_success p.1 ⊆ cs /\ bd_failure p.1 ⊆ cs /\ NoDup (List.map fst p.2) /\
    forall o, o ∈ List.map fst p.2 -> o ∈ cs.

  Definition candidates (p : bounds * statuses) : list oid := nodes_to_search sg p.1 p.2.

  Lemma candidates_spec p o : state_ok p ->
    o ∈ candidates p <-> st_get p.2 o = Some Untested /\
      (forall x, x ∈ bd_success p.1 -> ~ ancestor g o x) /\
      (forall x, x ∈ bd_failure p.1 -> ~ ancestor g x o).
  Proof.
    intros (Hs & Hf & Hnd & Hin). destruct p as [b m]. cbn in *. unfold candidates, nodes_to_search. cbn.
    rewrite elem_of_list_In, filter_In, <- elem_of_list_In.
    assert (Hun : o ∈ List.map fst (List.filter (fun p => bool_decide (snd p = Untested)) m) <-> st_get m o = Some Untested).
    { rewrite <- with_status_spec by done. unfold with_status. by rewrite elem_of_list_to_set. }
    rewrite Hun, andb_true_iff, !negb_true_iff, !bool_decide_eq_false.
    rewrite ancestors_all_spec, descendants_all_spec by done.
    split.
    - intros (Hg & Ha & Hd). assert (Hc : o ∈ cs) by (apply Hin, st_get_key; by eexists).
      split; [done|]. split; intros x Hx Hanc.
      + apply Ha. split; [done|]. by exists x.
      + apply Hd. split; [done|]. by exists x.
    - intros (Hg & Ha & Hd). split; [done|]. split; intros (Hc & x & Hx & Hanc).
      + by apply (Ha x).
      + by apply (Hd x).
  Qed.

  Lemma candidates_nodup p : state_ok p -> NoDup (candidates p).
  Proof.
    intros (Hs & Hf & Hnd & Hin). destruct p as [b m]. cbn in *. unfold candidates, nodes_to_search. cbn.
    apply NoDup_ListNoDup, List.NoDup_filter.
    clear Hin. induction m as [|[x sx] m IH]; cbn in *; [constructor|].
    apply NoDup_cons in Hnd as [Hx Hnd]. destruct (bool_decide (sx = Untested)); cbn; [|by apply IH].
    constructor; [|by apply IH]. intros Hc. apply Hx. apply in_map_iff in Hc as (y & Hy & Hc).
    apply filter_In in Hc as [Hc _]. apply elem_of_list_In, in_map_iff. by exists y.
  Qed.

  Lemma candidate_commit p o : state_ok p -> o ∈ candidates p -> o ∈ cs.
  Proof.
    intros Hok Ho. apply candidates_spec in Ho as [Ho _]; [|done]. destruct Hok as (_ & _ & _ & Hin).
    apply Hin, st_get_key. by eexists.
  Qed.

  Lemma midpoint_some p o : midpoint sg st p.1 p.2 = Some o -> o ∈ candidates p.
  Proof.
    unfold midpoint. fold (candidates p). destruct st.
    - intros H. destruct (candidates p); cbn in H; [done|]. injection H as ->. by left.
    - intros H. by apply last_Some_elem_of.
    - intros H. apply nth_error_In in H. by apply elem_of_list_In.
  Qed.
  Lemma midpoint_none p : midpoint sg st p.1 p.2 = None -> candidates p = [].
  Proof.
    unfold midpoint. fold (candidates p). destruct st.
    - by destruct (candidates p).
    - intros H. by apply last_None in H.
    - intros H. apply nth_error_None in H.
      destruct (candidates p) as [|x l]; [done|].
      assert (Nat.div2 (length (x :: l)) < length (x :: l))%nat by (apply Nat.lt_div2; cbn; lia). lia.
  Qed.

  Lemma not_already_searched p o : state_ok p -> o ∈ candidates p -> already_searched sg p.1 o = None.
  Proof.
    intros Hok Ho. apply candidates_spec in Ho as (Hg & Ha & Hd); [|done]. unfold already_searched.
    destruct (existsb (fun s => sg_is_ancestor sg o s) (elements (bd_success p.1))) eqn:E1.
    { apply existsb_exists in E1 as (x & Hx & Hanc). apply elem_of_list_In, elem_of_elements in Hx.
      apply sg_is_ancestor_spec in Hanc as [Hanc _]; [|done]. by apply Ha in Hanc. }
    destruct (existsb (fun f => sg_is_ancestor sg f o) (elements (bd_failure p.1))) eqn:E2; [|done].
    apply existsb_exists in E2 as (x & Hx & Hanc). apply elem_of_list_In, elem_of_elements in Hx.
    apply sg_is_ancestor_spec in Hanc as [Hanc _]; [|done]. by apply Hd in Hanc.
  Qed.

  Lemma subset_add (s : commit_set) o : s ⊆ cs -> o ∈ cs -> {[o]} ∪ s ⊆ cs.
  Proof.
    intros Hs Ho x Hx. apply elem_of_union in Hx as [Hx|Hx]; [|by apply Hs].
    apply elem_of_singleton in Hx. by subst.
  Qed.

  Definition failure_state (p : bounds * statuses) o := (if_failure sg p.1 o, st_insert p.2 o Bad).
  Definition success_state (p : bounds * statuses) o := (if_success sg p.1 o, st_insert p.2 o Good).

  Lemma insert_known p o s : state_ok p -> o ∈ candidates p ->
    NoDup (List.map fst (st_insert p.2 o s)) /\ forall x, x ∈ List.map fst (st_insert p.2 o s) -> x ∈ cs.
  Proof.
    intros Hok Ho. apply candidates_spec in Ho as [Ho _]; [|done]. destruct Hok as (_ & _ & Hnd & Hin).
    split; [by apply st_insert_nodup|]. rewrite st_insert_keys_old by (by eexists). done.
  Qed.

  Lemma failure_state_ok p o : state_ok p -> o ∈ candidates p -> state_ok (failure_state p o).
  Proof.
    intros Hok Ho. pose proof (candidate_commit p o Hok Ho) as Hc.
    destruct (insert_known p o Bad Hok Ho) as [H1 H2]. destruct Hok as (Hs & Hf & _ & _).
    split; [done|]. split; [|done]. cbn. etransitivity; [apply descendant_roots_subset|]. by apply subset_add.
  Qed.
  Lemma success_state_ok p o : state_ok p -> o ∈ candidates p -> state_ok (success_state p o).
  Proof.
    intros Hok Ho. pose proof (candidate_commit p o Hok Ho) as Hc.
    destruct (insert_known p o Good Hok Ho) as [H1 H2]. destruct Hok as (Hs & Hf & _ & _).
    split; [|by split]. cbn. etransitivity; [apply ancestor_heads_subset|]. by apply subset_add.
  Qed.

  Lemma failure_candidates p o x : state_ok p -> o ∈ candidates p ->
    x ∈ candidates (failure_state p o) <-> x ∈ candidates p /\ ~ ancestor g o x.
  Proof.
    intros Hok Ho. pose proof (candidate_commit p o Hok Ho) as Hc.
    rewrite candidates_spec by (by apply failure_state_ok). rewrite candidates_spec by done. cbn.
    destruct Hok as (Hs & Hf & _ & _). assert (Hsub := subset_add _ o Hf Hc).
    rewrite st_get_insert. split.
    - intros (Hg & Ha & Hd). destruct (N.eqb_spec o x) as [->|Hne]; [done|].
      assert (Hall : forall y, y ∈ {[o]} ∪ bd_failure p.1 -> ~ ancestor g y x).
      { intros y Hy Hanc. destruct (above_descendant_root sg Hwf _ y Hsub Hy) as (r & Hr & Hry).
        apply (Hd r Hr). exact (transitivity Hry Hanc). }
      split; [split; [done|split; [done|]]|].
      + intros y Hy. apply Hall. apply elem_of_union. by right.
      + apply Hall. apply elem_of_union. left. by apply elem_of_singleton.
    - intros ((Hg & Ha & Hd) & Hn). destruct (N.eqb_spec o x) as [->|Hne].
      { exfalso. apply Hn, rtc_refl. }
      split; [done|]. split; [done|]. intros y Hy.
      apply descendant_roots_subset, elem_of_union in Hy as [Hy|Hy]; [|by apply Hd].
      apply elem_of_singleton in Hy. by subst.
  Qed.
  Lemma success_candidates p o x : state_ok p -> o ∈ candidates p ->
    x ∈ candidates (success_state p o) <-> x ∈ candidates p /\ ~ ancestor g x o.
  Proof.
    intros Hok Ho. pose proof (candidate_commit p o Hok Ho) as Hc.
    rewrite candidates_spec by (by apply success_state_ok). rewrite candidates_spec by done. cbn.
    destruct Hok as (Hs & Hf & _ & _). assert (Hsub := subset_add _ o Hs Hc).
    rewrite st_get_insert. split.
    - intros (Hg & Ha & Hd). destruct (N.eqb_spec o x) as [->|Hne]; [done|].
      assert (Hall : forall y, y ∈ {[o]} ∪ bd_success p.1 -> ~ ancestor g x y).
      { intros y Hy Hanc. destruct (below_ancestor_head sg Hwf _ y Hsub Hy) as (r & Hr & Hry).
        apply (Ha r Hr). exact (transitivity Hanc Hry). }
      split; [split; [done|split; [|done]]|].
      + intros y Hy. apply Hall. apply elem_of_union. by right.
      + apply Hall. apply elem_of_union. left. by apply elem_of_singleton.
    - intros ((Hg & Ha & Hd) & Hn). destruct (N.eqb_spec o x) as [->|Hne].
      { exfalso. apply Hn, rtc_refl. }
      split; [done|]. split; [|done]. intros y Hy.
      apply ancestor_heads_subset, elem_of_union in Hy as [Hy|Hy]; [|by apply Ha].
      apply elem_of_singleton in Hy. by subst.
  Qed.

  (** ** Termination of the inner loop *)

  Definition weight (p : bounds * statuses) : nat := 2 ^ (S (length (candidates p))) - 1.
  Definition total_weight (queue : list (bounds * statuses)) : nat := list_sum (List.map weight queue).

  Lemma fewer p q o : state_ok p -> state_ok q -> o ∈ candidates p -> o ∉ candidates q ->
    (forall x, x ∈ candidates q -> x ∈ candidates p) -> (length (candidates q) < length (candidates p))%nat.
  Proof.
    intros Hp Hq Ho Hno Hsub.
    assert (Hle : (o :: candidates q) ⊆+ candidates p).
    { apply NoDup_submseteq.
      - apply NoDup_cons. split; [done|by apply candidates_nodup].
      - intros x Hx. apply elem_of_cons in Hx as [->|Hx]; [done|by apply Hsub]. }
    apply submseteq_length in Hle. cbn in Hle. lia.
  Qed.

  Lemma failure_fewer p o : state_ok p -> o ∈ candidates p ->
    (length (candidates (failure_state p o)) < length (candidates p))%nat.
  Proof.
    intros Hok Ho. apply fewer with o; [done|by apply failure_state_ok|done| |].
    - rewrite failure_candidates by done. intros [_ H]. apply H, rtc_refl.
    - intros x Hx. by apply failure_candidates in Hx as [Hx _].
  Qed.
  Lemma success_fewer p o : state_ok p -> o ∈ candidates p ->
    (length (candidates (success_state p o)) < length (candidates p))%nat.
  Proof.
    intros Hok Ho. apply fewer with o; [done|by apply success_state_ok|done| |].
    - rewrite success_candidates by done. intros [_ H]. apply H, rtc_refl.
    - intros x Hx. by apply success_candidates in Hx as [Hx _].
  Qed.

  Lemma total_weight_app q1 q2 : total_weight (q1 ++ q2) = (total_weight q1 + total_weight q2)%nat.
  Proof. unfold total_weight. rewrite map_app, list_sum_app. done. Qed.

  Lemma weight_children p o : state_ok p -> o ∈ candidates p ->
    (weight (failure_state p o) + weight (success_state p o) < weight p)%nat.
  Proof.
    intros Hok Ho. pose proof (failure_fewer p o Hok Ho) as H1. pose proof (success_fewer p o Hok Ho) as H2.
    unfold weight. set (a := length (candidates (failure_state p o))) in *.
    set (b := length (candidates (success_state p o))) in *. set (c := length (candidates p)) in *.
    assert (Ha : (2 ^ S a <= 2 ^ c)%nat) by (apply Nat.pow_le_mono_r; lia).
    assert (Hb : (2 ^ S b <= 2 ^ c)%nat) by (apply Nat.pow_le_mono_r; lia).
    assert (Hpa : (0 < 2 ^ S a)%nat) by (apply Nat.neq_0_lt_0, Nat.pow_nonzero; lia).
    assert (Hpb : (0 < 2 ^ S b)%nat) by (apply Nat.neq_0_lt_0, Nat.pow_nonzero; lia).
    rewrite (Nat.pow_succ_r' 2 c). lia.
  Qed.
  Lemma weight_pos p : (0 < weight p)%nat.
  Proof.
    unfold weight. rewrite Nat.pow_succ_r'.
    assert (0 < 2 ^ length (candidates p))%nat by (apply Nat.neq_0_lt_0, Nat.pow_nonzero; lia). lia.
  Qed.

  Lemma proposals_total skip fuel : forall want seen queue,
    Forall state_ok queue -> (total_weight queue <= fuel)%nat ->
    exists l, proposals fuel sg st skip want seen queue = Proposed l.
  Proof.
    induction fuel as [|fuel IH]; intros want seen queue Hok Hw.
    - destruct want as [|want]; [by exists []|]. destruct queue as [|p queue]; [by exists []|].
      exfalso. unfold total_weight in Hw. cbn in Hw. pose proof (weight_pos p). lia.
    - destruct want as [|want]; [by exists []|]. destruct queue as [|[b m] queue]; [by exists []|].
      cbn [proposals]. apply Forall_cons in Hok as [Hp Hok].
      assert (Hsum : total_weight ((b, m) :: queue) = (weight (b, m) + total_weight queue)%nat) by done.
      destruct (midpoint sg st b m) as [o|] eqn:Hm.
      + assert (Ho : o ∈ candidates (b, m)) by (by apply midpoint_some).
        rewrite (not_already_searched (b, m) o Hp Ho : already_searched sg b o = None).
        pose proof (weight_children (b, m) o Hp Ho) as Hch.
        change (if_failure sg b o, st_insert m o Bad) with (failure_state (b, m) o).
        change (if_success sg b o, st_insert m o Good) with (success_state (b, m) o).
        assert (Hok' : Forall state_ok ((queue ++ [failure_state (b, m) o]) ++ [success_state (b, m) o])).
        { apply Forall_app. split; [apply Forall_app; split; [done|]|]; apply Forall_singleton;
            [by apply failure_state_ok|by apply success_state_ok]. }
        assert (Hw' : (total_weight ((queue ++ [failure_state (b, m) o]) ++ [success_state (b, m) o]) <= fuel)%nat).
        { rewrite !total_weight_app. unfold total_weight at 2 3. cbn [List.map list_sum fold_right]. lia. }
        destruct (bool_decide (o ∈ seen)); [by apply IH|].
        destruct (skip o); [by apply IH|].
        destruct (IH want ({[o]} ∪ seen) _ Hok' Hw') as [l ->]. by exists (o :: l).
      + apply IH; [done|]. pose proof (weight_pos (b, m)). lia.
  Qed.

  (** ** What is proposed *)

  Lemma proposals_sound skip fuel : forall want seen queue l,
    Forall state_ok queue -> proposals fuel sg st skip want seen queue = Proposed l ->
    NoDup l /\ (length l <= want)%nat /\
    (forall o, o ∈ l -> o ∉ seen /\ skip o = false /\ exists p, p ∈ queue /\ o ∈ candidates p) /\
    ((length l < want)%nat -> forall p x, p ∈ queue -> x ∈ candidates p -> x ∉ seen -> skip x = false -> x ∈ l).
  Proof.
    induction fuel as [|fuel IH]; intros want seen queue l Hok H.
    - destruct want as [|want]; [|destruct queue as [|[b m] queue]].
      + injection H as <-. split; [apply NoDup_nil_2|]. split; [cbn; lia|]. split; [|cbn; lia].
        intros o Ho. by apply elem_of_nil in Ho.
      + injection H as <-. split; [apply NoDup_nil_2|]. split; [cbn; lia|]. split.
        * intros o Ho. by apply elem_of_nil in Ho.
        * intros _ p x Hp. by apply elem_of_nil in Hp.
      + discriminate H.
    - destruct want as [|want].
      { injection H as <-. split; [apply NoDup_nil_2|]. split; [cbn; lia|]. split; [|cbn; lia].
        intros o Ho. by apply elem_of_nil in Ho. }
      destruct queue as [|[b m] queue].
      { injection H as <-. split; [apply NoDup_nil_2|]. split; [cbn; lia|]. split.
        * intros o Ho. by apply elem_of_nil in Ho.
        * intros _ p x Hp. by apply elem_of_nil in Hp. }
      cbn [proposals] in H. apply Forall_cons in Hok as [Hp Hok].
      destruct (midpoint sg st b m) as [o|] eqn:Hm.
      + assert (Ho : o ∈ candidates (b, m)) by (by apply midpoint_some).
        rewrite (not_already_searched (b, m) o Hp Ho : already_searched sg b o = None) in H.
        change (if_failure sg b o, st_insert m o Bad) with (failure_state (b, m) o) in H.
        change (if_success sg b o, st_insert m o Good) with (success_state (b, m) o) in H.
        set (queue' := (queue ++ [failure_state (b, m) o]) ++ [success_state (b, m) o]) in *.
        assert (Hok' : Forall state_ok queue').
        { apply Forall_app. split; [apply Forall_app; split; [done|]|]; apply Forall_singleton;
            [by apply failure_state_ok|by apply success_state_ok]. }
        assert (Hin : forall x, (exists p, p ∈ queue' /\ x ∈ candidates p) ->
                       exists p, p ∈ (b, m) :: queue /\ x ∈ candidates p).
        { intros x (p & Hq & Hx). apply elem_of_app in Hq as [Hq|Hq]; [apply elem_of_app in Hq as [Hq|Hq]|].
          - exists p. split; [by right|done].
          - apply elem_of_list_singleton in Hq as ->. exists (b, m). split; [by left|].
            by apply failure_candidates in Hx as [Hx _].
          - apply elem_of_list_singleton in Hq as ->. exists (b, m). split; [by left|].
            by apply success_candidates in Hx as [Hx _]. }
        assert (Hcov : forall p x, p ∈ (b, m) :: queue -> x ∈ candidates p -> x <> o ->
                        exists p', p' ∈ queue' /\ x ∈ candidates p').
        { intros p x Hq Hx Hne. apply elem_of_cons in Hq as [->|Hq].
          - destruct (decide (sg_is_ancestor sg x o = true)) as [Ha|Ha].
            + apply sg_is_ancestor_spec in Ha as [Ha _]; [|done].
              exists (failure_state (b, m) o). split.
              * apply elem_of_app. left. apply elem_of_app. right. by left.
              * apply failure_candidates; [done|done|]. split; [done|]. intros Ha'. apply Hne.
                by apply (ancestor_antisym g).
            + exists (success_state (b, m) o). split.
              * apply elem_of_app. right. by left.
              * apply success_candidates; [done|done|]. split; [done|]. intros Ha'. apply Ha.
                apply sg_is_ancestor_spec; [done|]. split; [done|]. by eapply candidate_commit.
          - exists p. split; [|done]. apply elem_of_app. left. apply elem_of_app. by left. }
        destruct (bool_decide (o ∈ seen)) eqn:Hseen.
        * apply bool_decide_eq_true in Hseen. destruct (IH _ _ _ _ Hok' H) as (H1 & H2 & H3 & H4).
          split; [done|]. split; [done|]. split.
          -- intros x Hx. destruct (H3 x Hx) as (Ha & Hb & Hc). split; [done|]. split; [done|]. by apply Hin.
          -- intros Hlt p x Hq Hx Hns Hsk. destruct (decide (x = o)) as [->|Hne]; [done|].
             destruct (Hcov p x Hq Hx Hne) as (p' & Hq' & Hx'). by eapply H4.
        * apply bool_decide_eq_false in Hseen. destruct (skip o) eqn:Hskip.
          -- destruct (IH _ _ _ _ Hok' H) as (H1 & H2 & H3 & H4).
             split; [done|]. split; [done|]. split.
             ++ intros x Hx. destruct (H3 x Hx) as (Ha & Hb & Hc). split; [|split; [done|by apply Hin]].
                intros Hc'. apply Ha, elem_of_union. by right.
             ++ intros Hlt p x Hq Hx Hns Hsk. destruct (decide (x = o)) as [->|Hne]; [congruence|].
                destruct (Hcov p x Hq Hx Hne) as (p' & Hq' & Hx'). eapply H4; [done|done|done| |done].
                intros Hc. apply elem_of_union in Hc as [Hc|Hc]; [|done]. by apply elem_of_singleton in Hc.
          -- destruct (proposals fuel sg st skip want ({[o]} ∪ seen) queue') as [l'| |] eqn:Hrec; try discriminate H.
             injection H as <-. destruct (IH _ _ _ _ Hok' Hrec) as (H1 & H2 & H3 & H4). split; [|split; [|split]].
             ++ apply NoDup_cons. split; [|done]. intros Hc. destruct (H3 o Hc) as (Ha & _).
                apply Ha, elem_of_union. left. by apply elem_of_singleton.
             ++ cbn. lia.
             ++ intros x Hx. apply elem_of_cons in Hx as [->|Hx].
                ** split; [done|]. split; [done|]. exists (b, m). split; [by left|done].
                ** destruct (H3 x Hx) as (Ha & Hb & Hc). split; [|split; [done|by apply Hin]].
                   intros Hc'. apply Ha, elem_of_union. by right.
             ++ intros Hlt p x Hq Hx Hns Hsk. destruct (decide (x = o)) as [->|Hne]; [by left|]. right.
                destruct (Hcov p x Hq Hx Hne) as (p' & Hq' & Hx'). cbn in Hlt. eapply H4; [lia|done|done| |done].
                intros Hc. apply elem_of_union in Hc as [Hc|Hc]; [|done]. by apply elem_of_singleton in Hc.
      + destruct (IH _ _ _ _ Hok H) as (H1 & H2 & H3 & H4).
        split; [done|]. split; [done|]. split.
        * intros x Hx. destruct (H3 x Hx) as (Ha & Hb & p & Hq & Hc). split; [done|]. split; [done|].
          exists p. split; [by right|done].
        * intros Hlt p x Hq Hx. apply elem_of_cons in Hq as [->|Hq]; [|by eapply H4].
          apply (midpoint_none (b, m)) in Hm. rewrite Hm in Hx. by apply elem_of_nil in Hx.
  Qed.

  Lemma first_proposal skip fuel want b m o :
    state_ok (b, m) -> midpoint sg st b m = Some o -> skip o = false -> (0 < want)%nat ->
    forall l, proposals (S fuel) sg st skip want ∅ [(b, m)] = Proposed l -> head l = Some o.
  Proof.
    intros Hok Hm Hs Hw l H. destruct want as [|want]; [lia|]. cbn [proposals] in H. rewrite Hm in H.
    assert (Ho : o ∈ candidates (b, m)) by (by apply midpoint_some).
    rewrite (not_already_searched (b, m) o Hok Ho : already_searched sg b o = None) in H.
    rewrite (bool_decide_eq_false_2 (o ∈ (∅ : commit_set))) in H by (apply not_elem_of_empty).
    rewrite Hs in H.
    destruct (proposals fuel sg st skip want ({[o]} ∪ ∅)
        (([] ++ [(if_failure sg b o, st_insert m o Bad)]) ++ [(if_success sg b o, st_insert m o Good)]))
      as [l'| |]; try discriminate H.
    injection H as <-. done.
  Qed.
End Iter.

(** ** Proposals after a history *)

Section Search.
  Context (g : graph) (nodes : list oid).
  Hypothesis Hwf : wf_graph g.

  Lemma inv_state_ok h se : search_inv g nodes h se -> state_ok (se_graph se) (search_bounds se, se_nodes se).
  Proof.
    intros Hi. unfold state_ok, search_bounds. cbn. split; [|split; [|split]].
    - etransitivity; [apply ancestor_heads_subset|]. by eapply status_subset.
    - etransitivity; [apply descendant_roots_subset|]. by eapply status_subset.
    - apply Hi.
    - intros o Ho. rewrite (inv_commits g nodes h se Hi). apply elem_of_list_to_set, (si_dom _ _ _ _ Hi).
      by apply st_get_key.
  Qed.

  Lemma inv_candidates h se o : search_inv g nodes h se ->
    o ∈ candidates (se_graph se) (search_bounds se, se_nodes se) <-> o ∈ nodes /\ undecided g h o.
  Proof.
    intros Hi. unfold undecided.
    rewrite (candidates_spec _ (inv_wf g nodes Hwf h se Hi)) by (by eapply inv_state_ok).
    cbn. rewrite (inv_graph g nodes h se Hi). split.
    - intros (Hg & Ha & Hd).
      assert (Ho : o ∈ nodes) by (apply (si_dom _ _ _ _ Hi); by eexists).
      split; [done|]. split; [|split].
      + rewrite (si_tested _ _ _ _ Hi) by done. congruence.
      + intros Hk. pose proof (proj2 (implied_good_spec g nodes Hwf h se o Hi) (conj Ho Hk)) as Hx.
        apply (ancestors_all_spec _ (inv_wf g nodes Hwf h se Hi)) in Hx as (_ & x & Hx & Hax).
        rewrite (inv_graph g nodes h se Hi) in Hax. by apply (Ha x).
      + intros Hk. pose proof (proj2 (implied_bad_spec g nodes Hwf h se o Hi) (conj Ho Hk)) as Hx.
        apply (descendants_all_spec _ (inv_wf g nodes Hwf h se Hi)) in Hx as (_ & x & Hx & Hax).
        rewrite (inv_graph g nodes h se Hi) in Hax. by apply (Hd x).
    - intros (Ho & Ht & Hkg & Hkb). split; [|split].
      + rewrite (si_tested _ _ _ _ Hi) in Ht by done.
        destruct (decide (st_get (se_nodes se) o = Some Untested)); [done|by exfalso].
      + intros x Hx Ha. apply (success_bounds_spec g nodes Hwf h se x Hi) in Hx as [Hx _].
        apply Hkg. by exists x.
      + intros x Hx Ha. apply (failure_bounds_spec g nodes Hwf h se x Hi) in Hx as [Hx _].
        apply Hkb. by exists x.
  Qed.

  Lemma inv_count h se : search_inv g nodes h se ->
    (length (candidates (se_graph se) (search_bounds se, se_nodes se)) <= length nodes)%nat.
  Proof.
    intros Hi. apply submseteq_length, NoDup_submseteq.
    - apply candidates_nodup. by eapply inv_state_ok.
    - intros x Hx. by apply (inv_candidates h se x Hi) in Hx as [Hx _].
  Qed.

  Lemma search_next_total h se st skip want fuel :
    search_inv g nodes h se -> (2 ^ S (length nodes) <= fuel)%nat ->
    exists l, search_next fuel se st skip want = Proposed l.
  Proof.
    intros Hi Hf. unfold search_next. apply proposals_total.
    - by eapply inv_wf.
    - apply Forall_singleton. by eapply inv_state_ok.
    - unfold total_weight. cbn [List.map list_sum fold_right]. unfold weight.
      pose proof (inv_count h se Hi) as Hc.
      assert (2 ^ S (length (candidates (se_graph se) (search_bounds se, se_nodes se))) <= 2 ^ S (length nodes))%nat
        by (apply Nat.pow_le_mono_r; lia). lia.
  Qed.

  Lemma search_next_sound h se st skip want fuel l :
    search_inv g nodes h se -> search_next fuel se st skip want = Proposed l ->
    NoDup l /\ (length l <= want)%nat /\
    (forall o, o ∈ l -> o ∈ nodes /\ undecided g h o /\ skip o = false) /\
    ((length l < want)%nat -> forall o, o ∈ nodes -> undecided g h o -> skip o = false -> o ∈ l).
  Proof.
    intros Hi H. unfold search_next in H.
    eapply proposals_sound in H as (H1 & H2 & H3 & H4); [|by eapply inv_wf|].
    2:{ apply Forall_singleton. by eapply inv_state_ok. }
    split; [done|]. split; [done|]. split.
    - intros o Ho. destruct (H3 o Ho) as (_ & Hs & p & Hp & Hc). apply elem_of_list_singleton in Hp as ->.
      apply (inv_candidates h se o Hi) in Hc as [Hc Hu]. done.
    - intros Hlt o Ho Hu Hs. eapply H4; [done|by left| |apply not_elem_of_empty|done].
      by apply (inv_candidates h se o Hi).
  Qed.

  Lemma search_next_no_error h se st skip want fuel o s :
    search_inv g nodes h se -> search_next fuel se st skip want <> AlreadySearchedMidpoint o s.
  Proof.
    intros Hi. unfold search_next.
    assert (Hgen : forall fuel want seen queue, Forall (state_ok (se_graph se)) queue ->
              proposals fuel (se_graph se) st skip want seen queue <> AlreadySearchedMidpoint o s).
    { clear fuel want. induction fuel as [|fuel IH]; intros want seen queue Hok.
      - destruct want; [done|]. destruct queue as [|[b m] queue]; done.
      - destruct want as [|want]; [done|]. destruct queue as [|[b m] queue]; [done|].
        apply Forall_cons in Hok as [Hp Hok]. cbn [proposals].
        destruct (midpoint (se_graph se) st b m) as [x|] eqn:Hm; [|by apply IH].
        assert (Hx : x ∈ candidates (se_graph se) (b, m)) by (by eapply (midpoint_some _ st (b, m))).
        rewrite (not_already_searched _ (inv_wf g nodes Hwf h se Hi) (b, m) x Hp Hx
                  : already_searched (se_graph se) b x = None).
        assert (Hok' : Forall (state_ok (se_graph se)) ((queue ++ [failure_state (se_graph se) (b, m) x]) ++ [success_state (se_graph se) (b, m) x])).
        { pose proof (inv_wf g nodes Hwf h se Hi).
          apply Forall_app. split; [apply Forall_app; split; [done|]|]; apply Forall_singleton;
            [by apply failure_state_ok|by apply success_state_ok]. }
        destruct (bool_decide (x ∈ seen)); [by apply IH|]. destruct (skip x); [by apply IH|].
        specialize (IH want ({[x]} ∪ seen) _ Hok').
        change (if_failure (se_graph se) b x, st_insert m x Bad) with (failure_state (se_graph se) (b, m) x).
        change (if_success (se_graph se) b x, st_insert m x Good) with (success_state (se_graph se) (b, m) x).
        destruct (proposals fuel (se_graph se) st skip want ({[x]} ∪ seen)
          ((queue ++ [failure_state (se_graph se) (b, m) x]) ++ [success_state (se_graph se) (b, m) x])); done. }
    apply Hgen, Forall_singleton. by eapply inv_state_ok.
  Qed.
End Search.
