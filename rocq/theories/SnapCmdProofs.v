(** Proofs about putting a working copy aside and taking it up again. *)
From Verif Require Import Base ModeModel TreeModel TreeSpec TreeProofs TreeOpsProofs TreePickProofs SnapModel SnapSpec SnapProofs SnapCmdModel SnapCmdSpec.
Local Open Scope list_scope.

(** A directory has a file somewhere below. *)
Lemma dir_has_file st t p x : grounded st -> tidy_at st t -> p <> [] -> entry_at st t p = Some x -> is_tree x = true ->
  exists n r, file_at st t (p ++ n :: r) <> None.
Proof.
  intros G T Hp Hx Tx. destruct (T p x Hx Tx) as (_ & t' & Ht & Ne).
  destruct (tidy_has_file st G t' Ne (tidy_under _ _ _ _ _ T Hp Hx Tx Ht)) as [q Hq].
  destruct q as [|n r]; [cbn in Hq; congruence|]. exists n, r. intros E. apply Hq. revert E. unfold file_at.
  rewrite entry_at_app by (exact Hp || discriminate). rewrite Hx. cbn [within]. rewrite Tx, Ht. auto.
Qed.

Section aside.
  Context (e : tree_env) (tgt : oid -> path) (st : tree_store) (h : option oid) (t : tree) (i : full_index) (d : disk) (l : list sn_entry)
    (sn : snapshot) (st1 : tree_store) (i0 : full_index) (d0 : disk) (i' : full_index) (d' : disk) (st2 : tree_store).
  Context (TK : taken e tgt st h t i d l sn st1) (DC : discarded st1 t i d i0 d0) (RS : restored e st1 sn t i0 d0 i' d' st2).

  Lemma aside_sub : st ⊆ st1 /\ st1 ⊆ st2 /\ sound e st1 /\ sound e st2.
  Proof using TK RS.
    destruct TK as (C & GH & GI & R & NC). destruct (create_spec _ _ _ _ _ _ _ _ _ _ C GH GI R NC) as (_ & S1 & Hs1 & _).
    destruct RS as (S12 & Hs2 & _). auto.
  Qed.
  Lemma head_entry st' p : st ⊆ st' -> entry_at st' t p = entry_at st t p.
  Proof using TK.
    intros S. destruct TK as (_ & GH & _). pose proof GH as (Hs & _).
    apply entry_at_mono; [exact S|exact (sound_closed e st Hs)|exact (good_closed _ _ _ _ GH)].
  Qed.

  (** A reported path of which HEAD has no file is not a directory there. *)
  Lemma reported_no_dir p a : status_at (file_at st t p) i d p = Some a -> file_at st t p = None -> p <> [] -> entry_at st t p = None.
  Proof using TK.
    intros Hs Hf Hp. destruct TK as (_ & GH & GI & R & NC). pose proof GH as (_ & G & _ & _ & T).
    destruct (entry_at st t p) as [x|] eqn:E; [|reflexivity]. exfalso. unfold file_at in Hf. rewrite E in Hf.
    destruct (is_tree x) eqn:Tx; [|discriminate].
    destruct (dir_has_file st t p x G T Hp E Tx) as (n & r & Hn). destruct R as (_ & _ & _ & R3).
    assert (Hs' : status_at (file_at st t p) i d p = Some a) by exact Hs.
    destruct (R3 p a Hs') as (y & Hy & Hpy). exact (NC y p (p ++ n :: r) Hy Hpy (or_intror Hn) (clash_below p n r)).
  Qed.

  Lemma tracked_status p : in_index i p -> file_at st t p = None -> exists a, status_at (file_at st t p) i d p = Some a.
  Proof using TK.
    intros [s Hs] Hf. destruct TK as (_ & _ & GI & _ & _).
    destruct (status_at (file_at st t p) i d p) as [a|] eqn:E; [eauto|]. exfalso.
    apply status_none in E. destruct E as (Hc & E & _). rewrite Hf in E.
    destruct (decide (s = Stage0)) as [->|Ns]; [|exact (Hs (not_conflicted_stage i p s Hc Ns))].
    apply Hs. rewrite (indexed_good i p GI), <- E. reflexivity.
  Qed.

  Lemma gone_stays p : in_index i p -> d p = WNothing -> still_missing st2 t i0 d0 p.
  Proof using All.
    intros Hi Hd. destruct aside_sub as (S1 & S12 & _). assert (S2 : st ⊆ st2) by (by etransitivity).
    assert (Hp : p <> []). { intros ->. destruct Hi as [s Hs]. destruct TK as (_ & _ & GI & _). apply Hs. apply GI. }
    destruct (file_at st t p) as [x|] eqn:F.
    - left. unfold file_at in *. rewrite (head_entry st2 p S2). rewrite F. discriminate.
    - right. destruct (tracked_status p Hi F) as [a Ha]. pose proof (reported_no_dir p a Ha F Hp) as E.
      rewrite (head_entry st2 p S2). split; [exact E|]. destruct DC as (_ & D2 & D3). split.
      + intros [s Hs]. apply Hs. rewrite D3. unfold index_of_tree. rewrite (head_entry st1 p S1), E. by destruct s.
      + apply D2; [|exact Hd]. by rewrite (head_entry st1 p S1).
  Qed.

  Lemma apart_unlisted p : ~ in_index i p -> file_at st t p = None -> forall x, x ∈ l -> p ∉ sn_paths x.
  Proof using TK.
    intros Hi Hf x Hx Hp. destruct TK as (_ & _ & GI & R & _). destruct (reported_paths st t i d l R x p Hx Hp) as [a Ha].
    assert (Hc : ~ conflicted i p). { intros Hc. apply Hi. destruct Hc as [Hc|[Hc|Hc]]; eexists; exact Hc. }
    assert (E : indexed i p = None). { unfold indexed. destruct (i p Stage0) as [v|] eqn:E; [|reflexivity]. exfalso. apply Hi. exists Stage0. by rewrite E. }
    unfold status_at in Ha. rewrite decide_False in Ha by exact Hc. rewrite Hf, E in Ha. discriminate Ha.
  Qed.

  Lemma apart_no_entry p : apart st t i p -> entry_at st t p = None.
  Proof using TK.
    intros (_ & F & Hp & C). destruct TK as (_ & GH & _). pose proof GH as (_ & G & _ & _ & T).
    destruct (entry_at st t p) as [x|] eqn:E; [|reflexivity]. exfalso. unfold file_at in F. rewrite E in F.
    destruct (is_tree x) eqn:Tx; [|discriminate]. destruct (dir_has_file st t p x G T Hp E Tx) as (n & r & Hn).
    destruct (C (p ++ n :: r) (clash_below p n r)) as [_ X]. contradiction.
  Qed.

  Lemma below_apart p : apart st t i p -> ~ below_file st t p.
  Proof using Type.
    intros (_ & _ & _ & C) (q & x & Hpre & Ne & E & Tx). assert (K : clash p q) by (split; [congruence|by right]).
    destruct (C q K) as [_ F]. unfold file_at in F. rewrite E, Tx in F. discriminate.
  Qed.
  Lemma below_apart_in st' p : st ⊆ st' -> apart st t i p -> ~ below_file st' t p.
  Proof using TK.
    intros S A (q & x & Hpre & Ne & E & Tx). rewrite (head_entry st' q S) in E. apply (below_apart p A). by exists q, x.
  Qed.

  Lemma untracked_stays p : apart st t i p -> d p <> WFolder -> d0 p = d p /\ d' p = d p.
  Proof using All.
    intros A Hd. destruct aside_sub as (S1 & S12 & Hs1 & Hs2). assert (S2 : st ⊆ st2) by (by etransitivity).
    pose proof (apart_no_entry p A) as E. pose proof A as (Hi & F & Hp & C). destruct DC as (D1 & D2 & D3).
    assert (K0 : d0 p = d p).
    { specialize (D1 p). rewrite (head_entry st1 p S1), E in D1. destruct D1 as [_ D1].
      destruct (D1 Hi Hd) as [X|[X _]]; [exact X|]. destruct (below_apart_in st1 p S1 A X). }
    split; [exact K0|]. pose proof TK as (Cr & GH & GI & R & NC).
    pose proof (create_grounded _ _ _ _ _ _ _ _ _ _ Cr GH GI R NC) as G1.
    destruct (create_spec _ _ _ _ _ _ _ _ _ _ Cr GH GI R NC) as (_ & _ & _ & CM).
    destruct (CM st1 (reflexivity st1) Hs1) as [(u1 & U1 & Eu1 & HU1 & OU1) _].
    destruct RS as (_ & _ & ord & _ & d1 & U & tb & cs & HR & HU & HC & _).
    assert (U = U1) as ->. { pose proof (lookup_weaken _ _ _ _ HU1 S12). congruence. }
    assert (Keys : forall q, q ∈ map fst (to_updates u1) -> exists x, x ∈ l /\ q ∈ sn_paths x).
    { intros q Hq. rewrite to_updates_keys, elem_of_remove_dups, (unstaged_keys _ _ _ Eu1) in Hq.
      apply elem_of_list_fmap in Hq as ([q' m] & -> & Hq). apply (elem_of_unstaged_paths l) in Hq. destruct Hq as (x & Hx & _ & Hq & _). exists x. auto. }
    destruct OU1 as (T1 & _ & O3).
    specialize (HR p). rewrite (head_entry st2 p S2), E in HR. destruct HR as [_ HR].
    assert (N0 : ~ in_index i0 p).
    { intros [s Hs]. apply Hs. rewrite D3. unfold index_of_tree. rewrite (head_entry st1 p S1), E. by destruct s. }
    assert (K1 : d1 p = d p).
    { destruct (HR N0) as [X|[X _]]; [congruence|congruence|]. destruct (below_apart_in st2 p S2 A X). }
    specialize (HC p).
    assert (EU : entry_at st2 U1 p = None).
    { rewrite (entry_at_mono st1 st2 p U1 S12 (sound_closed e st1 Hs1)) by (exact (sound_closed e st1 Hs1 _ _ HU1)).
      destruct (entry_at st1 U1 p) as [x|] eqn:E1; [|reflexivity]. exfalso. destruct (is_tree x) eqn:Tx.
      - destruct (dir_has_file st1 U1 p x G1 T1 Hp E1 Tx) as (n & r & Hn). destruct (C (p ++ n :: r) (clash_below p n r)) as [C1 C2].
        apply Hn. rewrite O3; [exact C2|]. intros Hk. destruct (Keys _ Hk) as (y & Hy & Hq). exact (apart_unlisted _ C1 C2 y Hy Hq).
      - assert (X : file_at st1 U1 p = Some x) by (unfold file_at; by rewrite E1, Tx).
        rewrite O3 in X; [congruence|]. intros Hk. destruct (Keys _ Hk) as (y & Hy & Hq). exact (apart_unlisted _ Hi F y Hy Hq). }
    rewrite EU in HC. destruct HC as [_ HC]. rewrite HC; [exact K1|by rewrite (head_entry st2 p S2)|congruence].
  Qed.
End aside.
