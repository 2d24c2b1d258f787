(** Proofs about cursors: clamping, transaction boundaries, stepping. *)
From Verif Require Import Base TextModel EventLogModel EventLogSpec EventLogProofs.
From Coq Require Import ZifyBool ZifyNat.
Local Open Scope Z_scope.

Definition len (r : replayer) : Z := Z.of_nat (length (events r)).

Lemma make_cursor_spec r c : make_cursor r c = Z.min (Z.max c 0) (len r).
Proof. unfold make_cursor, len. destruct (c <? 0) eqn:E; destruct (_ >? _) eqn:F; lia. Qed.

Lemma make_cursor_valid r c : valid_cursor r (make_cursor r c).
Proof. rewrite make_cursor_spec. unfold valid_cursor, len. lia. Qed.

Lemma wrap_isize_id z : - 2 ^ 63 <= z < 2 ^ 63 -> wrap_isize z = z.
Proof. intros H. unfold wrap_isize. rewrite Z.mod_small by lia. lia. Qed.

(** ** Transaction before a cursor *)

Definition T (es : list event) (c : Z) : option txid :=
  if c =? 0 then None else option_map event_tx (nth_error es (Z.to_nat (c - 1))).

Lemma tx_before_spec r c : valid_cursor r c -> tx_before_cursor r c = Some (T (events r) c).
Proof.
  intros [H1 H2]. unfold tx_before_cursor, event_before_cursor, T, index.
  destruct (Z.eqb_spec c 0); [reflexivity|].
  destruct (Z.leb_spec 0 (c - 1)); [|lia].
  destruct (nth_error (events r) (Z.to_nat (c - 1))) eqn:E; [reflexivity|].
  apply nth_error_None in E. lia.
Qed.

Lemma T_pos es c : 0 < c <= Z.of_nat (length es) -> exists e, nth_error es (Z.to_nat (c - 1)) = Some e /\ T es c = Some (event_tx e).
Proof.
  intros H. unfold T. destruct (Z.eqb_spec c 0); [lia|].
  destruct (nth_error es (Z.to_nat (c - 1))) as [e|] eqn:E.
  - eauto.
  - apply nth_error_None in E. lia.
Qed.

Lemma boundary_T es c :
  0 <= c <= Z.of_nat (length es) ->
  boundary es c <-> c = Z.of_nat (length es) \/ (c < Z.of_nat (length es) /\ T es c <> T es (c + 1)).
Proof.
  intros Hc. unfold boundary. split.
  - intros [->|[->|(b & e & e' & a & -> & -> & Hne)]].
    + destruct (Z.eq_dec (Z.of_nat (length es)) 0) as [E|E]; [left; lia|].
      right. split; [lia|]. destruct (T_pos es (0 + 1)) as (e & _ & ->); [lia|]. cbn. discriminate.
    + left. reflexivity.
    + right. rewrite app_length. cbn [length]. split; [lia|].
      unfold T. destruct (Z.eqb_spec (Z.of_nat (length b) + 1) 0); [lia|].
      destruct (Z.eqb_spec (Z.of_nat (length b) + 1 + 1) 0); [lia|].
      replace (Z.to_nat (Z.of_nat (length b) + 1 - 1)) with (length b) by lia.
      replace (Z.to_nat (Z.of_nat (length b) + 1 + 1 - 1)) with (S (length b)) by lia.
      rewrite !nth_error_app2 by lia.
      replace (length b - length b)%nat with 0%nat by lia.
      replace (S (length b) - length b)%nat with 1%nat by lia. cbn. congruence.
  - intros [->|[Hlt Hne]]; [tauto|].
    destruct (Z.eq_dec c 0) as [->|Hc0]; [tauto|]. right. right.
    destruct (T_pos es c) as (e & He & HTe); [lia|].
    destruct (T_pos es (c + 1)) as (e' & He' & HTe'); [lia|].
    rewrite HTe, HTe' in Hne.
    apply nth_error_split in He. destruct He as (b & a & -> & Hlb).
    rewrite nth_error_app2 in He' by lia.
    replace (Z.to_nat (c + 1 - 1) - length b)%nat with 1%nat in He' by lia.
    cbn in He'. destruct a as [|e2 a]; [discriminate|]. cbn in He'. injection He' as ->.
    exists b, e, e', a. split; [reflexivity|]. split; [lia|]. congruence.
Qed.

(** First boundary at or after [c]. *)
Definition first_at (es : list event) (c d : Z) : Prop :=
  c <= d <= Z.of_nat (length es) /\ boundary es d /\ forall x, c <= x < d -> ~ boundary es x.

Lemma first_at_unique es c d d' : first_at es c d -> first_at es c d' -> d = d'.
Proof.
  intros (H1 & H2 & H3) (H1' & H2' & H3').
  destruct (Z.lt_trichotomy d d') as [H|[H|H]]; [|exact H|].
  - exfalso. apply (H3' d); [lia|exact H2].
  - exfalso. apply (H3 d'); [lia|exact H2'].
Qed.

Lemma snap_spec r : forall fuel c,
  valid_cursor r c -> len r - c < Z.of_nat fuel ->
  exists d, snap fuel r c = Some d /\ first_at (events r) c d.
Proof.
  induction fuel as [|fuel IH]; intros c Hc Hf; [unfold valid_cursor, len in *; lia|].
  cbn [snap]. unfold advance_cursor. rewrite make_cursor_spec.
  unfold valid_cursor, len in *.
  destruct (Z.eqb_spec c (Z.min (Z.max (c + 1) 0) (Z.of_nat (length (events r))))) as [E|E].
  - exists c. split; [reflexivity|]. split; [lia|]. split; [right; left; lia|]. intros; lia.
  - assert (Hlt : c < Z.of_nat (length (events r))) by lia.
    replace (Z.min (Z.max (c + 1) 0) (Z.of_nat (length (events r)))) with (c + 1) by lia.
    rewrite !tx_before_spec by (unfold valid_cursor; lia).
    case_decide as D.
    + destruct (IH (c + 1)) as (d & Hd & H1 & H2 & H3); [lia|lia|].
      exists d. split; [exact Hd|]. split; [lia|]. split; [exact H2|].
      intros x Hx. destruct (Z.eq_dec x c) as [->|Hne]; [|apply H3; lia].
      rewrite boundary_T by lia. intros [?|[_ ?]]; [lia|done].
    + exists c. split; [reflexivity|]. split; [lia|]. split; [|intros; lia].
      apply boundary_T; [lia|]. right. split; [lia|exact D].
Qed.

Lemma snap_to_boundary_spec r c :
  valid_cursor r c -> exists d, snap_to_boundary r c = Some d /\ first_at (events r) c d.
Proof.
  intros Hc. apply snap_spec; [exact Hc|]. unfold valid_cursor, len, log_fuel in *. lia.
Qed.

Lemma first_at_valid r c d : valid_cursor r c -> first_at (events r) c d -> valid_cursor r d.
Proof. unfold valid_cursor, first_at. lia. Qed.

Lemma first_at_self es c : 0 <= c <= Z.of_nat (length es) -> boundary es c -> first_at es c c.
Proof. intros H B. split; [lia|]. split; [exact B|]. intros; lia. Qed.

(** One forward step from a boundary, staying at the end. *)
Definition fstep (es : list event) (b d : Z) : Prop :=
  (b = Z.of_nat (length es) /\ d = b) \/
  (b < Z.of_nat (length es) /\ first_at es (b + 1) d).

Lemma fstep_unique es b d d' : fstep es b d -> fstep es b d' -> d = d'.
Proof.
  intros [[? ?]|[? ?]] [[? ?]|[? ?]]; try lia. eapply first_at_unique; eassumption.
Qed.

(** [n] forward transactions from [c]. *)
Fixpoint fwd (es : list event) (n : nat) (c d : Z) : Prop :=
  match n with
  | O => first_at es c d
  | S n' => exists b, fwd es n' c b /\ fstep es b d
  end.

(** The same, peeling the first step. *)
Lemma fwd_front es n c b d :
  0 <= c -> first_at es c b ->
  (b = Z.of_nat (length es) /\ d = b) \/ (b < Z.of_nat (length es) /\ fwd es n (b + 1) d) ->
  fwd es (S n) c d.
Proof.
  revert d. induction n as [|n IH]; intros d Hc Hb [[H1 H2]|[H1 H2]].
  - exists b. split; [exact Hb|]. left. auto.
  - exists b. split; [exact Hb|]. right. auto.
  - exists b. split; [|left; auto]. apply IH; auto.
  - cbn in H2. destruct H2 as (m & Hm & Hs). exists m. split; [|exact Hs]. apply IH; auto.
Qed.

Lemma fwd_unique es n c d d' : fwd es n c d -> fwd es n c d' -> d = d'.
Proof.
  revert d d'. induction n as [|n IH]; intros d d' H H'.
  - eapply first_at_unique; eassumption.
  - destruct H as (b & Hb & Hs), H' as (b' & Hb' & Hs').
    rewrite (IH _ _ Hb' Hb) in Hs'. eapply fstep_unique; eassumption.
Qed.

Lemma helper_fwd r : forall fuel c n,
  valid_cursor r c -> len r - c < Z.of_nat fuel ->
  exists d, advance_tx_helper fuel r c (Z.of_nat n) = Some d /\ fwd (events r) n c d.
Proof.
  induction fuel as [|fuel IH]; intros c n Hc Hf; [unfold valid_cursor, len in *; lia|].
  cbn [advance_tx_helper].
  destruct n as [|n].
  - cbn. apply snap_to_boundary_spec. exact Hc.
  - destruct (Z.compare_spec (Z.of_nat (S n)) 0) as [?|?|_]; [lia|lia|].
    unfold advance_cursor. rewrite make_cursor_spec. unfold valid_cursor, len in *.
    destruct (Z.eqb_spec c (Z.min (Z.max (c + 1) 0) (Z.of_nat (length (events r))))) as [E|E].
    + eexists. split; [reflexivity|]. rewrite <- E.
      apply (fwd_front _ _ c c); [lia| |].
      * apply first_at_self; [lia|]. right. left. lia.
      * left. split; [lia|reflexivity].
    + replace (Z.min (Z.max (c + 1) 0) (Z.of_nat (length (events r)))) with (c + 1) by lia.
      rewrite !tx_before_spec by (unfold valid_cursor; lia).
      case_decide as D.
      * destruct (IH (c + 1) (S n)) as (d & Hd & HR); [lia|lia|].
        exists d. split; [exact Hd|].
        assert (NB : ~ boundary (events r) c).
        { rewrite boundary_T by lia. intros [?|[_ ?]]; [lia|done]. }
        clear - HR NB. revert d HR. generalize (S n) as k.
        induction k as [|k IHk]; intros d HR.
        -- destruct HR as (H1 & H2 & H3). split; [lia|]. split; [exact H2|].
           intros x Hx. destruct (Z.eq_dec x c) as [->|?]; [exact NB|]. apply H3. lia.
        -- destruct HR as (b & Hb & Hs). exists b. split; [|exact Hs]. apply IHk. exact Hb.
      * replace (Z.of_nat (S n) - 1) with (Z.of_nat n) by lia.
        destruct (IH (c + 1) n) as (d & Hd & HR); [lia|lia|].
        exists d. split; [exact Hd|].
        apply (fwd_front _ _ c c); [lia| |right; split; [lia|exact HR]].
        apply first_at_self; [lia|]. apply boundary_T; [lia|]. right. split; [lia|exact D].
Qed.

(** One backward step, staying at the start. *)
Definition bstep (es : list event) (b d : Z) : Prop :=
  (b = 0 /\ d = 0) \/ prev_boundary es b d.

Lemma prev_boundary_unique es c d d' : prev_boundary es c d -> prev_boundary es c d' -> d = d'.
Proof.
  intros (H1 & H2 & H3) (H1' & H2' & H3').
  destruct (Z.lt_trichotomy d d') as [H|[H|H]]; [|exact H|].
  - exfalso. apply (H3 d'); [lia|exact H2'].
  - exfalso. apply (H3' d); [lia|exact H2].
Qed.

Lemma bstep_unique es b d d' : bstep es b d -> bstep es b d' -> d = d'.
Proof.
  intros [[? ?]|H] [[? ?]|H']; try lia.
  - destruct H'. lia.
  - destruct H. lia.
  - eapply prev_boundary_unique; eassumption.
Qed.

Fixpoint bwd (es : list event) (n : nat) (c d : Z) : Prop :=
  match n with
  | O => d = c
  | S n' => exists b, bwd es n' c b /\ bstep es b d
  end.

Lemma bwd_front es n c b d : bstep es c b -> bwd es n b d -> bwd es (S n) c d.
Proof.
  revert d. induction n as [|n IH]; intros d Hb H.
  - cbn in *. subst. eauto.
  - destruct H as (m & Hm & Hs). exists m. split; [|exact Hs]. apply IH; auto.
Qed.

Lemma bwd_unique es n c d d' : bwd es n c d -> bwd es n c d' -> d = d'.
Proof.
  revert d d'. induction n as [|n IH]; intros d d' H H'; cbn in *; [congruence|].
  destruct H as (b & Hb & Hs), H' as (b' & Hb' & Hs').
  rewrite (IH _ _ Hb' Hb) in Hs'. eapply bstep_unique; eassumption.
Qed.

Lemma bwd_zero es n : bwd es n 0 0.
Proof. induction n as [|n IH]; cbn; [reflexivity|]. exists 0. split; [exact IH|]. left. auto. Qed.

Lemma helper_bwd r : forall fuel c n,
  valid_cursor r c -> c < Z.of_nat fuel -> (n = O -> boundary (events r) c) ->
  exists d, advance_tx_helper fuel r c (- Z.of_nat n) = Some d /\ bwd (events r) n c d.
Proof.
  induction fuel as [|fuel IH]; intros c n Hc Hf Hb; [unfold valid_cursor in *; lia|].
  cbn [advance_tx_helper].
  destruct n as [|n].
  - change (- Z.of_nat 0 ?= 0) with Eq. cbv iota.
    destruct (snap_to_boundary_spec r c Hc) as (d & -> & Hd). exists d. split; [reflexivity|].
    eapply first_at_unique; [exact Hd|]. apply first_at_self; [exact Hc|auto].
  - destruct (Z.compare_spec (- Z.of_nat (S n)) 0) as [?|_|?]; [lia| |lia].
    unfold advance_cursor. rewrite make_cursor_spec. unfold valid_cursor, len in *.
    destruct (Z.eqb_spec c (Z.min (Z.max (c + -1) 0) (Z.of_nat (length (events r))))) as [E|E].
    + eexists. split; [reflexivity|]. rewrite <- E. assert (c = 0) as -> by lia. apply bwd_zero.
    + replace (Z.min (Z.max (c + -1) 0) (Z.of_nat (length (events r)))) with (c - 1) by lia.
      rewrite !tx_before_spec by (unfold valid_cursor; lia).
      case_decide as D.
      * destruct (IH (c - 1) (S n)) as (d & Hd & HR); [lia|lia|lia|].
        exists d. split; [exact Hd|].
        assert (NB : ~ boundary (events r) (c - 1)).
        { rewrite boundary_T by lia. intros [?|[_ Hx]]; [lia|].
          apply Hx. rewrite <- D. f_equal. lia. }
        assert (Hc1 : c - 1 <> 0) by (intros E0; apply NB; left; exact E0).
        assert (F : forall b, bstep (events r) (c - 1) b -> bstep (events r) c b).
        { intros b [[? ?]|(H1 & H2 & H3)]; [lia|]. right. split; [lia|]. split; [exact H2|].
          intros x Hx. destruct (Z.eq_dec x (c - 1)) as [->|?]; [exact NB|]. apply H3. lia. }
        clear - HR F. revert d HR. induction n as [|n IHn]; intros d HR.
        -- destruct HR as (b & Hb & Hs). cbn in Hb. subst b. exists c. split; [reflexivity|]. auto.
        -- destruct HR as (b & Hb & Hs). exists b. split; [|exact Hs]. apply IHn. exact Hb.
      * replace (- Z.of_nat (S n) + 1) with (- Z.of_nat n) by lia.
        assert (B : boundary (events r) (c - 1)).
        { apply boundary_T; [lia|]. right. split; [lia|]. intros Hx. apply D. rewrite Hx. f_equal. lia. }
        destruct (IH (c - 1) n) as (d & Hd & HR); [lia|lia|auto|].
        exists d. split; [exact Hd|].
        apply (bwd_front _ _ c (c - 1)); [|exact HR]. right. split; [lia|]. split; [exact B|].
        intros; lia.
Qed.

Lemma events_nil_cursor r c : events r = [] -> valid_cursor r c -> c = 0.
Proof. intros E [H1 H2]. rewrite E in H2. cbn in H2. lia. Qed.

Lemma fwd_nil n d : fwd [] n 0 d -> d = 0.
Proof.
  revert d. induction n as [|n IH]; intros d H.
  - destruct H as ((H1 & H2) & _). cbn in H2. lia.
  - destruct H as (b & Hb & Hs). apply IH in Hb. subst.
    destruct Hs as [[? ?]|[H _]]; [done|]. cbn in H. lia.
Qed.

Lemma fwd_nil_zero n : fwd [] n 0 0.
Proof.
  induction n as [|n IH].
  - apply first_at_self; [cbn; lia|]. left. reflexivity.
  - exists 0. split; [exact IH|]. left. split; reflexivity.
Qed.

Lemma advance_tx_nonempty r c n :
  events r <> [] ->
  advance_tx r c n = match snap_to_boundary r c with
                     | Some c' => advance_tx_helper (log_fuel r) r c' n
                     | None => None
                     end.
Proof. unfold advance_tx. destruct (events r); done. Qed.
Lemma advance_tx_empty r c n : events r = [] -> advance_tx r c n = Some c.
Proof. unfold advance_tx. intros ->. reflexivity. Qed.

Lemma advance_tx_fwd r c n :
  valid_cursor r c -> exists d, advance_tx r c (Z.of_nat n) = Some d /\ fwd (events r) n c d.
Proof.
  intros Hc. destruct (decide (events r = [])) as [E|E].
  - rewrite advance_tx_empty by exact E. exists c. split; [reflexivity|].
    rewrite (events_nil_cursor r c E Hc), E. apply fwd_nil_zero.
  - rewrite advance_tx_nonempty by exact E. destruct (snap_to_boundary_spec r c Hc) as (b & -> & Hb).
    assert (Hvb := first_at_valid r c b Hc Hb).
    destruct (helper_fwd r (log_fuel r) b n) as (d & Hd & HR); [exact Hvb| |].
    { unfold valid_cursor, len, log_fuel in *. lia. }
    exists d. split; [exact Hd|]. clear - Hb HR Hc.
    revert d HR. induction n as [|n IH]; intros d HR.
    + destruct Hb as (H1 & H2 & H3), HR as (H1' & H2' & H3'). split; [lia|]. split; [exact H2'|].
      intros x Hx. destruct (Z_lt_dec x b); [apply H3; lia|apply H3'; lia].
    + destruct HR as (m & Hm & Hs). exists m. split; [apply IH; exact Hm|exact Hs].
Qed.

Lemma advance_tx_bwd r c n :
  valid_cursor r c ->
  exists b d, first_at (events r) c b /\
    advance_tx r c (- Z.of_nat n) = Some d /\ bwd (events r) n b d.
Proof.
  intros Hc. destruct (decide (events r = [])) as [E|E].
  - rewrite advance_tx_empty by exact E. exists c, c.
    assert (c = 0) as -> by (eapply events_nil_cursor; eassumption).
    split; [apply first_at_self; [lia|left; reflexivity]|]. split; [reflexivity|]. apply bwd_zero.
  - rewrite advance_tx_nonempty by exact E. destruct (snap_to_boundary_spec r c Hc) as (b & -> & Hb).
    assert (Hvb := first_at_valid r c b Hc Hb).
    destruct (helper_bwd r (log_fuel r) b n) as (d & Hd & HR); [exact Hvb| | |].
    { unfold valid_cursor, len, log_fuel in *. lia. }
    { intros _. apply Hb. }
    exists b, d. auto.
Qed.

Lemma fstep_bounds es b d :
  0 <= b <= Z.of_nat (length es) -> fstep es b d -> boundary es d /\ 0 <= d <= Z.of_nat (length es).
Proof.
  intros Hb [[-> ->]|[H1 (H2 & H3 & _)]].
  - split; [right; left; reflexivity|lia].
  - split; [exact H3|lia].
Qed.

Lemma fwd_bounds es n c d :
  0 <= c <= Z.of_nat (length es) -> fwd es n c d -> boundary es d /\ 0 <= d <= Z.of_nat (length es).
Proof.
  revert d. induction n as [|n IH]; intros d Hc H.
  - destruct H as (H1 & H2 & _). split; [exact H2|lia].
  - destruct H as (b & Hb & Hs). destruct (IH b Hc Hb) as [_ Hb']. eapply fstep_bounds; eassumption.
Qed.

Lemma bwd_bounds es n c d :
  0 <= c <= Z.of_nat (length es) -> boundary es c -> bwd es n c d ->
  boundary es d /\ 0 <= d <= Z.of_nat (length es).
Proof.
  revert d. induction n as [|n IH]; intros d Hc B H.
  - cbn in H. subst. auto.
  - destruct H as (b & Hb & [[-> ->]|(H1 & H2 & _)]).
    + split; [left; reflexivity|lia].
    + destruct (IH b Hc B Hb) as [_ ?]. split; [exact H2|lia].
Qed.

(** ** The statements used by the property file *)

Lemma advance_tx_lands r c n :
  valid_cursor r c ->
  exists d, advance_tx r c n = Some d /\ valid_cursor r d /\ boundary (events r) d.
Proof.
  intros Hc. destruct (Z_le_dec 0 n) as [Hn|Hn].
  - destruct (advance_tx_fwd r c (Z.to_nat n) Hc) as (d & Hd & HR).
    rewrite Z2Nat.id in Hd by lia. exists d. destruct (fwd_bounds _ _ _ _ Hc HR). auto.
  - destruct (advance_tx_bwd r c (Z.to_nat (- n)) Hc) as (b & d & Hb & Hd & HR).
    rewrite Z2Nat.id in Hd by lia. rewrite Z.opp_involutive in Hd. exists d.
    destruct (bwd_bounds _ _ _ _ (first_at_valid r c b Hc Hb) (proj1 (proj2 Hb)) HR). auto.
Qed.

Lemma advance_tx_zero r c d :
  valid_cursor r c ->
  advance_tx r c 0 = Some d <->
  (c <= d <= Z.of_nat (length (events r)) /\ boundary (events r) d /\
   forall x, c <= x < d -> ~ boundary (events r) x).
Proof.
  intros Hc. destruct (advance_tx_fwd r c 0 Hc) as (d' & Hd & HR). change (Z.of_nat 0) with 0 in Hd.
  rewrite Hd. split.
  - intros E. injection E as <-. exact HR.
  - intros H. f_equal. eapply first_at_unique; eassumption.
Qed.

Lemma first_at_next es b d :
  b < Z.of_nat (length es) -> first_at es (b + 1) d <-> next_boundary es b d.
Proof.
  intros Hb. unfold first_at, next_boundary. split; intros (H1 & H2 & H3);
    (split; [lia|]; split; [exact H2|]; intros x Hx; apply H3; lia).
Qed.

Lemma advance_tx_one r b d :
  valid_cursor r b -> boundary (events r) b -> b < Z.of_nat (length (events r)) ->
  advance_tx r b 1 = Some d <-> next_boundary (events r) b d.
Proof.
  intros Hv B Hlt. destruct (advance_tx_fwd r b 1 Hv) as (d' & Hd & HR). change (Z.of_nat 1) with 1 in Hd. rewrite Hd.
  destruct HR as (m & Hm & Hs).
  assert (m = b) as ->.
  { eapply first_at_unique; [exact Hm|]. apply first_at_self; [exact Hv|exact B]. }
  destruct Hs as [[? ?]|[_ Hs]]; [lia|]. rewrite <- first_at_next by exact Hlt. split.
  - intros E. injection E as <-. exact Hs.
  - intros H. f_equal. eapply first_at_unique; eassumption.
Qed.

Lemma advance_tx_minus_one r b d :
  valid_cursor r b -> boundary (events r) b -> 0 < b ->
  advance_tx r b (-1) = Some d <-> prev_boundary (events r) b d.
Proof.
  intros Hv B Hlt. destruct (advance_tx_bwd r b 1 Hv) as (b' & d' & Hb' & Hd & HR). change (- Z.of_nat 1) with (-1) in Hd.
  rewrite Hd.
  assert (b' = b) as ->.
  { eapply first_at_unique; [exact Hb'|]. apply first_at_self; [exact Hv|exact B]. }
  destruct HR as (m & Hm & Hs). cbn in Hm. subst m.
  destruct Hs as [[? ?]|Hs]; [lia|]. split.
  - intros E. injection E as <-. exact Hs.
  - intros H. f_equal. eapply prev_boundary_unique; eassumption.
Qed.

Lemma advance_tx_plus r c n :
  valid_cursor r c -> 0 <= n ->
  exists d, advance_tx r c n = Some d /\ advance_tx r c (n + 1) = advance_tx r d 1.
Proof.
  intros Hc Hn. destruct (advance_tx_fwd r c (Z.to_nat n) Hc) as (d & Hd & HR).
  rewrite Z2Nat.id in Hd by lia. exists d. split; [exact Hd|].
  destruct (fwd_bounds _ _ _ _ Hc HR) as [B Hv].
  destruct (advance_tx_fwd r c (S (Z.to_nat n)) Hc) as (d1 & Hd1 & HR1).
  replace (Z.of_nat (S (Z.to_nat n))) with (n + 1) in Hd1 by lia. rewrite Hd1.
  destruct (advance_tx_fwd r d 1 Hv) as (d2 & Hd2 & HR2). change (Z.of_nat 1) with 1 in Hd2. rewrite Hd2. f_equal.
  destruct HR1 as (m & Hm & Hs). rewrite (fwd_unique _ _ _ _ _ Hm HR) in Hs.
  destruct HR2 as (m2 & Hm2 & Hs2). cbn in Hm2.
  rewrite (first_at_unique _ _ _ _ Hm2 (first_at_self _ _ Hv B)) in Hs2.
  eapply fstep_unique; eassumption.
Qed.

Lemma advance_tx_minus r c n :
  valid_cursor r c -> 0 <= n ->
  exists d, advance_tx r c (- n) = Some d /\ advance_tx r c (- (n + 1)) = advance_tx r d (-1).
Proof.
  intros Hc Hn. destruct (advance_tx_bwd r c (Z.to_nat n) Hc) as (b & d & Hb & Hd & HR).
  rewrite Z2Nat.id in Hd by lia. exists d. split; [exact Hd|].
  assert (Hvb := first_at_valid r c b Hc Hb).
  destruct (bwd_bounds _ _ _ _ Hvb (proj1 (proj2 Hb)) HR) as [B Hv].
  destruct (advance_tx_bwd r c (S (Z.to_nat n)) Hc) as (b1 & d1 & Hb1 & Hd1 & HR1).
  rewrite (first_at_unique _ _ _ _ Hb1 Hb) in *.
  replace (- Z.of_nat (S (Z.to_nat n))) with (- (n + 1)) in Hd1 by lia. rewrite Hd1.
  destruct (advance_tx_bwd r d 1 Hv) as (b2 & d2 & Hb2 & Hd2 & HR2). change (- Z.of_nat 1) with (-1) in Hd2. rewrite Hd2. f_equal.
  destruct HR1 as (m & Hm & Hs). rewrite (bwd_unique _ _ _ _ _ Hm HR) in Hs.
  rewrite (first_at_unique _ _ _ _ Hb2 (first_at_self _ _ Hv B)) in *.
  destruct HR2 as (m2 & Hm2 & Hs2). cbn in Hm2. subst m2.
  eapply bstep_unique; eassumption.
Qed.

Lemma advance_tx_stuck_end r n :
  0 <= n -> advance_tx r (Z.of_nat (length (events r))) n = Some (Z.of_nat (length (events r))).
Proof.
  intros Hn. set (L := Z.of_nat (length (events r))).
  assert (Hc : valid_cursor r L) by (unfold valid_cursor, L; lia).
  destruct (advance_tx_fwd r L (Z.to_nat n) Hc) as (d & Hd & HR).
  rewrite Z2Nat.id in Hd by lia. rewrite Hd. f_equal.
  assert (G : forall k, fwd (events r) k L L).
  { induction k as [|k IH].
    - apply first_at_self; [exact Hc|]. right. left. reflexivity.
    - exists L. split; [exact IH|]. left. split; reflexivity. }
  eapply fwd_unique; [exact HR|apply G].
Qed.

Lemma advance_tx_stuck_start r n : 0 <= n -> advance_tx r 0 (- n) = Some 0.
Proof.
  intros Hn. assert (Hc : valid_cursor r 0) by (unfold valid_cursor; lia).
  destruct (advance_tx_bwd r 0 (Z.to_nat n) Hc) as (b & d & Hb & Hd & HR).
  rewrite Z2Nat.id in Hd by lia. rewrite Hd. f_equal.
  rewrite (first_at_unique _ _ _ _ Hb (first_at_self _ _ Hc (or_introl eq_refl))) in HR.
  eapply bwd_unique; [exact HR|apply bwd_zero].
Qed.

(** There is always a next / previous boundary. *)
Lemma next_boundary_exists r b :
  valid_cursor r b -> boundary (events r) b -> b < Z.of_nat (length (events r)) ->
  exists d, next_boundary (events r) b d.
Proof.
  intros Hv B Hlt. destruct (advance_tx_lands r b 1 Hv) as (d & Hd & _).
  exists d. apply advance_tx_one in Hd; assumption.
Qed.

Lemma next_prev es b d :
  0 <= b -> boundary es b -> next_boundary es b d -> prev_boundary es d b.
Proof. intros H0 B (H1 & H2 & H3). split; [lia|]. split; [exact B|]. intros; apply H3; lia. Qed.

Lemma prev_next es b d :
  b <= Z.of_nat (length es) -> boundary es b -> prev_boundary es b d -> next_boundary es d b.
Proof. intros H0 B (H1 & H2 & H3). split; [lia|]. split; [exact B|]. intros; apply H3; lia. Qed.

Lemma advance_tx_forward_back r b :
  valid_cursor r b -> boundary (events r) b -> b < Z.of_nat (length (events r)) ->
  exists d, advance_tx r b 1 = Some d /\ advance_tx r d (-1) = Some b.
Proof.
  intros Hv B Hlt. destruct (next_boundary_exists r b Hv B Hlt) as [d Hd].
  exists d. split; [apply advance_tx_one; assumption|].
  pose proof Hd as (H1 & H2 & _). unfold valid_cursor in Hv.
  apply advance_tx_minus_one; [unfold valid_cursor; lia|exact H2|lia|].
  apply next_prev; [lia|exact B|exact Hd].
Qed.

Lemma advance_tx_back_forward r b :
  valid_cursor r b -> boundary (events r) b -> 0 < b ->
  exists d, advance_tx r b (-1) = Some d /\ advance_tx r d 1 = Some b.
Proof.
  intros Hv B Hlt. destruct (advance_tx_lands r b (-1) Hv) as (d & Hd & Hvd & Bd).
  exists d. split; [exact Hd|]. apply advance_tx_minus_one in Hd; [|assumption..].
  unfold valid_cursor in *.
  apply advance_tx_one; [unfold valid_cursor; lia|exact Bd|destruct Hd; lia|].
  apply prev_next; [lia|exact B|exact Hd].
Qed.

(** ** The latest transaction *)

Lemma slice_spec {A} (l : list A) a b :
  0 <= a <= b -> b <= Z.of_nat (length l) ->
  exists pre seg post, l = pre ++ seg ++ post /\ Z.of_nat (length pre) = a /\
    Z.of_nat (length pre + length seg) = b /\ slice l a b = Some seg.
Proof.
  intros H1 H2. exists (take (Z.to_nat a) l), (take (Z.to_nat (b - a)) (drop (Z.to_nat a) l)),
    (drop (Z.to_nat (b - a)) (drop (Z.to_nat a) l)).
  rewrite !take_drop, !take_length, drop_length.
  split; [reflexivity|]. split; [lia|]. split; [lia|]. unfold slice.
  destruct (_ && _)%bool eqn:E; [reflexivity|lia].
Qed.

Lemma T_run es a b :
  0 <= a -> b <= Z.of_nat (length es) -> (forall x, a < x < b -> ~ boundary es x) ->
  forall x, a < x <= b -> T es x = T es (a + 1).
Proof.
  intros H1 H2 H3 x Hx. assert (exists k, x = a + 1 + Z.of_nat k) as [k ->].
  { exists (Z.to_nat (x - a - 1)). lia. }
  revert Hx. induction k as [|k IH]; intros Hx.
  - f_equal. lia.
  - rewrite <- IH by lia. destruct (decide (T es (a + 1 + Z.of_nat (S k)) = T es (a + 1 + Z.of_nat k))) as [E|E]; [exact E|].
    exfalso. apply (H3 (a + 1 + Z.of_nat k)); [lia|]. apply boundary_T; [lia|]. right. split; [lia|].
    intros Hx'. apply E. rewrite Hx'. f_equal. lia.
Qed.

Lemma tx_events_spec r c :
  valid_cursor r c -> 0 < c ->
  exists start seg, tx_events_before_cursor r c = Some (Some (start + 1, seg)) /\
                    latest_run (events r) c start seg.
Proof.
  intros Hc Hpos. unfold tx_events_before_cursor.
  destruct (advance_tx_bwd r c 1 Hc) as (b & d & Hb & Hd & HR). change (- Z.of_nat 1) with (-1) in Hd. rewrite Hd.
  destruct HR as (m & Hm & Hs). cbn in Hm. subst m.
  destruct Hs as [[-> ->]|Hs]; [destruct Hb; lia|].
  destruct Hb as (Hb1 & Hb2 & Hb3). destruct Hs as (Hs1 & Hs2 & Hs3).
  unfold valid_cursor in Hc.
  assert (Hdc : d < c).
  { destruct (Z_lt_dec d c) as [?|?]; [assumption|]. exfalso. apply (Hb3 d); [lia|exact Hs2]. }
  destruct (slice_spec (events r) d c) as (pre & seg & post & E & L1 & L2 & Hsl); [lia|lia|].
  rewrite Hsl. destruct seg as [|e0 seg]; [cbn in L2; lia|].
  exists d, (e0 :: seg). split; [reflexivity|].
  exists pre, post, (event_tx e0). split; [exact E|]. split; [exact L1|]. split; [exact L2|].
  split; [discriminate|].
  assert (NT : forall k e, nth_error (e0 :: seg) k = Some e -> T (events r) (d + 1 + Z.of_nat k) = Some (event_tx e)).
  { intros k e Hk. unfold T. destruct (Z.eqb_spec (d + 1 + Z.of_nat k) 0); [lia|].
    replace (Z.to_nat (d + 1 + Z.of_nat k - 1)) with (length pre + k)%nat by lia.
    rewrite E, nth_error_app2 by lia. replace (length pre + k - length pre)%nat with k by lia.
    rewrite nth_error_app1; [rewrite Hk; reflexivity|]. apply nth_error_Some. congruence. }
  split.
  - intros e He. apply elem_of_list_In, In_nth_error in He. destruct He as [k Hk].
    assert (k < length (e0 :: seg))%nat by (apply nth_error_Some; congruence).
    pose proof (NT k e Hk) as Te. pose proof (NT 0%nat e0 eq_refl) as T0.
    rewrite (T_run (events r) d b) in Te; [|lia|lia|intros; apply Hs3; lia|lia].
    replace (d + 1 + Z.of_nat 0) with (d + 1) in T0 by lia. congruence.
  - intros e He Et. destruct pre as [|x pre _] using rev_ind; [discriminate|].
    rewrite last_snoc in He. injection He as ->.
    rewrite app_length in L1. cbn in L1.
    apply boundary_T in Hs2; [|lia]. destruct Hs2 as [?|[_ Hne]]; [lia|]. apply Hne.
    pose proof (NT 0%nat e0 eq_refl) as T0. replace (d + 1 + Z.of_nat 0) with (d + 1) in T0 by lia.
    rewrite T0. unfold T. destruct (Z.eqb_spec d 0); [lia|].
    rewrite E, <- app_assoc. rewrite nth_error_app2 by lia.
    replace (Z.to_nat (d - 1) - length pre)%nat with 0%nat by lia. cbn. congruence.
Qed.

Lemma tx_events_start r : tx_events_before_cursor r 0 = Some None.
Proof.
  unfold tx_events_before_cursor. change (-1) with (- (1)). rewrite advance_tx_stuck_start by lia.
  unfold slice. cbn.
  destruct (0 <=? Z.of_nat (length (events r))) eqn:E; [reflexivity|lia].
Qed.

Lemma latest_run_unique es c s seg s' seg' :
  latest_run es c s seg -> latest_run es c s' seg' -> s = s' /\ seg = seg'.
Proof.
  assert (X : forall s seg s' seg', latest_run es c s seg -> latest_run es c s' seg' -> ~ s < s').
  { clear. intros s seg s' seg' (pre & post & t & E & L1 & L2 & Hne & Hs & Hp)
      (pre' & post' & t' & E' & L1' & L2' & Hne' & Hs' & Hp') Hlt.
    (* the event just before s' is in seg and is the last of pre' *)
    destruct pre' as [|x pre' _] using rev_ind; [cbn in L1'; lia|].
    rewrite app_length in L1'. cbn in L1'.
    apply (Hp' x); [apply last_snoc|].
    assert (Hx : nth_error es (length pre') = Some x).
    { rewrite E', <- app_assoc, nth_error_app2 by lia. rewrite Nat.sub_diag. reflexivity. }
    destruct seg' as [|y seg']; [done|].
    assert (Hy : nth_error es (S (length pre')) = Some y).
    { rewrite E', nth_error_app2 by (rewrite app_length; cbn; lia).
      replace (S (length pre') - length (pre' ++ [x]))%nat with 0%nat by (rewrite app_length; cbn; lia).
      reflexivity. }
    rewrite app_length in L2'. cbn in L2'.
    assert (Ix : x ∈ seg).
    { rewrite E, nth_error_app2 in Hx by lia. rewrite nth_error_app1 in Hx by lia.
      apply elem_of_list_In. eapply nth_error_In. exact Hx. }
    assert (Iy : y ∈ seg).
    { rewrite E, nth_error_app2 in Hy by lia. rewrite nth_error_app1 in Hy by lia.
      apply elem_of_list_In. eapply nth_error_In. exact Hy. }
    rewrite (Hs x Ix). rewrite <- (Hs y Iy). apply Hs'. constructor. }
  intros H H'. assert (s = s').
  { pose proof (X _ _ _ _ H H'). pose proof (X _ _ _ _ H' H). lia. }
  subst s'. split; [reflexivity|].
  destruct H as (pre & post & t & E & L1 & L2 & _). destruct H' as (pre' & post' & t' & E' & L1' & L2' & _).
  rewrite E in E'. apply app_inj_1 in E'; [|lia]. destruct E' as [_ E'].
  apply app_inj_1 in E'; [|lia]. apply E'.
Qed.
