(** Proofs about the lookup of rewritten commits. *)
From Verif Require Import Base TextModel TextProofs EventLogModel EventLogSpec EventLogProofs
  EventLogNavProofs EventLogRefProofs EvolveModel EvolveSpec.
From Coq Require Import ZifyBool ZifyNat.
Local Open Scope Z_scope.

(** The last event about a commit, with its position. *)
Definition last_at (es : list event) (o : oid) (e : event) (p : nat) : Prop :=
  exists before after, es = before ++ e :: after /\ concerns e o /\
    (forall e', e' ∈ after -> ~ concerns e' o) /\ length before = p.

Lemma last_at_concerning es o e : last_concerning es o e <-> exists p, last_at es o e p.
Proof.
  split.
  - intros (b & a & H1 & H2 & H3). exists (length b), b, a. auto.
  - intros (p & b & a & H1 & H2 & H3 & _). exists b, a. auto.
Qed.

Lemma last_at_lookup es o e p : last_at es o e p -> es !! p = Some e.
Proof.
  intros (b & a & -> & _ & _ & <-). rewrite lookup_app_r by lia. rewrite Nat.sub_diag. reflexivity.
Qed.

Lemma last_at_ge es o e p q e' : last_at es o e p -> es !! q = Some e' -> concerns e' o -> (q <= p)%nat.
Proof.
  intros (b & a & -> & _ & N & <-) Hq C. destruct (Nat.le_gt_cases q (length b)) as [H|H]; [exact H|].
  exfalso. apply (N e'); [|exact C]. rewrite lookup_app_r in Hq by lia.
  destruct (q - length b)%nat as [|k] eqn:E; [lia|]. cbn in Hq. eapply elem_of_list_lookup_2. exact Hq.
Qed.

(** Following a rewrite leads to a later event. *)
Lemma rewrite_later es o x new p q ts tx ts' tx' :
  last_at es o (RewriteEvent ts tx (NonZero o) (NonZero x)) p -> x <> o ->
  last_at es x (RewriteEvent ts' tx' (NonZero x) new) q -> (p < q)%nat.
Proof.
  intros Hp Hne Hq.
  assert (p <= q)%nat.
  { eapply last_at_ge; [exact Hq|eapply last_at_lookup; exact Hp|]. left. reflexivity. }
  destruct (decide (p = q)) as [->|]; [|lia].
  apply last_at_lookup in Hp, Hq. rewrite Hp in Hq. injection Hq as _ _ E _. congruence.
Qed.

Lemma rewritten_at es o new : rewritten es o new <->
  new <> NonZero o /\ exists ts tx p, last_at es o (RewriteEvent ts tx (NonZero o) new) p.
Proof.
  unfold rewritten. setoid_rewrite last_at_concerning. split.
  - intros (ts & tx & (p & H) & Hne). split; eauto.
  - intros (Hne & ts & tx & p & H). exists ts, tx. eauto.
Qed.

Lemma rewritten_unique es o a b : rewritten es o a -> rewritten es o b -> a = b.
Proof.
  intros (ts & tx & H & _) (ts' & tx' & H' & _).
  pose proof (last_concerning_unique _ _ _ _ H H') as E. congruence.
Qed.

(** What one step of the lookup sees. *)
Lemma latest_rewrite r c o :
  replay_inv r -> valid_cursor r c ->
  (exists new, rewritten (upto (events r) c) o new /\
     exists ts tx, latest_event r c o = Some (RewriteEvent ts tx (NonZero o) new) /\ new <> NonZero o) \/
  ((forall new, ~ rewritten (upto (events r) c) o new) /\
     match latest_event r c o with
     | Some (RewriteEvent _ _ (NonZero old) new) => N.eqb old o && negb (bool_decide (new = NonZero o)) = false
     | _ => True
     end).
Proof.
  intros Hi Hc. destruct (latest_event r c o) as [e|] eqn:E.
  2: { right. split; [|exact I]. intros new (ts & tx & H & _).
       apply (latest_event_spec r c o _ Hi Hc) in H. congruence. }
  destruct (match e with RewriteEvent _ _ (NonZero old) new =>
      N.eqb old o && negb (bool_decide (new = NonZero o)) | _ => false end) eqn:B.
  - destruct e as [ts tx [|old] new| | | | |]; try discriminate.
    apply andb_true_iff in B. destruct B as [B1 B2]. apply N.eqb_eq in B1. subst old.
    apply negb_true_iff, bool_decide_eq_false in B2.
    left. exists new. split; [|eauto]. exists ts, tx. split; [|exact B2].
    apply (latest_event_spec r c o _ Hi Hc). exact E.
  - right. split.
    + intros new (ts & tx & H & Hne). apply (latest_event_spec r c o _ Hi Hc) in H.
      rewrite E in H. injection H as ->. cbn in B. rewrite N.eqb_refl in B. cbn in B.
      rewrite negb_false_iff, bool_decide_eq_true in B. done.
    + destruct e as [ts tx [|old] new| | | | |]; try exact I. exact B.
Qed.

Lemma upto_length es c : (length (upto es c) <= length es)%nat.
Proof. unfold upto. rewrite take_length. lia. Qed.

Lemma find_rewrite_spec_fuel r c : replay_inv r -> valid_cursor r c ->
  forall fuel o,
  (forall p ts tx new, new <> NonZero o ->
     last_at (upto (events r) c) o (RewriteEvent ts tx (NonZero o) new) p ->
     (length (upto (events r) c) < p + fuel)%nat) ->
  (1 <= fuel)%nat ->
  exists res, find_rewrite_target_fuel fuel r c o = Some res /\
    match res with
    | None => forall new, ~ rewritten (upto (events r) c) o new
    | Some m => chain_end (upto (events r) c) o m
    end.
Proof.
  intros Hi Hc fuel. induction fuel as [|fuel IH]; intros o Hf H1; [lia|].
  cbn [find_rewrite_target_fuel].
  destruct (latest_rewrite r c o Hi Hc) as [(new & Hr & ts & tx & -> & Hne)|[N M]].
  - rewrite N.eqb_refl, bool_decide_eq_false_2 by exact Hne. cbn [andb negb].
    destruct new as [|x].
    + eexists. split; [reflexivity|]. constructor. exact Hr.
    + assert (x <> o) by congruence.
      pose proof Hr as (_ & ts1 & tx1 & p & Hp)%rewritten_at.
      pose proof (last_at_lookup _ _ _ _ Hp) as Hl. apply lookup_lt_Some in Hl.
      pose proof (Hf _ _ _ _ Hne Hp) as Hfp.
      destruct (IH x) as (res & -> & Hres).
      * intros q ts' tx' new Hne' Hq. assert (p < q)%nat by (eapply rewrite_later; eassumption). lia.
      * lia.
      * destruct res as [m|].
        -- eexists. split; [reflexivity|]. eapply chain_step; eassumption.
        -- eexists. split; [reflexivity|]. eapply chain_last; eassumption.
  - exists None. split; [|exact N].
    destruct (latest_event r c o) as [[ts tx [|old] new| | | | |]|]; try reflexivity.
    rewrite M. reflexivity.
Qed.

Lemma find_rewrite_target_spec r c o : replay_inv r -> valid_cursor r c ->
  exists res, find_rewrite_target r c o = Some res /\
    match res with
    | None => forall new, ~ rewritten (upto (events r) c) o new
    | Some m => chain_end (upto (events r) c) o m
    end.
Proof.
  intros Hi Hc. apply find_rewrite_spec_fuel; [exact Hi|exact Hc| |lia].
  intros p ts tx new _ H. pose proof (upto_length (events r) c). lia.
Qed.

Lemma chain_end_unique es o a b : chain_end es o a -> chain_end es o b -> a = b.
Proof.
  intros Ha. revert b. induction Ha as [o H|o x H N|o x m H Hc IH]; intros b Hb;
    destruct Hb as [o H'|o x' H' N'|o x' m' H' Hc'];
    pose proof (rewritten_unique _ _ _ _ H H') as E; try discriminate; try congruence.
  - injection E as <-. exfalso. destruct Hc'; eapply N; eassumption.
  - injection E as <-. exfalso. destruct Hc; eapply N'; eassumption.
  - injection E as <-. auto.
Qed.

(** Along a chain the last events get later, so it never comes back. *)
Lemma chain_end_later es o m : chain_end es o m -> forall p ts tx new,
  last_at es o (RewriteEvent ts tx (NonZero o) new) p ->
  forall x, m = NonZero x -> forall q e, last_at es x e q -> (p <= q)%nat.
Proof.
  intros H. induction H as [o H|o x H N|o x m H Hc IH]; intros p ts tx new Hp y E q e Hq.
  - discriminate.
  - injection E as <-.
    apply rewritten_at in H. destruct H as (Hne & ts' & tx' & p' & Hp').
    eapply last_at_ge; [exact Hq|eapply last_at_lookup; exact Hp|].
    assert (new = NonZero x) as ->.
    { assert (L : last_concerning es o (RewriteEvent ts tx (NonZero o) new)) by (apply last_at_concerning; eauto).
      assert (L' : last_concerning es o (RewriteEvent ts' tx' (NonZero o) (NonZero x))) by (apply last_at_concerning; eauto).
      pose proof (last_concerning_unique _ _ _ _ L L'). congruence. }
    left. reflexivity.
  - assert (Hx : exists new', rewritten es x new') by (destruct Hc; eauto).
    destruct Hx as (new' & (Hne' & ts' & tx' & p' & Hp')%rewritten_at).
    pose proof H as (Hne & ts2 & tx2 & p2 & Hp2)%rewritten_at.
    assert (p < p')%nat.
    { assert (p2 < p')%nat by (eapply rewrite_later; [exact Hp2| |exact Hp']; congruence).
      assert (p <= p2)%nat; [|lia].
      eapply last_at_ge; [exact Hp2|eapply last_at_lookup; exact Hp|]. right. reflexivity. }
    pose proof (IH p' ts' tx' new' Hp' y E q e Hq). lia.
Qed.

Lemma chain_end_not_self es o : ~ chain_end es o (NonZero o).
Proof.
  intros H. inversion H as [| ? ? Hr N|? x ? Hr Hc]; subst.
  - destruct Hr as (? & ? & ? & Hne). done.
  - assert (Hx : exists new', rewritten es x new') by (destruct Hc; eauto).
    destruct Hx as (new' & (Hne' & ts' & tx' & p' & Hp')%rewritten_at).
    apply rewritten_at in Hr. destruct Hr as (Hne & ts2 & tx2 & p2 & Hp2).
    assert (p2 < p')%nat by (eapply rewrite_later; [exact Hp2| |exact Hp']; congruence).
    pose proof (chain_end_later _ _ _ Hc _ _ _ _ Hp' o eq_refl _ _ Hp2). lia.
Qed.

(** Whatever the answer, it is not itself rewritten. *)
Lemma chain_end_final es o x : chain_end es o (NonZero x) -> forall new, ~ rewritten es x new.
Proof.
  intros H. remember (NonZero x) as m eqn:E. induction H as [o H|o y H N|o y m H Hc IH].
  - discriminate.
  - injection E as ->. exact N.
  - exact (IH E).
Qed.

(** A chain end is visible (or was only mentioned as hidden by other means). *)
Lemma find_rewrite_none r c o : replay_inv r -> valid_cursor r c ->
  find_rewrite_target r c o = Some None <-> forall new, ~ rewritten (upto (events r) c) o new.
Proof.
  intros Hi Hc. destruct (find_rewrite_target_spec r c o Hi Hc) as (res & -> & H). split.
  - intros E. injection E as ->. exact H.
  - intros N. destruct res as [m|]; [|reflexivity]. exfalso. destruct H; eapply N; eassumption.
Qed.

Lemma find_rewrite_some r c o m : replay_inv r -> valid_cursor r c ->
  find_rewrite_target r c o = Some (Some m) <-> chain_end (upto (events r) c) o m.
Proof.
  intros Hi Hc. destruct (find_rewrite_target_spec r c o Hi Hc) as (res & -> & H). split.
  - intros E. injection E as ->. exact H.
  - intros Hm. destruct res as [m'|].
    + rewrite (chain_end_unique _ _ _ _ H Hm). reflexivity.
    + exfalso. destruct Hm; eapply H; eassumption.
Qed.

(** More fuel never changes the answer. *)
Lemma find_rewrite_fuel_mono r c fuel fuel' o res :
  find_rewrite_target_fuel fuel r c o = Some res -> (fuel <= fuel')%nat ->
  find_rewrite_target_fuel fuel' r c o = Some res.
Proof.
  revert fuel' o res. induction fuel as [|fuel IH]; intros fuel' o res H Hle; [discriminate|].
  destruct fuel' as [|fuel']; [lia|]. cbn in *.
  destruct (latest_event r c o) as [[ts tx [|old] new| | | | |]|]; try exact H.
  destruct (_ && _); [|exact H]. destruct new as [|x]; [exact H|].
  destruct (find_rewrite_target_fuel fuel r c x) as [res'|] eqn:E; [|discriminate].
  rewrite (IH fuel' x res' E) by lia. exact H.
Qed.
