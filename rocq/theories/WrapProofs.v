(** Proofs about wrapped commands. *)
From Verif Require Import Base TextModel TextProofs EventLogModel EventLogSpec EventLogProofs EventLogNavProofs EventLogRefProofs WrapModel WrapSpec.
Local Open Scope list_scope.

(** Inside a transaction [t] all programs get it. *)
Lemma inherited t m d : txid_from_string (txid_to_string t) = Some t -> make_transaction_id (Some (txid_to_string t)) m d = (t, d).
Proof. intros H. unfold make_transaction_id. now rewrite H. Qed.

Lemma none_storable (l : list event) : (forall e, e ∈ l -> event_tx e = TxSuppressed) -> filter storable l = [].
Proof.
  induction l as [|e l IH]; intros H; [reflexivity|]. rewrite filter_cons_False.
  - apply IH. intros e' He. apply H. now right.
  - intros Hs. apply Hs. apply H. now left.
Qed.
Lemma all_storable (l : list event) t : t <> TxSuppressed -> (forall e, e ∈ l -> event_tx e = t) -> filter storable l = l.
Proof.
  intros Ht. induction l as [|e l IH]; intros H; [reflexivity|]. rewrite filter_cons_True.
  - f_equal. apply IH. intros e' He. apply H. now right.
  - unfold storable. rewrite (H e ltac:(left)). exact Ht.
Qed.

Lemma added d stored fault es d' : get_events d = Some stored -> (forall e, e ∈ es -> event_ok e) ->
  fst (add_events (fun _ => false) fault d es) = d' ->
  get_events d' = Some (stored ++ if fault then [] else filter storable es) /\ tx_seq d' = tx_seq d /\ tx_table d' = tx_table d.
Proof.
  intros Hg Ho <-. unfold add_events. destruct (insert_rows_no_fault es 0 (db_rows d)) as [rows E]. rewrite E.
  destruct fault; cbn [fst tx_seq tx_table]; [rewrite app_nil_r; auto|]. split_and!; auto. exact (insert_rows_spec _ _ _ _ _ _ Ho Hg E).
Qed.

(** Nothing is recorded of a suppressed transaction. *)
Lemma run_suppressed s : forall d stored, tidy s -> alone s -> get_events d = Some stored ->
  get_events (run_script (Some (txid_to_string TxSuppressed)) TxSuppressed s d) = Some stored /\
  tx_seq (run_script (Some (txid_to_string TxSuppressed)) TxSuppressed s d) = tx_seq d /\
  tx_table (run_script (Some (txid_to_string TxSuppressed)) TxSuppressed s d) = tx_table d.
Proof.
  induction s as [|fault es rest IH|p m child IHc rest IHr|m other _ rest _]; intros d stored W A H; cbn [run_script tidy alone] in *.
  - auto.
  - destruct W as [W1 W2]. destruct (added d stored fault (es TxSuppressed) _ H ltac:(intros e He; now apply (W1 TxSuppressed)) eq_refl) as (E1 & E2 & E3).
    rewrite none_storable in E1 by (intros e He; now apply (W1 TxSuppressed)). replace (if fault then [] else []) with (@nil event) in E1 by now destruct fault.
    rewrite app_nil_r in E1. destruct (IH _ _ W2 A E1) as (B1 & B2 & B3). split_and!; [exact B1|congruence|congruence].
  - destruct W as [W1 W2], A as [A1 A2].
    replace (match p with Inherits => Some (txid_to_string TxSuppressed) | OwnTx => Some (txid_to_string TxSuppressed)
             | Suppresses => Some (txid_to_string TxSuppressed) end) with (Some (txid_to_string TxSuppressed)) by now destruct p.
    rewrite inherited by reflexivity. destruct (IHc d stored W1 A1 H) as (B1 & B2 & B3). destruct (IHr _ _ W2 A2 B1) as (C1 & C2 & C3).
    split_and!; [exact C1|congruence|congruence].
  - destruct A.
Qed.

Lemma run_inside t s : t <> TxSuppressed -> txid_from_string (txid_to_string t) = Some t -> forall d stored, tidy s -> alone s -> get_events d = Some stored ->
  get_events (run_script (Some (txid_to_string t)) t s d) = Some (stored ++ says t s) /\
  tx_seq (run_script (Some (txid_to_string t)) t s d) = tx_seq d /\ tx_table (run_script (Some (txid_to_string t)) t s d) = tx_table d.
Proof.
  intros Ht Hr. induction s as [|fault es rest IH|p m child IHc rest IHr|m other _ rest _]; intros d stored W A H; cbn [run_script tidy alone says] in *.
  - rewrite app_nil_r. auto.
  - destruct W as [W1 W2]. destruct (added d stored fault (es t) _ H ltac:(intros e He; now apply (W1 t)) eq_refl) as (E1 & E2 & E3).
    rewrite (all_storable _ t Ht) in E1 by (intros e He; now apply (W1 t)).
    destruct (IH _ _ W2 A E1) as (B1 & B2 & B3). rewrite app_assoc. split_and!; [exact B1|congruence|congruence].
  - destruct W as [W1 W2], A as [A1 A2]. destruct p; cbv iota zeta.
    + rewrite inherited by exact Hr. destruct (IHc d stored W1 A1 H) as (B1 & B2 & B3). destruct (IHr _ _ W2 A2 B1) as (C1 & C2 & C3).
      rewrite app_assoc. split_and!; [exact C1|congruence|congruence].
    + rewrite inherited by exact Hr. destruct (IHc d stored W1 A1 H) as (B1 & B2 & B3). destruct (IHr _ _ W2 A2 B1) as (C1 & C2 & C3).
      rewrite app_assoc. split_and!; [exact C1|congruence|congruence].
    + rewrite inherited by reflexivity. destruct (run_suppressed child d stored W1 A1 H) as (B1 & B2 & B3).
      destruct (IHr _ _ W2 A2 B1) as (C1 & C2 & C3). split_and!; [exact C1|congruence|congruence].
  - destruct A.
Qed.

Lemma hooks_inside t hooks : t <> TxSuppressed -> txid_from_string (txid_to_string t) = Some t -> forall d stored,
  Forall (fun h => tidy (snd h) /\ alone (snd h)) hooks -> get_events d = Some stored ->
  get_events (run_hooks (Some (txid_to_string t)) hooks d) = Some (stored ++ hooks_say t hooks) /\
  tx_table (run_hooks (Some (txid_to_string t)) hooks d) = tx_table d.
Proof.
  intros Ht Hr. induction hooks as [|[m s] hooks IH]; intros d stored F H; unfold run_hooks, hooks_say in *; cbn [fold_left List.map List.concat fst snd].
  - rewrite app_nil_r. auto.
  - apply Forall_cons in F. destruct F as [[W A] F]. cbn [snd] in W, A. rewrite inherited by exact Hr.
    destruct (run_inside t s Ht Hr d stored W A H) as (B1 & _ & B3). destruct (IH _ _ F B1) as (C1 & C2).
    rewrite app_assoc. split; [exact C1|congruence].
Qed.

Lemma said_tx t s e : tidy s -> e ∈ says t s -> event_tx e = t.
Proof.
  induction s as [|fault es rest IH|p m child IHc rest IHr|m other _ rest IH]; cbn [tidy says]; intros W H.
  - now apply elem_of_nil in H.
  - apply elem_of_app in H. destruct H as [H|H]; [|now apply IH]. destruct fault; [now apply elem_of_nil in H|]. now apply (proj1 W t).
  - destruct p; try (apply elem_of_app in H; destruct H as [H|H]); [now apply IHc|now apply IHr|now apply IHc|now apply IHr|now apply IHr].
  - now apply IH.
Qed.
Lemma hooks_tx t hooks e : Forall (fun h => tidy (snd h) /\ alone (snd h)) hooks -> e ∈ hooks_say t hooks -> event_tx e = t.
Proof.
  intros F H. unfold hooks_say in H. apply elem_of_list_In, in_concat in H. destruct H as (l & Hl & He). apply in_map_iff in Hl.
  destruct Hl as (h & <- & Hh). rewrite list.Forall_forall in F. destruct (F h ltac:(now apply elem_of_list_In)) as [W _].
  eapply said_tx; [exact W|]. now apply elem_of_list_In.
Qed.

(** ** Going back by one step *)
Local Open Scope Z_scope.
Lemma fixed_tx r e : event_tx (fix_old_oid r e) = event_tx e.
Proof. destruct e as [| ? ? ? [|] [|] ?| | | |]; reflexivity. Qed.
Lemma replay_more main l1 l2 t : (forall e, e ∈ l2 -> event_tx e = t) ->
  exists ext, events (replay main (l1 ++ l2)) = events (replay main l1) ++ ext /\ forall e, e ∈ ext -> event_tx e = t.
Proof.
  induction l2 as [|e l2 IH] using rev_ind; intros H.
  - rewrite app_nil_r. exists []. rewrite app_nil_r. split; [reflexivity|]. intros e He. now apply elem_of_nil in He.
  - rewrite app_assoc, replay_snoc. destruct IH as (ext & E & X). { intros x Hx. apply H. apply elem_of_app. auto. }
    destruct (process_event_events (replay main (l1 ++ l2)) e) as [->| ->]; rewrite E; [eauto|].
    eexists. split; [now rewrite <- app_assoc|]. intros x Hx. apply elem_of_app in Hx. destruct Hx as [Hx|Hx]; [auto|].
    apply elem_of_list_singleton in Hx. subst x. rewrite fixed_tx. apply H. apply elem_of_app. right. left.
Qed.
Lemma replayed_tx main l e : e ∈ events (replay main l) -> exists e', e' ∈ l /\ event_tx e' = event_tx e.
Proof.
  induction l as [|x l IH] using rev_ind; intros H; [now apply elem_of_nil in H|]. rewrite replay_snoc in H.
  assert (L : e ∈ events (replay main l) -> exists e', e' ∈ l ++ [x] /\ event_tx e' = event_tx e).
  { intros Hl. destruct (IH Hl) as (e' & He & Et). exists e'. split; [apply elem_of_app; auto|exact Et]. }
  destruct (process_event_events (replay main l) x) as [E|E]; rewrite E in H; [auto|].
  apply elem_of_app in H. destruct H as [H|H]; [auto|]. apply elem_of_list_singleton in H. subst e. exists x.
  split; [apply elem_of_app; right; left|]. symmetry. apply fixed_tx.
Qed.

Lemma nth_T (es : list event) c : 0 < c <= Z.of_nat (length es) -> exists e, e ∈ es /\ T es c = Some (event_tx e) /\
  nth_error es (Z.to_nat (c - 1)) = Some e.
Proof.
  intros H. destruct (T_pos es c H) as (e & E & ET). exists e. split; [|auto]. apply nth_error_In in E. now apply elem_of_list_In.
Qed.
Lemma one_back (r : replayer) (old ext : list event) t : events r = old ++ ext -> ext <> [] ->
  (forall e, e ∈ ext -> event_tx e = t) -> (forall e, e ∈ old -> event_tx e <> t) ->
  advance_tx r (default_cursor r) (-1) = Some (Z.of_nat (length old)).
Proof.
  intros E Hne Hx Ho. rewrite default_cursor_spec.
  assert (L : length (events r) = (length old + length ext)%nat) by now rewrite E, app_length.
  assert (Hp : (0 < length ext)%nat) by (destruct ext; [congruence|cbn; lia]).
  assert (TE : forall c, Z.of_nat (length old) < c <= Z.of_nat (length (events r)) -> T (events r) c = Some t).
  { intros c Hc. destruct (nth_T (events r) c ltac:(lia)) as (e & _ & -> & N). f_equal. rewrite E in N. rewrite nth_error_app2 in N by lia.
    apply nth_error_In in N. apply Hx. now apply elem_of_list_In. }
  assert (Bd : boundary (events r) (Z.of_nat (length old))).
  { apply boundary_T; [lia|]. right. split; [lia|]. rewrite (TE (Z.of_nat (length old) + 1)) by lia.
    destruct (Z.eq_dec (Z.of_nat (length old)) 0) as [Z0|Z0]; [rewrite Z0; discriminate|].
    destruct (nth_T (events r) (Z.of_nat (length old)) ltac:(lia)) as (e & _ & -> & N). rewrite E in N. rewrite nth_error_app1 in N by lia.
    apply nth_error_In in N. intros [= X]. apply (Ho e); [now apply elem_of_list_In|exact X]. }
  apply advance_tx_minus_one.
  - unfold valid_cursor. lia.
  - right. left. reflexivity.
  - lia.
  - split; [lia|]. split; [exact Bd|]. intros x Hxx Hb. apply boundary_T in Hb; [|lia]. destruct Hb as [Hb|[_ Hb]]; [lia|].
    apply Hb. rewrite !TE by lia. reflexivity.
Qed.
