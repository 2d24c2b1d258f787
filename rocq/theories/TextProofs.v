(** Round trips of the text forms of object ids and transaction ids. *)
From Verif Require Import Base TextModel.
From Coq Require Import DecimalString DecimalFacts DecimalPos DecimalZ ZifyBool ZifyN ZifyNat.
Local Open Scope N_scope.

Lemma unhex_hex d : d < 16 -> unhex (hex_char d) = Some d.
Proof.
  intros H.
  assert (E : In d (List.map N.of_nat (seq 0 16))).
  { apply in_map_iff. exists (N.to_nat d). split; [lia|]. apply in_seq. lia. }
  cbn in E.
  repeat destruct E as [E|E]; subst; try reflexivity; contradiction.
Qed.

Lemma unhex_all_map ds :
  Forall (fun d => d < 16) ds -> unhex_all (List.map hex_char ds) = Some ds.
Proof.
  induction 1 as [|d ds Hd _ IH]; [reflexivity|]. cbn [List.map unhex_all].
  rewrite unhex_hex by assumption. rewrite IH. reflexivity.
Qed.

Lemma hex_digits_length w n : length (hex_digits w n) = w.
Proof.
  revert n. induction w as [|w IH]; intros n; [reflexivity|].
  cbn [hex_digits]. rewrite app_length, IH. cbn. lia.
Qed.

Lemma hex_digits_small w n : Forall (fun d => d < 16) (hex_digits w n).
Proof.
  revert n. induction w as [|w IH]; intros n; [constructor|].
  cbn [hex_digits]. apply Forall_app. split; [apply IH|].
  repeat constructor. apply N.mod_lt. lia.
Qed.

Lemma hex_digits_value w n :
  fold_left (fun acc d => acc * 16 + d) (hex_digits w n) 0 = n mod 16 ^ N.of_nat w.
Proof.
  revert n. induction w as [|w IH]; intros n.
  - cbn. rewrite N.mod_1_r. reflexivity.
  - cbn [hex_digits]. rewrite fold_left_app, IH. cbn [fold_left].
    rewrite Nat2N.inj_succ, N.pow_succ_r by lia.
    rewrite N.mod_mul_r by (try apply N.pow_nonzero; lia).
    lia.
Qed.

Lemma oid_text_round_trip n : n < oid_limit -> git_oid_from_str (oid_to_string n) = Some n.
Proof.
  intros H. unfold git_oid_from_str, oid_to_string, list_of_string, string_of_list.
  rewrite list_ascii_of_string_of_list_ascii.
  rewrite unhex_all_map by apply hex_digits_small.
  rewrite map_length, hex_digits_length, hex_digits_value.
  change (Nat.leb 1 40 && Nat.leb 40 40)%bool with true. cbv iota.
  change (N.of_nat (40 - 40)) with 0. rewrite N.pow_0_r, N.mul_1_r.
  rewrite N.mod_small; [reflexivity|].
  unfold oid_limit in H. change (16 ^ N.of_nat 40) with (2 ^ 160). exact H.
Qed.

Lemma moid_text_round_trip m : moid_ok m -> moid_from_string (moid_to_string m) = Some m.
Proof.
  intros H. unfold moid_from_string, moid_to_string. destruct m as [|o].
  - rewrite oid_text_round_trip by reflexivity. reflexivity.
  - destruct H as [H1 H2]. rewrite oid_text_round_trip by assumption.
    destruct (N.eqb_spec o 0); [lia|reflexivity].
Qed.

Lemma nzoid_text_round_trip o : oid_ok o -> oid_from_string (oid_to_string o) = Some o.
Proof.
  intros H. unfold oid_from_string.
  change (oid_to_string o) with (moid_to_string (NonZero o)).
  rewrite moid_text_round_trip by exact H. reflexivity.
Qed.

(** The text of an id is forty characters long. *)
Lemma oid_text_length o : String.length (oid_to_string o) = 40%nat.
Proof.
  unfold oid_to_string, string_of_list.
  assert (E : forall l, String.length (string_of_list_ascii l) = length l).
  { induction l as [|a l IH]; cbn; [reflexivity|now rewrite IH]. }
  rewrite E, map_length. apply hex_digits_length.
Qed.

Lemma to_int_not_nil z : Z.to_int z <> Decimal.Pos Decimal.Nil /\ Z.to_int z <> Decimal.Neg Decimal.Nil.
Proof.
  destruct z as [|p|p]; cbn; split; intros E; try discriminate;
    injection E as E; now apply (DecimalPos.Unsigned.to_uint_nonnil p) in E.
Qed.

Lemma isize_body_no_plus z s : isize_to_string z = String "+" s -> False.
Proof.
  unfold isize_to_string. destruct (Z.to_int z) as [u|u]; cbn.
  - destruct u; cbn; discriminate.
  - discriminate.
Qed.

Lemma isize_text_round_trip z : isize_ok z -> isize_from_string (isize_to_string z) = Some z.
Proof.
  intros H. unfold isize_from_string.
  assert (E : strip_plus (isize_to_string z) = isize_to_string z).
  { unfold strip_plus. destruct (isize_to_string z) as [|a s] eqn:E; [reflexivity|].
    destruct (Ascii.eqb_spec a "+"%char) as [->|Hne]; [|reflexivity].
    now apply isize_body_no_plus in E. }
  rewrite E. unfold isize_to_string.
  destruct (to_int_not_nil z) as [N1 N2].
  rewrite NilZero.isi by assumption.
  rewrite DecimalZ.of_to.
  unfold isize_ok in H.
  destruct ((- 2 ^ 63 <=? z) && (z <? 2 ^ 63))%Z eqn:F; [reflexivity|lia].
Qed.

Lemma isize_from_string_ok s z : isize_from_string s = Some z -> isize_ok z.
Proof.
  unfold isize_from_string.
  destruct (NilZero.int_of_string _) as [i|]; [|discriminate].
  destruct (_ && _)%bool eqn:F; [|discriminate].
  intros E. injection E as <-. unfold isize_ok. lia.
Qed.

Lemma txid_text_round_trip t :
  match t with TxId i => isize_ok i | TxSuppressed => True end ->
  txid_from_string (txid_to_string t) = Some t.
Proof.
  intros H. unfold txid_from_string, txid_to_string. destruct t as [i|]; [|reflexivity].
  destruct (String.eqb_spec (isize_to_string i) "SUPPRESSED") as [E|_].
  - exfalso. unfold isize_to_string in E. destruct (Z.to_int i) as [u|u]; cbn in E.
    + destruct u; discriminate.
    + discriminate.
  - rewrite isize_text_round_trip by assumption. reflexivity.
Qed.
