(** Proofs about what is shown of tests. *)
From Verif Require Import Base TextModel TextProofs StrModel StrProofs Utf8Model TestCacheModel TestOutputModel TestOutputSpec.
Local Open Scope string_scope.
Local Open Scope list_scope.

Lemma ended_unlines ls : ended ls = unlines ls.
Proof. induction ls as [|x ls IH]; [reflexivity|]. cbn [ended fold_right unlines]. fold (ended ls). now rewrite IH. Qed.
Lemma lines_last x : lacks LF x -> x <> "" -> lines x = [x].
Proof.
  intros L N. unfold lines. rewrite split_on_plain by exact L. cbn [chomp].
  destruct (String.eqb_spec x ""); [contradiction|reflexivity].
Qed.
Lemma printed_lines ls s : printed ls s -> lines s = ls.
Proof.
  intros [F [->|(before & x & -> & N & ->)]].
  - rewrite ended_unlines. apply lines_unlines; (eapply Forall_impl; [exact F|]); intros y [? ?]; assumption.
  - apply Forall_app in F as [F Fx]. apply Forall_cons in Fx as [[Lx Cx] _].
    induction before as [|y before IH]; [cbn [ended fold_right]; rewrite sapp_nil; now apply lines_last|].
    apply Forall_cons in F as [[Ly Cy] F]. cbn [ended fold_right app]. fold (ended before).
    rewrite sapp_assoc, sapp_cons, lines_cons by assumption. now rewrite IH.
Qed.

Lemma shown_whole v ls s : printed ls s -> utf8 s = true -> ls <> [] -> v = VFull \/ (v = VPartial /\ (length ls <= 10)%nat) ->
  abbreviate_lines v (Some s) = ls.
Proof.
  intros P U N V. unfold abbreviate_lines. cbn zeta. rewrite U. cbn match. rewrite (printed_lines _ _ P). destruct ls as [|l ls]; [contradiction|].
  destruct V as [->|[-> L]]; [now rewrite orb_true_r|].
  replace (Nat.eqb _ 0) with true; [reflexivity|]. symmetry. apply Nat.eqb_eq. unfold context_lines. lia.
Qed.
Lemma shown_abridged ls s : printed ls s -> utf8 s = true -> (10 < length ls)%nat -> isize_ok (Z.of_nat (length ls)) ->
  abridged ls (abbreviate_lines VPartial (Some s)).
Proof.
  intros P U L Ok. unfold abbreviate_lines. cbn zeta. rewrite U. cbn match. rewrite (printed_lines _ _ P).
  assert (S : forall k : nat, (k + 5 = length ls)%nat -> ls = firstn 5 ls ++ firstn (k - 5) (skipn 5 ls) ++ skipn k ls).
  { intros k Hk. rewrite <- (firstn_skipn 5 ls) at 1. f_equal. rewrite <- (firstn_skipn (k - 5) (skipn 5 ls)) at 1. f_equal.
    rewrite drop_drop. f_equal. lia. }
  exists (firstn 5 ls), (firstn (length ls - 10) (skipn 5 ls)), (skipn (length ls - 5) ls), (isize_to_string (Z.of_nat (length ls - 10))).
  assert (Lm : length (firstn (length ls - 10) (skipn 5 ls)) = (length ls - 10)%nat).
  { rewrite List.firstn_length, List.skipn_length. lia. }
  split.
  { rewrite (S (length ls - 5)%nat) at 1 by lia. f_equal. f_equal. f_equal. lia. }
  split; [rewrite List.firstn_length; lia|]. split; [rewrite List.skipn_length; lia|].
  split; [intros E; rewrite E in Lm; cbn in Lm; lia|]. split.
  - destruct ls as [|l ls]; [cbn in L; lia|]. unfold context_lines, more_lines.
    replace (Nat.eqb _ 0) with false; [reflexivity|]. symmetry. apply Nat.eqb_neq. lia.
  - rewrite Lm. apply isize_text_round_trip. unfold isize_ok in *. lia.
Qed.

Lemma by_hand_spec x : was_interactive x = true <-> by_hand x.
Proof.
  unfold by_hand. split.
  - destruct x as [| | | | |code|code|c code i|c f i]; cbn; try discriminate; intros ->; eauto.
  - intros [(c & n & ->)|(c & f & ->)]; reflexivity.
Qed.
Lemma not_by_hand x : ~ by_hand x -> was_interactive x = false.
Proof. rewrite <- by_hand_spec. now destruct (was_interactive x). Qed.
Lemma changes_cases f t :
  (left_changes f t /\ exists u o, fi_tree f = Some u /\ t = NonZero o /\ N.eqb u o = false) \/
  (~ left_changes f t /\ forall (A : Type) (x y : A),
     match fi_tree f, t with Some u, NonZero o => if N.eqb u o then x else y | _, _ => x end = x).
Proof.
  unfold left_changes. destruct (fi_tree f) as [u|]; [|right; split; [intros (? & ? & [=] & _)|reflexivity]].
  destruct t as [|o]; [right; split; [intros (? & ? & _ & [=] & _)|reflexivity]|].
  destruct (N.eqb_spec u o) as [->|N].
  - right. split; [intros (? & ? & [= <-] & [= <-] & X); now apply X|reflexivity].
  - left. split; [eauto|]. exists u, o. split; [reflexivity|]. split; [reflexivity|]. now apply N.eqb_neq.
Qed.
Lemma has_letter (c : ascii) a s b : c ∈ list_ascii_of_string s -> c ∈ list_ascii_of_string (a +:+ s +:+ b).
Proof.
  intros H. induction a as [|x a IH]; [|rewrite sapp_cons; now right]. rewrite sapp_nil.
  induction s as [|x s IH]; [now apply not_elem_of_nil in H|]. rewrite sapp_cons. cbn [list_ascii_of_string] in *.
  apply elem_of_cons in H as [->|H]; [left|right; auto].
Qed.
