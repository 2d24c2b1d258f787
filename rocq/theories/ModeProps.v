(** Theorems about file modes: C51. *)
From Verif Require Import Base ModeModel.
Local Open Scope N_scope.

(** Through text and back. *)
Theorem c51_text : forall m, mode_of_text (mode_text m) = Some m.
Proof. intros []; reflexivity. Qed.
(** Text stands for one mode, and only the texts of modes are understood. *)
Theorem c51_text_exact : forall s m, mode_of_text s = Some m <-> s = mode_text m.
Proof.
  intros s m. split; [|intros ->; apply c51_text]. unfold mode_of_text. intros H.
  repeat match type of H with (if String.eqb s ?x then _ else _) = _ => destruct (String.eqb_spec s x) as [->|]; [injection H as <-; reflexivity|] end.
  discriminate H.
Qed.
(** Through numbers and back.  Missing: group-writable files (false, see [c51_number_refuted]). *)
Theorem c51_number_partial : forall m, m <> BlobGroupWritable -> mode_of_number (mode_number m) = m.
Proof. intros [] H; reflexivity || contradiction. Qed.
Theorem c51_number_refuted : exists m, mode_of_number (mode_number m) = Unreadable /\ m <> Unreadable.
Proof. exists BlobGroupWritable. split; [reflexivity|discriminate]. Qed.
(** The text is the number, written in octal. *)
Fixpoint octal_value (a : N) (s : string) : N :=
  match s with
  | EmptyString => a
  | String c s' => octal_value (8 * a + (N_of_ascii c - 48)) s'
  end.
Theorem c51_octal : forall m, octal_value 0 (mode_text m) = mode_number m.
Proof. intros []; reflexivity. Qed.
(** Different modes have different numbers. *)
Theorem c51_number_injective : forall a b, mode_number a = mode_number b -> a = b.
Proof. intros [] []; discriminate || reflexivity. Qed.

Example c51_example : mode_of_number (mode_number Link) = Link /\ mode_of_text "100755"%string = Some BlobExecutable /\ mode_of_text "100600"%string = None.
Proof. repeat split. Qed.

Print Assumptions c51_text.
Print Assumptions c51_text_exact.
Print Assumptions c51_number_partial.
Print Assumptions c51_number_refuted.
Print Assumptions c51_octal.
Print Assumptions c51_number_injective.
