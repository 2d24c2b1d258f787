(** Lemmas about splitting text. *)
From Verif Require Import Base StrModel.
Local Open Scope string_scope.
Local Open Scope list_scope.

(** The character does not occur. *)
Definition lacks (c : ascii) (s : string) : Prop := c ∉ list_ascii_of_string s.

Lemma sapp_cons c (w rest : string) : String c w +:+ rest = String c (w +:+ rest). Proof. reflexivity. Qed.
Lemma sapp_nil (rest : string) : "" +:+ rest = rest. Proof. reflexivity. Qed.
Lemma sapp_nil_r (s : string) : s +:+ "" = s.
Proof. induction s as [|c s IH]; [reflexivity|]. rewrite sapp_cons, IH. reflexivity. Qed.
Lemma sapp_assoc (a b c : string) : (a +:+ b) +:+ c = a +:+ (b +:+ c).
Proof. induction a as [|x a IH]; [reflexivity|]. rewrite !sapp_cons, IH. reflexivity. Qed.

Lemma lacks_nil c : lacks c "". Proof. apply not_elem_of_nil. Qed.
Lemma lacks_cons c a s : lacks c (String a s) <-> c <> a /\ lacks c s.
Proof. unfold lacks. cbn. rewrite not_elem_of_cons. reflexivity. Qed.
Lemma list_ascii_app a b : list_ascii_of_string (a +:+ b) = (list_ascii_of_string a ++ list_ascii_of_string b)%list.
Proof. induction a as [|x a IH]; [reflexivity|]. rewrite sapp_cons. cbn. now rewrite IH. Qed.
Lemma lacks_app c a b : lacks c (a +:+ b) <-> lacks c a /\ lacks c b.
Proof. unfold lacks. rewrite list_ascii_app, not_elem_of_app. reflexivity. Qed.
Global Instance lacks_dec c s : Decision (lacks c s).
Proof. unfold lacks. apply _. Defined.

Lemma split_on_cons c s : exists x xs, split_on c s = x :: xs.
Proof.
  induction s as [|a s (x & xs & IH)]; cbn; [eauto|]. rewrite IH. destruct (Ascii.eqb a c); eauto.
Qed.

Lemma split_on_lacks c s : Forall (lacks c) (split_on c s).
Proof.
  induction s as [|a s IH]; cbn; [repeat constructor; apply lacks_nil|].
  destruct (split_on_cons c s) as (x & xs & E). rewrite E in *.
  apply Forall_cons in IH. destruct IH as [H1 H2].
  destruct (Ascii.eqb_spec a c) as [->|N]; [repeat constructor; auto using lacks_nil|].
  constructor; [|exact H2]. apply lacks_cons. auto.
Qed.

Lemma join_cons sep x y l : join sep (x :: y :: l) = x +:+ sep +:+ join sep (y :: l). Proof. reflexivity. Qed.

Lemma join_split c s : join (String c "") (split_on c s) = s.
Proof.
  induction s as [|a s IH]; [reflexivity|]. cbn [split_on].
  destruct (split_on_cons c s) as (x & xs & E). rewrite E in *.
  destruct (Ascii.eqb_spec a c) as [->|N].
  - rewrite join_cons, IH. reflexivity.
  - destruct xs as [|y xs]; [cbn in *; congruence|]. rewrite join_cons in *. now rewrite sapp_cons, IH.
Qed.

Lemma split_on_plain c s : lacks c s -> split_on c s = [s].
Proof.
  induction s as [|a s IH]; intros H; [reflexivity|]. apply lacks_cons in H. destruct H as [N H].
  cbn. rewrite IH by exact H. destruct (Ascii.eqb_spec a c); congruence.
Qed.
Lemma split_on_app c x s : lacks c x -> split_on c (x +:+ String c s) = x :: split_on c s.
Proof.
  induction x as [|a x IH]; intros H.
  - rewrite sapp_nil. cbn. rewrite Ascii.eqb_refl. reflexivity.
  - apply lacks_cons in H. destruct H as [N H]. rewrite sapp_cons. cbn [split_on]. rewrite IH by exact H.
    destruct (Ascii.eqb_spec a c); congruence.
Qed.
Lemma split_join c l : l <> [] -> Forall (lacks c) l -> split_on c (join (String c "") l) = l.
Proof.
  induction l as [|x [|y l] IH]; intros N F; [done|..]; apply Forall_cons in F; destruct F as [F1 F2].
  - cbn. apply split_on_plain. exact F1.
  - rewrite join_cons, sapp_cons, sapp_nil, split_on_app by exact F1. now rewrite IH.
Qed.
Lemma split_on_spec c s l : split_on c s = l <-> l <> [] /\ Forall (lacks c) l /\ s = join (String c "") l.
Proof.
  split.
  - intros <-. destruct (split_on_cons c s) as (x & xs & E). split_and!; [congruence|apply split_on_lacks|].
    now rewrite join_split.
  - intros (N & F & ->). apply split_join; assumption.
Qed.

(** Pieces that end with a separator, the last one possibly without. *)
Inductive pieces (c : ascii) : string -> list string -> Prop :=
| p_end : pieces c "" []
| p_last s : s <> "" -> lacks c s -> pieces c s [s]
| p_piece x s l : lacks c x -> pieces c s l -> pieces c (x +:+ String c s) (x :: l).

Lemma buf_split_spec c s l : buf_split c s = l <-> pieces c s l.
Proof.
  unfold buf_split. split.
  - intros <-. pose proof (split_on_lacks c s) as F. rewrite <- (join_split c s) at 1.
    revert F. generalize (split_on c s). intros l'. induction l' as [|x [|y l'] IH]; intros F; [constructor|..];
      apply Forall_cons in F; destruct F as [F1 F2].
    + cbn. destruct (String.eqb_spec x "") as [->|N]; [constructor|]. now constructor.
    + change (drop_last_empty (x :: y :: l')) with (x :: drop_last_empty (y :: l')).
      rewrite join_cons, sapp_cons, sapp_nil. constructor; auto.
  - induction 1 as [|s N L|x s l L _ IH]; [reflexivity|..].
    + rewrite split_on_plain by exact L. cbn. destruct (String.eqb_spec s ""); congruence.
    + rewrite split_on_app by exact L. destruct (split_on_cons c s) as (y & ys & E). rewrite E in *.
      change (drop_last_empty (x :: y :: ys)) with (x :: drop_last_empty (y :: ys)). now rewrite IH.
Qed.

(** Lines without carriage returns. *)
Lemma strip_cr_lacks s : lacks CR s -> strip_cr s = s.
Proof.
  induction s as [|c s IH]; intros H; [reflexivity|]. apply lacks_cons in H. destruct H as [N H].
  destruct s as [|d s].
  - cbn [strip_cr]. destruct (Ascii.eqb_spec c CR); congruence.
  - change (strip_cr (String c (String d s))) with (String c (strip_cr (String d s))). now rewrite IH.
Qed.
Lemma lines_cons x s : lacks LF x -> lacks CR x -> lines (x +:+ String LF s) = x :: lines s.
Proof.
  intros H1 H2. unfold lines. rewrite split_on_app by exact H1. destruct (split_on_cons LF s) as (y & ys & E).
  rewrite E. change (chomp (x :: y :: ys)) with (strip_cr x :: chomp (y :: ys)).
  now rewrite strip_cr_lacks.
Qed.
Lemma lines_nil : lines "" = []. Proof. reflexivity. Qed.
Lemma lines_unlines l : Forall (lacks LF) l -> Forall (lacks CR) l -> lines (unlines l) = l.
Proof.
  induction l as [|x l IH]; intros F G; [reflexivity|]. apply Forall_cons in F, G. destruct F, G.
  cbn [unlines]. rewrite lines_cons, IH by assumption. reflexivity.
Qed.
Lemma unlines_app a b : unlines (a ++ b) = unlines a +:+ unlines b.
Proof. induction a as [|x a IH]; [reflexivity|]. cbn [unlines app]. now rewrite IH, sapp_assoc. Qed.

(** Text without white space is its own trim. *)
Lemma trim_end_plain s : Forall (fun c => is_space c = false) (list_ascii_of_string s) -> trim_end s = s.
Proof.
  induction s as [|c s IH]; cbn [list_ascii_of_string]; intros F; [reflexivity|]. apply Forall_cons in F. destruct F as [F1 F2].
  cbn [trim_end]. rewrite IH by exact F2. rewrite F1. destruct s; reflexivity.
Qed.
(** Text that begins and ends with something else than white space is its own trim. *)
Lemma trim_end_app s t : t <> "" -> Forall (fun c => is_space c = false) (list_ascii_of_string t) ->
  trim_end (s +:+ t) = s +:+ t.
Proof.
  intros N F. induction s as [|c s IH]; [rewrite sapp_nil; now apply trim_end_plain|].
  rewrite sapp_cons. cbn [trim_end]. rewrite IH.
  destruct (s +:+ t) as [|d u] eqn:E; [|reflexivity]. destruct s; [rewrite sapp_nil in E; congruence|discriminate].
Qed.
Lemma trim_start_app s t : s <> "" -> Forall (fun c => is_space c = false) (list_ascii_of_string s) ->
  trim_start (s +:+ t) = s +:+ t.
Proof.
  destruct s as [|c s]; intros N F; [done|]. cbn [list_ascii_of_string] in F. apply Forall_cons in F. destruct F as [F _].
  rewrite sapp_cons. cbn [trim_start]. now rewrite F.
Qed.
