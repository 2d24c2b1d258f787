From Verif Require Import Base StrModel StrProofs RewordModel EditorModel.
Local Open Scope string_scope.
Local Open Scope list_scope.

Definition ends_in_dot (s : string) : Prop := exists p, s = p +:+ ".".
Lemma dot_app a s : ends_in_dot s -> ends_in_dot (a +:+ s).
Proof. intros [p ->]. exists (a +:+ p). by rewrite sapp_assoc. Qed.
Lemma dot_cons c s : ends_in_dot s -> ends_in_dot (String c s).
Proof. intros [p ->]. by exists (String c p). Qed.
Lemma footer_dot cc n : ends_in_dot (footer cc n).
Proof.
  unfold footer. repeat first [solve [exists ""; reflexivity]|apply dot_app|apply dot_cons].
Qed.
Lemma initial_dot cc im commits s : initial_text cc im commits = Some s -> ends_in_dot s.
Proof.
  unfold initial_text. destruct (mapM _ commits) as [texts|]; [|done]. cbn. intros H. injection H as <-.
  induction texts as [|t texts IH]; cbn [fold_right]; [apply footer_dot|by apply dot_app].
Qed.

Lemma trim_newlines_all s : (forall c, c ∈ list_ascii_of_string s -> is_newline c = true) -> trim_newlines s = "".
Proof.
  induction s as [|c s IH]; [done|]. intros H. cbn [trim_newlines]. rewrite IH by (intros x Hx; apply H; by right).
  rewrite (H c) by left. done.
Qed.
Lemma trim_newlines_dot p n : (forall c, c ∈ list_ascii_of_string n -> is_newline c = true) -> trim_newlines (p +:+ "." +:+ n) = p +:+ ".".
Proof.
  intros N. induction p as [|c p IH].
  - rewrite !sapp_nil. change ("." +:+ n) with (String "." n). cbn [trim_newlines]. by rewrite trim_newlines_all.
  - rewrite !(sapp_cons c p). cbn [trim_newlines]. rewrite IH. destruct (String.eqb_spec (p +:+ ".") "") as [E|]; [by destruct p|done].
Qed.
Lemma trim_newlines_spec s : exists n, s = trim_newlines s +:+ n /\ (forall c, c ∈ list_ascii_of_string n -> is_newline c = true) /\
  (forall p c, trim_newlines s = p +:+ String c "" -> is_newline c = false).
Proof.
  induction s as [|a s (n & E & N & L)]; cbn [trim_newlines].
  - exists "". split_and!; [done|intros c H; by apply elem_of_nil in H|]. intros [|? p] c H; discriminate.
  - destruct (String.eqb_spec (trim_newlines s) "") as [T|T]; cbn [andb].
    + destruct (is_newline a) eqn:A.
      * exists (String a s). split_and!; [done| |by intros [|? p] c H].
        intros c [->|H]%elem_of_cons; [done|]. rewrite E, T in H. by apply N.
      * exists n. rewrite sapp_cons, <- E. split_and!; [done|done|]. rewrite T. intros [|x p] c H.
        -- injection H as <-. done.
        -- rewrite sapp_cons in H. injection H as _ H. by destruct p.
    + exists n. rewrite sapp_cons, <- E. split_and!; [done|done|]. intros [|x p] c H.
      * rewrite sapp_nil in H. by injection H as _ ?.
      * rewrite sapp_cons in H. injection H as _ H. by apply (L p).
Qed.
Lemma finish_same cc commits shown : finish_editing cc commits shown shown = IdenticalMessage.
Proof. unfold finish_editing. by rewrite String.eqb_refl. Qed.
