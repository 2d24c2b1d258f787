(** Lemmas about numbers, patterns and placeholders of revsets. *)
From Verif Require Import Base TextModel EventLogModel EventLogRefProofs RevsetSyntaxModel RevsetSyntaxSpec
  RevsetSyntaxProofs RevsetModel RevsetSpec.
From Coq Require Import DecimalString DecimalNat DecimalFacts.
Local Open Scope string_scope.
Local Open Scope list_scope.

(** ** Numbers *)

Lemma digits_head u : u <> Decimal.Nil -> exists c s, NilZero.string_of_uint u = String c s /\ c <> "+"%char.
Proof. destruct u; intros H; [done|..]; eexists _, _; (split; [reflexivity|discriminate]). Qed.

Lemma number_spec s z : usize_from_string s = Some z <-> number s z.
Proof.
  assert (P : forall s', (match NilZero.uint_of_string s' with
     | Some u => let z := Z.of_N (N.of_uint u) in if Z.ltb z (2 ^ 64) then Some z else None
     | None => None end = Some z) <->
     exists u, u <> Decimal.Nil /\ s' = NilZero.string_of_uint u /\ z = Z.of_N (N.of_uint u) /\ (z < 2 ^ 64)%Z).
  { intros s'. split.
    - destruct (NilZero.uint_of_string s') as [u|] eqn:E; [|discriminate]. cbv zeta.
      destruct (Z.ltb_spec (Z.of_N (N.of_uint u)) (2 ^ 64)); [|discriminate]. intros [= <-].
      exists u. split_and!; [|symmetry; apply NilZero.sus; exact E|reflexivity|assumption].
      intros ->. exact (NilZero.uint_of_string_nonnil _ E).
    - intros (u & Hu & -> & -> & L). rewrite NilZero.usu by exact Hu. cbv zeta.
      destruct (Z.ltb_spec (Z.of_N (N.of_uint u)) (2 ^ 64)); [reflexivity|lia]. }
  unfold usize_from_string, number. destruct s as [|c s].
  - cbv zeta. rewrite P. split.
    + intros (u & H1 & H2 & H3 & H4). exists u. auto.
    + intros (u & H1 & [H2|H2] & H3 & H4); [exists u; auto|discriminate].
  - destruct (Ascii.eqb_spec c "+") as [->|Hc]; cbv zeta; rewrite P.
    + split.
      * intros (u & H1 & -> & H3 & H4). exists u. split_and!; auto.
      * intros (u & H1 & [H2|H2] & H3 & H4).
        { destruct (digits_head u H1) as (c & s' & E & Ne). congruence. }
        rewrite scons, snil in H2. injection H2 as H2. exists u. auto.
    + split.
      * intros (u & H1 & H2 & H3 & H4). exists u. auto.
      * intros (u & H1 & [H2|H2] & H3 & H4); [exists u; auto|].
        rewrite scons in H2. injection H2 as E _. congruence.
Qed.

(** ** Patterns *)

Lemma newline_or_not s : (exists b, s = b +:+ String newline "" /\ strip_newline s = b) \/
  ((forall x, s <> x +:+ String newline "") /\ strip_newline s = s).
Proof.
  induction s as [|c s IH].
  - right. split; [|reflexivity]. intros [|? ?]; discriminate.
  - destruct s as [|c' s].
    + cbn [strip_newline]. destruct (Ascii.eqb_spec c newline) as [->|Hc].
      * left. exists "". auto.
      * right. split; [|reflexivity]. intros [|d x]; rewrite ?scons, ?snil; [congruence|].
        intros [= -> E]. destruct x; discriminate.
    + change (strip_newline (String c (String c' s))) with (String c (strip_newline (String c' s))).
      destruct IH as [(b & E1 & E2)|[H1 H2]].
      * left. exists (String c b). rewrite scons, E1 at 1. rewrite <- E1, E2. auto.
      * right. split; [|congruence]. intros [|d x]; rewrite ?scons, ?snil; [congruence|].
        intros [= -> E]. exact (H1 x E).
Qed.

Lemma app_char_inj x y c : x +:+ String c "" = y +:+ String c "" -> x = y.
Proof. intros E. rewrite <- (pop_app x c), <- (pop_app y c). congruence. Qed.

Lemma without_newline_spec s b : without_newline s b <-> b = strip_newline s.
Proof.
  unfold without_newline. destruct (newline_or_not s) as [(b' & E1 & E2)|[H1 H2]].
  - rewrite E2. split.
    + intros [H|[_ H]]; [|exfalso; exact (H b' E1)]. apply (app_char_inj _ _ newline). congruence.
    + intros ->. auto.
  - rewrite H2. split.
    + intros [H|[-> _]]; [exfalso; exact (H1 b H)|reflexivity].
    + intros ->. auto.
Qed.

Lemma contains_spec p s : contains p s = true <-> exists a b, s = a +:+ p +:+ b.
Proof.
  assert (St : forall x, starts_with p x = true <-> exists b, x = p +:+ b) by apply starts_with_spec.
  induction s as [|c s IH]; cbn [contains]; rewrite orb_true_iff, St.
  - split; [intros [(b & E)|E]; [exists "", b; exact E|discriminate]|].
    intros ([|? ?] & b & E); [left; exists b; exact E|discriminate].
  - rewrite IH. split.
    + intros [(b & E)|(a & b & E)]; [exists "", b; exact E|]. exists (String c a), b. rewrite scons. congruence.
    + intros ([|d a] & b & E); rewrite ?scons, ?snil in E; [left; eauto|]. injection E as _ E. right. eauto.
Qed.

Lemma matches_text_spec p s : matches_text p s = true <-> selects p s.
Proof.
  unfold selects. transitivity (match p with
    | PExact x => strip_newline s = x
    | PSubstring x => exists a b, strip_newline s = a +:+ x +:+ b
    | PGlob m | PRegex m => m (strip_newline s) = true
    | PBefore _ | PAfter _ => False end).
  - unfold matches_text. destruct p; cbv zeta; rewrite ?String.eqb_eq, ?contains_spec; intuition congruence.
  - split.
    + intros H. exists (strip_newline s). split; [apply without_newline_spec; reflexivity|exact H].
    + intros (b & ->%without_newline_spec & H). exact H.
Qed.

Lemma matches_date_spec p t : matches_date p t = true <-> selects_time p t.
Proof.
  destruct p, t; cbn; rewrite ?Z.leb_le; intuition congruence.
Qed.

Lemma opt_matches_spec p s : opt_matches p s = true <-> opt_selects p s.
Proof.
  unfold opt_matches, opt_selects. destruct s as [s|].
  - rewrite matches_text_spec. split; [eauto|]. intros (t & [= <-] & H). exact H.
  - split; [discriminate|]. intros (t & E & _). discriminate.
Qed.

Lemma strip_prefix_app p x : strip_prefix p (p +:+ x) = Some x.
Proof. apply strip_prefix_spec. reflexivity. Qed.

(** No prefix begins with another. *)
Lemma prefix_unique p q x : p ∈ prefixes -> q ∈ prefixes -> p <> q -> strip_prefix p (q +:+ x) = None.
Proof.
  intros Hp Hq. unfold prefixes in *.
  repeat (apply elem_of_cons in Hp; destruct Hp as [->|Hp]; [|]); try (now apply elem_of_nil in Hp);
  repeat (apply elem_of_cons in Hq; destruct Hq as [->|Hq]; [|]); try (now apply elem_of_nil in Hq);
  intros N; try done; rewrite !scons; reflexivity.
Qed.

Lemma pattern_new_spec v s p : pattern_new v s = Ok p <-> pattern_text v s p.
Proof.
  split.
  - unfold pattern_new.
    repeat match goal with
    | |- context [strip_prefix ?p s] =>
        let E := fresh "E" in destruct (strip_prefix p s) as [x|] eqn:E; [apply strip_prefix_spec in E; subst s|]
    end.
    all: try (intros [= <-]; constructor).
    + destruct (env_glob v x) eqn:G; [|discriminate]. intros [= <-]. now constructor.
    + destruct (env_regex v x) eqn:G; [|discriminate]. intros [= <-]. now constructor.
    + destruct (env_date v x) eqn:G; [|discriminate]. intros [= <-]. now constructor.
    + destruct (env_date v x) eqn:G; [|discriminate]. intros [= <-]. now constructor.
    + intros q y Hq ->. unfold prefixes in Hq.
      repeat (apply elem_of_cons in Hq; destruct Hq as [->|Hq];
        [match goal with H : strip_prefix _ _ = None |- _ => rewrite strip_prefix_app in H; discriminate end|]).
      now apply elem_of_nil in Hq.
  - intros H. destruct H; unfold pattern_new.
    all: repeat first [rewrite strip_prefix_app | rewrite prefix_unique by (unfold prefixes; try discriminate; set_solver)].
    all: try reflexivity; try (rewrite H; reflexivity).
    assert (R : forall p, p ∈ prefixes -> strip_prefix p x = None).
    { intros p Hp. destruct (strip_prefix p x) as [y|] eqn:E; [|reflexivity].
      apply strip_prefix_spec in E. exfalso. exact (H p y Hp E). }
    rewrite !R by (unfold prefixes; set_solver). reflexivity.
Qed.

(** ** Placeholders *)

Lemma dollar_inj i j : dollar i = dollar j -> i = j.
Proof.
  unfold dollar. rewrite !scons, !snil. intros [= E].
  assert (N1 : forall n, Nat.to_uint n <> Decimal.Nil) .
  { intros n H. pose proof (Unsigned.to_of (Nat.to_uint n)) as T. rewrite Unsigned.of_to, H in T. discriminate T. }
  pose proof (NilZero.usu _ (N1 i)) as H1. pose proof (NilZero.usu _ (N1 j)) as H2.
  rewrite E, H2 in H1. injection H1 as H1. symmetry. apply Unsigned.to_uint_inj. exact H1.
Qed.

Lemma arg_map_lookup k args n e :
  arg_map k args !! n = Some e <-> exists i, n = dollar (k + i) /\ nth_error args i = Some e.
Proof.
  revert k. induction args as [|a args IH]; intros k; cbn [arg_map].
  - rewrite lookup_empty. split; [discriminate|]. intros ([|i] & _ & E); discriminate.
  - destruct (decide (n = placeholder k)) as [->|Hn].
    + rewrite lookup_insert. split.
      * intros [= <-]. exists 0%nat. rewrite Nat.add_0_r. auto.
      * intros ([|i] & E & H); [exact H|]. apply dollar_inj in E. lia.
    + rewrite lookup_insert_ne by congruence. rewrite IH. split.
      * intros (i & E & H). exists (S i). rewrite Nat.add_succ_r. auto.
      * intros ([|i] & E & H); [rewrite Nat.add_0_r in E; done|].
        exists i. rewrite Nat.add_succ_r in E. auto.
Qed.

Lemma expands_spec args e e' : expands args e e' <-> replace_names (arg_map 1 args) e = e'.
Proof.
  revert e'. induction e as [n|f es IH] using expr_ind'; intros e'; cbn [replace_names].
  - destruct (arg_map 1 args !! n) as [a|] eqn:E.
    + apply arg_map_lookup in E. destruct E as (i & En & H). change (1 + i)%nat with (S i) in En. split.
      * intros X. remember (Name n) as en eqn:Ee. destruct X as [j b Hj|m Hm|]; [..|discriminate].
        { injection Ee as Ee. rewrite En in Ee. apply dollar_inj in Ee. injection Ee as ->. congruence. }
        { injection Ee as ->. exfalso. exact (Hm i a H En). }
      * intros <-. rewrite En. constructor. exact H.
    + split.
      * intros X. remember (Name n) as en eqn:Ee. destruct X as [j b Hj|m Hm|]; [|reflexivity|discriminate].
        injection Ee as Ee.
        assert (arg_map 1 args !! n = Some b) by (apply arg_map_lookup; exists j; auto). congruence.
      * intros <-. constructor. intros i a H ->.
        assert (arg_map 1 args !! dollar (S i) = Some a) by (apply arg_map_lookup; exists i; auto). congruence.
  - assert (G : forall es', Forall2 (expands args) es es' <-> List.map (replace_names (arg_map 1 args)) es = es').
    { induction IH as [|e es He Hes IHes]; intros es'.
      - split; [inversion 1; reflexivity|intros <-; constructor].
      - cbn [List.map]. split.
        + inversion 1; subst. f_equal; [apply He; assumption|apply IHes; assumption].
        + intros <-. constructor; [apply He; reflexivity|apply IHes; reflexivity]. }
    split.
    + inversion 1; subst. f_equal. apply G. assumption.
    + intros <-. constructor. apply G. reflexivity.
Qed.
