From Verif Require Import Base StatusModel TestAliasModel TestAliasSpec.
Local Open Scope string_scope.
Local Open Scope list_scope.

Lemma alpha_letters c : key_alpha c = true <-> c ∈ letters.
Proof.
  rewrite <- (bool_decide_spec (c ∈ letters)). replace (bool_decide (c ∈ letters)) with (key_alpha c); [by destruct (key_alpha c)|].
  destruct c as [[] [] [] [] [] [] [] []]; vm_compute; reflexivity.
Qed.
Lemma name_chars c : (key_alnum c || Ascii.eqb c "-")%bool = true <-> c ∈ letters \/ c ∈ others.
Proof.
  rewrite <- elem_of_app, <- (bool_decide_spec (c ∈ letters ++ others)).
  replace (bool_decide (c ∈ letters ++ others)) with (key_alnum c || Ascii.eqb c "-")%bool; [by destruct (key_alnum c || Ascii.eqb c "-")%bool|].
  destruct c as [[] [] [] [] [] [] [] []]; vm_compute; reflexivity.
Qed.
Lemma name_valid_spec name : name_valid true name = true <->
  exists c rest, name = c :: rest /\ c ∈ letters /\ (forall x, x ∈ rest -> x ∈ letters \/ x ∈ others).
Proof.
  destruct name as [|c rest]; cbn [name_valid]; [split; [done|by intros (? & ? & ? & _)]|].
  rewrite andb_true_iff, forallb_forall, alpha_letters. split.
  - intros [A B]. exists c, rest. split_and!; [done|done|]. intros x Hx. apply name_chars, B. right. by apply elem_of_list_In.
  - intros (c' & r' & E & A & B). injection E as <- <-. split; [done|]. intros x [<-|Hx]; apply name_chars; [by left|].
    apply B. by apply elem_of_list_In.
Qed.
Lemma name_valid_weaker name : name_valid true name = true -> name_valid false name = true.
Proof.
  destruct name as [|c rest]; cbn [name_valid]; [done|]. intros [A B]%andb_true_iff. rewrite B. unfold key_alnum. by rewrite A.
Qed.

Lemma lower_cases c : key_lower c = c /\ (forall k, letters !! (k + 26)%nat = Some c -> False) \/
  exists k, (k < 26)%nat /\ letters !! k = Some (key_lower c) /\ letters !! (k + 26)%nat = Some c.
Proof.
  destruct (decide (in_range 65 90 c = true)) as [U|U].
  - right. assert (H : Exists (fun k => letters !! k = Some (key_lower c) /\ letters !! (k + 26)%nat = Some c) (seq 0 26)).
    { revert U. destruct c as [[] [] [] [] [] [] [] []]; vm_compute; intros U; try discriminate;
      repeat first [apply Exists_cons_hd; split; reflexivity|apply Exists_cons_tl]. }
    apply list.Exists_exists in H as (k & Hk & H). apply elem_of_seq in Hk. exists k. split; [lia|done].
  - left. split; [unfold key_lower; by destruct (in_range 65 90 c)|]. intros k Hk. apply U.
    assert (L : (k < 26)%nat). { apply lookup_lt_Some in Hk. change (length letters) with 52%nat in Hk. lia. }
    do 26 (destruct k as [|k]; [vm_compute in Hk; injection Hk as <-; reflexivity|]). lia.
Qed.
Lemma letters_NoDup : NoDup letters. Proof. apply (bool_decide_unpack _). vm_compute. exact I. Qed.
Lemma lower_same c d : key_lower c = key_lower d <-> same_letter c d.
Proof.
  split.
  - intros E. destruct (lower_cases c) as [[Ec _]|(k & Lk & A & B)], (lower_cases d) as [[Ed _]|(k' & Lk' & A' & B')].
    + left. congruence.
    + right. exists k'. split; [done|]. left. split; [|done]. congruence.
    + right. exists k. split; [done|]. right. split; [|done]. congruence.
    + left. rewrite E in A. pose proof (NoDup_lookup _ _ _ _ letters_NoDup A A') as <-. congruence.
  - intros [->|(k & Lk & H)]; [done|].
    assert (G : forall x y, letters !! k = Some x -> letters !! (k + 26)%nat = Some y -> key_lower x = key_lower y).
    { intros x y Hx Hy. do 26 (destruct k as [|k]; [vm_compute in Hx, Hy; injection Hx as <-; injection Hy as <-; reflexivity|]). lia. }
    destruct H as [[H1 H2]|[H1 H2]]; [by apply G|symmetry; by apply G].
Qed.
Lemma lower_same_list n1 n2 : List.map key_lower n1 = List.map key_lower n2 <-> Forall2 same_letter n1 n2.
Proof.
  revert n2. induction n1 as [|c n1 IH]; intros [|d n2]; cbn [List.map].
  - split; constructor.
  - split; [done|intros H; inversion H].
  - split; [done|intros H; inversion H].
  - split.
    + intros E. injection E as E1 E2. constructor; [by apply lower_same|by apply IH].
    + intros H. inversion H; subst. f_equal; [by apply lower_same|by apply IH].
Qed.
Lemma valid_lower git n : name_valid git n = name_valid git (List.map key_lower n).
Proof.
  assert (A : forall c, key_alpha c = key_alpha (key_lower c)) by (intros [[] [] [] [] [] [] [] []]; reflexivity).
  assert (B : forall c, key_alnum c = key_alnum (key_lower c)) by (intros [[] [] [] [] [] [] [] []]; reflexivity).
  assert (C : forall c, (key_alnum c || Ascii.eqb c "-")%bool = (key_alnum (key_lower c) || Ascii.eqb (key_lower c) "-")%bool)
    by (intros [[] [] [] [] [] [] [] []]; reflexivity).
  assert (F : forall l, forallb (fun c => key_alnum c || Ascii.eqb c "-")%bool l = forallb (fun c => key_alnum c || Ascii.eqb c "-")%bool (List.map key_lower l)).
  { induction l as [|c l IH]; [done|]. cbn [List.map forallb]. by rewrite <- C, IH. }
  destruct n as [|c n]; [done|]. cbn [name_valid List.map]. rewrite <- A, <- B. f_equal. exact (F (c :: n)).
Qed.

Lemma split_last_none l : "."%char ∉ l -> split_last l = None.
Proof.
  induction l as [|c l IH]; [done|]. intros N. apply not_elem_of_cons in N as [N1 N2]. cbn [split_last]. rewrite (IH N2).
  destruct (Ascii.eqb_spec c "."); congruence.
Qed.
Lemma split_last_app sub name : "."%char ∉ name -> split_last ((sub ++ ["."%char]) ++ name) = Some (sub, name).
Proof.
  intros N. induction sub as [|c sub IH]; cbn [app split_last]; [by rewrite split_last_none|]. by rewrite IH.
Qed.
Lemma split_last_some l sub name : split_last l = Some (sub, name) -> l = (sub ++ ["."%char]) ++ name /\ "."%char ∉ name.
Proof.
  revert sub name. induction l as [|c l IH]; intros sub name; cbn [split_last]; [done|].
  destruct (split_last l) as [[a b]|] eqn:E.
  - intros H. injection H as <- <-. destruct (IH _ _ eq_refl) as [-> N]. done.
  - destruct (Ascii.eqb_spec c "."); [|done]. intros H. injection H as <- <-. subst c. split; [done|].
    clear IH. induction l as [|d l IHl]; [apply not_elem_of_nil|]. cbn [split_last] in E.
    destruct (split_last l) as [[a b]|]; [done|]. destruct (Ascii.eqb_spec d "."); [done|].
    apply not_elem_of_cons. split; [congruence|by apply IHl].
Qed.

(** What is before the name of an alias, in its key. *)
Lemma before_sub before : (before = [] \/ exists b, before = b ++ ["."%char]) -> exists sub, alias_prefix ++ before = sub ++ ["."%char] /\
  (newline ∈ sub <-> newline ∈ before).
Proof.
  assert (P : alias_prefix = list_ascii_of_string "test.alias" ++ ["."%char]) by reflexivity.
  assert (N : newline ∉ list_ascii_of_string "test.alias") by decide_it.
  assert (D : newline <> "."%char) by discriminate.
  intros [->|[b ->]].
  - exists (list_ascii_of_string "test.alias"). rewrite app_nil_r. split; [done|]. split; [done|]. intros H. by apply not_elem_of_nil in H.
  - exists (alias_prefix ++ b). split; [by rewrite app_assoc|]. rewrite P, !elem_of_app, !elem_of_list_singleton. tauto.
Qed.
Lemma parts_key a before name : parts a before name -> exists sub, alias_prefix ++ before = sub ++ ["."%char] /\
  (newline ∈ sub <-> newline ∈ before) /\ split_last (alias_key (Some a)) = Some (sub, name).
Proof.
  intros (E & N & B). destruct (before_sub before B) as (sub & S & W). exists sub. split_and!; [done|done|].
  unfold alias_key. rewrite E, app_assoc, S. by apply split_last_app.
Qed.
Lemma key_parts a sub name : split_last (alias_key (Some a)) = Some (sub, name) -> exists before,
  parts a before name /\ alias_prefix ++ before = sub ++ ["."%char].
Proof.
  intros H. unfold alias_key in H. remember (list_ascii_of_string a) as l eqn:L.
  destruct (split_last l) as [[b n]|] eqn:E.
  - destruct (split_last_some _ _ _ E) as [El N]. rewrite El in H.
    rewrite (app_assoc alias_prefix), (app_assoc alias_prefix b) in H.
    rewrite split_last_app in H by done. injection H as <- <-. exists (b ++ ["."%char]). split; [|by rewrite app_assoc].
    split_and!; [congruence|done|]. right. by exists b.
  - assert (N : "."%char ∉ l).
    { clear -E. induction l as [|d l IHl]; [apply not_elem_of_nil|]. cbn [split_last] in E.
      destruct (split_last l) as [[a b]|]; [done|]. destruct (Ascii.eqb_spec d "."); [done|].
      apply not_elem_of_cons. split; [congruence|by apply IHl]. }
    change alias_prefix with (list_ascii_of_string "test.alias" ++ ["."%char]) in H.
    rewrite split_last_app in H by done. injection H as <- <-. exists []. split; [|done].
    split_and!; [by rewrite <- L|done|by left].
Qed.
Lemma newline_in sub : existsb (Ascii.eqb newline) sub = true <-> newline ∈ sub.
Proof.
  rewrite existsb_exists. setoid_rewrite <- elem_of_list_In. split.
  - intros (x & Hx & E). apply Ascii.eqb_eq in E. by subst x.
  - intros H. exists newline. split; [done|]. apply Ascii.eqb_refl.
Qed.

(** Git takes the keys of good aliases and no others. *)
Lemma good_key a : good_alias a <-> exists k, normal_key true (alias_key (Some a)) = Some k.
Proof.
  unfold normal_key. split.
  - intros (before & c & name & P & C & R & N). destruct (parts_key _ _ _ P) as (sub & S & W & ->).
    rewrite (proj2 (name_valid_spec (c :: name))) by eauto 10. destruct (existsb (Ascii.eqb newline) sub) eqn:X; [|by eexists].
    exfalso. apply N, W, newline_in, X.
  - intros [k H]. destruct (split_last (alias_key (Some a))) as [[sub name]|] eqn:E; [|done].
    destruct (key_parts _ _ _ E) as (before & P & S). destruct (parts_key _ _ _ P) as (sub' & S' & W & E').
    rewrite E in E'. injection E' as <-.
    destruct (name_valid true name) eqn:V; [|done]. destruct (existsb (Ascii.eqb newline) sub) eqn:X; [done|].
    apply name_valid_spec in V as (c & rest & -> & C & R). exists before, c, rest. split_and!; [done|done|done|].
    intros H'. apply W, newline_in in H'. congruence.
Qed.
Lemma normal_weaker key k : normal_key true key = Some k -> normal_key false key = Some k.
Proof.
  unfold normal_key. destruct (split_last key) as [[sub name]|]; [|done].
  destruct (name_valid true name) eqn:V; [|done]. by rewrite (name_valid_weaker _ V).
Qed.
Lemma normal_same git a b : same_alias a b -> normal_key git (alias_key (Some a)) = normal_key git (alias_key (Some b)).
Proof.
  intros (before & n1 & n2 & P1 & P2 & F). destruct (parts_key _ _ _ P1) as (s1 & S1 & _ & E1), (parts_key _ _ _ P2) as (s2 & S2 & _ & E2).
  rewrite S1 in S2. apply app_inj_2 in S2 as [-> _]; [|done]. apply lower_same_list in F. unfold normal_key. rewrite E1, E2.
  by rewrite (valid_lower git n1), (valid_lower git n2), F.
Qed.
Lemma same_normal g1 g2 a b k : normal_key g1 (alias_key (Some a)) = Some k -> normal_key g2 (alias_key (Some b)) = Some k -> same_alias a b.
Proof.
  unfold normal_key. destruct (split_last (alias_key (Some a))) as [[s1 n1]|] eqn:E1; [|done].
  destruct (split_last (alias_key (Some b))) as [[s2 n2]|] eqn:E2; [|done].
  destruct (_ && _)%bool; [|done]. intros H1. injection H1 as <-. destruct (_ && _)%bool; [|done]. intros H2. injection H2 as -> H2.
  destruct (key_parts _ _ _ E1) as (b1 & P1 & S1), (key_parts _ _ _ E2) as (b2 & P2 & S2). rewrite <- S2 in S1.
  apply app_inv_head in S1 as ->. exists b2, n1, n2. split_and!; [done|done|]. by apply lower_same_list.
Qed.
