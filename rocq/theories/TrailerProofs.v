(** Proofs about the messages of snapshots. *)
From Verif Require Import Base StrModel StrProofs Utf8Model TextModel TextProofs RecordModel TrailerModel TrailerSpec.
Local Open Scope string_scope.
Local Open Scope list_scope.
Local Open Scope nat_scope.

(** ** Text *)

Lemma all_chars_cons P c s : all_chars P (String c s) <-> P c /\ all_chars P s.
Proof. unfold all_chars. cbn [list_ascii_of_string]. apply Forall_cons. Qed.
Lemma all_chars_nil P : all_chars P "". Proof. apply Forall_nil_2. Qed.
Lemma all_chars_app P a b : all_chars P (a +:+ b) <-> all_chars P a /\ all_chars P b.
Proof. unfold all_chars. rewrite list_ascii_app. apply Forall_app. Qed.
Lemma all_chars_impl (P Q : ascii -> Prop) s : (forall c, P c -> Q c) -> all_chars P s -> all_chars Q s.
Proof. intros H F. eapply Forall_impl; [exact F|exact H]. Qed.
Lemma all_chars_lacks (P : ascii -> Prop) c s : ~ P c -> all_chars P s -> lacks c s.
Proof.
  intros N. induction s as [|d s IH]; intros H; [apply lacks_nil|]. apply all_chars_cons in H as [H1 H2].
  apply lacks_cons. split; [intros ->; contradiction|auto].
Qed.

Lemma utf8_plain a b : all_chars (fun c => (N_of_ascii c <= 127)%N) a -> utf8 (a +:+ b) = utf8 b.
Proof.
  unfold utf8. induction a as [|c a IH]; intros H; [by rewrite sapp_nil|].
  apply all_chars_cons in H as [Hc H]. rewrite sapp_cons. cbn [utf8_from].
  rewrite (proj2 (N.leb_le _ _) Hc). by apply IH.
Qed.
Lemma utf8_from_app n lo hi a b : utf8_from n lo hi a = true -> utf8_from n lo hi (a +:+ b) = utf8 b.
Proof.
  revert n lo hi. induction a as [|c a IH]; intros n lo hi H.
  - cbn [utf8_from] in H. rewrite sapp_nil. destruct n; [|discriminate].
    destruct b as [|c b]; [reflexivity|]. reflexivity.
  - rewrite sapp_cons. cbn [utf8_from] in H |- *. destruct n as [|n].
    + repeat match goal with
             | |- context [if ?b then _ else _] => destruct b; [by apply IH|]
             end. discriminate.
    + apply andb_true_iff in H as [H1 H]. rewrite H1. cbn [andb]. by apply IH.
Qed.
Lemma utf8_app a b : utf8 a = true -> utf8 (a +:+ b) = utf8 b.
Proof. apply utf8_from_app. Qed.

Lemma has_nul_false s : has_nul s = false <-> lacks NUL s.
Proof.
  unfold has_nul, lacks, NUL. induction s as [|c s IH]; cbn [list_ascii_of_string existsb].
  - split; [intros _; apply not_elem_of_nil|done].
  - rewrite orb_false_iff, IH, not_elem_of_cons. destruct (Ascii.eqb_spec "000" c) as [<-|N].
    + split; [intros [? _]; discriminate|intros [? _]; congruence].
    + split; intros [H1 H2]; split; auto.
Qed.

(** ** Lines *)

Lemma split_inclusive_line x s : lacks LF x ->
  split_inclusive (x +:+ String LF s) = (x +:+ String LF "") :: split_inclusive s.
Proof.
  induction x as [|c x IH]; intros H; [reflexivity|]. apply lacks_cons in H as [N H].
  rewrite !sapp_cons. cbn [split_inclusive]. rewrite IH by done. by destruct (Ascii.eqb_spec c LF).
Qed.
Definition nl (s : string) : string := s +:+ String LF "".
Lemma split_inclusive_unlines l : Forall (lacks LF) l -> split_inclusive (unlines l) = map nl l.
Proof.
  induction 1 as [|x l H _ IH]; [reflexivity|]. cbn [unlines map]. by rewrite split_inclusive_line, IH.
Qed.
Lemma cat_nl l : cat (map nl l) = unlines l.
Proof.
  induction l as [|x l IH]; [reflexivity|]. cbn [map cat unlines]. unfold nl at 1.
  rewrite sapp_assoc, sapp_cons, sapp_nil. by rewrite IH.
Qed.
Lemma cat_app a b : cat (a ++ b) = cat a +:+ cat b.
Proof. induction a as [|x a IH]; [reflexivity|]. cbn [cat app]. by rewrite IH, sapp_assoc. Qed.
Lemma cat_split s : cat (split_inclusive s) = s.
Proof.
  induction s as [|c s IH]; [reflexivity|]. cbn [split_inclusive].
  destruct (Ascii.eqb_spec c LF) as [->|N]; [by cbn [cat]; rewrite IH|].
  destruct (split_inclusive s) as [|x xs]; cbn [cat] in *; [by rewrite <- IH|].
  by rewrite sapp_cons, IH.
Qed.
Lemma join_unlines l : l <> [] -> join (String LF "") l +:+ String LF "" = unlines l.
Proof.
  induction l as [|x [|y l] IH]; intros N; [done|reflexivity|].
  rewrite join_cons, !sapp_assoc, IH by done. reflexivity.
Qed.

(** ** The automaton reads back what was written *)

Lemma key_char_blank c : is_key_char c = true -> is_blank c = false /\ Ascii.eqb c ":" = false /\ Ascii.eqb c LF = false /\ is_space c = false /\ Ascii.eqb c "#" = false.
Proof. destruct c as [[] [] [] [] [] [] [] []]; vm_compute; intros H; try discriminate; auto. Qed.

Lemma parse_key k0 k s : all_chars (fun c => is_key_char c = true) k ->
  parse_trailers (InKey k0) (k +:+ s) = parse_trailers (InKey (k0 +:+ k)) s.
Proof.
  revert k0. induction k as [|c k IH]; intros k0 H; [by rewrite sapp_nil, sapp_nil_r|].
  apply all_chars_cons in H as [Hc H]. rewrite sapp_cons. cbn [parse_trailers]. unfold on_key_char. rewrite Hc.
  rewrite IH by done. unfold snoc. by rewrite sapp_assoc, sapp_cons, sapp_nil.
Qed.
Lemma parse_value k v0 v s : lacks LF v ->
  parse_trailers (InValue k v0) (v +:+ String LF s) = parse_trailers (AfterValue k (v0 +:+ v)) s.
Proof.
  revert v0. induction v as [|c v IH]; intros v0 H; [by rewrite sapp_nil, sapp_nil_r|].
  apply lacks_cons in H as [Hc H]. rewrite sapp_cons. cbn [parse_trailers].
  destruct (Ascii.eqb_spec c LF); [congruence|]. rewrite IH by done. unfold snoc.
  by rewrite sapp_assoc, sapp_cons, sapp_nil.
Qed.
Lemma parse_after k v s : (forall s', s <> String " " s') ->
  parse_trailers (AfterValue k v) s = (k, v) :: parse_trailers (InKey "") s.
Proof.
  intros H. destruct s as [|c s]; [reflexivity|]. cbn [parse_trailers].
  destruct (Ascii.eqb_spec c " ") as [->|N]; [by destruct (H s)|reflexivity].
Qed.
Lemma parse_line k v s : key_ok k -> value_ok v -> (forall s', s <> String " " s') ->
  parse_trailers (InKey "") ((k +:+ ": " +:+ v) +:+ String LF s) = (k, v) :: parse_trailers (InKey "") s.
Proof.
  intros [_ Hk] (Hl & _ & _ & c & v' & -> & N1 & N2) Hs. rewrite !sapp_assoc, parse_key by done.
  rewrite sapp_nil, !sapp_cons, sapp_nil. cbn [parse_trailers]. unfold on_key_char.
  change (is_key_char ":") with false. change (is_blank ":") with false. cbn [Ascii.eqb Bool.eqb].
  change (is_blank " ") with true. cbn match.
  assert (is_blank c = false) as ->.
  { unfold is_blank. destruct (Ascii.eqb_spec c " "); [done|]. by destruct (Ascii.eqb_spec c "009"). }
  apply lacks_cons in Hl as [_ Hl]. rewrite parse_value by done. rewrite sapp_cons, sapp_nil. by apply parse_after.
Qed.
Definition texts (ts : list (string * string)) : list string := map trailer_line ts.
Definition trailers_ok (ts : list (string * string)) : Prop := Forall (fun kv => key_ok (fst kv) /\ value_ok (snd kv)) ts.
Lemma key_first k : key_ok k -> exists c k', k = String c k' /\ is_key_char c = true.
Proof. intros [N H]. destruct k as [|c k]; [done|]. apply all_chars_cons in H as [? _]. eauto. Qed.
Lemma parse_all ts : trailers_ok ts -> parse_trailers (InKey "") (unlines (texts ts)) = ts.
Proof.
  induction 1 as [|[k v] ts [Hk Hv] Hts IH]; [reflexivity|]. unfold texts. cbn [map unlines].
  unfold trailer_line at 1. cbn [fst snd] in *. rewrite parse_line; [by fold (texts ts); rewrite IH|done|done|].
  destruct Hts as [|[k2 v2] ts [Hk2 _] _]; [done|]. cbn [map unlines]. unfold trailer_line. cbn [fst snd] in *.
  apply key_first in Hk2 as (c & k' & -> & Hc). rewrite !sapp_cons. intros s' [= -> _]. discriminate.
Qed.

(** ** The lines of trailers are found *)

Lemma trailer_line_lacks k v : key_ok k -> value_ok v -> lacks LF (trailer_line (k, v)).
Proof.
  intros [_ Hk] (Hl & _). unfold trailer_line. cbn [fst snd]. rewrite !lacks_app. split_and!.
  - by apply (all_chars_lacks (fun c => is_key_char c = true)).
  - by apply (bool_decide_unpack _).
  - done.
Qed.
Lemma find_separator_key k s n : all_chars (fun c => is_key_char c = true) k ->
  find_separator (k +:+ String ":" s) n false = n + String.length k.
Proof.
  revert n. induction k as [|c k IH]; intros n H.
  - rewrite sapp_nil. cbn. lia.
  - apply all_chars_cons in H as [Hc H]. rewrite sapp_cons. cbn [find_separator].
    destruct (key_char_blank c Hc) as (_ & E & _). rewrite E, Hc. cbn [negb andb]. rewrite IH by done. cbn. lia.
Qed.
(** What is needed of a line. *)
Definition good_line (l : string) : Prop :=
  is_comment l = false /\ is_blank_line l = false /\ is_patch_line l = false
  /\ String.prefix (String LF "") l = false /\ String.prefix ("Conflicts:" +:+ String LF "") l = false
  /\ (1 <= find_separator l 0 false) /\ starts_space l = false.
Lemma prefix_app a b c : String.prefix (a +:+ b) (a +:+ c) = String.prefix b c.
Proof. induction a as [|x a IH]; [reflexivity|]. rewrite !sapp_cons. cbn [String.prefix]. by destruct (ascii_dec x x). Qed.
Lemma prefix_key_space k w s : all_chars (fun c => is_key_char c = true) k ->
  all_chars (fun c => is_key_char c = true) w ->
  String.prefix (w +:+ String ":" (String LF "")) (k +:+ String ":" (String " " s)) = false.
Proof.
  revert k. induction w as [|c w IH]; intros k Hk Hw.
  - rewrite sapp_nil. destruct k as [|d k]; [reflexivity|]. apply all_chars_cons in Hk as [Hd _].
    rewrite sapp_cons. cbn [String.prefix]. destruct (ascii_dec ":" d) as [<-|]; [discriminate|done].
  - apply all_chars_cons in Hw as [Hc Hw]. rewrite sapp_cons. destruct k as [|d k].
    + rewrite sapp_nil. cbn [String.prefix]. destruct (ascii_dec c ":") as [->|]; [discriminate|done].
    + apply all_chars_cons in Hk as [_ Hk]. rewrite sapp_cons. cbn [String.prefix].
      destruct (ascii_dec c d); [by apply IH|done].
Qed.
Lemma trailer_good k v : key_ok k -> good_line (nl (trailer_line (k, v))).
Proof.
  intros H. pose proof (key_first k H) as (c & k' & E & Hc). destruct H as [_ H].
  destruct (key_char_blank c Hc) as (B & _ & B1 & B2 & B3). unfold good_line, nl, trailer_line. cbn [fst snd].
  rewrite !sapp_assoc. split_and!.
  - subst k. rewrite sapp_cons. cbn [is_comment]. done.
  - subst k. rewrite sapp_cons. cbn [is_blank_line]. by rewrite B1, B2.
  - clear E c k' Hc B B1 B2 B3. destruct k as [|c1 [|c2 [|c3 [|c4 k]]]]; rewrite ?sapp_cons, ?sapp_nil; cbn [is_patch_line].
    + by destruct (v +:+ String LF "") as [|? [|? ?]].
    + destruct (v +:+ String LF ""); [done|]. by rewrite andb_false_r.
    + by rewrite andb_false_r.
    + by rewrite andb_false_r.
    + repeat (apply all_chars_cons in H as [? H]). destruct (key_char_blank c4) as (_ & _ & _ & -> & _); [done|].
      by rewrite andb_false_r.
  - subst k. rewrite sapp_cons. cbn [String.prefix]. destruct (ascii_dec LF c) as [<-|]; [discriminate|done].
  - change (": " +:+ v +:+ String LF "") with (String ":" (String " " (v +:+ String LF ""))).
    change ("Conflicts:" +:+ String LF "") with ("Conflicts" +:+ String ":" (String LF "")).
    apply prefix_key_space; [done|]. repeat (apply all_chars_cons; split; [reflexivity|]). apply all_chars_nil.
  - change (": " +:+ v +:+ String LF "") with (String ":" (String " " (v +:+ String LF ""))).
    rewrite find_separator_key by done. subst k. cbn. lia.
  - subst k. rewrite sapp_cons. cbn [starts_space]. done.
Qed.

Lemma block_found l after os rec n : Forall good_line l -> (l = [] -> os = false /\ 1 <= n) ->
  trailer_block (l ++ [String LF ""]) after os rec n 0 0 = Some ("" :: rev l ++ after).
Proof.
  intros F. revert after os rec n. induction F as [|x l (G1 & G2 & _ & _ & _ & G3 & G4) F IH]; intros after os rec n H.
  - destruct H as [-> H]; [done|]. cbn [app trailer_block]. change (is_comment (String LF "")) with false.
    change (is_blank_line (String LF "")) with true. cbn match.
    assert (Nat.ltb 0 n = true) as -> by (apply Nat.ltb_lt; lia). rewrite orb_true_r. reflexivity.
  - cbn [app trailer_block]. rewrite G1, G2. cbn [rev]. rewrite <- app_assoc.
    destruct (is_generated x); [by rewrite IH by (split; [done|lia])|].
    rewrite (proj2 (Nat.leb_le _ _) G3), G4. cbn [andb negb]. by rewrite IH by (split; [done|lia]).
Qed.
Lemma before_patch_all ls : Forall (fun l => is_patch_line l = false) ls -> before_patch ls = ls.
Proof. induction 1 as [|x l H _ IH]; [reflexivity|]. cbn [before_patch]. by rewrite H, IH. Qed.
Lemma non_trailer_good l bol : Forall good_line l -> non_trailer_start l bol 0 false = 0.
Proof.
  intros F. revert bol. induction F as [|x l (G1 & _ & _ & G2 & G3 & _) F IH]; intros bol; [reflexivity|].
  cbn [non_trailer_start]. rewrite G1, G2, G3. cbn [orb andb Nat.eqb]. apply IH.
Qed.

Lemma title_lines_title t : title_ok t -> exists c t', nl t = String c t' /\ is_space c = false /\ c <> "#"%char
  /\ is_patch_line (nl t) = false.
Proof.
  intros (L & _ & _ & (c & t' & -> & S & N) & P & N3). unfold nl in *. rewrite sapp_cons. exists c, (t' +:+ String LF "").
  split_and!; [done..|].
  destruct t' as [|c2 [|c3 [|c4 t']]]; rewrite ?sapp_cons, ?sapp_nil; try reflexivity; cbn [is_patch_line].
  - destruct (Ascii.eqb_spec c "-") as [->|]; [|reflexivity].
    destruct (Ascii.eqb_spec c2 "-") as [->|]; [|reflexivity].
    destruct (Ascii.eqb_spec c3 "-") as [->|]; [|reflexivity]. congruence.
  - destruct (Ascii.eqb_spec c "-") as [->|]; [|reflexivity].
    destruct (Ascii.eqb_spec c2 "-") as [->|]; [|reflexivity].
    destruct (Ascii.eqb_spec c3 "-") as [->|]; [|reflexivity]. cbn [andb].
    destruct (is_space c4) eqn:E; [|reflexivity]. exfalso. apply P. eauto.
Qed.

Lemma paragraph_block title ts : title_ok title -> trailers_ok ts -> ts <> [] ->
  extract_trailer_block (paragraph title ts) = unlines (texts ts).
Proof.
  intros Ht Hts N. unfold extract_trailer_block, paragraph. fold trailer_line. fold (texts ts).
  assert (Forall (lacks LF) (texts ts)) as HL.
  { apply Forall_map. eapply Forall_impl; [exact Hts|]. intros [k v] [? ?]. by apply trailer_line_lacks. }
  assert (Forall good_line (map nl (texts ts))) as HG.
  { unfold texts. rewrite map_map. apply Forall_map. eapply Forall_impl; [exact Hts|].
    intros [k v] [? ?]. by apply trailer_good. }
  assert (title +:+ String LF (String LF (unlines (texts ts))) = unlines (title :: "" :: texts ts)) as -> by reflexivity.
  pose proof (proj1 Ht) as Hlt.
  rewrite split_inclusive_unlines by (constructor; [done|constructor; [apply lacks_nil|done]]).
  cbn [map]. change (nl "") with (String LF "").
  destruct (title_lines_title title Ht) as (c & t' & Et & Sc & Nc & Pt).
  rewrite before_patch_all.
  2: { constructor; [done|]. constructor; [done|]. eapply Forall_impl; [exact HG|]. intros x (_ & _ & ? & _). done. }
  assert (is_comment (nl title) = false) as C1.
  { rewrite Et. cbn [is_comment]. by destruct (Ascii.eqb_spec c "#"). }
  assert (is_blank_line (nl title) = false) as C2.
  { rewrite Et. cbn [is_blank_line]. rewrite Sc. destruct (Ascii.eqb_spec c LF) as [->|]; [discriminate|done]. }
  assert (String.prefix (String LF "") (nl title) = false) as C3.
  { rewrite Et. cbn [String.prefix]. destruct (ascii_dec LF c) as [<-|]; [discriminate|done]. }
  assert (before_comments (nl title :: String LF "" :: map nl (texts ts)) = nl title :: String LF "" :: map nl (texts ts)) as ->.
  { unfold before_comments. set (ls := nl title :: _).
    assert (non_trailer_start ls 0 0 false = 0) as ->; [|done]. subst ls. cbn [non_trailer_start].
    rewrite C1, C3. cbn [orb Nat.eqb andb].
    assert (forall b, non_trailer_start (String LF "" :: map nl (texts ts)) 1 0 b = 0) as H0.
    { intros b. cbn [non_trailer_start]. change (is_comment (String LF "")) with false.
      change (String.prefix (String LF "") (String LF "")) with true. cbn [orb Nat.eqb].
      destruct (map nl (texts ts)) as [|x l] eqn:E.
      { apply map_eq_nil in E. apply map_eq_nil in E. done. }
      inversion HG as [|? ? (G1 & _ & _ & G2 & G3 & _ & G4) HG']; subst. cbn [non_trailer_start].
      rewrite G1, G2, G3. cbn [orb].
      assert (String.prefix (String "009" "") x = false) as ->.
      { destruct x as [|d x]; [done|]. cbn [String.prefix]. destruct (ascii_dec "009" d) as [<-|]; [discriminate|done]. }
      rewrite andb_false_r. cbn [Nat.eqb]. by apply non_trailer_good. }
    match goal with |- context [if ?b then _ else _] => destruct b end; apply H0. }
  assert (title_lines (nl title :: String LF "" :: map nl (texts ts)) = 1) as ->.
  { cbn [title_lines]. rewrite C1, C2. reflexivity. }
  cbn [Nat.eqb drop]. cbn [rev].
  rewrite block_found.
  - rewrite rev_involutive, app_nil_r. cbn [cat]. by rewrite sapp_nil, cat_nl.
  - by apply Forall_rev.
  - intros E. apply (f_equal (@length _)) in E. rewrite rev_length, !map_length in E. by destruct ts.
Qed.

Lemma unlines_utf8 l : Forall (fun x => utf8 x = true) l -> utf8 (unlines l) = true.
Proof.
  induction 1 as [|x l H _ IH]; [reflexivity|]. cbn [unlines]. rewrite utf8_app by done.
  change (String LF (unlines l)) with (String LF "" +:+ unlines l). by rewrite utf8_app.
Qed.
Lemma unlines_nul l : Forall (lacks NUL) l -> lacks NUL (unlines l).
Proof.
  induction 1 as [|x l H _ IH]; [apply lacks_nil|]. cbn [unlines]. apply lacks_app. split; [done|].
  apply lacks_cons. by split.
Qed.
Lemma key_ascii c : is_key_char c = true -> (N_of_ascii c <= 127)%N.
Proof. destruct c as [[] [] [] [] [] [] [] []]; vm_compute; intros H; congruence. Qed.
Lemma key_utf8 k : key_ok k -> utf8 k = true.
Proof.
  intros [_ H]. rewrite <- (sapp_nil_r k), utf8_plain; [done|]. eapply all_chars_impl; [|exact H]. apply key_ascii.
Qed.

Lemma paragraph_trailers title ts : title_ok title -> trailers_ok ts -> ts <> [] ->
  get_trailers (paragraph title ts) = Some ts.
Proof.
  intros Ht Hts N. unfold get_trailers. rewrite paragraph_block, parse_all by done.
  assert (utf8 (paragraph title ts) = true) as ->.
  { unfold paragraph. destruct Ht as (_ & Hu & _). rewrite utf8_app by done.
    change (String LF (String LF ?x)) with (String LF (String LF "") +:+ x). rewrite utf8_app by done.
    apply unlines_utf8. apply Forall_map. eapply Forall_impl; [exact Hts|]. intros [k v] [Hk (_ & Hv & _)]. cbn [fst snd] in *.
    rewrite utf8_app by (by apply key_utf8). by rewrite utf8_app. }
  assert (has_nul (paragraph title ts) = false) as ->.
  { apply has_nul_false. unfold paragraph. destruct Ht as (_ & _ & Hn & _). apply lacks_app. split; [done|].
    apply lacks_cons. split; [done|]. apply lacks_cons. split; [done|].
    apply unlines_nul. apply Forall_map. eapply Forall_impl; [exact Hts|]. intros [k v] [[_ Hk] (_ & _ & Hv & _)]. cbn [fst snd] in *.
    rewrite !lacks_app. split_and!; [|by apply (bool_decide_unpack _)|done].
    by apply (all_chars_lacks (fun c => is_key_char c = true)). }
  cbn [negb orb]. f_equal. clear N. induction Hts as [|[k v] ts [Hk (_ & Hv & _)] Hts IH]; [reflexivity|].
  cbn [List.filter fst snd] in *. rewrite key_utf8, Hv by done. cbn [andb]. by rewrite IH.
Qed.

(** ** The message of a snapshot *)

Lemma hex_value_ok o : value_ok (oid_to_string o).
Proof.
  unfold oid_to_string. set (l := map hex_char (hex_digits 40 o)).
  assert (Forall (fun c => (48 <= N_of_ascii c <= 122)%N) l) as H.
  { apply Forall_map. eapply Forall_impl; [apply hex_digits_small|]. intros d Hd. cbn beta in Hd. unfold hex_char.
    destruct (N.ltb_spec d 10); rewrite N_ascii_embedding; lia. }
  assert (length l = 40) as L by (unfold l; by rewrite map_length, hex_digits_length).
  assert (all_chars (fun c => (48 <= N_of_ascii c <= 122)%N) (string_of_list l)) as A.
  { unfold all_chars, string_of_list. by rewrite list_ascii_of_string_of_list_ascii. }
  split_and!.
  - apply (all_chars_lacks _ LF) in A; [done|]. vm_compute. intros [H1 _]. by apply H1.
  - rewrite <- (sapp_nil_r (string_of_list l)), utf8_plain; [done|]. eapply all_chars_impl; [|exact A]. cbn. lia.
  - apply (all_chars_lacks _ NUL) in A; [done|]. vm_compute. intros [H1 _]. by apply H1.
  - destruct l as [|c l]; [done|]. exists c, (string_of_list l). split; [reflexivity|].
    apply Forall_cons in H as [[H _] _]. split; intros ->; by vm_compute in H.
Qed.
Lemma ref_value_ok r : ref_ok r -> value_ok r.
Proof.
  intros (N & U & A). split_and!; [|done|..].
  - apply (all_chars_lacks _ LF) in A; [done|]. by vm_compute.
  - apply (all_chars_lacks _ NUL) in A; [done|]. by vm_compute.
  - destruct r as [|c r]; [done|]. exists c, r. split; [done|]. apply all_chars_cons in A as [A _].
    split; intros ->; by vm_compute in A.
Qed.
Definition all_key (k : string) : bool := negb (String.eqb k "") && forallb is_key_char (list_ascii_of_string k).
Lemma all_key_ok k : all_key k = true -> key_ok k.
Proof.
  unfold all_key. intros [H1 H2]%andb_true_iff. split.
  - intros ->. discriminate.
  - unfold all_chars. apply Forall_forall. intros c Hc. rewrite forallb_forall in H2. by apply H2, elem_of_list_In.
Qed.
Lemma snapshot_trailers_ok s : snapshot_ok s -> trailers_ok (snapshot_trailers s).
Proof.
  intros (_ & Hr & _). unfold trailers_ok, snapshot_trailers.
  assert (forall m, value_ok (moid_to_string m)) as Hm.
  { intros [|o]; cbn [moid_to_string]; apply hex_value_ok. }
  constructor; [split; [by apply all_key_ok|apply Hm]|]. apply Forall_app. split.
  - destruct (ws_ref s) as [r|] eqn:E; [|constructor]. constructor; [|constructor].
    split; [by apply all_key_ok|]. by apply ref_value_ok, Hr.
  - repeat (constructor; [split; [by apply all_key_ok|apply hex_value_ok]|]). constructor.
Qed.
Lemma snapshot_title_ok : title_ok snapshot_title.
Proof.
  unfold title_ok. split_and!.
  - by apply (bool_decide_unpack _).
  - by vm_compute.
  - by apply (bool_decide_unpack _).
  - unfold snapshot_title. eexists _, _. split_and!; [reflexivity|by vm_compute|done].
  - intros (c & t & E & _). discriminate.
  - discriminate.
Qed.
Lemma snapshot_message_paragraph s : snapshot_message s = paragraph snapshot_title (snapshot_trailers s).
Proof.
  unfold snapshot_message, paragraph. rewrite join_unlines; [reflexivity|]. unfold snapshot_trailers. discriminate.
Qed.
Lemma snapshot_get_trailers s : snapshot_ok s -> get_trailers (snapshot_message s) = Some (snapshot_trailers s).
Proof.
  intros H. rewrite snapshot_message_paragraph. apply paragraph_trailers;
    [apply snapshot_title_ok|by apply snapshot_trailers_ok|discriminate].
Qed.

(** Looking for the trailers of a snapshot, among those of a message that has the same
    trailers with another title. *)
Lemma find_other st k v ts key : k <> key -> find_commit st ((k, v) :: ts) key = find_commit st ts key.
Proof. intros N. cbn [find_commit]. by destruct (String.eqb_spec k key). Qed.
Lemma find_here st k o ts : id_ok o ->
  find_commit st ((k, oid_to_string o) :: ts) k = match st !! o with Some _ => Found o | None => Missing end.
Proof.
  intros [H1 H2]. cbn [find_commit]. rewrite String.eqb_refl.
  pose proof (moid_text_round_trip (NonZero o)) as E. cbn [moid_ok moid_to_string] in E.
  rewrite E; [done|]. unfold oid_ok, oid_limit. lia.
Qed.
Lemma find_zero st k ts : find_commit st ((k, moid_to_string Zero) :: ts) k = NotFound.
Proof. cbn [find_commit]. rewrite String.eqb_refl. by rewrite moid_text_round_trip. Qed.

Ltac skip_trailers := repeat (rewrite find_other by discriminate).
Lemma find_skip_ref st (r : option refname) ts key : ref_key <> key ->
  find_commit st (match r with Some b => [(ref_key, b)] | None => [] end ++ ts) key = find_commit st ts key.
Proof. intros N. destruct r; cbn [app]; [by rewrite find_other|done]. Qed.
Lemma find_ref_snapshot s : find_ref (snapshot_trailers s) = ws_ref s.
Proof. unfold find_ref, snapshot_trailers. by destruct (ws_ref s). Qed.

Definition look (st : cstore) (o : oid) : found := match st !! o with Some _ => Found o | None => Missing end.
Lemma find_in_snapshot st s : snapshot_ok s ->
  find_commit st (snapshot_trailers s) head_key = match ws_head s with Some o => look st o | None => NotFound end /\
  find_commit st (snapshot_trailers s) unstaged_key = look st (ws_unstaged s) /\
  find_commit st (snapshot_trailers s) stage0_key = look st (ws_stage0 s) /\
  find_commit st (snapshot_trailers s) stage1_key = look st (ws_stage1 s) /\
  find_commit st (snapshot_trailers s) stage2_key = look st (ws_stage2 s) /\
  find_commit st (snapshot_trailers s) stage3_key = look st (ws_stage3 s).
Proof.
  intros (Hh & _ & H & H0 & H1 & H2 & H3). unfold snapshot_trailers. split.
  { destruct (ws_head s) as [o|]; [by apply find_here, Hh|apply find_zero]. }
  split_and!; rewrite find_other by discriminate; rewrite find_skip_ref by discriminate; skip_trailers; by apply find_here.
Qed.

(** Reopening succeeds if all commits are there, and is an error otherwise. *)
Lemma reopen_trailers st m s : snapshot_ok s -> get_trailers m = Some (snapshot_trailers s) ->
  (present st (data_commits s) -> try_from_base_commit st m = Opened s) /\
  (~ present st (data_commits s) -> try_from_base_commit st m = OpenError).
Proof.
  intros Hs Hm. destruct (find_in_snapshot st s Hs) as (Fh & Fu & F0 & F1 & F2 & F3).
  unfold try_from_base_commit. rewrite Hm, Fh, Fu, F0, F1, F2, F3, find_ref_snapshot. unfold look.
  unfold present, data_commits. destruct s as [h r u c0 c1 c2 c3]. cbn [ws_head ws_ref ws_unstaged ws_stage0 ws_stage1 ws_stage2 ws_stage3].
  split.
  - intros P.
    assert (is_Some (st !! u)) as [? ->] by (apply P, elem_of_app; right; repeat (apply elem_of_cons; first [by left|right])).
    assert (is_Some (st !! c0)) as [? ->] by (apply P, elem_of_app; right; repeat (apply elem_of_cons; first [by left|right])).
    assert (is_Some (st !! c1)) as [? ->] by (apply P, elem_of_app; right; repeat (apply elem_of_cons; first [by left|right])).
    assert (is_Some (st !! c2)) as [? ->] by (apply P, elem_of_app; right; repeat (apply elem_of_cons; first [by left|right])).
    assert (is_Some (st !! c3)) as [? ->] by (apply P, elem_of_app; right; repeat (apply elem_of_cons; first [by left|right])).
    destruct h as [h|]; [|reflexivity].
    assert (is_Some (st !! h)) as [? ->] by (apply P, elem_of_app; left; by apply elem_of_list_singleton). reflexivity.
  - intros P.
    destruct (st !! u) eqn:Eu, (st !! c0) eqn:E0, (st !! c1) eqn:E1, (st !! c2) eqn:E2, (st !! c3) eqn:E3;
      cbn [with_commit]; try (by destruct h as [h|]; [destruct (st !! h)|]).
    destruct h as [h|]; [destruct (st !! h) eqn:Eh; [|done]|]; exfalso; apply P; intros o Ho;
      repeat (apply elem_of_cons in Ho as [->|Ho]; [eauto|]); by apply elem_of_nil in Ho.
Qed.

(** ** Every trailer is a line of the message *)

Lemma line_start_nil : line_start "". Proof. by left. Qed.
Lemma line_start_lf p : line_start (p +:+ String LF ""). Proof. right. eauto. Qed.

(** The text read since the beginning of the line. *)
Inductive read : tstate -> string -> Prop :=
| r_key k : read (InKey k) k
| r_after k ws : blanks ws -> read (AfterKey k) (k +:+ ws)
| r_before k ws ws' : blanks ws -> blanks ws' -> read (BeforeValue k) (k +:+ ws +:+ String ":" ws')
| r_value k ws ws' v : blanks ws -> blanks ws' -> read (InValue k v) (k +:+ ws +:+ String ":" (ws' +:+ v))
| r_done k ws ws' v : blanks ws -> blanks ws' ->
    read (AfterValue k v) (k +:+ ws +:+ String ":" (ws' +:+ v +:+ String LF ""))
| r_skip t : read Skip t.

Lemma is_blank_spec c : is_blank c = true <-> c = " "%char \/ c = "009"%char.
Proof.
  unfold is_blank. rewrite orb_true_iff. by rewrite !Ascii.eqb_eq.
Qed.
Lemma blanks_snoc ws c : blanks ws -> is_blank c = true -> blanks (ws +:+ String c "").
Proof.
  intros H1 H2. apply all_chars_app. split; [done|]. apply all_chars_cons. split; [by apply is_blank_spec|apply all_chars_nil].
Qed.
Lemma sapp_snoc a c s : a +:+ String c s = (a +:+ String c "") +:+ s.
Proof. by rewrite sapp_assoc. Qed.

Lemma parse_sound s : forall st pre txt k v, line_start pre -> read st txt ->
  (k, v) ∈ parse_trailers st s -> names_at (pre +:+ txt +:+ s) k v.
Proof.
  assert (forall pre txt k c, line_start pre -> read (InKey k) txt ->
    exists pre' txt', line_start pre' /\ read (on_key_char k c) txt' /\ pre +:+ txt +:+ String c "" = pre' +:+ txt') as OK.
  { intros pre txt k c Hp Hr. inversion Hr; subst. unfold on_key_char.
    destruct (is_key_char c); [exists pre, (snoc txt c); split_and!; [done|constructor|done]|].
    destruct (is_blank c) eqn:B.
    { exists pre, (txt +:+ String c ""). split_and!; [done| |done]. constructor. apply (blanks_snoc "" c); [apply all_chars_nil|done]. }
    destruct (Ascii.eqb_spec c ":") as [->|].
    { exists pre, (txt +:+ "" +:+ String ":" ""). split_and!; [done| |done]. constructor; apply all_chars_nil. }
    destruct (Ascii.eqb_spec c LF) as [->|].
    { exists ((pre +:+ txt) +:+ String LF ""), "". split_and!; [apply line_start_lf|constructor|by rewrite sapp_nil_r, sapp_assoc]. }
    exists pre, (txt +:+ String c ""). split_and!; [done|constructor|done]. }
  induction s as [|c s IH]; intros st pre txt k v Hp Hr Hi.
  - rewrite sapp_nil_r.
    destruct Hr as [k0|k0 ws B|k0 ws ws' B B'|k0 ws ws' v0 B B'|k0 ws ws' v0 B B'|t]; cbn [parse_trailers] in Hi;
      try (by apply elem_of_nil in Hi); apply elem_of_list_singleton in Hi as [= -> ->].
    + exists pre, ws, ws', "". split_and!; [by rewrite sapp_nil_r|done|done|done|by left].
    + exists pre, ws, ws', (String LF ""). split_and!; [done|done|done|done|right; left; eauto].
  - assert (forall st2 pre2 txt2, (k, v) ∈ parse_trailers st2 s -> line_start pre2 -> read st2 txt2 ->
        pre +:+ txt +:+ String c "" = pre2 +:+ txt2 -> names_at (pre +:+ txt +:+ String c s) k v) as NEXT.
    { intros st2 pre2 txt2 Hi2 Hp2 Hr2 E. rewrite (sapp_snoc txt c s), <- !sapp_assoc, (sapp_assoc pre txt), E, sapp_assoc.
      by apply (IH st2). }
    destruct st as [k0|k0|k0|k0 v0|k0 v0|]; cbn [parse_trailers] in Hi.
    + destruct (OK pre txt k0 c Hp Hr) as (pre2 & txt2 & H1 & H2 & H3). by apply (NEXT _ pre2 txt2 Hi).
    + inversion Hr as [|? ws B| | | |]; subst. destruct (is_blank c) eqn:EB.
      { apply (NEXT _ pre (k0 +:+ (ws +:+ String c "")) Hi); [done| |by rewrite !sapp_assoc].
        constructor. by apply blanks_snoc. }
      destruct (Ascii.eqb_spec c ":") as [->|].
      { apply (NEXT _ pre (k0 +:+ ws +:+ String ":" "") Hi); [done| |by rewrite !sapp_assoc].
        constructor; [done|apply all_chars_nil]. }
      destruct (Ascii.eqb_spec c LF) as [->|].
      { apply (NEXT _ ((pre +:+ k0 +:+ ws) +:+ String LF "") "" Hi); [apply line_start_lf|constructor|].
        by rewrite sapp_nil_r, !sapp_assoc. }
      apply (NEXT _ pre (k0 +:+ ws +:+ String c "") Hi); [done|constructor|by rewrite !sapp_assoc].
    + inversion Hr as [| |? ws ws' B B'| | |]; subst. destruct (is_blank c) eqn:EB.
      { apply (NEXT _ pre (k0 +:+ ws +:+ String ":" (ws' +:+ String c "")) Hi); [done| |by rewrite !sapp_assoc, sapp_cons].
        constructor; [done|]. by apply blanks_snoc. }
      apply (NEXT _ pre (k0 +:+ ws +:+ String ":" (ws' +:+ String c "")) Hi); [done| |by rewrite !sapp_assoc, sapp_cons].
      by constructor.
    + inversion Hr as [| | |? ws ws' ? B B'| |]; subst. destruct (Ascii.eqb_spec c LF) as [->|].
      { apply (NEXT _ pre (k0 +:+ ws +:+ String ":" (ws' +:+ v0 +:+ String LF "")) Hi); [done|by constructor|].
        by rewrite !sapp_assoc, sapp_cons, !sapp_assoc. }
      apply (NEXT _ pre (k0 +:+ ws +:+ String ":" (ws' +:+ snoc v0 c)) Hi); [done|by constructor|].
      unfold snoc. by rewrite !sapp_assoc, sapp_cons, !sapp_assoc.
    + inversion Hr as [| | | |? ws ws' ? B B'|]; subst. destruct (Ascii.eqb_spec c " ") as [->|N].
      { apply (NEXT _ pre (k0 +:+ ws +:+ String ":" (ws' +:+ snoc (snoc v0 LF) " ")) Hi); [done|by constructor|].
        unfold snoc. by rewrite !sapp_assoc, !sapp_cons, !sapp_assoc. }
      apply elem_of_cons in Hi as [[= -> ->]|Hi].
      { exists pre, ws, ws', (String LF (String c s)). split_and!; [|done|done|done|right; left; eauto].
        by rewrite !sapp_assoc, !sapp_cons, !sapp_assoc. }
      set (txt := k0 +:+ _) in *.
      assert (line_start (pre +:+ txt)) as HS.
      { unfold txt. right. exists (pre +:+ k0 +:+ ws +:+ String ":" (ws' +:+ v0)).
        by rewrite !sapp_assoc, !sapp_cons, !sapp_assoc. }
      destruct (OK (pre +:+ txt) "" "" c HS (r_key "")) as (pre2 & txt2 & H1 & H2 & H3).
      apply (NEXT _ pre2 txt2 Hi); [done|done|]. by rewrite <- H3, sapp_assoc.
    + destruct (Ascii.eqb_spec c LF) as [->|].
      { apply (NEXT _ ((pre +:+ txt) +:+ String LF "") "" Hi); [apply line_start_lf|constructor|].
        by rewrite sapp_nil_r, !sapp_assoc. }
      apply (NEXT _ pre (txt +:+ String c "") Hi); [done|constructor|done].
Qed.

(** The block of trailers begins a line of the message. *)
Fixpoint has_lf (s : string) : bool :=
  match s with EmptyString => false | String c s' => (Ascii.eqb c LF || has_lf s')%bool end.
Lemma has_lf_app a b : has_lf (a +:+ b) = (has_lf a || has_lf b)%bool.
Proof. induction a as [|c a IH]; [reflexivity|]. rewrite sapp_cons. cbn [has_lf]. by rewrite IH, orb_assoc. Qed.
Lemma next_line_spec s : has_lf s = true -> exists p, s = p +:+ String LF (next_line s).
Proof.
  induction s as [|c s IH]; intros H; [discriminate|]. cbn [has_lf next_line] in *.
  destruct (Ascii.eqb_spec c LF) as [->|]; [by exists ""|]. destruct (IH H) as [p E]. exists (String c p).
  by rewrite sapp_cons, <- E.
Qed.
(** All lines but the last end with a line feed. *)
Definition ends (s : string) : Prop := exists p, s = p +:+ String LF "".
Lemma ends_has s : ends s -> has_lf s = true.
Proof. intros [p ->]. rewrite has_lf_app. by apply orb_true_r. Qed.
Lemma ends_app a b : ends b -> ends (a +:+ b).
Proof. intros [p ->]. exists (a +:+ p). by rewrite sapp_assoc. Qed.
Lemma ends_cons c s : s <> "" -> ends (String c s) -> ends s.
Proof.
  intros N [p E]. destruct p as [|d p]; [rewrite sapp_nil in E; congruence|]. rewrite sapp_cons in E. exists p. congruence.
Qed.
Lemma ends_suffix a b : b <> "" -> ends (a +:+ b) -> ends b.
Proof.
  induction a as [|c a IH]; [by rewrite sapp_nil|]. intros N H. rewrite sapp_cons in H. apply IH; [done|].
  eapply ends_cons; [|exact H]. destruct a; [by rewrite sapp_nil|rewrite sapp_cons; discriminate].
Qed.
Fixpoint lined (ls : list string) : Prop :=
  match ls with
  | [] | [_] => True
  | x :: ls' => ends x /\ lined ls'
  end.
Lemma lined_cons x y ls : lined (x :: y :: ls) <-> ends x /\ lined (y :: ls). Proof. reflexivity. Qed.
Lemma split_inclusive_lined s : lined (split_inclusive s).
Proof.
  induction s as [|c s IH]; [done|]. cbn [split_inclusive]. destruct (Ascii.eqb_spec c LF) as [->|N].
  - destruct (split_inclusive s); [done|]. split; [by exists ""|done].
  - destruct (split_inclusive s) as [|x [|y xs]]; [done|done|]. apply lined_cons in IH as [H1 H2]. apply lined_cons.
    split; [by apply (ends_app (String c ""))|done].
Qed.
Lemma lined_app_l a b : lined (a ++ b) -> lined a.
Proof.
  induction a as [|x [|y a] IH]; intros H; [done|done|]. destruct H as [H1 H2]. split; [done|]. by apply IH.
Qed.
Lemma lined_app_r a b : lined (a ++ b) -> lined b.
Proof.
  induction a as [|x a IH]; intros H; [done|]. apply IH. cbn [app] in H. destruct (a ++ b) as [|y l]; [done|]. by destruct H.
Qed.
Lemma lined_more l b : lined (l ++ b) -> b <> [] -> Forall ends l.
Proof.
  intros H N. induction l as [|z l IH]; [constructor|]. cbn [app] in H.
  assert (exists w ws, l ++ b = w :: ws) as (w & ws & E) by (destruct l, b; cbn; eauto; done).
  rewrite E in *. destruct H as [H1 H2]. constructor; auto.
Qed.
Lemma lined_last l x y : lined (l ++ [x; y]) -> Forall (fun z => has_lf z = true) (l ++ [x]).
Proof.
  intros H. eapply Forall_impl; [|apply ends_has]. apply (lined_more _ [y]); [|done]. by rewrite <- app_assoc.
Qed.
Lemma cat_ends l : Forall ends l -> cat l = "" \/ ends (cat l).
Proof.
  induction 1 as [|x l H _ IH]; [by left|]. right. cbn [cat]. destruct IH as [->|IH]; [by rewrite sapp_nil_r|by apply ends_app].
Qed.

Lemma trailer_block_sound rl after os rec t o c b :
  trailer_block rl after os rec t o c = Some b ->
  lined (rev rl) -> (os = false -> Forall (fun z => has_lf z = true) rl) ->
  exists p, cat (rev rl ++ after) = p +:+ String LF (cat b).
Proof.
  revert after os rec t o c. induction rl as [|l rl IH]; intros after os rec t o c H L F; [discriminate|].
  assert (lined (rev rl)) as L'.
  { cbn [rev] in L. by apply lined_app_l in L. }
  assert (forall os', (os' = false -> Forall (fun z => has_lf z = true) rl)) as F'.
  { intros _ _. cbn [rev] in L. destruct rl as [|x rl]; [constructor|]. cbn [rev] in L. rewrite <- app_assoc in L. cbn [app] in L.
    apply lined_last in L. apply Forall_app in L as [L1 L2]. constructor; [by inversion L2|].
    apply Forall_rev in L1. by rewrite rev_involutive in L1. }
  assert (forall os' rec' t' o' c', trailer_block rl (l :: after) os' rec' t' o' c' = Some b ->
    exists p, cat (rev (l :: rl) ++ after) = p +:+ String LF (cat b)) as REC.
  { intros os' rec' t' o' c' H'. cbn [rev]. rewrite <- app_assoc. cbn [app]. eapply IH; [exact H'|done|apply F']. }
  cbn [trailer_block] in H.
  destruct (is_comment l); [by eapply REC|].
  destruct (is_blank_line l).
  - destruct os; [by eapply REC|]. destruct (_ || _)%bool; [|discriminate]. injection H as <-.
    specialize (F eq_refl). inversion F as [|? ? Hl _]; subst. destruct (next_line_spec l Hl) as [p E].
    exists (cat (rev rl) +:+ p).
    cbn [rev]. rewrite <- app_assoc. cbn [app]. rewrite cat_app. cbn [cat]. rewrite E at 1.
    by rewrite !sapp_assoc, !sapp_cons.
  - destruct (is_generated l); [by eapply REC|].
    destruct (_ && _)%bool; [by eapply REC|].
    destruct (starts_space l); by eapply REC.
Qed.
Lemma before_patch_prefix ls : exists r, ls = before_patch ls ++ r.
Proof.
  induction ls as [|x ls [r IH]]; [by exists []|]. cbn [before_patch]. destruct (is_patch_line x); [by exists (x :: ls)|].
  exists r. cbn [app]. by rewrite <- IH.
Qed.
Lemma before_comments_prefix ls : exists r, ls = before_comments ls ++ r.
Proof.
  unfold before_comments. destruct (Nat.eqb _ 0); [exists []; by rewrite app_nil_r|].
  eexists. symmetry. apply take_drop.
Qed.
Lemma last_lines_cat ls : cat (last_lines ls) = cat ls.
Proof.
  destruct ls as [|x [|y ls]]; [done..|]. cbn [last_lines]. destruct (String.eqb _ _); [|done]. cbn [cat]. by rewrite sapp_assoc.
Qed.
Lemma last_lines_lined ls : lined ls -> lined (last_lines ls).
Proof.
  destruct ls as [|x [|y ls]]; [done..|]. cbn [last_lines]. destruct (String.eqb _ _); [|done].
  intros [H1 H2]. destruct ls as [|z ls]; [done|]. destruct H2 as [H2 H3]. split; [|done]. by apply ends_app.
Qed.

Lemma block_sound m : extract_trailer_block m = "" \/
  exists p post, m = p +:+ String LF (extract_trailer_block m +:+ post)
    /\ (post = "" \/ ends (extract_trailer_block m)).
Proof.
  unfold extract_trailer_block. set (ls0 := split_inclusive m).
  pose proof (split_inclusive_lined m) as L0. fold ls0 in L0.
  destruct (before_patch_prefix ls0) as [r1 E1]. destruct (before_comments_prefix (before_patch ls0)) as [r2 E2].
  set (ls := before_comments (before_patch ls0)) in *. rewrite E2 in E1. rewrite <- app_assoc in E1.
  assert (lined ls) as L by (rewrite E1 in L0; by apply lined_app_l in L0).
  set (ls' := if Nat.eqb (title_lines ls) 0 then last_lines ls else drop (title_lines ls) ls).
  assert (exists q, cat ls = q +:+ cat ls') as [q Eq].
  { unfold ls'. destruct (Nat.eqb _ 0).
    - exists "". by rewrite last_lines_cat.
    - exists (cat (take (title_lines ls) ls)). by rewrite <- cat_app, take_drop. }
  assert (lined ls') as L'.
  { unfold ls'. destruct (Nat.eqb _ 0); [by apply last_lines_lined|]. rewrite <- (take_drop (title_lines ls) ls) in L.
    by apply lined_app_r in L. }
  destruct (trailer_block _ _ _ _ _ _ _) as [b|] eqn:Eb; [|by left].
  apply trailer_block_sound in Eb as [p Ep]; [|by rewrite rev_involutive|done].
  rewrite rev_involutive, app_nil_r in Ep.
  destruct (decide (cat b = "")) as [Nb|Nb]; [by left|]. right. exists (q +:+ p), (cat (r2 ++ r1)). split.
  { rewrite <- (cat_split m). fold ls0. rewrite E1, cat_app, Eq, Ep. by rewrite !sapp_assoc, sapp_cons. }
  destruct (decide (r2 ++ r1 = [])) as [->|Nr]; [by left|]. right.
  rewrite E1 in L0. apply lined_more in L0; [|done]. apply cat_ends in L0.
  rewrite Eq, Ep in L0. rewrite sapp_snoc, <- !sapp_assoc in L0. destruct L0 as [L0|L0]; [|by apply ends_suffix in L0].
  exfalso. rewrite !sapp_assoc in L0. destruct q; [|discriminate]. destruct p; discriminate.
Qed.
Lemma trailers_sound m ts k v : get_trailers m = Some ts -> (k, v) ∈ ts -> names_at m k v.
Proof.
  unfold get_trailers. destruct (_ || _)%bool; [discriminate|]. intros [= <-] Hi.
  apply elem_of_list_In, filter_In in Hi as [Hi _]. apply elem_of_list_In in Hi.
  destruct (block_sound m) as [E|(p & post & E & HE)]; [rewrite E in Hi; by apply elem_of_nil in Hi|].
  set (b := extract_trailer_block m) in *.
  destruct (parse_sound b (InKey "") (p +:+ String LF "") "" k v (line_start_lf p) (r_key "") Hi)
    as (pre & ws & ws' & post' & E' & H1 & H2 & H3 & H4).
  exists pre, ws, ws', (post' +:+ post). split_and!; [|done|done|done|].
  - rewrite E. rewrite sapp_nil in E'. rewrite sapp_snoc, <- sapp_assoc, E'. by rewrite !sapp_assoc, sapp_cons, !sapp_assoc.
  - destruct H4 as [->|[[w ->]|H4]].
    + rewrite sapp_nil. destruct HE as [->|HE]; [by left|]. right. right.
      rewrite sapp_nil, sapp_nil_r in E'. assert (ends ((p +:+ String LF "") +:+ b)) as HX by by apply ends_app.
      rewrite E' in HX. 
      destruct (decide (v = "")) as [->|Nv].
      { exfalso. rewrite sapp_nil_r in HX. rewrite <- !sapp_assoc in HX.
        apply (ends_suffix ((pre +:+ k) +:+ ws)) in HX; [|done].
        destruct (decide (ws' = "")) as [->|Nw].
        - destruct HX as [[|x y] HX]; discriminate HX || (rewrite sapp_cons in HX; destruct y; discriminate).
        - apply ends_cons in HX; [|done]. destruct HX as [x ->]. apply all_chars_app in H3 as [_ H3].
          apply all_chars_cons in H3 as [[H3|H3] _]; discriminate. }
      rewrite <- !sapp_assoc in HX. change (String ":" (ws' +:+ v)) with (String ":" ws' +:+ v) in HX.
      rewrite <- !sapp_assoc in HX. by apply ends_suffix in HX.
    + right. left. rewrite sapp_cons. eauto.
    + by right; right.
Qed.

(** ** Commits that are recognised *)

Lemma find_commit_found st ts key o : find_commit st ts key = Found o ->
  exists v, (key, v) ∈ ts /\ moid_from_string v = Some (NonZero o) /\ is_Some (st !! o).
Proof.
  induction ts as [|[k v] ts IH]; intros H; [discriminate|]. cbn [find_commit] in H.
  destruct (String.eqb_spec k key) as [->|].
  - destruct (moid_from_string v) as [[|o']|] eqn:E.
    + discriminate.
    + destruct (st !! o') eqn:E2; [|discriminate]. injection H as <-. exists v. split_and!; [left|done|eauto].
    + destruct (IH H) as (v' & H1 & H2). exists v'. split; [by right|done].
  - destruct (IH H) as (v' & H1 & H2). exists v'. split; [by right|done].
Qed.
Lemma with_commit_opened f k s : with_commit f k = Opened s -> exists o, f = Found o /\ k o = Opened s.
Proof. destruct f; [eauto|discriminate..]. Qed.
Definition recorded (st : cstore) (m key : string) (o : oid) : Prop :=
  exists v, names_at m key v /\ moid_from_string v = Some (NonZero o) /\ is_Some (st !! o).
Lemma opened_sound st m s : try_from_base_commit st m = Opened s ->
  (forall o, ws_head s = Some o -> recorded st m head_key o) /\
  (forall r, ws_ref s = Some r -> names_at m ref_key r) /\
  recorded st m unstaged_key (ws_unstaged s) /\
  recorded st m stage0_key (ws_stage0 s) /\ recorded st m stage1_key (ws_stage1 s) /\
  recorded st m stage2_key (ws_stage2 s) /\ recorded st m stage3_key (ws_stage3 s).
Proof.
  unfold try_from_base_commit. destruct (get_trailers m) as [ts|] eqn:Et; [|discriminate]. intros H.
  assert (forall key o, find_commit st ts key = Found o -> recorded st m key o) as R.
  { intros key o F. apply find_commit_found in F as (v & H1 & H2 & H3). exists v. split_and!; [by apply (trailers_sound m ts)|done|done]. }
  assert (forall h : option oid, (forall o, h = Some o -> find_commit st ts head_key = Found o) ->
    with_commit (find_commit st ts unstaged_key) (fun u =>
      with_commit (find_commit st ts stage0_key) (fun c0 =>
      with_commit (find_commit st ts stage1_key) (fun c1 =>
      with_commit (find_commit st ts stage2_key) (fun c2 =>
      with_commit (find_commit st ts stage3_key) (fun c3 =>
        Opened (WSnapshot h (find_ref ts) u c0 c1 c2 c3)))))) = Opened s ->
    (forall o, ws_head s = Some o -> recorded st m head_key o) /\
    (forall r, ws_ref s = Some r -> names_at m ref_key r) /\
    recorded st m unstaged_key (ws_unstaged s) /\
    recorded st m stage0_key (ws_stage0 s) /\ recorded st m stage1_key (ws_stage1 s) /\
    recorded st m stage2_key (ws_stage2 s) /\ recorded st m stage3_key (ws_stage3 s)) as G.
  { clear H. intros h Hh H.
    apply with_commit_opened in H as (u & Fu & H). apply with_commit_opened in H as (c0 & F0 & H).
    apply with_commit_opened in H as (c1 & F1 & H). apply with_commit_opened in H as (c2 & F2 & H).
    apply with_commit_opened in H as (c3 & F3 & H). injection H as <-. cbn. split_and!; auto.
    intros r Hr. unfold find_ref in Hr. destruct (List.find _ ts) as [[k v]|] eqn:Ef; [|discriminate].
    injection Hr as <-. apply find_some in Ef as [Hi Hk]. cbn [fst snd] in *. apply String.eqb_eq in Hk as ->.
    apply (trailers_sound m ts); [done|]. by apply elem_of_list_In. }
  destruct (find_commit st ts head_key) as [o| |] eqn:Eh; [|..|discriminate].
  - apply (G (Some o)); [|done]. by intros ? [= ->].
  - by apply (G None).
Qed.
Lemma names_marked m k v : names_at m k v -> marked m k.
Proof. intros (pre & ws & ws' & post & E & H1 & H2 & _). by exists pre, ws, (ws' +:+ v +:+ post). Qed.
Lemma unmarked st m key s : key ∈ [unstaged_key; stage0_key; stage1_key; stage2_key; stage3_key] ->
  ~ marked m key -> try_from_base_commit st m <> Opened s.
Proof.
  intros Hk N H. apply opened_sound in H as (_ & _ & H & H0 & H1 & H2 & H3).
  repeat (apply elem_of_cons in Hk as [->|Hk]; [apply N; match goal with X : recorded st m ?k _ |- marked m ?k => destruct X as (v & X & _) end; by eapply names_marked|]).
  by apply elem_of_nil in Hk.
Qed.

(** ** Keeping a snapshot *)

Lemma collect_lookup keep st o : collect keep st !! o = if decide (o ∈ keep) then st !! o else None.
Proof.
  unfold collect. destruct (decide (o ∈ keep)) as [H|H].
  - destruct (st !! o) as [x|] eqn:E.
    + by apply map_filter_lookup_Some.
    + apply map_filter_lookup_None. by left.
  - apply map_filter_lookup_None. right. intros x _. done.
Qed.
Lemma kept_parents st roots keep b s : keeps st roots keep -> b ∈ roots -> st !! b = Some (snapshot_commit s) ->
  b ∈ keep /\ forall o, o ∈ snapshot_parents s -> o ∈ keep.
Proof.
  intros K Hb E. split; [apply K; exists b; by split; [|constructor]|].
  intros o Ho. apply K. exists b. split; [done|]. apply rtc_once. exists (snapshot_commit s). by split.
Qed.
Lemma collected st roots keep b s : snapshot_ok s -> present st (data_commits s) ->
  st !! b = Some (snapshot_commit s) -> b ∈ roots -> keeps st roots keep ->
  collect keep st !! b = Some (snapshot_commit s) /\
  (reachable st roots (ws_unstaged s) ->
     try_from_base_commit (collect keep st) (snapshot_message s) = Opened s) /\
  (~ reachable st roots (ws_unstaged s) ->
     try_from_base_commit (collect keep st) (snapshot_message s) = OpenError).
Proof.
  intros Hs Hp E Hb K. destruct (kept_parents st roots keep b s K Hb E) as [Kb Kp].
  destruct (reopen_trailers (collect keep st) _ s Hs (snapshot_get_trailers s Hs)) as [R1 R2]. split_and!.
  - rewrite collect_lookup. by destruct (decide (b ∈ keep)).
  - intros Hr. apply R1. intros o Ho. rewrite collect_lookup.
    assert (o ∈ keep) as Hk.
    { unfold data_commits in Ho. apply elem_of_app in Ho as [Ho|Ho]; [apply Kp, elem_of_app; by left|].
      apply elem_of_cons in Ho as [->|Ho]; [by apply K|]. apply Kp, elem_of_app. by right. }
    destruct (decide (o ∈ keep)); [by apply Hp|done].
  - intros Hr. apply R2. intros P. destruct (P (ws_unstaged s)) as [x Hx].
    { apply elem_of_app. right. left. }
    rewrite collect_lookup in Hx. destruct (decide _) as [D|D]; [|discriminate]. by apply Hr, K.
Qed.

(** ** HEAD and the branches *)

Lemma run_all ok n s l : (forall i, n <= i < n + length l -> ok i = true) -> run_gits ok n s l = (foldl run_git s l, true).
Proof.
  revert n s. induction l as [|c l IH]; intros n s H; [reflexivity|]. cbn [run_gits foldl]. cbn in H.
  rewrite H by lia. apply IH. intros i Hi. apply H. lia.
Qed.
Lemma run_some ok n s l t : run_gits ok n s l = (t, true) -> t = foldl run_git s l.
Proof.
  revert n s. induction l as [|c l IH]; intros n s H; cbn [run_gits foldl] in *; [congruence|].
  destruct (ok n); [by eapply IH|discriminate].
Qed.
Lemma run_stopped ok n s l t : run_gits ok n s l = (t, false) -> exists k, k < length l /\ t = foldl run_git s (take k l).
Proof.
  revert n s. induction l as [|c l IH]; intros n s H; cbn [run_gits] in *; [discriminate|].
  destruct (ok n).
  - destruct (IH _ _ H) as (k & H1 & H2). exists (S k). cbn. split; [lia|done].
  - exists 0. cbn. split; [lia|congruence].
Qed.
Lemma restored_head ok s w t : restore_refs ok s w = (t, true) ->
  (is_Some (ws_head w) \/ is_Some (ws_ref w)) ->
  head_is t (ws_head w) (ws_ref w) /\
  (forall r, ws_ref w <> Some r -> rs_refs t !! r = rs_refs s !! r).
Proof.
  intros H N. apply run_some in H as ->. unfold restore_commands.
  destruct w as [[h|] [r|] u c0 c1 c2 c3]; cbn in *.
  - split; [split; [done|apply lookup_insert]|]. intros r' Hr. apply lookup_insert_ne. congruence.
  - split; [eauto|done].
  - split; [split; [done|apply lookup_delete]|]. intros r' Hr. apply lookup_delete_ne. congruence.
  - destruct N as [[? ?]|[? ?]]; discriminate.
Qed.
Lemma stopped_head ok s w t : restore_refs ok s w = (t, false) ->
  (rs_refs t = rs_refs s /\
    (rs_head t = rs_head s \/ rs_head t = Detached (ws_unstaged w) \/ exists h, ws_head w = Some h /\ rs_head t = Detached h))
  \/ exists r, ws_ref w = Some r /\ rs_refs t !! r = ws_head w /\ (forall r', r' <> r -> rs_refs t !! r' = rs_refs s !! r')
       /\ exists o, rs_head t = Detached o /\ (ws_head w = Some o \/ ws_head w = None /\ o = ws_unstaged w).
Proof.
  intros H. apply run_stopped in H as (k & Hk & ->). unfold restore_commands in *.
  destruct w as [[h|] [r|] u c0 c1 c2 c3]; cbn in *;
    (destruct k as [|[|[|[|[|[|k]]]]]]; [..|exfalso; lia]); cbn; try (exfalso; lia);
    try (left; by eauto 10).
  - right. exists r. split_and!; [done|apply lookup_insert|intros r' Hr; by apply lookup_insert_ne|]. eauto.
  - right. exists r. split_and!; [done|apply lookup_delete|intros r' Hr; by apply lookup_delete_ne|]. eauto.
Qed.
Lemma head_is_info s o r : head_is s o r <-> get_head_info s = (o, r).
Proof.
  unfold head_is, get_head_info. destruct s as [[c|b] refs]; cbn.
  - destruct r as [r|]; split.
    + intros [? _]; discriminate.
    + discriminate.
    + intros (c' & -> & [= ->]). done.
    + intros [= <-]. eauto.
  - destruct r as [r|]; split.
    + intros [[= ->] <-]. done.
    + intros [= <- <-]. done.
    + intros (? & _ & ?). discriminate.
    + discriminate.
Qed.

(** ** Texts without the markers *)

Fixpoint occurs (k m : string) : bool :=
  (String.prefix k m || match m with EmptyString => false | String _ m' => occurs k m' end)%bool.
Lemma prefix_self k s : String.prefix k (k +:+ s) = true.
Proof. induction k as [|c k IH]; [by destruct s|]. rewrite sapp_cons. cbn [String.prefix]. by destruct (ascii_dec c c). Qed.
Lemma occurs_app k pre s : occurs k (pre +:+ k +:+ s) = true.
Proof.
  induction pre as [|c pre IH].
  - rewrite sapp_nil. destruct (k +:+ s) eqn:E; cbn [occurs]; rewrite <- E, prefix_self; reflexivity.
  - rewrite sapp_cons. cbn [occurs]. rewrite IH. apply orb_true_r.
Qed.
Lemma marked_occurs m k : marked m k -> occurs k m = true.
Proof. intros (pre & ws & post & -> & _). apply occurs_app. Qed.

Lemma find_commit_absent st ts key : (forall v, (key, v) ∉ ts) -> find_commit st ts key = NotFound.
Proof.
  induction ts as [|[k v] ts IH]; intros H; [reflexivity|]. cbn [find_commit].
  destruct (String.eqb_spec k key) as [->|]; [destruct (H v); by left|]. apply IH. intros v' Hv. apply (H v'). by right.
Qed.
Lemma ordinary st m : utf8 m = true -> lacks NUL m -> ~ marked m head_key -> ~ marked m unstaged_key ->
  try_from_base_commit st m = NotASnapshot.
Proof.
  intros U L N1 N2. unfold try_from_base_commit.
  assert (is_Some (get_trailers m)) as [ts Et].
  { unfold get_trailers. rewrite U. apply has_nul_false in L. rewrite L. eauto. }
  rewrite Et. rewrite (find_commit_absent st ts head_key), (find_commit_absent st ts unstaged_key); [reflexivity|..]; intros v Hv;
    apply (trailers_sound m ts) in Hv; try done; apply names_marked in Hv; done.
Qed.
Lemma no_message st m : utf8 m = false -> try_from_base_commit st m = OpenError.
Proof. intros U. unfold try_from_base_commit, get_trailers. by rewrite U. Qed.
