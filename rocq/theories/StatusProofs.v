(** Proofs about reading the output of git status. *)
From Verif Require Import Base StrModel StrProofs Utf8Model ModeModel StatusModel StatusSpec.
Local Open Scope string_scope.
Local Open Scope list_scope.

Lemma all_in_nil P : all_in P "".
Proof. intros c H. by apply elem_of_nil in H. Qed.
Lemma all_in_cons P c s : all_in P (String c s) <-> P c /\ all_in P s.
Proof.
  unfold all_in. cbn [list_ascii_of_string]. split.
  - intros H. split; [apply H; left|]. intros x Hx. apply H. by right.
  - intros [Hc H] x [->|Hx]%elem_of_cons; [done|by apply H].
Qed.
Lemma all_in_impl (P Q : ascii -> Prop) s : (forall c, P c -> Q c) -> all_in P s -> all_in Q s.
Proof. intros H HP c Hc. by apply H, HP. Qed.

Lemma span_app (P : ascii -> bool) a c rest :
  all_in (fun x => P x = true) a -> P c = false -> span P (a +:+ String c rest) = (a, String c rest).
Proof.
  intros Ha Hc. induction a as [|x a IH].
  - rewrite sapp_nil. cbn [span]. by rewrite Hc.
  - apply all_in_cons in Ha as [Hx Ha]. rewrite sapp_cons. cbn [span]. by rewrite Hx, IH.
Qed.
Lemma span_all (P : ascii -> bool) a : all_in (fun x => P x = true) a -> span P a = (a, "").
Proof.
  intros Ha. induction a as [|x a IH]; [done|].
  apply all_in_cons in Ha as [Hx Ha]. cbn [span]. by rewrite Hx, IH.
Qed.
Lemma span_spec (P : ascii -> bool) s a b : span P s = (a, b) ->
  s = a +:+ b /\ all_in (fun x => P x = true) a /\ (b = "" \/ exists c b', b = String c b' /\ P c = false).
Proof.
  revert a b. induction s as [|c s IH]; intros a b; cbn [span].
  - intros [= <- <-]. split; [done|]. split; [apply all_in_nil|by left].
  - destruct (P c) eqn:Ec.
    + destruct (span P s) as [a' b'] eqn:E. intros [= <- <-]. destruct (IH _ _ eq_refl) as (-> & Ha & Hb).
      split; [by rewrite sapp_cons|]. split; [by apply all_in_cons|done].
    + intros [= <- <-]. split; [done|]. split; [apply all_in_nil|]. right. eauto.
Qed.

Lemma sp_eq a b : sp a b = a +:+ String SP b.
Proof. reflexivity. Qed.

Lemma field_ok P lo hi a rest :
  all_in (fun x => P x = true) a -> P SP = false -> (lo <= String.length a)%nat ->
  match hi with Some h => (String.length a <= h)%nat | None => True end ->
  field P lo hi (sp a rest) = Some (a, rest).
Proof.
  intros Ha Hs Hl Hh. unfold field. rewrite sp_eq, span_app by done.
  rewrite (proj2 (Nat.leb_le _ _) Hl). cbn [andb]. rewrite Ascii.eqb_refl.
  destruct hi as [h|]; [|done]. by rewrite (proj2 (Nat.leb_le _ _) Hh).
Qed.
Lemma field_inv P lo hi s a rest :
  field P lo hi s = Some (a, rest) ->
  s = sp a rest /\ all_in (fun x => P x = true) a /\ (lo <= String.length a)%nat /\
  match hi with Some h => (String.length a <= h)%nat | None => True end.
Proof.
  unfold field. destruct (span P s) as [x b] eqn:E. destruct (span_spec _ _ _ _ E) as (-> & Ha & _).
  destruct (Nat.leb lo (String.length x)) eqn:El; [|done]. apply Nat.leb_le in El. cbn [andb].
  destruct (match hi with Some h => Nat.leb (String.length x) h | None => true end) eqn:Eh; [|done].
  destruct b as [|c b]; [done|]. destruct (Ascii.eqb c SP) eqn:Ec; [|done]. apply Ascii.eqb_eq in Ec as ->.
  intros [= <- <-]. rewrite sp_eq. split; [done|]. split; [done|]. split; [done|].
  destruct hi; [|done]. by apply Nat.leb_le.
Qed.

(** A field is determined by the text. *)
Lemma sp_inj a b a' b' : lacks SP a -> lacks SP a' -> sp a b = sp a' b' -> a = a' /\ b = b'.
Proof.
  revert a'. induction a as [|c a IH]; intros a' Ha Ha' E; rewrite !sp_eq in E.
  - destruct a' as [|c' a']; [rewrite !sapp_nil in E; by injection E|].
    rewrite sapp_nil, sapp_cons in E. injection E as E _. apply lacks_cons in Ha' as [Ha' _]. congruence.
  - apply lacks_cons in Ha as [Hc Ha]. destruct a' as [|c' a'].
    + rewrite sapp_nil, sapp_cons in E. injection E as E _. congruence.
    + apply lacks_cons in Ha' as [Hc' Ha']. rewrite !sapp_cons in E. injection E as -> E.
      destruct (IH a' Ha Ha' E) as [-> ->]. done.
Qed.

Lemma all_in_lacks c s : all_in (fun x => x <> c) s -> lacks c s.
Proof. intros H Hc. by apply (H c). Qed.

(** ** Classes *)

Lemma listed (P : ascii -> bool) (l : string) c :
  c ∈ list_ascii_of_string l -> forallb P (list_ascii_of_string l) = true -> P c = true.
Proof. intros Hc H. rewrite forallb_forall in H. apply H. by apply elem_of_list_In. Qed.

Lemma hex_is_hex c : hex_digit c -> is_hex c = true.
Proof. intros H. eapply listed; [exact H|]. by vm_compute. Qed.
Lemma digit_is_digit c : digit c -> is_digit c = true.
Proof. intros H. eapply listed; [exact H|]. by vm_compute. Qed.
Lemma letter_is_word c : status_letter c -> is_word_dot c = true.
Proof. intros H. eapply listed; [exact H|]. by vm_compute. Qed.
Lemma sub_is_word c : c ∈ list_ascii_of_string "NSCMU." -> is_word_dot c = true.
Proof. intros H. eapply listed; [exact H|]. by vm_compute. Qed.

Lemma is_hex_hex c : is_hex c = true -> hex_digit c.
Proof.
  intros H. unfold hex_digit. apply (bool_decide_unpack (c ∈ list_ascii_of_string "0123456789abcdef")).
  revert H. destruct c as [[] [] [] [] [] [] [] []]; vm_compute; (done || discriminate).
Qed.
Lemma is_digit_digit c : is_digit c = true -> digit c.
Proof.
  intros H. unfold digit. apply (bool_decide_unpack (c ∈ list_ascii_of_string "0123456789")).
  revert H. destruct c as [[] [] [] [] [] [] [] []]; vm_compute; (done || discriminate).
Qed.

Lemma class_lacks (P : ascii -> bool) c s : P c = false -> all_in (fun x => P x = true) s -> lacks c s.
Proof. intros Hc H. apply all_in_lacks. eapply all_in_impl; [|exact H]. cbn. congruence. Qed.

(** ** Fields *)

Lemma mode_field_ok m rest : mode_field (sp (mode_text m) rest) = Some (mode_text m, rest).
Proof.
  apply field_ok.
  - intros c Hc. apply (listed is_digit (mode_text m)); [done|]. destruct m; by vm_compute.
  - by vm_compute.
  - destruct m; cbn; lia.
  - destruct m; cbn; lia.
Qed.

Lemma id_field_ok h rest : object_id h -> id_field (sp h rest) = Some (h, rest).
Proof.
  intros [Hl Hh]. apply field_ok.
  - eapply all_in_impl; [apply hex_is_hex|done].
  - by vm_compute.
  - lia.
  - done.
Qed.

Lemma mode_field_id h rest : object_id h -> mode_field (sp h rest) = None.
Proof.
  intros [Hl Hh]. destruct (mode_field (sp h rest)) as [[a r]|] eqn:E; [|done].
  apply field_inv in E as (E & Ha & Hlo & Hhi). apply sp_inj in E as [-> ->]; [lia| |].
  - apply (class_lacks is_hex); [by vm_compute|]. eapply all_in_impl; [apply hex_is_hex|done].
  - apply (class_lacks is_digit); [by vm_compute|done].
Qed.

Lemma id_field_clear p : ~ like_id p -> id_field p = None.
Proof.
  intros H. destruct (id_field p) as [[a r]|] eqn:E; [|done]. destruct H.
  apply field_inv in E as (-> & Ha & Hlo & _). exists a, r. split; [done|]. split.
  - intros ->. cbn in Hlo. lia.
  - eapply all_in_impl; [|exact Ha]. cbn. intros c Hc. left. by apply is_hex_hex.
Qed.

Lemma score_field_clear p : ~ like_score p -> score_field p = None.
Proof.
  intros H. destruct p as [|c p]; [done|]. cbn [score_field]. destruct (Ascii.eqb c "C" || Ascii.eqb c "R")%bool eqn:Ec; [|done].
  destruct (field is_digit 1 (Some 3%nat) p) as [[a r]|] eqn:E; [|done]. destruct H.
  apply field_inv in E as (-> & Ha & Hlo & _). exists c, a, r. split; [done|]. split; [|split].
  - apply orb_true_iff in Ec as [->%Ascii.eqb_eq| ->%Ascii.eqb_eq]; auto.
  - intros ->. cbn in Hlo. lia.
  - eapply all_in_impl; [|exact Ha]. cbn. intros x Hx. left. by apply is_digit_digit.
Qed.

Lemma score_field_ok l sc rest : l = "R"%char \/ l = "C"%char -> score_digits sc ->
  score_field (sp (String l sc) rest) = Some rest.
Proof.
  intros Hl [Hlen Hd]. rewrite sp_eq, sapp_cons. cbn [score_field].
  assert ((Ascii.eqb l "C" || Ascii.eqb l "R")%bool = true) as -> by (destruct Hl as [->| ->]; by vm_compute).
  rewrite <- sp_eq. rewrite (field_ok is_digit 1 (Some 3%nat) sc rest); [done| |by vm_compute|lia|lia].
  eapply all_in_impl; [apply digit_is_digit|done].
Qed.
Lemma id_field_score l sc rest : l = "R"%char \/ l = "C"%char -> id_field (sp (String l sc) rest) = None.
Proof.
  intros Hl. rewrite sp_eq, sapp_cons. unfold id_field, field. cbn [span].
  assert (is_hex l = false) as -> by (destruct Hl as [->| ->]; by vm_compute). done.
Qed.

(** ** Paths *)

Lemma not_nul_all p : all_in (fun c => c <> NUL) p -> all_in (fun x => negb (is_nul x) = true) p.
Proof.
  apply all_in_impl. intros c Hc. unfold is_nul. by rewrite (proj2 (Ascii.eqb_neq _ _) Hc).
Qed.
Lemma is_nul_nul : negb (is_nul NUL) = false.
Proof. by vm_compute. Qed.

Lemma match_path_one p : git_path p -> match_path p = if utf8 p then Some (p, None) else None.
Proof.
  intros [Hn Hp]. unfold match_path. rewrite span_all by (by apply not_nul_all).
  unfold text_run. rewrite (proj2 (String.eqb_neq _ _) Hn). cbn [negb andb]. done.
Qed.
Lemma match_path_two p o : git_path p -> git_path o ->
  match_path (p +:+ String NUL o) = if (utf8 p && utf8 o)%bool then Some (p, Some o) else None.
Proof.
  intros [Hn Hp] [Hn' Ho]. unfold match_path. rewrite span_app by (by apply not_nul_all || apply is_nul_nul).
  rewrite (span_all _ o) by (by apply not_nul_all).
  unfold text_run. rewrite (proj2 (String.eqb_neq _ _) Hn), (proj2 (String.eqb_neq _ _) Hn'). cbn [negb andb].
  rewrite String.eqb_refl, andb_true_r. by destruct (utf8 p), (utf8 o).
Qed.

(** ** Lines *)

(** The line of a record, without the NUL at its end. *)
Definition line_of (r : srecord) : string :=
  match r with
  | Ordinary x y sub mh mi mw hh hi p =>
    sp "1" (sp (String x (String y "")) (sp sub (sp (mode_text mh) (sp (mode_text mi) (sp (mode_text mw) (sp hh (sp hi p)))))))
  | RenamedCopied x y sub mh mi mw hh hi l sc p o =>
    sp "2" (sp (String x (String y "")) (sp sub (sp (mode_text mh) (sp (mode_text mi) (sp (mode_text mw)
      (sp hh (sp hi (sp (String l sc) (p +:+ String NUL o)))))))))
  | Conflicted x y sub m1 m2 m3 mw h1 h2 h3 p =>
    sp "u" (sp (String x (String y "")) (sp sub (sp (mode_text m1) (sp (mode_text m2) (sp (mode_text m3)
      (sp (mode_text mw) (sp h1 (sp h2 (sp h3 p)))))))))
  end.
Lemma render_line r : render r = line_of r +:+ String NUL "".
Proof. by destruct r. Qed.

(** What the rest of a line, from the modes on, gives. *)
Definition finish (p x y : ascii) (r : option (string * (string * option string))) : option status_entry :=
  match r with
  | None => None
  | Some (m, (path, orig)) =>
    match mode_of_text m with
    | None => None
    | Some m => Some (StatusEntry (if Ascii.eqb p "u" then Unmerged else status_of x) (status_of y) m path orig)
    end
  end.
Lemma parse_head p x y sub rest :
  p = "1"%char \/ p = "2"%char \/ p = "u"%char -> status_letter x -> status_letter y -> submodule_field sub ->
  parse_status_entry (sp (String p "") (sp (String x (String y "")) (sp sub rest))) = finish p x y (match_modes rest).
Proof.
  intros Hp Hx Hy [Hn Hs]. rewrite (sp_eq (String p "")), sapp_cons, sapp_nil.
  rewrite (sp_eq (String x (String y ""))), !sapp_cons, sapp_nil. unfold parse_status_entry.
  assert ((Ascii.eqb p "1" || Ascii.eqb p "2" || Ascii.eqb p "u")%bool = true) as -> by (destruct Hp as [->|[->| ->]]; by vm_compute).
  rewrite !Ascii.eqb_refl, (letter_is_word x Hx), (letter_is_word y Hy). cbn [andb].
  rewrite (field_ok is_word_dot 1 None sub rest); [done| |by vm_compute| |done].
  - eapply all_in_impl; [apply sub_is_word|done].
  - destruct sub; [done|cbn; lia].
Qed.

(** Three modes and ids. *)
Lemma match_modes_three m1 m2 mw h rest :
  object_id h ->
  match_modes (sp (mode_text m1) (sp (mode_text m2) (sp (mode_text mw) (sp h rest)))) =
  match match_ids (sp h rest) with Some x => Some (mode_text mw, x) | None => None end.
Proof.
  intros Hh. unfold match_modes. rewrite !mode_field_ok. unfold match_wc_mode at 1.
  rewrite mode_field_id by done. cbn [orelse]. unfold match_wc_mode. by rewrite mode_field_ok.
Qed.
(** Four modes: the last one is that of the working copy, unless nothing matches. *)
Lemma match_modes_four m1 m2 m3 mw h rest :
  object_id h ->
  match_modes (sp (mode_text m1) (sp (mode_text m2) (sp (mode_text m3) (sp (mode_text mw) (sp h rest))))) =
  orelse (match match_ids (sp h rest) with Some x => Some (mode_text mw, x) | None => None end)
    (match match_ids (sp (mode_text mw) (sp h rest)) with Some x => Some (mode_text m3, x) | None => None end).
Proof.
  intros Hh. unfold match_modes. rewrite !mode_field_ok. unfold match_wc_mode. by rewrite !mode_field_ok.
Qed.

Lemma match_ids_two h1 h2 rest :
  object_id h1 -> object_id h2 ->
  match_ids (sp h1 (sp h2 rest)) =
  orelse (match id_field rest with Some (_, s3) => match_score s3 | None => None end) (match_score rest).
Proof. intros H1 H2. unfold match_ids. by rewrite !id_field_ok. Qed.

Lemma mode_text_of m : mode_of_text (mode_text m) = Some m.
Proof. by destruct m. Qed.

Lemma match_score_clear p : ~ like_score p -> match_score p = match_path p.
Proof. intros H. unfold match_score. by rewrite score_field_clear. Qed.

Lemma clear_line r :
  well_formed r -> clear_path r -> Forall (fun p => utf8 p = true) (record_paths r) ->
  parse_status_entry (line_of r) = Some (expected r).
Proof.
  destruct r as [x y sub mh mi mw hh hi p|x y sub mh mi mw hh hi l sc p o|x y sub m1 m2 m3 mw h1 h2 h3 p];
    cbn [well_formed clear_path record_paths line_of expected]; intros W C U.
  - destruct W as (Hx & Hy & Hs & Hh & Hi & Hp). destruct C as [C1 C2]. apply Forall_cons in U as [Up _].
    rewrite parse_head by (done || by left). rewrite match_modes_three by done. rewrite match_ids_two by done.
    rewrite id_field_clear, match_score_clear by done. rewrite match_path_one, Up by done. cbn [orelse finish].
    by rewrite mode_text_of.
  - destruct W as (Hx & Hy & Hs & Hh & Hi & Hl & Hsc & Hp & Ho). apply Forall_cons in U as [Up [Uo _]%Forall_cons].
    rewrite parse_head by (done || by right; left). rewrite match_modes_three by done. rewrite match_ids_two by done.
    rewrite id_field_score by done. unfold match_score. rewrite score_field_ok by done.
    rewrite match_path_two, Up, Uo by done. cbn [orelse finish andb]. by rewrite mode_text_of.
  - destruct W as (Hx & Hy & Hs & H1 & H2 & H3 & Hp). apply Forall_cons in U as [Up _].
    rewrite parse_head by (done || by right; right). rewrite match_modes_four by done. rewrite match_ids_two by done.
    rewrite (id_field_ok h3) by done. rewrite match_score_clear by done. rewrite match_path_one, Up by done.
    cbn [orelse finish]. by rewrite mode_text_of.
Qed.

(** ** Paths that are not UTF-8 *)

Lemma utf8_ascii a b : all_in (fun c => (N_of_ascii c <= 127)%N) a -> utf8 (a +:+ b) = utf8 b.
Proof.
  unfold utf8. induction a as [|c a IH]; intros H; [by rewrite sapp_nil|].
  apply all_in_cons in H as [Hc H]. rewrite sapp_cons. cbn [utf8_from].
  rewrite (proj2 (N.leb_le _ _) Hc). by apply IH.
Qed.
Lemma class_ascii (P : ascii -> bool) s : (forall c, P c = true -> (N_of_ascii c <= 127)%N) ->
  all_in (fun x => P x = true) s -> all_in (fun c => (N_of_ascii c <= 127)%N) s.
Proof. intros H. apply all_in_impl. exact H. Qed.
Lemma is_digit_ascii c : is_digit c = true -> (N_of_ascii c <= 127)%N.
Proof. unfold is_digit, in_range. intros [_ H]%andb_true_iff. apply N.leb_le in H. lia. Qed.
Lemma is_hex_ascii c : is_hex c = true -> (N_of_ascii c <= 127)%N.
Proof.
  unfold is_hex, in_range. intros [H|[_ H]%andb_true_iff]%orb_true_iff; [by apply is_digit_ascii|].
  apply N.leb_le in H. lia.
Qed.
Lemma utf8_sp a b : all_in (fun c => (N_of_ascii c <= 127)%N) a -> utf8 (sp a b) = utf8 b.
Proof.
  intros H. rewrite sp_eq, utf8_ascii by done. change (String SP b) with (String SP "" +:+ b). rewrite utf8_ascii; [done|].
  apply all_in_cons. split; [by vm_compute|apply all_in_nil].
Qed.

Definition bad (p : string) : Prop := all_in (fun c => c <> NUL) p /\ utf8 p = false.
Lemma bad_sp a b : all_in (fun c => (N_of_ascii c <= 127)%N) a -> bad (sp a b) -> bad b.
Proof.
  intros Ha [Hn Hu]. rewrite utf8_sp in Hu by done. split; [|done].
  intros c Hc. apply Hn. rewrite sp_eq, list_ascii_app. apply elem_of_app. right. by right.
Qed.
Lemma bad_match_path p : bad p -> match_path p = None.
Proof.
  intros [Hn Hu]. unfold match_path. rewrite span_all by (by apply not_nul_all). unfold text_run. by rewrite Hu, andb_false_r.
Qed.
Lemma bad_match_score p : bad p -> match_score p = None.
Proof.
  intros H. unfold match_score. rewrite (bad_match_path p H). destruct (score_field p) as [r|] eqn:E; [|done].
  destruct p as [|c p]; [done|]. cbn [score_field] in E.
  destruct (Ascii.eqb c "C" || Ascii.eqb c "R")%bool eqn:Ec; [|done].
  destruct (field is_digit 1 (Some 3%nat) p) as [[a r']|] eqn:Ef; [|done]. injection E as ->.
  apply field_inv in Ef as (-> & Ha & _). rewrite bad_match_path; [done|].
  rewrite sp_eq, <- sapp_cons, <- sp_eq in H. apply bad_sp in H; [done|]. apply all_in_cons. split.
  - apply orb_true_iff in Ec as [->%Ascii.eqb_eq| ->%Ascii.eqb_eq]; by vm_compute.
  - by apply (class_ascii is_digit); [apply is_digit_ascii|].
Qed.
Lemma bad_id_field p a r : bad p -> id_field p = Some (a, r) -> bad r.
Proof.
  intros H E. apply field_inv in E as (-> & Ha & _). apply bad_sp in H; [done|].
  by apply (class_ascii is_hex); [apply is_hex_ascii|].
Qed.
Lemma bad_path p : git_path p -> utf8 p = false -> bad p.
Proof. by intros [_ H] ?. Qed.
Lemma bad_more a p : all_in (fun c => (N_of_ascii c <= 127)%N /\ c <> NUL) a -> bad p -> bad (sp a p).
Proof.
  intros Ha [Hn Hu]. split.
  - intros c. rewrite sp_eq, list_ascii_app, elem_of_app. cbn [list_ascii_of_string]. rewrite elem_of_cons.
    intros [H|[->|H]]; [by apply Ha|by vm_compute|by apply Hn].
  - rewrite utf8_sp; [done|]. eapply all_in_impl; [|exact Ha]. by intros ? [].
Qed.
Lemma hex_plain s : all_in hex_digit s -> all_in (fun c => (N_of_ascii c <= 127)%N /\ c <> NUL) s.
Proof.
  apply all_in_impl. intros c Hc%hex_is_hex. split; [by apply is_hex_ascii|]. intros ->. by vm_compute in Hc.
Qed.
Lemma mode_hex m : all_in hex_digit (mode_text m).
Proof.
  intros c Hc. apply is_hex_hex. apply (listed is_hex (mode_text m)); [done|]. destruct m; by vm_compute.
Qed.

Lemma bad_after_ids p : bad p -> orelse (match id_field p with Some (_, s3) => match_score s3 | None => None end) (match_score p) = None.
Proof.
  intros H. rewrite (bad_match_score p H). destruct (id_field p) as [[a r]|] eqn:E; [|done].
  rewrite bad_match_score; [done|]. by eapply bad_id_field.
Qed.

Lemma bad_line r :
  well_formed r -> Exists (fun p => utf8 p = false) (record_paths r) -> parse_status_entry (line_of r) = None.
Proof.
  destruct r as [x y sub mh mi mw hh hi p|x y sub mh mi mw hh hi l sc p o|x y sub m1 m2 m3 mw h1 h2 h3 p];
    cbn [well_formed record_paths line_of]; intros W U.
  - destruct W as (Hx & Hy & Hs & Hh & Hi & Hp). apply Exists_cons in U as [U|U%Exists_nil]; [|done].
    rewrite parse_head by (done || by left). rewrite match_modes_three by done. rewrite match_ids_two by done.
    rewrite bad_after_ids by (by apply bad_path). done.
  - destruct W as (Hx & Hy & Hs & Hh & Hi & Hl & Hsc & Hp & Ho).
    assert (U' : (utf8 p && utf8 o)%bool = false).
    { apply Exists_cons in U as [->|U]; [done|]. apply Exists_cons in U as [->|U%Exists_nil]; [by rewrite andb_false_r|done]. }
    rewrite parse_head by (done || by right; left). rewrite match_modes_three by done. rewrite match_ids_two by done.
    rewrite id_field_score by done. unfold match_score. rewrite score_field_ok by done.
    rewrite match_path_two, U' by done. cbn [orelse].
    assert (E : sp (String l sc) (p +:+ String NUL o) = sp (String l sc) p +:+ String NUL o).
    { by rewrite !sp_eq, sapp_assoc, sapp_cons. }
    rewrite E, match_path_two; [|split|done].
    + rewrite utf8_sp, U'; [done|]. apply all_in_cons. split; [destruct Hl as [->| ->]; by vm_compute|].
      apply (class_ascii is_digit); [apply is_digit_ascii|]. eapply all_in_impl; [apply digit_is_digit|apply Hsc].
    + by rewrite sp_eq.
    + intros c. rewrite sp_eq, list_ascii_app, elem_of_app. cbn [list_ascii_of_string]. rewrite !elem_of_cons.
      intros [[->|H]|[->|H]].
      * destruct Hl as [->| ->]; by vm_compute.
      * destruct Hsc as [_ Hd]. specialize (Hd c H). apply digit_is_digit in Hd. intros ->. by vm_compute in Hd.
      * by vm_compute.
      * by apply Hp.
  - destruct W as (Hx & Hy & Hs & H1 & H2 & H3 & Hp). apply Exists_cons in U as [U|U%Exists_nil]; [|done].
    pose proof (bad_path p Hp U) as B.
    assert (B3 : bad (sp h3 p)) by (apply bad_more; [apply hex_plain, H3|done]).
    assert (B2 : bad (sp h2 (sp h3 p))) by (apply bad_more; [apply hex_plain, H2|done]).
    rewrite parse_head by (done || by right; right). rewrite match_modes_four by done. rewrite match_ids_two by done.
    rewrite (bad_after_ids (sp h3 p)) by done. cbn [orelse].
    unfold match_ids. assert (EM : id_field (sp (mode_text mw) (sp h1 (sp h2 (sp h3 p)))) = Some (mode_text mw, sp h1 (sp h2 (sp h3 p)))).
    { apply field_ok; [|by vm_compute|destruct mw; cbn; lia|done]. eapply all_in_impl; [apply hex_is_hex|apply mode_hex]. }
    rewrite EM, (id_field_ok h1) by done. rewrite (bad_after_ids (sp h2 (sp h3 p))) by done. done.
Qed.

(** ** Paths that look like a field *)

Lemma misread_id x y sub mh mi mw hh hi w rest :
  well_formed (Ordinary x y sub mh mi mw hh hi (sp w rest)) ->
  w <> "" -> all_in hex_digit w -> git_path rest -> ~ like_score rest -> utf8 rest = true ->
  parse_status_entry (line_of (Ordinary x y sub mh mi mw hh hi (sp w rest))) =
  Some (StatusEntry (status_of x) (status_of y) mw rest None).
Proof.
  cbn [well_formed line_of]. intros (Hx & Hy & Hs & Hh & Hi & Hp) Hw Hx' Hr Hl Hu.
  rewrite parse_head by (done || by left). rewrite match_modes_three by done. rewrite match_ids_two by done.
  assert (id_field (sp w rest) = Some (w, rest)) as ->.
  { apply field_ok; [|by vm_compute|destruct w; [done|cbn; lia]|done]. eapply all_in_impl; [apply hex_is_hex|done]. }
  rewrite match_score_clear, match_path_one, Hu by done. cbn [orelse finish]. by rewrite mode_text_of.
Qed.

(** ** The loop *)

Lemma no_nul_sp a b : all_in (fun c => c <> NUL) a -> all_in (fun c => c <> NUL) b -> all_in (fun c => c <> NUL) (sp a b).
Proof.
  intros Ha Hb c. rewrite sp_eq, list_ascii_app, elem_of_app. cbn [list_ascii_of_string]. rewrite elem_of_cons.
  intros [H|[->|H]]; [by apply Ha|by vm_compute|by apply Hb].
Qed.
Lemma no_nul_listed (l s : string) : all_in (fun c => c ∈ list_ascii_of_string l) s ->
  forallb (fun c => negb (Ascii.eqb c NUL)) (list_ascii_of_string l) = true -> all_in (fun c => c <> NUL) s.
Proof.
  intros H F c Hc ->. apply H in Hc. apply (listed (fun c => negb (Ascii.eqb c NUL)) l) in Hc; [|done]. by vm_compute in Hc.
Qed.
Lemma no_nul_letters x y : status_letter x -> status_letter y -> all_in (fun c => c <> NUL) (String x (String y "")).
Proof.
  intros Hx Hy. apply (no_nul_listed ".MTADRCU"); [|by vm_compute]. apply all_in_cons. split; [done|].
  apply all_in_cons. split; [done|apply all_in_nil].
Qed.
Lemma no_nul_id h : object_id h -> all_in (fun c => c <> NUL) h.
Proof. intros [_ H]. by apply (no_nul_listed "0123456789abcdef"). Qed.
Lemma no_nul_mode m : all_in (fun c => c <> NUL) (mode_text m).
Proof. by apply (no_nul_listed "0123456789abcdef"); [apply mode_hex|]. Qed.
Lemma no_nul_sub s : submodule_field s -> all_in (fun c => c <> NUL) s.
Proof. intros [_ H]. by apply (no_nul_listed "NSCMU."). Qed.
Lemma no_nul_one c : c <> NUL -> all_in (fun c => c <> NUL) (String c "").
Proof. intros H. apply all_in_cons. split; [done|apply all_in_nil]. Qed.

Lemma take_line_ok a rest : all_in (fun c => c <> NUL) a -> take_line (a +:+ String NUL rest) = (a, rest).
Proof. intros H. unfold take_line. rewrite span_app by (by apply not_nul_all || apply is_nul_nul). done. Qed.
Lemma take_line_end a : all_in (fun c => c <> NUL) a -> take_line a = (a, "").
Proof. intros H. unfold take_line. by rewrite span_all by (by apply not_nul_all). Qed.

Ltac no_nul := repeat first
  [apply no_nul_sp | apply no_nul_mode | apply no_nul_id; done | apply no_nul_sub; done | apply no_nul_letters; done
  | apply no_nul_one; by vm_compute].

Lemma one_round r rest found :
  well_formed r ->
  status_round (render r +:+ rest) found =
  match parse_status_entry (line_of r) with Some x => StatusNext rest (found ++ [x]) | None => StatusFails end.
Proof.
  intros W. rewrite render_line, sapp_assoc, sapp_cons, sapp_nil.
  destruct r as [x y sub mh mi mw hh hi p|x y sub mh mi mw hh hi l sc p o|x y sub m1 m2 m3 mw h1 h2 h3 p]; cbn [well_formed] in W.
  - destruct W as (Hx & Hy & Hs & Hh & Hi & [_ Hp]).
    assert (NN : all_in (fun c => c <> NUL) (line_of (Ordinary x y sub mh mi mw hh hi p))) by (cbn [line_of]; no_nul; done).
    unfold status_round. rewrite take_line_ok by done. done.
  - destruct W as (Hx & Hy & Hs & Hh & Hi & Hl & Hsc & [_ Hp] & [_ Ho]).
    set (A := sp "2" (sp (String x (String y "")) (sp sub (sp (mode_text mh) (sp (mode_text mi) (sp (mode_text mw)
      (sp hh (sp hi (sp (String l sc) p))))))))).
    assert (EL : line_of (RenamedCopied x y sub mh mi mw hh hi l sc p o) = A +:+ String NUL o).
    { cbn [line_of]. unfold A. rewrite !sp_eq, !sapp_assoc, !sapp_cons, !sapp_assoc, !sapp_cons, !sapp_assoc, !sapp_cons,
        !sapp_assoc, !sapp_cons, !sapp_assoc, !sapp_cons, !sapp_assoc, !sapp_cons, !sapp_assoc, !sapp_cons, !sapp_assoc, !sapp_cons, !sapp_assoc, !sapp_cons, ?sapp_assoc, ?sapp_cons. done. }
    assert (NA : all_in (fun c => c <> NUL) A).
    { unfold A. no_nul; try done. apply all_in_cons. split; [destruct Hl as [->| ->]; by vm_compute|].
      apply (no_nul_listed "0123456789"); [apply Hsc|by vm_compute]. }
    rewrite EL. rewrite sapp_assoc, sapp_cons. unfold status_round.
    assert (exists A', A = String "2" A') as [A' EA] by (unfold A; rewrite sp_eq, sapp_cons; by eexists).
    rewrite EA, sapp_cons. cbn [Ascii.eqb]. rewrite <- sapp_cons, <- EA.
    rewrite (take_line_ok A) by done. rewrite (take_line_ok o) by done. done.
  - destruct W as (Hx & Hy & Hs & H1 & H2 & H3 & [_ Hp]).
    assert (NN : all_in (fun c => c <> NUL) (line_of (Conflicted x y sub m1 m2 m3 mw h1 h2 h3 p))) by (cbn [line_of]; no_nul; done).
    unfold status_round. rewrite take_line_ok by done. done.
Qed.

Lemma output_cons r rs : output (r :: rs) = render r +:+ output rs.
Proof. reflexivity. Qed.

Lemma loop_all rs : forall n found,
  Forall (fun r => well_formed r /\ clear_path r /\ Forall (fun p => utf8 p = true) (record_paths r)) rs ->
  (length rs < n)%nat -> status_loop n (output rs) found = Entries (found ++ List.map expected rs).
Proof.
  induction rs as [|r rs IH]; intros n found H Hn; (destruct n as [|n]; [lia|]).
  - cbn. by rewrite app_nil_r.
  - apply Forall_cons in H as [(W & C & U) H]. cbn [status_loop]. rewrite output_cons, one_round by done.
    rewrite clear_line by done. rewrite IH by (done || cbn in Hn; lia). cbn [List.map]. by rewrite <- app_assoc.
Qed.

Lemma loop_bad rs : forall n found,
  Forall well_formed rs ->
  Exists (fun r => Exists (fun p => utf8 p = false) (record_paths r)) rs ->
  (length rs < n)%nat -> status_loop n (output rs) found = StatusError.
Proof.
  induction rs as [|r rs IH]; intros n found W H Hn; [by apply Exists_nil in H|]. destruct n as [|n]; [lia|].
  apply Forall_cons in W as [W Ws]. cbn [status_loop]. rewrite output_cons, one_round by done.
  destruct (parse_status_entry (line_of r)) as [x|] eqn:E; [|done].
  apply Exists_cons in H as [H|H]; [rewrite bad_line in E by done; done|]. apply IH; [done|done|cbn in Hn; lia].
Qed.

Lemma loop_header n s found : status_loop n (String "#" s) found = Running (String "#" s) found.
Proof. induction n as [|n IH]; [done|]. exact IH. Qed.

Lemma loop_mono n s found : forall k, (forall r f, status_loop n s found <> Running r f) ->
  status_loop (n + k) s found = status_loop n s found.
Proof.
  revert s found. induction n as [|n IH]; intros s found k H; [by destruct (H s found)|].
  cbn [Nat.add status_loop] in *. destruct (status_round s found); [by apply IH|done|done].
Qed.

Lemma take_line_length s a rest : take_line s = (a, rest) -> s <> "" -> (String.length rest < String.length s)%nat.
Proof.
  unfold take_line. destruct (span _ s) as [x b] eqn:E. destruct (span_spec _ _ _ _ E) as (-> & _ & _).
  intros [= <- <-] Hn. assert (L : forall u v, String.length (u +:+ v) = (String.length u + String.length v)%nat).
  { clear. induction u; intros v; [done|]. rewrite sapp_cons. cbn. by rewrite IHu. }
  rewrite L. destruct b as [|c b]; cbn; [|lia]. destruct x; [done|cbn; lia].
Qed.
Lemma take_line_le s a rest : take_line s = (a, rest) -> (String.length rest <= String.length s)%nat.
Proof.
  intros H. destruct s as [|c s]; [by injection H as <- <-|]. apply take_line_length in H; [lia|done].
Qed.

(** Rounds shorten the output, except at a header. *)
Lemma loop_ends n : forall s found rest found',
  (String.length s < n)%nat -> status_loop n s found = Running rest found' -> exists t, rest = String "#" t.
Proof.
  induction n as [|n IH]; intros s found rest found' Hn; [lia|]. cbn [status_loop].
  destruct (status_round s found) as [s' f'| |] eqn:E; [|done..]. unfold status_round in E.
  destruct s as [|c s]; [done|].
  destruct (Ascii.eqb c "1" || Ascii.eqb c "u")%bool.
  { destruct (take_line (String c s)) as [a b] eqn:ET. destruct (parse_status_entry a); [|done]. injection E as <- <-.
    apply take_line_length in ET; [|done]. apply IH. lia. }
  destruct (Ascii.eqb c "2").
  { destruct (take_line (String c s)) as [a b] eqn:ET. destruct (take_line b) as [a' b'] eqn:ET'.
    destruct (parse_status_entry _); [|done]. injection E as <- <-.
    apply take_line_length in ET; [|done]. apply take_line_le in ET'. apply IH. lia. }
  destruct (Ascii.eqb c "#") eqn:Ec; [|done]. injection E as <- <-. apply Ascii.eqb_eq in Ec as ->.
  rewrite loop_header. intros [= <- <-]. by eexists.
Qed.

Lemma loop_records_header rs header : forall n found,
  Forall (fun r => well_formed r /\ clear_path r /\ Forall (fun p => utf8 p = true) (record_paths r)) rs ->
  (length rs <= n)%nat ->
  status_loop n (output rs +:+ String "#" header) found = Running (String "#" header) (found ++ List.map expected rs).
Proof.
  induction rs as [|r rs IH]; intros n found H Hn.
  - change (output []) with "". rewrite sapp_nil, loop_header. cbn. by rewrite app_nil_r.
  - destruct n as [|n]; [cbn in Hn; lia|].
    apply Forall_cons in H as [(W & C & U) H]. cbn [status_loop]. rewrite output_cons, sapp_assoc, one_round by done.
    rewrite clear_line by done. rewrite IH by (done || cbn in Hn; lia). cbn [List.map]. by rewrite <- app_assoc.
Qed.

Lemma loop_misread x y sub mh mi mw hh hi w rest n :
  well_formed (Ordinary x y sub mh mi mw hh hi (sp w rest)) ->
  w <> "" -> all_in hex_digit w -> git_path rest -> ~ like_score rest -> utf8 rest = true ->
  (1 < n)%nat ->
  status_loop n (output [Ordinary x y sub mh mi mw hh hi (sp w rest)]) [] =
  Entries [StatusEntry (status_of x) (status_of y) mw rest None].
Proof.
  intros W H1 H2 H3 H4 H5 Hn. destruct n as [|[|n]]; [lia|lia|]. rewrite output_cons. cbn [status_loop].
  rewrite one_round, misread_id by done. done.
Qed.

(** ** Deciding well-formedness, for the examples *)
Definition all_b (l s : string) : bool :=
  forallb (fun c => existsb (Ascii.eqb c) (list_ascii_of_string l)) (list_ascii_of_string s).
Definition git_path_b (s : string) : bool :=
  (negb (String.eqb s "") && forallb (fun c => negb (Ascii.eqb c NUL)) (list_ascii_of_string s))%bool.
Definition object_id_b (s : string) : bool := (Nat.eqb (String.length s) 40 && all_b "0123456789abcdef" s)%bool.
Definition sub_b (s : string) : bool := (negb (String.eqb s "") && all_b "NSCMU." s)%bool.
Definition letter_b (c : ascii) : bool := all_b ".MTADRCU" (String c "").
Definition well_formed_b (r : srecord) : bool :=
  match r with
  | Ordinary x y sub mh mi mw hh hi p =>
    letter_b x && letter_b y && sub_b sub && object_id_b hh && object_id_b hi && git_path_b p
  | RenamedCopied x y sub mh mi mw hh hi l sc p o =>
    letter_b x && letter_b y && sub_b sub && object_id_b hh && object_id_b hi &&
    all_b "RC" (String l "") && (Nat.leb 1 (String.length sc) && Nat.leb (String.length sc) 3 && all_b "0123456789" sc) &&
    git_path_b p && git_path_b o
  | Conflicted x y sub m1 m2 m3 mw h1 h2 h3 p =>
    letter_b x && letter_b y && sub_b sub && object_id_b h1 && object_id_b h2 && object_id_b h3 && git_path_b p
  end%bool.
Lemma all_b_ok l s : all_b l s = true -> all_in (fun c => c ∈ list_ascii_of_string l) s.
Proof.
  intros H c Hc. unfold all_b in H. rewrite forallb_forall in H. specialize (H c). rewrite <- elem_of_list_In in H.
  apply H in Hc. apply existsb_exists in Hc as (c' & Hc & E). apply Ascii.eqb_eq in E as ->. by apply elem_of_list_In.
Qed.
Lemma git_path_b_ok s : git_path_b s = true -> git_path s.
Proof.
  intros [H1 H2]%andb_true_iff. split; [intros ->; done|]. intros c Hc ->. rewrite forallb_forall in H2.
  apply elem_of_list_In, H2 in Hc. done.
Qed.
Lemma object_id_b_ok s : object_id_b s = true -> object_id s.
Proof. intros [H1 H2]%andb_true_iff. split; [by apply Nat.eqb_eq|by apply (all_b_ok "0123456789abcdef")]. Qed.
Lemma sub_b_ok s : sub_b s = true -> submodule_field s.
Proof. intros [H1 H2]%andb_true_iff. split; [intros ->; done|by apply (all_b_ok "NSCMU.")]. Qed.
Lemma letter_b_ok c : letter_b c = true -> status_letter c.
Proof. intros H. apply all_b_ok in H. apply H. by left. Qed.
Lemma well_formed_b_ok r : well_formed_b r = true -> well_formed r.
Proof.
  destruct r as [x y sub mh mi mw hh hi p|x y sub mh mi mw hh hi l sc p o|x y sub m1 m2 m3 mw h1 h2 h3 p];
    cbn [well_formed well_formed_b]; rewrite !andb_true_iff; intros H; destruct_and!; split_and!;
    auto using letter_b_ok, sub_b_ok, object_id_b_ok, git_path_b_ok.
  - assert (HL : all_in (fun c => c ∈ list_ascii_of_string "RC") (String l "")) by (by apply all_b_ok).
    specialize (HL l). cbn in HL. rewrite !elem_of_cons in HL. destruct HL as [->|[->|HL]]; [by left|by left|by right|by apply elem_of_nil in HL].
  - split; [split; by apply Nat.leb_le|by apply (all_b_ok "0123456789")].
Qed.
Lemma not_like_id c p : existsb (Ascii.eqb c) (list_ascii_of_string "0123456789abcdef") = false ->
  (N_of_ascii c <= 127)%N -> ~ like_id (String c p).
Proof.
  intros H1 H2 (w & rest & E & Hw & Ha). destruct w as [|c' w]; [done|]. rewrite sp_eq, sapp_cons in E. injection E as <- _.
  apply all_in_cons in Ha as [[Hc|Hc] _].
  - assert (existsb (Ascii.eqb c) (list_ascii_of_string "0123456789abcdef") = true); [|congruence].
    apply existsb_exists. exists c. split; [by apply elem_of_list_In|by apply Ascii.eqb_eq].
  - unfold outside_ascii in Hc. lia.
Qed.
Lemma not_like_score c p : c <> "R"%char -> c <> "C"%char -> ~ like_score (String c p).
Proof. intros H1 H2 (c' & w & rest & E & [->| ->] & _); by injection E as -> _. Qed.

(** ** What is read was there *)
Lemma is_nul_eq c : is_nul c = true -> c = NUL.
Proof. unfold is_nul. by intros ->%Ascii.eqb_eq. Qed.
Lemma not_nul_inv s : all_in (fun x => negb (is_nul x) = true) s -> all_in (fun c => c <> NUL) s.
Proof. apply all_in_impl. intros c H ->. by vm_compute in H. Qed.
Lemma match_path_inv s p o : match_path s = Some (p, o) ->
  s = path_text p o /\ git_path p /\ utf8 p = true /\
  match o with Some o => git_path o /\ utf8 o = true | None => True end.
Proof.
  unfold match_path, text_run. destruct (span _ s) as [a b] eqn:E. destruct (span_spec _ _ _ _ E) as (-> & Ha & Hb).
  destruct (String.eqb_spec a "") as [|Hne]; [done|]. cbn [negb andb]. destruct (utf8 a) eqn:Eu; [|done].
  destruct b as [|c b].
  - intros [= <- <-]. unfold path_text. split; [done|]. split; [|done]. split; [done|by apply not_nul_inv].
  - destruct (span _ b) as [a' b'] eqn:E'. destruct (span_spec _ _ _ _ E') as (-> & Ha' & _).
    destruct (String.eqb_spec a' "") as [|Hne']; [done|]. cbn [negb andb]. destruct (utf8 a') eqn:Eu'; [|done].
    cbn [andb]. destruct (String.eqb_spec b' "") as [->|]; [|done]. intros [= <- <-]. unfold path_text.
    destruct Hb as [|(c' & b'' & [= <- <-] & Hc)]; [done|]. apply negb_false_iff, is_nul_eq in Hc as ->.
    split; [by rewrite sapp_nil_r|]. split; [split; [done|by apply not_nul_inv]|]. split; [done|].
    split; [split; [done|by apply not_nul_inv]|done].
Qed.
Lemma match_score_inv s p o : match_score s = Some (p, o) ->
  exists sc rest, s = words sc rest /\ match_path rest = Some (p, o) /\
    (sc = [] \/ exists w, sc = [w] /\ score_word w).
Proof.
  unfold match_score. destruct (score_field s) as [r|] eqn:E.
  2:{ cbn [orelse]. intros H. exists [], s. split; [done|]. split; [done|by left]. }
  destruct (match_path r) as [x|] eqn:Er; cbn [orelse].
  2:{ intros H. exists [], s. split; [done|]. split; [done|by left]. }
  intros [= ->]. unfold score_field in E. destruct s as [|c s]; [done|].
  destruct (Ascii.eqb c "C" || Ascii.eqb c "R")%bool eqn:Ec; [|done].
  destruct (field is_digit 1 (Some 3%nat) s) as [[a r']|] eqn:Ef; [|done]. injection E as ->.
  apply field_inv in Ef as (-> & Ha & H1 & H2). exists [String c a], r. split; [reflexivity|]. split; [done|].
  right. exists (String c a). split; [done|]. exists c, a. split; [done|]. split.
  - apply orb_true_iff in Ec as [->%Ascii.eqb_eq| ->%Ascii.eqb_eq]; auto.
  - split; [lia|]. eapply all_in_impl; [apply is_digit_digit|done].
Qed.
Lemma id_field_inv s a r : id_field s = Some (a, r) -> s = sp a r /\ hex_word a.
Proof.
  intros (-> & Ha & H1 & _)%field_inv. split; [done|]. split.
  - intros ->. cbn in H1. lia.
  - eapply all_in_impl; [apply is_hex_hex|done].
Qed.
Lemma mode_field_inv s a r : mode_field s = Some (a, r) -> s = sp a r /\ six_digits a.
Proof.
  intros (-> & Ha & H1 & H2)%field_inv. split; [done|]. split; [lia|].
  eapply all_in_impl; [apply is_digit_digit|done].
Qed.
Lemma match_ids_inv s x : match_ids s = Some x ->
  exists ids rest, s = words ids rest /\ match_score rest = Some x /\
    (2 <= length ids <= 3)%nat /\ Forall hex_word ids.
Proof.
  unfold match_ids. destruct (id_field s) as [[a s1]|] eqn:E1; [|done]. apply id_field_inv in E1 as [-> Ha].
  destruct (id_field s1) as [[b s2]|] eqn:E2; [|done]. apply id_field_inv in E2 as [-> Hb].
  assert (match_score s2 = Some x -> exists ids rest, sp a (sp b s2) = words ids rest /\ match_score rest = Some x /\
    (2 <= length ids <= 3)%nat /\ Forall hex_word ids) as D.
  { intros H. exists [a; b], s2. split; [done|]. split; [done|]. split; [cbn [length]; lia|]. by repeat apply Forall_cons_2. }
  destruct (id_field s2) as [[c s3]|] eqn:E3; cbn [orelse]; [|done]. apply id_field_inv in E3 as [-> Hc].
  destruct (match_score s3) as [y|] eqn:E4; cbn [orelse]; [|done]. intros [= ->].
  exists [a; b; c], s3. split; [done|]. split; [done|]. split; [cbn [length]; lia|]. by repeat apply Forall_cons_2.
Qed.
Lemma match_modes_inv s m x : match_modes s = Some (m, x) ->
  exists ms rest, s = words (ms ++ [m]) rest /\ match_ids rest = Some x /\
    (2 <= length ms <= 3)%nat /\ Forall six_digits (ms ++ [m]).
Proof.
  unfold match_modes. destruct (mode_field s) as [[a s1]|] eqn:E1; [|done]. apply mode_field_inv in E1 as [-> Ha].
  destruct (mode_field s1) as [[b s2]|] eqn:E2; [|done]. apply mode_field_inv in E2 as [-> Hb].
  assert (forall s, match_wc_mode s = Some (m, x) -> exists r, s = sp m r /\ match_ids r = Some x /\ six_digits m) as W.
  { intros t. unfold match_wc_mode. destruct (mode_field t) as [[k r]|] eqn:E; [|done]. apply mode_field_inv in E as [-> Hk].
    destruct (match_ids r) eqn:Er; [|done]. intros [= -> ->]. eauto. }
  assert (match_wc_mode s2 = Some (m, x) -> exists ms rest, sp a (sp b s2) = words (ms ++ [m]) rest /\
    match_ids rest = Some x /\ (2 <= length ms <= 3)%nat /\ Forall six_digits (ms ++ [m])) as D.
  { intros (r & -> & Hr & Hm)%W. exists [a; b], r. split; [done|]. split; [done|].
    split; [cbn [length]; lia|]. cbn [app]. by repeat apply Forall_cons_2. }
  destruct (mode_field s2) as [[c s3]|] eqn:E3; cbn [orelse]; [|done]. apply mode_field_inv in E3 as [-> Hc].
  destruct (match_wc_mode s3) as [y|] eqn:E4; cbn [orelse]; [|done]. intros [= ->].
  apply W in E4 as (r & -> & Hr & Hm). exists [a; b; c], r. split; [done|]. split; [done|].
  split; [cbn [length]; lia|]. cbn [app]. by repeat apply Forall_cons_2.
Qed.
Lemma words_app a b s : words (a ++ b) s = words a (words b s).
Proof. apply fold_right_app. Qed.
Lemma parse_inv line e : parse_status_entry line = Some e ->
  exists kind x y sub ms mw ids sc,
    line = words (String kind "" :: String x (String y "") :: sub :: (ms ++ [mw]) ++ ids ++ sc) (path_text (se_path e) (se_orig e)) /\
    kind ∈ ["1"; "2"; "u"]%char /\
    (2 <= length ms <= 3)%nat /\ Forall six_digits (ms ++ [mw]) /\ mode_of_text mw = Some (se_mode e) /\
    (2 <= length ids <= 3)%nat /\ Forall hex_word ids /\
    (sc = [] \/ exists w, sc = [w] /\ score_word w) /\
    Forall (fun p => git_path p /\ utf8 p = true) (se_paths e) /\
    se_index e = (if decide (kind = "u"%char) then Unmerged else status_of x) /\ se_wc e = status_of y.
Proof.
  unfold parse_status_entry. destruct line as [|p [|s1 [|x [|y [|s2 rest]]]]]; try done.
  destruct (_ && _)%bool eqn:E; [|done]. repeat (apply andb_true_iff in E as [E ?]).
  repeat match goal with H : Ascii.eqb _ SP = true |- _ => apply Ascii.eqb_eq in H as -> end.
  destruct (field is_word_dot 1 None rest) as [[sub r]|] eqn:Ef; [|done]. apply field_inv in Ef as (-> & _).
  destruct (match_modes r) as [[m [path orig]]|] eqn:Em; [|done].
  apply match_modes_inv in Em as (ms & r1 & -> & Hi & Hl & H6).
  apply match_ids_inv in Hi as (ids & r2 & -> & Hs & Hl' & Hx).
  apply match_score_inv in Hs as (sc & r3 & -> & Hp & Hsc).
  apply match_path_inv in Hp as (-> & Hg & Hu & Ho).
  destruct (mode_of_text m) as [fm|] eqn:Efm; [|done]. intros [= <-]. cbn [se_index se_wc se_mode se_path se_orig].
  exists p, x, y, sub, ms, m, ids, sc. split; [rewrite !app_comm_cons, !words_app; reflexivity|].
  split.
  { apply orb_true_iff in E as [[->%Ascii.eqb_eq| ->%Ascii.eqb_eq]%orb_true_iff| ->%Ascii.eqb_eq];
      repeat (first [by left|right]). }
  split; [done|]. split; [done|]. split; [done|]. split; [done|]. split; [done|]. split; [done|]. split.
  { unfold se_paths. cbn [se_path se_orig]. apply Forall_cons_2; [done|].
    destruct orig; [by apply Forall_cons_2|by apply Forall_nil_2]. }
  split; [|done]. destruct (Ascii.eqb_spec p "u"); case_decide; done.
Qed.
