From Verif Require Import Base TextModel ColourModel ColourSpec.
Local Open Scope string_scope.
Local Open Scope list_scope.

Definition with_color (c : option (Z * bool)) (s : look) : look :=
  match c with
  | Some (n, b) => mk_look (Some (Z.to_N (if b then n + 8 else n))) (l_effects s)
  | None => s
  end.
Lemma look_eta s : s = mk_look (l_color s) (l_effects s). Proof. by destruct s. Qed.

(** What the codes do. *)
Lemma color_read (c : base_color) b s rest :
  terminal Text s (color_code (color_number c, b) ++ rest) = terminal Text (with_color (Some (color_number c, b)) s) rest.
Proof. by destruct c, b. Qed.
Lemma attr_read a s rest : a ∈ attr_numbers ->
  terminal Text s (code (isize_to_string a) ++ rest) = terminal Text (mk_look (l_color s) ({[Z.to_N a]} ∪ l_effects s)) rest.
Proof.
  intros H. unfold attr_numbers in H. repeat (apply elem_of_cons in H as [->|H]; [reflexivity|]). by apply elem_of_nil in H.
Qed.
Lemma reset_read s rest : terminal Text s (code "0" ++ rest) = terminal Text own rest.
Proof. reflexivity. Qed.
Lemma attrs_read l s rest : Forall (fun a => a ∈ attr_numbers) l ->
  terminal Text s (List.concat (List.map (fun a => code (isize_to_string a)) l) ++ rest) =
  terminal Text (mk_look (l_color s) (list_to_set (Z.to_N <$> l) ∪ l_effects s)) rest.
Proof.
  intros F. revert s. induction F as [|a l Ha F IH]; intros s; cbn [List.map List.concat].
  - cbn [fmap list_fmap list_to_set app]. rewrite (left_id_L ∅ (∪)), <- look_eta. done.
  - rewrite <- app_assoc, attr_read, IH by done. cbn [l_color l_effects]. do 2 f_equal. cbn [fmap list_fmap list_to_set]. set_solver.
Qed.
Lemma text_read l s rest : no_esc l ->
  terminal Text s (l ++ rest) = let '(shown, m, s') := terminal Text s rest in (((fun c => (c, s)) <$> l) ++ shown, m, s').
Proof.
  induction l as [|c l IH]; intros N; cbn [app]; [by destruct (terminal Text s rest) as [[? ?] ?]|].
  cbn [terminal]. rewrite decide_False by (apply N; left). rewrite IH by (intros x Hx; apply N; by right).
  destruct (terminal Text s rest) as [[shown m] s']. reflexivity.
Qed.

Lemma attrs_supported es : Strikethrough ∉ es <-> is_Some (attrs_of es).
Proof.
  induction es as [|e es IH]; cbn [attrs_of]; [split; [by eexists|intros _; apply not_elem_of_nil]|].
  rewrite not_elem_of_cons, IH. destruct (attrs_of es) as [l|].
  - destruct e; cbn [attr_of]; (split; [intros [? _]; first [congruence|eexists; reflexivity]|intros H; first [destruct H as [? H]; discriminate|split; [discriminate|exists l; reflexivity]]]).
  - split; [intros [_ [? H]]; discriminate|]. intros [? H]. destruct e; discriminate.
Qed.
Lemma attrs_set es l : attrs_of es = Some l -> Forall (fun a => a ∈ attr_numbers) l /\ list_to_set (Z.to_N <$> l) = ⋃ (effect_numbers <$> es).
Proof.
  revert l. induction es as [|e es IH]; intros l; cbn [attrs_of]; [intros H; injection H as <-; by split; [constructor|]|].
  destruct (attrs_of es) as [l'|]; [|by destruct (attr_of e) as [[?|]|]]. destruct (IH l' eq_refl) as [F E].
  assert (U : ⋃ (effect_numbers <$> e :: es) = effect_numbers e ∪ ⋃ (effect_numbers <$> es)) by reflexivity. rewrite U, <- E. clear U E.
  destruct e; cbn [attr_of effect_numbers]; intros H; try discriminate; injection H as <-;
    (split; [first [exact F|constructor; [decide_it|exact F]]|]); cbn [fmap list_fmap list_to_set]; set_solver.
Qed.
Lemma color_cases f c : color_of f = Some c -> l_color (with_color c own) = l_color (look_of (mk_style f [])) /\
  (c = None \/ exists b bright, c = Some (color_number b, bright)).
Proof.
  destruct f as [| | | |b|b]; cbn [color_of]; intros H; try discriminate; injection H as <-; (split; [by try destruct b|eauto]).
Qed.

Lemma sorted_set (l : list Z) : Forall (fun a => a ∈ attr_numbers) l ->
  list_to_set (C := gset N) (Z.to_N <$> List.filter (fun a => bool_decide (a ∈ l)) attr_numbers) = list_to_set (Z.to_N <$> l).
Proof.
  intros F. rewrite list.Forall_forall in F. apply set_eq. intros x. rewrite !elem_of_list_to_set, !elem_of_list_fmap. split.
  - intros (a & -> & H). apply elem_of_list_In, filter_In in H as [_ H]. apply bool_decide_eq_true in H. eauto.
  - intros (a & -> & H). exists a. split; [done|]. apply elem_of_list_In, filter_In. split; [by apply elem_of_list_In, F|by apply bool_decide_eq_true].
Qed.
Lemma sorted_in (l : list Z) : Forall (fun a => a ∈ attr_numbers) (List.filter (fun a => bool_decide (a ∈ l)) attr_numbers).
Proof. apply list.Forall_forall. intros x H. apply elem_of_list_In, filter_In in H as [H _]. by apply elem_of_list_In. Qed.

(** One span: all of it in its look, and the terminal's own look after it. *)
Lemma span_read content s out rest : no_esc content -> render_style content s = Some out ->
  terminal Text own (out ++ rest) =
  let '(shown, m, s') := terminal Text own rest in (((fun c => (c, look_of s)) <$> content) ++ shown, m, s').
Proof.
  intros N H. unfold render_style in H. destruct (color_of (s_front s)) as [c|] eqn:C; [|done].
  destruct (attrs_of (s_effects s)) as [l|] eqn:A; [|done]. injection H as <-.
  destruct (attrs_set _ _ A) as [F E]. destruct (color_cases _ _ C) as [LC CC]. unfold write_styled.
  set (sl := List.filter (fun a => bool_decide (a ∈ l)) attr_numbers).
  set (codes := match c with Some c => color_code c | None => [] end ++ _).
  assert (R : forall r, terminal Text own (codes ++ r) = terminal Text (look_of s) r).
  { intros r. subst codes. rewrite <- app_assoc.
    assert (X : forall r', terminal Text own (match c with Some c => color_code c | None => [] end ++ r') = terminal Text (with_color c own) r').
    { intros r'. destruct CC as [->|(b & br & ->)]; [done|apply color_read]. }
    rewrite X, attrs_read by exact (sorted_in l). f_equal. subst sl. rewrite (sorted_set l F), E, LC.
    assert (Z0 : l_effects (with_color c own) = ∅) by (by destruct CC as [->|(b & br & ->)]). rewrite Z0, (right_id_L ∅ (∪)).
    unfold look_of. cbn [s_front l_color]. done. }
  rewrite <- app_assoc, R, <- app_assoc, text_read by done.
  assert (Y : terminal Text (look_of s) (match codes with [] => [] | _ :: _ => code "0" end ++ rest) = terminal Text own rest).
  { destruct codes; [|reflexivity]. cbn [app]. specialize (R rest). cbn [app] in R. by rewrite R. }
  rewrite Y. done.
Qed.
