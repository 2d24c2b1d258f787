(** C129: colours *)
From Verif Require Import Base TextModel ColourModel ColourSpec ColourProofs.
Local Open Scope string_scope.
Local Open Scope list_scope.

(** With colours, a terminal shows each character in the style asked for, and what is
    written afterwards in its own. *)
Theorem c129_shown_partial : forall t out, (forall content s, (content, s) ∈ t -> no_esc content) -> render true t = Some out ->
  forall rest, terminal Text own (out ++ rest) =
    let '(shown, m, s') := terminal Text own rest in ((t ≫= fun sp => (fun c => (c, look_of sp.2)) <$> sp.1) ++ shown, m, s').
Proof.
  induction t as [|[content s] t IH]; intros out N H rest; cbn [render] in H.
  - injection H as <-. cbn [app]. by destruct (terminal Text own rest) as [[? ?] ?].
  - destruct (render_style content s) as [a|] eqn:A; [|done]. destruct (render true t) as [b|] eqn:B; [|done]. injection H as <-.
    rewrite <- app_assoc, (span_read content s a) by (eauto using elem_of_list_here).
    rewrite (IH b) by (intros; [eapply N; right; eassumption|done] || (intros ? ? Hx; eapply N; right; exact Hx) || done).
    destruct (terminal Text own rest) as [[shown m] s']. cbn [fst snd]. rewrite bind_cons, <- app_assoc. done.
Qed.

(** So the text is the same with and without colours, and nothing else is shown. *)
Theorem c129_text_partial : forall t out, (forall content s, (content, s) ∈ t -> no_esc content) -> render true t = Some out ->
  render false t = Some (text_of t) /\
  fst <$> (terminal Text own out).1.1 = text_of t /\ (terminal Text own out).1.2 = Text /\ (terminal Text own out).2 = own.
Proof.
  intros t out N H. pose proof (c129_shown_partial t out N H []) as S. rewrite app_nil_r in S. cbn [terminal] in S.
  rewrite S. cbn [fst snd]. rewrite app_nil_r. split; [|split; [|done]].
  - clear. induction t as [|[content s] t IH]; [done|]. cbn [render]. by rewrite IH.
  - clear. unfold text_of. induction t as [|[content s] t IH]; [done|]. rewrite !bind_cons, fmap_app, IH. f_equal. cbn [fst snd].
    rewrite <- list_fmap_compose. apply list_fmap_id.
Qed.

(** Without colours everything can be written; with colours, all that has supported
    styles and nothing else. *)
Theorem c129_fails : forall t, is_Some (render false t) /\ (is_Some (render true t) <-> forall content s, (content, s) ∈ t -> supported s).
Proof.
  assert (S : forall content s, is_Some (render_style content s) <-> supported s).
  { intros content s. unfold render_style, supported. rewrite attrs_supported. destruct (s_front s); cbn [color_of];
      destruct (attrs_of (s_effects s)); split; try (intros [? ?]; discriminate); try (intros (? & ? & [? ?]); congruence);
      try (intros _; split_and!; [discriminate|discriminate|by eexists]); intros _; by eexists. }
  induction t as [|[content s] t [IH1 IH2]]; cbn [render].
  - split; [by eexists|]. split; [intros _ ? ? H; by apply elem_of_nil in H|by eexists].
  - destruct IH1 as [a ->]. split; [by eexists|]. split.
    + intros H. destruct (render_style content s) as [x|] eqn:X; [|by destruct H]. destruct (render true t) as [y|] eqn:Y; [|by destruct H].
      intros c' s' [E|Hin]%elem_of_cons; [injection E as -> ->; apply (S content); by rewrite X|]. apply (proj1 IH2 ltac:(by eexists) c' s' Hin).
    + intros H. destruct (proj2 (S content s) ltac:(apply (H content); left)) as [x ->].
      destruct (proj2 IH2 ltac:(intros c' s' Hin; apply (H c'); by right)) as [y ->]. by eexists.
Qed.

(** Text with escape characters is written as it is, with colours and without: a commit
    with such a message changes how the lines after it look. *)
Theorem c129_escape_refuted : exists t out rest, render true t = Some out /\ render false t = Some (text_of t) /\
  (terminal Text own (out ++ rest)).2 <> own /\ (terminal Text own (text_of t ++ rest)).2 <> own.
Proof.
  exists [(esc :: list_ascii_of_string "[31mred", plain_style)]. eexists. exists (list_ascii_of_string "next").
  split; [reflexivity|]. split; [reflexivity|]. split; vm_compute; discriminate.
Qed.

(** Joining and adding effects change no text. *)
Theorem c129_build : forall t l d e,
  text_of (from_lines l) = (l ≫= fun x => text_of x ++ [ascii_of_nat 10]) /\
  text_of (join_styled true d (t :: l)) = text_of t ++ (l ≫= fun x => d ++ text_of x) /\
  text_of (set_effect t e) = text_of t /\
  (forall k c s, t !! k = Some (c, s) -> exists s', set_effect t e !! k = Some (c, s') /\
     l_color (look_of s') = l_color (look_of s) /\ l_effects (look_of s') = effect_numbers e ∪ l_effects (look_of s)).
Proof.
  intros t l d e. unfold text_of. split_and!.
  - unfold from_lines. induction l as [|x l IH]; [done|]. cbn [List.map List.concat]. rewrite !bind_app, bind_cons, IH. cbn. by rewrite <- app_assoc.
  - cbn [join_styled app]. rewrite bind_app. f_equal. induction l as [|x l IH]; [done|].
    cbn [join_styled]. cbn [app]. rewrite !bind_cons, bind_app, IH. cbn [fst]. by rewrite <- app_assoc.
  - unfold set_effect. induction t as [|[c s] t IH]; [done|]. cbn [List.map]. by rewrite !bind_cons, IH.
  - intros k c s H. unfold set_effect. exists (mk_style (s_front s) (e :: s_effects s)). split_and!; [|done|done].
    revert k H. induction t as [|[c' s'] t IH]; intros [|k] H; try done; [by injection H as -> ->|by apply IH].
Qed.

(** ** Examples *)
Example c129_example :
  let t := [(list_ascii_of_string "ab", mk_style (Light Red) [Bold; Underline]); (list_ascii_of_string "c", plain_style)] in
  (forall content s, (content, s) ∈ t -> no_esc content) /\ (forall content s, (content, s) ∈ t -> supported s) /\
  render true t = Some (code "38;5;9" ++ code "1" ++ code "4" ++ list_ascii_of_string "ab" ++ code "0" ++ list_ascii_of_string "c") /\
  look_of (mk_style (Light Red) [Bold; Underline]) = mk_look (Some 9%N) {[1%N; 4%N]}.
Proof.
  cbn zeta. split_and!.
  - intros content s H. repeat (apply elem_of_cons in H as [H|H]; [injection H as -> ->; unfold no_esc; apply list.Forall_forall; decide_it|]). by apply elem_of_nil in H.
  - intros content s H. repeat (apply elem_of_cons in H as [H|H]; [injection H as -> ->; split_and!; [discriminate|discriminate|set_solver]|]). by apply elem_of_nil in H.
  - reflexivity.
  - unfold look_of. cbn [s_front s_effects]. f_equal. decide_it.
Qed.

Print Assumptions c129_shown_partial.
Print Assumptions c129_text_partial.
Print Assumptions c129_fails.
Print Assumptions c129_escape_refuted.
Print Assumptions c129_build.
