(** Proofs about installing hooks, aliases and the main branch. *)
From Verif Require Import Base StrModel StrProofs InitModel InitSpec.
Local Open Scope string_scope.
Local Open Scope list_scope.

Lemma marker_dec l : {marker l} + {~ marker l}.
Proof.
  unfold marker. destruct (String.eqb_spec l MARKER_START); [left; auto|].
  destruct (String.eqb_spec l MARKER_END); [left; auto|]. right. intuition.
Qed.

(** ** The parts of a script *)

Lemma hook_parts_total ls : exists ps, hook_parts ls ps.
Proof.
  assert (H : (exists ps, hook_parts ls ps) /\ exists ps, hook_parts (MARKER_START :: ls) ps).
  { induction ls as [|l ls [[ps IH] [ps' IHo]]].
    - split; [exists []; constructor|]. exists [Managed []]. apply parts_open. constructor.
    - destruct (String.eqb_spec l MARKER_START) as [->|Hs].
      { split; [exists ps'; exact IHo|]. exists (Managed [] :: ps').
        apply (parts_cut []); [constructor|exact IHo]. }
      destruct (String.eqb_spec l MARKER_END) as [->|He].
      { split; [exists ps; by constructor|]. exists (Managed [] :: ps).
        apply (parts_block []); [constructor|exact IH]. }
      assert (Hm : ~ marker l) by (intros [?|?]; contradiction).
      split; [exists (User l :: ps); by constructor|].
      inversion IHo as [| ? ? ? Hn| |body ls' ps'' Hb Hp Heq|body ls' ps'' Hb Hp Heq|body Hb]; subst.
      + exfalso. apply Hn. by left.
      + exists (Managed (l :: body) :: ps''). apply (parts_block (l :: body)); [by constructor|done].
      + exists (Managed (l :: body) :: ps''). apply (parts_cut (l :: body)); [by constructor|done].
      + exists [Managed (l :: ls)]. apply parts_open. by constructor. }
  exact (proj1 H).
Qed.

Lemma eqb_marker_start : String.eqb MARKER_START MARKER_START = true. Proof. reflexivity. Qed.
Lemma eqb_marker_end : String.eqb MARKER_END MARKER_START = false. Proof. reflexivity. Qed.
Lemma not_marker l : ~ marker l -> String.eqb l MARKER_START = false /\ String.eqb l MARKER_END = false.
Proof.
  intros H. split; apply String.eqb_neq; intros ->; apply H; [by left|by right].
Qed.

Lemma update_loop_body body ls c acc f :
  Forall (fun l => ~ marker l) body ->
  update_loop (body ++ ls) c acc f true = update_loop ls c acc f true.
Proof.
  induction 1 as [|l body Hl _ IH]; [done|]. destruct (not_marker l Hl) as [E1 E2].
  change ((l :: body) ++ ls) with (l :: (body ++ ls)). cbn [update_loop]. rewrite E1, E2. exact IH.
Qed.

Definition new_parts (body : list string) (ps : list part) : list part :=
  List.map (fun p => match p with User l => User l | Managed _ => Managed body end) ps.

Lemma script_cons p ps : script (p :: ps) = unlines (part_lines p) +:+ script ps.
Proof. unfold script. cbn [List.map List.concat]. apply unlines_app. Qed.

Lemma script_one p : script [p] = unlines (part_lines p).
Proof. unfold script. cbn [List.map List.concat]. by rewrite app_nil_r. Qed.
Lemma script_app a b : script (a ++ b) = script a +:+ script b.
Proof. unfold script. rewrite List.map_app, List.concat_app. apply unlines_app. Qed.

Lemma append_hook_script acc body : append_hook acc (unlines body) = acc +:+ script [Managed body].
Proof.
  unfold append_hook, script. cbn [List.map List.concat part_lines].
  rewrite app_nil_r. cbn [app]. f_equal.
  change (unlines (MARKER_START :: body ++ [MARKER_END])) with (MARKER_START +:+ NL +:+ unlines (body ++ [MARKER_END])).
  rewrite unlines_app. reflexivity.
Qed.

Lemma update_loop_parts ls ps body :
  hook_parts ls ps -> forall acc f i, (i = false \/ exists ls', ls = MARKER_START :: ls') ->
  exists i', update_loop ls (unlines body) acc f i =
    (acc +:+ script (new_parts body ps), orb f (existsb is_managed ps), i') /\
    (i' = true -> existsb is_managed ps = true).
Proof.
  induction 1 as [|l ls ps Hl H IH|ls ps H IH|b ls ps Hb H IH|b ls ps Hb H IH|b Hb]; intros acc f i Hi.
  - destruct Hi as [-> |[? ?]]; [|done]. exists false. cbn. rewrite sapp_nil_r, orb_false_r. done.
  - destruct (not_marker l Hl) as [E1 E2]. cbn [update_loop]. rewrite E1, E2.
    destruct Hi as [-> |[ls' E]]; [|injection E as -> _; exfalso; apply Hl; by left].
    cbn [negb]. destruct (IH (acc +:+ l +:+ NL) f false) as (i' & -> & Hi'); [by left|].
    exists i'. split; [|exact Hi']. cbn [new_parts List.map]. rewrite script_cons. cbn [part_lines unlines existsb is_managed orb].
    unfold new_parts. rewrite !sapp_assoc. reflexivity.
  - destruct Hi as [-> |[ls' E]]; [|discriminate E].
    cbn [update_loop]. rewrite eqb_marker_end. change (String.eqb MARKER_END MARKER_END) with true. cbn match.
    apply IH. by left.
  - cbn [update_loop]. rewrite eqb_marker_start. rewrite update_loop_body by exact Hb.
    cbn [update_loop]. rewrite eqb_marker_end. change (String.eqb MARKER_END MARKER_END) with true. cbn match.
    destruct (IH (append_hook acc (unlines body)) true false) as (i' & -> & Hi'); [by left|].
    exists i'. rewrite append_hook_script. cbn [new_parts List.map existsb is_managed orb].
    rewrite script_one, (script_cons (Managed body)), orb_true_r. split; [|done].
    rewrite sapp_assoc. reflexivity.
  - cbn [update_loop]. rewrite eqb_marker_start. rewrite update_loop_body by exact Hb.
    destruct (IH (append_hook acc (unlines body)) true true) as (i' & -> & Hi'); [right; eauto|].
    exists i'. rewrite append_hook_script. cbn [new_parts List.map existsb is_managed orb].
    rewrite script_one, (script_cons (Managed body)), orb_true_r. split; [|done].
    rewrite sapp_assoc. reflexivity.
  - cbn [update_loop]. rewrite eqb_marker_start.
    rewrite <- (app_nil_r b), update_loop_body by exact Hb. cbn [update_loop].
    exists true. rewrite append_hook_script. cbn [new_parts List.map existsb is_managed orb]. rewrite orb_true_r. done.
Qed.

Lemma update_parts text ps body :
  hook_parts (lines text) ps ->
  update_between_lines text (unlines body) = script (with_body body ps).
Proof.
  intros H. unfold update_between_lines.
  destruct (update_loop_parts _ _ body H "" false false) as (i & -> & Hi); [by left|].
  rewrite sapp_nil. cbn [orb]. unfold with_body. fold (new_parts body ps).
  destruct i.
  - rewrite Hi by done. reflexivity.
  - destruct (existsb is_managed ps); [reflexivity|]. cbn [negb].
    rewrite append_hook_script, script_app. reflexivity.
Qed.

Lemma hook_parts_det ls ps1 : hook_parts ls ps1 -> forall ps2, hook_parts ls ps2 -> ps1 = ps2.
Proof.
  assert (Hsplit : forall b1 b2 m1 m2 l1 l2, Forall (fun l => ~ marker l) b1 -> Forall (fun l => ~ marker l) b2 ->
    marker m1 -> marker m2 -> b1 ++ m1 :: l1 = b2 ++ m2 :: l2 -> b1 = b2 /\ m1 = m2 /\ l1 = l2).
  { intros b1. induction b1 as [|x b1 IH]; intros [|y b2] m1 m2 l1 l2 F1 F2 M1 M2 E; cbn in E.
    - injection E as -> ->. done.
    - injection E as -> _. apply Forall_cons in F2. tauto.
    - injection E as -> _. apply Forall_cons in F1. tauto.
    - injection E as -> E. apply Forall_cons in F1, F2.
      destruct (IH b2 m1 m2 l1 l2) as (-> & -> & ->); tauto. }
  assert (Hno : forall b1 b2 m l, Forall (fun l => ~ marker l) b1 -> marker m -> b1 = b2 ++ m :: l -> False).
  { intros b1 b2 m l F M ->. apply Forall_app in F. destruct F as [_ F]. apply Forall_cons in F. tauto. }
  assert (MS : marker MARKER_START) by (by left). assert (ME : marker MARKER_END) by (by right).
  assert (NE : MARKER_START <> MARKER_END) by discriminate.
  induction 1 as [|l ls ps Hl H IH|ls ps H IH|b ls ps Hb H IH|b ls ps Hb H IH|b Hb]; intros ps2 H2;
    inversion H2 as [|? ? ? Hl2 Hp2|? ? Hp2|b2 ls2 ? Hb2 Hp2 E2|b2 ls2 ? Hb2 Hp2 E2|b2 Hb2 E2]; subst;
    try (exfalso; tauto); try done.
  - f_equal. auto.
  - by apply IH.
  - destruct (Hsplit b b2 MARKER_END MARKER_END ls ls2) as (-> & _ & ->); auto. f_equal. auto.
  - destruct (Hsplit b b2 MARKER_END MARKER_START ls ls2) as (_ & E & _); auto. congruence.
  - exfalso. eapply (Hno _ b MARKER_END ls); [exact Hb2|exact ME|reflexivity].
  - destruct (Hsplit b b2 MARKER_START MARKER_END ls ls2) as (_ & E & _); auto. congruence.
  - destruct (Hsplit b b2 MARKER_START MARKER_START ls ls2) as (-> & _ & ->); auto. f_equal. auto.
  - exfalso. eapply (Hno _ b MARKER_START ls); [exact Hb2|exact MS|reflexivity].
  - exfalso. eapply (Hno _ b2 MARKER_END ls2); [exact Hb|exact ME|reflexivity].
  - exfalso. eapply (Hno _ b2 MARKER_START ls2); [exact Hb|exact MS|reflexivity].
Qed.

(** ** Doing it again *)

Definition sound_part (p : part) : Prop :=
  match p with User l => ~ marker l | Managed body => Forall (fun l => ~ marker l) body end.
Definition plain_part (p : part) : Prop :=
  match p with User l => plain l | Managed body => Forall plain body end.

Lemma part_lines_parts ps : Forall sound_part ps -> hook_parts (List.concat (List.map part_lines ps)) ps.
Proof.
  induction 1 as [|[l|body] ps Hp _ IH]; cbn [List.map List.concat part_lines]; [constructor| |].
  - by constructor.
  - cbn [app]. rewrite <- app_assoc. cbn [app]. by constructor.
Qed.

Lemma hook_parts_sound ls ps : hook_parts ls ps -> Forall sound_part ps.
Proof. induction 1; try (constructor; [|assumption]); try assumption; by constructor. Qed.

Lemma plain_start : plain MARKER_START.
Proof. split; intros H; apply elem_of_list_In in H; vm_compute in H; intuition discriminate. Qed.
Lemma plain_end : plain MARKER_END.
Proof. split; intros H; apply elem_of_list_In in H; vm_compute in H; intuition discriminate. Qed.

Lemma hook_parts_plain ls ps : hook_parts ls ps -> Forall plain ls -> Forall plain_part ps.
Proof.
  induction 1 as [|l ls ps Hl H IH|ls ps H IH|b ls ps Hb H IH|b ls ps Hb H IH|b Hb]; intros F.
  - constructor.
  - apply Forall_cons in F. constructor; [exact (proj1 F)|]. apply IH. tauto.
  - apply Forall_cons in F. apply IH. tauto.
  - apply Forall_cons in F. destruct F as [_ F]. apply Forall_app in F. destruct F as [F1 F2].
    apply Forall_cons in F2. constructor; [exact F1|]. apply IH. tauto.
  - apply Forall_cons in F. destruct F as [_ F]. apply Forall_app in F. destruct F as [F1 F2].
    constructor; [exact F1|]. apply IH. exact F2.
  - apply Forall_cons in F. constructor; [exact (proj2 F)|constructor].
Qed.

Lemma part_lines_plain ps : Forall plain_part ps -> Forall plain (List.concat (List.map part_lines ps)).
Proof.
  induction 1 as [|[l|body] ps Hp _ IH]; cbn [List.map List.concat part_lines]; [constructor| |].
  - apply Forall_app. split; [|exact IH]. by constructor.
  - apply Forall_app. split; [|exact IH]. constructor; [exact plain_start|].
    apply Forall_app. split; [exact Hp|]. constructor; [exact plain_end|constructor].
Qed.

Lemma lines_script ps : Forall plain_part ps -> lines (script ps) = List.concat (List.map part_lines ps).
Proof.
  intros H%part_lines_plain. apply lines_unlines; (eapply Forall_impl; [exact H|]); intros l [? ?]; assumption.
Qed.

Lemma with_body_sound body ps :
  Forall (fun l => ~ marker l) body -> Forall sound_part ps -> Forall sound_part (with_body body ps).
Proof.
  intros Hb H. assert (H' : Forall sound_part (new_parts body ps)).
  { induction H as [|[l|b] ps Hp _ IH]; cbn [new_parts List.map]; constructor; assumption. }
  unfold with_body. fold (new_parts body ps). destruct (existsb is_managed ps); [exact H'|].
  apply Forall_app. split; [exact H'|]. by repeat constructor.
Qed.

Lemma with_body_plain body ps : Forall plain body -> Forall plain_part ps -> Forall plain_part (with_body body ps).
Proof.
  intros Hb H. assert (H' : Forall plain_part (new_parts body ps)).
  { induction H as [|[l|b] ps Hp _ IH]; cbn [new_parts List.map]; constructor; assumption. }
  unfold with_body. fold (new_parts body ps). destruct (existsb is_managed ps); [exact H'|].
  apply Forall_app. split; [exact H'|]. by repeat constructor.
Qed.

Lemma new_parts_twice b1 b2 ps : new_parts b2 (new_parts b1 ps) = new_parts b2 ps.
Proof. unfold new_parts. rewrite List.map_map. apply List.map_ext. by intros [?|?]. Qed.

Lemma new_parts_managed b ps : existsb is_managed (new_parts b ps) = existsb is_managed ps.
Proof. induction ps as [|[l|body] ps IH]; cbn; [done| |done]. exact IH. Qed.

Lemma with_body_managed b ps : existsb is_managed (with_body b ps) = true.
Proof.
  unfold with_body. fold (new_parts b ps). destruct (existsb is_managed ps) eqn:E.
  - by rewrite new_parts_managed.
  - by rewrite existsb_app, orb_true_r.
Qed.

Lemma with_body_twice b1 b2 ps : with_body b2 (with_body b1 ps) = with_body b2 ps.
Proof.
  unfold with_body at 1. rewrite with_body_managed. fold (new_parts b2 (with_body b1 ps)).
  unfold with_body. fold (new_parts b1 ps). fold (new_parts b2 ps). destruct (existsb is_managed ps) eqn:E.
  - apply new_parts_twice.
  - unfold new_parts at 1. rewrite List.map_app. cbn [List.map].
    fold (new_parts b2 (new_parts b1 ps)). by rewrite new_parts_twice.
Qed.

Lemma with_body_user b ps : user_lines (with_body b ps) = user_lines ps.
Proof.
  assert (H : user_lines (new_parts b ps) = user_lines ps).
  { induction ps as [|[l|body] ps IH]; [done| |exact IH]. unfold user_lines in *. cbn. f_equal. exact IH. }
  unfold with_body. fold (new_parts b ps). destruct (existsb is_managed ps); [exact H|].
  unfold user_lines in *. rewrite omap_app. cbn. rewrite app_nil_r. exact H.
Qed.

Lemma split_on_lacks_other c d s : lacks d s -> Forall (lacks d) (split_on c s).
Proof.
  induction s as [|a s IH]; intros H; [repeat constructor; apply lacks_nil|].
  apply lacks_cons in H. destruct H as [N H]. specialize (IH H). cbn [split_on].
  destruct (Ascii.eqb a c); [constructor; [apply lacks_nil|exact IH]|].
  destruct (split_on c s) as [|x xs]; [constructor; [|constructor]; apply lacks_cons; split; [done|apply lacks_nil]|].
  apply Forall_cons in IH. constructor; [|tauto]. apply lacks_cons. tauto.
Qed.

Lemma lines_plain text : lacks CR text -> Forall plain (lines text).
Proof.
  intros H. unfold lines. pose proof (split_on_lacks LF text) as F1. pose proof (split_on_lacks_other LF CR text H) as F2.
  induction (split_on LF text) as [|x xs IH]; [constructor|].
  apply Forall_cons in F1, F2. destruct F1 as [A1 B1], F2 as [A2 B2]. specialize (IH B1 B2).
  destruct xs as [|y ys].
  - cbn [chomp]. destruct (String.eqb x ""); [constructor|]. by repeat constructor.
  - change (chomp (x :: y :: ys)) with (strip_cr x :: chomp (y :: ys)). rewrite strip_cr_lacks by exact A2.
    constructor; [by split|exact IH].
Qed.

Lemma update_again text b1 b2 :
  lacks CR text -> Forall plain b1 -> Forall (fun l => ~ marker l) b1 ->
  update_between_lines (update_between_lines text (unlines b1)) (unlines b2) =
  update_between_lines text (unlines b2).
Proof.
  intros Ht P1 M1. destruct (hook_parts_total (lines text)) as [ps H].
  rewrite (update_parts _ _ b2 H), (update_parts _ _ b1 H).
  assert (S : Forall sound_part (with_body b1 ps)) by (apply with_body_sound; [done|by eapply hook_parts_sound]).
  assert (P : Forall plain_part (with_body b1 ps)).
  { apply with_body_plain; [done|]. eapply hook_parts_plain; [exact H|]. by apply lines_plain. }
  rewrite (update_parts _ (with_body b1 ps)).
  - by rewrite with_body_twice.
  - rewrite lines_script by exact P. by apply part_lines_parts.
Qed.

(** ** All hooks *)

Lemma install_each_spec k hooks : List.NoDup (List.map fst hooks) -> forall d,
  (k = MultiHook \/ forall name, In name (List.map fst hooks) -> d name <> Unreadable) ->
  exists d', install_each k d hooks = (d', true) /\
    (forall name s, In (name, s) hooks -> exists r, update_hook_contents k (d name) s = Some r /\ d' name = Text r) /\
    (forall name, ~ In name (List.map fst hooks) -> d' name = d name).
Proof.
  induction hooks as [|[n s] hooks IH]; intros ND d Hr.
  { exists d. split_and!; [done|intros ? ? []|done]. }
  cbn [List.map fst] in ND. apply NoDup_cons_iff in ND. destruct ND as [Hn ND].
  assert (exists r, update_hook_contents k (d n) s = Some r) as [r Er].
  { destruct k; cbn; [|eauto]. destruct Hr as [?|Hr]; [done|]. specialize (Hr n (or_introl eq_refl)). destruct (d n); eauto; done. }
  cbn [install_each]. rewrite Er.
  destruct (IH ND (write_file d n r)) as (d' & E & H1 & H2).
  { destruct Hr as [?|Hr]; [by left|right]. intros name Hin. unfold write_file.
    destruct (String.eqb_spec name n) as [->|_]; [done|]. apply Hr. by right. }
  exists d'. split_and!; [exact E| |].
  - intros name s' [Heq|Hin].
    + injection Heq as <- <-. exists r. split; [exact Er|]. rewrite H2 by exact Hn. unfold write_file. by rewrite String.eqb_refl.
    + destruct (H1 name s' Hin) as (r' & Er' & Ed). exists r'. split; [|exact Ed]. rewrite <- Er'. unfold write_file.
      destruct (String.eqb_spec name n) as [->|_]; [|done]. exfalso. apply Hn. by apply (List.in_map fst) in Hin.
  - intros name Hnot. rewrite H2 by (intros ?; apply Hnot; by right). unfold write_file.
    destruct (String.eqb_spec name n) as [->|_]; [|done]. exfalso. apply Hnot. by left.
Qed.

Lemma install_each_fails hooks d name :
  List.NoDup (List.map fst hooks) ->
  In name (List.map fst hooks) -> d name = Unreadable -> snd (install_each RegularHook d hooks) = false.
Proof.
  revert d. induction hooks as [|[n s] hooks IH]; intros d ND Hin Hd; [destruct Hin|].
  cbn [List.map fst] in ND. apply NoDup_cons_iff in ND. destruct ND as [Hn ND].
  cbn [install_each]. destruct (String.eqb_spec name n) as [->|Hne].
  - rewrite Hd. done.
  - destruct Hin as [?|Hin]; [cbn in *; congruence|]. destruct (update_hook_contents RegularHook (d n) s); [|done].
    apply IH; [done|done|]. unfold write_file. destruct (String.eqb_spec name n); done.
Qed.

Lemma all_hooks_nodup : List.NoDup (List.map fst ALL_HOOKS).
Proof. apply NoDup_ListNoDup. apply (bool_decide_unpack _). vm_compute. exact I. Qed.

Definition good_body (s : string) : Prop :=
  unlines (lines s) = s /\ Forall plain (lines s) /\ Forall (fun l => ~ marker l) (lines s).
Definition good_bodyb (s : string) : bool :=
  String.eqb (unlines (lines s)) s
  && forallb (fun l => forallb (fun c => negb (Ascii.eqb c LF) && negb (Ascii.eqb c CR)) (list_ascii_of_string l)) (lines s)
  && forallb (fun l => negb (String.eqb l MARKER_START) && negb (String.eqb l MARKER_END)) (lines s).
Lemma good_bodyb_ok s : good_bodyb s = true -> good_body s.
Proof.
  unfold good_bodyb. intros [[H1 H2]%andb_prop H3]%andb_prop. split_and!.
  - by apply String.eqb_eq.
  - apply List.Forall_forall. intros l Hl. rewrite List.forallb_forall in H2. specialize (H2 l Hl).
    rewrite List.forallb_forall in H2.
    split; intros Hc; apply elem_of_list_In in Hc; specialize (H2 _ Hc); cbn in H2; discriminate H2.
  - apply List.Forall_forall. intros l Hl. rewrite List.forallb_forall in H3. specialize (H3 l Hl).
    apply andb_prop in H3. destruct H3 as [A B]. intros [-> | ->]; [discriminate A|discriminate B].
Qed.
Lemma all_hooks_good name s : In (name, s) ALL_HOOKS -> good_body s.
Proof.
  intros H. apply good_bodyb_ok.
  assert (F : forallb (fun h => good_bodyb (snd h)) ALL_HOOKS = true) by (vm_compute; reflexivity).
  rewrite List.forallb_forall in F. exact (F _ H).
Qed.
Lemma uninstalled_good : good_body UNINSTALLED.
Proof. apply good_bodyb_ok. vm_compute. reflexivity. Qed.

(** ** Aliases *)

Lemma install_alias_same c user w from to :
  install_alias c user w from to ("alias." +:+ from) =
  match user ("alias." +:+ from) with
  | Some _ => None
  | None => Some (if w then "branchless-" +:+ to else "branchless " +:+ to)
  end.
Proof.
  unfold install_alias, config_set. destruct (c ("alias." +:+ from)) eqn:E, (user ("alias." +:+ from));
    rewrite ?String.eqb_refl, ?E; reflexivity.
Qed.
Lemma install_alias_other c user w from to key :
  key <> "alias." +:+ from -> install_alias c user w from to key = c key.
Proof.
  intros H. unfold install_alias, config_set. apply String.eqb_neq in H.
  destruct (c ("alias." +:+ from)), (user ("alias." +:+ from)); rewrite ?H; reflexivity.
Qed.

Lemma install_aliases_spec l c user w :
  List.NoDup (List.map fst l) ->
  let c' := fold_left (fun c a => install_alias c user w (fst a) (snd a)) l c in
  (forall from to, In (from, to) l -> c' ("alias." +:+ from) =
     match user ("alias." +:+ from) with
     | Some _ => None
     | None => Some (if w then "branchless-" +:+ to else "branchless " +:+ to)
     end) /\
  (forall key, (forall from to, In (from, to) l -> key <> "alias." +:+ from) -> c' key = c key).
Proof.
  revert c. induction l as [|[f t] l IH]; intros c ND; [split; [intros ? ? []|done]|].
  cbn [List.map fst] in ND. apply NoDup_cons_iff in ND. destruct ND as [Hn ND].
  cbn [fold_left fst snd]. destruct (IH (install_alias c user w f t) ND) as [H1 H2]. split.
  - intros from to [Heq|Hin]; [|by apply H1]. injection Heq as <- <-.
    rewrite H2; [apply install_alias_same|]. intros from to Hin E.
    apply (inj (String.append _)) in E. subst from. apply Hn. by apply (List.in_map fst) in Hin.
  - intros key Hk. rewrite H2 by (intros; eapply Hk; by right). apply install_alias_other.
    eapply Hk. by left.
Qed.

Lemma all_aliases_nodup : List.NoDup (List.map fst ALL_ALIASES).
Proof. apply NoDup_ListNoDup. apply (bool_decide_unpack _). vm_compute. exact I. Qed.

(** ** The main branch *)

Lemma find_first {A} (f : A -> bool) l x :
  List.find f l = Some x <-> exists a b, l = a ++ x :: b /\ f x = true /\ Forall (fun y => f y = false) a.
Proof.
  split.
  - induction l as [|y l IH]; cbn; [done|]. destruct (f y) eqn:E.
    + intros [= ->]. exists [], l. split_and!; [done|done|constructor].
    + intros H. destruct (IH H) as (a & b & -> & Hx & Ha). exists (y :: a), b. split_and!; [done|done|by constructor].
  - intros (a & b & -> & Hx & Ha). induction Ha as [|y a Hy _ IH]; cbn; [by rewrite Hx|]. rewrite Hy. exact IH.
Qed.

(** ** Written hooks have no carriage returns *)

Lemma unlines_lacks_cr l : Forall plain l -> lacks CR (unlines l).
Proof.
  induction 1 as [|x l [_ Hx] _ IH]; [apply lacks_nil|]. cbn [unlines].
  apply lacks_app. split; [exact Hx|]. apply lacks_cons. split; [discriminate|exact IH].
Qed.

Lemma script_lacks_cr ps : Forall plain_part ps -> lacks CR (script ps).
Proof. intros H. by apply unlines_lacks_cr, part_lines_plain. Qed.
