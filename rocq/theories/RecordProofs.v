(** Proofs about the sections shown by interactive recording. *)
From stdpp Require Import sorting.
From Verif Require Import Base StrModel StrProofs Utf8Model RecordModel RecordSpec.
Local Open Scope string_scope.
Local Open Scope list_scope.

Lemma range_mid (a b c : list string) i j :
  i = length a -> j = length a + length b -> range (a ++ b ++ c) i j = Done b.
Proof.
  intros -> ->. unfold range. rewrite !app_length.
  rewrite (proj2 (Nat.leb_le _ _)) by lia. rewrite (proj2 (Nat.leb_le _ _)) by lia. cbn [andb].
  f_equal. rewrite drop_app. replace (length a + length b - length a) with (length b) by lia.
  apply take_app.
Qed.

Lemma range_nil l i : i <= length l -> range l i i = Done [].
Proof.
  intros H. unfold range. rewrite Nat.leb_refl, (proj2 (Nat.leb_le _ _)) by lia. cbn. by rewrite Nat.sub_diag.
Qed.

Lemma mixed_const b k k' cs tl : mixed (fun _ => b) k cs tl = mixed (fun _ => b) k' cs tl.
Proof. revert k k'. induction cs as [|c cs IH]; intros; cbn; [done|]. by rewrite (IH _ (S k')). Qed.

Lemma filter_kept_shown b c :
  List.map cl_line (List.filter (line_kept b) (shown_change c)) = if b then c_added c else c_gone c.
Proof.
  unfold shown_change. rewrite List.filter_app, map_app.
  assert (R : forall ls, List.map cl_line (List.filter (line_kept b) (List.map (ChangedLine false Removed) ls)) = if b then [] else ls).
  { induction ls as [|l ls IH]; cbn; [by destruct b|]. destruct b; cbn in *; [done|]. by rewrite IH. }
  assert (A : forall ls, List.map cl_line (List.filter (line_kept b) (List.map (ChangedLine false Added) ls)) = if b then ls else []).
  { induction ls as [|l ls IH]; cbn; [by destruct b|]. destruct b; cbn in *; [|done]. by rewrite IH. }
  rewrite R, A. destruct b; [done|]. by rewrite app_nil_r.
Qed.

Lemma shown_real c : change_real c -> shown_change c <> [].
Proof. intros [H|H]; unfold shown_change; destruct (c_gone c), (c_added c); done. Qed.

Lemma start_of_le m : start_of m <= m.
Proof. destruct m; cbn; lia. Qed.

(** One hunk of a proper difference. *)
Lemma one_hunk pre pre' c (ro rn : list string) :
  change_real c ->
  let before := pre ++ c_same c ++ c_gone c ++ ro in
  let after := pre' ++ c_same c ++ c_added c ++ rn in
  let o := length pre + length (c_same c) in
  let n := length pre' + length (c_same c) in
  exists u,
    hunk_sections before after (length pre)
      (Hunk (header_start o (c_gone c)) (length (c_gone c)) (header_start n (c_added c)) (length (c_added c)))
    = Done (u ++ [Changed (shown_change c)], o + length (c_gone c)) /\
    (u = [Unchanged (c_same c)] \/ u = [] /\ c_same c = []).
Proof.
  intros Hr before after o n. unfold hunk_sections. cbn [h_old_start h_old_lines h_new_start h_new_lines].
  assert (Hn : (Nat.eqb (header_start n (c_added c)) 0 && negb (Nat.eqb (length (c_added c)) 0))%bool = false).
  { destruct (c_added c); cbn; [by destruct (Nat.eqb n 0)|done]. }
  assert (Ho : (Nat.eqb (header_start o (c_gone c)) 0 && negb (Nat.eqb (length (c_gone c)) 0))%bool = false).
  { destruct (c_gone c); cbn; [by destruct (Nat.eqb o 0)|done]. }
  rewrite Ho, Hn.
  assert (RN : range after (start_of (header_start n (c_added c)))
     (start_of (header_start n (c_added c)) + length (c_added c)) = Done (c_added c)).
  { destruct (c_added c) as [|x xs] eqn:E; cbn [header_start].
    - cbn [List.length]. rewrite Nat.add_0_r. apply range_nil. unfold after. rewrite !app_length. pose proof (start_of_le n). unfold n in *. lia.
    - cbn [start_of]. unfold after. rewrite ?E, app_assoc. apply range_mid; rewrite app_length; lia. }
  assert (SH : match shown_change c with [] => [] | _ => [Changed (shown_change c)] end = [Changed (shown_change c)]).
  { pose proof (shown_real _ Hr) as Hne. by destruct (shown_change c). }
  assert (RU : range before (length pre) o = Done (c_same c)) by (unfold before; apply range_mid; unfold o; lia).
  destruct (c_gone c) as [|g gs] eqn:Eg.
  - cbn [header_start List.length]. rewrite Nat.eqb_refl, !Nat.add_0_r, andb_true_r. cbn [andb].
    assert (RO : range before (start_of o) (start_of o) = Done []).
    { apply range_nil. unfold before. rewrite !app_length. pose proof (start_of_le o). unfold o in *. lia. }
    destruct (Nat.eqb o 0) eqn:E0.
    + apply Nat.eqb_eq in E0. assert (Es : c_same c = []) by (destruct (c_same c); [done|cbn in *; lia]).
      assert (Ep : pre = []) by (destruct pre; [done|cbn in *; lia]). subst pre.
      rewrite E0 in *. cbn [start_of List.length Nat.leb negb]. rewrite range_nil by lia. cbn [obind].
      rewrite RN. cbn [obind].
      exists [Unchanged []]. split; [|rewrite Es; by left]. f_equal. f_equal. cbn [List.app]. f_equal.
      unfold shown_change in SH. rewrite Eg in SH. unfold shown_change. rewrite Eg. exact SH.
    + apply Nat.eqb_neq in E0. destruct o as [|o'] eqn:Eo; [lia|]. cbn [start_of negb].
      destruct (Nat.leb (length pre) o') eqn:EL.
      * rewrite RU. cbn [obind].
        rewrite ?Nat.add_0_r. cbn [start_of] in RO. rewrite RO. cbn [obind]. rewrite RN. cbn [obind].
        exists [Unchanged (c_same c)]. split; [|by left]. f_equal. f_equal. f_equal.
        unfold shown_change in *. rewrite Eg in *. exact SH.
      * apply Nat.leb_gt in EL. assert (Es : c_same c = []) by (destruct (c_same c); [done|unfold o in *; cbn in *; lia]).
        cbn [obind]. rewrite ?Nat.add_0_r. cbn [start_of] in RO. rewrite RO. cbn [obind]. rewrite RN. cbn [obind].
        exists []. split; [|by right]. f_equal. f_equal.
        -- unfold shown_change in *. rewrite Eg in *. exact SH.
        -- unfold o in *. rewrite Es in *. cbn in *. lia.
  - cbn [header_start start_of]. cbn [Nat.eqb andb List.length].
    rewrite (proj2 (Nat.leb_le _ _)) by lia.
    rewrite RU. cbn [obind].
    assert (RO : range before o (o + S (length gs)) = Done (g :: gs)).
    { unfold before. rewrite ?Eg, app_assoc. apply range_mid; rewrite app_length; cbn; lia. }
    rewrite RO. cbn [obind]. rewrite RN. cbn [obind].
    exists [Unchanged (c_same c)]. split; [|by left]. f_equal. f_equal. f_equal.
    unfold shown_change in *. rewrite Eg in *. exact SH.
Qed.

Lemma chosen_app choose k ss ss' :
  chosen_text choose k (ss ++ ss') = chosen_text choose k ss ++ chosen_text choose (k + length (changed_sections ss)) ss'.
Proof.
  revert k. induction ss as [|s ss IH]; intros k; cbn; [by rewrite Nat.add_0_r|].
  destruct s; cbn; rewrite IH, ?app_assoc; [done| |done|done]. f_equal. f_equal. rewrite Nat.add_succ_r. done.
Qed.

Lemma changed_sections_app ss ss' : changed_sections (ss ++ ss') = changed_sections ss ++ changed_sections ss'.
Proof. apply omap_app. Qed.

Lemma all_hunks oo no bb ab cs : forall pre pre' tl before after,
  Forall change_real cs ->
  before = pre ++ old_lines cs tl -> after = pre' ++ new_lines cs tl ->
  hunk_lines oo no bb ab = inl (before, after) ->
  exists ss idx,
    sections_of_hunks oo no bb ab (length pre) (headers (length pre) (length pre') cs) = Done (ss, idx) /\
    skipn idx before = tl /\ idx <= length before /\
    (forall choose k X, chosen_text choose k (ss ++ X) = mixed choose k cs (chosen_text choose (k + length cs) X)) /\
    changed_sections ss = List.map shown_change cs /\
    Forall (fun s => match s with Unchanged _ | Changed _ => True | _ => False end) ss.
Proof.
  induction cs as [|c cs IH]; intros pre pre' tl before after Hr Eb Ea HL.
  - cbn. exists [], (length pre). split; [done|]. split; [subst; cbn; by rewrite drop_app|].
    split; [subst; rewrite app_length; lia|]. split; [|done]. intros. cbn. by rewrite Nat.add_0_r.
  - apply Forall_cons in Hr as [Hc Hr]. unfold old_lines, new_lines in Eb, Ea. cbn [mixed] in Eb, Ea.
    rewrite (mixed_const _ 1 0) in Eb. rewrite (mixed_const _ 1 0) in Ea. fold (old_lines cs tl) in Eb. fold (new_lines cs tl) in Ea.
    destruct (one_hunk pre pre' c (old_lines cs tl) (new_lines cs tl) Hc) as (u & E & Hu).
    specialize (IH (pre ++ c_same c ++ c_gone c) (pre' ++ c_same c ++ c_added c) tl before after Hr).
    destruct IH as (ss & idx & Es & Hk & Hi & HC & HS & HF); [by rewrite Eb, <- !app_assoc|by rewrite Ea, <- !app_assoc|done|].
    rewrite !app_length, !Nat.add_assoc in Es.
    cbn [headers sections_of_hunks]. rewrite HL. rewrite Eb, Ea, E. cbn [obind]. rewrite Es. cbn [obind].
    eexists _, _. split; [done|]. split; [by rewrite <- Eb|]. split; [by rewrite <- Eb|].
    split; [|split].
    + intros choose k X. rewrite <- !app_assoc. cbn [List.app]. rewrite chosen_app.
      assert (chosen_text choose k u = c_same c) as ->.
      { destruct Hu as [-> |[-> ->]]; cbn; [by rewrite app_nil_r|done]. }
      assert (changed_sections u = []) as -> by (by destruct Hu as [-> |[-> _]]).
      cbn [List.length]. rewrite Nat.add_0_r. cbn [chosen_text]. rewrite filter_kept_shown, HC. cbn [mixed].
      f_equal. f_equal. f_equal. f_equal. lia.
    + rewrite !changed_sections_app, HS. by destruct Hu as [-> |[-> _]].
    + rewrite !Forall_app. split; [split; [|by constructor]|done]. destruct Hu as [-> |[-> _]]; [by constructor|done].
Qed.

(** ** Sorting *)

Lemma insert_hunk_perm x l : insert_hunk x l ≡ₚ x :: l.
Proof.
  induction l as [|y l IH]; cbn; [done|]. destruct (hunk_leb x y); [done|]. rewrite IH. apply Permutation_swap.
Qed.
Lemma sort_hunks_perm l : sort_hunks l ≡ₚ l.
Proof. induction l as [|x l IH]; cbn; [done|]. by rewrite insert_hunk_perm, IH. Qed.

Definition hunk_le (x y : hunk) : Prop := hunk_leb x y = true.
Lemma hunk_leb_spec x y : hunk_le x y <->
  h_old_start x < h_old_start y \/ h_old_start x = h_old_start y /\ h_old_lines x <= h_old_lines y.
Proof.
  unfold hunk_le, hunk_leb. rewrite orb_true_iff, andb_true_iff, Nat.ltb_lt, Nat.eqb_eq, Nat.leb_le. done.
Qed.
Lemma insert_hunk_sorted x l : StronglySorted hunk_le l -> StronglySorted hunk_le (insert_hunk x l).
Proof.
  induction l as [|y l IH]; cbn; intros H; [by repeat constructor|].
  inversion_clear H as [|? ? Hs Hf]. destruct (hunk_leb x y) eqn:E.
  - constructor; [by constructor|]. constructor; [done|]. eapply Forall_impl; [exact Hf|].
    intros z Hz. change (hunk_le x y) in E. rewrite hunk_leb_spec in *. lia.
  - constructor; [by apply IH|]. rewrite (insert_hunk_perm x l). constructor; [|done].
    rewrite hunk_leb_spec. assert (~ hunk_le x y) as N by (unfold hunk_le; by rewrite E).
    rewrite hunk_leb_spec in N. lia.
Qed.
Lemma sort_hunks_sorted l : StronglySorted hunk_le (sort_hunks l).
Proof. induction l; cbn; [constructor|]. by apply insert_hunk_sorted. Qed.

Definition hunk_lt (x y : hunk) : Prop := h_old_start x < h_old_start y.

(** A strictly increasing list is the only sorted arrangement of its elements. *)
Lemma sorted_unique l1 : forall l2,
  l1 ≡ₚ l2 -> StronglySorted hunk_le l1 -> StronglySorted hunk_lt l2 -> l1 = l2.
Proof.
  induction l1 as [|x l1 IH]; intros l2 P S1 S2.
  - by apply Permutation_nil_l in P as ->.
  - destruct l2 as [|y l2]; [by apply Permutation_nil_r in P|].
    inversion_clear S1 as [|? ? S1' F1]. inversion_clear S2 as [|? ? S2' F2].
    assert (x = y) as ->.
    { assert (Hx : x ∈ y :: l2) by (rewrite <- P; left). apply elem_of_cons in Hx as [->|Hx]; [done|].
      assert (Hy : y ∈ x :: l1) by (rewrite P; left). apply elem_of_cons in Hy as [->|Hy]; [done|].
      rewrite Forall_forall in F1, F2. specialize (F1 _ Hy). specialize (F2 _ Hx).
      rewrite hunk_leb_spec in F1. unfold hunk_lt in F2. lia. }
    f_equal. apply IH; [by apply Permutation_cons_inv in P|done|done].
Qed.

Lemma headers_above o n cs :
  Forall change_real cs -> Forall (fun c => c_same c <> []) cs -> Forall (fun h => o < h_old_start h) (headers o n cs).
Proof.
  revert o n. induction cs as [|c cs IH]; intros o n Hr Hs; cbn [headers]; [constructor|].
  apply Forall_cons in Hr as [Hc Hr]. apply Forall_cons in Hs as [Hc' Hs].
  assert (0 < length (c_same c)) by (destruct (c_same c); cbn; [done|lia]).
  constructor.
  - cbn. destruct (c_gone c); cbn; lia.
  - eapply Forall_impl; [by apply IH|]. cbn. lia.
Qed.

Lemma headers_sorted o n cs : separated cs -> StronglySorted hunk_lt (headers o n cs).
Proof.
  intros [Hr Hs]. destruct cs as [|c0 cs]; [constructor|]. cbn [tail] in Hs.
  apply Forall_cons in Hr as [Hc Hr]. revert c0 o n Hc Hs Hr. induction cs as [|c cs IH]; intros.
  - cbn. repeat constructor.
  - cbn [headers]. constructor.
    + apply Forall_cons in Hr as [Hr1 Hr]. pose proof Hs as Hs'. apply Forall_cons in Hs' as [_ Hs'].
      apply (IH c); done.
    + eapply Forall_impl; [exact (headers_above (o + length (c_same c0) + length (c_gone c0)) (n + length (c_same c0) + length (c_added c0)) (c :: cs) Hr Hs)|].
      intros h. unfold hunk_lt. cbn [h_old_start]. destruct (c_gone c0); cbn; lia.
Qed.

Lemma sort_headers o n cs l : separated cs -> l ≡ₚ headers o n cs -> sort_hunks l = headers o n cs.
Proof.
  intros S P. apply sorted_unique; [by rewrite sort_hunks_perm|apply sort_hunks_sorted|by apply headers_sorted].
Qed.

(** ** Lines and bytes *)

Lemma bytes_cons x l : bytes (x :: l) = x +:+ bytes l.
Proof. reflexivity. Qed.
Lemma bytes_split s : bytes (split_inclusive s) = s.
Proof.
  induction s as [|c s IH]; cbn [split_inclusive]; [done|]. destruct (Ascii.eqb c LF).
  - by rewrite bytes_cons, IH, sapp_cons, sapp_nil.
  - destruct (split_inclusive s) as [|x xs]; [cbn in IH; by rewrite <- IH|].
    rewrite <- IH. by rewrite !bytes_cons, !sapp_cons.
Qed.

(** Every line is nonempty and has its line feed at its end only. *)
Lemma split_inclusive_lines s l : l ∈ split_inclusive s ->
  l <> "" /\ exists u, lacks LF u /\ (l = u \/ l = u +:+ String LF "").
Proof.
  revert l. induction s as [|c s IH]; intros l; cbn [split_inclusive]; [by intros ?%elem_of_nil|].
  destruct (Ascii.eqb c LF) eqn:E.
  - apply Ascii.eqb_eq in E as ->. intros [->|H]%elem_of_cons; [|by apply IH]. split; [done|].
    exists "". split; [|by right]. intros H. by apply elem_of_nil in H.
  - apply Ascii.eqb_neq in E. destruct (split_inclusive s) as [|x xs].
    + intros ->%elem_of_list_singleton. split; [done|]. exists (String c ""). split; [|by left].
      intros H. cbn [list_ascii_of_string] in H. apply elem_of_list_singleton in H. congruence.
    + intros [->|H]%elem_of_cons; [|apply IH; by right].
      destruct (IH x) as (_ & u & Hu & H); [left|]. split; [done|]. exists (String c u). split.
      * intros Hin. cbn [list_ascii_of_string] in Hin. apply elem_of_cons in Hin as [?|?]; [congruence|by apply Hu].
      * destruct H as [->| ->]; [by left|right]. by rewrite sapp_cons.
Qed.

Lemma no_lf_cons c s : no_lf (String c s) -> c <> LF /\ no_lf s.
Proof.
  intros H. split; [intros ->; by apply (H "" s)|]. intros a b ->. apply (H (String c a) b). by rewrite sapp_cons.
Qed.
Lemma no_lf_intro c s : c <> LF -> no_lf s -> no_lf (String c s).
Proof.
  intros Hc Hs a b E. destruct a as [|x a]; [rewrite sapp_nil in E; congruence|].
  rewrite sapp_cons in E. injection E as _ E. by apply (Hs a b).
Qed.

(** The lines of a text are determined, and those of [split_inclusive]. *)
Lemma split_one l rest : no_lf l -> split_inclusive (l +:+ String LF rest) = (l +:+ String LF "") :: split_inclusive rest.
Proof.
  induction l as [|c l IH]; intros H.
  - rewrite !sapp_nil. cbn [split_inclusive]. by rewrite Ascii.eqb_refl.
  - apply no_lf_cons in H as [Hc H]. rewrite !sapp_cons. cbn [split_inclusive].
    rewrite (proj2 (Ascii.eqb_neq _ _) Hc), (IH H). done.
Qed.
Lemma split_last l : l <> "" -> no_lf l -> split_inclusive l = [l].
Proof.
  induction l as [|c l IH]; intros Hn H; [done|]. apply no_lf_cons in H as [Hc H]. cbn [split_inclusive].
  rewrite (proj2 (Ascii.eqb_neq _ _) Hc). destruct l as [|c' l]; [done|]. by rewrite IH.
Qed.
Lemma split_text_lines ls : text_lines ls -> split_inclusive (bytes ls) = ls.
Proof.
  induction 1 as [|l Hn H|l ls H _ IH]; [done| |].
  - rewrite bytes_cons. cbn [bytes fold_right]. rewrite sapp_nil_r. by apply split_last.
  - rewrite bytes_cons, sapp_assoc, sapp_cons, sapp_nil, split_one by done. by rewrite IH.
Qed.
Lemma split_is_text_lines s : text_lines (split_inclusive s).
Proof.
  assert (G : forall c ls, c <> LF -> text_lines ls -> text_lines match ls with x :: xs => String c x :: xs | [] => [String c ""] end).
  { intros c ls Hc H. destruct H as [|l Hn H|l ls H Hl].
    - apply tl_last; [done|]. apply no_lf_intro; [done|]. intros a b E. by destruct a.
    - apply tl_last; [done|]. by apply no_lf_intro.
    - rewrite <- sapp_cons. apply tl_line; [by apply no_lf_intro|done]. }
  induction s as [|c s IH]; cbn [split_inclusive]; [constructor|]. destruct (Ascii.eqb c LF) eqn:E.
  - apply Ascii.eqb_eq in E as ->. change (String LF "") with ("" +:+ String LF ""). apply tl_line; [|done].
    intros a b E. by destruct a.
  - apply Ascii.eqb_neq in E. by apply G.
Qed.

(** ** One file *)

Definition lines_section (s : section) : Prop := match s with Unchanged _ | Changed _ => True | _ => False end.

Lemma mode_sections_lines ss : Forall lines_section ss -> mode_sections ss = [].
Proof. induction 1 as [|s ss H _ IH]; [done|]. by destruct s. Qed.

Lemma get_lines_text e o ls :
  text_of e o (bytes ls) -> text_lines ls ->
  exists b, get_lines_from_blob e o = Done b /\
    (b = TextBlob ls \/ b = AbsentBlob /\ ls = []).
Proof.
  intros H HL. destruct o as [|o]; cbn in *.
  - exists AbsentBlob. split; [done|]. right. split; [done|]. rewrite <- (split_text_lines ls HL), H. done.
  - destruct H as (-> & -> & ->). eexists. split; [done|]. left. by rewrite split_text_lines.
Qed.

Lemma process_text e path d l cs tl :
  d_content d = Hunks l -> d_new_oid d <> Zero -> re_write_fails e path = false ->
  separated cs -> l ≡ₚ headers 0 0 cs ->
  text_lines (old_lines cs tl) -> text_lines (new_lines cs tl) ->
  text_of e (d_old_oid d) (bytes (old_lines cs tl)) -> text_of e (d_new_oid d) (bytes (new_lines cs tl)) ->
  exists ms ss,
    process_file e path d = Done (RFile path (d_old_mode d) (ms ++ ss)) /\
    ms = (if N.eqb (d_old_mode d) (d_new_mode d) then [] else [ModeSection false (d_old_mode d) (d_new_mode d)]) /\
    (forall choose, chosen_text choose 0 ss = mixed choose 0 cs tl) /\
    changed_sections ss = List.map shown_change cs /\ Forall lines_section ss.
Proof.
  intros Ec En Ew Hs Hp Lo Ln To Tn. unfold process_file. destruct (d_new_oid d) as [|no] eqn:Eno; [done|].
  rewrite Ec, Ew. destruct (get_lines_text _ _ _ To Lo) as (bb & -> & Hb). destruct (get_lines_text _ _ _ Tn Ln) as (ab & -> & Ha).
  cbn [obind]. rewrite (sort_headers 0 0 cs l Hs Hp).
  assert (HL : hunk_lines (d_old_oid d) (NonZero no) bb ab = inl (old_lines cs tl, new_lines cs tl)).
  { destruct Hb as [->|[-> ->]], Ha as [->|[-> ->]]; done. }
  destruct (all_hunks _ _ _ _ cs [] [] tl _ _ (proj1 Hs) eq_refl eq_refl HL) as (ss & idx & E & Hk & Hi & HC & HS & HF).
  cbn [List.length] in E. cbn [List.app] in Hk, Hi. rewrite E. cbn [obind]. eexists _, (ss ++ rest_of_file bb idx). split; [done|]. split; [done|].
  assert (HR : rest_of_file bb idx = match tl with [] => [] | _ => [Unchanged tl] end).
  { destruct Hb as [->|[-> Eo]]; cbn [rest_of_file].
    - destruct (Nat.ltb idx (length (old_lines cs tl))) eqn:EL.
      + cbn [List.app] in Hk. rewrite Hk. apply Nat.ltb_lt in EL. destruct tl; [|done].
        assert (X : length (skipn idx (old_lines cs [])) = 0) by (by rewrite Hk). rewrite skipn_length in X. lia.
      + apply Nat.ltb_ge in EL. destruct tl as [|t tl]; [done|].
        assert (X : length (skipn idx (old_lines cs (t :: tl))) = S (length tl)) by (by rewrite Hk).
        rewrite skipn_length in X. lia.
    - cbn [List.app] in Hk. rewrite <- Hk, Eo. by rewrite drop_nil. }
  split; [|split].
  - intros choose. rewrite HC, HR. f_equal. destruct tl; [done|]. cbn. by rewrite app_nil_r.
  - rewrite changed_sections_app, HS, HR. destruct tl; cbn; by rewrite app_nil_r.
  - rewrite Forall_app. split; [exact HF|]. rewrite HR. destruct tl; repeat constructor.
Qed.

(** ** The files of a difference *)

Lemma collect_hunks p l : forall m d l0 rest,
  m !! p = Some d -> d_content d = Hunks l0 ->
  collect_deltas m (List.map (OnHunk p) l ++ rest) =
  collect_deltas (<[p := Delta (d_old_oid d) (d_old_mode d) (d_new_oid d) (d_new_mode d) (Hunks (l0 ++ l))]> m) rest.
Proof.
  induction l as [|h l IH]; intros m d l0 rest Hm Hc.
  - cbn [List.map List.app]. rewrite app_nil_r, <- Hc. f_equal. symmetry. apply insert_id. rewrite Hm. by destruct d.
  - cbn [List.map List.app collect_deltas]. unfold on_callback. rewrite Hm, Hc. cbn [obind].
    rewrite (IH _ (Delta (d_old_oid d) (d_old_mode d) (d_new_oid d) (d_new_mode d) (Hunks (l0 ++ [h]))) (l0 ++ [h])).
    + cbn [d_old_oid d_old_mode d_new_oid d_new_mode]. by rewrite insert_insert, <- app_assoc.
    + by rewrite lookup_insert.
    + done.
Qed.

Lemma collect_one m f rest :
  collect_deltas m (calls_for f ++ rest) = collect_deltas (<[f_path f := f_delta f]> m) rest.
Proof.
  destruct f as [p d]. unfold calls_for. cbn [f_path f_delta List.app collect_deltas on_callback obind].
  rewrite insert_insert. destruct (d_content d) as [l|ob nb] eqn:Ec.
  - rewrite (collect_hunks p l _ (Delta (d_old_oid d) (d_old_mode d) (d_new_oid d) (d_new_mode d) (Hunks [])) []);
      [|by rewrite lookup_insert|done].
    cbn. rewrite insert_insert, <- Ec. by destruct d.
  - cbn [List.app collect_deltas on_callback obind]. rewrite !insert_insert, <- Ec. by destruct d.
Qed.

Lemma collect_all fs : forall m,
  collect_deltas m (List.concat (List.map calls_for fs)) =
  Done (fold_left (fun m f => <[f_path f := f_delta f]> m) fs m).
Proof.
  induction fs as [|f fs IH]; intros m; cbn [List.map List.concat fold_left]; [done|].
  by rewrite collect_one, IH.
Qed.

Lemma fold_left_map fs : forall m,
  NoDup (List.map f_path fs) -> (forall f, f ∈ fs -> m !! f_path f = None) ->
  map_to_list (fold_left (fun m f => <[f_path f := f_delta f]> m) fs m) ≡ₚ
  map_to_list m ++ List.map (fun f => (f_path f, f_delta f)) fs.
Proof.
  induction fs as [|f fs IH]; intros m ND HN; cbn [fold_left List.map]; [by rewrite app_nil_r|].
  cbn [List.map] in ND. apply NoDup_cons in ND as [Hf ND]. rewrite IH; [|done|].
  - rewrite map_to_list_insert by (apply HN; left). rewrite <- Permutation_middle. done.
  - intros g Hg. rewrite lookup_insert_ne; [apply HN; by right|].
    intros E. apply Hf. rewrite E. apply elem_of_list_fmap. eauto.
Qed.

Lemma omapM_done {A B} (f : A -> outcome B) l ys :
  omapM f l = Done ys <-> Forall2 (fun x y => f x = Done y) l ys.
Proof.
  revert ys. induction l as [|x l IH]; intros ys; cbn [omapM].
  - split; [intros [= <-]; constructor|intros H; by inversion H].
  - destruct (f x) as [y| |] eqn:E; cbn [obind]; [|split; [done|intros H; inversion H; congruence]..].
    destruct (omapM f l) as [zs| |] eqn:E'; cbn [obind].
    + split.
      * intros [= <-]. constructor; [done|]. by apply IH.
      * intros H. inversion H as [|? ? ? ? H1 H2]; subst. apply IH in H2 as [= ->]. congruence.
    + split; [done|]. intros H. inversion H as [|? ? ? ? H1 H2]; subst. apply IH in H2. done.
    + split; [done|]. intros H. inversion H as [|? ? ? ? H1 H2]; subst. apply IH in H2. done.
Qed.

Lemma omapM_exists {A B} (f : A -> outcome B) l :
  (exists ys, omapM f l = Done ys) <-> (forall x, x ∈ l -> exists y, f x = Done y).
Proof.
  split.
  - intros [ys H] x Hx. apply omapM_done in H. induction H as [|x' y l ys E H IH]; [by apply elem_of_nil in Hx|].
    apply elem_of_cons in Hx as [->|Hx]; [eauto|by apply IH].
  - induction l as [|x l IH]; intros H; cbn [omapM]; [by eexists|].
    destruct (H x) as [y ->]; [left|]. destruct IH as [ys ->]; [intros; apply H; by right|]. by eexists.
Qed.

Lemma insert_file_perm x l : insert_file x l ≡ₚ x :: l.
Proof. induction l as [|y l IH]; cbn; [done|]. destruct (file_leb x y); [done|]. rewrite IH. apply Permutation_swap. Qed.
Lemma sort_files_perm l : sort_files l ≡ₚ l.
Proof. induction l as [|x l IH]; cbn; [done|]. by rewrite insert_file_perm, IH. Qed.
Lemma file_leb_total x y : file_leb x y = false -> file_leb y x = true.
Proof. unfold file_leb. rewrite String.compare_antisym. by destruct (String.compare (rf_path y) (rf_path x)). Qed.
Lemma sort_files_sorted l : Sorted (fun x y => file_leb x y = true) (sort_files l).
Proof.
  induction l as [|x l IH]; [constructor|]. cbn [sort_files fold_right]. fold (sort_files l).
  induction IH as [|y l' IH IH' Hy]; cbn; [by repeat constructor|]. destruct (file_leb x y) eqn:E.
  - repeat constructor; done.
  - constructor; [done|]. destruct l' as [|z l']; cbn.
    + constructor. by apply file_leb_total.
    + destruct (file_leb x z); constructor; [by apply file_leb_total|]. by inversion Hy.
Qed.

Lemma process_diff_spec e fs :
  NoDup (List.map f_path fs) ->
  forall out, process_diff_for_record e (List.concat (List.map calls_for fs)) = Done out ->
  Sorted (fun x y => file_leb x y = true) out /\
  exists l, out ≡ₚ l /\ Forall2 (fun f y => process_file e (f_path f) (f_delta f) = Done y) fs l.
Proof.
  intros ND out. unfold process_diff_for_record. rewrite collect_all. cbn [obind].
  assert (P : map_to_list (fold_left (fun m f => <[f_path f := f_delta f]> m) fs (∅ : gmap string delta)) ≡ₚ
    List.map (fun f => (f_path f, f_delta f)) fs).
  { rewrite fold_left_map; [by rewrite map_to_list_empty|done|intros; apply lookup_empty]. }
  set (ml := map_to_list _) in *. clearbody ml.
  destruct (omapM _ ml) as [ys| |] eqn:E; cbn [obind]; [|done..]. intros [= <-].
  split; [apply sort_files_sorted|]. apply omapM_done in E.
  assert (G : forall (A B : Type) (R : A -> B -> Prop) (l1 l2 : list A) ys, l1 ≡ₚ l2 -> Forall2 R l1 ys -> exists zs, ys ≡ₚ zs /\ Forall2 R l2 zs).
  { clear. intros A B R l1 l2 ys P. revert ys. induction P as [|x l1 l2 P IH|x y l|l1 l2 l3 P1 IH1 P2 IH2]; intros ys H.
    - inversion H; subst. by exists [].
    - inversion H as [|? y' ? ys' H1 H2]; subst. destruct (IH _ H2) as (zs & Hz & HF). exists (y' :: zs). split; [by rewrite Hz|by constructor].
    - inversion H as [|? y' ? ys' H1 H2]; subst. inversion H2 as [|? y'' ? ys'' H3 H4]; subst.
      exists (y'' :: y' :: ys''). split; [apply Permutation_swap|by repeat constructor].
    - destruct (IH1 _ H) as (zs & Hz & HF). destruct (IH2 _ HF) as (ws & Hw & HG). exists ws. split; [by rewrite Hz|done]. }
  destruct (G _ _ _ _ _ _ P E) as (zs & Hz & HF). exists zs. split; [by rewrite sort_files_perm|].
  clear -HF. revert zs HF. induction fs as [|f fs IH]; intros zs HF; inversion HF; subst; constructor; [done|]. by apply IH.
Qed.

Lemma process_diff_exists e fs :
  NoDup (List.map f_path fs) ->
  (exists out, process_diff_for_record e (List.concat (List.map calls_for fs)) = Done out) <->
  (forall f, f ∈ fs -> exists y, process_file e (f_path f) (f_delta f) = Done y).
Proof.
  intros ND. unfold process_diff_for_record. rewrite collect_all. cbn [obind].
  assert (P : map_to_list (fold_left (fun m f => <[f_path f := f_delta f]> m) fs (∅ : gmap string delta)) ≡ₚ
    List.map (fun f => (f_path f, f_delta f)) fs).
  { rewrite fold_left_map; [by rewrite map_to_list_empty|done|intros; apply lookup_empty]. }
  set (ml := map_to_list _) in *. clearbody ml.
  transitivity (exists ys, omapM (fun '(p, d) => process_file e p d) ml = Done ys).
  { split; intros [out H]; destruct (omapM _ ml); cbn [obind] in *; eauto; done. }
  rewrite omapM_exists. split.
  - intros H f Hf. apply (H (f_path f, f_delta f)). rewrite P. apply elem_of_list_fmap. eauto.
  - intros H [p d] Hx. rewrite P in Hx. apply elem_of_list_fmap in Hx as (f & [= -> ->] & Hf). by apply H.
Qed.

(** ** Contents that are not UTF-8 *)

Lemma range_nothing a b : 0 < b -> range [] a b = Panicked.
Proof. intros H. unfold range. destruct b; [lia|]. cbn [List.length Nat.leb]. by rewrite andb_false_r. Qed.

Lemma hunk_on_nothing after h :
  h_old_start h <> 0 -> hunk_sections [] after 0 h = Panicked.
Proof.
  intros Hs. unfold hunk_sections. destruct (h_old_start h) as [|s]; [done|]. cbn [Nat.eqb andb start_of negb Nat.leb].
  destruct (Nat.eqb (h_new_start h) 0 && negb (Nat.eqb (h_new_lines h) 0))%bool; [done|].
  destruct (Nat.eqb (h_old_lines h) 0) eqn:E0; cbn [andb].
  - by rewrite range_nothing by lia.
  - apply Nat.eqb_neq in E0. destruct s as [|s]; [|by rewrite range_nothing by lia].
    cbn [range List.length Nat.leb andb obind]. by rewrite range_nothing by lia.
Qed.

Lemma hunk_at_zero after h :
  h_old_start h = 0 -> hunk_sections [] after 0 h = Panicked \/ exists ss, hunk_sections [] after 0 h = Done (ss, 0).
Proof.
  intros Hs. unfold hunk_sections. rewrite Hs. cbn [Nat.eqb andb start_of Nat.leb].
  destruct (Nat.eqb (h_old_lines h) 0) eqn:E0; cbn [negb]; [|by left]. apply Nat.eqb_eq in E0. rewrite E0.
  destruct (Nat.eqb (h_new_start h) 0 && negb (Nat.eqb (h_new_lines h) 0))%bool; [by left|].
  cbn [negb andb]. rewrite !range_nil by lia. cbn [obind].
  destruct (range after _ _) as [added| |] eqn:E; cbn [obind]; [right; by eexists| |by left].
  unfold range in E. by destruct (_ && _)%bool.
Qed.

Lemma hunks_on_nothing oo no bb ab after l :
  hunk_lines oo no bb ab = inl ([], after) -> Exists (fun h => h_old_start h <> 0) l ->
  sections_of_hunks oo no bb ab 0 l = Panicked.
Proof.
  intros HL H. induction H as [h l H|h l H IH]; cbn [sections_of_hunks]; rewrite HL.
  - by rewrite hunk_on_nothing.
  - destruct (decide (h_old_start h = 0)) as [E|E]; [|by rewrite hunk_on_nothing].
    destruct (hunk_at_zero after h E) as [->|[ss ->]]; [done|]. cbn [obind]. by rewrite IH.
Qed.

Lemma hunks_to_binary oo no bb ab s l idx :
  hunk_lines oo no bb ab = inr s ->
  sections_of_hunks oo no bb ab idx l = Done (repeat s (length l), idx).
Proof. intros HL. induction l as [|h l IH]; cbn [sections_of_hunks]; [done|]. rewrite HL, IH. done. Qed.
