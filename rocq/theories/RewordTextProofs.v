(** Proofs about cleaning up messages and reading back the text shown. *)
From stdpp Require Import pretty.
From Verif Require Import Base StrModel StrProofs RewordModel RewordSpec RewordProofs.
Local Open Scope string_scope.
Local Open Scope list_scope.

Definition spaces (s : string) : Prop := Forall (fun c => is_space c = true) (list_ascii_of_string s).

Global Instance spaces_dec s : Decision (spaces s).
Proof. unfold spaces. apply _. Defined.

Lemma trim_end_empty s : trim_end s = "" <-> spaces s.
Proof.
  unfold spaces. induction s as [|c s IH]; cbn [trim_end list_ascii_of_string]; [split; [constructor|done]|].
  rewrite Forall_cons. destruct (trim_end s) as [|d t].
  - destruct (is_space c); split; try done; [intros _; split; [done|by apply IH]|intros [? _]; done].
  - split; [discriminate|]. intros [_ H]. apply IH in H. discriminate H.
Qed.
Lemma trim_start_spaces s : spaces (trim_start s) <-> spaces s.
Proof.
  unfold spaces. induction s as [|c s IH]; cbn [trim_start]; [done|]. destruct (is_space c) eqn:E; [|done].
  rewrite IH. cbn [list_ascii_of_string]. rewrite Forall_cons. tauto.
Qed.
Lemma trim_empty s : trim s = "" <-> spaces s.
Proof. unfold trim. rewrite trim_end_empty. apply trim_start_spaces. Qed.
Lemma spaces_app a b : spaces (a +:+ b) <-> spaces a /\ spaces b.
Proof. unfold spaces. rewrite list_ascii_app. apply Forall_app. Qed.

Lemma trim_end_prefix s : exists w, s = trim_end s +:+ w.
Proof.
  induction s as [|c s [w IH]]; [by exists ""|]. cbn [trim_end]. destruct (trim_end s) as [|d t] eqn:E.
  - destruct (is_space c); [by exists (String c s)|]. exists s. done.
  - exists w. rewrite sapp_cons. by f_equal.
Qed.
Lemma trim_end_idem s : trim_end (trim_end s) = trim_end s.
Proof.
  induction s as [|c s IH]; [done|]. cbn [trim_end]. destruct (trim_end s) as [|d t].
  - destruct (is_space c) eqn:E; [done|]. cbn. by rewrite E.
  - cbn [trim_end] in *. destruct (trim_end t) as [|e u]; [destruct (is_space d); [discriminate|]|]; congruence.
Qed.
Lemma trim_end_occurs p s : occurs p (trim_end s) -> occurs p s.
Proof.
  intros (a & b & E). destruct (trim_end_prefix s) as [w H]. exists a, (b +:+ w). rewrite H, E, !sapp_assoc. done.
Qed.
Lemma trim_end_lacks c s : lacks c s -> lacks c (trim_end s).
Proof. destruct (trim_end_prefix s) as [w H]. rewrite H at 1. intros [? _]%lacks_app. done. Qed.
Lemma trim_end_comment cc s : is_comment cc s = false -> is_comment cc (trim_end s) = false.
Proof.
  destruct s as [|a s]; [done|]. cbn [trim_end]. intros H. destruct (trim_end s); [destruct (is_space a); [by destruct cc|]|]; exact H.
Qed.

(** ** Cleaning up *)

Local Notation P := prettify_lines.

Lemma P_idem_started cc ls : forall pe, P cc (P cc ls true pe) true false = P cc ls true pe.
Proof.
  induction ls as [|l ls IH]; intros pe; [done|]. cbn [prettify_lines].
  destruct (is_comment cc l) eqn:Ec; [apply IH|].
  destruct (String.eqb_spec (trim_end l) "") as [E|N]; [apply IH|].
  assert (N' := N). apply String.eqb_neq in N'.
  assert (S : forall pe', P cc (trim_end l :: P cc ls true false) true pe' =
    (if pe' && true then [""] else []) ++ trim_end l :: P cc ls true false).
  { intros pe'. cbn [prettify_lines]. rewrite trim_end_comment by exact Ec. rewrite trim_end_idem, N', IH. done. }
  destruct pe; cbn [andb app].
  - cbn [prettify_lines]. replace (is_comment cc "") with false by (by destruct cc).
    change (String.eqb (trim_end "") "") with true. cbn match. apply (S true).
  - apply (S false).
Qed.
Lemma P_idem cc ls : forall st pe pe2, P cc (P cc ls st pe) false pe2 = P cc ls false pe2.
Proof.
  induction ls as [|l ls IH]; intros st pe pe2; [done|]. cbn [prettify_lines].
  destruct (is_comment cc l) eqn:Ec; [apply IH|].
  destruct (String.eqb_spec (trim_end l) "") as [E|N].
  { rewrite (IH st true pe2). clear. revert pe2. induction ls as [|l ls IH]; intros pe2; [done|]. cbn [prettify_lines].
    rewrite !andb_false_r. destruct (is_comment cc l); [apply IH|]. destruct (String.eqb (trim_end l) ""); [done|]. done. }
  assert (N' := N). apply String.eqb_neq in N'. rewrite andb_false_r. cbn [app].
  assert (S : forall pe', P cc (trim_end l :: P cc ls true false) false pe' = trim_end l :: P cc ls true false).
  { intros pe'. cbn [prettify_lines]. rewrite trim_end_comment by exact Ec. rewrite trim_end_idem, N', P_idem_started, andb_false_r. done. }
  destruct (pe && st); cbn [app].
  - cbn [prettify_lines]. replace (is_comment cc "") with false by (by destruct cc).
    change (String.eqb (trim_end "") "") with true. cbn match. apply S.
  - apply S.
Qed.

Lemma P_blank_end cc ls : forall st pe, P cc (ls ++ [""]) st pe = P cc ls st pe.
Proof.
  induction ls as [|l ls IH]; intros st pe.
  - cbn [app prettify_lines]. by destruct cc.
  - cbn [app prettify_lines]. rewrite !IH. done.
Qed.

Lemma P_origin cc ls x : forall st pe, x ∈ P cc ls st pe ->
  x = "" \/ exists l, l ∈ ls /\ is_comment cc l = false /\ x = trim_end l.
Proof.
  induction ls as [|l ls IH]; intros st pe H; [by apply elem_of_nil in H|]. cbn [prettify_lines] in H.
  assert (R : forall st pe, x ∈ P cc ls st pe -> x = "" \/ exists l', l' ∈ l :: ls /\ is_comment cc l' = false /\ x = trim_end l').
  { intros st' pe' H'. destruct (IH st' pe' H') as [?|(l' & ? & ? & ?)]; [auto|]. right. exists l'. split_and!; [by right|done|done]. }
  destruct (is_comment cc l) eqn:Ec; [by apply R in H|].
  destruct (String.eqb (trim_end l) ""); [by apply R in H|].
  apply elem_of_app in H. destruct H as [H|H].
  - destruct (pe && st); [|by apply elem_of_nil in H]. apply elem_of_list_singleton in H. auto.
  - apply elem_of_cons in H. destruct H as [-> |H]; [|by apply R in H]. right. exists l. split_and!; [left|done|done].
Qed.
Lemma P_lacks cc ls st pe : Forall (lacks LF) ls -> Forall (lacks LF) (P cc ls st pe).
Proof.
  intros F. apply Forall_forall. intros x H. apply P_origin in H. destruct H as [-> |(l & Hl & _ & ->)]; [apply lacks_nil|].
  apply trim_end_lacks. rewrite Forall_forall in F. auto.
Qed.
Lemma P_lacks_mark cc ls st pe :
  (forall l, l ∈ ls -> is_comment cc l = false -> ~ occurs MARK l) -> Forall (fun x => ~ occurs MARK x) (P cc ls st pe).
Proof.
  intros F. apply Forall_forall. intros x H. apply P_origin in H. destruct H as [-> |(l & Hl & Hc & ->)].
  - intros ([|? ?] & b & E); discriminate.
  - intros H%trim_end_occurs. exact (F l Hl Hc H).
Qed.

Lemma split_on_unlines xs : Forall (lacks LF) xs -> split_on LF (unlines xs) = xs ++ [""].
Proof.
  induction 1 as [|x xs Hx _ IH]; [done|]. cbn [unlines app]. rewrite split_on_app by exact Hx. by rewrite IH.
Qed.
Lemma prettify_unlines cc xs : Forall (lacks LF) xs -> message_prettify (unlines xs) cc = unlines (P cc xs false false).
Proof. intros H. unfold message_prettify. rewrite split_on_unlines by exact H. by rewrite P_blank_end. Qed.

Lemma prettify_twice cc s : message_prettify (message_prettify s cc) cc = message_prettify s cc.
Proof.
  unfold message_prettify at 2. rewrite prettify_unlines by apply P_lacks, split_on_lacks. by rewrite P_idem.
Qed.

Lemma split_on_app2 c a b : split_on c (a +:+ String c b) = split_on c a ++ split_on c b.
Proof.
  induction a as [|x a IH].
  - rewrite sapp_nil. cbn [split_on]. rewrite Ascii.eqb_refl. done.
  - rewrite sapp_cons. cbn [split_on]. destruct (Ascii.eqb x c); [by rewrite IH|]. rewrite IH.
    destruct (split_on_cons c a) as (y & ys & ->). done.
Qed.

Lemma P_nothing cc ls st pe : (forall l, l ∈ ls -> is_comment cc l = true \/ spaces l) -> P cc ls st pe = [].
Proof.
  revert st pe. induction ls as [|l ls IH]; intros st pe H; [done|]. cbn [prettify_lines].
  destruct (is_comment cc l) eqn:Ec; [apply IH; intros; apply H; by right|].
  destruct (H l) as [?|Hs]; [left|congruence|]. apply trim_end_empty in Hs. rewrite Hs. cbn. apply IH. intros; apply H; by right.
Qed.

Lemma P_then_blank cc a b : forall pe, P cc (a ++ "" :: b) true pe = P cc a true pe ++ P cc b true true.
Proof.
  induction a as [|l a IH]; intros pe; cbn [app prettify_lines].
  - replace (is_comment cc "") with false by (by destruct cc). done.
  - destruct (is_comment cc l); [apply IH|]. destruct (String.eqb (trim_end l) ""); [apply IH|].
    rewrite IH. by rewrite <- app_assoc.
Qed.

Lemma P_mark cc h ls st pe :
  cc <> Some "+"%char -> h <> "" -> Forall (fun a => is_space a = false) (list_ascii_of_string h) ->
  P cc ((MARK +:+ " " +:+ h) :: ls) st pe =
  (if pe && st then [""] else []) ++ (MARK +:+ " " +:+ h) :: P cc ls true false.
Proof.
  intros Hcc N F. cbn [prettify_lines].
  assert (is_comment cc (MARK +:+ " " +:+ h) = false) as ->.
  { destruct cc as [c|]; [|done]. change (Ascii.eqb "+"%char c = false). apply Ascii.eqb_neq. congruence. }
  rewrite <- sapp_assoc, trim_end_app by assumption.
  destruct (String.eqb_spec ((MARK +:+ " ") +:+ h) "") as [E|_]; [discriminate E|]. done.
Qed.

(** ** Occurrences of the mark *)

Lemma occurs_line p a b : lacks LF p -> occurs p (a +:+ String LF b) -> occurs p a \/ occurs p b.
Proof.
  intros Lp. induction a as [|x a IH].
  - rewrite sapp_nil, occurs_cons. intros [[r E]|H]; [|auto]. destruct p as [|y p].
    + left. by exists "", "".
    + rewrite sapp_cons in E. injection E as <- _. apply lacks_cons in Lp. by destruct Lp.
  - rewrite sapp_cons, !occurs_cons. intros [[r E]|H]; [|tauto]. left. left.
    rewrite <- sapp_cons in E. revert E. generalize (String x a). clear -Lp. intros s.
    revert p Lp. induction s as [|y s IH]; intros [|z p] Lp E.
    + by exists "".
    + rewrite sapp_nil, sapp_cons in E. injection E as <- _. apply lacks_cons in Lp. by destruct Lp.
    + by exists (String y s).
    + rewrite !sapp_cons in E. injection E as -> E. apply lacks_cons in Lp. destruct Lp as [_ Lp].
      destruct (IH p Lp E) as [r' ->]. by exists r'.
Qed.
Lemma mark_lacks_lf : lacks LF MARK.
Proof. intros H. apply elem_of_list_In in H. vm_compute in H. intuition discriminate. Qed.
Lemma unlines_no_mark xs : Forall (fun x => ~ occurs MARK x) xs -> ~ occurs MARK (unlines xs).
Proof.
  induction 1 as [|x xs Hx _ IH]; cbn [unlines].
  - intros ([|? ?] & b & E); discriminate.
  - intros [H|H]%occurs_line; [done|done|exact mark_lacks_lf].
Qed.
Lemma name_no_mark h : Forall (fun a => is_space a = false) (list_ascii_of_string h) -> ~ occurs MARK (" " +:+ h).
Proof.
  intros F ([|c a] & b & E); [discriminate E|]. rewrite !sapp_cons in E. injection E as _ E.
  rewrite sapp_nil in E. rewrite E, !list_ascii_app in F. apply Forall_app in F. destruct F as [_ F].
  apply Forall_app in F. destruct F as [F _]. change (list_ascii_of_string MARK) with
    ("+"%char :: "+"%char :: " "%char :: list_ascii_of_string "reword") in F.
  apply Forall_cons in F. destruct F as [_ F]. apply Forall_cons in F. destruct F as [_ F].
  apply Forall_cons in F. destruct F as [F0 _]. discriminate F0.
Qed.
Lemma name_lacks_lf h : Forall (fun a => is_space a = false) (list_ascii_of_string h) -> lacks LF (" " +:+ h).
Proof.
  intros F. rewrite sapp_cons, sapp_nil. apply lacks_cons. split; [discriminate|]. intros H. rewrite Forall_forall in F.
  specialize (F LF H). discriminate F.
Qed.
Lemma trim_name h : h <> "" -> Forall (fun a => is_space a = false) (list_ascii_of_string h) -> trim (" " +:+ h) = h.
Proof.
  intros N F. unfold trim. rewrite sapp_cons, sapp_nil. cbn [trim_start]. change (is_space " "%char) with true. cbn match.
  rewrite <- (sapp_nil_r h) at 1. rewrite trim_start_app, sapp_nil_r by assumption. by apply trim_end_plain.
Qed.

(** ** Reading back *)

Definition shown_section (p : rcommit * string) : string :=
  MARK +:+ " " +:+ rc_short (fst p) +:+ LFs +:+ snd p +:+ LFs +:+ LFs.
Definition bulk_text (pairs : list (rcommit * string)) (rest : string) : string :=
  fold_right (fun p t => shown_section p +:+ t) rest pairs.

Definition good_pair (cc : option ascii) (p : rcommit * string) : Prop :=
  (rc_short (fst p) <> "" /\ Forall (fun a => is_space a = false) (list_ascii_of_string (rc_short (fst p)))) /\
  (forall l, l ∈ split_on LF (snd p) -> is_comment cc l = false -> ~ occurs MARK l).

Definition section_lines (p : rcommit * string) : list string :=
  (MARK +:+ " " +:+ rc_short (fst p)) :: split_on LF (snd p) ++ [""].

Lemma mark_name_lacks p cc : good_pair cc p -> lacks LF (MARK +:+ " " +:+ rc_short (fst p)).
Proof. intros [[_ F] _]. apply lacks_app. split; [exact mark_lacks_lf|]. by apply name_lacks_lf. Qed.

Lemma split_bulk cc pairs rest : Forall (good_pair cc) pairs ->
  split_on LF (bulk_text pairs rest) = List.concat (List.map section_lines pairs) ++ split_on LF rest.
Proof.
  induction 1 as [|p pairs Hp _ IH]; [done|]. cbn [bulk_text fold_right List.map List.concat].
  fold (bulk_text pairs rest).
  assert (shown_section p +:+ bulk_text pairs rest =
    (MARK +:+ " " +:+ rc_short (fst p)) +:+ String LF (snd p +:+ String LF ("" +:+ String LF (bulk_text pairs rest)))) as ->.
  { unfold shown_section, LFs. rewrite !sapp_assoc, !sapp_cons, !sapp_nil. done. }
  rewrite split_on_app by (eapply mark_name_lacks; exact Hp). rewrite !split_on_app2.
  rewrite IH. unfold section_lines. cbn [split_on app]. f_equal. rewrite <- !app_assoc. done.
Qed.

Definition Q cc (pairs : list (rcommit * string)) (tail : list string) : list string :=
  P cc (List.concat (List.map section_lines pairs) ++ tail) true true.

Lemma section_P cc p ls st pe : cc <> Some "+"%char -> good_pair cc p ->
  P cc (section_lines p ++ ls) st pe =
  (if pe && st then [""] else []) ++ (MARK +:+ " " +:+ rc_short (fst p)) :: P cc (split_on LF (snd p)) true false ++ P cc ls true true.
Proof.
  intros Hcc [[N F] _]. unfold section_lines. cbn [app]. rewrite P_mark by assumption. do 2 f_equal.
  rewrite <- app_assoc. cbn [app]. apply P_then_blank.
Qed.

Fixpoint bulk_pieces cc (pairs : list (rcommit * string)) : list string :=
  match pairs with
  | [] => []
  | p :: rest =>
    ((" " +:+ rc_short (fst p)) +:+ String LF (unlines (P cc (split_on LF (snd p)) true false ++ match rest with [] => [] | _ => [""] end)))
    :: bulk_pieces cc rest
  end.

Lemma join_one_cons sep x l : join sep (x :: l) = x +:+ match l with [] => "" | _ => sep +:+ join sep l end.
Proof. destruct l; [by rewrite sapp_nil_r|]. by rewrite join_cons. Qed.

Lemma Q_text cc pairs tail :
  cc <> Some "+"%char -> Forall (good_pair cc) pairs -> (forall l, l ∈ tail -> is_comment cc l = true \/ spaces l) ->
  unlines (Q cc pairs tail) = match pairs with [] => "" | _ => String LF (MARK +:+ join MARK (bulk_pieces cc pairs)) end.
Proof.
  intros Hcc F Ht. induction F as [|p pairs Hp F IH].
  - unfold Q. cbn [List.map List.concat app]. by rewrite P_nothing.
  - unfold Q. cbn [List.map List.concat]. rewrite <- app_assoc, section_P by assumption. cbn [andb app].
    fold (Q cc pairs tail). cbn [unlines]. rewrite sapp_nil. f_equal. rewrite unlines_app, IH.
    cbn [bulk_pieces]. rewrite join_one_cons, !sapp_assoc, !sapp_cons, !sapp_nil. do 4 f_equal.
    rewrite unlines_app, sapp_assoc. f_equal. destruct pairs as [|p' pairs]; [done|].
    cbn [unlines]. rewrite sapp_nil, sapp_cons, sapp_nil. done.
Qed.

Lemma bulk_prettified cc pairs rest :
  cc <> Some "+"%char -> Forall (good_pair cc) pairs -> pairs <> [] ->
  (forall l, l ∈ split_on LF rest -> is_comment cc l = true \/ spaces l) ->
  message_prettify (bulk_text pairs rest) cc = join MARK ("" :: bulk_pieces cc pairs).
Proof.
  intros Hcc F N Ht. unfold message_prettify. rewrite (split_bulk cc) by exact F.
  destruct pairs as [|p pairs]; [done|]. apply Forall_cons in F. destruct F as [Hp F].
  cbn [List.map List.concat]. rewrite <- app_assoc, section_P by assumption. cbn [andb app].
  fold (Q cc pairs (split_on LF rest)). cbn [unlines]. rewrite unlines_app, Q_text by assumption.
  cbn [bulk_pieces]. rewrite join_one_cons, sapp_nil, join_one_cons, !sapp_assoc, !sapp_cons, !sapp_nil. do 3 f_equal.
  rewrite unlines_app, sapp_assoc. f_equal. f_equal. destruct pairs as [|p' pairs]; [done|].
  cbn [unlines]. rewrite sapp_nil, sapp_cons, sapp_nil. done.
Qed.

Lemma bulk_pieces_no_mark cc pairs : Forall (good_pair cc) pairs -> Forall (fun x => ~ occurs MARK x) (bulk_pieces cc pairs).
Proof.
  induction 1 as [|p pairs [[N F] G] _ IH]; [constructor|]. cbn [bulk_pieces]. constructor; [|exact IH].
  intros [H|H]%occurs_line; [| |exact mark_lacks_lf].
  - by apply name_no_mark in H.
  - revert H. apply unlines_no_mark. apply Forall_app. split; [by apply P_lacks_mark|].
    destruct pairs; repeat constructor. intros ([|? ?] & b & E); discriminate.
Qed.

Lemma bulk_sections_spec cc pairs : Forall (good_pair cc) pairs ->
  exists bodies, sections (bulk_pieces cc pairs) (zip (List.map (fun p => rc_short (fst p)) pairs) bodies) /\
    List.map (fun b => message_prettify b cc) bodies = List.map (fun p => message_prettify (snd p) cc) pairs.
Proof.
  induction 1 as [|p pairs [[N F] G] _ (bodies & IH & E)].
  - exists []. split; [constructor|done].
  - cbn [bulk_pieces List.map zip].
    set (b := unlines (P cc (split_on LF (snd p)) true false ++ match pairs with [] => [] | _ => [""] end)).
    exists (b :: bodies). cbn [zip_with List.map]. split.
    + replace (rc_short (fst p), b) with (trim (" " +:+ rc_short (fst p)), b) by (by rewrite trim_name).
      constructor; [by apply name_lacks_lf|exact IH].
    + f_equal; [|exact E]. unfold b. rewrite prettify_unlines.
      * assert (H : P cc (P cc (split_on LF (snd p)) true false ++ match pairs with [] => [] | _ => [""] end) false false =
                    P cc (P cc (split_on LF (snd p)) true false) false false).
        { destruct pairs; [by rewrite app_nil_r|apply P_blank_end]. }
        rewrite H, P_idem. done.
      * apply Forall_app. split; [apply P_lacks, split_on_lacks|]. destruct pairs; repeat constructor. apply lacks_nil.
Qed.

(** Every commit gets the text below its mark. *)
Lemma bulk_read_back cc commits pairs rest shown :
  cc <> "+"%char -> proper_commits commits -> List.map fst pairs = commits -> (2 <= length commits)%nat ->
  (forall p, p ∈ pairs -> forall l, l ∈ split_on LF (snd p) -> is_comment (Some cc) l = false -> ~ occurs MARK l) ->
  (forall l, l ∈ split_on LF rest -> is_comment (Some cc) l = true \/ spaces l) ->
  bulk_text pairs rest <> shown ->
  finish_editing cc commits shown (bulk_text pairs rest) =
  Prepared (list_to_map (List.map (fun p => (rc_oid (fst p), message_prettify (snd p) (Some cc))) pairs)).
Proof.
  intros Hcc PC E Len Hm Ht Ns. pose proof PC as (ND1 & ND2 & FN).
  assert (Hc : Some cc <> Some "+"%char) by congruence.
  assert (F : Forall (good_pair (Some cc)) pairs).
  { apply Forall_forall. intros p Hp. split; [|by apply Hm]. rewrite Forall_forall in FN. apply FN.
    rewrite <- E. apply elem_of_list_In, List.in_map, elem_of_list_In. exact Hp. }
  assert (Np : pairs <> []) by (intros ->; cbn in E; subst commits; cbn in Len; lia).
  assert (AM : add_mark (message_prettify (bulk_text pairs rest) (Some cc)) commits = message_prettify (bulk_text pairs rest) (Some cc)).
  { destruct commits as [|c1 [|c2 cs]]; [done|cbn in Len; lia|done]. }
  destruct (bulk_sections_spec (Some cc) pairs F) as (bodies & Hs & Eb).
  assert (Lb : length bodies = length pairs).
  { apply (f_equal length) in Eb. by rewrite !List.map_length in Eb. }
  assert (PR := bulk_prettified (Some cc) pairs rest Hc F Np Ht).
  rewrite (finish_prepared cc commits shown (bulk_text pairs rest) _ ("" :: bulk_pieces (Some cc) pairs)
            (zip (List.map (fun p => rc_short (fst p)) pairs) bodies)); [|exact PC| |].
  - split_and!; [done| | |].
    + rewrite PR. destruct pairs as [|p pairs]; [done|]. cbn [bulk_pieces]. rewrite join_cons, sapp_nil.
      rewrite trim_empty, spaces_app. intros [H _]. unfold spaces, MARK in H. cbn in H.
      apply Forall_cons in H. destruct H as [H _]. discriminate H.
    + unfold names. rewrite <- E, List.map_map.
      change (List.map fst ?l) with (fst <$> l). rewrite fst_zip; [done|]. rewrite List.map_length, Lb. done.
    + intros o m. rewrite <- elem_of_list_to_map.
      2:{ change (NoDup (List.map fst (List.map (fun p : rcommit * string => (rc_oid (fst p), message_prettify (snd p) (Some cc))) pairs))).
          rewrite List.map_map. cbn [fst]. rewrite <- List.map_map with (f := fst) (g := rc_oid), E. done. }
      assert (Z : forall (i : nat) p b, pairs !! i = Some p -> bodies !! i = Some b ->
        message_prettify b (Some cc) = message_prettify (snd p) (Some cc)).
      { intros i p b H1 H2. apply (f_equal (fun l => l !! i)) in Eb.
        change (List.map ?f bodies) with (f <$> bodies) in Eb. change (List.map ?f pairs) with (f <$> pairs) in Eb.
        rewrite !list_lookup_fmap, H1, H2 in Eb. cbn in Eb. congruence. }
      split.
      * intros H. apply elem_of_list_In, List.in_map_iff in H. destruct H as (p & [= <- <-] & H). apply elem_of_list_In in H.
        apply elem_of_list_lookup in H. destruct H as [i H].
        destruct (lookup_lt_is_Some_2 bodies i) as [b Hb]. { rewrite Lb. by eapply lookup_lt_Some. }
        exists (fst p), b. split_and!.
        -- rewrite <- E. apply elem_of_list_In, List.in_map, elem_of_list_In. by eapply elem_of_list_lookup_2.
        -- done.
        -- apply elem_of_list_lookup. exists i. apply lookup_zip_with_Some. eexists _, _. split_and!; [reflexivity| |exact Hb].
           change (List.map ?f pairs) with (f <$> pairs). by rewrite list_lookup_fmap, H.
        -- symmetry. by eapply Z.
      * intros (c & b & Hcm & <- & Hin & ->). apply elem_of_list_lookup in Hin. destruct Hin as [i Hi].
        apply lookup_zip_with_Some in Hi. destruct Hi as (s & b' & [= Es <-] & Hs' & Hb).
        change (List.map ?f pairs) with (f <$> pairs) in Hs'. rewrite list_lookup_fmap in Hs'.
        destruct (pairs !! i) as [p|] eqn:Hp; [|discriminate]. cbn in Hs'. injection Hs' as <-.
        assert (Hpc : fst p ∈ commits).
        { rewrite <- E. apply elem_of_list_In, List.in_map, elem_of_list_In. by eapply elem_of_list_lookup_2. }
        assert (c = fst p) as ->.
        { clear -ND2 Hcm Hpc Es. induction commits as [|d ds IH]; [by apply elem_of_nil in Hcm|].
          cbn [List.map] in ND2. apply NoDup_cons in ND2. destruct ND2 as [N ND]. apply elem_of_cons in Hcm, Hpc.
          destruct Hcm as [-> |Hc], Hpc as [Hq|Hc']; [congruence| | |auto].
          - exfalso. apply N. rewrite Es. apply elem_of_list_In, List.in_map, elem_of_list_In. exact Hc'.
          - exfalso. apply N. rewrite <- Hq, <- Es. apply elem_of_list_In, List.in_map, elem_of_list_In. exact Hc. }
        rewrite (Z i p b Hp Hb). apply elem_of_list_In, List.in_map_iff. exists p. split; [done|].
        apply elem_of_list_In. by eapply elem_of_list_lookup_2.
  - unfold marked. rewrite AM. split_and!; [done|exact PR|]. constructor; [|by apply bulk_pieces_no_mark].
    intros ([|? ?] & b & E'); discriminate.
  - apply (sec_skip ""); [apply lacks_nil|exact Hs].
Qed.

Lemma P_head cc ls : forall pe, P cc ls false pe = [] \/ exists x xs, P cc ls false pe = x :: xs /\ ~ spaces x.
Proof.
  induction ls as [|l ls IH]; intros pe; [by left|]. cbn [prettify_lines]. destruct (is_comment cc l); [apply IH|].
  destruct (String.eqb_spec (trim_end l) "") as [E|N]; [apply IH|]. rewrite andb_false_r. right. eexists _, _. split; [reflexivity|].
  intros H. apply trim_end_empty in H. rewrite trim_end_idem in H. contradiction.
Qed.
Lemma prettify_blank cc s : trim (message_prettify s cc) = "" <-> message_prettify s cc = "".
Proof.
  split; [|intros ->; done]. rewrite trim_empty. unfold message_prettify.
  destruct (P_head cc (split_on LF s) false) as [-> |(x & xs & -> & Hx)]; [done|]. cbn [unlines].
  rewrite spaces_app. intros [H _]. contradiction.
Qed.

Lemma single_read_back cc c shown edited :
  proper_commits [c] -> edited <> shown -> message_prettify edited (Some cc) <> "" ->
  (forall l, l ∈ split_on LF edited -> is_comment (Some cc) l = false -> ~ occurs MARK l) ->
  finish_editing cc [c] shown edited = Prepared {[rc_oid c := message_prettify edited (Some cc)]}.
Proof.
  intros PC N1 N2 Hm. pose proof PC as (_ & _ & FN). apply Forall_cons in FN. destruct FN as [[Nc Fc] _].
  set (msg := message_prettify edited (Some cc)).
  assert (NM : ~ occurs MARK msg) by (unfold msg, message_prettify; by apply unlines_no_mark, P_lacks_mark).
  assert (AM : add_mark msg [c] = join MARK [""; (" " +:+ rc_short c) +:+ String LF msg]).
  { unfold add_mark. destruct (contains MARK msg) eqn:E; [exfalso; apply NM, contains_iff, E|]. cbn [negb].
    rewrite join_cons, sapp_nil. cbn [join]. by rewrite !sapp_assoc. }
  rewrite (finish_prepared cc [c] shown edited _ [""; (" " +:+ rc_short c) +:+ String LF msg] [(rc_short c, msg)]); [|exact PC| |].
  - split_and!; [done| |done|].
    + intros H. apply N2. by apply prettify_blank.
    + intros o m. rewrite lookup_singleton_Some. split.
      * intros [<- <-]. exists c, msg. split_and!; [left|done|left|]. unfold msg. by rewrite prettify_twice.
      * intros (c' & b & Hc' & <- & Hin & ->). apply elem_of_list_singleton in Hc', Hin. subst c'. injection Hin as ->.
        split; [done|]. unfold msg. by rewrite prettify_twice.
  - fold msg. unfold marked. split_and!; [done|exact AM|]. constructor; [intros ([|? ?] & b & E'); discriminate|].
    constructor; [|constructor]. intros [H|H]%occurs_line; [|done|exact mark_lacks_lf]. by apply name_no_mark in H.
  - apply (sec_skip ""); [apply lacks_nil|]. replace (rc_short c, msg) with (trim (" " +:+ rc_short c), msg) by (by rewrite trim_name).
    constructor; [by apply name_lacks_lf|constructor].
Qed.

Lemma reword_no_panic commits messages :
  (forall c, c ∈ commits -> is_Some (messages !! rc_oid c)) ->
  reword_with commits (Some (Prepared messages)) =
  Some (Some (List.map (fun c => (rc_oid c, default "" (messages !! rc_oid c))) commits)).
Proof.
  intros H. cbn [reword_with]. f_equal. induction commits as [|c cs IH]; [done|]. cbn [mapM List.map].
  destruct (H c) as [m E]; [left|]. rewrite E. cbn. 
  change (mapM (fun c0 => m0 ← messages !! rc_oid c0; Some (rc_oid c0, m0)) cs) with
    (mapM (fun c0 => m0 ← messages !! rc_oid c0; Some (rc_oid c0, m0)) cs).
  rewrite IH by (intros; apply H; by right). done.
Qed.

(** ** The text shown *)

Lemma pretty_lacks_lf (n : N) : lacks LF (pretty n).
Proof.
  assert (G : forall x s, lacks LF s -> lacks LF (pretty_N_go x s)).
  { intros x. induction (N.lt_wf_0 x) as [x _ IH]. intros s Hs. destruct (decide (0 < x)%N) as [Hx|Hx].
    - rewrite pretty_N_go_step by exact Hx. apply IH; [apply N.div_lt; lia|]. apply lacks_cons. split; [|exact Hs].
      unfold pretty_N_char. repeat case_match; discriminate.
    - replace x with 0%N by lia. rewrite pretty_N_go_0. exact Hs. }
  unfold pretty, pretty_N. destruct (decide (n = 0%N)); [|apply G, lacks_nil].
  apply lacks_cons. split; [discriminate|apply lacks_nil].
Qed.

Lemma footer_comments cc n l : cc <> LF -> l ∈ split_on LF (footer cc n) -> is_comment (Some cc) l = true.
Proof.
  intros Hcc. unfold footer, LFs.
  set (a := (if Nat.eqb n 1 then "message" else "messages")).
  set (b := (if Nat.eqb n 1 then "this 1 commit" else "these " +:+ pretty (N.of_nat n) +:+ " commits")).
  assert (La : lacks LF a).
  { unfold a. destruct (Nat.eqb n 1); intros H; apply elem_of_list_In in H; vm_compute in H; intuition discriminate. }
  assert (Lb : lacks LF b).
  { unfold b. destruct (Nat.eqb n 1).
    - intros H; apply elem_of_list_In in H; vm_compute in H; intuition discriminate.
    - apply lacks_app. split; [intros H; apply elem_of_list_In in H; vm_compute in H; intuition discriminate|].
      apply lacks_app. split; [apply pretty_lacks_lf|]. intros H; apply elem_of_list_In in H; vm_compute in H; intuition discriminate. }
  set (l1 := String cc " Rewording: Please enter the commit " +:+ a +:+ " to apply to " +:+ b +:+ ".").
  set (l2 := String cc " Lines starting with '" +:+ String cc "' will be ignored, and an empty message aborts").
  set (l3 := String cc " rewording.").
  assert (L : forall s, lacks LF s -> lacks LF (String cc s)) by (intros s Hs; apply lacks_cons; split; [congruence|done]).
  assert (K : forall s, forallb (fun c => negb (Ascii.eqb c LF)) (list_ascii_of_string s) = true -> lacks LF s).
  { intros s Hs H. rewrite List.forallb_forall in Hs. apply elem_of_list_In in H. specialize (Hs _ H). discriminate Hs. }
  match goal with |- _ ∈ split_on LF ?t -> _ => replace t with (l1 +:+ String LF (l2 +:+ String LF l3)) end.
  2:{ unfold l1, l2. rewrite !sapp_assoc, !sapp_cons, !sapp_nil. done. }
  rewrite split_on_app, split_on_app, split_on_plain.
  - rewrite !elem_of_cons, elem_of_nil. assert (E : Ascii.eqb cc cc = true) by apply Ascii.eqb_refl.
    intros [-> |[-> |[-> |[]]]]; exact E.
  - unfold l3. by apply L, K.
  - unfold l2. rewrite sapp_cons. apply L, lacks_app. split; [by apply K|]. by apply L, K.
  - unfold l1. rewrite sapp_cons. apply L. repeat (apply lacks_app; split); try assumption; by apply K.
Qed.

Lemma initial_text_bulk cc im commits messages :
  (2 <= length commits)%nat -> List.map rc_message commits = List.map Some messages ->
  initial_text cc im commits =
  Some (bulk_text (zip commits (List.map (original_text cc im) messages)) (footer cc (length commits))).
Proof.
  intros Len E. unfold initial_text. assert (many commits = true) as ->.
  { unfold many. destruct commits as [|? [|? ?]]; cbn in *; [lia|lia|done]. }
  generalize (footer cc (length commits)). intros rest. clear Len.
  assert (G : mapM (fun c => m ← rc_message c; Some (commit_text cc im true c m)) commits =
    Some (List.map shown_section (zip commits (List.map (original_text cc im) messages)))).
  { revert messages E. induction commits as [|c cs IH]; intros [|m ms] E; try discriminate E; [done|].
    cbn [List.map] in E. injection E as Ec E. cbn [mapM]. rewrite Ec. cbn [mbind option_bind]. rewrite (IH ms E). reflexivity. }
  rewrite G. cbn. f_equal. clear. induction (zip commits (List.map (original_text cc im) messages)) as [|p ps IH]; [done|].
  cbn. rewrite IH. done.
Qed.

(** ** A message that is not blank *)

Lemma P_something cc ls l : l ∈ ls -> is_comment cc l = false -> ~ spaces l -> forall st pe, P cc ls st pe <> [].
Proof.
  intros H Hc Hs. induction ls as [|x ls IH]; intros st pe; [by apply elem_of_nil in H|]. cbn [prettify_lines].
  apply elem_of_cons in H. destruct H as [<- |H].
  - rewrite Hc. destruct (String.eqb_spec (trim_end l) "") as [E|_]; [by apply trim_end_empty in E|].
    destruct (pe && st); discriminate.
  - destruct (is_comment cc x); [by apply IH|]. destruct (String.eqb (trim_end x) ""); [by apply IH|].
    destruct (pe && st); discriminate.
Qed.
Lemma not_spaces_line s : ~ spaces s -> exists l, l ∈ split_on LF s /\ ~ spaces l.
Proof.
  intros N. destruct (decide (Forall spaces (split_on LF s))) as [F|X].
  - exfalso. apply N. rewrite <- (join_split LF s). revert F. generalize (split_on LF s). clear.
    induction l as [|x [|y l] IH]; intros F; [constructor|apply Forall_cons in F; tauto|].
    apply Forall_cons in F. destruct F as [Fx F]. rewrite join_cons, !spaces_app. split_and!; [done| |by apply IH].
    constructor; [done|constructor].
  - apply not_Forall_Exists in X; [|intros x; unfold spaces; apply _]. apply Exists_exists in X. exact X.
Qed.
Lemma prettify_not_blank s : ~ spaces s -> message_prettify s None <> "".
Proof.
  intros (l & Hl & Hs)%not_spaces_line. unfold message_prettify.
  pose proof (P_something None _ l Hl eq_refl Hs false false) as H.
  destruct (P None (split_on LF s) false false) as [|x xs]; [done|]. cbn [unlines]. destruct x; discriminate.
Qed.
