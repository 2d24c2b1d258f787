(** Lemmas about the hooks. *)
From Verif Require Import Base TextModel EventLogModel TextProofs EventLogSpec EventLogRefProofs
  StrModel StrProofs HookModel HookSpec.
Local Open Scope string_scope.
Local Open Scope list_scope.
Local Arguments strip_prefix _ _ : simpl never.
Local Arguments moid_from_string _ : simpl never.
Local Arguments oid_from_string _ : simpl never.
Local Arguments oid_to_string _ : simpl never.
Local Arguments moid_to_string _ : simpl never.

(** ** Text of object ids *)

Definition hex_text (s : string) : Prop := Forall (fun c => exists d, (d < 16)%N /\ c = hex_char d) (list_ascii_of_string s).

Lemma oid_hex o : hex_text (oid_to_string o).
Proof.
  unfold hex_text, oid_to_string, string_of_list. rewrite list_ascii_of_string_of_list_ascii.
  pose proof (hex_digits_small 40 o) as F. apply Forall_forall. intros c Hc.
  apply elem_of_list_In, in_map_iff in Hc. destruct Hc as (d & <- & Hd). exists d. split; [|reflexivity].
  rewrite Forall_forall in F. apply F, elem_of_list_In, Hd.
Qed.
Lemma moid_hex m : hex_text (moid_to_string m).
Proof. destruct m; apply oid_hex. Qed.

Lemma hex_char_cases (P : ascii -> Prop) : Forall (fun d => P (hex_char d)) (map N.of_nat (seq 0 16)) ->
  forall d, (d < 16)%N -> P (hex_char d).
Proof.
  intros F d H. rewrite Forall_forall in F. apply F. apply elem_of_list_In, in_map_iff.
  exists (N.to_nat d). split; [lia|]. apply in_seq. lia.
Qed.
Lemma hex_lacks c s : Forall (fun d => c <> hex_char d) (map N.of_nat (seq 0 16)) -> hex_text s -> lacks c s.
Proof.
  intros F H I. unfold hex_text in H. rewrite Forall_forall in H. destruct (H c I) as (d & L & E).
  revert E. revert d L. apply (hex_char_cases (fun x => c <> x)). exact F.
Qed.
Lemma hex_not_space s : hex_text s -> Forall (fun c => is_space c = false) (list_ascii_of_string s).
Proof.
  intros H. eapply Forall_impl; [exact H|]. intros c (d & L & ->). revert d L.
  apply (hex_char_cases (fun c => is_space c = false)). repeat constructor.
Qed.
Lemma hex_nonempty o : oid_to_string o <> "".
Proof. intros E. pose proof (oid_text_length o) as L. rewrite E in L. discriminate. Qed.
Lemma moid_nonempty m : moid_to_string m <> "".
Proof. destruct m; apply hex_nonempty. Qed.

(** ** Lines of transactions *)

Lemma prefix_inj p a b : p +:+ a = p +:+ b -> a = b.
Proof.
  intros E. apply strip_prefix_spec in E. rewrite (proj2 (strip_prefix_spec p (p +:+ a) a)) in E by reflexivity. congruence.
Qed.

Lemma names_target_spec s t : target_from_string s = Some t <-> names_target s t.
Proof.
  unfold target_from_string. destruct (strip_prefix "ref:" s) as [n|] eqn:E.
  - apply strip_prefix_spec in E. subst s. split; [intros [= <-]; constructor|].
    remember ("ref:" +:+ n) as s eqn:Es. intros H. destruct H as [n'|s m N _]; [|now destruct (N n)].
    apply prefix_inj in Es. congruence.
  - assert (N : forall n, s <> "ref:" +:+ n) by (intros n H; apply strip_prefix_spec in H; congruence).
    split.
    + destruct (moid_from_string s) as [m|] eqn:M; [|discriminate]. intros [= <-]. now constructor.
    + intros H. destruct H as [n'|s m _ ->]; [now destruct (N n')|reflexivity].
Qed.

Lemma parse_line_spec line l :
  parse_line line = Some l <-> describes_update line (line_name l) (line_old l) (line_new l).
Proof.
  unfold parse_line, describes_update. split.
  - destruct (split_on " " line) as [|so [|sn [|n [|? ?]]]] eqn:E; try discriminate.
    apply split_on_spec in E. destruct E as (_ & F & ->).
    destruct (target_from_string so) as [o|] eqn:E1; [|discriminate].
    destruct (target_from_string sn) as [o'|] eqn:E2; [|discriminate]. intros [= <-]. cbn.
    rewrite names_target_spec in E1, E2. rewrite !Forall_cons in F. destruct F as (F1 & F2 & F3 & _).
    exists so, sn. auto 7.
  - intros (so & sn & L1 & L2 & L3 & -> & E1 & E2). apply names_target_spec in E1, E2.
    assert (S : split_on " " (so +:+ " " +:+ sn +:+ " " +:+ line_name l) = [so; sn; line_name l]).
    { apply split_on_spec. split; [done|]. split; [|reflexivity]. repeat constructor; assumption. }
    rewrite S, E1, E2. destruct l; reflexivity.
Qed.

(** ** Packed references *)

Lemma split_first_spec c s a b : split_first c s = Some (a, b) <-> lacks c a /\ s = a +:+ String c b.
Proof.
  revert a b. induction s as [|x s IH]; intros a b; cbn [split_first].
  - split; [discriminate|]. intros [_ E]. destruct a; discriminate.
  - destruct (Ascii.eqb_spec x c) as [->|N].
    + split; [intros [= <- <-]; split; [apply lacks_nil|reflexivity]|].
      intros [L E]. destruct a as [|y a]; [rewrite sapp_nil in E; congruence|].
      rewrite sapp_cons in E. injection E as <- _. apply lacks_cons in L. tauto.
    + destruct (split_first c s) as [[a' b']|] eqn:E.
      * specialize (proj1 (IH a' b') eq_refl) as [L ->]. split.
        -- intros [= <- <-]. split; [apply lacks_cons; auto|reflexivity].
        -- intros [L' E']. destruct a as [|y a]; [rewrite sapp_nil in E'; congruence|].
           rewrite sapp_cons in E'. injection E' as <- E'. apply lacks_cons in L'. destruct L' as [_ L'].
           specialize (proj2 (IH a b) (conj L' E')) as X. congruence.
      * split; [discriminate|]. intros [L' E']. destruct a as [|y a]; [rewrite sapp_nil in E'; congruence|].
        rewrite sapp_cons in E'. injection E' as <- E'. apply lacks_cons in L'. destruct L' as [_ L'].
        specialize (proj2 (IH a b) (conj L' E')) as X. congruence.
Qed.

Lemma moid_text_head s m : moid_from_string s = Some m -> exists c s', s = String c s' /\ is_hex c = true.
Proof.
  unfold moid_from_string, git_oid_from_str. destruct s as [|c s]; [discriminate|].
  destruct (Nat.leb _ _ && Nat.leb _ _)%bool; [|discriminate].
  destruct (unhex_all (list_of_string (String c s))) as [ds|] eqn:E; [|discriminate]. intros _.
  exists c, s. split; [reflexivity|]. unfold is_hex. cbn in E. destruct (unhex c); [reflexivity|discriminate].
Qed.

Lemma packed_line_spec line n m : parse_packed_refs_line line = Some (n, m) <-> packed_line line n m.
Proof.
  unfold parse_packed_refs_line, packed_line. split.
  - destruct line as [|c line]; [discriminate|]. destruct (_ || _ || _)%bool; [discriminate|].
    destruct (split_first " " (String c line)) as [[o n']|] eqn:E; [|discriminate].
    apply split_first_spec in E. destruct E as [L E].
    destruct (String.eqb_spec o "") as [|N1]; [discriminate|]. destruct (String.eqb_spec n' "") as [|N2]; [discriminate|].
    cbn [orb]. destruct (moid_from_string o) as [m'|] eqn:M; [|discriminate]. intros [= <- <-]. eauto.
  - intros (so & L & N & -> & M). destruct (moid_text_head _ _ M) as (c & s & -> & H).
    rewrite sapp_cons. cbv iota beta.
    assert (Hc : (Ascii.eqb c "#" || Ascii.eqb c "^" || negb (is_hex c))%bool = false).
    { rewrite H. destruct (Ascii.eqb_spec c "#") as [->|]; [discriminate|].
      destruct (Ascii.eqb_spec c "^") as [->|]; [discriminate|]. reflexivity. }
    rewrite Hc. rewrite <- sapp_cons.
    rewrite (proj2 (split_first_spec " " (String c s +:+ " " +:+ n) (String c s) n)) by (split; [exact L|reflexivity]).
    destruct (String.eqb_spec n ""); [done|]. cbn [String.eqb orb]. now rewrite M.
Qed.

Lemma packed_fold ls n m :
  fold_left (fun m line => match parse_packed_refs_line line with Some (n, o) => <[n := o]> m | None => m end) ls
    (∅ : gmap refname moid) !! n = Some m <->
  exists before line after, ls = before ++ line :: after /\ packed_line line n m /\
    forall l m', l ∈ after -> ~ packed_line l n m'.
Proof.
  revert n m. induction ls as [|line ls IH] using rev_ind; intros n m.
  - cbn. rewrite lookup_empty. split; [discriminate|]. intros (b & l & a & E & _). destruct b; discriminate.
  - rewrite fold_left_app. cbn [fold_left].
    destruct (parse_packed_refs_line line) as [[n' o]|] eqn:P.
    + apply packed_line_spec in P. destruct (decide (n' = n)) as [->|Ne].
      * rewrite lookup_insert. split.
        -- intros [= <-]. exists ls, line, []. split_and!; [reflexivity|exact P|]. intros l m' H. now apply elem_of_nil in H.
        -- intros (b & l & a & E & H1 & H2). destruct a as [|x a] using rev_ind.
           ++ apply app_inj_tail in E. destruct E as [_ ->]. apply packed_line_spec in P, H1. congruence.
           ++ clear IHa. rewrite app_comm_cons, app_assoc in E. apply app_inj_tail in E. destruct E as [_ ->].
              destruct (H2 x o); [apply elem_of_app; right; constructor|exact P].
      * rewrite lookup_insert_ne by exact Ne. rewrite IH. split.
        -- intros (b & l & a & -> & H1 & H2). exists b, l, (a ++ [line]).
           split_and!; [now rewrite <- app_assoc|exact H1|]. intros l' m' [H|H]%elem_of_app; [now apply H2|].
           apply elem_of_list_singleton in H. subst l'. intros H. apply packed_line_spec in P, H. congruence.
        -- intros (b & l & a & E & H1 & H2). destruct a as [|x a] using rev_ind.
           ++ apply app_inj_tail in E. destruct E as [_ ->]. apply packed_line_spec in P, H1. congruence.
           ++ clear IHa. rewrite app_comm_cons, app_assoc in E. apply app_inj_tail in E. destruct E as [-> ->].
              exists b, l, a. split_and!; [reflexivity|exact H1|]. intros l' m' H. apply H2, elem_of_app. now left.
    + rewrite IH. split.
      * intros (b & l & a & -> & H1 & H2). exists b, l, (a ++ [line]).
        split_and!; [now rewrite <- app_assoc|exact H1|]. intros l' m' [H|H]%elem_of_app; [now apply H2|].
        apply elem_of_list_singleton in H. subst l'. intros H. apply packed_line_spec in H. congruence.
      * intros (b & l & a & E & H1 & H2). destruct a as [|x a] using rev_ind.
        ++ apply app_inj_tail in E. destruct E as [_ ->]. apply packed_line_spec in H1. congruence.
        ++ clear IHa. rewrite app_comm_cons, app_assoc in E. apply app_inj_tail in E. destruct E as [-> ->].
           exists b, l, a. split_and!; [reflexivity|exact H1|]. intros l' m' H. apply H2, elem_of_app. now left.
Qed.

Lemma read_packed_spec utf8 file : readable utf8 file ->
  exists packed, read_packed_refs utf8 file = Some packed /\ forall n m, packed !! n = Some m <-> packed_at file n m.
Proof.
  intros R. unfold read_packed_refs, packed_at. destruct file as [text|].
  - specialize (R text eq_refl). replace (forallb utf8 (lines text)) with true.
    2: { symmetry. apply forallb_forall. intros x Hx. rewrite Forall_forall in R. apply R, elem_of_list_In, Hx. }
    eexists. split; [reflexivity|]. intros n m. rewrite packed_fold. split.
    + intros (b & l & a & H). exists text, b, l, a. tauto.
    + intros (t & b & l & a & [= <-] & H). eauto.
  - exists ∅. split; [reflexivity|]. intros n m. rewrite lookup_empty. split; [discriminate|].
    intros (t & _ & _ & _ & E & _). discriminate.
Qed.

Section transaction.
  Context (utf8 : string -> bool) (resolve : refname -> option moid) (file : option string).
  Context (packed : gmap refname moid) (Hp : forall n m, packed !! n = Some m <-> packed_at file n m).

  Lemma target_matches_spec t n : target_matches t n packed = true <-> stays file n t.
  Proof.
    unfold target_matches, stays. destruct t as [m|n'].
    - rewrite <- Hp. destruct (packed !! n) as [m'|]; [rewrite bool_decide_eq_true; split; congruence|split; congruence].
    - apply String.eqb_eq.
  Qed.

  Lemma fix_packed_spec l l' : fix_packed packed l = l' <->
    line_name l' = line_name l /\ net file (line_name l) (line_old l) (line_new l) (line_old l') (line_new l').
  Proof.
    assert (Z : forall t, is_zero t = true <-> t = Direct Zero)
      by (intros [[]|]; cbn; split; congruence).
    unfold fix_packed.
    destruct (is_zero (line_old l) && target_matches (line_new l) (line_name l) packed)%bool eqn:E1.
    - apply andb_true_iff in E1. rewrite Z, target_matches_spec in E1. destruct E1 as [E1 E2]. split.
      + intros <-. cbn. split; [reflexivity|]. rewrite E1. now constructor.
      + intros [E N]. destruct l as [n o w], l' as [n' o' w']; cbn in *. subst n' o.
        inversion N; subst; try reflexivity; tauto.
    - assert (N1 : ~ (line_old l = Direct Zero /\ stays file (line_name l) (line_new l))).
      { rewrite <- Z, <- target_matches_spec, <- andb_true_iff. congruence. }
      destruct (is_zero (line_new l) && target_matches (line_old l) (line_name l) packed)%bool eqn:E2.
      + apply andb_true_iff in E2. rewrite Z, target_matches_spec in E2. destruct E2 as [E2 E3]. split.
        * intros <-. cbn. split; [reflexivity|]. rewrite E2 in *. apply net_deleted; assumption.
        * intros [E N]. destruct l as [n o w], l' as [n' o' w']; cbn in *. subst n' w.
          inversion N; subst; try reflexivity; tauto.
      + assert (N2 : ~ (line_new l = Direct Zero /\ stays file (line_name l) (line_old l))).
        { rewrite <- Z, <- target_matches_spec, <- andb_true_iff. congruence. }
        split.
        * intros <-. split; [reflexivity|]. now constructor.
        * intros [E N]. destruct l as [n o w], l' as [n' o' w']; cbn in *. subst n'.
          inversion N; subst; try reflexivity; tauto.
  Qed.

  Lemma stands_for_spec t m : target_as_oid resolve t = Some m <-> stands_for resolve t m.
  Proof. destruct t; cbn; [split; congruence|reflexivity]. Qed.

  Lemma lines_recorded ts tx ls es :
    all_some (map (fun l =>
      match target_as_oid resolve (line_old l), target_as_oid resolve (line_new l) with
      | Some old, Some new => Some (RefUpdateEvent ts tx (line_name l) old new None)
      | _, _ => None
      end) (map (fix_packed packed)
        (List.filter (fun l => negb (should_ignore_ref_updates (line_name l)))
          (flat_map (fun line => if utf8 line then match parse_line line with Some l => [l] | None => [] end else []) ls))))
      = Some es <-> recorded utf8 resolve file ts tx ls es.
  Proof.
    revert es. induction ls as [|line ls IH]; intros es; cbn [flat_map].
    - cbn. split; [intros [= <-]; constructor|]. inversion 1; reflexivity.
    - assert (Skip : (utf8 line = true -> forall n old new, describes_update line n old new -> untracked n) ->
        recorded utf8 resolve file ts tx (line :: ls) es <-> recorded utf8 resolve file ts tx ls es).
      { intros S. split; [|now constructor].
        inversion 1 as [| |l ls' es' n old new old' new' o1 o2 U D T]; subst; [assumption|].
        destruct T. eapply S; eassumption. }
      destruct (utf8 line) eqn:U; [|rewrite Skip by discriminate; apply IH].
      destruct (parse_line line) as [l|] eqn:P.
      2: { rewrite Skip; [apply IH|]. intros _ n old new D.
           apply (parse_line_spec line (mk_line n old new)) in D. congruence. }
      apply parse_line_spec in P. cbn [app List.filter].
      destruct (should_ignore_ref_updates (line_name l)) eqn:I; cbn [negb].
      + rewrite Skip; [apply IH|]. intros _ n old new D.
        apply (parse_line_spec line (mk_line n old new)) in D. apply parse_line_spec in P.
        assert (l = mk_line n old new) by congruence. subst l. now apply ignored_spec in I.
      + cbn [map all_some]. remember (fix_packed packed l) as l' eqn:El. symmetry in El.
        apply fix_packed_spec in El. destruct El as [En Net]. rewrite En.
        assert (T : ~ untracked (line_name l)) by (rewrite <- ignored_spec; congruence).
        assert (Inv : recorded utf8 resolve file ts tx (line :: ls) es <->
          exists o1 o2 es', es = RefUpdateEvent ts tx (line_name l) o1 o2 None :: es' /\
            stands_for resolve (line_old l') o1 /\ stands_for resolve (line_new l') o2 /\
            recorded utf8 resolve file ts tx ls es').
        { split.
          - inversion 1 as [|? ? ? S|l0 ls' es' n old new old' new' o1 o2 _ D T' Net' S1 S2 R]; subst.
            { destruct T. eapply S; eassumption. }
            assert (D' := proj2 (parse_line_spec line (mk_line n old new)) D).
            apply parse_line_spec in P. assert (l = mk_line n old new) by congruence. subst l. cbn in *.
            assert (X1 := proj2 (fix_packed_spec (mk_line n old new) (mk_line n old' new')) (conj eq_refl Net')).
            assert (X2 := proj2 (fix_packed_spec (mk_line n old new) l') (conj En Net)).
            assert (l' = mk_line n old' new') as -> by congruence. eauto 8.
          - intros (o1 & o2 & es' & -> & S1 & S2 & R). eapply rec_line; eassumption. }
        rewrite Inv. split.
        * destruct (target_as_oid resolve (line_old l')) as [o1|] eqn:E1; [|discriminate].
          destruct (target_as_oid resolve (line_new l')) as [o2|] eqn:E2; [|discriminate].
          destruct (all_some _) as [es'|] eqn:E; [|discriminate]. intros [= <-].
          apply stands_for_spec in E1, E2. exists o1, o2, es'. split_and!; auto. apply IH. reflexivity.
        * intros (o1 & o2 & es' & -> & S1 & S2 & R). apply stands_for_spec in S1, S2. rewrite S1, S2.
          apply IH in R. rewrite R. reflexivity.
  Qed.
End transaction.

Lemma hook_records utf8 resolve file ts tx stdin ls es : readable utf8 file -> pieces LF stdin ls ->
  hook_reference_transaction utf8 resolve file ts tx "committed" stdin = Some es <->
  recorded utf8 resolve file ts tx ls es.
Proof.
  intros R P. unfold hook_reference_transaction. cbn [String.eqb].
  destruct (read_packed_spec utf8 file R) as (packed & E & Hp).
  change (String.eqb "committed" "committed") with true. cbv iota. rewrite E. cbv zeta.
  apply buf_split_spec in P. rewrite P. apply (lines_recorded utf8 resolve file packed Hp).
Qed.

(** What is not a committed transaction records nothing. *)
Lemma hook_uncommitted utf8 resolve file ts tx state stdin : state <> "committed" ->
  hook_reference_transaction utf8 resolve file ts tx state stdin = Some [].
Proof.
  intros N. unfold hook_reference_transaction. destruct (String.eqb_spec state "committed"); [done|reflexivity].
Qed.

(** A transaction is recorded as soon as everything it names can be resolved. *)
Lemma recorded_total utf8 resolve file ts tx ls : readable utf8 file ->
  (forall l n old new, l ∈ ls -> describes_update l n old new -> ~ untracked n ->
     (exists o, stands_for resolve old o) /\ (exists o, stands_for resolve new o)) ->
  exists es, recorded utf8 resolve file ts tx ls es.
Proof.
  intros R. destruct (read_packed_spec utf8 file R) as (packed & _ & Hp).
  induction ls as [|line ls IH]; intros H; [exists []; constructor|].
  destruct IH as [es IH]. { intros l n old new Hl. apply H. now right. }
  destruct (utf8 line) eqn:U.
  2: { exists es. constructor; [congruence|assumption]. }
  destruct (parse_line line) as [l|] eqn:P.
  2: { exists es. constructor; [|assumption]. intros _ n old new D.
       apply (parse_line_spec line (mk_line n old new)) in D. congruence. }
  destruct (should_ignore_ref_updates (line_name l)) eqn:I.
  { exists es. constructor; [|assumption]. intros _ n old new D.
    apply (parse_line_spec line (mk_line n old new)) in D. assert (l = mk_line n old new) by congruence. subst l.
    now apply ignored_spec in I. }
  apply parse_line_spec in P.
  assert (T : ~ untracked (line_name l)) by (rewrite <- ignored_spec; congruence).
  destruct (H line (line_name l) (line_old l) (line_new l)) as [[o1 H1] [o2 H2]]; [now left|exact P|exact T|].
  destruct (fix_packed_spec utf8 resolve file packed Hp l (fix_packed packed l)) as [X _].
  destruct (X eq_refl) as [En Net].
  assert (Y : exists o1 o2, stands_for resolve (line_old (fix_packed packed l)) o1 /\
    stands_for resolve (line_new (fix_packed packed l)) o2).
  { inversion Net; subst.
    - exists o2, o2. split; congruence.
    - exists o1, o1. split; congruence.
    - exists o1, o2. split; congruence. }
  destruct Y as (o1' & o2' & Y1 & Y2).
  eexists. eapply rec_line; eassumption.
Qed.

(** ** Packing *)

Lemma zeros_target : names_target zeros (Direct Zero).
Proof. constructor; [|reflexivity]. intros n E. discriminate. Qed.
Lemma hex_target o : oid_ok o -> names_target (oid_to_string o) (Direct (NonZero o)).
Proof.
  intros H. constructor; [|exact (moid_text_round_trip (NonZero o) H)].
  intros n E. pose proof (oid_hex o) as F. rewrite E in F.
  apply (hex_lacks "r") in F; [|repeat constructor; discriminate]. apply F. left.
Qed.
Lemma hex_space o : lacks " " (oid_to_string o).
Proof. apply hex_lacks; [repeat constructor; discriminate|apply oid_hex]. Qed.
Lemma zeros_space : lacks " " zeros.
Proof. change zeros with (oid_to_string 0). apply hex_space. Qed.

Lemma describes_unique line n1 o1 w1 n2 o2 w2 :
  describes_update line n1 o1 w1 -> describes_update line n2 o2 w2 -> n1 = n2 /\ o1 = o2 /\ w1 = w2.
Proof.
  intros H1 H2. apply (parse_line_spec line (mk_line n1 o1 w1)) in H1. apply (parse_line_spec line (mk_line n2 o2 w2)) in H2.
  rewrite H1 in H2. injection H2. auto.
Qed.
Lemma packed_unique file n m1 m2 : packed_at file n m1 -> packed_at file n m2 -> m1 = m2.
Proof.
  intros H1 H2. destruct file as [text|]; [|destruct H1 as (? & ? & ? & ? & ? & _); discriminate].
  assert (X : forall m, packed_at (Some text) n m -> fold_left (fun m line => match parse_packed_refs_line line with Some (n, o) => <[n := o]> m | None => m end) (lines text)
    (∅ : gmap refname moid) !! n = Some m).
  { intros m (t & b & l & a & [= <-] & H). apply packed_fold. eauto. }
  apply X in H1, H2. congruence.
Qed.

Lemma packing_recorded utf8 resolve file refs ts tx ls es :
  (forall n o, (n, o) ∈ refs -> oid_ok o /\ lacks " " n /\ packed_at file n (NonZero o)) ->
  (forall l, l ∈ ls -> l ∈ packing_lines refs) ->
  recorded utf8 resolve file ts tx ls es ->
  Forall (fun e => exists n o, (n, o) ∈ refs /\ ~ untracked n /\
    e = RefUpdateEvent ts tx n (NonZero o) (NonZero o) None) es.
Proof.
  intros Hr Hl R. induction R as [|l ls es _ _ IH|l ls es n old new old' new' o1 o2 U D T Net S1 S2 _ IH].
  - constructor.
  - apply IH. intros l' H'. apply Hl. now right.
  - constructor; [|apply IH; intros l' H'; apply Hl; now right].
    assert (X := Hl l ltac:(now left)). unfold packing_lines in X. apply elem_of_app in X.
    assert (Stay : forall n o, (n, o) ∈ refs -> stays file n (Direct (NonZero o))) by (intros n' o' H'; apply (Hr n' o' H')).
    destruct X as [X|X]; apply elem_of_list_In, in_map_iff in X; destruct X as ([n' o'] & <- & X); cbn [fst snd] in *;
      apply elem_of_list_In in X; destruct (Hr n' o' X) as (Ok & L & P).
    + assert (D' : describes_update (zeros +:+ " " +:+ oid_to_string o' +:+ " " +:+ n') n' (Direct Zero) (Direct (NonZero o'))).
      { exists zeros, (oid_to_string o'). split_and!; auto using zeros_space, hex_space, zeros_target, hex_target. }
      destruct (describes_unique _ _ _ _ _ _ _ D D') as (-> & -> & ->).
      exists n', o'. split_and!; [exact X|exact T|].
      inversion Net; subst; cbn in *; try congruence; try (destruct H; auto; fail).
    + assert (D' : describes_update (oid_to_string o' +:+ " " +:+ zeros +:+ " " +:+ n') n' (Direct (NonZero o')) (Direct Zero)).
      { exists (oid_to_string o'), zeros. split_and!; auto using zeros_space, hex_space, zeros_target, hex_target. }
      destruct (describes_unique _ _ _ _ _ _ _ D D') as (-> & -> & ->).
      exists n', o'. split_and!; [exact X|exact T|].
      inversion Net; subst; cbn in *; try congruence; try (destruct H0; auto; fail).
Qed.

(** Events that repeat what the log says change nothing. *)
Lemma last_update_det es n m1 m2 : last_update es n m1 -> last_update es n m2 -> m1 = m2.
Proof.
  intros (b1 & ts1 & tx1 & o1 & g1 & a1 & E1 & N1) (b2 & ts2 & tx2 & o2 & g2 & a2 & E2 & N2). subst es.
  revert b2 E2. induction b1 as [|x b1 IH]; intros [|y b2] E2; cbn in E2.
  - congruence.
  - injection E2 as _ E2. exfalso. apply (N1 (RefUpdateEvent ts2 tx2 n o2 m2 g2)); [|reflexivity].
    rewrite E2. apply elem_of_app. right. left.
  - injection E2 as _ E2. exfalso. apply (N2 (RefUpdateEvent ts1 tx1 n o1 m1 g1)); [|reflexivity].
    rewrite <- E2. apply elem_of_app. right. left.
  - injection E2 as _ E2. eapply IH, E2.
Qed.
Lemma last_update_snoc es e n m :
  last_update (es ++ [e]) n m <->
  (exists ts tx old msg, e = RefUpdateEvent ts tx n old m msg) \/ (~ updates e n /\ last_update es n m).
Proof.
  split.
  - intros (b & ts & tx & o & g & a & E & N). destruct a as [|x a] using rev_ind.
    + apply app_inj_tail in E. destruct E as [_ ->]. left. eauto.
    + clear IHa. rewrite app_comm_cons, app_assoc in E. apply app_inj_tail in E. destruct E as [-> <-]. right. split.
      * apply N, elem_of_app. right. left.
      * exists b, ts, tx, o, g, a. split; [reflexivity|]. intros e' H. apply N, elem_of_app. now left.
  - intros [(ts & tx & old & msg & ->)|[N (b & ts & tx & o & g & a & -> & N')]].
    + exists es, ts, tx, old, msg, []. split; [reflexivity|]. intros e' H. now apply elem_of_nil in H.
    + exists b, ts, tx, o, g, (a ++ [e]). split; [now rewrite <- app_assoc|].
      intros e' [H|H]%elem_of_app; [now apply N'|]. apply elem_of_list_singleton in H. now subst.
Qed.
Lemma last_update_repeat (Q : refname -> moid -> Prop) log es n m :
  Forall (fun e => exists ts tx n' o old msg, Q n' o /\ e = RefUpdateEvent ts tx n' old o msg) es ->
  (forall n o, Q n o -> last_update log n o) ->
  last_update (log ++ es) n m <-> last_update log n m.
Proof.
  intros F H. induction es as [|e es IH] using rev_ind; [now rewrite app_nil_r|].
  apply Forall_app in F. destruct F as [F1 F2]. apply Forall_cons in F2. destruct F2 as [(ts & tx & n' & o & old & msg & q & ->) _].
  specialize (IH F1). rewrite app_assoc, last_update_snoc, IH. cbn. split.
  - intros [(ts' & tx' & old' & msg' & [= <- <- <- <- <- <-])|[_ X]]; [|exact X]. now apply H.
  - intros X. destruct (decide (n' = n)) as [->|Ne]; [|now right].
    left. specialize (H _ _ q). assert (m = o) as -> by (eapply last_update_det; eassumption). eauto.
Qed.

Lemma packing_silent utf8 resolve file refs ts tx stdin ls log :
  readable utf8 file -> pieces LF stdin ls ->
  (forall n o, (n, o) ∈ refs -> oid_ok o /\ lacks " " n /\ packed_at file n (NonZero o)) ->
  (forall l, l ∈ ls -> l ∈ packing_lines refs) ->
  (forall n o, (n, o) ∈ refs -> ~ untracked n -> last_update log n (NonZero o)) ->
  exists es, hook_reference_transaction utf8 resolve file ts tx "committed" stdin = Some es /\
    forall n m, last_update (log ++ es) n m <-> last_update log n m.
Proof.
  intros R P Hr Hl Hlog.
  destruct (recorded_total utf8 resolve file ts tx ls R) as [es Hes].
  { intros l n old new Hi D _. specialize (Hl l Hi). unfold packing_lines in Hl. apply elem_of_app in Hl.
    destruct Hl as [X|X]; apply elem_of_list_In, in_map_iff in X; destruct X as ([n' o'] & <- & X); cbn [fst snd] in *;
      apply elem_of_list_In in X; destruct (Hr n' o' X) as (Ok & L & _).
    - assert (D' : describes_update (zeros +:+ " " +:+ oid_to_string o' +:+ " " +:+ n') n' (Direct Zero) (Direct (NonZero o'))).
      { exists zeros, (oid_to_string o'). split_and!; auto using zeros_space, hex_space, zeros_target, hex_target. }
      destruct (describes_unique _ _ _ _ _ _ _ D D') as (-> & -> & ->). cbn. eauto.
    - assert (D' : describes_update (oid_to_string o' +:+ " " +:+ zeros +:+ " " +:+ n') n' (Direct (NonZero o')) (Direct Zero)).
      { exists (oid_to_string o'), zeros. split_and!; auto using zeros_space, hex_space, zeros_target, hex_target. }
      destruct (describes_unique _ _ _ _ _ _ _ D D') as (-> & -> & ->). cbn. eauto. }
  exists es. split; [now apply (hook_records utf8 resolve file ts tx stdin ls es R P)|].
  intros n m. apply (last_update_repeat (fun n m => exists o, m = NonZero o /\ (n, o) ∈ refs /\ ~ untracked n)).
  - eapply Forall_impl; [eapply packing_recorded; eassumption|]. intros e (n' & o & H1 & H2 & ->). eauto 12.
  - intros n' m' (o & -> & H1 & H2). auto.
Qed.

(** ** The list of rewritten commits *)

Lemma unhex_small c d : unhex c = Some d -> (d < 16)%N.
Proof.
  unfold unhex. destruct (_ && _)%bool eqn:E1.
  - apply andb_true_iff in E1. rewrite !N.leb_le in E1. intros [= <-]. lia.
  - destruct ((97 <=? _) && _)%N%bool eqn:E2.
    + apply andb_true_iff in E2. rewrite !N.leb_le in E2. intros [= <-]. lia.
    + destruct ((65 <=? _) && _)%N%bool eqn:E3; [|discriminate].
      apply andb_true_iff in E3. rewrite !N.leb_le in E3. intros [= <-]. lia.
Qed.
Lemma unhex_all_small l ds : unhex_all l = Some ds -> length ds = length l /\ Forall (fun d => (d < 16)%N) ds.
Proof.
  revert ds. induction l as [|c l IH]; intros ds; cbn; [intros [= <-]; auto|].
  destruct (unhex c) as [d|] eqn:E; [|discriminate]. destruct (unhex_all l) as [ds'|]; [|discriminate].
  intros [= <-]. destruct (IH _ eq_refl) as [L F]. cbn. split; [lia|]. constructor; [now apply unhex_small in E|exact F].
Qed.
Lemma digits_bound ds a : Forall (fun d => (d < 16)%N) ds ->
  (fold_left (fun acc d => acc * 16 + d) ds a < (a + 1) * 16 ^ N.of_nat (length ds))%N.
Proof.
  intros F. revert a. induction F as [|d ds Hd _ IH]; intros a; cbn [fold_left length].
  - cbn. lia.
  - specialize (IH (a * 16 + d)%N). rewrite Nat2N.inj_succ, N.pow_succ_r by lia. 
    eapply N.lt_le_trans; [exact IH|]. rewrite N.mul_assoc. apply N.mul_le_mono_r. lia.
Qed.
Lemma moid_from_string_ok s m : moid_from_string s = Some m -> moid_ok m.
Proof.
  unfold moid_from_string. destruct (git_oid_from_str s) as [n|] eqn:E; [|discriminate].
  destruct (N.eqb_spec n 0) as [->|Ne]; intros [= <-]; [exact I|]. cbn. unfold oid_ok. split; [lia|].
  unfold git_oid_from_str in E. destruct (_ && _)%bool eqn:B; [|discriminate].
  apply andb_true_iff in B. destruct B as [_ B]. apply Nat.leb_le in B.
  destruct (unhex_all (list_of_string s)) as [ds|] eqn:U; [|discriminate]. injection E as <-.
  apply unhex_all_small in U. destruct U as [L F]. pose proof (digits_bound ds 0 F) as D. rewrite L in D.
  unfold oid_limit. change (2 ^ 160)%N with (16 ^ 40)%N.
  replace (16 ^ 40)%N with (16 ^ N.of_nat (length (list_of_string s)) * 16 ^ N.of_nat (40 - length (list_of_string s)))%N.
  2: { rewrite <- N.pow_add_r. f_equal. lia. }
  apply N.mul_lt_mono_pos_r; [apply N.neq_0_lt_0, N.pow_nonzero; lia|lia].
Qed.
Lemma oid_from_string_ok s o : oid_from_string s = Some o -> oid_ok o.
Proof.
  unfold oid_from_string. destruct (moid_from_string s) as [m|] eqn:E; [|discriminate].
  apply moid_from_string_ok in E. destruct m; cbn; [discriminate|]. intros [= <-]. exact E.
Qed.

Definition entry_ok (e : oid * moid) : Prop := oid_ok (fst e) /\ moid_ok (snd e).

Lemma read_entry_line o m : oid_ok o -> moid_ok m -> read_entry (oid_to_string o +:+ " " +:+ moid_to_string m) = Some (o, m).
Proof.
  intros Ho Hm. unfold read_entry, trim.
  rewrite trim_start_app; [|apply hex_nonempty|apply hex_not_space, oid_hex].
  rewrite <- sapp_assoc. rewrite trim_end_app; [|apply moid_nonempty|apply hex_not_space, moid_hex].
  rewrite sapp_assoc.
  assert (S : split_on " " (oid_to_string o +:+ " " +:+ moid_to_string m) = [oid_to_string o; moid_to_string m]).
  { apply split_on_spec. split; [done|]. split; [|reflexivity].
    repeat constructor; apply hex_lacks; try apply oid_hex; try apply moid_hex; repeat constructor; discriminate. }
  rewrite S, nzoid_text_round_trip, moid_text_round_trip by assumption. reflexivity.
Qed.

Lemma all_some_map {A B} (f : A -> option B) (g : B -> A) l : Forall (fun b => f (g b) = Some b) l -> all_some (map f (map g l)) = Some l.
Proof. induction 1 as [|b l E _ IH]; cbn; [reflexivity|]. now rewrite E, IH. Qed.
Lemma all_some_Forall {A B} (f : A -> option B) (P : B -> Prop) l bs :
  (forall a b, f a = Some b -> P b) -> all_some (map f l) = Some bs -> Forall P bs.
Proof.
  intros H. revert bs. induction l as [|a l IH]; intros bs; cbn; [intros [= <-]; constructor|].
  destruct (f a) as [b|] eqn:E; [|discriminate]. destruct (all_some (map f l)) as [bs'|]; [|discriminate].
  intros [= <-]. constructor; eauto.
Qed.

Lemma line_lacks c o m : Forall (fun d => c <> hex_char d) (map N.of_nat (seq 0 16)) -> c <> " "%char ->
  lacks c (oid_to_string o +:+ " " +:+ moid_to_string m).
Proof.
  intros F N. apply lacks_app. split; [apply hex_lacks, oid_hex; exact F|].
  rewrite sapp_cons. apply lacks_cons. split; [exact N|]. rewrite sapp_nil. apply hex_lacks, moid_hex. exact F.
Qed.
Lemma rewritten_round_trip l : Forall entry_ok l -> read_rewritten_list (write_rewritten_list l) = Some l.
Proof.
  intros F. unfold read_rewritten_list, write_rewritten_list. rewrite lines_unlines.
  - apply all_some_map. eapply Forall_impl; [exact F|]. intros [o m] [H1 H2]. now apply read_entry_line.
  - apply Forall_map, Forall_forall. intros [o m] _. cbn. apply line_lacks; [repeat constructor; discriminate|discriminate].
  - apply Forall_map, Forall_forall. intros [o m] _. cbn. apply line_lacks; [repeat constructor; discriminate|discriminate].
Qed.
Lemma read_rewritten_ok text l : read_rewritten_list text = Some l -> Forall entry_ok l.
Proof.
  apply all_some_Forall. intros line [o m]. unfold read_entry.
  destruct (split_on " " (trim line)) as [|so [|sn ?]]; try discriminate.
  destruct (oid_from_string so) as [o'|] eqn:E1; [|discriminate].
  destruct (moid_from_string sn) as [m'|] eqn:E2; [|discriminate]. intros [= <- <-].
  apply oid_from_string_ok in E1. apply moid_from_string_ok in E2. split; assumption.
Qed.

Lemma collect_spec es o m : collect_map es !! o = Some m <-> last_entry es o m.
Proof.
  unfold collect_map, last_entry. revert m. induction es as [|[o' m'] es IH] using rev_ind; intros m.
  - cbn. rewrite lookup_empty. split; [discriminate|]. intros (b & a & E & _). destruct b; discriminate.
  - rewrite fold_left_app. cbn [fold_left fst snd]. destruct (decide (o' = o)) as [->|Ne].
    + rewrite lookup_insert. split.
      * intros [= <-]. exists es, []. split; [reflexivity|]. intros m'' H. now apply elem_of_nil in H.
      * intros (b & a & E & N). destruct a as [|x a] using rev_ind.
        -- apply app_inj_tail in E. destruct E as [_ E]. congruence.
        -- clear IHa. rewrite app_comm_cons, app_assoc in E. apply app_inj_tail in E. destruct E as [_ <-].
           destruct (N m'). apply elem_of_app. right. left.
    + rewrite lookup_insert_ne by exact Ne. rewrite IH. split.
      * intros (b & a & -> & N). exists b, (a ++ [(o', m')]). split; [now rewrite <- app_assoc|].
        intros m'' [H|H]%elem_of_app; [now apply N in H|]. apply elem_of_list_singleton in H. congruence.
      * intros (b & a & E & N). destruct a as [|x a] using rev_ind.
        -- apply app_inj_tail in E. destruct E as [_ E]. congruence.
        -- clear IHa. rewrite app_comm_cons, app_assoc in E. apply app_inj_tail in E. destruct E as [-> _].
           exists b, a. split; [reflexivity|]. intros m'' H. apply (N m''). apply elem_of_app. now left.
Qed.
Lemma last_entry_none es o : collect_map es !! o = None <-> forall m, (o, m) ∉ es.
Proof.
  split.
  - intros E m H.
    assert (X : exists m', last_entry es o m').
    { clear E. induction es as [|[o' m'] es IH] using rev_ind; [now apply elem_of_nil in H|].
      destruct (decide (o' = o)) as [->|Ne].
      - exists m', es, []. split; [reflexivity|]. intros m'' H'. now apply elem_of_nil in H'.
      - apply elem_of_app in H. destruct H as [H|H]; [|apply elem_of_list_singleton in H; congruence].
        destruct (IH H) as (m'' & b & a & -> & N). exists m'', b, (a ++ [(o', m')]). split; [now rewrite <- app_assoc|].
        intros m3 [H'|H']%elem_of_app; [now apply N in H'|]. apply elem_of_list_singleton in H'. congruence. }
    destruct X as [m' X]. apply collect_spec in X. congruence.
  - intros N. destruct (collect_map es !! o) as [m|] eqn:E; [|reflexivity]. exfalso.
    apply collect_spec in E. destruct E as (b & a & -> & _). apply (N m). apply elem_of_app. right. left.
Qed.

Lemma Forall2_weaken {A B} (P Q : A -> B -> Prop) l k :
  Forall2 P l k -> (forall a b, a ∈ l -> P a b -> Q a b) -> Forall2 Q l k.
Proof.
  induction 1 as [|a b l k H _ IH]; intros W; constructor; [apply W; [left|exact H]|].
  apply IH. intros a' b' Hin. apply W. now right.
Qed.
Lemma replace_spec cur add new rem : NoDup (map fst cur) -> replace_entries cur add = (new, rem) ->
  Forall2 (fun e e' => fst e = fst e' /\ (add !! fst e = Some (snd e') \/ (add !! fst e = None /\ e' = e))) cur new /\
  forall o m, rem !! o = Some m <-> add !! o = Some m /\ o ∉ map fst cur.
Proof.
  revert add new rem. induction cur as [|[o n] cur IH]; intros add new rem Nd; cbn [replace_entries map fst].
  - intros [= <- <-]. split; [constructor|]. intros o m. split; [|tauto]. intros H. split; [exact H|apply not_elem_of_nil].
  - cbn in Nd. apply NoDup_cons in Nd. destruct Nd as [No Nd].
    destruct (add !! o) as [m0|] eqn:E; cbv zeta.
    + destruct (replace_entries cur (delete o add)) as [rest rem'] eqn:R. intros [= <- <-].
      apply IH in R; [|exact Nd]. destruct R as [F H]. split.
      * constructor; [cbn; auto|]. eapply Forall2_weaken; [exact F|].
        intros [o1 n1] [o2 n2] Hin [E' X]. cbn in *. subst o2. split; [reflexivity|].
        rewrite lookup_delete_ne in X; [exact X|]. intros ->. apply No. apply elem_of_list_fmap. exists (o1, n1). auto.
      * intros o' m'. rewrite H, elem_of_cons. destruct (decide (o = o')) as [->|Ne].
        -- rewrite lookup_delete. split; [intros [? _]; discriminate|]. intros [_ X]. tauto.
        -- rewrite lookup_delete_ne by exact Ne. naive_solver.
    + destruct (replace_entries cur add) as [rest rem'] eqn:R. intros [= <- <-].
      apply IH in R; [|exact Nd]. destruct R as [F H]. split.
      * constructor; [cbn; auto|exact F].
      * intros o' m'. rewrite H, elem_of_cons. split; [|tauto]. intros [X Y]. split; [exact X|]. intros [->|?]; [congruence|tauto].
Qed.

Lemma put_entries_spec iter text cur es : (forall m, iter m ≡ₚ map_to_list m) ->
  Forall entry_ok es -> read_rewritten_list text = Some cur -> NoDup (map fst cur) ->
  exists text' l', add_rewritten_list_entries iter (Some text) es = Some text' /\
    read_rewritten_list text' = Some l' /\ put_entries cur es l'.
Proof.
  intros Hi Fe E Nd. unfold add_rewritten_list_entries. rewrite E.
  destruct (replace_entries cur (collect_map es)) as [new rem] eqn:R.
  destruct (replace_spec _ _ _ _ Nd R) as [F H].
  pose proof (read_rewritten_ok _ _ E) as Fc.
  assert (Le : forall o m, last_entry es o m -> entry_ok (o, m)).
  { intros o m (b & a & -> & _). rewrite Forall_forall in Fe. apply Fe, elem_of_app. right. left. }
  exists (write_rewritten_list (new ++ iter rem)), (new ++ iter rem). split; [reflexivity|]. split.
  - apply rewritten_round_trip, Forall_app. split.
    + apply Forall_forall. intros [o m] Hm. apply elem_of_list_lookup in Hm. destruct Hm as [i Hm].
      destruct (Forall2_lookup_r _ _ _ _ _ F Hm) as ([o' m'] & Hc & Eq & X). cbn in *. subst o'.
      destruct X as [X|[_ X]]; [apply Le; now apply collect_spec|].
      rewrite Forall_forall in Fc. rewrite X. apply Fc. eapply elem_of_list_lookup_2, Hc.
    + apply Forall_forall. intros [o m] Hm. rewrite Hi in Hm. apply elem_of_map_to_list in Hm.
      apply H in Hm. apply Le. apply collect_spec. tauto.
  - exists new, (iter rem). split_and!; [reflexivity| | |].
    + eapply Forall2_impl; [exact F|]. intros [o m] [o' m'] [Eq X]. cbn in *. subst o'. split; [reflexivity|].
      rewrite collect_spec, last_entry_none in X. tauto.
    + intros o m. rewrite Hi, elem_of_map_to_list, H, collect_spec. split; intros [X Y]; split; auto.
      * intros m' Hin. apply Y, elem_of_list_fmap. exists (o, m'). auto.
      * intros Hin. apply elem_of_list_fmap in Hin. destruct Hin as ([o' m'] & -> & Hin). now apply (Y m').
    + rewrite Hi. apply NoDup_fst_map_to_list.
Qed.

Lemma put_entries_keys cur es l' : NoDup (map fst cur) -> put_entries cur es l' -> NoDup (map fst l').
Proof.
  intros Nd (l1 & l2 & -> & F & H & N2). rewrite map_app. apply NoDup_app.
  assert (E : map fst l1 = map fst cur).
  { clear -F. induction F as [|e e' l l' [E _] _ IH]; cbn; [reflexivity|]. now rewrite E, IH. }
  rewrite E. split_and!; [exact Nd| |exact N2].
  intros o H1 H2. apply elem_of_list_fmap in H1, H2. destruct H1 as ([o1 m1] & -> & H1), H2 as ([o2 m2] & E2 & H2).
  cbn in E2. subst o2. apply H in H2. destruct H2 as [_ H2]. now apply (H2 m1).
Qed.
Lemma put_entries_has cur es l' o m : put_entries cur es l' -> last_entry es o m -> (o, m) ∈ l'.
Proof.
  intros (l1 & l2 & -> & F & H & _) L. apply elem_of_app. destruct (decide (o ∈ map fst cur)) as [Hin|Hout].
  - left. apply elem_of_list_fmap in Hin. destruct Hin as ([o' m'] & -> & Hin). cbn in L |- *.
    apply elem_of_list_lookup in Hin. destruct Hin as [i Hin].
    destruct (Forall2_lookup_l _ _ _ _ _ F Hin) as ([o2 m2] & H2 & E & X). cbn in *. subst o2.
    assert (m2 = m) as ->.
    { destruct X as [X|[_ X]]; [apply collect_spec in X, L; congruence|].
      apply collect_spec in L. assert (collect_map es !! o' = None) by now apply last_entry_none. congruence. }
    eapply elem_of_list_lookup_2, H2.
  - right. apply H. split; [exact L|]. intros m' Hin. apply Hout, elem_of_list_fmap. exists (o, m'). auto.
Qed.
Lemma put_entries_other cur es l' o m : put_entries cur es l' -> (forall m', (o, m') ∉ es) -> (o, m) ∈ l' <-> (o, m) ∈ cur.
Proof.
  intros (l1 & l2 & -> & F & H & _) N.
  assert (NL : forall m', ~ last_entry es o m').
  { intros m' (b & a & -> & _). apply (N m'). apply elem_of_app. right. left. }
  rewrite elem_of_app. split.
  - intros [Hin|Hin]; [|apply H in Hin; destruct Hin as [Hin _]; now apply NL in Hin].
    apply elem_of_list_lookup in Hin. destruct Hin as [i Hin].
    destruct (Forall2_lookup_r _ _ _ _ _ F Hin) as ([o2 m2] & H2 & E & X). cbn in *. subst o2.
    destruct X as [X|[X _]]; [now apply NL in X|]. rewrite X. eapply elem_of_list_lookup_2, H2.
  - intros Hin. left. apply elem_of_list_lookup in Hin. destruct Hin as [i Hin].
    destruct (Forall2_lookup_l _ _ _ _ _ F Hin) as ([o2 m2] & H2 & E & X). cbn in *. subst o2.
    destruct X as [X|[X _]]; [now apply NL in X|]. rewrite <- X. eapply elem_of_list_lookup_2, H2.
Qed.

Lemma skip_spec iter o s text cur : (forall m, iter m ≡ₚ map_to_list m) -> oid_ok o ->
  hs_rewritten s = Some text -> read_rewritten_list text = Some cur -> NoDup (map fst cur) ->
  exists s' text' l', hook_skip_upstream_applied_commit iter o s = Some s' /\ hs_rewritten s' = Some text' /\
    read_rewritten_list text' = Some l' /\ NoDup (map fst l') /\ (o, Zero) ∈ l' /\
    forall o' m, o' <> o -> (o', m) ∈ l' <-> (o', m) ∈ cur.
Proof.
  intros Hi Ho E R Nd. unfold hook_skip_upstream_applied_commit. cbv zeta. rewrite E.
  destruct (put_entries_spec iter text cur [(o, Zero)] Hi) as (text' & l' & A & B & P); [|exact R|exact Nd|].
  { constructor; [|constructor]. split; [exact Ho|exact I]. }
  rewrite A. eexists _, text', l'. split_and!; [reflexivity|reflexivity|exact B| | |].
  - eapply put_entries_keys; eassumption.
  - eapply put_entries_has; [exact P|]. exists [], []. split; [reflexivity|]. intros m' H. now apply elem_of_nil in H.
  - intros o' m' Ne. eapply put_entries_other; [exact P|]. intros m'' H. apply elem_of_list_singleton in H. congruence.
Qed.

(** ** A rebase *)

Definition deferred_text (os : list oid) : string := unlines (map oid_to_string os).
Lemma read_deferred_text os : Forall oid_ok os -> read_deferred (Some (deferred_text os)) = Some os.
Proof.
  intros F. unfold read_deferred, deferred_text. rewrite lines_unlines.
  - apply all_some_map. eapply Forall_impl; [exact F|]. intros o Ho. now apply nzoid_text_round_trip.
  - apply Forall_map, Forall_forall. intros o _. apply hex_lacks, oid_hex. repeat constructor; discriminate.
  - apply Forall_map, Forall_forall. intros o _. apply hex_lacks, oid_hex. repeat constructor; discriminate.
Qed.

Definition deferring (log : list event) (os : list oid) (s : hook_state) : Prop :=
  hs_log s = log /\ hs_rebase s = true /\ match hs_deferred s with Some t => t | None => "" end = deferred_text os.

Lemma step_deferring log os os' s s' : deferring log os s -> rebase_step s os' s' -> deferring log (os ++ os') s'.
Proof.
  intros (H1 & H2 & H3) St. destruct St as [ts tx s o|ts tx text s|iter find o s s' E|iter o s s' E].
  - unfold hook_post_commit. cbn. rewrite H2. unfold deferring. cbn. split_and!; auto.
    rewrite H3. unfold deferred_text. rewrite map_app, unlines_app. reflexivity.
  - rewrite app_nil_r. unfold hook_post_rewrite. rewrite H2. cbn. now split_and!.
  - rewrite app_nil_r. revert E. unfold hook_drop_commit_if_empty. destruct (hs_head s) as [h|]; [|intros [= <-]; now split_and!].
    destruct (find h) as [c|]; [|intros [= <-]; now split_and!].
    destruct (negb (commit_is_empty find c)); [intros [= <-]; now split_and!|].
    destruct (commit_parents c) as [|p [|]]; [intros [= <-]; now split_and!| |intros [= <-]; now split_and!].
    cbv zeta. destruct (add_rewritten_list_entries _ _ _); [|discriminate]. intros [= <-]. unfold deferring. cbn. now split_and!.
  - rewrite app_nil_r. revert E. unfold hook_skip_upstream_applied_commit. cbv zeta.
    destruct (add_rewritten_list_entries _ _ _); [|discriminate]. intros [= <-]. unfold deferring. cbn. now split_and!.
Qed.
Lemma run_deferring log os os' s s' : deferring log os s -> rebase_run s os' s' -> deferring log (os ++ os') s'.
Proof.
  intros D R. revert os D. induction R as [s|s s' s'' os1 os2 St _ IH]; intros os D; [now rewrite app_nil_r|].
  rewrite app_assoc. apply IH. eapply step_deferring; eassumption.
Qed.
Lemma rebase_silent s os s' : rebase_run (start_rebase s) os s' -> hs_log s' = hs_log s /\ hs_log (end_rebase s') = hs_log s.
Proof.
  intros R. eapply (run_deferring (hs_log s) []) in R; [|unfold deferring; cbn; now split_and!].
  destruct R as (H & _). cbn. auto.
Qed.
Lemma rebase_complete s os s' ts tx stdin l : Forall oid_ok os -> rebase_run (start_rebase s) os s' ->
  read_rewritten_list stdin = Some l ->
  let '(s'', ok) := hook_post_rewrite ts tx "rebase" stdin s' in
  ok = true /\ hs_log s'' = hs_log s ++ map (CommitEvent ts tx) os ++
    map (fun e => RewriteEvent ts tx (NonZero (fst e)) (snd e)) l.
Proof.
  intros Ho R E. eapply (run_deferring (hs_log s) []) in R; [|unfold deferring; cbn; now split_and!].
  destruct R as (H1 & H2 & H3). cbn [app] in H3. unfold hook_post_rewrite. cbn [andb].
  change (String.eqb "rebase" "amend") with false. cbn [andb].
  assert (D : read_deferred (hs_deferred s') = Some os).
  { destruct (hs_deferred s') as [t|]; [rewrite H3; now apply read_deferred_text|].
    destruct os as [|o os]; [reflexivity|]. exfalso. unfold deferred_text in H3. cbn [map unlines] in H3.
    pose proof (hex_nonempty o) as N. destruct (oid_to_string o); [done|discriminate]. }
  rewrite D, E. cbn. split; [reflexivity|]. now rewrite H1, <- app_assoc.
Qed.
