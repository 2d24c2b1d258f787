(** Proofs about the messages of `git reword`. *)
From Verif Require Import Base StrModel StrProofs RewordModel RewordSpec.
Local Open Scope string_scope.
Local Open Scope list_scope.

(** ** Splitting by the mark *)

Lemma strip_prefix_app p s : strip_prefix p (p +:+ s) = Some s.
Proof. induction p as [|a p IH]; [by destruct s|]. rewrite sapp_cons. cbn. by rewrite Ascii.eqb_refl. Qed.
Lemma strip_prefix_some p s r : strip_prefix p s = Some r -> s = p +:+ r.
Proof.
  revert s. induction p as [|a p IH]; intros s H; [cbn in H; injection H as ->; by rewrite sapp_nil|].
  destruct s as [|b s]; [discriminate|]. cbn in H. destruct (Ascii.eqb_spec a b) as [->|]; [|discriminate].
  rewrite sapp_cons. f_equal. auto.
Qed.
Lemma starts_with_iff p s : starts_with p s = true <-> exists r, s = p +:+ r.
Proof.
  unfold starts_with. split.
  - destruct (strip_prefix p s) eqn:E; [|discriminate]. intros _. exists s0. by apply strip_prefix_some.
  - intros [r ->]. by rewrite strip_prefix_app.
Qed.
Lemma starts_with_false p s : starts_with p s = false <-> ~ exists r, s = p +:+ r.
Proof. rewrite <- starts_with_iff. destruct (starts_with p s); split; congruence. Qed.

Lemma occurs_cons p c s : occurs p (String c s) <-> (exists r, String c s = p +:+ r) \/ occurs p s.
Proof.
  split.
  - intros ([|d a] & b & E).
    + left. exists b. exact E.
    + right. rewrite sapp_cons in E. injection E as -> ->. by exists a, b.
  - intros [[r E]|(a & b & ->)]; [by exists "", r|]. by exists (String c a), b.
Qed.
Lemma contains_iff p s : contains p s = true <-> occurs p s.
Proof.
  induction s as [|c s IH]; cbn [contains].
  - rewrite orb_false_r, starts_with_iff. split; [intros [r ->]; by exists "", r|].
    intros ([|? ?] & b & E); [|discriminate]. by exists b.
  - rewrite orb_true_iff, IH, starts_with_iff, occurs_cons. tauto.
Qed.

Lemma split_go_cons p s k : exists x xs, split_go p s k = x :: xs.
Proof.
  revert k. induction s as [|c s IH]; intros k; [by exists "", []|]. cbn [split_go]. destruct k; [|apply IH].
  destruct (starts_with p (String c s)); [eauto|]. destruct (split_go p s 0); eauto.
Qed.

Lemma split_go_skip p x s : split_go p (x +:+ s) (String.length x) = split_go p s 0.
Proof. induction x as [|c x IH]; [by destruct s|]. rewrite sapp_cons. cbn [String.length split_go]. exact IH. Qed.

Lemma split_str_match p s : p <> "" -> split_str p (p +:+ s) = "" :: split_str p s.
Proof.
  destruct p as [|c p]; [done|]. intros _. unfold split_str. rewrite sapp_cons. cbn [split_go].
  rewrite <- sapp_cons. assert (starts_with (String c p) (String c p +:+ s) = true) as -> by (apply starts_with_iff; eauto).
  f_equal. cbn [String.length]. rewrite Nat.sub_succ, Nat.sub_0_r. apply split_go_skip.
Qed.
Lemma split_str_char p c s : starts_with p (String c s) = false ->
  split_str p (String c s) = match split_str p s with x :: xs => String c x :: xs | [] => [] end.
Proof.
  intros E. unfold split_str. cbn [split_go]. rewrite E. by destruct (split_go_cons p s 0) as (x & xs & ->).
Qed.

Lemma split_str_sound p s : p <> "" ->
  s = join p (split_str p s) /\ Forall (fun x => ~ occurs p x) (split_str p s) /\ split_str p s <> [].
Proof.
  intros Np. remember (String.length s) as n eqn:En. revert s En.
  induction n as [n IH] using lt_wf_ind; intros s ->.
  destruct s as [|c s].
  - split_and!; [done| |done]. constructor; [|constructor].
    intros ([|? ?] & b & E); [|discriminate]. destruct p; done.
  - destruct (starts_with p (String c s)) eqn:E.
    + apply starts_with_iff in E. destruct E as [r E]. rewrite E.
      rewrite split_str_match by exact Np.
      destruct (IH (String.length r)) with (s := r) as (J & F & N); [|done|].
      { apply (f_equal String.length) in E. rewrite E. destruct p; [done|]. rewrite sapp_cons. cbn. 
        assert (HL : String.length (p +:+ r) = (String.length p + String.length r)%nat) by (clear; induction p; [done|]; rewrite sapp_cons; cbn; congruence).
        lia. }
      split_and!; [|constructor; [|exact F]|done].
      * destruct (split_str p r) as [|y ys] eqn:Es; [done|]. rewrite join_cons, sapp_nil. by rewrite <- J.
      * intros ([|? ?] & b & E'); [|discriminate]. destruct p; done.
    + rewrite split_str_char by exact E.
      destruct (IH (String.length s)) with (s := s) as (J & F & N); [cbn; lia|done|].
      destruct (split_str p s) as [|x xs] eqn:Es; [done|]. apply Forall_cons in F. destruct F as [Fx Fxs].
      split_and!; [| |done].
      * rewrite J at 1. destruct xs as [|y ys]; [done|]. by rewrite !join_cons, sapp_cons.
      * constructor; [|exact Fxs]. rewrite occurs_cons. intros [[r E']|H]; [|contradiction].
        apply starts_with_false in E. apply E. destruct xs as [|y ys].
        -- exists r. rewrite J. exact E'.
        -- exists (r +:+ p +:+ join p (y :: ys)). rewrite J, join_cons.
           rewrite <- sapp_cons, E', !sapp_assoc. done.
Qed.

(** The mark does not overlap with itself. *)
Lemma mark_unbordered x rest : x <> "" -> starts_with MARK (x +:+ MARK +:+ rest) = true -> exists r, x = MARK +:+ r.
Proof.
  intros Nx. unfold starts_with, MARK.
  destruct x as [|c x]; [done|]. rewrite sapp_cons. cbn [strip_prefix].
  destruct (Ascii.eqb_spec "+"%char c) as [<-|]; [|discriminate].
  repeat (destruct x as [|c x]; [rewrite sapp_nil; cbn; discriminate|]; rewrite sapp_cons; cbn [strip_prefix];
    match goal with |- context [Ascii.eqb ?a c] => destruct (Ascii.eqb_spec a c) as [<-|]; [|discriminate] end).
  intros _. exists x. reflexivity.
Qed.

Lemma split_mark_piece x rest : ~ occurs MARK x ->
  split_str MARK (x +:+ MARK +:+ rest) = x :: split_str MARK rest.
Proof.
  induction x as [|c x IH]; intros Hx.
  - rewrite sapp_nil. by apply split_str_match.
  - rewrite sapp_cons, split_str_char, IH.
    + done.
    + intros H. apply Hx. apply occurs_cons. by right.
    + apply not_true_is_false. rewrite <- sapp_cons. intros H. apply mark_unbordered in H; [|done].
      destruct H as [r E]. apply Hx. by exists "", r.
Qed.
Lemma split_mark_last x : ~ occurs MARK x -> split_str MARK x = [x].
Proof.
  induction x as [|c x IH]; intros Hx; [done|]. rewrite split_str_char, IH; [done| |].
  - intros H. apply Hx. apply occurs_cons. by right.
  - apply starts_with_false. intros [r E]. apply Hx. by exists "", r.
Qed.
Lemma split_mark_join ps : ps <> [] -> Forall (fun x => ~ occurs MARK x) ps -> split_str MARK (join MARK ps) = ps.
Proof.
  intros N F. induction F as [|x ps Hx F IH]; [done|]. destruct ps as [|y ps].
  - by apply split_mark_last.
  - rewrite join_cons, split_mark_piece by exact Hx. by rewrite IH.
Qed.

Lemma marked_iff text ps : marked text ps <-> ps = split_str MARK text.
Proof.
  split.
  - intros (N & -> & F). symmetry. by apply split_mark_join.
  - intros ->. destruct (split_str_sound MARK text) as (J & F & N); [done|]. done.
Qed.

(** ** Sections *)

Lemma split_once_some c s x y : split_once c s = Some (x, y) <-> s = x +:+ String c y /\ lacks c x.
Proof.
  revert x y. induction s as [|a s IH]; intros x y; cbn [split_once].
  - split; [discriminate|]. intros [E _]. destruct x; discriminate.
  - destruct (Ascii.eqb_spec a c) as [->|N].
    + split; [intros [= <- <-]; split; [done|apply lacks_nil]|]. intros [E L]. destruct x as [|b x].
      * rewrite sapp_nil in E. injection E as ->. done.
      * rewrite sapp_cons in E. injection E as <- ->. apply lacks_cons in L. by destruct L.
    + destruct (split_once c s) as [[x' y']|] eqn:E.
      * destruct (proj1 (IH x' y') eq_refl) as [-> L]. split.
        -- intros [= <- <-]. split; [done|]. apply lacks_cons. split; [congruence|done].
        -- intros [E' L']. destruct x as [|b x]; [rewrite sapp_nil in E'; congruence|].
           rewrite sapp_cons in E'. injection E' as <- E'. apply lacks_cons in L'. destruct L' as [_ L'].
           assert (H : Some (x', y') = Some (x, y)) by (apply IH; done). congruence.
      * split; [discriminate|]. intros [E' L']. destruct x as [|b x]; [rewrite sapp_nil in E'; congruence|].
        rewrite sapp_cons in E'. injection E' as <- E'. apply lacks_cons in L'. destruct L' as [_ L'].
        assert (H : None = Some (x, y)) by (apply IH; done). discriminate H.
Qed.
Lemma split_once_none c s : split_once c s = None <-> lacks c s.
Proof.
  induction s as [|a s IH]; cbn [split_once].
  - split; [intros _; apply lacks_nil|done].
  - rewrite lacks_cons. destruct (Ascii.eqb_spec a c) as [->|N]; [split; [discriminate|intros [? _]; congruence]|].
    destruct (split_once c s) as [[x y]|].
    + split; [discriminate|]. intros [_ H]. by apply IH in H.
    + split; [|done]. intros _. split; [congruence|]. by apply IH.
Qed.

Definition secs_of (ps : list string) : list (string * string) :=
  List.map (fun '(hash, msg) => (trim hash, msg)) (omap (split_once LF) ps).

Lemma secs_of_cons p ps :
  secs_of (p :: ps) = match split_once LF p with Some (h, b) => (trim h, b) :: secs_of ps | None => secs_of ps end.
Proof.
  unfold secs_of. change (omap (split_once LF) (p :: ps)) with
    (match split_once LF p with Some y => y :: omap (split_once LF) ps | None => omap (split_once LF) ps end).
  destruct (split_once LF p) as [[h b]|]; reflexivity.
Qed.

Lemma sections_iff ps l : sections ps l <-> l = secs_of ps.
Proof.
  split.
  - induction 1 as [|p ps l L _ ->|h b ps l L _ ->]; [done| |]; rewrite secs_of_cons.
    + apply split_once_none in L. by rewrite L.
    + assert (split_once LF (h +:+ String LF b) = Some (h, b)) as -> by by apply split_once_some. done.
  - intros ->. induction ps as [|p ps IH]; [constructor|]. rewrite secs_of_cons.
    destruct (split_once LF p) as [[h b]|] eqn:E.
    + apply split_once_some in E. destruct E as [-> L]. by constructor.
    + apply split_once_none in E. by constructor.
Qed.

(** ** The loop *)

Definition names_known (commits : list rcommit) (l : list (string * string)) : Prop :=
  forall h, h ∈ names l -> exists c, c ∈ commits /\ rc_short c = h.

Lemma short_oids_lookup commits h o :
  NoDup (List.map rc_short commits) ->
  short_oids commits !! h = Some o <-> exists c, c ∈ commits /\ rc_short c = h /\ rc_oid c = o.
Proof.
  intros ND. unfold short_oids.
  assert (G : forall m : gmap string oid, (forall c, c ∈ commits -> m !! rc_short c = None) ->
    fold_left (fun m c => <[rc_short c := rc_oid c]> m) commits m !! h = Some o <->
    m !! h = Some o \/ exists c, c ∈ commits /\ rc_short c = h /\ rc_oid c = o).
  { induction commits as [|c commits IH]; intros m Hm; cbn [fold_left].
    - split; [auto|]. intros [H|(c & H & _)]; [done|]. by apply elem_of_nil in H.
    - cbn [List.map] in ND. apply NoDup_cons in ND. destruct ND as [Nc ND]. rewrite IH; [|done|].
      + rewrite lookup_insert_Some. split.
        * intros [[[<- <-]|[N H]]|(c' & H & E)]; [right; exists c; split; [left|done]|by left|].
          right. exists c'. split; [by right|done].
        * intros [H|(c' & H & <- & <-)].
          -- left. right. split; [|done]. intros E. rewrite <- E in H. rewrite Hm in H by left. discriminate H.
          -- apply elem_of_cons in H. destruct H as [-> |H]; [left; left; done|right; eauto].
      + intros c' H. rewrite lookup_insert_ne; [apply Hm; by right|]. intros E. apply Nc. rewrite E.
        apply elem_of_list_In, List.in_map, elem_of_list_In. exact H. }
  rewrite G by (intros; apply lookup_empty). rewrite lookup_empty. split; [intros [?|?]; [discriminate|done]|auto].
Qed.

(** What the loop yields if nothing is wrong. *)
Lemma parse_loop cc commits :
  proper_commits commits -> forall l st,
  let r := fold_left (parse_section cc (short_oids commits)) l st in
  (p_duplicates r = [] /\ p_unexpected r = [] <->
   p_duplicates st = [] /\ p_unexpected st = [] /\ names_known commits l /\ NoDup (names l) /\
   (forall c, c ∈ commits -> rc_short c ∈ names l -> p_messages st !! rc_oid c = None)) /\
  (p_duplicates r = [] -> p_unexpected r = [] -> forall o m,
     p_messages r !! o = Some m <->
     p_messages st !! o = Some m \/
     exists c b, c ∈ commits /\ rc_oid c = o /\ (rc_short c, b) ∈ l /\ m = message_prettify b (Some cc)).
Proof.
  intros (ND1 & ND2 & _). intros l. induction l as [|[h b] l IH]; intros st; cbn [fold_left].
  { split.
    - split; [|tauto]. intros [-> ->]. split_and!; [done|done| |constructor|].
      + intros h H. by apply elem_of_nil in H.
      + intros c _ H. by apply elem_of_nil in H.
    - intros _ _ o m. split; [auto|]. intros [H|(c & b & _ & _ & H & _)]; [done|]. by apply elem_of_nil in H. }
  assert (Inj : forall c c', c ∈ commits -> c' ∈ commits -> rc_oid c = rc_oid c' -> c = c').
  { intros c c' H H' E. clear -ND1 H H' E. induction commits as [|d ds IH]; [by apply elem_of_nil in H|].
    cbn [List.map] in ND1. apply NoDup_cons in ND1. destruct ND1 as [N ND]. apply elem_of_cons in H, H'.
    destruct H as [-> |H], H' as [-> |H']; [done| | |auto].
    - exfalso. apply N. rewrite E. apply elem_of_list_In, List.in_map, elem_of_list_In. exact H'.
    - exfalso. apply N. rewrite <- E. apply elem_of_list_In, List.in_map, elem_of_list_In. exact H. }
  assert (Inj2 : forall c c', c ∈ commits -> c' ∈ commits -> rc_short c = rc_short c' -> c = c').
  { intros c c' H H' E. clear -ND2 H H' E. induction commits as [|d ds IH]; [by apply elem_of_nil in H|].
    cbn [List.map] in ND2. apply NoDup_cons in ND2. destruct ND2 as [N ND]. apply elem_of_cons in H, H'.
    destruct H as [-> |H], H' as [-> |H']; [done| | |auto].
    - exfalso. apply N. rewrite E. apply elem_of_list_In, List.in_map, elem_of_list_In. exact H'.
    - exfalso. apply N. rewrite <- E. apply elem_of_list_In, List.in_map, elem_of_list_In. exact H. }
  set (st' := parse_section cc (short_oids commits) st (h, b)).
  assert (Est : st' = parse_section cc (short_oids commits) st (h, b)) by reflexivity.
  clearbody st'. unfold parse_section in Est. subst st'.
  destruct (short_oids commits !! h) as [o|] eqn:Eh.
  - apply short_oids_lookup in Eh; [|done]. destruct Eh as (c & Hc & Es & Eo).
    case_bool_decide as Hm.
    + destruct (IH (Parsed (p_duplicates st ++ [h]) (p_messages st) (p_unexpected st))) as [A B]. cbn in A, B. split.
      * rewrite A. split.
        -- intros (E & _). by destruct (p_duplicates st).
        -- intros (_ & _ & _ & _ & H). exfalso. destruct Hm as [m Hm]. rewrite <- Eo, H in Hm; [discriminate|done|].
           rewrite Es. left.
      * intros E1 E2. exfalso. destruct (proj1 A (conj E1 E2)) as (E & _). by destruct (p_duplicates st).
    + apply eq_None_not_Some in Hm.
      destruct (IH (Parsed (p_duplicates st) (<[o := message_prettify b (Some cc)]> (p_messages st)) (p_unexpected st))) as [A B].
      cbn in A, B. split.
      * rewrite A. split.
        -- intros (E1 & E2 & K & ND & H). split_and!; [done|done| | |].
           ++ intros h' H'. cbn in H'. apply elem_of_cons in H'. destruct H' as [-> |H']; [eauto|by apply K].
           ++ cbn. constructor; [|done]. intros Hin. specialize (H c Hc). rewrite Es in H. specialize (H Hin).
              rewrite Eo, lookup_insert in H. discriminate H.
           ++ intros c' Hc' H'. cbn in H'. apply elem_of_cons in H'. destruct H' as [E|H'].
              ** assert (c' = c) as -> by (apply Inj2; congruence). by rewrite Eo.
              ** specialize (H c' Hc' H'). apply lookup_insert_None in H. by destruct H.
        -- intros (E1 & E2 & K & ND & H). cbn in ND. apply NoDup_cons in ND. destruct ND as [Nh ND]. split_and!; [done|done| |done|].
           ++ intros h' H'. apply K. cbn. by right.
           ++ intros c' Hc' H'. apply lookup_insert_None. split; [apply H; [done|cbn; by right]|].
              intros E. assert (c' = c) as -> by (apply Inj; congruence). apply Nh. by rewrite <- Es.
      * intros E1 E2 o' m. rewrite (B E1 E2). rewrite lookup_insert_Some.
        destruct (proj1 A (conj E1 E2)) as (_ & _ & _ & _ & H). split.
        -- intros [[[<- <-]|[_ H']]|(c' & b' & Hc' & E' & H' & E'')].
           ++ right. exists c, b. split_and!; [done|done| |done]. rewrite Es. left.
           ++ by left.
           ++ right. exists c', b'. split_and!; [done|done|by right|done].
        -- intros [H'|(c' & b' & Hc' & <- & H' & ->)].
           ++ left. right. split; [|done]. intros <-. congruence.
           ++ apply elem_of_cons in H'. destruct H' as [[= E ->]|H'].
              ** left. left. assert (c' = c) as -> by (apply Inj2; congruence). done.
              ** right. exists c', b'. done.
  - destruct (IH (Parsed (p_duplicates st) (p_messages st) (p_unexpected st ++ [h]))) as [A B]. cbn in A, B. split.
    + rewrite A. split.
      * intros (_ & E & _). by destruct (p_unexpected st).
      * intros (_ & _ & K & _). exfalso. destruct (K h) as (c & Hc & Es); [cbn; left|].
        assert (H : short_oids commits !! h = Some (rc_oid c)) by (apply short_oids_lookup; eauto). congruence.
    + intros E1 E2. exfalso. destruct (proj1 A (conj E1 E2)) as (_ & E & _). by destruct (p_unexpected st).
Qed.

Lemma finish_prepared cc commits shown edited messages ps l :
  proper_commits commits ->
  marked (add_mark (message_prettify edited (Some cc)) commits) ps -> sections ps l ->
  finish_editing cc commits shown edited = Prepared messages <->
  edited <> shown /\ trim (message_prettify edited (Some cc)) <> "" /\
  names l ≡ₚ List.map rc_short commits /\
  (forall o m, messages !! o = Some m <->
     exists c b, c ∈ commits /\ rc_oid c = o /\ (rc_short c, b) ∈ l /\ m = message_prettify b (Some cc)).
Proof.
  intros PC Hp Hs. pose proof PC as (ND1 & ND2 & _). apply marked_iff in Hp. subst ps. apply sections_iff in Hs. subst l.
  unfold finish_editing. destruct (String.eqb_spec edited shown) as [->|N1]; [split; [discriminate|intros [? _]; done]|].
  destruct (String.eqb_spec (trim (message_prettify edited (Some cc))) "") as [E|N2]; [split; [discriminate|intros (_ & ? & _); done]|].
  set (l := secs_of (split_str MARK (add_mark (message_prettify edited (Some cc)) commits))).
  unfold parse_bulk_edit_message. change (bulk_sections ?m) with (secs_of (split_str MARK m)). fold l.
  destruct (parse_loop cc commits PC l (Parsed [] ∅ [])) as [A B]. cbv zeta in A, B. cbn [p_duplicates p_messages p_unexpected] in A, B.
  set (r := fold_left (parse_section cc (short_oids commits)) l (Parsed [] ∅ [])) in *.
  assert (HP : names l ≡ₚ List.map rc_short commits <->
    names_known commits l /\ NoDup (names l) /\ forall c, c ∈ commits -> rc_short c ∈ names l).
  { split.
    - intros P. split_and!.
      + intros h H. rewrite P in H. apply elem_of_list_In, List.in_map_iff in H. destruct H as (c & <- & H). apply elem_of_list_In in H. eauto.
      + by rewrite P.
      + intros c H. rewrite P. apply elem_of_list_In, List.in_map, elem_of_list_In. exact H.
    - intros (K & ND & H). apply NoDup_Permutation; [done|done|]. intros h. split.
      + intros (c & Hc & <-)%K. apply elem_of_list_In, List.in_map, elem_of_list_In. exact Hc.
      + intros Hh. apply elem_of_list_In, List.in_map_iff in Hh. destruct Hh as (c & <- & Hc). apply H, elem_of_list_In, Hc. }
  assert (HD : p_duplicates r = [] -> p_unexpected r = [] ->
    (list_to_set (List.map rc_oid commits) = (dom (p_messages r) : gset oid) <-> forall c, c ∈ commits -> rc_short c ∈ names l)).
  { intros E1 E2. specialize (B E1 E2). split.
    - intros E c Hc. assert (Hd : rc_oid c ∈ (dom (p_messages r) : gset oid)).
      { rewrite <- E. apply elem_of_list_to_set, elem_of_list_In, List.in_map, elem_of_list_In. exact Hc. }
      apply elem_of_dom in Hd. destruct Hd as [m Hd]. apply B in Hd. destruct Hd as [Hd|(c' & b & Hc' & Eo & Hin & _)].
      { rewrite lookup_empty in Hd. discriminate Hd. }
      assert (c' = c) as ->.
      { clear -ND1 Hc Hc' Eo. induction commits as [|d ds IH]; [by apply elem_of_nil in Hc|].
        cbn [List.map] in ND1. apply NoDup_cons in ND1. destruct ND1 as [N ND]. apply elem_of_cons in Hc, Hc'.
        destruct Hc as [-> |Hc], Hc' as [-> |Hc']; [done| | |auto].
        - exfalso. apply N. rewrite <- Eo. apply elem_of_list_In, List.in_map, elem_of_list_In. exact Hc'.
        - exfalso. apply N. rewrite Eo. apply elem_of_list_In, List.in_map, elem_of_list_In. exact Hc. }
      apply elem_of_list_In, List.in_map_iff. exists (rc_short c, b). split; [done|]. by apply elem_of_list_In.
    - intros H. apply set_eq. intros o. rewrite elem_of_list_to_set, elem_of_dom. split.
      + intros Ho. apply elem_of_list_In, List.in_map_iff in Ho. destruct Ho as (c & <- & Hc). apply elem_of_list_In in Hc.
        specialize (H c Hc). apply elem_of_list_In, List.in_map_iff in H. destruct H as ([h b] & E & H). cbn in E. subst h.
        exists (message_prettify b (Some cc)). apply B. right. exists c, b. split_and!; [done|done| |done]. by apply elem_of_list_In.
      + intros [m Hm]. apply B in Hm. destruct Hm as [Hm|(c & b & Hc & <- & _)]; [rewrite lookup_empty in Hm; discriminate Hm|].
        apply elem_of_list_In, List.in_map, elem_of_list_In. exact Hc. }
  assert (HM : forall messages', p_duplicates r = [] -> p_unexpected r = [] ->
     (forall o m, messages' !! o = Some m <->
     exists c b, c ∈ commits /\ rc_oid c = o /\ (rc_short c, b) ∈ l /\ m = message_prettify b (Some cc)) ->
     p_messages r = messages').
  { intros messages' E1 E2 H. apply map_eq. intros o. apply option_eq. intros m. rewrite H, (B E1 E2), lookup_empty.
    split; [intros [?|?]; [discriminate|done]|auto]. }
  destruct (negb (bool_decide (list_to_set (List.map rc_oid commits) = (dom (p_messages r) : gset oid)))
         || negb (bool_decide (p_duplicates r = [])) || negb (bool_decide (p_unexpected r = []))) eqn:E.
  - split; [discriminate|]. intros (_ & _ & P & H). exfalso. apply HP in P. destruct P as (K & ND & P).
    destruct (proj2 A) as [E1 E2].
    { split_and!; [done|done|done|done|]. intros. apply lookup_empty. }
    apply (HD E1 E2) in P.
    rewrite !orb_true_iff, !negb_true_iff, !bool_decide_eq_false in E. tauto.
  - rewrite !orb_false_iff, !negb_false_iff, !bool_decide_eq_true in E. destruct E as [[E0 E1] E2].
    destruct (proj1 A (conj E1 E2)) as (_ & _ & K & ND & _). pose proof (proj1 (HD E1 E2) E0) as E3. split.
    + intros [= <-]. split_and!; [done|done|apply HP; done|]. intros o m. rewrite (B E1 E2), lookup_empty.
      split; [intros [?|?]; [discriminate|done]|auto].
    + intros (_ & _ & _ & H). f_equal. by apply HM.
Qed.
