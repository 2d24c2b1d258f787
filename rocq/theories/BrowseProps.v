(** C123: choosing a past state in interactive [git undo] *)
From Verif Require Import Base TextModel TextProofs EventLogModel EventLogSpec EventLogProofs EventLogNavProofs EventLogProps
  UndoModel UndoSpec UndoProofs UndoProps BrowseModel BrowseSpec.
Local Open Scope Z_scope.

Lemma redraw_true r c : valid_cursor r c -> exists s, redraw r c = Some s /\ sc_cursor s = c /\ true_screen r s.
Proof.
  intros V. unfold redraw. destruct (Z.eq_dec c 0) as [-> |Nz].
  - rewrite c07_nothing_at_start. eexists. split; [reflexivity|]. split; [reflexivity|]. split; [exact V|reflexivity].
  - assert (P : 0 < c) by (unfold valid_cursor in V; lia). destruct (c07_latest_transaction r c V P) as (start & seg & -> & L).
    eexists. split; [reflexivity|]. split; [reflexivity|]. split; [exact V|]. cbn. now replace (start + 1 - 1) with start by lia.
Qed.
Lemma default_valid r : valid_cursor r (default_cursor r) /\ default_cursor r = Z.of_nat (length (events r)).
Proof. split; [apply make_cursor_valid|]. unfold default_cursor. rewrite make_cursor_spec. unfold len. lia. Qed.
Lemma redraw_cursor r c s : redraw r c = Some s -> sc_cursor s = c.
Proof. unfold redraw. destruct (tx_events_before_cursor r c); [|discriminate]. now intros [= <-]. Qed.
Lemma press_true r k s : true_screen r s ->
  match press r k s with Looking s' => true_screen r s' | Chose c => c = sc_cursor s | Gone => True | Panicked => False end.
Proof.
  intros T. pose proof (proj1 T) as V. destruct k; cbn [press]; try exact T; try exact I; try reflexivity.
  - destruct (c06_lands_on_boundary r (sc_cursor s) 1 V) as (d & -> & Vd & _). destruct (redraw_true r d Vd) as (s' & -> & _ & T'). exact T'.
  - destruct (c06_lands_on_boundary r (sc_cursor s) (-1) V) as (d & -> & Vd & _). destruct (redraw_true r d Vd) as (s' & -> & _ & T'). exact T'.
  - destruct (isize_from_string text); [|exact T].
    destruct (redraw_true r _ (make_cursor_valid r z)) as (s' & -> & _ & T'). exact T'.
Qed.
Lemma browse_app r ks k : browse r (ks ++ [k]) = match browse r ks with Looking s => press r k s | b => b end.
Proof. unfold browse. rewrite fold_left_app. cbn [fold_left]. destruct (fold_left _ ks _); reflexivity. Qed.
Lemma browse_true r ks :
  match browse r ks with Looking s => true_screen r s | Chose c => valid_cursor r c | Gone => True | Panicked => False end.
Proof.
  induction ks as [|k ks IH] using rev_ind.
  - cbn. destruct (redraw_true r _ (proj1 (default_valid r))) as (s & E & _ & T). rewrite E. exact T.
  - rewrite browse_app. destruct (browse r ks) as [s|c| |]; auto. pose proof (press_true r k s IH) as H.
    destruct (press r k s); auto. subst. apply IH.
Qed.

(** Whatever is pressed, the program does not crash, and what is on the screen is
    true: the events shown are those of the last transaction before the state shown. *)
Theorem c123_shown : forall r ks,
  browse r ks <> Panicked /\ forall s, browse r ks = Looking s -> true_screen r s.
Proof.
  intros r ks. pose proof (browse_true r ks) as H. destruct (browse r ks); try contradiction; (split; [discriminate|]); try discriminate.
  intros s' [= <-]. exact H.
Qed.

(** The state that is chosen is the one that was on the screen when Enter was pressed. *)
Theorem c123_chosen : forall r ks c,
  browse r ks = Chose c <-> exists ks1 ks2 s, ks = ks1 ++ KEnter :: ks2 /\ browse r ks1 = Looking s /\ sc_cursor s = c.
Proof.
  intros r ks c. split.
  - induction ks as [|k ks IH] using rev_ind.
    + cbn. destruct (redraw r (default_cursor r)); discriminate.
    + rewrite browse_app. destruct (browse r ks) as [s|c'| |] eqn:E; try discriminate.
      * destruct k; cbn [press]; try discriminate.
        -- destruct (advance_tx _ _ _); [destruct (redraw _ _)|]; discriminate.
        -- destruct (advance_tx _ _ _); [destruct (redraw _ _)|]; discriminate.
        -- destruct (isize_from_string _); [destruct (redraw _ _)|]; discriminate.
        -- intros [= <-]. exists ks, [], s. auto.
      * intros [= ->]. destruct (IH eq_refl) as (k1 & k2 & s & -> & A & B). exists k1, (k2 ++ [k]), s. split; [|auto].
        rewrite <- app_assoc. reflexivity.
  - intros (ks1 & ks2 & s & -> & E & <-). induction ks2 as [|k ks2 IH] using rev_ind.
    + rewrite browse_app, E. reflexivity.
    + rewrite app_comm_cons, app_assoc, browse_app, IH. reflexivity.
Qed.

(** Undoing then puts every reference back where it was in the state shown. *)
Theorem c123_restored : forall main w ks s now tx R since w' t,
  let r := replay main (w_log w) in
  browse r ks = Looking s -> events_since_cursor r (sc_cursor s) = Some since -> true_history R since ->
  (forall n : refname, n <> "HEAD"%string -> w_refs w !! n = after_history R since !! n) ->
  undo_interactive main (ks ++ [KEnter]) now tx true w = Some (w', t) ->
  forall n : refname, n <> "HEAD"%string -> w_refs w' !! n = R !! n.
Proof.
  intros main w ks s now tx R since w' t r E Hs HT HR HU. unfold undo_interactive in HU. fold r in HU. cbv zeta in HU.
  rewrite browse_app, E in HU. cbn [press] in HU. exact (c10_refs_restored r (sc_cursor s) now tx w R since w' t Hs HT HR HU).
Qed.

(** Looking and quitting change nothing. *)
Theorem c123_quit : forall main w ks now tx confirmed w' t,
  (forall c, browse (replay main (w_log w)) ks <> Chose c) \/ confirmed = false ->
  undo_interactive main ks now tx confirmed w = Some (w', t) -> w' = w /\ t = None.
Proof.
  intros main w ks now tx confirmed w' t H. unfold undo_interactive. cbv zeta.
  destruct (browse (replay main (w_log w)) ks) as [s|c| |] eqn:E.
  - now intros [= <- <-].
  - destruct H as [H| ->]; [now destruct (H c)|]. apply c10_declined.
  - now intros [= <- <-].
  - discriminate.
Qed.

Lemma boundary_len es : boundary es (Z.of_nat (length es)).
Proof. right. now left. Qed.
Lemma lands_looking r c s n : true_screen r s -> advance_tx r (sc_cursor s) n = Some c ->
  exists s', looking (match advance_tx r (sc_cursor s) n with Some c => redraw r c | None => None end) = Looking s' /\ sc_cursor s' = c.
Proof.
  intros [V _] E. destruct (c06_lands_on_boundary r _ n V) as (d & E' & Vd & _). rewrite E in *. injection E' as <-.
  destruct (redraw_true r c Vd) as (s' & -> & H & _). cbn. eauto.
Qed.
Lemma press_previous r s : true_screen r s -> boundary (events r) (sc_cursor s) ->
  exists s', press r KPrevious s = Looking s' /\ steps_back (events r) (sc_cursor s) (sc_cursor s') /\ boundary (events r) (sc_cursor s').
Proof.
  intros T B. pose proof (proj1 T) as V. destruct (c06_lands_on_boundary r (sc_cursor s) (-1) V) as (d & E & Vd & Bd).
  cbn [press]. destruct (lands_looking r d s (-1) T E) as (s' & -> & <-). exists s'. split; [reflexivity|]. split; [|exact Bd].
  destruct (Z.eq_dec (sc_cursor s) 0) as [Z0|Nz].
  - left. split; [exact Z0|]. rewrite Z0 in E. destruct (c06_ends r 1 ltac:(lia)) as [_ E0]. change (- (1)) with (-1) in E0. congruence.
  - right. apply c06_one_backward; auto. unfold valid_cursor in V. lia.
Qed.
Lemma press_next r s : true_screen r s -> boundary (events r) (sc_cursor s) ->
  exists s', press r KNext s = Looking s' /\ steps_on (events r) (sc_cursor s) (sc_cursor s') /\ boundary (events r) (sc_cursor s').
Proof.
  intros T B. pose proof (proj1 T) as V. destruct (c06_lands_on_boundary r (sc_cursor s) 1 V) as (d & E & Vd & Bd).
  cbn [press]. destruct (lands_looking r d s 1 T E) as (s' & -> & <-). exists s'. split; [reflexivity|]. split; [|exact Bd].
  destruct (Z.eq_dec (sc_cursor s) (Z.of_nat (length (events r)))) as [Z0|Nz].
  - left. split; [exact Z0|]. rewrite Z0 in *. destruct (c06_ends r 1 ltac:(lia)) as [E0 _]. congruence.
  - right. apply c06_one_forward; auto. unfold valid_cursor in V. lia.
Qed.

(** With the keys for the previous and the next state alone, every state shown is one
    between transactions, and each key leads to the nearest one before or after. *)
Theorem c123_steps_partial : forall r ks,
  (forall k, k ∈ ks -> k = KNext \/ k = KPrevious \/ k = KHelp) ->
  exists s, browse r ks = Looking s /\ boundary (events r) (sc_cursor s) /\
    (exists s', browse r (ks ++ [KPrevious]) = Looking s' /\ steps_back (events r) (sc_cursor s) (sc_cursor s')) /\
    (exists s', browse r (ks ++ [KNext]) = Looking s' /\ steps_on (events r) (sc_cursor s) (sc_cursor s')).
Proof.
  intros r ks H.
  assert (G : exists s, browse r ks = Looking s /\ true_screen r s /\ boundary (events r) (sc_cursor s)).
  { induction ks as [|k ks IH] using rev_ind.
    - destruct (default_valid r) as [V E]. destruct (redraw_true r _ V) as (s & E' & C & T). exists s. cbn. rewrite E'. split; [reflexivity|].
      split; [exact T|]. rewrite C, E. apply boundary_len.
    - destruct IH as (s & E & T & B); [intros k' Hk; apply H, elem_of_app; now left|].
      assert (Hk : k = KNext \/ k = KPrevious \/ k = KHelp) by (apply H, elem_of_app; right; now left).
      rewrite browse_app, E. pose proof (press_true r k s T) as T'.
      destruct Hk as [-> |[-> | ->]].
      + destruct (press_next r s T B) as (s' & E' & _ & B'). rewrite E' in *. eauto.
      + destruct (press_previous r s T B) as (s' & E' & _ & B'). rewrite E' in *. eauto.
      + cbn. eauto. }
  destruct G as (s & E & T & B). exists s. split; [exact E|]. split; [exact B|]. rewrite !browse_app, E.
  destruct (press_previous r s T B) as (s1 & E1 & S1 & _). destruct (press_next r s T B) as (s2 & E2 & S2 & _). eauto 10.
Qed.

(** Going back [k] times leads to the state before the last [k] transactions, if there
    are that many, and going on again leads back. *)
Theorem c123_back_and_on : forall r k j c,
  (j <= k)%nat -> before_last (events r) (k - j) c -> (exists b, before_last (events r) k b) ->
  exists s, browse r (repeat KPrevious k ++ repeat KNext j) = Looking s /\ sc_cursor s = c.
Proof.
  intros r k j c Hj Hc Hk.
  assert (U : forall n a b, before_last (events r) n a -> before_last (events r) n b -> a = b).
  { induction n as [|n IH]; cbn; [congruence|]. intros a b (x & Hx & Px) (y & Hy & Py). specialize (IH _ _ Hx Hy). subst y.
    destruct Px as (A1 & A2 & A3), Py as (B1 & B2 & B3). destruct (Z.lt_trichotomy a b) as [L|[E|L]]; [|exact E|].
    - exfalso. apply (A3 b); [lia|exact B2].
    - exfalso. apply (B3 a); [lia|exact A2]. }
  assert (V : forall n a, before_last (events r) n a -> valid_cursor r a /\ boundary (events r) a).
  { induction n as [|n IH]; cbn; intros a.
    - intros ->. split; [unfold valid_cursor; lia|apply boundary_len].
    - intros (x & Hx & P & Bx & _). destruct (IH _ Hx) as [[V1 V2] _]. split; [unfold valid_cursor in *; lia|exact Bx]. }
  assert (S1 : forall n b, before_last (events r) n b -> exists s, browse r (repeat KPrevious n) = Looking s /\ sc_cursor s = b).
  { induction n as [|n IH]; intros b Hb.
    - cbn in Hb. subst b. destruct (default_valid r) as [Vd E]. destruct (redraw_true r _ Vd) as (s & E' & C & T). exists s. cbn. rewrite E'.
      split; [reflexivity|congruence].
    - cbn in Hb. destruct Hb as (x & Hx & P). destruct (IH _ Hx) as (s & E & <-).
      replace (repeat KPrevious (S n)) with (repeat KPrevious n ++ [KPrevious]) by (symmetry; apply (repeat_cons n KPrevious)).
      rewrite browse_app, E. destruct (V _ _ Hx) as [Vs Bs]. pose proof (browse_true r (repeat KPrevious n)) as T. rewrite E in T.
      destruct (press_previous r s T Bs) as (s' & E' & St & _). exists s'. split; [exact E'|].
      destruct St as [[Z0 _]|P']; [destruct P as [P _]; lia|]. apply (U (S n)); [exists (sc_cursor s); auto|exists (sc_cursor s); auto]. }
  assert (D : forall a n b, before_last (events r) (a + n) b -> exists x, before_last (events r) n x).
  { induction a as [|a IHa]; cbn; intros n b H; [eauto|]. destruct H as (x & Hx & _). eauto. }
  revert c Hc. induction j as [|j IH]; intros c Hc.
  - rewrite Nat.sub_0_r in Hc. cbn. rewrite app_nil_r. now apply S1.
  - destruct Hk as [bk Hbk]. destruct (D j (k - j)%nat bk) as [b Hb]; [now replace (j + (k - j))%nat with k by lia|].
    destruct (IH ltac:(lia) b Hb) as (s & E & Es).
    replace (repeat KNext (S j)) with (repeat KNext j ++ [KNext]) by (symmetry; apply (repeat_cons j KNext)).
    rewrite app_assoc, browse_app, E. pose proof (browse_true r (repeat KPrevious k ++ repeat KNext j)) as T. rewrite E in T.
    replace (k - j)%nat with (S (k - S j)) in Hb by lia. destruct Hb as (x & Hx & P). pose proof (U _ _ _ Hx Hc). subst x.
    destruct (V _ _ Hc) as [Vc Bc]. assert (Pc : 0 < c) by (destruct P; lia).
    destruct (c06_back_forward r c Vc Bc Pc) as (d & E1 & E2). apply c06_one_backward in P; auto.
    assert (d = b) by congruence. subst d. rewrite <- Es in E2. cbn [press].
    apply (lands_looking r c s 1 T E2).
Qed.

(** Where a number leads. *)
Lemma go_to r ks s n : browse r ks = Looking s -> isize_ok n -> valid_cursor r n ->
  exists s', browse r (ks ++ [KGoTo (isize_to_string n)]) = Looking s' /\ sc_cursor s' = n.
Proof.
  intros E Ok V. rewrite browse_app, E. cbn [press]. rewrite isize_text_round_trip by exact Ok.
  replace (make_cursor r n) with n by (rewrite make_cursor_spec; unfold valid_cursor, len in *; lia).
  destruct (redraw_true r n V) as (s' & -> & C & _). exists s'. auto.
Qed.

(** The number given for a state leads back to it if the transaction had only one
    event; in general the number of its last event does. *)
Theorem c123_number_partial : forall r ks s n es ks',
  isize_ok (Z.of_nat (length (events r))) ->
  browse r ks = Looking s -> sc_events s = Some (n, es) -> (exists s0, browse r ks' = Looking s0) ->
  browse r (ks' ++ [KGoTo (isize_to_string (n + Z.of_nat (length es) - 1))]) = Looking s /\
  (length es = 1%nat -> browse r (ks' ++ [KGoTo (isize_to_string n)]) = Looking s).
Proof.
  intros r ks s n es ks' Ok E Ee (s0 & E0). destruct (c123_shown r ks) as [_ T]. specialize (T s E). destruct T as [V L]. rewrite Ee in L.
  destruct L as (pre & post & t & Hev & Hpre & Hc & _).
  assert (Hn : n + Z.of_nat (length es) - 1 = sc_cursor s) by lia.
  assert (G : browse r (ks' ++ [KGoTo (isize_to_string (sc_cursor s))]) = Looking s).
  { assert (Okc : isize_ok (sc_cursor s)) by (unfold isize_ok, valid_cursor in *; lia).
    rewrite browse_app, E0. cbn [press]. rewrite isize_text_round_trip by exact Okc.
    replace (make_cursor r (sc_cursor s)) with (sc_cursor s) by (rewrite make_cursor_spec; unfold valid_cursor, len in *; lia).
    assert (R : exists c, redraw r c = Some s).
    { clear - E. revert s E. induction ks as [|k ks IH] using rev_ind; intros s.
      - cbn. destruct (redraw r (default_cursor r)) eqn:Er; [|discriminate]. intros [= <-]. eauto.
      - rewrite browse_app. destruct (browse r ks) as [s1| | |]; try discriminate. destruct k; cbn [press]; try discriminate.
        + destruct (advance_tx _ _ _); [|discriminate]. destruct (redraw r c) eqn:Er; [|discriminate]. intros [= <-]. eauto.
        + destruct (advance_tx _ _ _); [|discriminate]. destruct (redraw r c) eqn:Er; [|discriminate]. intros [= <-]. eauto.
        + destruct (isize_from_string text); [|intros [= <-]; eauto]. destruct (redraw r _) eqn:Er; [|discriminate]. intros [= <-]. eauto.
        + intros [= <-]. eauto. }
    destruct R as [c R]. pose proof (redraw_cursor _ _ _ R) as C. rewrite C, R. reflexivity. }
  rewrite Hn. split; [exact G|]. intros H1. rewrite H1 in Hn. replace n with (sc_cursor s) by lia. exact G.
Qed.

(** The line above the events is true as well: it gives the transaction of all events
    shown and the number of the first, which is its place in the log; it says that
    there are none only at the beginning of the log. *)
Theorem c123_line : forall r ks s, browse r ks = Looking s ->
  (sc_cursor s = 0 /\ info_line s = "There are no previous available events."%string) \/
  exists n es t, sc_events s = Some (n, es) /\ es <> [] /\ (forall e, e ∈ es -> event_tx e = t) /\
    events r !! Z.to_nat (n - 1) = head es /\ 1 <= n /\
    info_line s = ("Repo after transaction " +:+ txid_to_string t +:+ " (event " +:+ isize_to_string n +:+
      "). Press 'h' for help, 'q' to quit.")%string.
Proof.
  intros r ks s E. destruct (c123_shown r ks) as [_ T]. destruct (T s E) as [V L]. unfold info_line.
  destruct (sc_events s) as [[n es]|]; [right|left; auto].
  destruct L as (pre & post & t & Hev & Hpre & Hc & Hne & Ht & _). exists n, es, t.
  destruct es as [|e es]; [contradiction|]. split; [reflexivity|]. split; [discriminate|]. split; [exact Ht|].
  split; [|split; [lia|by rewrite (Ht e) by left]].
  rewrite Hev, <- Hpre, Nat2Z.id, lookup_app_r, Nat.sub_diag by lia. reflexivity.
Qed.

(** The number is that of the first event, so going to it does not lead back to the
    state it was given for: the state after 12 is said to be that of event 2, going
    to event 2 leads to a state in the middle of the transaction, with the same line. *)
Definition browse_log : list event :=
  [CommitEvent 1 (TxId 1) 10%N; CommitEvent 2 (TxId 2) 11%N; CommitEvent 2 (TxId 2) 12%N; CommitEvent 3 (TxId 3) 13%N].
Definition browse_ex : replayer := replay "refs/heads/main" browse_log.
Theorem c123_number_refuted : exists r ks s n es s',
  browse r ks = Looking s /\ sc_events s = Some (n, es) /\
  browse r (ks ++ [KGoTo (isize_to_string n)]) = Looking s' /\ sc_cursor s' <> sc_cursor s /\
  info_line s' = info_line s /\ ~ boundary (events r) (sc_cursor s').
Proof.
  exists browse_ex, [KPrevious], (mk_screen 3 (Some (2, [CommitEvent 2 (TxId 2) 11%N; CommitEvent 2 (TxId 2) 12%N]))), 2,
    [CommitEvent 2 (TxId 2) 11%N; CommitEvent 2 (TxId 2) 12%N], (mk_screen 2 (Some (2, [CommitEvent 2 (TxId 2) 11%N]))).
  split_and!; try (vm_compute; reflexivity); [vm_compute; discriminate|].
  rewrite boundary_T by (vm_compute; split; discriminate). intros [H|[_ H]]; [discriminate H|]. apply H. vm_compute. reflexivity.
Qed.

(** From such a state the key for the next one skips the state after the rest of the
    transaction. *)
Theorem c123_next_refuted : exists r ks s s' b,
  browse r ks = Looking s /\ browse r (ks ++ [KNext]) = Looking s' /\
  next_boundary (events r) (sc_cursor s) b /\ b < sc_cursor s'.
Proof.
  exists browse_ex, [KGoTo "2"], (mk_screen 2 (Some (2, [CommitEvent 2 (TxId 2) 11%N]))), (mk_screen 4 (Some (4, [CommitEvent 3 (TxId 3) 13%N]))), 3.
  split_and!; try (vm_compute; reflexivity).
  split; [split; [reflexivity|vm_compute; discriminate]|]. split; [|intros x Hx; cbn in Hx; lia].
  apply boundary_T; [vm_compute; split; discriminate|]. right. split; vm_compute; [reflexivity|discriminate].
Qed.

(** Back twice, on once, a look at the help, and Enter. *)
Example c123_example :
  browse browse_ex [KPrevious; KPrevious; KNext; KHelp] =
    Looking (mk_screen 3 (Some (2, [CommitEvent 2 (TxId 2) 11%N; CommitEvent 2 (TxId 2) 12%N]))) /\
  browse browse_ex [KPrevious; KPrevious; KNext; KHelp; KEnter; KQuit] = Chose 3 /\
  browse browse_ex [KPrevious; KQuit; KEnter] = Gone /\
  info_line (mk_screen 3 (Some (2, [CommitEvent 2 (TxId 2) 11%N; CommitEvent 2 (TxId 2) 12%N]))) =
    "Repo after transaction 2 (event 2). Press 'h' for help, 'q' to quit."%string /\
  (exists b, before_last (events browse_ex) 3 b) /\ isize_ok (Z.of_nat (length (events browse_ex))).
Proof.
  split_and!; try (vm_compute; reflexivity); [|vm_compute; split; discriminate || reflexivity].
  assert (B : forall c, 0 <= c <= 4 -> c <> 2 -> boundary (events browse_ex) c).
  { intros c H N2. apply boundary_T; [cbn; lia|]. assert (Hc : c = 0 \/ c = 1 \/ c = 3 \/ c = 4) by lia.
    destruct Hc as [-> |[-> |[-> | ->]]]; first [left; vm_compute; reflexivity|right; (split; vm_compute; [reflexivity|discriminate])]. }
  assert (N : ~ boundary (events browse_ex) 2).
  { rewrite boundary_T by (vm_compute; split; discriminate). intros [H|[_ H]]; [discriminate H|]. apply H. vm_compute. reflexivity. }
  exists 0. exists 1. split; [exists 3; split; [exists 4; split; [reflexivity|]|]|].
  - split; [lia|]. split; [apply B; lia|intros; lia].
  - split; [lia|]. split; [apply B; lia|]. intros x Hx. now replace x with 2 by lia.
  - split; [lia|]. split; [apply B; lia|intros; lia].
Qed.

(** The example of C10: going back to the start restores the branches. *)
Example c123_restored_example :
  let w := mk_world (after_history undo_before undo_log_ex) undo_log_ex in
  let r := replay "refs/heads/main" undo_log_ex in
  exists s w' t,
    browse r [KPrevious; KPrevious; KPrevious] = Looking s /\ events_since_cursor r (sc_cursor s) = Some undo_log_ex /\
    true_history undo_before undo_log_ex /\
    undo_interactive "refs/heads/main" [KPrevious; KPrevious; KPrevious; KEnter] 9 (TxId 9) true w = Some (w', t) /\
    w_refs w' !! "refs/heads/topic"%string = None /\ w_refs w' !! "refs/heads/old"%string = Some 10%N.
Proof.
  eexists _, _, _. split_and!; [vm_compute; reflexivity|vm_compute; reflexivity| |vm_compute; reflexivity..].
  vm_compute. repeat split.
Qed.

Print Assumptions c123_shown.
Print Assumptions c123_chosen.
Print Assumptions c123_restored.
Print Assumptions c123_quit.
Print Assumptions c123_steps_partial.
Print Assumptions c123_back_and_on.
Print Assumptions c123_number_partial.
Print Assumptions c123_line.
Print Assumptions c123_number_refuted.
Print Assumptions c123_next_refuted.
