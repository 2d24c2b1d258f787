(** Repositories that a report does not tell apart. *)
From stdpp Require Import pretty sorting.
From Coq Require Import Ascii.
From Verif Require Import Base TextModel EventLogModel EventLogSpec EventLogProofs EventLogNavProofs EvolveModel EvolveSpec NavModel
  StrModel StrProofs ExecModel ReportModel ReportSpec ReportProofs.
Local Open Scope string_scope.
Local Open Scope list_scope.

Section like.
  Context (main : refname) (f : refname -> refname) (Rf : renaming main f).

  (** ** The log *)
  Record rlike (r r' : replayer) : Prop := {
    rl_counter : id_counter r' = id_counter r;
    rl_events : events r' = List.map (rename_event f) (events r);
    rl_history : commit_history r' = commit_history r;
    rl_locations : forall n, ref_locations r' !! f n = ref_locations r !! n }.

  Lemma ignored_same n : should_ignore_ref_updates (f n) = should_ignore_ref_updates n.
  Proof.
    destruct (is_private main n) eqn:P.
    - apply is_private_spec in P. pose proof (rn_private _ _ Rf n P) as Q. unfold should_ignore_ref_updates, is_gc_ref.
      assert (starts_with "refs/branchless/" (f n) = starts_with "refs/branchless/" n) as ->.
      { apply Bool.eq_iff_eq_true. rewrite !under_spec. symmetry. apply (rn_own _ _ Rf). }
      destruct (starts_with _ n); [reflexivity|].
      assert (K : forall m, private main m -> existsb (String.eqb m) ["ORIG_HEAD"; "CHERRY_PICK"; "REBASE_HEAD"; "CHERRY_PICK_HEAD"; "AUTO_MERGE"; "FETCH_HEAD"] = false).
      { intros m [_ S]. apply has_slash_spec in S. apply not_true_is_false. intros E. apply existsb_exists in E.
        destruct E as (x & I & E%String.eqb_eq). subst x. cbn in I.
        repeat (destruct I as [<-|I]; [discriminate S|]). exact I. }
      rewrite !K by assumption. reflexivity.
    - apply is_private_false in P. by rewrite (rn_public _ _ Rf n P).
  Qed.
  Lemma f_inj_dec n n' : f n = f n' <-> n = n'.
  Proof. split; [apply (rn_inj _ _ Rf)|congruence]. Qed.

  Lemma fix_old_like r r' e : rlike r r' -> fix_old_oid r' (rename_event f e) = rename_event f (fix_old_oid r e).
  Proof.
    intros L. destruct e as [| ts tx n old new msg| | | |]; try reflexivity. cbn [rename_event].
    destruct old, new; cbn [fix_old_oid rename_event]; try reflexivity. by rewrite (rl_locations _ _ L).
  Qed.
  Lemma last_map {A B} (h : A -> B) l : last (List.map h l) = h <$> last l.
  Proof. induction l as [|x l IH]; [reflexivity|]. cbn [List.map]. destruct l as [|y l]; [reflexivity|]. exact IH. Qed.
  Lemma fix_event_like r r' e : rlike r r' -> fix_event r' (rename_event f e) = rename_event f <$> fix_event r e.
  Proof.
    intros L. unfold fix_event. rewrite (fix_old_like r r' e L), (rl_events _ _ L), last_map.
    destruct (fix_old_oid r e) as [| ts tx n old new msg| | | |]; cbn [rename_event]; try reflexivity.
    destruct new; [|reflexivity].
    destruct (last (events r)) as [[| ts' tx' n' old' new' msg'| | | |]|]; cbn [fmap option_fmap option_map rename_event]; try reflexivity.
    destruct new'; [|reflexivity]. destruct (decide (f n = f n' /\ msg = msg')) as [[A B]|N], (decide (n = n' /\ msg = msg')) as [[A' B']|N']; try reflexivity.
    - destruct N'. split; [by apply (rn_inj _ _ Rf)|exact B].
    - destruct N. by subst.
  Qed.
  Lemma record_like r r' e : rlike r r' -> rlike (record_event r e) (record_event r' (rename_event f e)).
  Proof.
    intros L. pose proof (rl_counter _ _ L) as C. pose proof (rl_events _ _ L) as E. pose proof (rl_history _ _ L) as H. pose proof (rl_locations _ _ L) as O.
    split; cbn [record_event id_counter events commit_history ref_locations].
    - by rewrite C.
    - by rewrite E, map_app.
    - rewrite C, H. by destruct e.
    - intros n. destruct e as [| ts tx m old new msg| | | |]; cbn [rename_event]; try apply O. destruct new as [|o].
      + destruct (decide (m = n)) as [->|N]; [by rewrite !lookup_delete|]. rewrite !lookup_delete_ne; [apply O|exact N|].
        intros X. by apply N, (rn_inj _ _ Rf).
      + destruct (decide (m = n)) as [->|N]; [by rewrite !lookup_insert|]. rewrite !lookup_insert_ne; [apply O|exact N|].
        intros X. by apply N, (rn_inj _ _ Rf).
  Qed.
  Lemma process_like r r' e : rlike r r' -> rlike (process_event r e) (process_event r' (rename_event f e)).
  Proof.
    intros L. unfold process_event.
    assert ((match rename_event f e with RefUpdateEvent _ _ name _ _ _ => should_ignore_ref_updates name | _ => false end) =
            (match e with RefUpdateEvent _ _ name _ _ _ => should_ignore_ref_updates name | _ => false end)) as ->
      by (destruct e; try reflexivity; apply ignored_same).
    destruct (match e with RefUpdateEvent _ _ name _ _ _ => _ | _ => false end); [exact L|].
    rewrite (fix_event_like r r' e L). destruct (fix_event r e); cbn; [by apply record_like|exact L].
  Qed.
  Lemma replay_like log : rlike (replay main log) (replay main (List.map (rename_event f) log)).
  Proof.
    unfold replay. assert (G : forall r r', rlike r r' -> rlike (fold_left process_event log r) (fold_left process_event (List.map (rename_event f) log) r')).
    { induction log as [|e l IH]; intros r r' L; [exact L|]. cbn. apply IH. by apply process_like. }
    apply G. split; try reflexivity.
  Qed.

  (** ** Going through it *)
  Lemma rename_tx e : event_tx (rename_event f e) = event_tx e.
  Proof. by destruct e. Qed.
  Context (r r' : replayer) (L : rlike r r').
  Lemma like_length : length (events r') = length (events r).
  Proof. by rewrite (rl_events _ _ L), map_length. Qed.
  Lemma like_make c : make_cursor r' c = make_cursor r c.
  Proof. unfold make_cursor. by rewrite like_length. Qed.
  Lemma like_default : default_cursor r' = default_cursor r.
  Proof. unfold default_cursor. by rewrite like_make, like_length. Qed.
  Lemma like_advance_cursor c n : advance_cursor r' c n = advance_cursor r c n.
  Proof. apply like_make. Qed.
  Lemma like_tx c : tx_before_cursor r' c = tx_before_cursor r c.
  Proof.
    unfold tx_before_cursor, event_before_cursor. destruct (c =? 0)%Z; [reflexivity|]. unfold index. destruct (0 <=? c - 1)%Z; [|reflexivity].
    rewrite (rl_events _ _ L), nth_error_map. destruct (nth_error (events r) _); cbn; [by rewrite rename_tx|reflexivity].
  Qed.
  Lemma like_snap fuel : forall c, snap fuel r' c = snap fuel r c.
  Proof. induction fuel as [|n IH]; intros c; [reflexivity|]. cbn [snap]. by rewrite like_advance_cursor, !like_tx, IH. Qed.
  Lemma like_boundary c : snap_to_boundary r' c = snap_to_boundary r c.
  Proof. unfold snap_to_boundary, log_fuel. by rewrite like_length, like_snap. Qed.
  Lemma like_helper fuel : forall c n, advance_tx_helper fuel r' c n = advance_tx_helper fuel r c n.
  Proof.
    induction fuel as [|k IH]; intros c n; [reflexivity|]. cbn [advance_tx_helper]. rewrite !like_advance_cursor, !like_tx, like_boundary.
    destruct (n ?= 0)%Z; [reflexivity| |].
    all: destruct (c =? _)%Z; [reflexivity|]; destruct (tx_before_cursor r c); [|reflexivity]; destruct (tx_before_cursor r _); [apply IH|reflexivity].
  Qed.
  Lemma like_advance c n : advance_tx r' c n = advance_tx r c n.
  Proof.
    unfold advance_tx, log_fuel. rewrite like_length, like_boundary. pose proof like_length as E.
    destruct (events r), (events r'); try discriminate E; [reflexivity|]. destruct (snap_to_boundary r c); [apply like_helper|reflexivity].
  Qed.
  Lemma like_slice a b : slice (events r') a b = List.map (rename_event f) <$> slice (events r) a b.
  Proof.
    unfold slice. rewrite like_length. destruct (_ && _ && _)%bool; [|reflexivity]. cbn. by rewrite (rl_events _ _ L), skipn_map, firstn_map.
  Qed.
  Lemma like_tx_events c : tx_events_before_cursor r' c =
    option_map (option_map (fun p : Z * list event => (p.1, List.map (rename_event f) p.2))) (tx_events_before_cursor r c).
  Proof.
    unfold tx_events_before_cursor. rewrite like_advance. destruct (advance_tx r c (-1)) as [p|]; [|reflexivity]. rewrite like_slice.
    destruct (slice (events r) p c) as [[|e es]|]; reflexivity.
  Qed.
  Lemma like_latest c o : latest_event r' c o = latest_event r c o.
  Proof. unfold latest_event, cursor_history. by rewrite (rl_history _ _ L). Qed.
  Lemma like_target c o : find_rewrite_target r' c o = find_rewrite_target r c o.
  Proof.
    unfold find_rewrite_target. rewrite like_length. generalize (S (length (events r))). intros n. revert o.
    induction n as [|n IH]; intros o; [reflexivity|]. cbn [find_rewrite_target_fuel]. rewrite like_latest.
    destruct (latest_event r c o) as [[ts tx [|old] new| | | | |]|]; try reflexivity. destruct (_ && _)%bool; [|reflexivity].
    destruct new; [reflexivity|]. by rewrite IH.
  Qed.
  Lemma like_why c o : describe_why r' c o = describe_why r c o.
  Proof. unfold describe_why. by rewrite like_latest, like_target. Qed.

  (** ** The table *)
  Notation K := (Enabled {[main]}).
  Record tlike (t t' : redactions) : Prop := {
    tl_lookup : forall n, t' !! (f n : string) = t !! (n : string);
    tl_size : size t' = size t }.
  Definition harmless (m : refname) : Prop := ~ private main m \/ like_stand_in m.
  Lemma redact_ref_like t t' n m t1 : tlike t t' -> table_ok main t -> redact_ref K t n = (m, t1) ->
    exists t1', redact_ref K t' (f n) = (m, t1') /\ tlike t1 t1' /\ table_ok main t1 /\ harmless m.
  Proof.
    intros TL O E. pose proof (proj1 (redact_ref_spec _ _ _ _ _ E O)) as O1. revert E. rewrite !redact_ref_enabled.
    destruct (is_private main n) eqn:P.
    - pose proof (proj1 (is_private_spec main n) P) as Q. rewrite (proj2 (is_private_spec main (f n)) (rn_private _ _ Rf n Q)).
      rewrite (tl_lookup _ _ TL n), (tl_size _ _ TL).
      assert (Pr : ref_prefix (f n) = ref_prefix n) by (apply ref_prefix_spec, (rn_kind _ _ Rf), ref_prefix_spec; reflexivity). rewrite Pr.
      destruct (t !! n) as [m0|] eqn:Lk; cbv zeta; intros [= <- <-].
      + exists t'. split; [reflexivity|]. split; [exact TL|]. split; [exact O|]. right. destruct (to_in _ _ O n m0 Lk) as (_ & k & _ & S). by exists n, k.
      + eexists. split; [reflexivity|]. split; [|split; [exact O1|right; exists n, (N.of_nat (size t)), (ref_prefix n); split; [by apply ref_prefix_spec|reflexivity]]].
        split.
        * intros x. destruct (decide (n = x)) as [->|N]; [by rewrite !lookup_insert|]. rewrite !lookup_insert_ne; [apply TL|exact N|].
          intros X. by apply N, (rn_inj _ _ Rf).
        * rewrite !map_size_insert_None; [by rewrite (tl_size _ _ TL)|exact Lk|]. rewrite (tl_lookup _ _ TL n). exact Lk.
    - apply is_private_false in P. rewrite (rn_public _ _ Rf n P). rewrite (proj2 (is_private_false main n) P). intros [= <- <-].
      exists t'. split; [reflexivity|]. split; [exact TL|]. split; [exact O|]. by left.
  Qed.
  Lemma redact_refs_like l : forall t t' ms t1, tlike t t' -> table_ok main t -> redact_refs K t l = (ms, t1) ->
    exists t1', redact_refs K t' (List.map f l) = (ms, t1') /\ tlike t1 t1' /\ table_ok main t1 /\ Forall harmless ms.
  Proof.
    induction l as [|n l IH]; intros t t' ms t1 TL O; cbn [redact_refs List.map].
    - intros [= <- <-]. exists t'. auto.
    - destruct (redact_ref K t n) as [m t2] eqn:E. destruct (redact_refs K t2 l) as [ms2 t3] eqn:E2. intros [= <- <-].
      destruct (redact_ref_like _ _ _ _ _ TL O E) as (t2' & -> & TL2 & O2 & H).
      destruct (IH _ _ _ _ TL2 O2 E2) as (t3' & -> & TL3 & O3 & H3). exists t3'. auto.
  Qed.
  Lemma redact_event_like e t t' e1 t1 : tlike t t' -> table_ok main t -> redact_event K t e = (e1, t1) ->
    exists t1', redact_event K t' (rename_event f e) = (e1, t1') /\ tlike t1 t1' /\ table_ok main t1.
  Proof.
    intros TL O. destruct e as [| ts tx n old new msg| | | |ts tx h o [n|]]; cbn [redact_event rename_event fmap option_fmap option_map].
    1, 3, 4, 5, 7: intros [= <- <-]; exists t'; auto.
    all: destruct (redact_ref K t n) as [m t2] eqn:E; intros [= <- <-]; destruct (redact_ref_like _ _ _ _ _ TL O E) as (t2' & -> & TL2 & O2 & _); exists t2'; auto.
  Qed.
  Lemma redact_events_like l : forall t t' es t1, tlike t t' -> table_ok main t -> redact_events K t l = (es, t1) ->
    exists t1', redact_events K t' (List.map (rename_event f) l) = (es, t1') /\ tlike t1 t1' /\ table_ok main t1.
  Proof.
    induction l as [|n l IH]; intros t t' ms t1 TL O; cbn [redact_events List.map].
    - intros [= <- <-]. exists t'. auto.
    - destruct (redact_event K t n) as [m t2] eqn:E. destruct (redact_events K t2 l) as [ms2 t3] eqn:E2. intros [= <- <-].
      destruct (redact_event_like _ _ _ _ _ TL O E) as (t2' & -> & TL2 & O2).
      destruct (IH _ _ _ _ TL2 O2 E2) as (t3' & -> & TL3 & O3). exists t3'. auto.
  Qed.

  (** ** The descriptions *)
  Context (e e' : node_env) (Se : same_setting f e e').
  Context (Hh : forall h, ne_head e = Some h -> private main h -> ~ like_stand_in h /\ ~ like_stand_in (f h)).
  Lemma branch_text_like m : harmless m -> branch_text e' m = branch_text e m.
  Proof.
    intros Hm. unfold branch_text. rewrite (ss_arrow _ _ _ Se), (ss_head _ _ _ Se).
    assert (X : f <$> ne_head e = Some m <-> ne_head e = Some m).
    { destruct (ne_head e) as [h|] eqn:Eh; [|done]. cbn. destruct (is_private main h) eqn:P.
      - apply is_private_spec in P. destruct (Hh h eq_refl P) as [A B]. pose proof (rn_private _ _ Rf h P) as P'.
        split; intros [= <-]; exfalso; destruct Hm; tauto.
      - apply is_private_false in P. by rewrite (rn_public _ _ Rf h P). }
    destruct (decide (f <$> ne_head e = Some m)), (decide (ne_head e = Some m)); tauto || reflexivity.
  Qed.
  Lemma branches_like t t' o s t1 : tlike t t' -> table_ok main t -> describe_branches e K t o = (s, t1) ->
    exists t1', describe_branches e' K t' o = (s, t1') /\ tlike t1 t1' /\ table_ok main t1.
  Proof.
    intros TL O. unfold describe_branches. rewrite (ss_names _ _ _ Se). destruct (ne_names e); [|intros [= <- <-]; exists t'; auto].
    rewrite (ss_branches _ _ _ Se). destruct (redact_refs K t (ne_branches e o)) as [ns t2] eqn:E.
    destruct (redact_refs_like _ _ _ _ _ TL O E) as (t2' & -> & TL2 & O2 & H).
    assert (X : List.map (branch_text e') (remove_dups ns) = List.map (branch_text e) (remove_dups ns)).
    { apply map_ext_in. intros m I. apply elem_of_list_In in I. rewrite elem_of_remove_dups in I. apply branch_text_like. exact (proj1 (list.Forall_forall _ _) H m I). }
    rewrite X. destruct ns; intros [= <- <-]; exists t2'; auto.
  Qed.
  Lemma summary_like s s' : same_shape s s' -> redact_summary K s' = redact_summary K s.
  Proof.
    cbn [redact_summary]. induction 1 as [|c c' s s' H _ IH]; [reflexivity|]. cbn [List.map]. rewrite IH. f_equal.
    destruct H as [->|[A B]]; [reflexivity|]. rewrite <- ascii_space_spec in A, B. apply not_true_is_false in A, B. by rewrite A, B.
  Qed.
  Lemma describe_like t t' c x x' d t1 : tlike t t' -> table_ok main t -> same_commit x x' -> describe e r c K t x = Some (d, t1) ->
    exists t1', describe e' r' c K t' x' = Some (d, t1') /\ tlike t1 t1' /\ table_ok main t1.
  Proof.
    intros TL O SC. unfold describe.
    assert (A : node_oid x' = node_oid x) by (by destruct SC). assert (B : short_oid x' = short_oid x) by (by destruct SC).
    assert (C : describe_age e' x' = describe_age e x) by (unfold describe_age; rewrite (ss_times _ _ _ Se), (ss_now _ _ _ Se); by destruct SC).
    assert (D : describe_summary K x' = describe_summary K x) by (unfold describe_summary; destruct SC; [by apply summary_like|reflexivity]).
    rewrite A, B, C, D, like_why. destruct (describe_why r c (node_oid x)) as [w|]; [|discriminate].
    destruct (describe_branches e K t (node_oid x)) as [bs t2] eqn:E. destruct (branches_like _ _ _ _ _ TL O E) as (t2' & -> & TL2 & O2).
    cbn [describe_revision]. intros [= <- <-]. exists t2'. auto.
  Qed.
  Lemma describe_all_like c l l' : Forall2 same_commit l l' -> forall t t' ds t1, tlike t t' -> table_ok main t ->
    describe_all e r c K t l = Some (ds, t1) -> exists t1', describe_all e' r' c K t' l' = Some (ds, t1') /\ tlike t1 t1' /\ table_ok main t1.
  Proof.
    induction 1 as [|x x' l l' H _ IH]; intros t t' ds t1 TL O; cbn [describe_all].
    - intros [= <- <-]. exists t'. auto.
    - destruct (describe e r c K t x) as [[d t2]|] eqn:E; [|discriminate]. destruct (describe_like _ _ _ _ _ _ _ TL O H E) as (t2' & -> & TL2 & O2).
      destruct (describe_all e r c K t2 l) as [[ds2 t3]|] eqn:E2; [|discriminate]. intros [= <- <-].
      destruct (IH _ _ _ _ TL2 O2 E2) as (t3' & -> & TL3 & O3). exists t3'. auto.
  Qed.

  (** ** The report *)
  Context (d d' : db) (Hd : tx_table d' = tx_table d) (nodes nodes' : cursor -> list node) (Hn : forall c, Forall2 same_commit (nodes c) (nodes' c)).
  Lemma message_like tx : get_transaction_message d' tx = get_transaction_message d tx.
  Proof. unfold get_transaction_message. by rewrite Hd. Qed.
  Lemma describe_cursor_like c t t' en t1 : tlike t t' -> table_ok main t -> describe_cursor e d r nodes K t c = Some (en, t1) ->
    exists t1', describe_cursor e' d' r' nodes' K t' c = Some (en, t1') /\ tlike t1 t1' /\ table_ok main t1.
  Proof.
    intros TL O. unfold describe_cursor. rewrite like_tx_events. destruct (tx_events_before_cursor r c) as [[[id es]|]|]; [| |discriminate].
    - cbn [option_map fst snd]. destruct es as [|e0 es]; [discriminate|].
      cbn [List.map].
      destruct (redact_events K t (e0 :: es)) as [es1 t2] eqn:E. destruct (redact_events_like _ _ _ _ _ TL O E) as (t2' & E' & TL2 & O2).
      cbn [List.map] in E'. rewrite E', rename_tx, message_like.
      destruct (describe_all e r c K t2 (nodes c)) as [[ds t3]|] eqn:E2; [|discriminate]. intros [= <- <-].
      destruct (describe_all_like _ _ _ (Hn c) _ _ _ _ TL2 O2 E2) as (t3' & -> & TL3 & O3). exists t3'. auto.
    - cbn [option_map]. destruct (describe_all e r c K t (nodes c)) as [[ds t3]|] eqn:E2; [|discriminate]. intros [= <- <-].
      destruct (describe_all_like _ _ _ (Hn c) _ _ _ _ TL O E2) as (t3' & -> & TL3 & O3). exists t3'. auto.
  Qed.
  Lemma describe_cursors_like l : forall t t' ens, tlike t t' -> table_ok main t -> describe_cursors e d r nodes K t l = Some ens ->
    describe_cursors e' d' r' nodes' K t' l = Some ens.
  Proof.
    induction l as [|i l IH]; intros t t' ens TL O; cbn [describe_cursors]; [done|]. rewrite like_default, like_advance.
    destruct (advance_tx r (default_cursor r) (- i)) as [c|]; [|discriminate].
    destruct (describe_cursor e d r nodes K t c) as [[en t2]|] eqn:E; [|discriminate]. destruct (describe_cursor_like _ _ _ _ _ TL O E) as (t2' & -> & TL2 & O2).
    destruct (describe_cursors e d r nodes K t2 l) as [ens2|] eqn:E2; [|discriminate]. intros [= <-]. by rewrite (IH _ _ _ TL2 O2 E2).
  Qed.
End like.

(** Exchanging two private names of one kind is a renaming. *)
Definition exchange (a b n : refname) : refname := if String.eqb n a then b else if String.eqb n b then a else n.
Lemma prefix_unique n p p' : prefix_of n p -> prefix_of n p' -> p = p'.
Proof. rewrite <- !ref_prefix_spec. congruence. Qed.
Lemma exchange_renaming main a b p : private main a -> private main b -> prefix_of a p -> prefix_of b p ->
  (under "refs/branchless/" a <-> under "refs/branchless/" b) -> renaming main (exchange a b).
Proof.
  intros A B PA PB O.
  assert (C : forall n, (n = a /\ exchange a b n = b) \/ (n = b /\ exchange a b n = a) \/ (n <> a /\ n <> b /\ exchange a b n = n)).
  { intros n. unfold exchange. destruct (String.eqb_spec n a); [left; auto|]. destruct (String.eqb_spec n b); [right; left; auto|]. right; right; auto. }
  split.
  - intros n n'. pose proof (C n). pose proof (C n'). intuition congruence.
  - intros n N. destruct (C n) as [[-> _]|[[-> _]|(_ & _ & ->)]]; [contradiction..|reflexivity].
  - intros n N. destruct (C n) as [[_ ->]|[[_ ->]|(_ & _ & ->)]]; assumption.
  - intros n q N. destruct (C n) as [[-> ->]|[[-> ->]|(_ & _ & ->)]]; [| |exact N].
    + by rewrite (prefix_unique _ _ _ N PA).
    + by rewrite (prefix_unique _ _ _ N PB).
  - intros n. destruct (C n) as [[-> ->]|[[-> ->]|(_ & _ & ->)]]; tauto.
Qed.
