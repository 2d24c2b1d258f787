(** Proofs about the event log: storage, transaction ids, replay, visibility. *)
From Verif Require Import Base TextModel TextProofs EventLogModel EventLogSpec.
From Coq Require Import ZifyBool ZifyNat.
Local Open Scope Z_scope.

(** ** Storage *)

Lemma row_round_trip e r :
  event_ok e -> row_of_event e = Some r -> event_of_row r = Some e.
Proof.
  intros Hok Hr.
  destruct e as [ts [i|] a b|ts [i|] n a b m|ts [i|] o|ts [i|] o|ts [i|] o|ts [i|] h o n];
    cbn in Hr; try discriminate; injection Hr as <-; cbn in Hok; unfold event_of_row; cbn.
  - destruct Hok. rewrite !moid_text_round_trip by assumption. reflexivity.
  - destruct Hok. rewrite !moid_text_round_trip by assumption. reflexivity.
  - unfold get_nonzero_oid, get_oid.
    pose proof (moid_text_round_trip (NonZero o) Hok) as E. cbn in E. rewrite E. reflexivity.
  - unfold get_nonzero_oid, get_oid.
    pose proof (moid_text_round_trip (NonZero o) Hok) as E. cbn in E. rewrite E. reflexivity.
  - unfold get_nonzero_oid, get_oid.
    pose proof (moid_text_round_trip (NonZero o) Hok) as E. cbn in E. rewrite E. reflexivity.
  - destruct Hok as [Hh Ho]. unfold get_nonzero_oid, get_oid.
    pose proof (moid_text_round_trip (NonZero o) Ho) as E. cbn in E. rewrite E.
    rewrite moid_text_round_trip by assumption. reflexivity.
Qed.

Lemma row_of_event_storable e : (exists r, row_of_event e = Some r) <-> storable e.
Proof.
  unfold storable. split.
  - intros [r Hr] E. destruct e; cbn in *; subst; discriminate.
  - intros H. destruct e as [? [|]|? [|]|? [|]|? [|]|? [|]|? [|]]; cbn in *;
      try congruence; eauto.
Qed.

Lemma events_of_rows_app a b ea eb :
  events_of_rows a = Some ea -> events_of_rows b = Some eb ->
  events_of_rows (a ++ b) = Some (ea ++ eb).
Proof.
  revert ea. induction a as [|r a IH]; intros ea Ha Hb; cbn in *.
  - injection Ha as <-. exact Hb.
  - destruct (event_of_row r) as [e|]; [|discriminate].
    destruct (events_of_rows a) as [es|]; [|discriminate].
    injection Ha as <-. rewrite (IH es eq_refl Hb). reflexivity.
Qed.

Lemma insert_rows_spec fails es : forall k rows rows' stored,
  (forall e, e ∈ es -> event_ok e) ->
  events_of_rows rows = Some stored ->
  insert_rows fails k rows es = Some rows' ->
  events_of_rows rows' = Some (stored ++ filter storable es).
Proof.
  induction es as [|e es IH]; intros k rows rows' stored Hok Hrows H; cbn in H.
  - injection H as <-. rewrite app_nil_r. exact Hrows.
  - destruct (row_of_event e) as [r|] eqn:Er.
    + destruct (fails k); [discriminate|].
      rewrite filter_cons_True by (apply row_of_event_storable; eauto).
      replace (stored ++ e :: filter storable es)
        with ((stored ++ [e]) ++ filter storable es) by (rewrite <- app_assoc; reflexivity).
      eapply (IH _ _ _ (stored ++ [e])); [| |exact H].
      * intros e' He'. apply Hok. now constructor.
      * apply events_of_rows_app; [exact Hrows|]. cbn.
        rewrite (row_round_trip e r); [reflexivity| |exact Er]. apply Hok. constructor.
    + rewrite filter_cons_False.
      * eapply IH; [|exact Hrows|exact H]. intros e' He'. apply Hok. now constructor.
      * intros Hs. apply row_of_event_storable in Hs. destruct Hs as [r Hr]. congruence.
Qed.

Lemma insert_rows_no_fault es : forall k rows,
  exists rows', insert_rows (fun _ => false) k rows es = Some rows'.
Proof.
  induction es as [|e es IH]; intros k rows; cbn; [eauto|].
  destruct (row_of_event e); apply IH.
Qed.

Lemma add_events_no_fault d es :
  snd (add_events (fun _ => false) false d es) = true.
Proof.
  unfold add_events. destruct (insert_rows_no_fault es 0 (db_rows d)) as [rows ->]. reflexivity.
Qed.

Lemma add_events_seq f c d es d' ok :
  add_events f c d es = (d', ok) -> tx_seq d' = tx_seq d /\ tx_table d' = tx_table d.
Proof.
  unfold add_events. destruct (insert_rows f 0 (db_rows d) es) as [rows|].
  - destruct c; intros E; injection E as <- <-; split; reflexivity.
  - intros E; injection E as <- <-; split; reflexivity.
Qed.

Lemma add_events_failed f c d es d' : add_events f c d es = (d', false) -> d' = d.
Proof.
  unfold add_events. destruct (insert_rows f 0 (db_rows d) es) as [rows|].
  - destruct c; intros E; congruence.
  - intros E; congruence.
Qed.

Lemma make_tx_toplevel env m d :
  match env with None => True | Some s => txid_from_string s = None end ->
  make_transaction_id env m d =
  (TxId (tx_seq d + 1),
   mk_db (db_rows d) (tx_seq d + 1) (tx_table d ++ [(tx_seq d + 1, m)])).
Proof.
  intros H. unfold make_transaction_id. destruct env as [s|]; [rewrite H|]; reflexivity.
Qed.

(** Everything we know about a database in use. *)
Definition usage_inv (d : db) (ids : list txid) (stored : list event) : Prop :=
  get_events d = Some stored /\
  0 <= tx_seq d < 2 ^ 63 /\
  (forall t, t ∈ ids -> exists i, t = TxId i /\ 0 < i <= tx_seq d) /\
  (forall e, e ∈ stored -> event_tx e ∈ ids) /\
  (forall p, p ∈ tx_table d -> 0 < fst p <= tx_seq d).

Lemma usage_invariant d ids stored : usage d ids stored -> usage_inv d ids stored.
Proof.
  induction 1 as [|d ids stored env m t d' _ IH Henv Hseq Hmk
                  |d ids stored t m t' d' _ IH Ht Hmk
                  |d ids stored f c es d' ok _ IH Hok Hids Hadd].
  - split_and!; try (intros ? Hin; now apply elem_of_nil in Hin); try reflexivity; cbn; lia.
  - destruct IH as (Hget & Hs & Hin & Hev & Htab).
    rewrite make_tx_toplevel in Hmk by assumption. injection Hmk as <- <-.
    split_and!; cbn; try lia.
    + exact Hget.
    + intros t. rewrite elem_of_app, elem_of_list_singleton. intros [H| ->].
      * destruct (Hin t H) as (i & -> & ?). exists i. split; [reflexivity|lia].
      * eexists. split; [reflexivity|lia].
    + intros e He. apply elem_of_app. left. auto.
    + intros p. rewrite elem_of_app, elem_of_list_singleton. intros [H| ->]; [|cbn; lia].
      specialize (Htab p H). lia.
  - destruct IH as (Hget & Hs & Hin & Hev & Htab).
    destruct (Hin t Ht) as (i & -> & Hi).
    unfold make_transaction_id in Hmk.
    rewrite txid_text_round_trip in Hmk by (unfold isize_ok; lia).
    injection Hmk as <- <-.
    split_and!; try assumption; try lia.
    + intros t. rewrite elem_of_app, elem_of_list_singleton. intros [H| ->]; [auto|]. eauto.
    + intros e He. apply elem_of_app. left. auto.
  - destruct IH as (Hget & Hs & Hin & Hev & Htab).
    destruct (add_events_seq _ _ _ _ _ _ Hadd) as [E1 E2].
    assert (G : get_events d' = Some (if ok then stored ++ filter storable es else stored)).
    { destruct ok.
      - unfold add_events in Hadd.
        destruct (insert_rows f 0 (db_rows d) es) as [rows|] eqn:Er; [|congruence].
        destruct c; [congruence|]. injection Hadd as <-. cbn.
        eapply insert_rows_spec; eauto.
      - apply add_events_failed in Hadd. subst. exact Hget. }
    split; [exact G|]. rewrite E1, E2. split_and!; try assumption; try lia.
    intros e He. destruct ok; [|auto].
    apply elem_of_app in He. destruct He as [He|He]; [auto|].
    apply elem_of_list_filter in He. destruct He. auto.
Qed.

Lemma toplevel_id_fresh d ids stored env m t d' :
  usage d ids stored ->
  match env with None => True | Some s => txid_from_string s = None end ->
  make_transaction_id env m d = (t, d') ->
  t ∉ ids /\ forall e, e ∈ stored -> event_tx e <> t.
Proof.
  intros Hu Henv Hmk. apply usage_invariant in Hu.
  destruct Hu as (_ & Hs & Hin & Hev & _).
  rewrite make_tx_toplevel in Hmk by assumption. injection Hmk as <- <-.
  assert (F : TxId (tx_seq d + 1) ∉ ids).
  { intros H. destruct (Hin _ H) as (i & E & ?). injection E as E. lia. }
  split; [exact F|]. intros e He E. apply F. rewrite <- E. auto.
Qed.

Lemma nested_id_inherited d ids stored t m t' d' :
  usage d ids stored -> t ∈ ids ->
  make_transaction_id (Some (txid_to_string t)) m d = (t', d') ->
  t' = t /\ d' = d.
Proof.
  intros Hu Ht Hmk. apply usage_invariant in Hu. destruct Hu as (_ & Hs & Hin & _ & _).
  destruct (Hin t Ht) as (i & -> & Hi). unfold make_transaction_id in Hmk.
  rewrite txid_text_round_trip in Hmk by (unfold isize_ok; lia).
  injection Hmk as <- <-. split; reflexivity.
Qed.

(** A suppressed parent transaction is inherited too, and stores nothing. *)
Lemma suppressed_inherited m d t d' :
  make_transaction_id (Some (txid_to_string TxSuppressed)) m d = (t, d') ->
  t = TxSuppressed /\ d' = d.
Proof. cbn. intros E. injection E as <- <-. split; reflexivity. Qed.

Lemma find_app_first {A} (f : A -> bool) l x :
  (forall y, y ∈ l -> f y = false) -> f x = true -> List.find f (l ++ [x]) = Some x.
Proof.
  intros H Hx. induction l as [|y l IH]; cbn; [rewrite Hx; reflexivity|].
  rewrite H by constructor. apply IH. intros z Hz. apply H. now constructor.
Qed.

Lemma find_app_keep {A} (f : A -> bool) l l' x :
  List.find f l = Some x -> List.find f (l ++ l') = Some x.
Proof.
  induction l as [|y l IH]; cbn; [discriminate|]. destruct (f y); auto.
Qed.

(** The description given to a top-level transaction can be read back, then and
    at any later time. *)
Lemma toplevel_message d ids stored env m t d' :
  usage d ids stored ->
  match env with None => True | Some s => txid_from_string s = None end ->
  make_transaction_id env m d = (t, d') ->
  get_transaction_message d' t = Some m.
Proof.
  intros Hu Henv Hmk. apply usage_invariant in Hu. destruct Hu as (_ & Hs & _ & _ & Htab).
  rewrite make_tx_toplevel in Hmk by assumption. injection Hmk as <- <-. cbn.
  rewrite find_app_first; [reflexivity| |cbn; lia].
  intros y Hy. specialize (Htab y Hy). lia.
Qed.

Lemma message_kept_by_tx d t m env m' t' d' :
  get_transaction_message d t = Some m ->
  make_transaction_id env m' d = (t', d') ->
  get_transaction_message d' t = Some m.
Proof.
  intros H Hmk. destruct t as [i|]; [|discriminate]. unfold get_transaction_message in *.
  destruct (List.find _ (tx_table d)) as [[j mj]|] eqn:E; [|discriminate].
  unfold make_transaction_id in Hmk.
  destruct env as [s|]; [destruct (txid_from_string s)|]; injection Hmk as <- <-; cbn;
    try (rewrite E; exact H); rewrite (find_app_keep _ _ _ _ E); exact H.
Qed.

Lemma message_kept_by_add d t m f c es d' ok :
  get_transaction_message d t = Some m ->
  add_events f c d es = (d', ok) ->
  get_transaction_message d' t = Some m.
Proof.
  intros H Hadd. destruct (add_events_seq _ _ _ _ _ _ Hadd) as [_ E].
  destruct t as [i|]; [|discriminate]. unfold get_transaction_message in *. rewrite E. exact H.
Qed.

(** ** Replay: history of each commit *)

(** What one event contributes to the history of [o]. *)
Definition infos_of (id : Z) (e : event) (o : oid) : list event_info :=
  match e with
  | RewriteEvent _ _ old new =>
      (if decide (old = NonZero o) then [mk_info id e Hide] else []) ++
      (if decide (new = NonZero o) then [mk_info id e Show] else [])
  | CommitEvent _ _ o' | UnobsoleteEvent _ _ o' =>
      if decide (o' = o) then [mk_info id e Show] else []
  | ObsoleteEvent _ _ o' => if decide (o' = o) then [mk_info id e Hide] else []
  | _ => []
  end.

Fixpoint hist (id : Z) (es : list event) (o : oid) : list event_info :=
  match es with
  | [] => []
  | e :: es' => infos_of id e o ++ hist (id + 1) es' o
  end.

Lemma hist_app id a b o :
  hist id (a ++ b) o = hist id a o ++ hist (id + Z.of_nat (length a)) b o.
Proof.
  revert id. induction a as [|e a IH]; intros id; cbn [hist app length].
  - f_equal. lia.
  - rewrite IH, <- app_assoc. do 2 f_equal. f_equal. lia.
Qed.

Lemma infos_of_id id e o i : i ∈ infos_of id e o -> info_id i = id.
Proof.
  destruct e; cbn; repeat case_decide; cbn;
    rewrite ?elem_of_cons, ?elem_of_nil; intros Hin;
    repeat match goal with H : _ \/ _ |- _ => destruct H end; subst; try done.
Qed.

Lemma infos_of_event id e o i : i ∈ infos_of id e o -> info_event i = e.
Proof.
  destruct e; cbn; repeat case_decide; cbn;
    rewrite ?elem_of_cons, ?elem_of_nil; intros Hin;
    repeat match goal with H : _ \/ _ |- _ => destruct H end; subst; try done.
Qed.

Lemma hist_ids id es o i :
  i ∈ hist id es o -> id <= info_id i < id + Z.of_nat (length es).
Proof.
  revert id. induction es as [|e es IH]; intros id; cbn [hist length].
  - intros H. now apply elem_of_nil in H.
  - rewrite elem_of_app. intros [H|H].
    + apply infos_of_id in H. lia.
    + apply IH in H. lia.
Qed.

Definition push_all (h : gmap oid (list event_info)) (o : oid) (l : list event_info) :=
  default [] (h !! o) ++ l.

Lemma push_history_default h o i o' :
  default [] (push_history h o i !! o') =
  default [] (h !! o') ++ (if decide (o = o') then [i] else []).
Proof.
  unfold push_history. case_decide as E.
  - subst. rewrite lookup_insert. reflexivity.
  - rewrite lookup_insert_ne by done. rewrite app_nil_r. reflexivity.
Qed.

(** Invariant of the replayer. *)
Definition replay_inv (r : replayer) : Prop :=
  id_counter r = Z.of_nat (length (events r)) /\
  forall o, default [] (commit_history r !! o) = hist 0 (events r) o.

Lemma record_event_inv r e : replay_inv r -> replay_inv (record_event r e).
Proof.
  intros [Hid Hh]. split; [cbn; rewrite app_length; cbn; lia|].
  intros o. cbn [record_event commit_history events].
  rewrite hist_app. cbn [hist]. rewrite app_nil_r. rewrite Z.add_0_l, <- Hid, <- Hh.
  destruct e as [ts tx old new|ts tx n old new m|ts tx o'|ts tx o'|ts tx o'|ts tx h o' n]; cbn.
  - assert (D : forall (a : oid), (if decide (NonZero a = NonZero o) then 1 else 0) =
                 (if decide (a = o) then 1 else 0)).
    { intros a. repeat case_decide; congruence. }
    destruct old as [|a], new as [|b]; rewrite ?push_history_default;
      repeat case_decide; try congruence; cbn; rewrite ?app_nil_r, <- ?app_assoc; reflexivity.
  - rewrite app_nil_r. reflexivity.
  - apply push_history_default.
  - apply push_history_default.
  - apply push_history_default.
  - rewrite app_nil_r. reflexivity.
Qed.

Lemma process_event_cases r e :
  process_event r e = r \/ exists e', fix_event r e = Some e' /\ process_event r e = record_event r e'.
Proof.
  unfold process_event.
  destruct (match e with RefUpdateEvent _ _ name _ _ _ => should_ignore_ref_updates name | _ => false end);
    [auto|]. destruct (fix_event r e) as [e'|]; eauto.
Qed.

Lemma process_event_inv r e : replay_inv r -> replay_inv (process_event r e).
Proof.
  intros H. destruct (process_event_cases r e) as [->|(e' & _ & ->)]; [exact H|].
  apply record_event_inv. exact H.
Qed.

Lemma fold_process_inv log r : replay_inv r -> replay_inv (fold_left process_event log r).
Proof.
  revert r. induction log as [|e log IH]; intros r H; cbn; [exact H|].
  apply IH, process_event_inv, H.
Qed.

Lemma new_replayer_inv main : replay_inv (new_replayer main).
Proof. split; [reflexivity|]. intros o. cbn. rewrite lookup_empty. reflexivity. Qed.

Lemma replay_invariant main log : replay_inv (replay main log).
Proof. apply fold_process_inv, new_replayer_inv. Qed.

Lemma filter_all_true {A} (f : A -> bool) l : (forall x, x ∈ l -> f x = true) -> List.filter f l = l.
Proof.
  induction l as [|x l IH]; intros H; cbn; [reflexivity|].
  rewrite H by constructor. f_equal. apply IH. intros y Hy. apply H. now constructor.
Qed.
Lemma filter_all_false {A} (f : A -> bool) l : (forall x, x ∈ l -> f x = false) -> List.filter f l = [].
Proof.
  induction l as [|x l IH]; intros H; cbn; [reflexivity|].
  rewrite H by constructor. apply IH. intros y Hy. apply H. now constructor.
Qed.

Lemma cursor_history_spec r c o :
  replay_inv r -> valid_cursor r c ->
  cursor_history r c o = hist 0 (upto (events r) c) o.
Proof.
  intros [Hid Hh] [Hc1 Hc2]. specialize (Hh o).
  unfold cursor_history.
  replace (match commit_history r !! o with None => [] | Some h => List.filter (fun i => info_id i <? c) h end)
    with (List.filter (fun i => info_id i <? c) (default [] (commit_history r !! o)))
    by (destruct (commit_history r !! o); reflexivity).
  rewrite Hh. unfold upto.
  rewrite <- (take_drop (Z.to_nat c) (events r)) at 1.
  rewrite hist_app, List.filter_app.
  rewrite filter_all_true, filter_all_false; [apply app_nil_r| |].
  - intros i Hi. apply hist_ids in Hi. rewrite take_length in Hi. lia.
  - intros i Hi. apply hist_ids in Hi. rewrite take_length in Hi. lia.
Qed.

(** Whether an event contributes anything. *)
Lemma infos_of_none id e o : infos_of id e o = [] <-> ~ concerns e o.
Proof.
  unfold concerns. destruct e; cbn; repeat case_decide; subst; cbn;
    split; intros Hx; try done; try (exfalso; tauto); try tauto.
Qed.

Lemma infos_of_last_show id e o :
  shows e o -> last (infos_of id e o) = Some (mk_info id e Show).
Proof.
  destruct e; cbn; intros Hs; try done; subst; repeat case_decide; try done; reflexivity.
Qed.

Lemma infos_of_last_hide id e o :
  hides e o -> ~ shows e o -> last (infos_of id e o) = Some (mk_info id e Hide).
Proof.
  destruct e; cbn; intros Hh Hn; try done; subst; repeat case_decide; try done; reflexivity.
Qed.

Lemma last_app_ne {A} (l1 l2 : list A) : l2 <> [] -> last (l1 ++ l2) = last l2.
Proof.
  intros H. destruct l2 as [|x l2 _] using rev_ind; [done|].
  rewrite app_assoc, !last_snoc. reflexivity.
Qed.

Lemma shows_dec e o : {shows e o} + {~ shows e o}.
Proof. destruct e; cbn; try (right; tauto); try apply N.eq_dec. apply decide, _. Qed.
Lemma hides_dec e o : {hides e o} + {~ hides e o}.
Proof. destruct e; cbn; try (right; tauto); try apply N.eq_dec. apply decide, _. Qed.
Lemma concerns_dec e o : {concerns e o} + {~ concerns e o}.
Proof.
  unfold concerns. destruct (shows_dec e o); [left; tauto|].
  destruct (hides_dec e o); [left; tauto|]. right. tauto.
Qed.

Lemma hist_none id es o : hist id es o = [] <-> forall e, e ∈ es -> ~ concerns e o.
Proof.
  revert id. induction es as [|e es IH]; intros id; cbn [hist].
  - split; [|done]. intros _ e He. now apply elem_of_nil in He.
  - split.
    + intros H. apply app_eq_nil in H. destruct H as [H1 H2].
      intros e'. rewrite elem_of_cons. intros [->|He'].
      * eapply infos_of_none. exact H1.
      * apply (IH (id + 1)); assumption.
    + intros H. rewrite (proj2 (infos_of_none id e o)), (proj2 (IH (id + 1))); [done| |].
      * intros e' He'. apply H. now constructor.
      * apply H. constructor.
Qed.

Lemma last_concerning_exists es o :
  (forall e, e ∈ es -> ~ concerns e o) \/ exists e, last_concerning es o e.
Proof.
  induction es as [|e es IH] using rev_ind.
  - left. intros e He. now apply elem_of_nil in He.
  - destruct (concerns_dec e o) as [H|H].
    + right. exists e, es, []. repeat split; [done|]. intros e' He'. now apply elem_of_nil in He'.
    + destruct IH as [IH|(e1 & before & after & -> & H1 & H2)].
      * left. intros e'. rewrite elem_of_app, elem_of_list_singleton. intros [He'| ->]; auto.
      * right. exists e1, before, (after ++ [e]). split; [rewrite <- app_assoc; reflexivity|].
        split; [exact H1|]. intros e'. rewrite elem_of_app, elem_of_list_singleton.
        intros [He'| ->]; auto.
Qed.

Lemma last_concerning_unique es o e e' :
  last_concerning es o e -> last_concerning es o e' -> e = e'.
Proof.
  intros (b & a & E & C & N) (b' & a' & E' & C' & N').
  rewrite E in E'. clear E es. revert b' E'.
  induction b as [|x b IH]; intros [|x' b'] E'; cbn in E'.
  - congruence.
  - injection E' as <- ->. exfalso. apply (N e'); [|done]. apply elem_of_app. right. constructor.
  - injection E' as -> <-. exfalso. apply (N' e); [|done]. apply elem_of_app. right. constructor.
  - injection E' as _ E'. eapply IH. exact E'.
Qed.

Lemma hist_last id es o e :
  last_concerning es o e ->
  exists i, last (hist id es o) = last (infos_of i e o) /\ infos_of i e o <> [].
Proof.
  intros (b & a & -> & C & N). exists (id + Z.of_nat (length b)).
  assert (D : infos_of (id + Z.of_nat (length b)) e o <> [])
    by (intros H; apply infos_of_none in H; done).
  split; [|exact D].
  rewrite hist_app. cbn [hist].
  rewrite (proj2 (hist_none _ a o)) by exact N.
  rewrite app_nil_r. apply last_app_ne. exact D.
Qed.

Lemma status_of_hist es o :
  visibility es o
    (match last (hist 0 es o) with
     | Some i => match info_class i with Show => Active | Hide => Obsolete end
     | None => Inactive end).
Proof.
  destruct (last_concerning_exists es o) as [H|[e H]].
  - rewrite (proj2 (hist_none 0 es o)) by exact H. cbn. exact H.
  - destruct (hist_last 0 es o e H) as (i & E & _). rewrite E.
    destruct (shows_dec e o) as [Hs|Hs].
    + rewrite infos_of_last_show by exact Hs. cbn. eauto.
    + assert (Hh : hides e o).
      { destruct H as (? & ? & _ & [?|?] & _); tauto. }
      rewrite infos_of_last_hide by assumption. cbn. eauto.
Qed.

Lemma visibility_unique es o a b : visibility es o a -> visibility es o b -> a = b.
Proof.
  assert (X : forall e, last_concerning es o e -> (forall e', e' ∈ es -> ~ concerns e' o) -> False).
  { intros e (l1 & l2 & -> & C & _) H. apply (H e); [|done]. apply elem_of_app. right. constructor. }
  destruct a, b; cbn; try reflexivity.
  - intros (e & H & _) H'. exfalso. eauto.
  - intros (e & H & Hs) (e' & H' & _ & Hn). pose proof (last_concerning_unique _ _ _ _ H H').
    subst. done.
  - intros H' (e & H & _). exfalso. eauto.
  - intros H' (e & H & _). exfalso. eauto.
  - intros (e & H & _ & Hn) (e' & H' & Hs). pose proof (last_concerning_unique _ _ _ _ H H').
    subst. done.
  - intros (e & H & _) H'. exfalso. eauto.
Qed.

Lemma commit_status_spec r c o a :
  replay_inv r -> valid_cursor r c ->
  commit_status r c o = a <-> visibility (upto (events r) c) o a.
Proof.
  intros Hr Hc. unfold commit_status. rewrite cursor_history_spec by assumption.
  pose proof (status_of_hist (upto (events r) c) o) as H. split.
  - intros <-. exact H.
  - intros H'. eapply visibility_unique; eassumption.
Qed.

Lemma latest_event_spec r c o e :
  replay_inv r -> valid_cursor r c ->
  latest_event r c o = Some e <-> last_concerning (upto (events r) c) o e.
Proof.
  intros Hr Hc. unfold latest_event. rewrite cursor_history_spec by assumption.
  set (es := upto (events r) c). split.
  - destruct (last_concerning_exists es o) as [H|[e' H]].
    + rewrite (proj2 (hist_none 0 es o)) by exact H. cbn. discriminate.
    + destruct (hist_last 0 es o e' H) as (i & E & D). rewrite E.
      destruct (last (infos_of i e' o)) as [x|] eqn:L; [|discriminate].
      intros X. injection X as <-.
      assert (info_event x = e') as ->; [|exact H].
      eapply infos_of_event. eapply last_Some_elem_of. exact L.
  - intros H. destruct (hist_last 0 es o e H) as (i & E & D). rewrite E.
    destruct (last (infos_of i e o)) as [x|] eqn:L.
    + f_equal. eapply infos_of_event. eapply last_Some_elem_of. exact L.
    + apply last_None in L. done.
Qed.

Lemma latest_event_none r c o :
  replay_inv r -> valid_cursor r c ->
  latest_event r c o = None <-> forall e, e ∈ upto (events r) c -> ~ concerns e o.
Proof.
  intros Hr Hc. destruct (latest_event r c o) as [e|] eqn:E.
  - apply latest_event_spec in E; [|assumption..]. split; [discriminate|].
    destruct E as (b & a & Hb & C & _). intros H. exfalso. apply (H e); [|exact C].
    rewrite Hb. apply elem_of_app. right. constructor.
  - split; [|done]. intros _. destruct (last_concerning_exists (upto (events r) c) o) as [H|[e H]]; [exact H|].
    apply latest_event_spec in H; [|assumption..]. congruence.
Qed.

Lemma hist_nonempty_mem id es o : (exists i, i ∈ hist id es o) <-> exists e, e ∈ es /\ concerns e o.
Proof.
  split.
  - intros [i Hi]. destruct (last_concerning_exists es o) as [H|(e & b & a & -> & C & _)].
    + rewrite (proj2 (hist_none id es o) H) in Hi. now apply elem_of_nil in Hi.
    + exists e. split; [|exact C]. apply elem_of_app. right. constructor.
  - intros (e & He & C). destruct (hist id es o) as [|i l] eqn:E.
    + exfalso. apply (proj1 (hist_none id es o) E e He C).
    + exists i. constructor.
Qed.

Lemma cursor_oids_spec r c o :
  replay_inv r -> valid_cursor r c ->
  o ∈ cursor_oids r c <-> exists e, e ∈ upto (events r) c /\ concerns e o.
Proof.
  intros Hr Hc. rewrite <- (hist_nonempty_mem 0), <- cursor_history_spec by assumption.
  unfold cursor_oids, cursor_history.
  rewrite elem_of_list_In, in_map_iff. split.
  - intros ([o' h] & <- & Hin). apply filter_In in Hin. cbn in *. destruct Hin as [Hin Hx].
    apply elem_of_list_In, elem_of_map_to_list in Hin. rewrite Hin.
    apply existsb_exists in Hx. destruct Hx as (i & Hi & Hlt). exists i.
    apply elem_of_list_In, filter_In. auto.
  - intros [i Hi]. destruct (commit_history r !! o) as [h|] eqn:E.
    + exists (o, h). split; [reflexivity|]. apply filter_In. split.
      * apply elem_of_list_In, elem_of_map_to_list. exact E.
      * apply elem_of_list_In, filter_In in Hi. cbn. apply existsb_exists. eauto.
    + now apply elem_of_nil in Hi.
Qed.
