(** Proofs about undo and garbage collection. *)
From Verif Require Import Base TextModel TextProofs EventLogModel EventLogSpec EventLogProofs
  EventLogNavProofs EventLogRefProofs UndoModel UndoSpec.
From Coq Require Import ZifyBool ZifyNat.
Local Open Scope Z_scope.

Lemma events_since_spec r c :
  valid_cursor r c ->
  exists since, events_since_cursor r c = Some since /\
    events r = upto (events r) c ++ since.
Proof.
  intros [H1 H2]. unfold events_since_cursor, slice, upto.
  destruct (_ && _)%bool eqn:E; [|lia].
  eexists. split; [reflexivity|].
  rewrite (firstn_all2 (n := Z.to_nat (_ - _))); [symmetry; apply take_drop|]. rewrite drop_length. lia.
Qed.

(** ** Which events reach the loop *)

Lemma extract_rest acc es : forall e, e ∈ snd (extract_checkout acc es) ->
  e ∈ es /\ ~ (exists ts tx old o msg, e = RefUpdateEvent ts tx "HEAD" old (NonZero o) msg) /\
  ~ (exists ts tx h o n, e = SnapshotEvent ts tx h o n).
Proof.
  revert acc. induction es as [|x es IH]; intros acc e.
  - cbn. intros H. now apply elem_of_nil in H.
  - assert (G : forall acc, e ∈ x :: snd (extract_checkout acc es) ->
       ~ (exists ts tx old o msg, x = RefUpdateEvent ts tx "HEAD" old (NonZero o) msg) ->
       ~ (exists ts tx h o n, x = SnapshotEvent ts tx h o n) ->
       e ∈ x :: es /\ ~ (exists ts tx old o msg, e = RefUpdateEvent ts tx "HEAD" old (NonZero o) msg) /\
       ~ (exists ts tx h o n, e = SnapshotEvent ts tx h o n)).
    { intros acc' He N1 N2. apply elem_of_cons in He. destruct He as [->|He].
      - split; [constructor|auto].
      - apply IH in He. destruct He as [? ?]. split; [now constructor|assumption]. }
    cbn. destruct x as [ts tx a b|ts tx n a [|o'] m|ts tx o'|ts tx o'|ts tx o'|ts tx h o' n];
      try (destruct (extract_checkout acc es) as [t rest] eqn:E; cbn; intros He;
           apply (G acc); [rewrite E; exact He|intros (?&?&?&?&?&?); discriminate|intros (?&?&?&?&?&?); discriminate]).
    + destruct (String.eqb_spec n "HEAD") as [->|Hne].
      * intros He. apply IH in He. destruct He as [? ?]. split; [now constructor|assumption].
      * destruct (extract_checkout acc es) as [t rest] eqn:E; cbn; intros He.
        apply (G acc); [rewrite E; exact He| |intros (?&?&?&?&?&?); discriminate].
        intros (?&?&?&?&?&X). injection X as _ _ ? _ _ _. done.
    + intros He. apply IH in He. destruct He as [? ?]. split; [now constructor|assumption].
Qed.

(** Dropping checkout hints does not matter to the other references or the log. *)
Definition refs_agree (R R' : gmap refname oid) : Prop :=
  forall n : refname, n <> "HEAD"%string -> R !! n = R' !! n.

Lemma undo_step_agree w w' e :
  refs_agree (w_refs w) (w_refs w') -> w_log w = w_log w' ->
  refs_agree (w_refs (undo_step w e)) (w_refs (undo_step w' e)) /\
  w_log (undo_step w e) = w_log (undo_step w' e).
Proof.
  intros HR HL.
  destruct e as [ts [i|] a b|ts tx n [|a] [|b] m|ts [i|] o|ts [i|] o|ts [i|] o|ts tx h o n]; cbn;
    try (split; [exact HR|congruence]).
  - split; [|exact HL]. intros n' Hn'. destruct (decide (n = n')) as [->|Hne].
    + rewrite !lookup_insert. reflexivity.
    + rewrite !lookup_insert_ne by done. auto.
  - split; [|exact HL]. intros n' Hn'. destruct (decide (n = n')) as [->|Hne].
    + rewrite !lookup_delete. reflexivity.
    + rewrite !lookup_delete_ne by done. auto.
  - split; [|exact HL]. intros n' Hn'. destruct (decide (n = n')) as [->|Hne].
    + rewrite !lookup_insert. reflexivity.
    + rewrite !lookup_insert_ne by done. auto.
Qed.

Lemma fold_extract_agree es : forall acc w w',
  refs_agree (w_refs w) (w_refs w') -> w_log w = w_log w' ->
  refs_agree (w_refs (fold_left undo_step (snd (extract_checkout acc es)) w))
             (w_refs (fold_left undo_step es w')) /\
  w_log (fold_left undo_step (snd (extract_checkout acc es)) w) = w_log (fold_left undo_step es w').
Proof.
  induction es as [|e es IH]; intros acc w w' HR HL; [cbn; auto|].
  assert (G : forall acc, refs_agree (w_refs (fold_left undo_step (e :: snd (extract_checkout acc es)) w))
             (w_refs (fold_left undo_step (e :: es) w')) /\
         w_log (fold_left undo_step (e :: snd (extract_checkout acc es)) w) =
         w_log (fold_left undo_step (e :: es) w')).
  { intros acc'. cbn. destruct (undo_step_agree w w' e HR HL). apply IH; assumption. }
  cbn [extract_checkout].
  destruct e as [ts tx a b|ts tx n a [|o'] m|ts tx o'|ts tx o'|ts tx o'|ts tx h o' n];
    try (destruct (extract_checkout acc es) as [t rest] eqn:E; specialize (G acc); rewrite E in G; exact G).
  - destruct (String.eqb_spec n "HEAD") as [->|Hne].
    + cbn [fold_left]. apply IH.
      * destruct a as [|a]; cbn; intros n Hn; rewrite lookup_insert_ne by done; auto.
      * destruct a; exact HL.
    + destruct (extract_checkout acc es) as [t rest] eqn:E; specialize (G acc); rewrite E in G; exact G.
  - cbn [fold_left]. apply IH; assumption.
Qed.

(** ** References *)

Lemma undo_step_refs_irrel w w' e : w_refs w = w_refs w' -> w_refs (undo_step w e) = w_refs (undo_step w' e).
Proof.
  intros H. destruct e as [ts [i|] a b|ts tx n [|a] [|b] m|ts [i|] o|ts [i|] o|ts [i|] o|ts tx h o n];
    cbn; congruence.
Qed.

(** Undoing one true update. *)
Lemma undo_one now tx ts tx0 n old new m (R R' : gmap refname oid) w :
  old = moid_of_option (R !! n) ->
  refs_agree (w_refs w) (match new with NonZero o => <[n := o]> R | Zero => delete n R end) ->
  refs_agree (w_refs (undo_step w (inverse_event now tx (RefUpdateEvent ts tx0 n old new m)))) R.
Proof.
  intros -> HR. cbn [inverse_event]. intros n' Hn'. specialize (HR n' Hn').
  destruct (R !! n) as [o|] eqn:E; destruct new as [|o']; cbn [undo_step w_refs moid_of_option inverse_event] in *;
    destruct (decide (n = n')) as [->|Hne]; simplify_map_eq; congruence.
Qed.

Lemma inverse_events_cons now tx e es :
  inverse_events now tx (e :: es) =
  inverse_events now tx es ++ (if undo_keeps e then [inverse_event now tx e] else []).
Proof.
  unfold inverse_events. cbn. rewrite List.filter_app, map_app. f_equal. cbn.
  destruct (undo_keeps e); reflexivity.
Qed.

Lemma undo_restores now tx es : forall R w,
  true_history R es ->
  refs_agree (w_refs w) (after_history R es) ->
  refs_agree (w_refs (fold_left undo_step (inverse_events now tx es) w)) R.
Proof.
  induction es as [|e es IH]; intros R w HT HR; [exact HR|].
  rewrite inverse_events_cons, fold_left_app.
  destruct e as [ts t a b|ts t n old new m|ts t o|ts t o|ts t o|ts t h o n]; cbn in HT, HR.
  2: { destruct HT as [Ho HT]. specialize (IH _ w HT HR).
       cbn [undo_keeps]. destruct old as [|oldo].
       - destruct (String.eqb_spec n "HEAD") as [->|Hne]; cbn [negb fold_left].
         + intros n' Hn'. rewrite (IH n' Hn'). destruct new as [|o].
           * rewrite lookup_delete_ne by done. reflexivity.
           * rewrite lookup_insert_ne by done. reflexivity.
         + eapply undo_one; eassumption.
       - cbn [fold_left]. eapply undo_one; eassumption. }
  all: specialize (IH _ w HT HR); cbn [undo_keeps fold_left inverse_event];
    intros n' Hn'; rewrite <- (IH n' Hn'); cbn; try destruct tx; reflexivity.
Qed.

Lemma undo_result r c now tx w since :
  events_since_cursor r c = Some since ->
  undo_events r c now tx true w =
  Some (fold_left undo_step (snd (extract_checkout None (inverse_events now tx since))) w,
        fst (extract_checkout None (inverse_events now tx since))).
Proof.
  intros H. unfold undo_events. rewrite H.
  destruct (inverse_events now tx since) as [|e inv]; [reflexivity|].
  destruct (extract_checkout None (e :: inv)) as [t rest]. reflexivity.
Qed.

Lemma undo_restores_refs r c now tx w R since w' t :
  events_since_cursor r c = Some since ->
  true_history R since ->
  refs_agree (w_refs w) (after_history R since) ->
  undo_events r c now tx true w = Some (w', t) ->
  refs_agree (w_refs w') R.
Proof.
  intros Hs HT HR Hu. rewrite (undo_result r c now tx w since Hs) in Hu. injection Hu as <- _.
  intros n Hn.
  destruct (fold_extract_agree (inverse_events now tx since) None w w) as [A _];
    [intros ? _; reflexivity|reflexivity|].
  rewrite (A n Hn). apply (undo_restores now tx since R w HT HR n Hn).
Qed.

(** References without an update since the cursor are not touched, whatever the
    recorded old values. *)
Lemma undo_step_other w e n :
  ~ updates e n -> w_refs (undo_step w e) !! n = w_refs w !! n.
Proof.
  intros Hu.
  destruct e as [ts [i|] a b|ts tx n' [|a] [|b] m|ts [i|] o|ts [i|] o|ts [i|] o|ts tx h o n'];
    cbn in *; try reflexivity.
  - apply lookup_insert_ne. done.
  - apply lookup_delete_ne. done.
  - apply lookup_insert_ne. done.
Qed.

Lemma fold_undo_other es : forall w n,
  (forall e, e ∈ es -> ~ updates e n) -> w_refs (fold_left undo_step es w) !! n = w_refs w !! n.
Proof.
  induction es as [|e es IH]; intros w n H; [reflexivity|]. cbn. rewrite IH.
  - apply undo_step_other. apply H. constructor.
  - intros e' He'. apply H. now constructor.
Qed.

Lemma inverse_updates now tx e n : updates (inverse_event now tx e) n <-> updates e n.
Proof. destruct e; reflexivity. Qed.

Lemma inverse_events_mem now tx es e :
  e ∈ inverse_events now tx es <-> exists x, x ∈ es /\ undo_keeps x = true /\ e = inverse_event now tx x.
Proof.
  unfold inverse_events. rewrite elem_of_list_In, in_map_iff. split.
  - intros (x & <- & Hx). apply filter_In in Hx. destruct Hx as [Hx K]. apply in_rev in Hx.
    exists x. split; [apply elem_of_list_In; exact Hx|auto].
  - intros (x & Hx & K & ->). exists x. split; [reflexivity|]. apply filter_In. split; [|exact K].
    apply in_rev. rewrite rev_involutive. apply elem_of_list_In. exact Hx.
Qed.

Lemma undo_untouched r c now tx w since w' t n :
  events_since_cursor r c = Some since ->
  (forall e, e ∈ since -> ~ updates e n) ->
  undo_events r c now tx true w = Some (w', t) ->
  w_refs w' !! n = w_refs w !! n.
Proof.
  intros Hs HN Hu. rewrite (undo_result r c now tx w since Hs) in Hu. injection Hu as <- _.
  apply fold_undo_other. intros e He. apply extract_rest in He. destruct He as [He _].
  apply inverse_events_mem in He. destruct He as (x & Hx & _ & ->).
  rewrite inverse_updates. auto.
Qed.

(** HEAD itself is never created, deleted or moved by the loop: it is left to
    the checkout. *)
Lemma undo_head_left r c now tx w since w' t :
  events_since_cursor r c = Some since ->
  undo_events r c now tx true w = Some (w', t) ->
  w_refs w' !! "HEAD"%string = w_refs w !! "HEAD"%string.
Proof.
  intros Hs Hu. rewrite (undo_result r c now tx w since Hs) in Hu. injection Hu as <- _.
  apply fold_undo_other. intros e He. apply extract_rest in He. destruct He as (He & N & _).
  apply inverse_events_mem in He. destruct He as (x & Hx & K & ->).
  intros U. apply N. destruct x as [|ts t' n a b m| | | |]; cbn in U; try done. subst n.
  cbn in K. destruct a as [|a]; [discriminate|]. cbn. eauto 6.
Qed.

(** ** The checkout target *)

Lemma extract_target es : forall acc,
  fst (extract_checkout acc es) =
  match fst (extract_checkout None es) with Some t => Some t | None => acc end.
Proof.
  induction es as [|e es IH]; intros acc; [reflexivity|].
  cbn [extract_checkout].
  destruct e as [ts tx a b|ts tx n a [|o'] m|ts tx o'|ts tx o'|ts tx o'|ts tx h o' n];
    try (specialize (IH acc); destruct (extract_checkout acc es), (extract_checkout None es); exact IH).
  - destruct (String.eqb_spec n "HEAD") as [->|Hne].
    + rewrite (IH (Some _)). destruct (fst (extract_checkout None es)); reflexivity.
    + specialize (IH acc); destruct (extract_checkout acc es), (extract_checkout None es); exact IH.
  - rewrite (IH (Some _)). destruct (fst (extract_checkout None es)); reflexivity.
Qed.

Lemma extract_app a b acc :
  fst (extract_checkout acc (a ++ b)) =
  match fst (extract_checkout None b) with
  | Some t => Some t
  | None => fst (extract_checkout acc a)
  end.
Proof.
  revert acc. induction a as [|e a IH]; intros acc.
  - cbn [app]. rewrite extract_target. reflexivity.
  - cbn [app extract_checkout].
    destruct e as [ts tx x y|ts tx n x [|o'] m|ts tx o'|ts tx o'|ts tx o'|ts tx h o' n];
      try (specialize (IH acc); destruct (extract_checkout acc (a ++ b)), (extract_checkout acc a); exact IH).
    + destruct (String.eqb_spec n "HEAD") as [->|Hne]; [apply IH|].
      specialize (IH acc); destruct (extract_checkout acc (a ++ b)), (extract_checkout acc a); exact IH.
    + apply IH.
Qed.

Lemma extract_one now tx e :
  (exists t, checkout_hint e t /\
     fst (extract_checkout None (if undo_keeps e then [inverse_event now tx e] else [])) = Some t) \/
  ((forall t, ~ checkout_hint e t) /\
     fst (extract_checkout None (if undo_keeps e then [inverse_event now tx e] else [])) = None).
Proof.
  destruct e as [ts t a b|ts t n [|a] b m|ts t o|ts t o|ts t o|ts t h o n]; cbn;
    try (right; split; [tauto|reflexivity]).
  - right. split; [tauto|]. destruct (String.eqb n "HEAD"); cbn; [reflexivity|]. reflexivity.
  - destruct (String.eqb_spec n "HEAD") as [->|Hne]; cbn.
    + left. eauto.
    + right. split; [|reflexivity]. intros t' [? _]. done.
  - left. eauto.
Qed.

Lemma checkout_hint_unique e t t' : checkout_hint e t -> checkout_hint e t' -> t = t'.
Proof. destruct e as [| ? ? ? [|] | | | |]; cbn; try done; intros; intuition congruence. Qed.

(** The target comes from the earliest hint since the cursor. *)
Lemma undo_target now tx since t :
  fst (extract_checkout None (inverse_events now tx since)) = Some t <->
  exists before e after, since = before ++ e :: after /\ checkout_hint e t /\
    forall e' t', e' ∈ before -> ~ checkout_hint e' t'.
Proof.
  induction since as [|e es IH].
  - cbn. split; [discriminate|]. intros (b & ? & ? & E & _). destruct b; discriminate.
  - rewrite inverse_events_cons, extract_app.
    destruct (extract_one now tx e) as [(t0 & Ht0 & ->)|[N ->]].
    + split.
      * intros E. injection E as <-. exists [], e, es. split; [reflexivity|]. split; [exact Ht0|].
        intros e' t' He'. now apply elem_of_nil in He'.
      * intros (b & e1 & a & E & H & N). f_equal. destruct b as [|x b]; injection E as -> ->.
        -- eapply checkout_hint_unique; eassumption.
        -- exfalso. apply (N x t0); [constructor|exact Ht0].
    + rewrite IH. split.
      * intros (b & e1 & a & -> & H & N'). exists (e :: b), e1, a. split; [reflexivity|].
        split; [exact H|]. intros e' t' He'. apply elem_of_cons in He'. destruct He' as [->|He']; eauto.
      * intros (b & e1 & a & E & H & N'). destruct b as [|x b]; injection E as -> ->.
        -- exfalso. eapply N. exact H.
        -- exists b, e1, a. split; [reflexivity|]. split; [exact H|]. intros e' t' He'. apply N'. now constructor.
Qed.

(** In a true history, HEAD goes back to where it was. *)
Lemma head_target R since before e after ts tx o new m :
  true_history R since -> since = before ++ e :: after ->
  e = RefUpdateEvent ts tx "HEAD" o new m ->
  (forall e', e' ∈ before -> ~ updates e' "HEAD") ->
  o = moid_of_option (R !! "HEAD"%string).
Proof.
  intros HT -> -> HN. revert R HT HN. induction before as [|x before IH]; intros R HT HN.
  - cbn in HT. apply HT.
  - assert (Hx : ~ updates x "HEAD") by (apply HN; constructor).
    assert (HN' : forall e', e' ∈ before -> ~ updates e' "HEAD").
    { intros e' He'. apply HN. now constructor. }
    destruct x as [|ts' tx' n' old' new' m'| | | |]; cbn in HT; try (apply IH; assumption).
    destruct HT as [_ HT]. cbn in Hx. apply IH in HT; [|exact HN'].
    rewrite HT. destruct new'; [rewrite lookup_delete_ne by done|rewrite lookup_insert_ne by done]; reflexivity.
Qed.

Lemma undo_head_target now tx R since o :
  true_history R since -> R !! "HEAD"%string = Some o ->
  (forall ts tx' h so n, SnapshotEvent ts tx' h so n ∉ since) ->
  (exists e, e ∈ since /\ updates e "HEAD") ->
  fst (extract_checkout None (inverse_events now tx since)) = Some (mk_target o true None).
Proof.
  intros HT HR HS (e & He & Hu). apply undo_target.
  assert (F : exists before e after, since = before ++ e :: after /\ updates e "HEAD" /\
             forall e', e' ∈ before -> ~ updates e' "HEAD").
  { clear - He Hu. induction since as [|x since IH]; [now apply elem_of_nil in He|].
    destruct (updates_dec x "HEAD") as [Hx|Hx].
    - exists [], x, since. split; [reflexivity|]. split; [exact Hx|]. intros e' He'. now apply elem_of_nil in He'.
    - apply elem_of_cons in He. destruct He as [->|He]; [done|].
      destruct (IH He) as (b & e' & a & -> & U & N). exists (x :: b), e', a. split; [reflexivity|].
      split; [exact U|]. intros y Hy. apply elem_of_cons in Hy. destruct Hy as [->|Hy]; auto. }
  destruct F as (b & e1 & a & E & U & N). exists b, e1, a. split; [exact E|].
  destruct (updates_inv _ _ U) as (ts & t' & old & m & msg & ->).
  pose proof (head_target R since b _ a _ _ _ _ _ HT E eq_refl N) as Ho. rewrite HR in Ho. cbn in Ho. subst old.
  split; [cbn; auto|]. intros e' t He'.
  destruct e' as [|ts' tx' n' old' new' m'| | | |ts' tx' h so n]; cbn; try tauto.
  - destruct old'; [tauto|]. intros [-> _]. apply (N _ He'). reflexivity.
  - exfalso. apply (HS ts' tx' h so n). rewrite E. apply elem_of_app. auto.
Qed.

(** ** Visibility *)

Definition inv_log (now : timestamp) (tx : txid) (since : list event) : list event :=
  List.filter (fun e => match e with RefUpdateEvent _ _ _ _ _ _ | SnapshotEvent _ _ _ _ _ => false | _ => true end)
    (inverse_events now tx since).

Lemma fold_undo_log now i es : forall w,
  (forall e, e ∈ es -> exists x, e = inverse_event now (TxId i) x) ->
  w_log (fold_left undo_step es w) =
  w_log w ++ List.filter (fun e => match e with RefUpdateEvent _ _ _ _ _ _ | SnapshotEvent _ _ _ _ _ => false | _ => true end) es.
Proof.
  induction es as [|e es IH]; intros w H; cbn; [rewrite app_nil_r; reflexivity|].
  rewrite IH by (intros x Hx; apply H; now constructor).
  destruct (H e) as [x ->]; [constructor|].
  destruct x as [ts t a b|ts t n [|a] [|b] m|ts t o|ts t o|ts t o|ts t h o n]; cbn;
    rewrite <- ?app_assoc; reflexivity.
Qed.

Lemma undo_log r c now i w since w' t :
  events_since_cursor r c = Some since ->
  undo_events r c now (TxId i) true w = Some (w', t) ->
  w_log w' = w_log w ++ inv_log now (TxId i) since.
Proof.
  intros Hs Hu. rewrite (undo_result r c now _ w since Hs) in Hu. injection Hu as <- _.
  destruct (fold_extract_agree (inverse_events now (TxId i) since) None w w) as [_ A];
    [intros ? _; reflexivity|reflexivity|].
  rewrite A. apply (fold_undo_log now i). intros e He. apply inverse_events_mem in He.
  destruct He as (x & _ & _ & ->). eauto.
Qed.

Lemma inverse_shows now tx e o : shows (inverse_event now tx e) o <-> hides e o.
Proof. destruct e; cbn; try tauto. Qed.
Lemma inverse_hides now tx e o : hides (inverse_event now tx e) o <-> shows e o.
Proof. destruct e; cbn; try tauto. Qed.
Lemma inverse_concerns now tx e o : concerns (inverse_event now tx e) o <-> concerns e o.
Proof. unfold concerns. rewrite inverse_shows, inverse_hides. tauto. Qed.

Lemma inv_log_cons now tx e es :
  inv_log now tx (e :: es) = inv_log now tx es ++ inv_log now tx [e].
Proof.
  unfold inv_log. rewrite inverse_events_cons, List.filter_app. f_equal.
  rewrite (inverse_events_cons now tx e []). reflexivity.
Qed.

Lemma inv_log_one now tx e o :
  concerns e o -> inv_log now tx [e] = [inverse_event now tx e].
Proof. destruct e; unfold concerns; cbn; try tauto; reflexivity. Qed.

Lemma inv_log_one_mem now tx e x o : x ∈ inv_log now tx [e] -> ~ concerns e o -> ~ concerns x o.
Proof.
  intros Hx N. unfold inv_log in Hx. apply elem_of_list_In, filter_In in Hx. destruct Hx as [Hx _].
  apply elem_of_list_In, inverse_events_mem in Hx. destruct Hx as (y & Hy & _ & ->).
  apply elem_of_list_singleton in Hy. subst. rewrite inverse_concerns. exact N.
Qed.

Lemma inv_log_last now tx since o e :
  first_concerning since o e -> last_concerning (inv_log now tx since) o (inverse_event now tx e).
Proof.
  intros (b & a & -> & C & N). induction b as [|x b IH].
  - cbn [app]. rewrite inv_log_cons, (inv_log_one now tx e o C).
    exists (inv_log now tx a), []. split; [reflexivity|]. split; [apply inverse_concerns; exact C|].
    intros e' He'. now apply elem_of_nil in He'.
  - cbn [app]. rewrite inv_log_cons.
    destruct IH as (b' & a' & E & C' & N'). { intros e' He'. apply N. now constructor. }
    rewrite E. exists b', (a' ++ inv_log now tx [x]). split; [rewrite <- app_assoc; reflexivity|].
    split; [exact C'|]. intros e' He'. apply elem_of_app in He'. destruct He' as [?|He']; [auto|].
    eapply inv_log_one_mem; [exact He'|]. apply N. constructor.
Qed.

Lemma inv_log_none now tx since o :
  (forall e, e ∈ since -> ~ concerns e o) -> forall e, e ∈ inv_log now tx since -> ~ concerns e o.
Proof.
  intros H e He. unfold inv_log in He. apply elem_of_list_In, filter_In in He. destruct He as [He _].
  apply elem_of_list_In, inverse_events_mem in He. destruct He as (y & Hy & _ & ->).
  rewrite inverse_concerns. auto.
Qed.

Lemma last_concerning_app_l a b o e :
  last_concerning b o e -> last_concerning (a ++ b) o e.
Proof.
  intros (x & y & -> & C & N). exists (a ++ x), y. rewrite <- app_assoc. auto.
Qed.
Lemma last_concerning_app_r a b o e :
  (forall e', e' ∈ b -> ~ concerns e' o) -> last_concerning a o e -> last_concerning (a ++ b) o e.
Proof.
  intros H (x & y & -> & C & N). exists x, (y ++ b). split; [rewrite <- app_assoc; reflexivity|].
  split; [exact C|]. intros e' He'. apply elem_of_app in He'. destruct He'; auto.
Qed.

Lemma visibility_app_r a b o v :
  (forall e', e' ∈ b -> ~ concerns e' o) -> visibility a o v -> visibility (a ++ b) o v.
Proof.
  intros H. destruct v; cbn.
  - intros (e & He & Hs). exists e. split; [apply last_concerning_app_r; assumption|exact Hs].
  - intros Ha e He. apply elem_of_app in He. destruct He; auto.
  - intros (e & He & Hs). exists e. split; [apply last_concerning_app_r; assumption|exact Hs].
Qed.

(** Status after the undo; [extra] are events recorded by the final checkout,
    which concern no commit. *)
Lemma undo_status main log c now i w w' t since extra o :
  w_log w = log -> valid_cursor (replay main log) c ->
  events_since_cursor (replay main log) c = Some since ->
  undo_events (replay main log) c now (TxId i) true w = Some (w', t) ->
  (forall e, e ∈ extra -> ~ concerns e o) ->
  let r' := replay main (w_log w' ++ extra) in
  ((forall e, e ∈ since -> ~ concerns e o) ->
     commit_status r' (default_cursor r') o = commit_status (replay main log) c o) /\
  (forall e, first_concerning since o e ->
     commit_status r' (default_cursor r') o = if hides_dec e o then Active else Obsolete).
Proof.
  intros Hw Hc Hs Hu Hx r'.
  assert (HL : w_log w' = log ++ inv_log now (TxId i) since).
  { rewrite <- Hw. eapply undo_log; eassumption. }
  split.
  - intros HN. apply status_now. rewrite HL.
    apply visibility_app_r; [exact Hx|].
    apply visibility_app_r; [apply inv_log_none; exact HN|].
    rewrite <- visibility_raw with (main := main).
    destruct (events_since_spec _ c Hc) as (since' & Hs' & E). rewrite Hs in Hs'. injection Hs' as <-.
    rewrite E. apply visibility_app_r; [exact HN|].
    apply commit_status_spec; [apply replay_invariant|exact Hc|reflexivity].
  - intros e He. apply status_now. rewrite HL.
    apply visibility_app_r; [exact Hx|].
    pose proof (inv_log_last now (TxId i) since o e He) as L.
    destruct (hides_dec e o) as [Hh|Hh]; cbn.
    + exists (inverse_event now (TxId i) e). split; [apply last_concerning_app_l; exact L|].
      apply inverse_shows. exact Hh.
    + exists (inverse_event now (TxId i) e). split; [apply last_concerning_app_l; exact L|].
      rewrite inverse_hides, inverse_shows. split; [|exact Hh].
      destruct He as (? & ? & _ & [?|?] & _); [assumption|done].
Qed.

Lemma first_concerning_exists es o :
  (forall e, e ∈ es -> ~ concerns e o) \/ exists e, first_concerning es o e.
Proof.
  induction es as [|x es IH].
  - left. intros e He. now apply elem_of_nil in He.
  - destruct (concerns_dec x o) as [C|C].
    + right. exists x, [], es. split; [reflexivity|]. split; [exact C|]. intros e' He'. now apply elem_of_nil in He'.
    + destruct IH as [H|(e & b & a & -> & C' & N)].
      * left. intros e He. apply elem_of_cons in He. destruct He as [->|He]; auto.
      * right. exists e, (x :: b), a. split; [reflexivity|]. split; [exact C'|].
        intros e' He'. apply elem_of_cons in He'. destruct He' as [->|He']; auto.
Qed.

(** ** Inverting twice *)

Lemma inverse_twice now tx now' tx' e :
  effect_of (inverse_event now' tx' (inverse_event now tx e)) = effect_of e.
Proof. destruct e; reflexivity. Qed.

(** Doing the inverse of an undo. *)
Lemma redo_one now tx ts tx0 n old new m (R : gmap refname oid) w :
  old = moid_of_option (R !! n) ->
  refs_agree (w_refs w) R ->
  refs_agree (w_refs (undo_step w (inverse_event now tx (inverse_event now tx (RefUpdateEvent ts tx0 n old new m)))))
     (match new with NonZero o => <[n := o]> R | Zero => delete n R end).
Proof.
  intros -> HR. cbn [inverse_event]. intros n' Hn'. specialize (HR n' Hn').
  destruct (R !! n) as [o|] eqn:E; destruct new as [|o']; cbn [undo_step w_refs moid_of_option inverse_event] in *;
    destruct (decide (n = n')) as [->|Hne]; simplify_map_eq; congruence.
Qed.

Lemma redo_restores now tx es : forall R w,
  true_history R es ->
  refs_agree (w_refs w) R ->
  refs_agree (w_refs (fold_left undo_step
      (List.map (inverse_event now tx) (rev (inverse_events now tx es))) w)) (after_history R es).
Proof.
  induction es as [|e es IH]; intros R w HT HR; [exact HR|].
  rewrite inverse_events_cons, rev_app_distr, map_app, fold_left_app.
  destruct e as [ts t a b|ts t n old new m|ts t o|ts t o|ts t o|ts t h o n]; cbn in HT.
  2: { destruct HT as [Ho HT]. cbn [after_history]. apply IH; [exact HT|].
       cbn [undo_keeps]. destruct old as [|oldo].
       - destruct (String.eqb_spec n "HEAD") as [->|Hne]; cbn [negb rev app List.map fold_left].
         + intros n' Hn'. rewrite (HR n' Hn'). destruct new as [|o].
           * rewrite lookup_delete_ne by done. reflexivity.
           * rewrite lookup_insert_ne by done. reflexivity.
         + eapply redo_one; eassumption.
       - cbn [rev app List.map fold_left]. eapply redo_one; eassumption. }
  all: cbn [after_history]; apply IH; [exact HT|];
    cbn [undo_keeps rev app List.map fold_left inverse_event];
    intros n' Hn'; rewrite <- (HR n' Hn'); cbn; try destruct tx; reflexivity.
Qed.

(** ** Garbage collection *)

Lemma find_dangling_spec refs r c n t :
  (n, t) ∈ find_dangling refs r c <->
  (n, t) ∈ refs /\ (exists rest, n = String.append "refs/branchless/" rest) /\
  exists o, t = ToCommit o /\ commit_status r c o = Obsolete.
Proof.
  unfold find_dangling. rewrite elem_of_list_In, filter_In, <- elem_of_list_In. cbn.
  unfold is_gc_ref. destruct (starts_with "refs/branchless/" n) eqn:S.
  - apply starts_with_spec in S. split.
    + intros [H1 H2]. split; [exact H1|]. split; [exact S|].
      destruct t as [o|]; [|discriminate]. exists o. split; [reflexivity|].
      destruct (commit_status r c o); congruence.
    + intros (H1 & _ & o & -> & H2). split; [exact H1|]. rewrite H2. reflexivity.
  - split; [intros [_ ?]; discriminate|]. intros (_ & H & _). apply starts_with_spec in H. congruence.
Qed.

Lemma fold_delete_lookup {V} (l : list (refname * V)) (m : gmap refname V) n :
  fold_left (fun m p => delete (fst p) m) l m !! n =
  if decide (n ∈ List.map fst l) then None else m !! n.
Proof.
  revert m. induction l as [|[k v] l IH]; intros m; cbn.
  - rewrite decide_False by (intros H; now apply elem_of_nil in H). reflexivity.
  - rewrite IH. destruct (decide (n = k)) as [->|Hne].
    + rewrite (decide_True (P := k ∈ k :: _)) by constructor.
      rewrite lookup_delete. destruct (decide _); reflexivity.
    + rewrite lookup_delete_ne by done.
      destruct (decide (n ∈ List.map fst l)) as [H|H].
      * rewrite decide_True by (now constructor). reflexivity.
      * rewrite decide_False; [reflexivity|]. rewrite elem_of_cons. tauto.
Qed.

Lemma gc_spec refs r n t :
  gc refs r !! n = Some t <->
  refs !! n = Some t /\
  ~ ((exists rest, n = String.append "refs/branchless/" rest) /\
     exists o, t = ToCommit o /\ commit_status r (default_cursor r) o = Obsolete).
Proof.
  unfold gc. rewrite fold_delete_lookup.
  assert (A : n ∈ List.map fst (find_dangling (map_to_list refs) r (default_cursor r)) <->
              exists t, refs !! n = Some t /\ (exists rest, n = String.append "refs/branchless/" rest) /\
                exists o, t = ToCommit o /\ commit_status r (default_cursor r) o = Obsolete).
  { rewrite elem_of_list_In, in_map_iff. split.
    - intros ([n' t'] & <- & H). apply elem_of_list_In, find_dangling_spec in H. cbn.
      destruct H as (H & ? & ?). apply elem_of_map_to_list in H. eauto.
    - intros (t' & H & ? & ?). exists (n, t'). split; [reflexivity|].
      apply elem_of_list_In, find_dangling_spec. split; [apply elem_of_map_to_list; exact H|auto]. }
  destruct (decide _) as [H|H].
  - split; [discriminate|]. intros [H1 H2]. apply A in H. destruct H as (t' & H & ?). exfalso. apply H2.
    assert (t' = t) as -> by congruence. assumption.
  - split.
    + intros E. split; [exact E|]. intros (? & ?). apply H, A. eauto.
    + intros [E _]. exact E.
Qed.

Lemma gc_idempotent refs r : gc (gc refs r) r = gc refs r.
Proof.
  apply map_eq. intros n. apply option_eq. intros t. rewrite gc_spec. split; [tauto|].
  intros H. split; [exact H|]. apply gc_spec in H. tauto.
Qed.

Lemma mark_reachable_spec ex o refs n :
  mark_reachable ex o refs !! n =
  if decide (ex o = true /\ n = String.append "refs/branchless/" (oid_to_string o))
  then Some (ToCommit o) else refs !! n.
Proof.
  unfold mark_reachable. destruct (ex o).
  - destruct (decide (n = String.append "refs/branchless/" (oid_to_string o))) as [->|Hne].
    + rewrite lookup_insert, decide_True by auto. reflexivity.
    + rewrite lookup_insert_ne by done. rewrite decide_False; [reflexivity|]. tauto.
  - rewrite decide_False; [reflexivity|]. intros [? _]. discriminate.
Qed.

(** Marking a commit that is not obsolete keeps it through collections. *)
Lemma mark_then_gc ex o refs r :
  ex o = true -> commit_status r (default_cursor r) o <> Obsolete ->
  gc (mark_reachable ex o refs) r !! String.append "refs/branchless/" (oid_to_string o) = Some (ToCommit o).
Proof.
  intros Hex Hst. apply gc_spec. split.
  - rewrite mark_reachable_spec, decide_True by auto. reflexivity.
  - intros (_ & o' & E & Ho). injection E as <-. done.
Qed.
