(** Proofs about references in the event log, cleaning of raw events and
    stability of the past. *)
From Verif Require Import Base TextModel EventLogModel EventLogSpec EventLogProofs EventLogNavProofs.
From Coq Require Import ZifyBool ZifyNat.
Local Open Scope Z_scope.

Lemma slice_upto (es : list event) c :
  0 <= c <= Z.of_nat (length es) -> slice es 0 c = Some (upto es c).
Proof.
  intros H. unfold slice, upto. destruct (_ && _)%bool eqn:E; [|lia].
  rewrite Z.sub_0_r. reflexivity.
Qed.

Lemma find_map_rev {A B} (f : A -> option B) es b :
  find_map f (rev es) = Some b <->
  exists l1 e l2, es = l1 ++ e :: l2 /\ f e = Some b /\ forall e', e' ∈ l2 -> f e' = None.
Proof.
  induction es as [|e es IH] using rev_ind.
  - cbn. split; [discriminate|]. intros (l1 & e & l2 & E & _). destruct l1; discriminate.
  - rewrite rev_app_distr. cbn. destruct (f e) as [b'|] eqn:F.
    + split.
      * intros E. injection E as ->. exists es, e, []. split; [reflexivity|]. split; [exact F|].
        intros e' He'. now apply elem_of_nil in He'.
      * intros (l1 & e1 & l2 & E & F1 & N). destruct l2 as [|x l2 _] using rev_ind.
        -- apply app_inj_tail in E. destruct E as [_ ->]. congruence.
        -- rewrite app_comm_cons, app_assoc in E. apply app_inj_tail in E. destruct E as [_ ->].
           rewrite N in F; [discriminate|]. apply elem_of_app. right. constructor.
    + rewrite IH. split.
      * intros (l1 & e1 & l2 & -> & F1 & N). exists l1, e1, (l2 ++ [e]). split; [rewrite <- app_assoc; reflexivity|].
        split; [exact F1|]. intros e'. rewrite elem_of_app, elem_of_list_singleton. intros [?| ->]; auto.
      * intros (l1 & e1 & l2 & E & F1 & N). destruct l2 as [|x l2 _] using rev_ind.
        -- apply app_inj_tail in E. destruct E as [_ ->]. congruence.
        -- rewrite app_comm_cons, app_assoc in E. apply app_inj_tail in E. destruct E as [-> ->].
           exists l1, e1, l2. split; [reflexivity|]. split; [exact F1|]. intros e' He'. apply N.
           apply elem_of_app. auto.
Qed.

Lemma find_map_none {A B} (f : A -> option B) es :
  find_map f es = None <-> forall e, e ∈ es -> f e = None.
Proof.
  induction es as [|e es IH]; cbn.
  - split; [|done]. intros _ e He. now apply elem_of_nil in He.
  - destruct (f e) eqn:F.
    + split; [discriminate|]. intros H. rewrite H in F; [discriminate|constructor].
    + rewrite IH. split.
      * intros H e'. rewrite elem_of_cons. intros [->|?]; auto.
      * intros H e' He'. apply H. now constructor.
Qed.

(** ** [last_update] *)

Lemma last_update_snoc_hit es ts tx n old m msg m' :
  last_update (es ++ [RefUpdateEvent ts tx n old m msg]) n m' <-> m' = m.
Proof.
  split.
  - intros (b & ts' & tx' & old' & msg' & a & E & N).
    destruct a as [|x a _] using rev_ind.
    + apply app_inj_tail in E. destruct E as [_ E]. congruence.
    + rewrite app_comm_cons, app_assoc in E. apply app_inj_tail in E. destruct E as [_ <-].
      exfalso. eapply N; [apply elem_of_app; right; constructor|]. reflexivity.
  - intros ->. exists es, ts, tx, old, msg, []. split; [reflexivity|].
    intros e He. now apply elem_of_nil in He.
Qed.

Lemma last_update_snoc_miss es e n m :
  ~ updates e n -> last_update (es ++ [e]) n m <-> last_update es n m.
Proof.
  intros Hu. split.
  - intros (b & ts' & tx' & old' & msg' & a & E & N).
    destruct a as [|x a _] using rev_ind.
    + apply app_inj_tail in E. destruct E as [_ ->]. exfalso. apply Hu. reflexivity.
    + rewrite app_comm_cons, app_assoc in E. apply app_inj_tail in E. destruct E as [-> ->].
      exists b, ts', tx', old', msg', a. split; [reflexivity|]. intros e' He'. apply N.
      apply elem_of_app. auto.
  - intros (b & ts' & tx' & old' & msg' & a & -> & N).
    exists b, ts', tx', old', msg', (a ++ [e]). split; [rewrite <- app_assoc; reflexivity|].
    intros e'. rewrite elem_of_app, elem_of_list_singleton. intros [?| ->]; auto.
Qed.

Lemma last_update_nil n m : ~ last_update [] n m.
Proof. intros (b & ? & ? & ? & ? & a & E & _). destruct b; discriminate. Qed.

Lemma updates_dec e n : {updates e n} + {~ updates e n}.
Proof. destruct e; cbn; try (right; tauto). apply string_dec. Qed.

Lemma updates_inv e n : updates e n -> exists ts tx old m msg, e = RefUpdateEvent ts tx n old m msg.
Proof. destruct e; cbn; try done. intros ->. eauto 6. Qed.

Lemma last_update_unique es n m m' : last_update es n m -> last_update es n m' -> m = m'.
Proof.
  induction es as [|e es IH] using rev_ind.
  - intros H. now apply last_update_nil in H.
  - destruct (updates_dec e n) as [Hu|Hu].
    + apply updates_inv in Hu. destruct Hu as (ts & tx & old & m0 & msg & ->).
      rewrite !last_update_snoc_hit. congruence.
    + rewrite !last_update_snoc_miss by exact Hu. exact IH.
Qed.

(** The table of locations. *)
Definition ref_table (es : list event) : gmap refname oid := fold_left apply_ref_update es ∅.

Lemma ref_table_snoc es e : ref_table (es ++ [e]) = apply_ref_update (ref_table es) e.
Proof. unfold ref_table. rewrite fold_left_app. reflexivity. Qed.

Lemma ref_table_spec es n o : ref_table es !! n = Some o <-> last_update es n (NonZero o).
Proof.
  induction es as [|e es IH] using rev_ind.
  - unfold ref_table. cbn. rewrite lookup_empty. split; [discriminate|]. intros H.
    now apply last_update_nil in H.
  - rewrite ref_table_snoc. destruct (updates_dec e n) as [Hu|Hu].
    + apply updates_inv in Hu. destruct Hu as (ts & tx & old & m0 & msg & ->).
      rewrite last_update_snoc_hit. cbn. destruct m0 as [|o'].
      * rewrite lookup_delete. split; discriminate.
      * rewrite lookup_insert. split; congruence.
    + rewrite last_update_snoc_miss by exact Hu. rewrite <- IH.
      destruct e as [| ? ? n' ? m' ?| | | |]; cbn in *; try reflexivity.
      destruct m' as [|o']; [rewrite lookup_delete_ne by done|rewrite lookup_insert_ne by done]; reflexivity.
Qed.

(** ** Historical branch table *)

Lemma cursor_branch_oid_spec r c n :
  valid_cursor r c ->
  exists res, cursor_branch_oid r c n = Some res /\
    forall o, res = Some o <->
      exists before ts tx old msg after,
        upto (events r) c = before ++ RefUpdateEvent ts tx n old (NonZero o) msg :: after /\
        forall ts' tx' old' o' msg', RefUpdateEvent ts' tx' n old' (NonZero o') msg' ∉ after.
Proof.
  intros Hc. unfold cursor_branch_oid. rewrite slice_upto by exact Hc.
  eexists. split; [reflexivity|]. intros o. rewrite find_map_rev. split.
  - intros (l1 & e & l2 & E & F & N).
    destruct e as [| ts tx n' old m msg| | | |]; try discriminate.
    destruct m as [|o']; [discriminate|]. destruct (String.eqb_spec n' n) as [->|]; [|discriminate].
    injection F as ->. exists l1, ts, tx, old, msg, l2. split; [exact E|].
    intros ts' tx' old' o' msg' Hin. specialize (N _ Hin). cbn in N.
    rewrite String.eqb_refl in N. discriminate.
  - intros (b & ts & tx & old & msg & a & E & N).
    exists b, (RefUpdateEvent ts tx n old (NonZero o) msg), a. split; [exact E|].
    split; [rewrite String.eqb_refl; reflexivity|]. intros e He.
    destruct e as [| ts' tx' n' old' m' msg'| | | |]; try reflexivity.
    destruct m' as [|o']; [reflexivity|]. destruct (String.eqb_spec n' n) as [->|]; [|reflexivity].
    exfalso. eapply N. exact He.
Qed.

Lemma cursor_main_total r c n now : valid_cursor r c -> exists o, cursor_main_oid r c n now = Some o.
Proof.
  intros Hc. unfold cursor_main_oid.
  destruct (cursor_branch_oid_spec r c n Hc) as ([o|] & -> & _); eauto.
Qed.

(** When the last movement of the branch before the cursor is not a deletion,
    its target is reported; when there was no movement, the present location. *)
Lemma cursor_main_not_deleted r c n now o :
  valid_cursor r c -> last_update (upto (events r) c) n (NonZero o) ->
  cursor_main_oid r c n now = Some o.
Proof.
  intros Hc (b & ts & tx & old & msg & a & E & N). unfold cursor_main_oid.
  destruct (cursor_branch_oid_spec r c n Hc) as (res & -> & Hres).
  rewrite (proj2 (Hres o)); [reflexivity|]. exists b, ts, tx, old, msg, a. split; [exact E|].
  intros ts' tx' old' o' msg' Hin. apply (N _ Hin). reflexivity.
Qed.

Lemma cursor_main_unobserved r c n now :
  valid_cursor r c -> (forall e, e ∈ upto (events r) c -> ~ updates e n) ->
  cursor_main_oid r c n now = Some now.
Proof.
  intros Hc H. unfold cursor_main_oid.
  destruct (cursor_branch_oid_spec r c n Hc) as ([o|] & -> & Hres); [|reflexivity].
  destruct (proj1 (Hres o) eq_refl) as (b & ts & tx & old & msg & a & E & _).
  exfalso. eapply H; [rewrite E; apply elem_of_app; right; constructor|]. reflexivity.
Qed.

Lemma strip_prefix_spec p s rest : strip_prefix p s = Some rest <-> s = String.append p rest.
Proof.
  revert s. induction p as [|a p IH]; intros s.
  - change (String.append "" rest) with rest. cbn. split; congruence.
  - change (String.append (String a p) rest) with (String a (String.append p rest)). cbn.
    destruct s as [|b s]; [split; discriminate|].
    destruct (Ascii.eqb_spec a b) as [->|Hne].
    + rewrite IH. split; [intros ->; reflexivity|]. intros E. injection E as ->. reflexivity.
    + split; [discriminate|]. intros E. injection E as -> _. done.
Qed.

Lemma starts_with_spec p s : starts_with p s = true <-> exists rest, s = String.append p rest.
Proof.
  unfold starts_with. destruct (strip_prefix p s) as [rest|] eqn:E.
  - apply strip_prefix_spec in E. split; [eauto|reflexivity].
  - split; [discriminate|]. intros [rest H]. apply strip_prefix_spec in H. congruence.
Qed.

Lemma cursor_branches_spec r c repo_main now :
  valid_cursor r c ->
  exists res m, cursor_branches r c repo_main now = Some res /\
    cursor_main_oid r c repo_main now = Some m /\
    forall o n, (o, n) ∈ res <->
      ((exists rest, n = String.append "refs/heads/" rest) /\
       last_update (upto (events r) c) n (NonZero o)) \/
      (n = main_name r /\ o = m).
Proof.
  intros Hc. unfold cursor_branches. rewrite slice_upto by exact Hc.
  destruct (cursor_main_total r c repo_main now Hc) as [m Hm]. rewrite Hm.
  eexists _, m. split; [reflexivity|]. split; [reflexivity|]. intros o n.
  rewrite elem_of_app, elem_of_list_singleton.
  assert (A : (o, n) ∈ List.map (fun p : refname * oid => (snd p, fst p))
                (List.filter (fun p => is_local_branch (fst p)) (map_to_list (ref_table (upto (events r) c))))
              <-> (exists rest, n = String.append "refs/heads/" rest) /\
                  last_update (upto (events r) c) n (NonZero o)).
  { rewrite <- ref_table_spec, <- starts_with_spec, elem_of_list_In, in_map_iff. split.
    - intros ([n' o'] & E & Hin). cbn in E. injection E as <- <-.
      apply filter_In in Hin. destruct Hin as [H1 H2].
      apply elem_of_list_In, elem_of_map_to_list in H1. auto.
    - intros [H1 H2]. exists (n, o). split; [reflexivity|]. apply filter_In. split; [|exact H1].
      apply elem_of_list_In, elem_of_map_to_list. exact H2. }
  unfold ref_table in A. rewrite A. split.
  - intros [H|E]; [auto|]. injection E as -> ->. auto.
  - intros [H|[-> ->]]; auto.
Qed.

(** ** HEAD *)

Lemma cursor_head_spec r c :
  valid_cursor r c ->
  exists res, cursor_head_oid r c = Some res /\
    forall o, res = Some o <->
      exists before e after, upto (events r) c = before ++ e :: after /\ head_evidence e o /\
        forall e' o', e' ∈ after -> ~ head_evidence e' o'.
Proof.
  intros Hc. unfold cursor_head_oid. rewrite slice_upto by exact Hc.
  eexists. split; [reflexivity|]. intros o.
  match goal with |- find_map ?f _ = _ <-> _ => set (g := f) end.
  assert (G : forall e o, g e = Some o <-> head_evidence e o).
  { intros e o'. destruct e as [| ts tx n old m msg| | | |ts tx h o2 n]; cbn.
    - split; done.
    - destruct m as [|o3]; [split; [done|]; intros [_ ?]; done|].
      destruct (String.eqb_spec n "HEAD") as [->|Hne].
      + split; [intros E; injection E as ->; done|]. intros [_ E]. congruence.
      + split; [done|]. intros [? _]. done.
    - split; congruence.
    - split; done.
    - split; done.
    - destruct h as [|o3]; [split; done|]. split; congruence. }
  rewrite find_map_rev. split.
  - intros (l1 & e & l2 & E & F & N). exists l1, e, l2. split; [exact E|]. split; [apply G; exact F|].
    intros e' o' He' Hev. apply G in Hev. rewrite N in Hev by exact He'. discriminate.
  - intros (l1 & e & l2 & E & F & N). exists l1, e, l2. split; [exact E|]. split; [apply G; exact F|].
    intros e' He'. destruct (g e') as [o'|] eqn:X; [|reflexivity].
    exfalso. eapply N; [exact He'|]. apply G. exact X.
Qed.

(** ** Cleaning of raw events *)

Lemma ignored_spec n : should_ignore_ref_updates n = true <-> untracked n.
Proof.
  unfold should_ignore_ref_updates, untracked, is_gc_ref.
  destruct (starts_with "refs/branchless/" n) eqn:E.
  - apply starts_with_spec in E. split; [left; exact E|reflexivity].
  - rewrite existsb_exists. split.
    + intros (x & Hin & Hx). apply String.eqb_eq in Hx. subst. right. apply elem_of_list_In. exact Hin.
    + intros [H|H].
      * apply starts_with_spec in H. congruence.
      * exists n. split; [apply elem_of_list_In; exact H|]. apply String.eqb_refl.
Qed.

Lemma replay_snoc main log e : replay main (log ++ [e]) = process_event (replay main log) e.
Proof. unfold replay. rewrite fold_left_app. reflexivity. Qed.

Lemma replay_main main log : main_name (replay main log) = main.
Proof.
  induction log as [|e log IH] using rev_ind; [reflexivity|]. rewrite replay_snoc.
  destruct (process_event_cases (replay main log) e) as [->|(e' & _ & ->)]; [exact IH|]. exact IH.
Qed.

Lemma ref_locations_table main log :
  ref_locations (replay main log) = ref_table (events (replay main log)).
Proof.
  induction log as [|e log IH] using rev_ind; [reflexivity|]. rewrite replay_snoc.
  destruct (process_event_cases (replay main log) e) as [->|(e' & _ & ->)]; [exact IH|].
  cbn [record_event ref_locations events]. rewrite ref_table_snoc, <- IH.
  destruct e' as [| ? ? n ? m ?| | | |]; reflexivity.
Qed.

(** What [process_event] does to the list of events. *)
Lemma process_event_effect r e :
  (events (process_event r e) = events r /\
    exists ts tx n old m msg, e = RefUpdateEvent ts tx n old m msg /\
      (untracked n \/
       (m = Zero /\ exists l ts' tx' old', events r = l ++ [RefUpdateEvent ts' tx' n old' Zero msg]))) \/
  (exists e', events (process_event r e) = events r ++ [e'] /\
    (forall n, updates e n -> ~ untracked n) /\
    (e' = e \/ exists ts tx n msg, e = RefUpdateEvent ts tx n Zero Zero msg /\
       e' = RefUpdateEvent ts tx n (moid_of_option (ref_locations r !! n)) Zero msg)).
Proof.
  unfold process_event.
  destruct e as [ts tx a b|ts tx n old m msg|ts tx o|ts tx o|ts tx o|ts tx h o n].
  - right. eexists. split; [reflexivity|]. split; [intros ? []|]. auto.
  - destruct (should_ignore_ref_updates n) eqn:I.
    + left. split; [reflexivity|]. exists ts, tx, n, old, m, msg. split; [reflexivity|]. left.
      apply ignored_spec. exact I.
    + assert (U : forall n', updates (RefUpdateEvent ts tx n old m msg) n' -> ~ untracked n').
      { cbn. intros n' <- H. apply ignored_spec in H. congruence. }
      destruct m as [|o].
      * assert (F : exists old', fix_old_oid r (RefUpdateEvent ts tx n old Zero msg) =
                    RefUpdateEvent ts tx n old' Zero msg /\
                    (old' = old \/ (old = Zero /\ old' = moid_of_option (ref_locations r !! n)))).
        { cbn. destruct old; eauto. }
        destruct F as (old' & F & Fo). unfold fix_event. rewrite F.
        assert (R : exists e', events r ++ [RefUpdateEvent ts tx n old' Zero msg] = events r ++ [e'] /\
           (forall n', updates (RefUpdateEvent ts tx n old Zero msg) n' -> ~ untracked n') /\
           (e' = RefUpdateEvent ts tx n old Zero msg \/
            exists ts0 tx0 n0 msg0, RefUpdateEvent ts tx n old Zero msg = RefUpdateEvent ts0 tx0 n0 Zero Zero msg0 /\
              e' = RefUpdateEvent ts0 tx0 n0 (moid_of_option (ref_locations r !! n0)) Zero msg0)).
        { eexists. split; [reflexivity|]. split; [exact U|]. destruct Fo as [->|[-> ->]]; [auto|].
          right. eauto 6. }
        destruct (last (events r)) as [x|] eqn:Ev; [|right; exact R].
        destruct x as [| ts' tx' n' old'' m' msg'| | | |]; try (right; exact R).
        destruct m' as [|o']; [|right; exact R].
        case_decide as D.
        -- left. split; [reflexivity|]. destruct D as [<- <-]. exists ts, tx, n, old, Zero, msg.
           split; [reflexivity|]. right. split; [reflexivity|].
           apply last_Some in Ev. destruct Ev as [l Ev]. eauto.
        -- right. exact R.
      * right. exists (RefUpdateEvent ts tx n old (NonZero o) msg).
        assert (E : fix_event r (RefUpdateEvent ts tx n old (NonZero o) msg) =
                    Some (RefUpdateEvent ts tx n old (NonZero o) msg)).
        { unfold fix_event. cbn. destruct old; destruct (last (events r)) as [[]|]; reflexivity. }
        rewrite E. split; [reflexivity|]. split; [exact U|]. auto.
  - right. eexists. split; [reflexivity|]. split; [intros ? []|]. auto.
  - right. eexists. split; [reflexivity|]. split; [intros ? []|]. auto.
  - right. eexists. split; [reflexivity|]. split; [intros ? []|]. auto.
  - right. eexists. split; [reflexivity|]. split; [intros ? []|]. auto.
Qed.

Lemma replay_positions main log n m :
  ~ untracked n ->
  last_update (events (replay main log)) n m <-> last_update log n m.
Proof.
  intros Hn. revert m. induction log as [|e log IH] using rev_ind; intros m; [reflexivity|].
  rewrite replay_snoc.
  destruct (process_event_effect (replay main log) e) as
    [(E & ts & tx & n' & old & m' & msg & -> & H)|(e' & E & U & H)]; rewrite E.
  - destruct (decide (n' = n)) as [->|Hne].
    + destruct H as [H|(-> & l & ts' & tx' & old' & El)]; [done|].
      rewrite last_update_snoc_hit, El, last_update_snoc_hit. reflexivity.
    + rewrite last_update_snoc_miss by (cbn; done). apply IH.
  - destruct (updates_dec e n) as [Hu|Hu].
    + apply updates_inv in Hu. destruct Hu as (ts & tx & old & m0 & msg & ->).
      destruct H as [->|(ts' & tx' & n' & msg' & E1 & ->)].
      * rewrite !last_update_snoc_hit. reflexivity.
      * injection E1 as -> -> -> -> -> ->. rewrite !last_update_snoc_hit. reflexivity.
    + assert (Hu' : ~ updates e' n).
      { destruct H as [->|(ts' & tx' & n' & msg' & -> & ->)]; exact Hu. }
      rewrite !last_update_snoc_miss by assumption. apply IH.
Qed.

Lemma replay_others main log :
  filter (fun e => ~ is_ref_update e) (events (replay main log)) =
  filter (fun e => ~ is_ref_update e) log.
Proof.
  induction log as [|e log IH] using rev_ind; [reflexivity|]. rewrite replay_snoc, filter_app.
  destruct (process_event_effect (replay main log) e) as
    [(E & ts & tx & n' & old & m' & msg & -> & _)|(e' & E & _ & H)]; rewrite E.
  - rewrite (filter_cons_False _ _ []) by (cbn; tauto). rewrite filter_nil, app_nil_r. exact IH.
  - rewrite filter_app, IH. f_equal.
    destruct H as [->|(ts' & tx' & n' & msg' & -> & ->)]; [reflexivity|].
    rewrite !filter_cons_False by (cbn; tauto). reflexivity.
Qed.

Lemma replay_sublist main log :
  List.map forget_old (events (replay main log)) `sublist_of` List.map forget_old log.
Proof.
  induction log as [|e log IH] using rev_ind; [reflexivity|]. rewrite replay_snoc, map_app.
  destruct (process_event_effect (replay main log) e) as
    [(E & _)|(e' & E & _ & H)]; rewrite E.
  - apply sublist_inserts_r. exact IH.
  - rewrite map_app. apply sublist_app; [exact IH|]. cbn.
    destruct H as [->|(ts' & tx' & n' & msg' & -> & ->)]; reflexivity.
Qed.

Lemma replay_tracked main log e n :
  e ∈ events (replay main log) -> updates e n -> ~ untracked n.
Proof.
  induction log as [|x log IH] using rev_ind.
  - intros H. now apply elem_of_nil in H.
  - rewrite replay_snoc.
    destruct (process_event_effect (replay main log) x) as
      [(E & _)|(e' & E & U & H)]; rewrite E; [exact IH|].
    rewrite elem_of_app, elem_of_list_singleton. intros [Hin| ->] Hu; [auto|].
    apply U. destruct H as [->|(ts' & tx' & n' & msg' & -> & ->)]; exact Hu.
Qed.

(** Old values: kept as recorded, except that a deletion recorded without one
    gets the position the reference had in the log so far. *)
Lemma replay_old_values main log before ts tx n old m msg after :
  events (replay main log) = before ++ RefUpdateEvent ts tx n old m msg :: after ->
  RefUpdateEvent ts tx n old m msg ∈ log \/
  (m = Zero /\ RefUpdateEvent ts tx n Zero Zero msg ∈ log /\
   forall o, old = NonZero o <-> last_update before n (NonZero o)).
Proof.
  revert before after. induction log as [|x log IH] using rev_ind; intros before after Hev.
  - destruct before; discriminate.
  - rewrite replay_snoc in Hev.
    destruct (process_event_effect (replay main log) x) as
      [(E & _)|(e' & E & U & H)]; rewrite E in Hev.
    + destruct (IH _ _ Hev) as [?|(? & ? & ?)].
      * left. apply elem_of_app. auto.
      * right. split; [assumption|]. split; [apply elem_of_app; auto|assumption].
    + destruct after as [|y after _] using rev_ind.
      * apply app_inj_tail in Hev. destruct Hev as [<- ->].
        destruct H as [<-|(ts' & tx' & n' & msg' & -> & E2)].
        -- left. apply elem_of_app. right. constructor.
        -- injection E2 as -> -> -> -> -> ->. right. split; [reflexivity|].
           split; [apply elem_of_app; right; constructor|]. intros o.
           rewrite <- ref_table_spec, <- ref_locations_table.
           destruct (ref_locations (replay main log) !! n'); cbn; split; congruence.
      * rewrite app_comm_cons, app_assoc in Hev. apply app_inj_tail in Hev. destruct Hev as [Hev _].
        destruct (IH _ _ Hev) as [?|(? & ? & ?)].
        -- left. apply elem_of_app. auto.
        -- right. split; [assumption|]. split; [apply elem_of_app; auto|assumption].
Qed.

(** No deletion of a reference that had a position is left without old value. *)
Lemma process_event_events r e :
  events (process_event r e) = events r \/ events (process_event r e) = events r ++ [fix_old_oid r e].
Proof.
  unfold process_event. destruct (match e with RefUpdateEvent _ _ _ _ _ _ => _ | _ => _ end); [auto|].
  destruct (fix_event r e) as [e'|] eqn:F; [|auto]. right.
  assert (e' = fix_old_oid r e) as ->.
  { unfold fix_event in F. cbv zeta in F. destruct (fix_old_oid r e) as [|? ? ? ? [|?] ?| | | |]; try congruence.
    destruct (last (events r)) as [[|? ? ? ? [|?] ?| | | |]|]; try congruence.
    destruct (decide _); congruence. }
  destruct (fix_old_oid r e); reflexivity.
Qed.

Lemma replay_deletions main log before ts tx n msg after :
  events (replay main log) = before ++ RefUpdateEvent ts tx n Zero Zero msg :: after ->
  forall o, ~ last_update before n (NonZero o).
Proof.
  revert before after. induction log as [|x log IH] using rev_ind; intros before after Hev.
  - destruct before; discriminate.
  - rewrite replay_snoc in Hev. destruct (process_event_events (replay main log) x) as [E|E]; rewrite E in Hev.
    + eapply IH. exact Hev.
    + destruct after as [|y after _] using rev_ind.
      * apply app_inj_tail in Hev. destruct Hev as [<- F]. intros o.
        rewrite <- ref_table_spec, <- ref_locations_table.
        destruct x as [|? ? n' [|?] [|?] ?| | | |]; try discriminate. cbn in F. injection F as -> -> -> F ->.
        destruct (ref_locations (replay main log) !! n); [discriminate|]. cbn. congruence.
      * rewrite app_comm_cons, app_assoc in Hev. apply app_inj_tail in Hev. destruct Hev as [Hev _].
        eapply IH. exact Hev.
Qed.

(** On the whole log the visibility may be read off the raw events. *)
Lemma last_concerning_filter es o e :
  last_concerning es o e <-> last_concerning (filter (fun x => ~ is_ref_update x) es) o e.
Proof.
  assert (R : forall x, is_ref_update x -> ~ concerns x o).
  { intros []; cbn; unfold concerns; cbn; tauto. }
  induction es as [|x es IH] using rev_ind; [reflexivity|]. rewrite filter_app.
  assert (S : forall l y, last_concerning (l ++ [y]) o e <->
            (concerns y o /\ e = y) \/ (~ concerns y o /\ last_concerning l o e)).
  { clear. intros l y. split.
    - intros (b & a & E & C & N). destruct a as [|z a _] using rev_ind.
      + apply app_inj_tail in E. destruct E as [_ ->]. auto.
      + rewrite app_comm_cons, app_assoc in E. apply app_inj_tail in E. destruct E as [-> ->].
        right. split; [apply N; apply elem_of_app; right; constructor|].
        exists b, a. split; [reflexivity|]. split; [exact C|]. intros e' He'. apply N. apply elem_of_app. auto.
    - intros [[C ->]|[C (b & a & -> & C' & N)]].
      + exists l, []. split; [reflexivity|]. split; [exact C|]. intros e' He'. now apply elem_of_nil in He'.
      + exists b, (a ++ [y]). split; [rewrite <- app_assoc; reflexivity|]. split; [exact C'|].
        intros e'. rewrite elem_of_app, elem_of_list_singleton. intros [?| ->]; auto. }
  rewrite S. destruct (decide (is_ref_update x)) as [Hx|Hx].
  - rewrite (filter_cons_False _ _ []) by tauto. rewrite filter_nil, app_nil_r, <- IH.
    specialize (R x Hx). tauto.
  - rewrite (filter_cons_True _ _ []) by tauto. rewrite filter_nil, S, IH. tauto.
Qed.

Lemma concerns_not_ref e o : concerns e o -> ~ is_ref_update e.
Proof. destruct e; unfold concerns; cbn; tauto. Qed.

Lemma visibility_raw main log o a :
  visibility (events (replay main log)) o a <-> visibility log o a.
Proof.
  assert (L : forall e, last_concerning (events (replay main log)) o e <-> last_concerning log o e).
  { intros e. rewrite last_concerning_filter, replay_others, <- last_concerning_filter. reflexivity. }
  assert (M : forall e, concerns e o -> e ∈ events (replay main log) <-> e ∈ log).
  { intros e C. apply concerns_not_ref in C.
    assert (X : forall l : list event, e ∈ l <-> e ∈ filter (fun e => ~ is_ref_update e) l).
    { intros l. rewrite elem_of_list_filter. tauto. }
    rewrite (X (events _)), (X log), replay_others. reflexivity. }
  destruct a; cbn.
  - setoid_rewrite L. reflexivity.
  - split; intros H e He C; apply (H e); auto; apply M; auto.
  - setoid_rewrite L. reflexivity.
Qed.

Lemma upto_all es : upto es (Z.of_nat (length es)) = es.
Proof. unfold upto. rewrite Nat2Z.id. apply firstn_all. Qed.

Lemma default_cursor_spec r : default_cursor r = Z.of_nat (length (events r)).
Proof. unfold default_cursor. rewrite make_cursor_spec. unfold len. lia. Qed.

Lemma status_now main log o a :
  commit_status (replay main log) (default_cursor (replay main log)) o = a <-> visibility log o a.
Proof.
  rewrite <- (visibility_raw main). rewrite default_cursor_spec.
  rewrite commit_status_spec; [|apply replay_invariant|unfold valid_cursor; lia].
  rewrite upto_all. reflexivity.
Qed.

(** ** Stability of the past *)

Lemma replay_extends main l1 l2 :
  exists ext, events (replay main (l1 ++ l2)) = events (replay main l1) ++ ext.
Proof.
  induction l2 as [|e l2 IH] using rev_ind.
  - rewrite app_nil_r. exists []. rewrite app_nil_r. reflexivity.
  - rewrite app_assoc, replay_snoc. destruct IH as [ext IH].
    destruct (process_event_effect (replay main (l1 ++ l2)) e) as [(E & _)|(e' & E & _)]; rewrite E, IH.
    + eauto.
    + exists (ext ++ [e']). rewrite <- app_assoc. reflexivity.
Qed.

Lemma upto_app es ext c :
  0 <= c <= Z.of_nat (length es) -> upto (es ++ ext) c = upto es c.
Proof. intros H. unfold upto. apply take_app_le. lia. Qed.

Section Stable.
  Context (main : refname) (l1 l2 : list event) (c : Z).
  Let r1 := replay main l1.
  Let r2 := replay main (l1 ++ l2).
  Hypothesis valid : valid_cursor r1 c.

  Lemma stable_valid : valid_cursor r2 c.
  Proof.
    destruct (replay_extends main l1 l2) as [ext E]. unfold valid_cursor, r2, r1 in *.
    rewrite E, app_length. lia.
  Qed.

  Lemma stable_upto : upto (events r2) c = upto (events r1) c.
  Proof.
    destruct (replay_extends main l1 l2) as [ext E]. unfold r2. rewrite E. apply upto_app. exact valid.
  Qed.

  Lemma stable_history o : cursor_history r2 c o = cursor_history r1 c o.
  Proof.
    rewrite !cursor_history_spec; [rewrite stable_upto; reflexivity|apply replay_invariant|exact valid
      |apply replay_invariant|exact stable_valid].
  Qed.

  Lemma stable_status o : commit_status r2 c o = commit_status r1 c o.
  Proof. unfold commit_status. rewrite stable_history. reflexivity. Qed.

  Lemma stable_latest o : latest_event r2 c o = latest_event r1 c o.
  Proof. unfold latest_event. rewrite stable_history. reflexivity. Qed.

  Lemma stable_oids o : o ∈ cursor_oids r2 c <-> o ∈ cursor_oids r1 c.
  Proof.
    rewrite !cursor_oids_spec; [rewrite stable_upto; reflexivity|apply replay_invariant|exact valid
      |apply replay_invariant|exact stable_valid].
  Qed.

  Lemma stable_slice : slice (events r2) 0 c = slice (events r1) 0 c.
  Proof. rewrite !slice_upto; [rewrite stable_upto; reflexivity|exact valid|exact stable_valid]. Qed.

  Lemma stable_head : cursor_head_oid r2 c = cursor_head_oid r1 c.
  Proof. unfold cursor_head_oid. rewrite stable_slice. reflexivity. Qed.

  Lemma stable_branches repo_main now :
    cursor_branches r2 c repo_main now = cursor_branches r1 c repo_main now.
  Proof.
    unfold cursor_branches, cursor_main_oid, cursor_branch_oid. rewrite stable_slice.
    unfold r1, r2. rewrite !replay_main. reflexivity.
  Qed.

  Lemma stable_tx_events : tx_events_before_cursor r2 c = tx_events_before_cursor r1 c.
  Proof.
    destruct (Z.eq_dec c 0) as [E|Hne].
    - rewrite E, !tx_events_start. reflexivity.
    - assert (Hpos : 0 < c) by (unfold valid_cursor in valid; lia).
      destruct (tx_events_spec r1 c valid Hpos) as (s1 & g1 & -> & R1).
      destruct (tx_events_spec r2 c stable_valid Hpos) as (s2 & g2 & -> & R2).
      assert (R1' : latest_run (events r2) c s1 g1).
      { destruct (replay_extends main l1 l2) as [ext E]. unfold r2. rewrite E.
        destruct R1 as (pre & post & t & Ep & H). exists pre, (post ++ ext), t.
        split; [|exact H]. unfold r1 in Ep. rewrite Ep, <- !app_assoc. reflexivity. }
      destruct (latest_run_unique _ _ _ _ _ _ R1' R2) as [-> ->]. reflexivity.
  Qed.
End Stable.
