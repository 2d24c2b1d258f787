(** Proofs about the test runner: an invariant of all executions. *)
From Verif Require Import Base TextModel EventLogModel EvolveModel DagModel DagSpec DagProofs.
From Verif Require Import BisectModel BisectSpec BisectProofs BisectSearchProofs RunnerModel RunnerSpec QueueProofs.

(** ** Jobs under way *)

Definition job_of_worker (w : worker_state) : option oid :=
  match w with WRunning j => Some j | _ => None end.
Definition job_of_message (m : job_result) : oid :=
  match m with JobDone j _ => j | JobError _ j => j end.
Definition live (s : system) : list oid :=
  omap job_of_worker (sy_workers s) ++ List.map job_of_message (sy_channel s).

Local Arguments live : simpl never.

Lemma worker_split (ws : list worker_state) w a : ws !! w = Some a ->
  exists l1 l2, ws = l1 ++ a :: l2 /\ forall x, <[w := x]> ws = l1 ++ x :: l2.
Proof.
  intros H. exists (take w ws), (drop (S w) ws). split.
  - symmetry. by apply take_drop_middle.
  - intros x. apply insert_take_drop. by apply lookup_lt_Some in H.
Qed.

Lemma omap_insert (ws : list worker_state) w a x : ws !! w = Some a ->
  omap job_of_worker (<[w := x]> ws) ++ option_list (job_of_worker a) ≡ₚ
  omap job_of_worker ws ++ option_list (job_of_worker x).
Proof.
  intros H. destruct (worker_split ws w a H) as (l1 & l2 & Hl & Hi). rewrite Hi, Hl, !omap_app. cbn.
  destruct (job_of_worker x), (job_of_worker a); cbn; solve_Permutation.
Qed.

Lemma in_progress_spec s : in_progress s = true <-> exists j, s !! j = Some JScheduled.
Proof.
  unfold in_progress. rewrite existsb_exists. split.
  - intros ([j d] & Hin & Hd). apply elem_of_list_In, elem_of_map_to_list in Hin.
    destruct d; [|done]. by exists j.
  - intros [j Hj]. exists (j, JScheduled). split; [|done]. by apply elem_of_list_In, elem_of_map_to_list.
Qed.

Lemma is_complete_spec s o : is_complete s o = true <-> exists t, s !! o = Some (JComplete t).
Proof.
  unfold is_complete. destruct (s !! o) as [[|t]|]; split; try done.
  - intros [t Ht]. done.
  - intros _. by exists t.
  - intros [t Ht]. done.
Qed.

Lemma schedule_jobs_lookup l : forall s j,
  schedule_jobs s l !! j = if bool_decide (j ∈ l) then Some JScheduled else s !! j.
Proof.
  unfold schedule_jobs. induction l as [|x l IH]; intros s j; cbn.
  - rewrite bool_decide_eq_false_2; [done|apply not_elem_of_nil].
  - rewrite IH. destruct (decide (j ∈ l)) as [Hj|Hj].
    + rewrite !bool_decide_eq_true_2; [done|by right|done].
    + rewrite (bool_decide_eq_false_2 (j ∈ l)) by done. destruct (decide (x = j)) as [->|Hne].
      * rewrite lookup_insert, bool_decide_eq_true_2; [done|by left].
      * rewrite lookup_insert_ne by done. rewrite bool_decide_eq_false_2; [done|].
        intros Hc. apply elem_of_cons in Hc as [->|Hc]; done.
Qed.

Lemma keep_complete_lookup s j :
  keep_complete s !! j = match s !! j with Some (JComplete t) => Some (JComplete t) | _ => None end.
Proof.
  unfold keep_complete. destruct (s !! j) as [[|t]|] eqn:E.
  - apply map_filter_lookup_None. right. intros x Hx. rewrite E in Hx. injection Hx as <-. done.
  - apply map_filter_lookup_Some. by split.
  - apply map_filter_lookup_None. by left.
Qed.

Lemma keep_complete_done s o : is_complete (keep_complete s) o = is_complete s o.
Proof. unfold is_complete. rewrite keep_complete_lookup. by destruct (s !! o) as [[|t]|]. Qed.

Lemma job_keys_gen l : forall acc, NoDup acc ->
  let r := fold_left (fun acc o => if bool_decide (o ∈ acc) then acc else acc ++ [o]) l acc in
  NoDup r /\ forall o : oid, o ∈ r <-> o ∈ acc \/ o ∈ l.
Proof.
  induction l as [|x l IH]; cbn; intros acc Hnd.
  - split; [done|]. intros o. rewrite elem_of_nil. tauto.
  - destruct (decide (x ∈ acc)) as [Hx|Hx].
    + rewrite bool_decide_eq_true_2 by done. destruct (IH acc Hnd) as [H1 H2]. split; [done|].
      intros o. rewrite H2, elem_of_cons. split; [tauto|]. intros [H|[->|H]]; tauto.
    + rewrite bool_decide_eq_false_2 by done. destruct (IH (acc ++ [x])) as [H1 H2].
      * apply NoDup_app. split; [done|]. split; [|apply NoDup_singleton].
        intros y Hy Hc. apply elem_of_list_singleton in Hc. by subst.
      * split; [done|]. intros o. rewrite H2, elem_of_app, elem_of_list_singleton, elem_of_cons. tauto.
Qed.
Lemma job_keys_nodup cf : NoDup (job_keys cf).
Proof. apply (job_keys_gen (cf_commits cf) []). apply NoDup_nil_2. Qed.
Lemma job_keys_spec cf o : o ∈ job_keys cf <-> o ∈ cf_commits cf.
Proof.
  destruct (job_keys_gen (cf_commits cf) [] (NoDup_nil_2)) as [_ H]. unfold job_keys. rewrite H, elem_of_nil. tauto.
Qed.

(** ** The invariant *)

Definition complete (s : system) (j : oid) (t : test_status) : Prop :=
  co_scheduled (sy_co s) !! j = Some (JComplete t).

(** Why the loop was left without an error. *)
Definition left_well (cf : config) (s : system) : Prop :=
  co_abort (sy_co s) <> None \/
  Forall (fun w => w = WPanicked) (sy_workers s) \/
  match cf_strategy cf with
  | None => forall j, j ∈ cf_commits cf -> exists t, complete s j t
  | Some st =>
    exists h, searching (cf_graph cf) (cf_commits cf) h (co_search (sy_co s)) /\
      (forall o b, (o, b) ∈ h <-> exists t, complete s o t /\ b = search_status t) /\
      forall o, o ∈ cf_commits cf -> ~ undecided (cf_graph cf) h o
  end.

Definition good_reason (cf : config) (ev : list event) (e : run_error) : Prop :=
  match e with
  | WorkerFailed w j => EErrored w j ∈ ev
  | NotifyFailed e =>
    cf_strategy cf <> None /\
    exists h se o t, searching (cf_graph cf) (cf_commits cf) h se /\
      (forall x b, (x, b) ∈ h -> exists t', (x, t') ∈ finished ev /\ b = search_status t') /\
      o ∈ cf_commits cf /\ ~ tested h o /\
      (o, t) ∈ finished ev /\ search_notify se o (search_status t) = inr e
  | WorkerPanicked => (exists w j, EPanicked w j ∈ ev) \/ exists w, ESetupFailed w ∈ ev
  | SearchFailed _ _ | SearchFuel | NoSuchJob _ => False
  end.

Record runner_inv (cf : config) (ev : list event) (s : system) : Prop := {
  ri_workers : length (sy_workers s) = cf_num_jobs cf;
  ri_queue_nodup : NoDup (wq_jobs (sy_queue s));
  ri_queue : forall j, j ∈ wq_jobs (sy_queue s) -> j ∉ wq_accepted (sy_queue s) /\ j ∈ cf_commits cf;
  ri_accepted : forall j, j ∈ wq_accepted (sy_queue s) <-> j ∈ started ev;
  ri_started : NoDup (started ev);
  ri_started_commits : forall j, j ∈ started ev -> j ∈ cf_commits cf;
  ri_live : NoDup (live s);
  ri_live_accepted : forall j, j ∈ live s -> j ∈ started ev /\ is_complete (co_scheduled (sy_co s)) j = false;
  ri_running : forall w j, sy_workers s !! w = Some (WRunning j) -> EStarted w j ∈ ev;
  ri_complete : forall j t, complete s j t -> j ∈ started ev /\ (j, t) ∈ finished ev;
  ri_messages : forall m, m ∈ sy_channel s ->
    match m with JobDone j t => (j, t) ∈ finished ev | JobError w j => EErrored w j ∈ ev end;
  ri_cover : receiver_alive (sy_control s) = true -> no_panic ev -> forall j, j ∈ started ev ->
    j ∈ live s \/ is_complete (co_scheduled (sy_co s)) j = true;
  ri_scheduled : receiver_alive (sy_control s) = true -> forall j, co_scheduled (sy_co s) !! j = Some JScheduled ->
    j ∈ wq_jobs (sy_queue s) \/ j ∈ wq_accepted (sy_queue s);
  ri_receive : sy_control s = CReceive ->
    (exists j, co_scheduled (sy_co s) !! j = Some JScheduled) /\ co_abort (sy_co s) = None;
  ri_active : wq_active (sy_queue s) =
    match sy_control s with CClosed _ | CReturned _ => false | _ => true end;
  ri_alive : receiver_alive (sy_control s) = true -> forall w, w ∈ sy_workers s -> w <> WExited;
  ri_all : cf_strategy cf = None -> sy_control s <> CStart ->
    forall j, j ∈ cf_commits cf -> is_Some (co_scheduled (sy_co s) !! j);
  ri_abort : co_abort (sy_co s) = None -> forall j c, ~ complete s j (TestAbort c);
  ri_aborted : forall j c, co_abort (sy_co s) = Some (j, c) -> complete s j (TestAbort c);
  ri_search : cf_strategy cf <> None ->
    exists h, searching (cf_graph cf) (cf_commits cf) h (co_search (sy_co s)) /\
      forall o b, (o, b) ∈ h <-> exists t, complete s o t /\ b = search_status t;
  ri_panicked : WPanicked ∈ sy_workers s -> (exists w j, EPanicked w j ∈ ev) \/ exists w, ESetupFailed w ∈ ev;
  ri_left : match sy_control s with
    | CLeft None | CClosed None => left_well cf s
    | CReturned (inl r) => left_well cf s /\ r = make_results cf (sy_co s) /\ WPanicked ∉ sy_workers s
    | CLeft (Some e) | CClosed (Some e) | CReturned (inr e) => good_reason cf ev e
    | _ => True
    end;
  ri_start : sy_control s = CStart -> co_scheduled (sy_co s) = ∅ /\ wq_jobs (sy_queue s) = [];
  ri_returned : forall r, sy_control s = CReturned r -> forallb ended (sy_workers s) = true;
}.

Lemma started_app e1 e2 : started (e1 ++ e2) = started e1 ++ started e2.
Proof. apply omap_app. Qed.
Lemma finished_app e1 e2 : finished (e1 ++ e2) = finished e1 ++ finished e2.
Proof. apply omap_app. Qed.
Lemma no_panic_app e1 e2 : no_panic (e1 ++ e2) -> no_panic e1.
Proof. intros H w j Hin. apply (H w j), elem_of_app. by left. Qed.

Lemma good_reason_mono cf ev e r : good_reason cf ev r -> good_reason cf (ev ++ e) r.
Proof.
  destruct r; cbn; try done.
  - intros H. apply elem_of_app. by left.
  - intros (Hs & h & se & o & t & H1 & H2 & H3 & H3' & H4 & H5). split; [done|]. exists h, se, o, t. split; [done|].
    split.
    { intros x b Hx. destruct (H2 x b Hx) as (t' & Ht & Hb). exists t'. split; [|done].
      rewrite finished_app. apply elem_of_app. by left. }
    split; [done|]. split; [done|]. split; [|done]. rewrite finished_app. apply elem_of_app. by left.
  - intros [(w & j & H)|(w & H)]; [left; exists w, j|right; exists w]; apply elem_of_app; by left.
Qed.

Lemma left_well_workers cf s w a q ws ch c : left_well cf s ->
  sy_workers s !! w = Some a -> ended a = false ->
  left_well cf (System q ws ch c (sy_co s)).
Proof.
  intros [H|[H|H]] Hw Ha; [by left| |right; by right].
  exfalso. rewrite Forall_lookup in H. apply H in Hw. by subst.
Qed.

Lemma elem_of_insert_list {A} (ws : list A) w x y : y ∈ <[w := x]> ws -> y = x \/ y ∈ ws.
Proof.
  intros H. apply elem_of_list_lookup in H as [i Hi]. apply list_lookup_insert_Some in Hi as [(_ & -> & _)|[_ Hi]].
  - by left.
  - right. by eapply elem_of_list_lookup_2.
Qed.

(** A worker not starting a test. *)
Lemma worker_inv cf ev s w a x ch e : runner_inv cf ev s ->
  sy_workers s !! w = Some a -> ended a = false ->
  (forall j, x <> WRunning j) -> started e = [] ->
  let s' := System (sy_queue s) (<[w := x]> (sy_workers s)) ch (sy_control s) (sy_co s) in
  (exists rest, live s' ++ rest ≡ₚ live s) ->
  (receiver_alive (sy_control s) = true -> no_panic e -> live s' ≡ₚ live s) ->
  (forall m, m ∈ ch -> m ∈ sy_channel s \/
     match m with JobDone j t => (j, t) ∈ finished e | JobError w j => EErrored w j ∈ e end) ->
  (x = WExited -> receiver_alive (sy_control s) = false) ->
  (x = WPanicked -> (exists w j, EPanicked w j ∈ e) \/ exists w, ESetupFailed w ∈ e) ->
  runner_inv cf (ev ++ e) s'.
Proof.
  intros Hi Hw Ha Hx He s' [rest Hrest] Hcov Hch Hex Hpan.
  assert (Hst : started (ev ++ e) = started ev) by (by rewrite started_app, He, app_nil_r).
  assert (Hsub : forall j, j ∈ live s' -> j ∈ live s).
  { intros j Hj. rewrite <- Hrest. apply elem_of_app. by left. }
  split; cbn.
  - rewrite insert_length. apply Hi.
  - apply Hi.
  - apply Hi.
  - rewrite Hst. apply Hi.
  - rewrite Hst. apply Hi.
  - rewrite Hst. apply Hi.
  - pose proof (ri_live _ _ _ Hi) as H. rewrite <- Hrest in H. by apply NoDup_app in H as [H _].
  - rewrite Hst. intros j Hj. by apply (ri_live_accepted _ _ _ Hi), Hsub.
  - intros w' j Hj. apply list_lookup_insert_Some in Hj as [(_ & Hj & _)|[_ Hj]].
    + by apply Hx in Hj.
    + apply elem_of_app. left. by apply (ri_running _ _ _ Hi).
  - rewrite Hst, finished_app. intros j t Hj. destruct (ri_complete _ _ _ Hi j t Hj) as [H1 H2]. split; [done|].
    apply elem_of_app. by left.
  - intros m Hm. rewrite finished_app. destruct (Hch m Hm) as [H|H].
    + apply (ri_messages _ _ _ Hi) in H. destruct m; apply elem_of_app; by left.
    + destruct m; apply elem_of_app; by right.
  - rewrite Hst. intros Hal Hnp j Hj.
    assert (Hnp' : no_panic e) by (intros w' j' Hin; apply (Hnp w' j'), elem_of_app; by right).
    rewrite (Hcov Hal Hnp'). apply (ri_cover _ _ _ Hi); [done|by eapply no_panic_app|done].
  - apply Hi.
  - apply Hi.
  - apply Hi.
  - intros Hal w' Hw' ->. apply elem_of_insert_list in Hw' as [Hw'|Hw'].
    + symmetry in Hw'. apply Hex in Hw'. congruence.
    + by apply (ri_alive _ _ _ Hi Hal _ Hw').
  - apply Hi.
  - apply Hi.
  - apply Hi.
  - apply Hi.
  - intros Hp. apply elem_of_insert_list in Hp as [Hp|Hp].
    + destruct (Hpan (eq_sym Hp)) as [(w' & j & H)|(w' & H)].
      * left. exists w', j. apply elem_of_app. by right.
      * right. exists w'. apply elem_of_app. by right.
    + destruct (ri_panicked _ _ _ Hi Hp) as [(w' & j & H)|(w' & H)].
      * left. exists w', j. apply elem_of_app. by left.
      * right. exists w'. apply elem_of_app. by left.
  - pose proof (ri_left _ _ _ Hi) as H. pose proof (ri_returned _ _ _ Hi) as Hr.
    destruct (sy_control s) as [| | |[r|]|[r|]|[r|r]]; try done.
    + by apply good_reason_mono.
    + by eapply left_well_workers.
    + by apply good_reason_mono.
    + by eapply left_well_workers.
    + specialize (Hr _ eq_refl). rewrite forallb_forall in Hr. apply elem_of_list_lookup_2, elem_of_list_In, Hr in Hw. congruence.
    + by apply good_reason_mono.
  - apply Hi.
  - intros r Hr. apply (ri_returned _ _ _ Hi) in Hr. rewrite forallb_forall in Hr.
    apply elem_of_list_lookup_2, elem_of_list_In, Hr in Hw. congruence.
Qed.

(** A worker starting a test. *)
Lemma pop_inv cf ev s w j q : runner_inv cf ev s -> sy_workers s !! w = Some WReady ->
  wq_pop (sy_queue s) = Some (Some j, q) ->
  runner_inv cf (ev ++ [EStarted w j])
    (System q (<[w := WRunning j]> (sy_workers s)) (sy_channel s) (sy_control s) (sy_co s)).
Proof.
  intros Hi Hw Hp. unfold wq_pop in Hp. destruct (wq_active (sy_queue s)) eqn:Ea; cbn [negb] in Hp; [|discriminate Hp].
  destruct (wq_jobs (sy_queue s)) as [|j' jobs] eqn:Ej; [discriminate Hp|]. injection Hp as -> <-.
  set (s' := System _ _ _ _ _).
  assert (Hlive : live s' ≡ₚ j :: live s).
  { unfold live, s'. cbn. pose proof (omap_insert (sy_workers s) w WReady (WRunning j) Hw) as H. cbn in H.
    rewrite app_nil_r in H. rewrite H. solve_Permutation. }
  pose proof (ri_queue _ _ _ Hi) as Hq. rewrite Ej in Hq. destruct (Hq j ltac:(by left)) as [Hjn Hjc].
  assert (Hjs : j ∉ started ev) by (by rewrite <- (ri_accepted _ _ _ Hi)).
  pose proof (ri_queue_nodup _ _ _ Hi) as Hnd. rewrite Ej in Hnd. apply NoDup_cons in Hnd as [Hjj Hnd].
  assert (Hst : forall x, x ∈ started (ev ++ [EStarted w j]) <-> x ∈ started ev \/ x = j).
  { intros x. rewrite started_app, elem_of_app. cbn. rewrite elem_of_list_singleton. done. }
  split; cbn.
  - rewrite insert_length. apply Hi.
  - done.
  - intros x Hx. destruct (Hq x ltac:(by right)) as [H1 H2]. split; [|done].
    rewrite elem_of_union, elem_of_singleton. intros [->|H]; done.
  - intros x. rewrite Hst, <- (ri_accepted _ _ _ Hi), elem_of_union, elem_of_singleton. tauto.
  - rewrite started_app. cbn. apply NoDup_app. split; [apply Hi|]. split; [|apply NoDup_singleton].
    intros x Hx Hc. apply elem_of_list_singleton in Hc. by subst.
  - intros x Hx. apply Hst in Hx as [Hx| ->]; [by apply (ri_started_commits _ _ _ Hi)|done].
  - rewrite Hlive. apply NoDup_cons. split; [|apply Hi].
    intros Hc. apply (ri_live_accepted _ _ _ Hi) in Hc as [Hc _]. done.
  - intros x Hx. rewrite Hlive in Hx. rewrite Hst. apply elem_of_cons in Hx as [->|Hx].
    + split; [by right|]. destruct (is_complete _ j) eqn:E; [|done]. apply is_complete_spec in E as [t Ht].
      by apply (ri_complete _ _ _ Hi) in Ht as [Ht _].
    + apply (ri_live_accepted _ _ _ Hi) in Hx as [H1 H2]. split; [by left|done].
  - intros w' x Hx. apply elem_of_app. apply list_lookup_insert_Some in Hx as [(-> & [= <-] & _)|[_ Hx]].
    + right. by apply elem_of_list_singleton.
    + left. by apply (ri_running _ _ _ Hi).
  - intros x t Hx. destruct (ri_complete _ _ _ Hi x t Hx) as [H1 H2]. rewrite Hst, finished_app.
    split; [by left|]. apply elem_of_app. by left.
  - intros m Hm. apply (ri_messages _ _ _ Hi) in Hm. rewrite finished_app. destruct m; apply elem_of_app; by left.
  - intros Hal Hnp x Hx. rewrite Hlive. apply Hst in Hx as [Hx| ->].
    + destruct (ri_cover _ _ _ Hi Hal (no_panic_app _ _ Hnp) x Hx) as [H|H]; [left; by right|by right].
    + left. by left.
  - intros Hal x Hx. destruct (ri_scheduled _ _ _ Hi Hal x Hx) as [H|H].
    + rewrite Ej in H. apply elem_of_cons in H as [->|H]; [|by left]. right. apply elem_of_union. left. by apply elem_of_singleton.
    + right. apply elem_of_union. by right.
  - apply Hi.
  - rewrite <- (ri_active _ _ _ Hi). done.
  - intros Hal w' Hw' ->. apply elem_of_insert_list in Hw' as [Hw'|Hw']; [done|]. by apply (ri_alive _ _ _ Hi Hal _ Hw').
  - apply Hi.
  - apply Hi.
  - apply Hi.
  - apply Hi.
  - intros Hp. apply elem_of_insert_list in Hp as [Hp|Hp]; [done|].
    destruct (ri_panicked _ _ _ Hi Hp) as [(w' & x & H)|(w' & H)].
    + left. exists w', x. apply elem_of_app. by left.
    + right. exists w'. apply elem_of_app. by left.
  - pose proof (ri_left _ _ _ Hi) as H. pose proof (ri_active _ _ _ Hi) as Hact. rewrite Ea in Hact.
    destruct (sy_control s) as [| | |[r|]|[r|]|[r|r]]; try done.
    + by apply good_reason_mono.
    + by eapply left_well_workers.
  - intros Hc. apply (ri_start _ _ _ Hi) in Hc as [_ Hc]. congruence.
  - intros r Hr. pose proof (ri_active _ _ _ Hi) as Hact. rewrite Ea, Hr in Hact. done.
Qed.

(** The coordinator going on without a new result. *)
Lemma coordinator_inv cf ev s q c co : runner_inv cf ev s ->
  (forall j t, co_scheduled co !! j = Some (JComplete t) <-> co_scheduled (sy_co s) !! j = Some (JComplete t)) ->
  co_search co = co_search (sy_co s) -> co_abort co = co_abort (sy_co s) ->
  wq_accepted q = wq_accepted (sy_queue s) ->
  NoDup (wq_jobs q) -> (forall j, j ∈ wq_jobs q -> j ∉ wq_accepted q /\ j ∈ cf_commits cf) ->
  (receiver_alive c = true -> receiver_alive (sy_control s) = true) ->
  (receiver_alive c = true -> forall j, co_scheduled co !! j = Some JScheduled -> j ∈ wq_jobs q \/ j ∈ wq_accepted q) ->
  (c = CReceive -> (exists j, co_scheduled co !! j = Some JScheduled) /\ co_abort co = None) ->
  wq_active q = match c with CClosed _ | CReturned _ => false | _ => true end ->
  (cf_strategy cf = None -> forall j, j ∈ cf_commits cf -> is_Some (co_scheduled co !! j)) ->
  c <> CStart ->
  let s' := System q (sy_workers s) (sy_channel s) c co in
  match c with
  | CLeft None | CClosed None => left_well cf s'
  | CReturned (inl r) => left_well cf s' /\ r = make_results cf co /\ WPanicked ∉ sy_workers s
  | CLeft (Some e) | CClosed (Some e) | CReturned (inr e) => good_reason cf ev e
  | _ => True
  end ->
  (forall r, c = CReturned r -> forallb ended (sy_workers s) = true) ->
  runner_inv cf ev s'.
Proof.
  intros Hi Hco Hse Hab Hacc Hnd Hjobs Hal Hsch Hrec Hact Hall Hns s' Hleft Hret.
  assert (Hlive : live s' = live s) by done.
  assert (Hc : forall j, is_complete (co_scheduled co) j = is_complete (co_scheduled (sy_co s)) j).
  { intros j. apply eq_true_iff_eq. rewrite !is_complete_spec. split; intros [t Ht]; exists t; by apply Hco. }
  assert (Hcomp : forall j t, complete s' j t <-> complete s j t) by (intros j t; apply Hco).
  split; cbn; try done.
  - apply Hi.
  - intros j. rewrite Hacc. apply Hi.
  - apply Hi.
  - apply Hi.
  - rewrite Hlive. apply Hi.
  - intros j. rewrite Hlive, Hc. apply Hi.
  - apply Hi.
  - intros j t Hj. apply Hcomp in Hj. by apply (ri_complete _ _ _ Hi).
  - apply Hi.
  - intros Ha Hnp j Hj. rewrite Hlive, Hc. apply (ri_cover _ _ _ Hi); auto.
  - intros Ha. apply (ri_alive _ _ _ Hi). auto.
  - auto.
  - rewrite Hab. intros Ha j x Hj. apply Hcomp in Hj. by apply (ri_abort _ _ _ Hi Ha j x).
  - rewrite Hab. intros j x Hj. apply Hcomp. by apply (ri_aborted _ _ _ Hi).
  - rewrite Hse. intros Hst. destruct (ri_search _ _ _ Hi Hst) as (h & H1 & H2). exists h. split; [done|].
    intros o b. rewrite H2. split; intros (t & Ht & Hb); exists t; (split; [by apply Hcomp|done]).
  - apply Hi.
Qed.

Section Preserved.
  Context (cf : config).
  Hypothesis Hwf : wf_graph (cf_graph cf).

  Lemma init_inv : runner_inv cf [] (runner_init cf).
  Proof.
    split; cbn; try done.
    - apply replicate_length.
    - apply NoDup_nil_2.
    - intros j Hj. by apply elem_of_nil in Hj.
    - intros j. split; intros H; [by apply elem_of_empty in H|by apply elem_of_nil in H].
    - apply NoDup_nil_2.
    - intros j Hj. by apply elem_of_nil in Hj.
    - unfold live. cbn. rewrite app_nil_r. induction (cf_num_jobs cf); [apply NoDup_nil_2|done].
    - intros j Hj. exfalso. unfold live in Hj. cbn in Hj. rewrite app_nil_r in Hj.
      induction (cf_num_jobs cf); [by apply elem_of_nil in Hj|done].
    - intros w j Hj. apply lookup_replicate in Hj as [Hj _]. done.
    - intros m Hm. by apply elem_of_nil in Hm.
    - intros _ _ j Hj. by apply elem_of_nil in Hj.
    - intros _ w Hw. apply elem_of_replicate in Hw as [-> _]. done.
    - intros _. exists []. split; [constructor|]. intros o b. split.
      + intros H. by apply elem_of_nil in H.
      + intros (t & Ht & _). done.
    - intros Hw. apply elem_of_replicate in Hw as [Hw _]. done.
  Qed.

  Lemma start_inv ev s co q : runner_inv cf ev s -> sy_control s = CStart ->
    event_loop_start cf (sy_co s) (sy_queue s) = (co, q) ->
    runner_inv cf ev (System q (sy_workers s) (sy_channel s) CTop co).
  Proof.
    intros Hi Hc He. destruct (ri_start _ _ _ Hi Hc) as [Hem Hq]. unfold event_loop_start in He.
    assert (Hact : wq_active (sy_queue s) = true) by (rewrite (ri_active _ _ _ Hi), Hc; done).
    destruct (cf_strategy cf) as [st|] eqn:Es.
    - injection He as <- <-. apply coordinator_inv; rewrite ?Hc, ?Hem, ?Es; try done; try apply Hi.
    - injection He as <- <-. apply coordinator_inv; cbn; rewrite ?Hc, ?Hem; try done; try apply Hi.
      + intros j t. rewrite schedule_jobs_lookup, lookup_empty. split; [|done]. by destruct (bool_decide _).
      + apply set_jobs_nodup, job_keys_nodup.
      + intros j Hj. apply set_jobs_elem in Hj as [H1 H2]. split; [done|]. by apply job_keys_spec.
      + intros _ j Hj. rewrite schedule_jobs_lookup, lookup_empty in Hj.
        destruct (decide (j ∈ job_keys cf)) as [Hin|Hin].
        * destruct (decide (j ∈ wq_accepted (sy_queue s))); [by right|left]. by apply set_jobs_elem.
        * by rewrite bool_decide_eq_false_2 in Hj.
      + intros _ j Hj. rewrite schedule_jobs_lookup, bool_decide_eq_true_2; [by eexists|]. by apply job_keys_spec.
  Qed.

  Lemma top_inv ev s c co q : runner_inv cf ev s -> sy_control s = CTop ->
    loop_top cf (sy_co s) (sy_queue s) = (c, co, q) ->
    runner_inv cf ev (System q (sy_workers s) (sy_channel s) c co).
  Proof.
    intros Hi Hc Hl. unfold loop_top in Hl.
    assert (Hact : wq_active (sy_queue s) = true) by (rewrite (ri_active _ _ _ Hi), Hc; done).
    pose proof (ri_all _ _ _ Hi) as Hall. rewrite Hc in Hall.
    pose proof (ri_scheduled _ _ _ Hi) as Hsch. rewrite Hc in Hsch. specialize (Hsch eq_refl).
    destruct (co_abort (sy_co s)) as [ab|] eqn:Eab.
    { injection Hl as <- <- <-. apply coordinator_inv; try done; try apply Hi; auto.
      left. cbn. by rewrite Eab. }
    destruct (cf_strategy cf) as [st|] eqn:Es.
    2:{ injection Hl as <- <- <-. unfold wait_or_leave. destruct (in_progress _) eqn:Ep.
        - apply coordinator_inv; rewrite ?Hc; try done; try apply Hi; auto.
          intros _. split; [by apply in_progress_spec|done].
        - apply coordinator_inv; try done; try apply Hi; auto.
          right. right. cbn. rewrite Es. intros j Hj. destruct (Hall eq_refl ltac:(done) j Hj) as [[|t] Ht].
          + assert (Hp : in_progress (co_scheduled (sy_co s)) = true) by (apply in_progress_spec; by eexists). congruence.
          + by exists t. }
    destruct (ri_search _ _ _ Hi) as (h & Hs & Hh); [by rewrite Es|].
    pose proof (searching_inv _ _ Hwf _ _ Hs) as Hsi.
    set (sc := co_scheduled (sy_co s)) in *. set (skip := is_complete (keep_complete sc)) in *.
    assert (Hskip : forall o, skip o = true <-> tested h o).
    { intros o. unfold skip. rewrite keep_complete_done, is_complete_spec. split.
      - intros [t Ht]. exists (search_status t). apply Hh. by exists t.
      - intros [b Hb]. apply Hh in Hb as (t & Ht & _). by exists t. }
    destruct (search_next_total (cf_graph cf) (cf_commits cf) Hwf h (co_search (sy_co s)) st skip (cf_num_jobs cf)
                (enough cf) Hsi (le_n _)) as [l Hp].
    rewrite Hp in Hl.
    destruct (search_next_sound (cf_graph cf) (cf_commits cf) Hwf _ _ _ _ _ _ _ Hsi Hp) as (Hnd & Hlen & Hin & Hout).
    destruct l as [|j0 l0].
    - injection Hl as <- <- <-. apply coordinator_inv; cbn; rewrite ?Es; try done; try apply Hi; auto.
      + intros j t. rewrite keep_complete_lookup. fold sc. destruct (sc !! j) as [[|t']|]; split; congruence.
      + destruct (cf_num_jobs cf) as [|n] eqn:En.
        * right. left. cbn. assert (Hz : length (sy_workers s) = 0%nat) by (rewrite (ri_workers _ _ _ Hi); done).
          apply nil_length_inv in Hz as ->. constructor.
        * right. right. cbn. rewrite Es. exists h. split; [done|]. split.
          -- intros o b. rewrite Hh. unfold complete. cbn.
             split; intros (t & Ht & Hb); exists t; (split; [|done]).
             ++ rewrite keep_complete_lookup. fold sc. unfold complete in Ht. fold sc in Ht. by rewrite Ht.
             ++ rewrite keep_complete_lookup in Ht. fold sc in Ht. unfold complete. fold sc.
                destruct (sc !! o) as [[|t']|]; done.
          -- intros o Ho Hu. assert (Hc' : o ∈ ([] : list oid)); [|by apply elem_of_nil in Hc'].
             apply Hout; [cbn; lia|done|done|]. destruct (skip o) eqn:E; [|done].
             apply Hskip in E. by destruct Hu as [Hu _].
    - set (l := j0 :: l0) in *.
      destruct (List.find _ l) as [bad|] eqn:Ef.
      { exfalso. apply find_some in Ef as [Hb Hn]. apply elem_of_list_In, Hin in Hb as [Hb _].
        rewrite negb_true_iff, bool_decide_eq_false, job_keys_spec in Hn. done. }
      assert (Hlk : forall j, schedule_jobs (keep_complete sc) l !! j =
                if bool_decide (j ∈ l) then Some JScheduled
                else match sc !! j with Some (JComplete t) => Some (JComplete t) | _ => None end).
      { intros j. rewrite schedule_jobs_lookup, keep_complete_lookup. done. }
      assert (Hprog : in_progress (schedule_jobs (keep_complete sc) l) = true).
      { apply in_progress_spec. exists j0. rewrite Hlk, bool_decide_eq_true_2; [done|by left]. }
      unfold wait_or_leave in Hl. rewrite Hprog in Hl. injection Hl as <- <- <-.
      apply coordinator_inv; rewrite ?Hc, ?Es; cbn [co_scheduled co_search co_abort wq_accepted wq_set wq_active receiver_alive]; try done.
      + intros j t. rewrite Hlk. fold sc. destruct (decide (j ∈ l)) as [Hj|Hj].
        * rewrite bool_decide_eq_true_2 by done. split; [done|]. intros Hjt. exfalso.
          apply Hin in Hj as (_ & [Hu _] & _). apply Hu. exists (search_status t). apply Hh. by exists t.
        * rewrite bool_decide_eq_false_2 by done. destruct (sc !! j) as [[|t']|]; split; congruence.
      + by apply set_jobs_nodup.
      + intros j Hj. apply (set_jobs_elem (sy_queue s) l j) in Hj as [Hj Hja]. split; [done|]. by apply Hin.
      + intros _ j Hj. rewrite Hlk in Hj. destruct (decide (j ∈ l)) as [Hjl|Hjl].
        * destruct (decide (j ∈ wq_accepted (sy_queue s))); [by right|left]. by apply (set_jobs_elem (sy_queue s) l j).
        * rewrite bool_decide_eq_false_2 in Hj by done. by destruct (sc !! j) as [[|t']|].
      + intros _. split; [by apply in_progress_spec|done].
  Qed.

  Lemma receive_inv ev s m ch c co : runner_inv cf ev s -> sy_control s = CReceive ->
    sy_channel s = m :: ch -> receive cf (sy_co s) m = (c, co) ->
    runner_inv cf ev (System (sy_queue s) (sy_workers s) ch c co).
  Proof.
    intros Hi Hc Hch Hr.
    assert (Hact : wq_active (sy_queue s) = true) by (rewrite (ri_active _ _ _ Hi), Hc; done).
    pose proof (ri_all _ _ _ Hi) as Hall. rewrite Hc in Hall.
    pose proof (ri_scheduled _ _ _ Hi) as Hsch. rewrite Hc in Hsch. specialize (Hsch eq_refl).
    destruct (ri_receive _ _ _ Hi Hc) as [_ Hab].
    pose proof (ri_live _ _ _ Hi) as Hnd.
    assert (Hlive : live s ≡ₚ job_of_message m :: live (System (sy_queue s) (sy_workers s) ch c co)).
    { unfold live. rewrite Hch. cbn. solve_Permutation. }
    assert (Hmsg := ri_messages _ _ _ Hi m ltac:(rewrite Hch; by left)).
    set (s' := System _ _ ch c co) in *.
    rewrite Hlive in Hnd. apply NoDup_cons in Hnd as [Hnj Hnd].
    destruct (ri_live_accepted _ _ _ Hi (job_of_message m) ltac:(rewrite Hlive; by left)) as [Hjs Hjn].
    assert (Hmsgs : forall m', m' ∈ ch ->
              match m' with JobDone j t => (j, t) ∈ finished ev | JobError w j => EErrored w j ∈ ev end).
    { intros m' Hm'. apply (ri_messages _ _ _ Hi). rewrite Hch. by right. }
    assert (Hleave : forall e, c = CLeft (Some e) -> co = sy_co s -> good_reason cf ev e -> runner_inv cf ev s').
    { intros e -> -> Hg. split; cbn; try done; try apply Hi; try (by auto).
      - intros j Hj. apply (ri_live_accepted _ _ _ Hi). rewrite Hlive. by right. }
    destruct m as [j t|w j]; cbn in Hr, Hmsg, Hjs, Hjn, Hnj.
    2:{ injection Hr as <- <-. eapply Hleave; [done|done|]. done. }
    destruct (match cf_strategy cf with Some _ => _ | None => _ end) as [se|e] eqn:En.
    2:{ injection Hr as <- <-. eapply Hleave; [done|done|].
        destruct (cf_strategy cf) as [st|] eqn:Es; [|discriminate En].
        destruct (ri_search _ _ _ Hi) as (h & Hs & Hh); [by rewrite Es|].
        cbn. split; [by rewrite Es|]. exists h, (co_search (sy_co s)), j, t.
        split; [done|]. split.
        { intros x b Hx. apply Hh in Hx as (t' & Ht & Hb). exists t'. split; [|done]. by apply (ri_complete _ _ _ Hi). }
        split; [by apply (ri_started_commits _ _ _ Hi)|]. split; [|done].
        intros [b Hb]. apply Hh in Hb as (t' & Ht & _).
        assert (Hx : is_complete (co_scheduled (sy_co s)) j = true) by (apply is_complete_spec; by exists t'). congruence. }
    injection Hr as <- <-.
    assert (Hnc : forall t', ~ complete s j t').
    { intros t' Ht. assert (Hx : is_complete (co_scheduled (sy_co s)) j = true) by (apply is_complete_spec; by exists t').
      congruence. }
    assert (Hcomp : forall j' t', complete s' j' t' <-> complete s j' t' \/ (j' = j /\ t' = t)).
    { intros j' t'. unfold complete, s'. cbn. destruct (decide (j = j')) as [<-|Hne].
      - rewrite lookup_insert. split; [intros [= ->]; by right|]. intros [H|[_ ->]]; [by apply Hnc in H|done].
      - rewrite lookup_insert_ne by done. split; [by left|]. intros [H|[-> _]]; done. }
    assert (Hic : forall j', is_complete (co_scheduled (sy_co s')) j' = true <->
              is_complete (co_scheduled (sy_co s)) j' = true \/ j' = j).
    { intros j'. rewrite !is_complete_spec. split.
      - intros [t' Ht]. apply Hcomp in Ht as [Ht|[-> _]]; [left; by exists t'|by right].
      - intros [[t' Ht]| ->].
        + exists t'. apply Hcomp. by left.
        + exists t. apply Hcomp. by right. }
    split; cbn; try done; try apply Hi.
    - intros x Hx. split; [apply (ri_live_accepted _ _ _ Hi); rewrite Hlive; by right|].
      destruct (is_complete _ x) eqn:E; [|done]. exfalso. apply Hic in E as [E| ->].
      + destruct (ri_live_accepted _ _ _ Hi x) as [_ H]; [rewrite Hlive; by right|]. congruence.
      + done.
    - intros x t' Hx. apply Hcomp in Hx as [Hx|[-> ->]]; [by apply (ri_complete _ _ _ Hi)|done].
    - intros _ Hnp x Hx. pose proof (ri_cover _ _ _ Hi) as Hcov. rewrite Hc in Hcov.
      destruct (Hcov eq_refl Hnp x Hx) as [H|H].
      + rewrite Hlive in H. apply elem_of_cons in H as [->|H]; [|by left]. right. apply Hic. by right.
      + right. apply Hic. by left.
    - intros _ x Hx. destruct (decide (j = x)) as [<-|Hne].
      + by rewrite lookup_insert in Hx.
      + rewrite lookup_insert_ne in Hx by done. by apply Hsch.
    - intros _. pose proof (ri_alive _ _ _ Hi) as H. rewrite Hc in H. by apply H.
    - intros Hst _ x Hx. destruct (decide (j = x)) as [<-|Hne].
      + rewrite lookup_insert. by eexists.
      + rewrite lookup_insert_ne by done. by apply Hall.
    - intros Ha x code Hx. apply Hcomp in Hx as [Hx|[-> Ht]].
      + by apply (ri_abort _ _ _ Hi Hab x code).
      + subst t. cbn in Ha. discriminate Ha.
    - intros x code Hx. apply Hcomp. destruct t; cbn in Hx; try (rewrite Hab in Hx; discriminate Hx).
      injection Hx as <- <-. by right.
    - intros Hst. destruct (ri_search _ _ _ Hi Hst) as (h & Hs & Hh).
      destruct (cf_strategy cf) as [st|] eqn:Es; [|done].
      exists (h ++ [(j, search_status t)]). split.
      + eapply searching_report; [exact Hs| | |exact En].
        * by apply (ri_started_commits _ _ _ Hi).
        * by destruct t.
      + intros o b. rewrite elem_of_snoc, Hh. split.
        * intros [(t' & Ht & Hb)|[= -> ->]].
          -- exists t'. split; [|done]. apply Hcomp. by left.
          -- exists t. split; [|done]. apply Hcomp. by right.
        * intros (t' & Ht & ->). apply Hcomp in Ht as [Ht|[-> ->]]; [left; by exists t'|by right].
  Qed.

  Lemma all_panicked ws : forallb ended ws = true -> (forall w, w ∈ ws -> w <> WExited) -> Forall (fun w => w = WPanicked) ws.
  Proof.
    intros H1 H2. apply Forall_forall. intros w Hw. rewrite forallb_forall in H1.
    pose proof (H1 w ltac:(by apply elem_of_list_In)) as He. destruct w; try done. by apply H2 in Hw.
  Qed.

  Lemma step_inv ev s l s' : runner_inv cf ev s -> runner_step cf s l = Some s' ->
    runner_inv cf (ev ++ events_of s l s') s'.
  Proof.
    intros Hi Hst. destruct l as [w ok|w|w t|w|w|]; cbn [runner_step] in Hst.
    - destruct (sy_workers s !! w) as [[]|] eqn:Hw; try discriminate Hst. injection Hst as <-.
      assert (Hl : live (set_worker s w (if ok then WReady else WPanicked)) ≡ₚ live s).
      { unfold live. cbn. pose proof (omap_insert _ w _ (if ok then WReady else WPanicked) Hw) as H.
        destruct ok; cbn in H; rewrite !app_nil_r in H; by rewrite H. }
      apply worker_inv with (a := WSetup); try done.
      + intros j. by destruct ok.
      + by destruct ok.
      + exists []. rewrite app_nil_r. exact Hl.
      + intros m Hm. by left.
      + by destruct ok.
      + destruct ok; [done|]. intros _. right. exists w. by left.
    - destruct (sy_workers s !! w) as [[]|] eqn:Hw; try discriminate Hst.
      destruct (wq_pop (sy_queue s)) as [[[j|] q]|] eqn:Hp; [| |discriminate Hst]; injection Hst as <-.
      + assert (He : events_of s (LPop w) (System q (<[w:=WRunning j]> (sy_workers s)) (sy_channel s) (sy_control s) (sy_co s)) = [EStarted w j]).
        { unfold events_of, running_job. cbn. rewrite list_lookup_insert; [done|]. by apply lookup_lt_Some in Hw. }
        rewrite He. by apply pop_inv.
      + assert (Hwl : (w < length (sy_workers s))%nat) by (by apply lookup_lt_Some in Hw).
        assert (He : events_of s (LPop w) (set_worker s w WExited) = []).
        { unfold events_of, running_job. cbn. rewrite list_lookup_insert; done. }
        rewrite He.
        assert (Hl : live (set_worker s w WExited) ≡ₚ live s).
        { unfold live. cbn. pose proof (omap_insert _ w _ WExited Hw) as H. cbn in H. rewrite !app_nil_r in H. by rewrite H. }
        apply worker_inv with (a := WReady); try done.
        * exists []. rewrite app_nil_r. exact Hl.
        * intros m Hm. by left.
        * intros _. unfold wq_pop in Hp. pose proof (ri_active _ _ _ Hi) as Ha.
          destruct (wq_active (sy_queue s)) eqn:E; cbn [negb] in Hp.
          -- by destruct (wq_jobs (sy_queue s)).
          -- by destruct (sy_control s).
    - destruct (sy_workers s !! w) as [[]|] eqn:Hw; try discriminate Hst. injection Hst as <-.
      assert (He : events_of s (LFinish w t) (set_worker (send s (JobDone j t)) w
                 (if receiver_alive (sy_control s) then WReady else WExited)) = [EFinished w j t]).
      { unfold events_of, running_job. by rewrite Hw. }
      rewrite He.
      destruct (receiver_alive (sy_control s)) eqn:Hal.
      + assert (Hl : live (set_worker (send s (JobDone j t)) w WReady) ≡ₚ live s).
        { unfold live, send. cbn. rewrite Hal, map_app. cbn.
          pose proof (omap_insert _ w _ WReady Hw) as H. cbn in H. rewrite !app_nil_r in H. rewrite <- H. solve_Permutation. }
        unfold set_worker, send in *. cbn in *. rewrite Hal in *.
        apply worker_inv with (a := WRunning j); try done.
        * exists []. rewrite app_nil_r. exact Hl.
        * intros m Hm. apply elem_of_app in Hm as [Hm|Hm]; [by left|right]. apply elem_of_list_singleton in Hm as ->. by left.
      + assert (Hl : live (set_worker (send s (JobDone j t)) w WExited) ++ [j] ≡ₚ live s).
        { unfold live, send. cbn. rewrite Hal.
          pose proof (omap_insert _ w _ WExited Hw) as H. cbn in H. rewrite !app_nil_r in H. rewrite <- H. solve_Permutation. }
        unfold set_worker, send in *. cbn in *. rewrite Hal in *.
        apply worker_inv with (a := WRunning j); try done.
        * exists [j]. exact Hl.
        * congruence.
        * intros m Hm. by left.
    - destruct (sy_workers s !! w) as [[]|] eqn:Hw; try discriminate Hst. injection Hst as <-.
      assert (He : events_of s (LError w) (set_worker (send s (JobError w j)) w WReady) = [EErrored w j]).
      { unfold events_of, running_job. by rewrite Hw. }
      rewrite He.
      destruct (receiver_alive (sy_control s)) eqn:Hal.
      + assert (Hl : live (set_worker (send s (JobError w j)) w WReady) ≡ₚ live s).
        { unfold live, send. cbn. rewrite Hal, map_app. cbn.
          pose proof (omap_insert _ w _ WReady Hw) as H. cbn in H. rewrite !app_nil_r in H. rewrite <- H. solve_Permutation. }
        unfold set_worker, send in *. cbn in *. rewrite Hal in *.
        apply worker_inv with (a := WRunning j); try done.
        * exists []. rewrite app_nil_r. exact Hl.
        * intros m Hm. apply elem_of_app in Hm as [Hm|Hm]; [by left|right]. apply elem_of_list_singleton in Hm as ->. by left.
      + assert (Hl : live (set_worker (send s (JobError w j)) w WReady) ++ [j] ≡ₚ live s).
        { unfold live, send. cbn. rewrite Hal.
          pose proof (omap_insert _ w _ WReady Hw) as H. cbn in H. rewrite !app_nil_r in H. rewrite <- H. solve_Permutation. }
        unfold set_worker, send in *. cbn in *. rewrite Hal in *.
        apply worker_inv with (a := WRunning j); try done.
        * exists [j]. exact Hl.
        * congruence.
        * intros m Hm. by left.
    - destruct (sy_workers s !! w) as [[]|] eqn:Hw; try discriminate Hst. injection Hst as <-.
      assert (He : events_of s (LPanic w) (set_worker s w WPanicked) = [EPanicked w j]).
      { unfold events_of, running_job. by rewrite Hw. }
      rewrite He.
      assert (Hl : live (set_worker s w WPanicked) ++ [j] ≡ₚ live s).
      { unfold live, send. cbn.
        pose proof (omap_insert _ w _ WPanicked Hw) as H. cbn in H. rewrite !app_nil_r in H. rewrite <- H. solve_Permutation. }
      apply worker_inv with (a := WRunning j); try done.
      + exists [j]. exact Hl.
      + intros _ Hnp. exfalso. apply (Hnp w j). by left.
      + intros m Hm. by left.
      + intros _. left. exists w, j. by left.
    - cbn [events_of]. rewrite app_nil_r. unfold coordinator_step in Hst.
      pose proof (ri_active _ _ _ Hi) as Hact. pose proof (ri_left _ _ _ Hi) as Hleft.
      pose proof (ri_all _ _ _ Hi) as Hall.
      destruct (sy_control s) as [| | |r|r|r] eqn:Hc.
      + destruct (event_loop_start cf (sy_co s) (sy_queue s)) as [co q] eqn:E. injection Hst as <-. by apply start_inv.
      + destruct (loop_top cf (sy_co s) (sy_queue s)) as [[c co] q] eqn:E. injection Hst as <-. by apply top_inv.
      + destruct (sy_channel s) as [|m ch] eqn:Hch.
        * destruct (forallb ended (sy_workers s)) eqn:Hen; [|discriminate Hst]. injection Hst as <-.
          rewrite <- Hch. apply coordinator_inv; try done; try apply Hi.
          -- intros Hst. by apply Hall.
          -- right. left. cbn. apply all_panicked; [done|].
             pose proof (ri_alive _ _ _ Hi) as Hal. rewrite Hc in Hal. by apply Hal.
        * destruct (receive cf (sy_co s) m) as [c co] eqn:E. injection Hst as <-. by eapply receive_inv.
      + injection Hst as <-. apply coordinator_inv; cbn; try done; try apply Hi.
        * apply NoDup_nil_2.
        * intros j Hj. by apply elem_of_nil in Hj.
        * intros Hs. by apply Hall.
      + destruct (forallb ended (sy_workers s)) eqn:Hen; [|discriminate Hst]. injection Hst as <-.
        apply coordinator_inv; cbn; try done; try apply Hi.
        * intros Hs. by apply Hall.
        * destruct r as [e|]; [done|]. destruct (existsb panicked (sy_workers s)) eqn:Hpk.
          -- cbn. apply (ri_panicked _ _ _ Hi). apply existsb_exists in Hpk as (w & Hw & Hp).
             apply elem_of_list_In in Hw. by destruct w.
          -- split; [done|]. split; [done|]. intros Hp.
             assert (Ht : existsb panicked (sy_workers s) = true); [|congruence].
             apply existsb_exists. exists WPanicked. split; [by apply elem_of_list_In|done].
      + discriminate Hst.
  Qed.

  Theorem executes_inv ls ev s : executes cf ls ev s -> runner_inv cf ev s.
  Proof. induction 1 as [|ls ev s l s' _ IH Hs]; [apply init_inv|by apply step_inv]. Qed.
End Preserved.
