(** Proofs about the test runner: termination, progress and results. *)
From Verif Require Import Base TextModel EventLogModel EvolveModel DagModel DagSpec DagProofs.
From Verif Require Import BisectModel BisectSpec BisectProofs BisectSearchProofs BisectRunProofs.
From Verif Require Import RunnerModel RunnerSpec QueueProofs RunnerProofs.

(** ** Termination *)

Definition worker_cost (w : worker_state) : nat :=
  match w with WSetup => 2 | WReady => 1 | WRunning _ => 5 | WExited | WPanicked => 0 end.
Definition control_cost (c : control) : nat :=
  match c with CStart => 5 | CTop => 4 | CReceive => 3 | CLeft _ => 2 | CClosed _ => 1 | CReturned _ => 0 end.
Definition cost (cf : config) (s : system) : nat :=
  5 * size (list_to_set (C := gset oid) (cf_commits cf) ∖ wq_accepted (sy_queue s)) + sum_list_with worker_cost (sy_workers s)
  + 3 * length (sy_channel s) + control_cost (sy_control s).
Local Arguments cost : simpl never.

Lemma cost_insert (ws : list worker_state) w a x : ws !! w = Some a ->
  (sum_list_with worker_cost (<[w := x]> ws) + worker_cost a = sum_list_with worker_cost ws + worker_cost x)%nat.
Proof.
  intros H. destruct (worker_split ws w a H) as (l1 & l2 & Hl & Hi). rewrite Hi, Hl, !sum_list_with_app. cbn. lia.
Qed.

Section Run.
  Context (cf : config).
  Hypothesis Hwf : wf_graph (cf_graph cf).

  Lemma step_cost ev s l s' : runner_inv cf ev s -> runner_step cf s l = Some s' -> (cost cf s' < cost cf s)%nat.
  Proof.
    intros Hi Hst. destruct l as [w ok|w|w t|w|w|]; cbn [runner_step] in Hst.
    - destruct (sy_workers s !! w) as [[]|] eqn:Hw; try discriminate Hst. injection Hst as <-.
      unfold cost. cbn -[Nat.mul sum_list_with]. pose proof (cost_insert _ w _ (if ok then WReady else WPanicked) Hw) as H.
      destruct ok; cbn [worker_cost] in H; lia.
    - destruct (sy_workers s !! w) as [[]|] eqn:Hw; try discriminate Hst.
      destruct (wq_pop (sy_queue s)) as [[[j|] q]|] eqn:Hp; [| |discriminate Hst]; injection Hst as <-.
      + unfold wq_pop in Hp. destruct (wq_active (sy_queue s)) eqn:Ea; cbn [negb] in Hp; [|discriminate Hp].
        destruct (wq_jobs (sy_queue s)) as [|j' jobs] eqn:Ej; [discriminate Hp|]. injection Hp as -> <-.
        destruct (ri_queue _ _ _ Hi j) as [Hn Hc]; [rewrite Ej; by left|].
        unfold cost. cbn -[Nat.mul sum_list_with]. pose proof (cost_insert _ w _ (WRunning j) Hw) as H. cbn [worker_cost] in H.
        assert (Hsz : (size (list_to_set (C := gset oid) (cf_commits cf) ∖ ({[j]} ∪ wq_accepted (sy_queue s))) <
                       size (list_to_set (C := gset oid) (cf_commits cf) ∖ wq_accepted (sy_queue s)))%nat).
        { apply subset_size. split.
          - intros x Hx. apply elem_of_difference in Hx as [H1 H2]. apply elem_of_difference. split; [done|].
            intros Hx. apply H2, elem_of_union. by right.
          - intros Hx. assert (Hj : j ∈ list_to_set (C := gset oid) (cf_commits cf) ∖ wq_accepted (sy_queue s)).
            { apply elem_of_difference. split; [by apply elem_of_list_to_set|done]. }
            apply Hx, elem_of_difference in Hj as [_ Hj]. apply Hj, elem_of_union. left. by apply elem_of_singleton. }
        lia.
      + unfold cost. cbn -[Nat.mul sum_list_with]. pose proof (cost_insert _ w _ WExited Hw) as H. cbn [worker_cost] in H. lia.
    - destruct (sy_workers s !! w) as [[]|] eqn:Hw; try discriminate Hst. injection Hst as <-.
      unfold cost, set_worker, send. cbn -[Nat.mul sum_list_with].
      destruct (receiver_alive (sy_control s)).
      + pose proof (cost_insert _ w _ WReady Hw) as H. cbn [worker_cost] in H. rewrite app_length. cbn [length]. lia.
      + pose proof (cost_insert _ w _ WExited Hw) as H. cbn [worker_cost] in H. lia.
    - destruct (sy_workers s !! w) as [[]|] eqn:Hw; try discriminate Hst. injection Hst as <-.
      unfold cost, set_worker, send. cbn -[Nat.mul sum_list_with].
      pose proof (cost_insert _ w _ WReady Hw) as H. cbn [worker_cost] in H.
      destruct (receiver_alive (sy_control s)); [rewrite app_length; cbn [length]|]; lia.
    - destruct (sy_workers s !! w) as [[]|] eqn:Hw; try discriminate Hst. injection Hst as <-.
      unfold cost, set_worker. cbn -[Nat.mul sum_list_with].
      pose proof (cost_insert _ w _ WPanicked Hw) as H. cbn [worker_cost] in H. lia.
    - unfold coordinator_step in Hst.
      destruct (sy_control s) as [| | |r|r|r] eqn:Hc.
      + destruct (event_loop_start cf (sy_co s) (sy_queue s)) as [co q] eqn:E. injection Hst as <-.
        assert (Ha : wq_accepted q = wq_accepted (sy_queue s)).
        { unfold event_loop_start in E. destruct (cf_strategy cf); injection E as <- <-; done. }
        unfold cost. cbn -[Nat.mul sum_list_with]. rewrite Ha, Hc. cbn [control_cost]. lia.
      + destruct (loop_top cf (sy_co s) (sy_queue s)) as [[c co] q] eqn:E. injection Hst as <-.
        assert (Ha : wq_accepted q = wq_accepted (sy_queue s) /\ (control_cost c <= 3)%nat).
        { unfold loop_top, wait_or_leave in E.
          repeat match type of E with context [match ?x with _ => _ end] => destruct x end;
            injection E as <- <- <-; (split; [done|cbn; lia]). }
        destruct Ha as [Ha Hcc]. unfold cost. cbn -[Nat.mul sum_list_with]. rewrite Ha, Hc. cbn [control_cost]. lia.
      + destruct (sy_channel s) as [|m ch] eqn:Hch.
        * destruct (forallb ended (sy_workers s)) eqn:Hen; [|discriminate Hst]. injection Hst as <-.
          unfold cost. cbn -[Nat.mul sum_list_with]. rewrite Hc. cbn [control_cost length]. lia.
        * destruct (receive cf (sy_co s) m) as [c co] eqn:E. injection Hst as <-.
          assert (Hcc : (control_cost c <= 4)%nat).
          { unfold receive in E. destruct m as [j t|w j]; [|injection E as <- <-; cbn; lia].
            destruct (match cf_strategy cf with Some _ => _ | None => _ end); injection E as <- <-; cbn; lia. }
          unfold cost. cbn -[Nat.mul sum_list_with]. rewrite Hc, Hch. cbn [control_cost length]. lia.
      + injection Hst as <-. unfold cost. cbn -[Nat.mul sum_list_with]. rewrite Hc. cbn [control_cost]. lia.
      + destruct (forallb ended (sy_workers s)) eqn:Hen; [|discriminate Hst]. injection Hst as <-.
        unfold cost. cbn -[Nat.mul sum_list_with]. rewrite Hc. cbn [control_cost]. lia.
      + discriminate Hst.
  Qed.

  Lemma init_cost : (cost cf (runner_init cf) <= 5 * length (cf_commits cf) + 2 * cf_num_jobs cf + 5)%nat.
  Proof.
    unfold cost, runner_init. cbn -[Nat.mul sum_list_with].
    assert (H1 : (sum_list_with worker_cost (replicate (cf_num_jobs cf) WSetup) = 2 * cf_num_jobs cf)%nat).
    { induction (cf_num_jobs cf) as [|n IH]; [done|]. cbn [replicate sum_list_with worker_cost]. rewrite IH. lia. }
    assert (H2 : (size (list_to_set (C := gset oid) (cf_commits cf) ∖ ∅) <= length (cf_commits cf))%nat).
    { rewrite difference_empty_L. induction (cf_commits cf) as [|x l IH]; [cbn; rewrite size_empty; lia|].
      cbn [list_to_set length]. rewrite size_union_alt, size_singleton.
      assert (H := subseteq_size (list_to_set (C := gset oid) l ∖ {[x]}) (list_to_set l) ltac:(set_solver)). lia. }
    lia.
  Qed.

  Lemma executes_length ls ev s : executes cf ls ev s ->
    (length ls + cost cf s <= 5 * length (cf_commits cf) + 2 * cf_num_jobs cf + 5)%nat.
  Proof.
    induction 1 as [|ls ev s l s' He IH Hs]; [apply init_cost|].
    pose proof (step_cost ev s l s' (executes_inv cf Hwf _ _ _ He) Hs) as Hlt. rewrite app_length. cbn [length]. lia.
  Qed.

  (** ** Progress *)

  Lemma progress ev s : runner_inv cf ev s -> no_panic ev -> returned s = None ->
    exists l s', (forall w, l <> LPanic w) /\ (forall w, l <> LError w) /\ (forall w, l <> LSetup w false) /\
      runner_step cf s l = Some s'.
  Proof.
    intros Hi Hnp Hret.
    assert (Hco : forall s', coordinator_step cf s = Some s' -> exists l s', (forall w, l <> LPanic w) /\ (forall w, l <> LError w) /\
              (forall w, l <> LSetup w false) /\ runner_step cf s l = Some s').
    { intros s' H. by exists LCoordinator, s'. }
    assert (Hworkers : (exists w x, sy_workers s !! w = Some x /\ (x = WSetup \/ (exists j, x = WRunning j) \/
                (x = WReady /\ is_Some (wq_pop (sy_queue s))))) ->
              exists l s', (forall w, l <> LPanic w) /\ (forall w, l <> LError w) /\
              (forall w, l <> LSetup w false) /\ runner_step cf s l = Some s').
    { intros (w & x & Hw & [->|[[j ->]|[-> [[[j|] q] Hq]]]]).
      - exists (LSetup w true). cbn. rewrite Hw. by eexists.
      - exists (LFinish w TestPassed). cbn. rewrite Hw. by eexists.
      - exists (LPop w). cbn. rewrite Hw, Hq. by eexists.
      - exists (LPop w). cbn. rewrite Hw, Hq. by eexists. }
    pose proof (ri_active _ _ _ Hi) as Hact.
    unfold coordinator_step in Hco.
    destruct (sy_control s) as [| | |r|r|r] eqn:Hc.
    - destruct (event_loop_start cf (sy_co s) (sy_queue s)) as [co q]. by eapply Hco.
    - destruct (loop_top cf (sy_co s) (sy_queue s)) as [[c co] q]. by eapply Hco.
    - destruct (sy_channel s) as [|m ch] eqn:Hch.
      2:{ destruct (receive cf (sy_co s) m) as [c co]. by eapply Hco. }
      destruct (forallb ended (sy_workers s)) eqn:Hen; [by eapply Hco|].
      destruct (ri_receive _ _ _ Hi Hc) as [[j Hj] _].
      destruct (decide (j ∈ live s)) as [Hl|Hl].
      + unfold live in Hl. rewrite Hch in Hl. cbn in Hl. rewrite app_nil_r in Hl.
        apply elem_of_list_omap in Hl as (x & Hx & Hxj). apply elem_of_list_lookup in Hx as [w Hw].
        apply Hworkers. exists w, x. split; [done|]. right. left. destruct x; try done. by eexists.
      + assert (Hq : exists j', j' ∈ wq_jobs (sy_queue s)).
        { destruct (ri_scheduled _ _ _ Hi) with (j := j) as [H|H]; [by rewrite Hc|done|by exists j|].
          exfalso. apply (ri_accepted _ _ _ Hi) in H.
          destruct (ri_cover _ _ _ Hi) with (j := j) as [H'|H']; [by rewrite Hc|done|done|done|].
          apply is_complete_spec in H' as [t Ht]. congruence. }
        destruct Hq as [j' Hj'].
        assert (He : exists x, x ∈ sy_workers s /\ ended x = false).
        { clear -Hen. induction (sy_workers s) as [|x l IH]; [done|]. cbn in Hen. destruct (ended x) eqn:E.
          - destruct IH as (y & Hy & Hye); [done|]. exists y. split; [by right|done].
          - exists x. split; [by left|done]. }
        destruct He as (x & Hx & Hxe). apply elem_of_list_lookup in Hx as [w Hw].
        apply Hworkers. exists w, x. split; [done|]. destruct x as [| |jj| |]; try done.
        * by left.
        * right. right. split; [done|]. unfold wq_pop. rewrite Hact. cbn.
          destruct (wq_jobs (sy_queue s)); [by apply elem_of_nil in Hj'|by eexists].
        * right. left. by eexists.
    - by eapply Hco.
    - destruct (forallb ended (sy_workers s)) eqn:Hen; [by eapply Hco|].
      assert (He : exists x, x ∈ sy_workers s /\ ended x = false).
      { clear -Hen. induction (sy_workers s) as [|x l IH]; [done|]. cbn in Hen. destruct (ended x) eqn:E.
        - destruct IH as (y & Hy & Hye); [done|]. exists y. split; [by right|done].
        - exists x. split; [by left|done]. }
      destruct He as (x & Hx & Hxe). apply elem_of_list_lookup in Hx as [w Hw].
      apply Hworkers. exists w, x. split; [done|]. destruct x as [| |jj| |]; try done.
      + by left.
      + right. right. split; [done|]. unfold wq_pop. rewrite Hact. by eexists.
      + right. left. by eexists.
    - unfold returned in Hret. rewrite Hc in Hret. done.
  Qed.

  (** ** Every test ends at most once *)

  Definition over (ev : list event) : list oid :=
    omap (fun e => match e with
                   | EFinished _ j _ => Some j | EErrored _ j => Some j | EPanicked _ j => Some j
                   | _ => None end) ev.
  Lemma over_app e1 e2 : over (e1 ++ e2) = over e1 ++ over e2.
  Proof. apply omap_app. Qed.

  Lemma executes_account ls ev s : executes cf ls ev s ->
    started ev ≡ₚ omap job_of_worker (sy_workers s) ++ over ev.
  Proof.
    induction 1 as [|ls ev s l s' He IH Hst].
    - cbn. induction (cf_num_jobs cf) as [|n IHn]; done.
    - rewrite started_app, over_app.
      assert (Hsame : sy_workers s' = sy_workers s -> started (events_of s l s') = [] -> over (events_of s l s') = [] ->
                started ev ++ started (events_of s l s') ≡ₚ omap job_of_worker (sy_workers s') ++ over ev ++ over (events_of s l s')).
      { intros H1 H2 H3. rewrite H1, H2, H3, !app_nil_r. done. }
      destruct l as [w ok|w|w t|w|w|]; cbn [runner_step] in Hst.
      + destruct (sy_workers s !! w) as [[]|] eqn:Hw; try discriminate Hst. injection Hst as <-.
        pose proof (omap_insert _ w _ (if ok then WReady else WPanicked) Hw) as H.
        destruct ok; cbn in H |- *; rewrite !app_nil_r in *; by rewrite H.
      + destruct (sy_workers s !! w) as [[]|] eqn:Hw; try discriminate Hst.
        assert (Hwl : (w < length (sy_workers s))%nat) by (by apply lookup_lt_Some in Hw).
        destruct (wq_pop (sy_queue s)) as [[[j|] q]|] eqn:Hp; [| |discriminate Hst]; injection Hst as <-;
          unfold events_of, running_job; cbn; rewrite list_lookup_insert by done; cbn.
        * pose proof (omap_insert _ w _ (WRunning j) Hw) as H. cbn in H. rewrite !app_nil_r in H. rewrite H, IH.
          solve_Permutation.
        * pose proof (omap_insert _ w _ WExited Hw) as H. cbn in H. rewrite !app_nil_r in *. by rewrite H.
      + destruct (sy_workers s !! w) as [[]|] eqn:Hw; try discriminate Hst. injection Hst as <-.
        unfold events_of, running_job. rewrite Hw. cbn. rewrite app_nil_r, IH.
        pose proof (omap_insert _ w _ (if receiver_alive (sy_control s) then WReady else WExited) Hw) as H.
        destruct (receiver_alive (sy_control s)); cbn in H; rewrite !app_nil_r in H; rewrite <- H; solve_Permutation.
      + destruct (sy_workers s !! w) as [[]|] eqn:Hw; try discriminate Hst. injection Hst as <-.
        unfold events_of, running_job. rewrite Hw. cbn. rewrite app_nil_r, IH.
        pose proof (omap_insert _ w _ WReady Hw) as H. cbn in H. rewrite !app_nil_r in H. rewrite <- H. solve_Permutation.
      + destruct (sy_workers s !! w) as [[]|] eqn:Hw; try discriminate Hst. injection Hst as <-.
        unfold events_of, running_job. rewrite Hw. cbn. rewrite app_nil_r, IH.
        pose proof (omap_insert _ w _ WPanicked Hw) as H. cbn in H. rewrite !app_nil_r in H. rewrite <- H. solve_Permutation.
      + apply Hsame; [|done|done]. unfold coordinator_step in Hst.
        destruct (sy_control s) as [| | |r|r|r] eqn:Hc.
        * destruct (event_loop_start cf (sy_co s) (sy_queue s)) as [co q]. by injection Hst as <-.
        * destruct (loop_top cf (sy_co s) (sy_queue s)) as [[c co] q]. by injection Hst as <-.
        * destruct (sy_channel s) as [|m ch].
          -- destruct (forallb ended (sy_workers s)); [|discriminate Hst]. by injection Hst as <-.
          -- destruct (receive cf (sy_co s) m) as [c co]. by injection Hst as <-.
        * by injection Hst as <-.
        * destruct (forallb ended (sy_workers s)); [|discriminate Hst]. by injection Hst as <-.
        * discriminate Hst.
  Qed.

  Lemma finished_over ev : exists rest, List.map fst (finished ev) ++ rest ≡ₚ over ev.
  Proof.
    induction ev as [|e ev [rest IH]]; [by exists []|]. destruct e as [w j|w j t|w j|w j|w]; cbn.
    - by exists rest.
    - exists rest. by rewrite <- IH.
    - exists (j :: rest). rewrite <- IH. solve_Permutation.
    - exists (j :: rest). rewrite <- IH. solve_Permutation.
    - by exists rest.
  Qed.

  Lemma finished_once ls ev s : executes cf ls ev s -> NoDup (List.map fst (finished ev)).
  Proof.
    intros He. pose proof (ri_started _ _ _ (executes_inv cf Hwf _ _ _ He)) as Hnd.
    rewrite (executes_account ls ev s He) in Hnd. apply NoDup_app in Hnd as (_ & _ & Hnd).
    destruct (finished_over ev) as [rest Hr]. rewrite <- Hr in Hnd. by apply NoDup_app in Hnd as [Hnd _].
  Qed.

  (** ** Results *)

  Lemma ordered_outputs_elem l : forall s o t,
    (o, t) ∈ ordered_outputs s l <-> o ∈ l /\ s !! o = Some (JComplete t).
  Proof.
    induction l as [|x l IH]; intros s o t; cbn.
    - split; [intros H; by apply elem_of_nil in H|intros [H _]; by apply elem_of_nil in H].
    - destruct (s !! x) as [[|tx]|] eqn:Ex.
      + rewrite IH, elem_of_cons. split; [tauto|]. intros [[->|H] H']; [congruence|done].
      + rewrite elem_of_cons, IH, elem_of_cons. destruct (decide (o = x)) as [->|Hne].
        * rewrite lookup_delete. split; [|intros [_ H]; left; congruence].
          intros [[= ->]|[_ H]]; [|done]. split; [by left|done].
        * rewrite lookup_delete_ne by done. split; [intros [[= -> ->]|[H1 H2]]; [done|tauto]|].
          intros [[->|H1] H2]; [done|]. right. done.
      + rewrite IH, elem_of_cons. split; [tauto|]. intros [[->|H] H']; [congruence|done].
  Qed.

  Lemma ordered_outputs_nodup l : forall s, NoDup (List.map fst (ordered_outputs s l)).
  Proof.
    induction l as [|x l IH]; intros s; cbn; [apply NoDup_nil_2|].
    destruct (s !! x) as [[|tx]|] eqn:Ex; [apply IH| |apply IH]. cbn. apply NoDup_cons. split; [|apply IH].
    intros Hc. apply elem_of_list_In, in_map_iff in Hc as ([o t] & Hf & Hin). cbn in Hf. subst o.
    apply elem_of_list_In, ordered_outputs_elem in Hin as [_ Hin]. by rewrite lookup_delete in Hin.
  Qed.

  Lemma ordered_outputs_sublist l : forall s, List.map fst (ordered_outputs s l) `sublist_of` l.
  Proof.
    induction l as [|x l IH]; intros s; cbn; [constructor|].
    destruct (s !! x) as [[|tx]|] eqn:Ex; cbn; constructor; apply IH.
  Qed.

  Lemma ordered_outputs_all l : forall s, NoDup l -> (forall o, o ∈ l -> exists t, s !! o = Some (JComplete t)) ->
    List.map fst (ordered_outputs s l) = l.
  Proof.
    induction l as [|x l IH]; intros s Hnd Hall; cbn; [done|]. apply NoDup_cons in Hnd as [Hx Hnd].
    destruct (Hall x ltac:(by left)) as [t Ht]. rewrite Ht. cbn. f_equal. apply IH; [done|].
    intros o Ho. rewrite lookup_delete_ne by (intros ->; done). apply Hall. by right.
  Qed.

  Lemma returned_ok ls ev s r : executes cf ls ev s -> returned s = Some (inl r) ->
    left_well cf s /\ r = make_results cf (sy_co s) /\ WPanicked ∉ sy_workers s.
  Proof.
    intros He Hr. pose proof (ri_left _ _ _ (executes_inv cf Hwf _ _ _ He)) as Hl. unfold returned in Hr.
    destruct (sy_control s) as [| | |x|x|x]; try discriminate Hr. injection Hr as ->. done.
  Qed.

  Lemma outputs_true ls ev s r : executes cf ls ev s -> returned s = Some (inl r) ->
    (forall o t, (o, t) ∈ tr_outputs r -> o ∈ cf_commits cf /\ (o, t) ∈ finished ev) /\
    NoDup (List.map fst (tr_outputs r)) /\ List.map fst (tr_outputs r) `sublist_of` cf_commits cf.
  Proof.
    intros He Hr. destruct (returned_ok ls ev s r He Hr) as (_ & -> & _). cbn. split; [|split].
    - intros o t H. apply ordered_outputs_elem in H as [H1 H2]. split; [done|].
      by apply (ri_complete _ _ _ (executes_inv cf Hwf _ _ _ He)).
    - apply ordered_outputs_nodup.
    - apply ordered_outputs_sublist.
  Qed.

  Lemma outputs_abort ls ev s r : executes cf ls ev s -> returned s = Some (inl r) ->
    (forall o c, tr_abort r = Some (o, c) -> (o, TestAbort c) ∈ tr_outputs r) /\
    (tr_abort r = None -> forall o c, (o, TestAbort c) ∉ tr_outputs r).
  Proof.
    intros He Hr. pose proof (executes_inv cf Hwf _ _ _ He) as Hi.
    destruct (returned_ok ls ev s r He Hr) as (_ & -> & _). cbn. split.
    - intros o c Ha. apply (ri_aborted _ _ _ Hi) in Ha. apply ordered_outputs_elem. split; [|done].
      by apply (ri_started_commits _ _ _ Hi), (ri_complete _ _ _ Hi o (TestAbort c)).
    - intros Ha o c H. apply ordered_outputs_elem in H as [_ H]. by apply (ri_abort _ _ _ Hi Ha o c).
  Qed.

  Lemma finished_well ls ev s r : executes cf ls ev s -> returned s = Some (inl r) ->
    tr_abort r = None -> (0 < cf_num_jobs cf)%nat ->
    match cf_strategy cf with
    | None => forall j, j ∈ cf_commits cf -> exists t, complete s j t
    | Some st =>
      exists h, searching (cf_graph cf) (cf_commits cf) h (co_search (sy_co s)) /\
        (forall o b, (o, b) ∈ h <-> exists t, complete s o t /\ b = search_status t) /\
        forall o, o ∈ cf_commits cf -> ~ undecided (cf_graph cf) h o
    end.
  Proof.
    intros He Hr Ha Hn. pose proof (executes_inv cf Hwf _ _ _ He) as Hi.
    destruct (returned_ok ls ev s r He Hr) as (Hl & -> & Hp). cbn in Ha. destruct Hl as [Hl|[Hl|Hl]]; [done| |exact Hl].
    exfalso. destruct (sy_workers s) as [|x ws] eqn:E.
    - pose proof (ri_workers _ _ _ Hi) as H. rewrite E in H. cbn in H. lia.
    - apply Forall_cons in Hl as [-> _]. apply Hp. by left.
  Qed.

  Lemma outputs_complete ls ev s r : executes cf ls ev s -> returned s = Some (inl r) ->
    cf_strategy cf = None -> tr_abort r = None -> (0 < cf_num_jobs cf)%nat -> NoDup (cf_commits cf) ->
    List.map fst (tr_outputs r) = cf_commits cf.
  Proof.
    intros He Hr Hs Ha Hn Hnd. pose proof (finished_well ls ev s r He Hr Ha Hn) as Hw. rewrite Hs in Hw.
    destruct (returned_ok ls ev s r He Hr) as (_ & -> & _). cbn. by apply ordered_outputs_all.
  Qed.

  (** ** Errors *)

  Lemma status_bad t : search_status t = Bad -> exists c, t = TestFailed c.
  Proof. destruct t; cbn; try done. by eexists. Qed.
  Lemma status_good t : search_status t = Good -> t = TestPassed.
  Proof. by destruct t. Qed.

  Lemma error_reason ls ev s e : executes cf ls ev s -> returned s = Some (inr e) ->
    (exists w j, e = WorkerFailed w j /\ EErrored w j ∈ ev) \/
    (e = WorkerPanicked /\ ((exists w j, EPanicked w j ∈ ev) \/ exists w, ESetupFailed w ∈ ev)) \/
    (exists a d c, e = NotifyFailed (InconsistentStateTransition a Bad d Good) /\ cf_strategy cf <> None /\
       ancestor (cf_graph cf) a d /\ (a, TestFailed c) ∈ finished ev /\ (d, TestPassed) ∈ finished ev).
  Proof.
    intros He Hr. pose proof (ri_left _ _ _ (executes_inv cf Hwf _ _ _ He)) as Hl. unfold returned in Hr.
    destruct (sy_control s) as [| | |x|x|x]; try discriminate Hr. injection Hr as ->.
    destruct e as [w j| | |e| |]; cbn in Hl; try done.
    - left. by exists w, j.
    - right. right. destruct Hl as (Hst & h & se & o & t & Hs & Hh & Ho & Hun & Ht & Hn).
      destruct (notify_error_true _ _ _ _ _ _ _ Hwf (searching_inv _ _ Hwf _ _ Hs) Hn)
        as [(from & _ & Hin & _)|[(a & -> & Hg & Hin & Hanc)|(d & -> & Hb & Hin & Hanc)]].
      + exfalso. apply Hun. by exists from.
      + destruct (Hh _ _ Hin) as (t' & Ht' & Hb). symmetry in Hb. apply status_bad in Hb as [c ->].
        apply status_good in Hg as ->. exists a, o, c. done.
      + destruct (Hh _ _ Hin) as (t' & Ht' & Hg). symmetry in Hg. apply status_good in Hg as ->.
        apply status_bad in Hb as [c ->]. exists o, d, c. done.
    - right. left. split; [done|]. done.
  Qed.

  (** ** Searching *)

  Lemma search_result ls ev s r verdict : executes cf ls ev s -> returned s = Some (inl r) ->
    cf_strategy cf <> None -> tr_abort r = None -> (0 < cf_num_jobs cf)%nat ->
    monotone (cf_graph cf) verdict ->
    (forall o t, (o, t) ∈ finished ev -> search_status t = verdict o) ->
    (forall o, o ∈ bd_success (tr_bounds r) <->
       o ∈ cf_commits cf /\ verdict o = Good /\
       forall x, x ∈ cf_commits cf -> verdict x = Good -> ancestor (cf_graph cf) o x -> x = o) /\
    (forall o, o ∈ bd_failure (tr_bounds r) <->
       o ∈ cf_commits cf /\ verdict o = Bad /\
       forall x, x ∈ cf_commits cf -> verdict x = Bad -> ancestor (cf_graph cf) x o -> x = o).
  Proof.
    intros He Hr Hs Ha Hn Hmono Hv. pose proof (executes_inv cf Hwf _ _ _ He) as Hi.
    pose proof (finished_well ls ev s r He Hr Ha Hn) as Hw.
    destruct (returned_ok ls ev s r He Hr) as (_ & -> & _).
    destruct (cf_strategy cf) as [st|] eqn:Es; [|done]. destruct Hw as (h & Hse & Hh & Hund).
    assert (Hhon : honest verdict h).
    { intros o b Hb. apply Hh in Hb as (t & Ht & ->). apply Hv. by apply (ri_complete _ _ _ Hi). }
    unfold make_results. rewrite Es. cbn [tr_bounds search_bounds bd_success bd_failure]. split; intros o.
    - by apply (final_success (cf_graph cf) (cf_commits cf) verdict Hwf Hmono h).
    - by apply (final_failure (cf_graph cf) (cf_commits cf) verdict Hwf Hmono h).
  Qed.
End Run.

Lemma run_from_executes cf ls : forall ls0 ev0 s ev s', executes cf ls0 ev0 s ->
  run_from cf s ls = Some (ev, s') -> executes cf (ls0 ++ ls) (ev0 ++ ev) s'.
Proof.
  induction ls as [|l ls IH]; intros ls0 ev0 s ev s' He H; cbn [run_from] in H.
  - injection H as <- <-. by rewrite !app_nil_r.
  - destruct (runner_step cf s l) as [s1|] eqn:Hs; [|discriminate H].
    destruct (run_from cf s1 ls) as [[ev1 s2]|] eqn:Hr; [|discriminate H]. injection H as <- <-.
    assert (H := IH (ls0 ++ [l]) (ev0 ++ events_of s l s1) s1 ev1 s2 (executes_step _ _ _ _ _ _ He Hs) Hr).
    rewrite <- !app_assoc in H. exact H.
Qed.

Lemma run_observed {A} cf ls ev (f : system -> A) x :
  match run_from cf (runner_init cf) ls with Some (e, s) => Some (e, f s) | None => None end = Some (ev, x) ->
  exists s, executes cf ls ev s /\ f s = x.
Proof.
  intros H. destruct (run_from cf (runner_init cf) ls) as [[e s]|] eqn:E; [|discriminate H].
  injection H as -> <-. exists s. split; [|done].
  exact (run_from_executes cf ls [] [] (runner_init cf) ev s (executes_start cf) E).
Qed.
