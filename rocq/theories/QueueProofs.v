(** Proofs about the work queue by itself. *)
From Verif Require Import Base TextModel EventLogModel EvolveModel DagModel DagSpec BisectModel BisectSpec.
From Verif Require Import RunnerModel RunnerSpec.

Lemma handed_cons_some j out : handed (Some j :: out) = j :: handed out.
Proof. done. Qed.
Lemma handed_cons_none out : handed (None :: out) = handed out.
Proof. done. Qed.

Lemma set_jobs_elem q jobs j : j ∈ wq_jobs (wq_set q jobs) <-> j ∈ jobs /\ j ∉ wq_accepted q.
Proof.
  cbn. rewrite elem_of_list_In, filter_In, <- elem_of_list_In, negb_true_iff, bool_decide_eq_false. done.
Qed.

Lemma set_jobs_nodup q jobs : NoDup jobs -> NoDup (wq_jobs (wq_set q jobs)).
Proof. intros H. cbn. apply NoDup_ListNoDup, List.NoDup_filter. by apply NoDup_ListNoDup. Qed.

(** Jobs handed out from a state are new, and distinct if no call repeats one. *)
Lemma calls_handed cs : forall q out q',
  (forall j, j ∈ wq_jobs q -> j ∉ wq_accepted q) -> NoDup (wq_jobs q) ->
  (forall jobs, QSet jobs ∈ cs -> NoDup jobs) ->
  queue_calls q cs = Some (out, q') ->
  NoDup (handed out) /\ (forall j, j ∈ handed out -> j ∉ wq_accepted q) /\
  (forall j, j ∈ handed out -> j ∈ wq_jobs q \/ exists jobs, QSet jobs ∈ cs /\ j ∈ jobs).
Proof.
  induction cs as [|c cs IH]; intros q out q' Hnew Hnd Hsets H.
  - injection H as <- <-. split; [apply NoDup_nil_2|]. split; intros j Hj; by apply elem_of_nil in Hj.
  - assert (Hsets' : forall jobs, QSet jobs ∈ cs -> NoDup jobs) by (intros jobs Hj; apply Hsets; by right).
    destruct c as [jobs| |]; cbn [queue_calls] in H.
    + destruct (IH _ _ _ (fun j Hj => proj2 (proj1 (set_jobs_elem q jobs j) Hj))
                  (set_jobs_nodup q jobs (Hsets jobs ltac:(by left))) Hsets' H) as (H1 & H2 & H3).
      split; [done|]. split; [done|]. intros j Hj. right. destruct (H3 j Hj) as [Hs|(jobs' & Hin & Hj')].
      * apply set_jobs_elem in Hs as [Hs _]. exists jobs. split; [by left|done].
      * exists jobs'. split; [by right|done].
    + unfold wq_pop in H. destruct (wq_active q) eqn:Ea; cbn [negb] in H.
      * destruct (wq_jobs q) as [|j jobs] eqn:Ej; [discriminate H|].
        destruct (queue_calls _ cs) as [[out1 q1]|] eqn:Hc; [|discriminate H]. injection H as <- <-.
        apply NoDup_cons in Hnd as [Hnj Hnd].
        eapply IH in Hc as (H1 & H2 & H3); [| |done|done].
        2:{ cbn. intros x Hx Hc'. apply elem_of_union in Hc' as [Hc'|Hc'].
            - apply elem_of_singleton in Hc'. by subst.
            - apply (Hnew x); [by right|done]. }
        rewrite handed_cons_some. cbn in H2. split; [|split].
        -- apply NoDup_cons. split; [|done]. intros Hc'. apply (H2 j Hc'), elem_of_union. left. by apply elem_of_singleton.
        -- intros x Hx. apply elem_of_cons in Hx as [->|Hx]; [apply Hnew; by left|].
           intros Hc'. apply (H2 x Hx), elem_of_union. by right.
        -- intros x Hx. apply elem_of_cons in Hx as [->|Hx]; [left; by left|].
           destruct (H3 x Hx) as [Hs|(jobs' & Hin & Hj')]; [left; by right|].
           right. exists jobs'. split; [by right|done].
      * destruct (queue_calls q cs) as [[out1 q1]|] eqn:Hc; [|discriminate H]. injection H as <- <-.
        destruct (IH _ _ _ Hnew Hnd Hsets' Hc) as (H1 & H2 & H3). rewrite handed_cons_none.
        split; [done|]. split; [done|]. intros j Hj. destruct (H3 j Hj) as [Hs|(jobs' & Hin & Hj')]; [by left|].
        right. exists jobs'. split; [by right|done].
    + assert (Hn : forall j, j ∈ wq_jobs (wq_close q) -> j ∉ wq_accepted (wq_close q)) by (intros j Hj; by apply elem_of_nil in Hj).
      destruct (IH _ _ _ Hn (NoDup_nil_2) Hsets' H) as (H1 & H2 & H3).
      split; [done|]. split; [done|]. intros j Hj. destruct (H3 j Hj) as [Hs|(jobs' & Hin & Hj')].
      * by apply elem_of_nil in Hs.
      * right. exists jobs'. split; [by right|done].
Qed.

(** What is accepted are the jobs handed out; the queue is active until closed. *)
Lemma calls_accepted cs : forall q out q', queue_calls q cs = Some (out, q') ->
  (forall j, j ∈ wq_accepted q' <-> j ∈ wq_accepted q \/ j ∈ handed out) /\
  (QClose ∉ cs -> wq_active q' = wq_active q).
Proof.
  induction cs as [|c cs IH]; intros q out q' H.
  - injection H as <- <-. split; [|done]. intros j. split; [by left|]. intros [Hj|Hj]; [done|by apply elem_of_nil in Hj].
  - destruct c as [jobs| |]; cbn [queue_calls] in H.
    + destruct (IH _ _ _ H) as [H1 H2]. split; [done|]. intros Hc. rewrite H2; [done|].
      intros Hin. apply Hc. by right.
    + unfold wq_pop in H. destruct (wq_active q) eqn:Ea; cbn [negb] in H.
      * destruct (wq_jobs q) as [|j jobs] eqn:Ej; [discriminate H|].
        destruct (queue_calls _ cs) as [[out1 q1]|] eqn:Hc; [|discriminate H]. injection H as <- <-.
        destruct (IH _ _ _ Hc) as [H1 H2]. split.
        -- intros x. rewrite H1, handed_cons_some. cbn. rewrite elem_of_union, elem_of_singleton, elem_of_cons. tauto.
        -- intros Hn. rewrite H2; [done|]. intros Hin. apply Hn. by right.
      * destruct (queue_calls q cs) as [[out1 q1]|] eqn:Hc; [|discriminate H]. injection H as <- <-.
        destruct (IH _ _ _ Hc) as [H1 H2]. split.
        -- intros x. rewrite H1, handed_cons_none. done.
        -- intros Hn. rewrite H2; [done|]. intros Hin. apply Hn. by right.
    + destruct (IH _ _ _ H) as [H1 H2]. split; [done|]. intros Hc. exfalso. apply Hc. by left.
Qed.

Lemma pops_in_order n : forall q out q', wq_active q = true ->
  queue_calls q (replicate n QPop) = Some (out, q') ->
  out = List.map Some (firstn n (wq_jobs q)) /\ (n <= length (wq_jobs q))%nat.
Proof.
  induction n as [|n IH]; intros q out q' Ha H; cbn [replicate queue_calls] in H.
  - injection H as <- <-. split; [done|lia].
  - unfold wq_pop in H. rewrite Ha in H. cbn [negb] in H. destruct (wq_jobs q) as [|j jobs] eqn:Ej; [discriminate H|].
    destruct (queue_calls _ (replicate n QPop)) as [[out1 q1]|] eqn:Hc; [|discriminate H]. injection H as <- <-.
    destruct (IH (WorkQueue jobs ({[j]} ∪ wq_accepted q) true) out1 q1 eq_refl Hc) as [-> Hle]. cbn in *. split; [done|lia].
Qed.

Lemma calls_closed cs : forall q out q', wq_active q = false ->
  queue_calls q cs = Some (out, q') -> handed out = [].
Proof.
  induction cs as [|c cs IH]; intros q out q' Ha H.
  - injection H as <- <-. done.
  - destruct c as [jobs| |]; cbn [queue_calls] in H.
    + eapply IH; [|exact H]. done.
    + unfold wq_pop in H. rewrite Ha in H. cbn [negb] in H.
      destruct (queue_calls q cs) as [[out1 q1]|] eqn:Hc; [|discriminate H]. injection H as <- <-.
      rewrite handed_cons_none. by eapply IH.
    + eapply IH; [|exact H]. done.
Qed.

Lemma calls_closed_total cs : forall q, wq_active q = false -> is_Some (queue_calls q cs).
Proof.
  induction cs as [|c cs IH]; intros q Ha; [by eexists|]. destruct c as [jobs| |]; cbn [queue_calls].
  - by apply IH.
  - unfold wq_pop. rewrite Ha. cbn [negb]. destruct (IH q Ha) as [[out q'] ->]. by eexists.
  - by apply IH.
Qed.

Lemma calls_app cs1 : forall cs2 q,
  queue_calls q (cs1 ++ cs2) =
  match queue_calls q cs1 with
  | None => None
  | Some (out1, q1) =>
    match queue_calls q1 cs2 with None => None | Some (out2, q2) => Some (out1 ++ out2, q2) end
  end.
Proof.
  induction cs1 as [|c cs1 IH]; intros cs2 q.
  - cbn. by destruct (queue_calls q cs2) as [[out q']|].
  - destruct c as [jobs| |]; cbn [app queue_calls].
    + apply IH.
    + destruct (wq_pop q) as [[r q']|]; [|done]. rewrite IH. destruct (queue_calls q' cs1) as [[out1 q1]|]; [|done].
      by destruct (queue_calls q1 cs2) as [[out2 q2]|].
    + apply IH.
Qed.

Lemma pops_enabled n : forall q, wq_active q = true -> (n <= length (wq_jobs q))%nat ->
  is_Some (queue_calls q (replicate n QPop)).
Proof.
  induction n as [|n IH]; intros q Ha Hn; [by eexists|]. cbn [replicate queue_calls]. unfold wq_pop. rewrite Ha. cbn [negb].
  destruct (wq_jobs q) as [|j jobs]; [cbn in Hn; lia|].
  destruct (IH (WorkQueue jobs ({[j]} ∪ wq_accepted q) true) eq_refl) as [[out q'] ->]; [cbn in *; lia|]. by eexists.
Qed.

Lemma order_after_set cs out q jobs n :
  queue_calls wq_new cs = Some (out, q) -> QClose ∉ cs ->
  let todo := List.filter (fun j => negb (bool_decide (j ∈ handed out))) jobs in
  (forall out' q', queue_calls wq_new (cs ++ QSet jobs :: replicate n QPop) = Some (out', q') ->
     out' = out ++ List.map Some (firstn n todo)) /\
  (is_Some (queue_calls wq_new (cs ++ QSet jobs :: replicate n QPop)) <-> (n <= length todo)%nat).
Proof.
  intros H Hc todo. destruct (calls_accepted cs wq_new out q H) as [Hacc Hact]. specialize (Hact Hc). cbn in Hact.
  assert (Hjobs : wq_jobs (wq_set q jobs) = todo).
  { cbn. unfold todo. apply List.filter_ext. intros j. f_equal. apply bool_decide_ext. rewrite Hacc. cbn.
    rewrite elem_of_empty. tauto. }
  rewrite calls_app, H. cbn [queue_calls].
  destruct (queue_calls (wq_set q jobs) (replicate n QPop)) as [[out2 q2]|] eqn:E.
  - destruct (pops_in_order n (wq_set q jobs) out2 q2 Hact E) as [-> Hn]. rewrite Hjobs in *. split; [by intros ? ? [= <- <-]|].
    split; [done|]. intros _. by eexists.
  - split; [done|]. split; [intros [? H']; discriminate H'|]. intros Hn. rewrite <- Hjobs in Hn.
    destruct (pops_enabled n (wq_set q jobs) Hact Hn) as [x Hx]. congruence.
Qed.

Lemma closed_after cs1 cs2 out1 q1 :
  queue_calls wq_new cs1 = Some (out1, q1) ->
  exists out2 q2, queue_calls wq_new (cs1 ++ QClose :: cs2) = Some (out1 ++ out2, q2) /\ handed out2 = [].
Proof.
  intros H. rewrite calls_app, H. cbn [queue_calls].
  destruct (calls_closed_total cs2 (wq_close q1) eq_refl) as [[out2 q2] Hc]. rewrite Hc. exists out2, q2. split; [done|].
  exact (calls_closed cs2 (wq_close q1) out2 q2 eq_refl Hc).
Qed.
