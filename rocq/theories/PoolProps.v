(** C46: pooled resources. *)
From Verif Require Import Base PoolModel PoolSpec PoolProofs.

(** No resource is held by two users, and none is held while in the pool. *)
Theorem c46_exclusive past s : pool_run past s ->
  NoDup (List.map snd (us_held s) ++ pl_resources (us_pool s)).
Proof. intros Hr. rewrite (pi_all _ (run_inv past s Hr)). exact (pi_made _ (run_inv past s Hr)). Qed.

(** No resource is lost: those constructed are held or in the pool. *)
Theorem c46_none_lost past s : pool_run past s ->
  forall r, r ∈ us_made s <-> (exists u, (u, r) ∈ us_held s) \/ r ∈ pl_resources (us_pool s).
Proof.
  intros Hr r. rewrite <- (pi_all _ (run_inv past s Hr)), elem_of_app.
  rewrite (elem_of_list_In (List.map snd (us_held s)) r), in_map_iff. split; intros [H|H]; try (by right); left.
  - destruct H as ([u x] & Hx & Hin). cbn in Hx. subst. exists u. by apply elem_of_list_In.
  - destruct H as [u Hu]. exists (u, r). split; [done|]. by apply elem_of_list_In.
Qed.

(** A resource is constructed only if the pool is empty, so as many are
    constructed as are ever held at once. *)
Theorem c46_created_when_empty past s c s' : pool_run past s -> pool_step s c s' ->
  us_made s' <> us_made s -> pl_resources (us_pool s) = [].
Proof.
  intros Hr Hs Hne. destruct (made_grows s c s' (run_inv past s Hr) Hs) as [H|(u & r & _ & _ & H & _)]; done.
Qed.
Theorem c46_as_many_as_needed past s : pool_run past s ->
  (forall s0, s0 ∈ past ++ [s] -> (length (us_held s0) <= length (us_made s))%nat) /\
  exists s0, s0 ∈ past ++ [s] /\ length (us_held s0) = length (us_made s).
Proof. exact (made_bound past s). Qed.

(** Acquiring fails only if the constructor does and the pool is empty; releasing
    never fails; what was released last is handed out next. *)
Theorem c46_acquire past s c : pool_run past s ->
  match fst (pool_acquire (us_pool s) c) with
  | Handle r => r ∈ pl_resources (us_pool s) \/ (pl_resources (us_pool s) = [] /\ c = Made r)
  | CreateError => pl_resources (us_pool s) = [] /\ c = Failed
  | Panicked => pl_resources (us_pool s) = [] /\ c = Panics
  end.
Proof.
  intros Hr. destruct (acquire_cases (us_pool s) c (pi_clean _ (run_inv past s Hr))) as [(l & r & El & Ex)|(El & Ex)]; rewrite Ex.
  - left. rewrite El. apply elem_of_app. right. by left.
  - rewrite El. destruct c; cbn; auto.
Qed.
Theorem c46_release past s r : pool_run past s ->
  exists p', pool_release (us_pool s) r = Some p' /\ forall c, pool_acquire p' c = (Handle r, us_pool s).
Proof.
  intros Hr. pose proof (pi_clean _ (run_inv past s Hr)) as Hc. unfold pool_release. rewrite Hc. eexists. split; [done|].
  intros c. unfold pool_acquire. cbn [pl_poisoned pl_resources]. rewrite rev_app_distr. cbn [rev app]. rewrite rev_involutive.
  destruct (us_pool s) as [l b]. cbn in *. by subst.
Qed.

(** A constructor that panics breaks the pool for everybody: later calls panic,
    also releases. *)
Theorem c46_panic_refuted :
  exists p p', pool_acquire p Panics = (Panicked, p') /\ pl_poisoned p = false /\
    (forall c, fst (pool_acquire p' c) = Panicked) /\ forall r, pool_release p' r = None.
Proof. by exists pool_new, (Pool [] true). Qed.

(** Three users; the third gets what the first released. *)
Example c46_example : exists past, pool_run past
  (Users (Pool [] false) [(3, 10); (2, 11)]%nat [10; 11]%nat).
Proof.
  eexists.
  eapply (run_step _ (Users (Pool [10%nat] false) [(2, 11)]%nat [10; 11]%nat) (Acquire 3 Failed)).
  2:{ apply (step_acquire (Pool [10%nat] false) [(2, 11)]%nat [10; 11]%nat 3 Failed 10 (Pool [] false)); done. }
  eapply (run_step _ (Users (Pool [] false) [(2, 11); (1, 10)]%nat [10; 11]%nat) (Release 1)).
  2:{ apply (step_release (Pool [] false) [(2, 11); (1, 10)]%nat [10; 11]%nat 1 10 (Pool [10%nat] false)); done. }
  eapply (run_step _ (Users (Pool [] false) [(1, 10)]%nat [10]%nat) (Acquire 2 (Made 11))).
  2:{ apply (step_acquire (Pool [] false) [(1, 10)]%nat [10]%nat 2 (Made 11) 11 (Pool [] false)); try done.
      intros x [= <-] Hin. by apply elem_of_list_singleton in Hin. }
  eapply (run_step _ (Users (Pool [] false) [] []) (Acquire 1 (Made 10))); [apply run_start|].
  apply (step_acquire (Pool [] false) [] [] 1 (Made 10) 10 (Pool [] false)); try done.
  intros x _ Hin. by apply elem_of_nil in Hin.
Qed.

Print Assumptions c46_exclusive.
Print Assumptions c46_none_lost.
Print Assumptions c46_created_when_empty.
Print Assumptions c46_as_many_as_needed.
Print Assumptions c46_acquire.
Print Assumptions c46_release.
Print Assumptions c46_panic_refuted.
