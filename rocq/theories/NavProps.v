(** C67, C68: [git next], [git prev], [git switch]. *)
From Verif Require Import Base StrModel TextModel TextProofs EventLogModel EvolveModel DagModel DagSpec DagProofs
  DagCompProofs PlanDfsProofs TrailerModel NavModel NavSpec NavProofs NavCheckoutProofs.

(** ** C67: where moving leads *)

(** A commit reached was reached by allowed steps only, as many as asked for, or at
    least one and no further step exists; with --all no further step exists. *)
Theorem c67_path : forall e o c dist t o' n, wf_graph (dag_graph (nv_dag e)) ->
  advance e o c dist t = Moved o' n ->
  nsteps (can_step e c dist) n o o' /\ far_enough e c dist n o'.
Proof.
  intros e o c dist t o' n W H. unfold advance in H.
  eapply loop_path in H; [|exact W|destruct dist; [lia|exact I]].
  destruct H as (k & -> & P & F). auto.
Qed.

(** Without a way to choose, every step was the only one. *)
Theorem c67_unambiguous : forall e o c dist o' n, wf_graph (dag_graph (nv_dag e)) ->
  nv_interactive e = false -> advance e o c dist None = Moved o' n ->
  nsteps (only_step e c dist) n o o'.
Proof.
  intros e o c dist o' n W I H. unfold advance in H. rewrite I in H.
  eapply (loop_moved _ e c dist None) in H; [|exact W|intros [X|X]; discriminate|destruct dist; [lia|exact Logic.I]].
  destruct H as (k & -> & P & _). exact P.
Qed.
(** ... and a path without choices is followed, whatever the options. *)
Theorem c67_followed : forall e o c dist t o' n, wf_graph (dag_graph (nv_dag e)) ->
  nsteps (only_step e c dist) n o o' ->
  match dist with NumCommits k _ => k = n | AllTheWay _ => stuck e c dist o' end ->
  advance e o c dist t = Moved o' n.
Proof.
  intros e o c dist t o' n W P D. unfold advance.
  rewrite (loop_forced _ e c dist _ W n 0 o o'); [reflexivity| |exact P|destruct dist; auto].
  assert (P' : nsteps (can_step e c dist) n o o') by (eapply nsteps_impl; [|exact P]; intros a b [H _]; exact H).
  apply path_room in P'; [|exact W]. pose proof (room_bound e c o). lia.
Qed.

(** With --newest or --oldest the newest or oldest of the choices is taken, if times fit
    the graph; between branches they always do. *)
Theorem c67_newest : forall e o c dist o' n, wf_graph (dag_graph (nv_dag e)) -> times_fit e c dist ->
  advance e o c dist (Some Newest) = Moved o' n -> nsteps (newest_step e c dist) n o o'.
Proof.
  intros e o c dist o' n W T H. unfold advance in H.
  eapply (loop_moved _ e c dist (Some Newest)) in H; [|exact W|auto|destruct dist; [lia|exact I]].
  destruct H as (k & -> & P & _). exact P.
Qed.
Theorem c67_oldest : forall e o c dist o' n, wf_graph (dag_graph (nv_dag e)) -> times_fit e c dist ->
  advance e o c dist (Some Oldest) = Moved o' n -> nsteps (oldest_step e c dist) n o o'.
Proof.
  intros e o c dist o' n W T H. unfold advance in H.
  eapply (loop_moved _ e c dist (Some Oldest)) in H; [|exact W|auto|destruct dist; [lia|exact I]].
  destruct H as (k & -> & P & _). exact P.
Qed.
Theorem c67_times_branches : forall e c dist, by_branches dist = true -> times_fit e c dist.
Proof.
  intros e c dist B a b b' H H' P. exfalso. unfold can_step in H, H'. rewrite B in H, H'.
  destruct H as (_ & H & _), H' as (_ & H' & _). destruct c.
  - destruct H as [H _], H' as [_ H']. exact (H' b H P).
  - destruct H as [_ H], H' as [H' _]. exact (H b' H' P).
Qed.
Theorem c67_times_grow : forall e c dist,
  (forall p q, parent (dag_graph (nv_dag e)) p q -> (nv_time e p < nv_time e q)%Z) -> times_fit e c dist.
Proof.
  intros e c dist T a b b' _ _ P. induction P as [x y P|x y z P _ IH]; [now apply T|].
  specialize (T _ _ P). lia.
Qed.

(** No commit: there was nowhere to go at the very start, or there were several places
    to go to and no way to choose, all of which are listed, or a prompt was answered
    with none. *)
Theorem c67_no_more : forall e o c dist t, wf_graph (dag_graph (nv_dag e)) ->
  advance e o c dist t = NoMore -> stuck e c dist o /\ exists k b, dist = NumCommits k b /\ k <> 0%nat.
Proof. intros e o c dist t W H. now apply loop_nomore in H. Qed.
Theorem c67_ambiguous : forall e o c dist t n l, wf_graph (dag_graph (nv_dag e)) ->
  advance e o c dist t = Ambiguous n l ->
  t = None /\ nv_interactive e = false /\
  exists o', nsteps (only_step e c dist) n o o' /\
    (forall b, b ∈ l <-> can_step e c dist o' b) /\ NoDup l /\ (2 <= length l)%nat.
Proof.
  intros e o c dist t n l W H. unfold advance in H. apply loop_ambiguous in H; [|exact W].
  destruct H as (Ht & k & o' & -> & R). destruct t as [t|]; [discriminate|].
  destruct (nv_interactive e); [discriminate|]. split; [reflexivity|]. split; [reflexivity|]. exists o'. exact R.
Qed.
Theorem c67_cancelled : forall e o c dist t, advance e o c dist t = Cancelled ->
  t = Some Interactive \/ (t = None /\ nv_interactive e = true).
Proof.
  intros e o c dist t H. unfold advance in H. apply loop_cancelled in H.
  destruct t as [t|]; [left; exact H|]. destruct (nv_interactive e); [auto|discriminate].
Qed.

(** Moving ends, even with --all. *)
Theorem c67_terminates : forall e o c dist t, wf_graph (dag_graph (nv_dag e)) ->
  advance e o c dist t <> OutOfFuel.
Proof.
  intros e o c dist t W. apply loop_fuel; [exact W|]. pose proof (room_bound e c o). lia.
Qed.
(** --all with --newest or --oldest always leads to a commit. *)
Theorem c67_all_succeeds : forall e o c b t, wf_graph (dag_graph (nv_dag e)) ->
  t = Newest \/ t = Oldest -> exists o' n, advance e o c (AllTheWay b) (Some t) = Moved o' n.
Proof.
  intros e o c b t W Ht. destruct (advance e o c (AllTheWay b) (Some t)) as [o' n| |n l| |] eqn:E; [eauto|..].
  - apply c67_no_more in E; [|exact W]. destruct E as (_ & k & b' & X & _). discriminate.
  - apply c67_ambiguous in E; [|exact W]. destruct E as [X _]. discriminate.
  - apply c67_cancelled in E. destruct E as [[= ->]|[X _]]; [destruct Ht; discriminate|discriminate].
  - exfalso. exact (c67_terminates e o c (AllTheWay b) (Some t) W E).
Qed.

(** The end of [git next --all] has no visible children; the end of [git prev --all],
    started at a commit that is not public, is not public either and has public parents
    only. *)
Theorem c67_tip : forall e o t o' n, wf_graph (dag_graph (nv_dag e)) -> (forall x, nv_found e x = true) ->
  advance e o Next (AllTheWay false) t = Moved o' n ->
  ancestor (dag_graph (nv_dag e)) o o' /\
  forall x, parent (dag_graph (nv_dag e)) o' x -> ~ visible (nv_dag e) x.
Proof.
  intros e o t o' n W F H. apply c67_path in H; [|exact W]. destruct H as [P S]. split.
  - exact (path_ancestor e Next _ n o o' P).
  - intros x Hx V. apply (S x). split; [apply F|]. split; [cbn; auto|]. discriminate.
Qed.
Theorem c67_stack_root : forall e o t o' n, wf_graph (dag_graph (nv_dag e)) -> (forall x, nv_found e x = true) ->
  ~ public (nv_dag e) o -> advance e o Prev (AllTheWay false) t = Moved o' n ->
  ancestor (dag_graph (nv_dag e)) o' o /\ ~ public (nv_dag e) o' /\
  forall p, parent (dag_graph (nv_dag e)) p o' -> public (nv_dag e) p.
Proof.
  intros e o t o' n W F N H. apply c67_path in H; [|exact W]. destruct H as [P S].
  split; [exact (path_ancestor e Prev _ n o o' P)|]. split.
  - clear S. induction P as [|k x y z H _ IH]; [exact N|]. apply IH. unfold can_step in H. apply H; reflexivity.
  - intros p Hp. destruct (decide (p ∈ public_commits (nv_dag e))) as [X|X]; [now apply public_spec|].
    exfalso. apply (S p). split; [apply F|]. split; [exact Hp|]. intros _ _ X'. apply X. now apply public_spec.
Qed.
(** On public commits [git prev --all] stays. *)
Theorem c67_public_stays : forall e o t b, wf_graph (dag_graph (nv_dag e)) -> public (nv_dag e) o ->
  advance e o Prev (AllTheWay b) t = Moved o 0.
Proof.
  intros e o t b W P. apply c67_followed; [exact W|constructor|]. intros x H.
  pose proof (can_step_proper _ _ _ _ _ H) as A. cbn in A. unfold can_step in H.
  apply (proj2 (proj2 H)); [reflexivity..|]. eapply public_closed; [apply tc_rtc; exact A|exact P].
Qed.
(** Moving never leads from a visible commit to one that is not shown. *)
Theorem c67_visible : forall e o c dist t o' n, wf_graph (dag_graph (nv_dag e)) ->
  visible (nv_dag e) o -> advance e o c dist t = Moved o' n -> visible (nv_dag e) o'.
Proof.
  intros e o c dist t o' n W V H. apply c67_path in H; [|exact W]. eapply path_visible; [exact (proj1 H)|exact V].
Qed.

(** [git prev] undoes [git next], if no merge commit was passed. *)
Theorem c67_round_trip : forall e o t t' o' n, wf_graph (dag_graph (nv_dag e)) -> nv_found e o = true ->
  (forall m p q, proper_ancestor (dag_graph (nv_dag e)) o m -> ancestor (dag_graph (nv_dag e)) m o' ->
     parent (dag_graph (nv_dag e)) p m -> parent (dag_graph (nv_dag e)) q m -> p = q) ->
  advance e o Next (NumCommits n false) t = Moved o' n ->
  advance e o' Prev (NumCommits n false) t' = Moved o n.
Proof.
  intros e o t t' o' n W F U H. apply c67_path in H; [|exact W]. destruct H as [P _].
  apply c67_followed; [exact W| |reflexivity].
  assert (X : forall a k, nsteps (can_step e Next (NumCommits n false)) k a o' ->
    nv_found e a = true -> ancestor (dag_graph (nv_dag e)) o a ->
    nsteps (only_step e Prev (NumCommits n false)) k o' a).
  { intros a k Q. clear P. induction Q as [|k x y z S Q IH]; intros Fx A; [constructor|].
    unfold can_step in S. cbn in S. destruct S as (Fy & (Pxy & _) & _).
    eapply nsteps_r; [apply IH; [exact U|exact Fy|]|].
    - eapply rtc_r; [exact A|exact Pxy].
    - split; [split; [exact Fx|split; [exact Pxy|discriminate]]|].
      intros b (_ & Pb & _). cbn in Pb. eapply U; [| |exact Pb|exact Pxy].
      + apply proper_parent. eauto.
      + exact (path_ancestor e Next _ k y z Q). }
  apply X; [exact P|exact F|apply rtc_refl].
Qed.

(** Nothing is said above about --newest when times contradict the graph: then the
    commit listed as newest need not be the one with the latest date. *)
Definition ex_skew : nav_env :=
  NavEnv (mk_dag [(1, []); (2, [1]); (3, [1; 2])]%N {[3%N]} {[1%N]} ∅ ∅ ∅)
    (fun o => if N.eqb o 2 then 10%Z else 5%Z) (fun _ => true) false (fun _ _ => None).
Theorem c67_newest_refuted : exists e o c dist o' n b, wf_graph (dag_graph (nv_dag e)) /\
  advance e o c dist (Some Newest) = Moved o' n /\ n = 1%nat /\
  can_step e c dist o b /\ (nv_time e o' < nv_time e b)%Z.
Proof.
  exists ex_skew, 1%N, Next, (NumCommits 1 false), 3%N, 1%nat, 2%N.
  assert (W : wf_graph (dag_graph (nv_dag ex_skew))).
  { unfold wf_graph; cbn; split_and!; set_solver. }
  split; [exact W|]. split; [vm_compute; reflexivity|]. split; [reflexivity|].
  split; [|vm_compute; reflexivity]. apply candidates_spec; [exact W|]. decide_it.
Qed.

(** Main branch at 2; above it a line 3, 4, 5 with a second child 6 of 3, and a hidden
    child 7 of 4. *)
Definition ex_nav : nav_env :=
  NavEnv (mk_dag [(1, []); (2, [1]); (3, [2]); (4, [3]); (5, [4]); (6, [3]); (7, [4])]%N
            {[3%N]} {[2%N]} {[2; 5]}%N {[3; 4; 5; 6; 7]}%N {[7%N]})
    Z.of_N (fun _ => true) false (fun _ _ => Some 0%nat).
Lemma ex_nav_wf : wf_graph (dag_graph (nv_dag ex_nav)).
Proof. unfold wf_graph; cbn; split_and!; set_solver. Qed.
Example c67_example :
  advance ex_nav 3 Next (NumCommits 1 false) None = Ambiguous 0 [4; 6]%N /\
  advance ex_nav 3 Next (NumCommits 2 false) (Some Oldest) = Moved 5 2 /\
  advance ex_nav 3 Next (NumCommits 2 false) (Some Newest) = Moved 6 1 /\
  advance ex_nav 3 Next (AllTheWay false) (Some Interactive) = Moved 5 2 /\
  advance ex_nav 3 Next (NumCommits 1 true) None = Moved 5 1 /\
  advance ex_nav 5 Next (NumCommits 1 false) None = NoMore /\
  advance ex_nav 5 Prev (AllTheWay false) None = Moved 3 2 /\
  advance ex_nav 5 Prev (NumCommits 2 false) None = Moved 3 2 /\
  advance ex_nav 5 Prev (NumCommits 1 true) None = Moved 2 1 /\
  advance ex_nav 5 Prev (AllTheWay true) None = Moved 5 0.
Proof. vm_compute. split_and!; reflexivity. Qed.
(** The hypotheses about times, merges and public commits hold there. *)
Example c67_example_hypotheses :
  (forall p q, parent (dag_graph (nv_dag ex_nav)) p q -> (nv_time ex_nav p < nv_time ex_nav q)%Z) /\
  (forall m p q, parent (dag_graph (nv_dag ex_nav)) p m -> parent (dag_graph (nv_dag ex_nav)) q m -> p = q) /\
  ~ public (nv_dag ex_nav) 5 /\ public (nv_dag ex_nav) 1 /\ visible (nv_dag ex_nav) 3.
Proof.
  assert (L : forall p m, parent (dag_graph (nv_dag ex_nav)) p m -> p ∈ parents_of (dag_graph (nv_dag ex_nav)) m /\
    m ∈ [1; 2; 3; 4; 5; 6; 7]%N).
  { intros p m H. split; [now apply (parent_parents_of _ p m ex_nav_wf)|].
    apply (parent_vertices _ p m ex_nav_wf) in H. destruct H as [_ H].
    unfold vertices in H. apply elem_of_list_to_set in H. exact H. }
  split_and!.
  - intros p q H. apply L in H. destruct H as [H Hq].
    repeat (apply elem_of_cons in Hq; destruct Hq as [->|Hq];
      [repeat (apply elem_of_cons in H; destruct H as [->|H]; [vm_compute; reflexivity|]); now apply elem_of_nil in H|]).
    now apply elem_of_nil in Hq.
  - intros m p q H H'. apply L in H, H'. destruct H as [H Hm], H' as [H' _].
    repeat (apply elem_of_cons in Hm; destruct Hm as [->|Hm];
      [cbn in H, H'; try (now apply elem_of_nil in H);
       apply elem_of_list_singleton in H, H'; congruence|]).
    now apply elem_of_nil in Hm.
  - rewrite <- (public_spec _ _ ex_nav_wf). decide_it.
  - rewrite <- (public_spec _ _ ex_nav_wf). decide_it.
  - rewrite <- (visible_spec _ _ ex_nav_wf). decide_it.
Qed.

(** ** C68: checking out the place reached *)

(** After [git next] or [git prev] HEAD names the commit reached, no reference has moved,
    and HEAD is on a branch only if that is the only branch there. *)
Theorem c68_lands : forall rev auto e s c p r, rev_ok rev -> names_ok s ->
  (forall o, o ∈ vertices (dag_graph (nv_dag e)) -> oid_ok o) ->
  (forall h, head_at s = Some h -> oid_ok h) -> wf_graph (dag_graph (nv_dag e)) ->
  traverse_commits rev auto e s c p = CheckedOut r ->
  exists dist t h o n s', asked_distance p dist /\ asked_towards p t /\
    head_at s = Some h /\ advance e h c dist t = Moved o n /\ r = Some s' /\
    head_at s' = Some o /\ rs_refs s' = rs_refs s /\
    (rs_head s' = Detached o \/ exists b, only_branch s o b /\ rs_head s' = OnBranch b).
Proof.
  intros rev auto e s c p r R N V Hs W H. unfold traverse_commits in H.
  destruct (read_distance p) as [dist|] eqn:Ed; [|discriminate].
  destruct (read_towards p) as [t|] eqn:Et; [|discriminate].
  apply read_distance_spec in Ed. apply read_towards_spec in Et. rewrite head_info in H. destruct (head_at s) as [h|] eqn:Eh; [|discriminate].
  destruct (advance e h c dist t) as [o n| | | |] eqn:E; try discriminate. injection H as <-.
  assert (Ho : oid_ok o).
  { apply c67_path in E; [|exact W]. destruct E as [P _].
    destruct n as [|n]; [inversion P; subst; now apply Hs|].
    apply nsteps_inv_r in P. destruct P as (y & _ & P). apply can_step_proper in P. apply V.
    destruct c; apply proper_vertices in P; tauto. }
  destruct (move_target_lands rev auto s dist o R N Ho) as (s' & A & B).
  { intros x Hx. apply Hs. congruence. }
  exists dist, t, h, o, n, s'. rewrite <- A. tauto.
Qed.

(** Options that contradict each other are refused, and only these. *)
Theorem c68_bad_options : forall rev auto e s c p,
  traverse_commits rev auto e s c p = BadOptions <->
  (forall dist, ~ asked_distance p dist) \/ (forall t, ~ asked_towards p t).
Proof.
  intros rev auto e s c p. unfold traverse_commits. split.
  - destruct (read_distance p) as [dist|] eqn:Ed.
    + destruct (read_towards p) as [t|] eqn:Et.
      * destruct (fst (get_head_info s)); [|discriminate]. destruct (advance _ _ _ _ _); discriminate.
      * intros _. right. intros t H. apply read_towards_spec in H. congruence.
    + intros _. left. intros dist H. apply read_distance_spec in H. congruence.
  - intros [H|H].
    + destruct (read_distance p) as [dist|] eqn:Ed; [|reflexivity].
      apply read_distance_spec in Ed. now apply H in Ed.
    + destruct (read_towards p) as [t|] eqn:Et.
      * apply read_towards_spec in Et. now apply H in Et.
      * now destruct (read_distance p).
Qed.

(** The only branch at a commit is checked out with it, unless HEAD was there before or
    the setting says otherwise. *)
Theorem c68_branch : forall rev s o r, rev_ok rev -> names_ok s -> oid_ok o ->
  (forall h, head_at s = Some h -> oid_ok h) ->
  head_at s <> Some o -> only_branch s o r ->
  check_out_commit rev true s (Some (TOid o)) no_args = Some (RefState (OnBranch r) (rs_refs s)).
Proof. intros rev s o r R N Ho Hs Hh Hr. now apply (check_out_oid rev true s o). Qed.
Theorem c68_detached : forall rev auto s o, rev_ok rev -> names_ok s -> oid_ok o ->
  (forall h, head_at s = Some h -> oid_ok h) ->
  auto = false \/ head_at s = Some o \/ (forall r, ~ only_branch s o r) ->
  check_out_commit rev auto s (Some (TOid o)) no_args = Some (RefState (Detached o) (rs_refs s)).
Proof. intros rev auto s o R N Ho Hs H. now apply (check_out_oid rev auto s o). Qed.
(** Moving by branches checks out the only branch, even then. *)
Theorem c68_by_branches : forall rev auto s dist o r, by_branches dist = true -> only_branch s o r ->
  check_out_commit rev auto s (Some (move_target s dist o)) no_args = Some (RefState (OnBranch r) (rs_refs s)).
Proof.
  intros rev auto s dist o r B Hr. replace (move_target s dist o) with (TRef r).
  - now apply (check_out_ref rev auto s o).
  - apply branches_at_only in Hr. destruct dist as [k []|[]]; try discriminate; cbn [move_target]; now rewrite Hr.
Qed.

(** HEAD on the branch at 5, the top of the stack. *)
Definition ex_refs : refstate :=
  RefState (OnBranch "refs/heads/topic") (<["refs/heads/topic" := 5%N]> (<["refs/heads/main" := 2%N]> ∅)).
Definition ex_rev (t : string) : option oid := oid_from_string t.
Lemma ex_rev_ok : rev_ok ex_rev.
Proof. intros o Ho. unfold ex_rev. now apply nzoid_text_round_trip. Qed.

(** Moving as far as possible from where one already is leaves the branch. *)
Theorem c68_stay_refuted : exists rev e s p s' r, rev_ok rev /\
  rs_head s = OnBranch r /\ only_branch s 5%N r /\
  traverse_commits rev true e s Next p = CheckedOut (Some s') /\
  head_at s' = head_at s /\ rs_head s' <> rs_head s.
Proof.
  exists ex_rev, ex_nav, ex_refs, (NavOptions None true false false false false),
    (RefState (Detached 5%N) (rs_refs ex_refs)), "refs/heads/topic".
  split; [exact ex_rev_ok|]. split; [reflexivity|]. split.
  { apply branches_at_only. vm_compute. reflexivity. }
  split; [vm_compute; reflexivity|]. split; [vm_compute; reflexivity|]. cbn. discriminate.
Qed.

(** [git switch] with a revset: HEAD names the only head, never a branch. *)
Theorem c68_switch_revset : forall rev auto e s revparse revset pick t s',
  rev_ok rev -> names_ok s -> wf_graph (dag_graph (nv_dag e)) ->
  (forall o, o ∈ vertices (dag_graph (nv_dag e)) -> oid_ok o) ->
  revparse t = None ->
  switch rev auto e s revparse revset pick false (Some t) no_args = Switched (Some s') ->
  exists o, rs_head s' = Detached o /\ rs_refs s' = rs_refs s /\
    forall x, (x ∈ revset t /\ x ∈ vertices (dag_graph (nv_dag e)) /\ nv_found e x = true /\
               forall c, c ∈ revset t -> ~ parent (dag_graph (nv_dag e)) x c) <-> x = o.
Proof.
  intros rev auto e s revparse revset pick t s' R N W V E H. unfold switch in H. rewrite E in H.
  destruct (sorted_commit_set e _) as [|o [|]] eqn:S; try discriminate. injection H as H.
  assert (M : forall x, x ∈ [o] <-> x ∈ heads (dag_graph (nv_dag e)) (revset t) /\
    x ∈ vertices (dag_graph (nv_dag e)) /\ nv_found e x = true).
  { intros x. rewrite <- S. apply sorted_spec. }
  assert (Ho : oid_ok o) by (apply V; apply M; left).
  exists o. unfold check_out_commit, target_text in H.
  assert (H' : git_checkout rev s (Some (oid_to_string o)) no_args = Some s').
  { destruct auto; [|exact H]. now rewrite name_of_text in H. }
  rewrite checkout_commit in H' by assumption. injection H' as <-.
  split; [reflexivity|]. split; [reflexivity|]. intros x.
  specialize (M x). rewrite elem_of_list_singleton, heads_spec in M. tauto.
Qed.
Theorem c68_switch_branch_refuted : exists rev e s revparse revset pick t s' o r,
  rev_ok rev /\ head_at s <> Some o /\ revset t = {[o]} /\ only_branch s o r /\
  switch rev true e s revparse revset pick false (Some t) no_args = Switched (Some s') /\
  rs_head s' = Detached o.
Proof.
  exists ex_rev, ex_nav, ex_refs, (fun _ => None), (fun _ => {[2%N]}), (fun _ => None), "roots(main)"%string,
    (RefState (Detached 2%N) (rs_refs ex_refs)), 2%N, "refs/heads/main".
  split; [exact ex_rev_ok|]. split; [vm_compute; discriminate|]. split; [reflexivity|]. split.
  { apply branches_at_only. vm_compute. reflexivity. }
  split; [vm_compute; reflexivity|reflexivity].
Qed.

(** A commit picked interactively is checked out; picking none changes nothing. *)
Theorem c68_switch_interactive : forall rev auto e s revparse revset pick t, rev_ok rev -> names_ok s ->
  (forall h, head_at s = Some h -> oid_ok h) -> (forall q o, pick q = Some o -> oid_ok o) ->
  match pick (match t with Some q => q | None => ""%string end) with
  | Some o => exists s', switch rev auto e s revparse revset pick true t no_args = Switched (Some s') /\
      head_at s' = Some o /\ rs_refs s' = rs_refs s
  | None => switch rev auto e s revparse revset pick true t no_args = Refused
  end.
Proof.
  intros rev auto e s revparse revset pick t R N Hs Hp. unfold switch.
  destruct (pick _) as [o|] eqn:E; [|reflexivity]. apply Hp in E.
  destruct (check_out_lands rev auto s o R N E Hs) as (s' & A & B & C & _).
  exists s'. rewrite A. auto.
Qed.
(** A target that Git can read is left to Git: a branch is checked out, other texts give
    the commit they name. *)
Theorem c68_switch_text : forall rev auto e s revparse revset pick t o, revparse t = Some o ->
  switch rev auto e s revparse revset pick false (Some t) no_args =
  Switched (match rs_refs s !! ("refs/heads/" +:+ t : refname) with
            | Some _ => Some (RefState (OnBranch ("refs/heads/" +:+ t)) (rs_refs s))
            | None => match rev t with
                      | Some o => Some (RefState (Detached o) (rs_refs s))
                      | None => None
                      end
            end).
Proof.
  intros rev auto e s revparse revset pick t o E. unfold switch. rewrite E. f_equal.
  unfold check_out_commit, target_text. replace (if auto then _ else _) with (Some t).
  - unfold git_checkout. change heads_prefix with "refs/heads/"%string.
    destruct (rs_refs s !! _); [reflexivity|]. now destruct (rev t).
  - destruct auto; [now rewrite name_of_text|reflexivity].
Qed.

(** Without a target nothing is asked, contrary to the help text: HEAD stays at its
    commit. *)
Theorem c68_no_target : forall rev auto e s revparse revset pick s',
  switch rev auto e s revparse revset pick false None no_args = Switched (Some s') ->
  head_at s' = head_at s /\ rs_refs s' = rs_refs s.
Proof.
  intros rev auto e s revparse revset pick s' H. injection H as H. unfold check_out_commit, target_text in H.
  assert (D : maybe_get_branch_name s None None = None \/
    exists o r, head_at s = Some o /\ only_branch s o r /\
      maybe_get_branch_name s None None = Some (render_suffix r)).
  { unfold maybe_get_branch_name. rewrite head_info. destruct (head_at s) as [o|] eqn:Eh; [|auto].
    destruct (branches_at s o) as [|r [|]] eqn:B; auto. right. exists o, r.
    split; [reflexivity|]. split; [now apply branches_at_only|reflexivity]. }
  assert (Z : git_checkout rev s None no_args = Some s' -> head_at s' = head_at s /\ rs_refs s' = rs_refs s).
  { unfold git_checkout. rewrite head_info. destruct (head_at s) as [o|] eqn:Eh; [|discriminate].
    intros [= <-]. split; [|reflexivity]. exact Eh. }
  destruct auto; [|now apply Z]. destruct D as [D|(o & r & Eh & Hr & D)]; rewrite D in H; [now apply Z|].
  apply only_branch_there in Hr. rewrite (checkout_branch rev s o r) in H by tauto. injection H as <-.
  split; [|reflexivity]. unfold head_at at 1. cbn. rewrite Eh. tauto.
Qed.
Theorem c68_no_target_refuted : exists rev e s revparse revset pick s',
  (forall q, pick q = None) /\
  switch rev true e s revparse revset pick false None no_args = Switched (Some s').
Proof.
  exists ex_rev, ex_nav, ex_refs, (fun _ => None), (fun _ => ∅), (fun _ => None), ex_refs.
  split; [reflexivity|]. vm_compute. reflexivity.
Qed.

(** [git switch --create]: HEAD is on the new branch, at the commit chosen; other
    references stay. *)
Theorem c68_create : forall rev auto s o b s', rev_ok rev -> names_ok s -> oid_ok o ->
  (forall h, head_at s = Some h -> oid_ok h) ->
  check_out_commit rev auto s (Some (TOid o)) (CheckoutArgs (Some b) false) = Some s' ->
  rs_refs s !! (heads_prefix +:+ b : refname) = None /\
  s' = RefState (OnBranch (heads_prefix +:+ b)) (<[(heads_prefix +:+ b : refname) := o]> (rs_refs s)).
Proof.
  intros rev auto s o b s' R N Ho Hs H. unfold check_out_commit, target_text in H.
  assert (P : exists t h, git_checkout rev s (Some t) (CheckoutArgs (Some b) false) = Some s' /\
    git_checkout rev s (Some t) no_args = Some (RefState h (rs_refs s)) /\
    head_at (RefState h (rs_refs s)) = Some o).
  { destruct (name_of_commit s o Ho Hs) as [A B].
    assert (X : exists t h, (if auto then maybe_get_branch_name s (Some (oid_to_string o)) (Some o)
        else Some (oid_to_string o)) = Some t /\
      git_checkout rev s (Some t) no_args = Some (RefState h (rs_refs s)) /\
      head_at (RefState h (rs_refs s)) = Some o).
    { destruct auto.
      - destruct (decide (head_at s = Some o)) as [E|E].
        + exists (oid_to_string o), (Detached o). split; [auto|]. split; [now apply checkout_commit|reflexivity].
        + destruct (only_branch_dec s o) as [[r Hr]|X].
          * exists (render_suffix r), (OnBranch r). split; [auto|].
            apply only_branch_there in Hr. split; [now apply (checkout_branch rev s o)|]. cbn. tauto.
          * exists (oid_to_string o), (Detached o). split; [auto|]. split; [now apply checkout_commit|reflexivity].
      - exists (oid_to_string o), (Detached o). split; [reflexivity|]. split; [now apply checkout_commit|reflexivity]. }
    destruct X as (t & h & E & G & Hh). rewrite E in H. exists t, h. auto. }
  clear H. destruct P as (t & h & H & G & Hh). unfold git_checkout in H, G. cbn [ca_create ca_detach no_args] in H, G.
  destruct (match rs_refs s !! (heads_prefix +:+ t : refname) with Some o => _ | None => _ end) as [[o' h']|] eqn:E;
    [|discriminate].
  assert (o' = o).
  { injection G as ->. destruct (rs_refs s !! (heads_prefix +:+ t : refname)) as [x|] eqn:Ex.
    - injection E as <- <-. cbn in Hh. rewrite Ex in Hh. congruence.
    - destruct (rev t); [|discriminate]. injection E as <- <-. cbn in Hh. congruence. }
  subst o'. destruct (rs_refs s !! (heads_prefix +:+ b : refname)) eqn:Eb; [discriminate|].
  injection H as <-. auto.
Qed.

(** A branch named like a hash is taken for the commit of that hash. *)
Theorem c68_hash_name_refuted : exists rev s o s', rev_ok rev /\ oid_ok o /\
  check_out_commit rev true s (Some (TOid o)) no_args = Some s' /\ head_at s' <> Some o.
Proof.
  exists ex_rev, (RefState (Detached 1%N) (<[(heads_prefix +:+ oid_to_string 3 : refname) := 2%N]> ∅)), 3%N,
    (RefState (OnBranch (heads_prefix +:+ oid_to_string 3))
       (<[(heads_prefix +:+ oid_to_string 3 : refname) := 2%N]> ∅)).
  split; [exact ex_rev_ok|]. split; [unfold oid_ok, oid_limit; lia|].
  split; [vm_compute; reflexivity|]. vm_compute. discriminate.
Qed.

Example c68_example :
  traverse_commits ex_rev true ex_nav ex_refs Prev (NavOptions (Some 3%nat) false false false false false)
    = CheckedOut (Some (RefState (OnBranch "refs/heads/main") (rs_refs ex_refs))) /\
  traverse_commits ex_rev false ex_nav ex_refs Prev (NavOptions (Some 3%nat) false false false false false)
    = CheckedOut (Some (RefState (Detached 2%N) (rs_refs ex_refs))) /\
  traverse_commits ex_rev true ex_nav ex_refs Prev (NavOptions None true false false false false)
    = CheckedOut (Some (RefState (Detached 3%N) (rs_refs ex_refs))) /\
  names_ok ex_refs /\ (forall o, o ∈ vertices (dag_graph (nv_dag ex_nav)) -> oid_ok o) /\
  (forall h, head_at ex_refs = Some h -> oid_ok h).
Proof.
  split; [vm_compute; reflexivity|]. split; [vm_compute; reflexivity|]. split; [vm_compute; reflexivity|].
  split_and!.
  - intros o Ho. cbn [ex_refs rs_refs].
    assert (L : String.length (heads_prefix +:+ oid_to_string o) = 51%nat).
    { rewrite string_length_sapp, oid_text_length. reflexivity. }
    rewrite !lookup_insert_ne, lookup_empty; [reflexivity|..]; intros E; rewrite <- E in L; discriminate.
  - intros o Ho. unfold vertices in Ho. apply elem_of_list_to_set in Ho. cbn in Ho. unfold oid_ok, oid_limit.
    repeat (apply elem_of_cons in Ho; destruct Ho as [->|Ho]; [lia|]). now apply elem_of_nil in Ho.
  - intros h Hh. replace (head_at ex_refs) with (Some 5%N) in Hh by (vm_compute; reflexivity).
    injection Hh as <-. unfold oid_ok, oid_limit. lia.
Qed.

Print Assumptions c67_path.
Print Assumptions c67_unambiguous.
Print Assumptions c67_followed.
Print Assumptions c67_newest.
Print Assumptions c67_oldest.
Print Assumptions c67_times_branches.
Print Assumptions c67_times_grow.
Print Assumptions c67_no_more.
Print Assumptions c67_ambiguous.
Print Assumptions c67_cancelled.
Print Assumptions c67_terminates.
Print Assumptions c67_all_succeeds.
Print Assumptions c67_tip.
Print Assumptions c67_stack_root.
Print Assumptions c67_public_stays.
Print Assumptions c67_visible.
Print Assumptions c67_round_trip.
Print Assumptions c67_newest_refuted.
Print Assumptions c68_lands.
Print Assumptions c68_bad_options.
Print Assumptions c68_branch.
Print Assumptions c68_detached.
Print Assumptions c68_by_branches.
Print Assumptions c68_stay_refuted.
Print Assumptions c68_switch_revset.
Print Assumptions c68_switch_branch_refuted.
Print Assumptions c68_switch_interactive.
Print Assumptions c68_switch_text.
Print Assumptions c68_no_target.
Print Assumptions c68_no_target_refuted.
Print Assumptions c68_create.
Print Assumptions c68_hash_name_refuted.
