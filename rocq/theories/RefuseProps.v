(** Property C83: refusing to move what is not clear. *)
From stdpp Require Import sorting relations countable.
From Verif Require Import Base TextModel EventLogModel EventLogSpec EventLogProofs EvolveModel EvolveSpec
  DagModel DagSpec DagProofs DagCompProofs StrModel StrProofs HookModel HookSpec PlanModel PlanSpec PlanProofs PlanBuildProofs PlanProps ExecModel ExecSpec ExecAfterProofs ExecProps
  HideModel HideSpec HideProofs HideProps RestackModel RestackSpec RestackProofs RestackProps SyncModel SyncSpec SyncProofs SyncProps
  MoveModel MoveSpec MoveProofs MoveReqProofs MoveExactProofs MovePublicProofs MoveProps RefuseSpec RefuseProofs.
Local Open Scope string_scope.
Local Open Scope list_scope.

(** Whatever the graph, nothing is done when it is not clear what is to go where. *)
Theorem c83_refused : forall e ts tx a r, restackable e r -> unclear (he_graph (re_hide e)) a r ->
  exists w, move e ts tx a r = mk_mr r None (NotMoved w).
Proof.
  intros e ts tx a r R U. destruct (io_exists _ _ (ra_order _ _ R)) as [m Hm].
  assert (exists d, open_repo (re_hide e) (rr_repo r) = Some d) as [d Op] by (unfold open_repo; rewrite Hm; eauto).
  pose proof (rf_requests e r d a R Op) as H. unfold move. rewrite Op. destruct (move_requests e d _ a) as [[allowed cs]|w]; [|eauto].
  contradiction.
Qed.

(** The reason stated is the case. *)
Theorem c83_reason : forall e ts tx a r, restackable e r -> sorts_up e ->
  match mv_end (move e ts tx a r) with
  | NotMoved (ExactRoots _) => two_starts (he_graph (re_hide e)) a
  | NotMoved (ExactParents _) => odd_start (he_graph (re_hide e)) a
  | NotMoved (NotOneDest _) => forall d, ~ meant_dest a r d
  | NotMoved (ManyPlaces _) => two_places (he_graph (re_hide e)) a
  | NotMoved (NotOneLineage _ _) => ma_insert a = true /\ two_lines (he_graph (re_hide e)) a
  | NotMoved ManyHeads => ma_insert a = true /\
      (forall d, meant_dest a r d -> plain_bases (he_graph (re_hide e)) a r d -> not_one_last (he_graph (re_hide e)) a r d)
  | NotMoved NoHead => False
  | _ => True
  end.
Proof.
  intros e ts tx a r R Su. destruct (io_exists _ _ (ra_order _ _ R)) as [m Hm].
  assert (exists d, open_repo (re_hide e) (rr_repo r) = Some d) as [d Op] by (unfold open_repo; rewrite Hm; eauto).
  pose proof (rf_requests e r d a R Op) as H. unfold move. rewrite Op. destruct (move_requests e d _ a) as [[allowed cs]|w].
  - destruct (build _ _ _ _) as [[dest cmds| |l|l]| | ]; cbn [mv_end]; auto. destruct (run_plan _ _ _ _ _ _) as [r' []]; exact Logic.I.
  - cbn [mv_end]. destruct w; cbn in H; auto. destruct H; auto.
Qed.

(** ** Demonstrations *)
Local Open Scope Z_scope.
(** 4 merges 2 and 3, which are on 1; 5 is on top. *)
Definition udemo_graph : graph := [(1%N, []); (2%N, [1%N]); (3%N, [1%N]); (4%N, [2%N; 3%N]); (5%N, [4%N]); (6%N, [4%N])].
Definition udemo_env : restack_env := mdemo_env udemo_graph (objects_in udemo_graph) (picks []) (fun _ _ => Conflict).
Definition udemo : rrepo := rdemo_repo udemo_graph [("refs/heads/main", 1%N)] (mk_head (Some 1%N) None) (List.map (CommitEvent 1 (TxId 1)) [2%N; 3%N; 4%N; 5%N; 6%N]).
Lemma udemo_order : restackable udemo_env udemo. Proof. apply mdemo_restackable; vm_compute; reflexivity. Qed.
Lemma udemo_wf : wf_graph udemo_graph. Proof. apply ordered_from_spec. vm_compute. reflexivity. Qed.
Definition exactly (l : list oid) (d : oid) : move_args := mk_ma [] (Some {[d]}) [] [list_to_set l] false false.
Lemma exactly_given l d x : given_exact (exactly l d) x <-> x ∈ l.
Proof.
  unfold given_exact, exactly. cbn [ma_exacts]. split.
  - intros (s & Hs & Hx). apply elem_of_list_singleton in Hs as ->. now apply elem_of_list_to_set in Hx.
  - intros H. exists (list_to_set l). split; [left|now apply elem_of_list_to_set].
Qed.
Lemma exactly_first l d x : x ∈ l -> forallb (fun p => bool_decide (p ∉ l)) (parents_of udemo_graph x) = true -> range_first udemo_graph (exactly l d) x.
Proof.
  intros Hx H. split; [now apply exactly_given|]. intros p P. rewrite exactly_given. apply parent_parents_of in P; [|exact udemo_wf].
  rewrite forallb_forall in H. apply elem_of_list_In in P. apply H in P. now apply bool_decide_eq_true in P.
Qed.
(** With 2, 3 and 4 given there are two first commits in one range; with 4 only, the first
    commit has two parents; with 2, 3 and 5, it is not clear where 5 is to go; and 4 cannot be
    inserted as it ends in 5 and 6. *)
Example c83_example :
  restackable udemo_env udemo /\ sorts_up udemo_env /\
  two_starts udemo_graph (exactly [2%N; 3%N; 4%N] 1) /\
  mv_end (move udemo_env 9 (TxId 9) (exactly [2%N; 3%N; 4%N] 1) udemo) = NotMoved (ExactRoots 2) /\
  odd_start udemo_graph (exactly [4%N] 1) /\
  mv_end (move udemo_env 9 (TxId 9) (exactly [4%N] 1) udemo) = NotMoved (ExactParents 2) /\
  two_places udemo_graph (exactly [2%N; 3%N; 5%N] 1) /\
  mv_end (move udemo_env 9 (TxId 9) (exactly [2%N; 3%N; 5%N] 1) udemo) = NotMoved (ManyPlaces 5) /\
  not_one_last udemo_graph (mk_ma [{[4%N]}] (Some {[1%N]}) [] [] false true) udemo 1 /\ plain_bases udemo_graph (mk_ma [{[4%N]}] (Some {[1%N]}) [] [] false true) udemo 1 /\
  mv_end (move udemo_env 9 (TxId 9) (mk_ma [{[4%N]}] (Some {[1%N]}) [] [] false true) udemo) = NotMoved ManyHeads.
Proof.
  assert (P : forall p c, bool_decide (p ∈ parents_of udemo_graph c) = true -> parent udemo_graph p c).
  { intros p c H. apply bool_decide_eq_true in H. now apply parent_parents_of; [exact udemo_wf|]. }
  split; [exact udemo_order|]. split; [apply mdemo_sorts; vm_compute; reflexivity|]. split_and!; try (vm_compute; reflexivity).
  - exists 2%N, 3%N. split; [discriminate|]. split; [apply exactly_first; [decide_it|vm_compute; reflexivity]|].
    split; [apply exactly_first; [decide_it|vm_compute; reflexivity]|].
    apply (sr_down _ _ _ 4%N); [|apply P; vm_compute; reflexivity|apply exactly_given; decide_it].
    apply (sr_up _ _ _ 2%N); [|apply P; vm_compute; reflexivity|apply exactly_given; decide_it]. constructor. apply exactly_given. decide_it.
  - exists 4%N. split; [apply exactly_first; [decide_it|vm_compute; reflexivity]|]. intros (p & Hp).
    assert (A : parent udemo_graph 2 4) by (apply P; vm_compute; reflexivity). assert (B : parent udemo_graph 3 4) by (apply P; vm_compute; reflexivity).
    apply Hp in A, B. congruence.
  - assert (B : forall s, s = 2%N \/ s = 3%N -> range_below udemo_graph (exactly [2%N; 3%N; 5%N] 1) s 5%N).
    { intros s Hs. split; [destruct Hs as [-> | ->]; apply exactly_first; [decide_it|vm_compute; reflexivity|decide_it|vm_compute; reflexivity]|].
      split.
      - eapply rtc_l; [|apply rtc_once; apply (P 4%N 5%N); vm_compute; reflexivity]. destruct Hs as [-> | ->]; apply P; vm_compute; reflexivity.
      - intros Sm. assert (K : forall y, same_range udemo_graph (exactly [2%N; 3%N; 5%N] 1) s y -> y = s).
        { intros y H. induction H as [|x y z _ IH Pz Hz|x y z _ IH Pz Hz]; [reflexivity| |]; rewrite (IH Hs Sm) in Pz; apply parent_parents_of in Pz; try exact udemo_wf; apply exactly_given in Hz; exfalso; revert Pz;
            repeat (apply elem_of_cons in Hz; destruct Hz as [->|Hz]; [|]); try (now apply elem_of_nil in Hz);
            destruct Hs as [-> | ->]; apply (bool_decide_unpack _); vm_compute; exact Logic.I. }
        specialize (K _ Sm). destruct Hs as [-> | ->]; discriminate. }
    exists 5%N, 2%N, 3%N. split; [apply exactly_first; [decide_it|vm_compute; reflexivity]|]. split; [apply B; auto|]. split; [apply B; auto|].
    split; apply not_ancestor; vm_compute; reflexivity.
  - intros (x & Hx). assert (L : forall y, parent udemo_graph 4 y -> bool_decide (y ∈ parents udemo_graph (vertices udemo_graph)) = false ->
      last_moved udemo_graph (mk_ma [{[4%N]}] (Some {[1%N]}) [] [] false true) udemo 1 y).
    { intros y Py N. apply bool_decide_eq_false in N. left. split.
      - exists 4%N. split; [|now apply rtc_once]. left. exists {[4%N]}. split; [left|now apply elem_of_singleton].
      - intros z Pz. apply N. apply parents_spec. exists z. split; [|exact Pz]. now apply parent_vertices in Pz; [|exact udemo_wf]. }
    assert (5%N = x) by (apply Hx, L; [apply P; vm_compute; reflexivity|vm_compute; reflexivity]).
    assert (6%N = x) by (apply Hx, L; [apply P; vm_compute; reflexivity|vm_compute; reflexivity]). congruence.
  - intros b x [(s & Hs & _)|(Y & _)]; [now apply elem_of_nil in Hs|discriminate].
Qed.

Print Assumptions c83_refused.
Print Assumptions c83_reason.
