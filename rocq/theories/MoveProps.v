(** Properties C77 to C80: moving commits. *)
From stdpp Require Import sorting relations countable.
From Verif Require Import Base TextModel EventLogModel EventLogSpec EventLogProofs EvolveModel EvolveSpec
  DagModel DagSpec DagProofs DagCompProofs StrModel StrProofs HookModel HookSpec PlanModel PlanSpec PlanProofs PlanBuildProofs PlanProps ExecModel ExecSpec ExecAfterProofs ExecProps
  HideModel HideSpec HideProofs HideProps RestackModel RestackSpec RestackProofs RestackProps SyncModel SyncSpec SyncProofs SyncProps
  MoveModel MoveSpec MoveProofs MoveReqProofs MoveExactProofs MovePublicProofs.
Local Open Scope string_scope.
Local Open Scope list_scope.

(** ** C77: subtrees *)

(** When it succeeds, the first commits of what was given are put onto the destination and
    all that is shown above them goes along, with branches, HEAD and the log following;
    nothing else is rewritten.  Otherwise nothing is different. *)
Theorem c77_moved : forall e ts i a r d, movable e r a d ->
  comes_to e r (to_move e r a d) (subtrees_onto (he_graph (re_hide e)) (to_move e r a d) d) (move e ts (TxId i) a r).
Proof. intros e ts i a r d M. now apply sub_comes_to. Qed.

(** It does succeed, unless nothing was given, public commits would be rewritten, the
    destination is above a commit to be moved, or there is a merge or a conflict. *)
Theorem c77_ends : forall e ts i a r d, movable e r a d -> workable e r -> d ∈ vertices (he_graph (re_hide e)) ->
  match mv_end (move e ts (TxId i) a r) with
  | NothingToDo => forall c, ~ to_move e r a d c
  | NotMoved WouldRewritePublic => would_rewrite_public e r a d
  | NotMoved (PlanCycle _) => above_itself e r a d
  | NotMoved _ => False
  | _ => goes_through e r (to_move e r a d) (move e ts (TxId i) a r)
  end.
Proof. intros e ts i a r d M. now apply sub_ends. Qed.

(** It is refused when public commits would be rewritten, and when the destination is
    shown and above a commit to be moved. *)
Theorem c77_refused : forall e ts tx a r d, movable e r a d ->
  (would_rewrite_public e r a d -> move e ts tx a r = mk_mr r None (NotMoved WouldRewritePublic)) /\
  (~ would_rewrite_public e r a d -> above_itself e r a d -> shown (he_graph (re_hide e)) (rr_repo r) d ->
   exists l, move e ts tx a r = mk_mr r None (NotMoved (PlanCycle l))).
Proof.
  intros e ts tx a r d M. split; [now apply sub_refused_public|]. intros N A S. now apply (sub_refused_cycle e r a d M).
Qed.

(** ** C78: branches *)

(** Without arguments the branch of HEAD is moved: from its first commit that the
    destination does not have, or just HEAD if the destination has all of it. *)
Theorem c78_head : forall e a r d b c, restackable e r ->
  ma_sources a = [] -> ma_bases a = [] -> ma_exacts a = [] -> hi_oid (hr_head (rr_repo r)) = Some b ->
  to_move e r a d c <-> branch_start (he_graph (re_hide e)) b d c.
Proof.
  intros e a r d b c R S0 B0 X0 Hh. pose proof (graph_wf e r R) as W.
  assert (G : forall c, subtree_given (he_graph (re_hide e)) a r d c <-> branch_start (he_graph (re_hide e)) b d c).
  { intros x. unfold subtree_given, given_source, given_base. rewrite S0, B0, Hh. split.
    - intros [(s & Hs & _)|(b' & [(s & Hs & _)|(_ & _ & _ & Y)] & K)]; [now apply elem_of_nil in Hs|now apply elem_of_nil in Hs|]. injection Y as <-. exact K.
    - intros H. right. exists b. split; [right; auto|exact H]. }
  unfold to_move, first_of. rewrite G. split; [intros [H _]; exact H|]. intros H. split; [exact H|]. intros p P Hp. apply G in Hp.
  destruct H as [[[A N] F]|[A ->]], Hp as [[[A' N'] F']|[A' Ep]].
  - apply N'. now apply F.
  - apply N. eapply rtc_transitive; eauto.
  - apply N'. eapply rtc_l; eauto.
  - subst p. apply (wf_acyclic _ b W). now apply tc_once.
Qed.

(** All commits of a branch that the destination does not have are moved, when there are
    no merges among them; those the destination has are not. *)
Theorem c78_whole : forall e ts i a r d b rw, movable e r a d -> given_base a r b ->
  mv_end (move e ts (TxId i) a r) = Moved -> mv_rewritten (move e ts (TxId i) a r) = Some rw ->
  shown (he_graph (re_hide e)) (rr_repo r) b ->
  (forall x, ahead (he_graph (re_hide e)) b d x -> is_Some (rw !! x)) /\
  (re_force e = false -> forall x, is_public e r x -> rw !! x = None).
Proof.
  intros e ts i a r d b rw M Gb En Er Sb. pose proof (c77_moved e ts i a r d M) as H. unfold comes_to in H. rewrite En, Er in H.
  destruct H as (rw' & [= <-] & H). pose proof (ma_which _ _ _ _ _ _ (md_commits _ _ _ _ _ _ H)) as K. pose proof (graph_wf e r (mb_order _ _ _ _ M)) as W. split.
  - intros x [A N]. apply K. split.
    + destruct Sb as (v & Hv & S). exists v. split; [eapply rtc_transitive; eauto|exact S].
    + assert (Nb : ~ ancestor (he_graph (re_hide e)) b d) by (intros X; apply N; eapply rtc_transitive; eauto).
      destruct (branch_chain (mk_dag (he_graph (re_hide e)) ∅ ∅ ∅ ∅ ∅) W d _ b (Nat.lt_succ_diag_r _) Nb (fun y => mb_branch _ _ _ _ M b y Gb)) as (f & Ff & C).
      cbn [dag_graph] in *.
      assert (Gf : subtree_given (he_graph (re_hide e)) a r d f) by (right; exists b; split; [exact Gb|left; exact Ff]).
      assert (Af : ancestor (he_graph (re_hide e)) f x).
      { destruct (C x A) as [X|(m & P & X)]; [exact X|]. exfalso. apply N. eapply rtc_transitive; [exact X|]. now apply (proj2 Ff). }
      (* the first of all below *)
      destruct (opens e r a d M) as (dg & m & Op & Hm). destruct (sub_requests e r dg a d M Op) as (s & Hs & _).
      destruct (above_root (dag_graph dg) s f) as (c & Hc & Ac); [rewrite (dag_is e r dg (mb_order _ _ _ _ M) Op); exact W|now apply Hs|].
      exists c. split; [now apply (sub_first e r dg a d M Op s Hs)|]. rewrite (dag_is e r dg (mb_order _ _ _ _ M) Op) in Ac. eapply rtc_transitive; eauto.
  - intros NF x Pb. destruct (rw !! x) as [v|] eqn:E; [|reflexivity]. exfalso.
    destruct (move_public e ts (TxId i) a r rw x (mb_order _ _ _ _ M) (mb_memory _ _ _ _ M) NF Er) as [Fx _]; [eauto|exact Pb|].
    destruct (mb_only _ _ _ _ M) as (_ & F0 & _). congruence.
Qed.

(** ** C79: single commits *)

(** When it succeeds, the commits given are taken out of where they are and put onto the
    destination, in the order they were in, and the commits above them close the gaps. *)
Theorem c79_moved : forall e ts i a r d, pickable e r a d ->
  comes_to e r (given_exact a) (picked_onto (he_graph (re_hide e)) (given_exact a) d) (move e ts (TxId i) a r).
Proof. intros e ts i a r d X. now apply ex_comes_to. Qed.

(** It does succeed, unless nothing was given, public commits would be rewritten, the
    destination is among the commits given, or there is a conflict. *)
Theorem c79_ends : forall e ts i a r d, pickable e r a d -> workable e r -> sorts_up e -> d ∈ vertices (he_graph (re_hide e)) ->
  match mv_end (move e ts (TxId i) a r) with
  | NothingToDo => forall c, ~ given_exact a c
  | NotMoved WouldRewritePublic => exact_public e r a
  | NotMoved (PlanCycle _) => given_exact a d
  | NotMoved _ => False
  | _ => goes_through e r (given_exact a) (move e ts (TxId i) a r)
  end.
Proof. intros e ts i a r d X. now apply ex_ends. Qed.
Theorem c79_refused : forall e ts tx a r d, pickable e r a d ->
  (exact_public e r a -> move e ts tx a r = mk_mr r None (NotMoved WouldRewritePublic)) /\
  (~ exact_public e r a -> sorts_up e -> given_exact a d -> exists l, move e ts tx a r = mk_mr r None (NotMoved (PlanCycle l))).
Proof.
  intros e ts tx a r d X. split; [now apply (ex_refused_public e r a d X)|]. intros N Su G. now apply (ex_refused_self e r a d X).
Qed.

(** ** C80: public commits *)

(** Whatever is asked for, without force no public commit is rewritten, other than one
    that commits are squashed into. *)
Theorem c80_public_partial : forall e ts tx a r rw o, restackable e r -> in_memory e -> re_force e = false ->
  mv_rewritten (move e ts tx a r) = Some rw -> is_Some (rw !! o) -> is_public e r o ->
  ma_fixup a = true /\ meant_dest a r o.
Proof. exact move_public. Qed.

(** ** Demonstrations *)
Local Open Scope Z_scope.

(** Commits sorted by number, which go up from parents to children. *)
Definition by_number (s : commit_set) : list oid := merge_sort N.le (elements s).
Definition counts_up (g : graph) : bool := forallb (fun v => forallb (fun p => N.ltb p (fst v)) (snd v)) g.
Definition mdemo_env (g : graph) (objs : list (oid * object)) (pick amend : oid -> oid -> attempt) : restack_env :=
  mk_re (mk_he g yes oid_to_string (mk_be yes yes "refs/heads/main" (Some None)) table_of yes (fun _ => None) None)
    (mk_ee (named_as objs) pick amend (fun n => n + 1)%N yes None)
    (fun _ _ => false) elements by_number map_to_list (fun r => (r, FailedExit)) (fun _ => []) false false false false.
Lemma mdemo_restackable g objs pick amend r : ordered_from ∅ g = true -> rdemo_good g objs r = true -> restackable (mdemo_env g objs pick amend) r.
Proof.
  intros W H. destruct (sdemo_restackable g objs pick None r W H) as [A1 A2 A3 A4 A5 A6 A7 A8 A9 A10 A11 A12 A13].
  constructor; auto. intros s. apply merge_sort_Permutation.
Qed.
Lemma mdemo_workable g objs pick amend r : restackable (mdemo_env g objs pick amend) r -> (forall c q, pick c q <> Broken) -> (forall c q, amend c q <> Broken) ->
  workable (mdemo_env g objs pick amend) r.
Proof.
  intros R P A. constructor; try reflexivity; [|exact P|exact A].
  intros c Hc. destruct (ra_store _ _ R c Hc) as (x & Hx & _). exists x. split; [exact Hx|reflexivity].
Qed.
Lemma mdemo_sorts g objs pick amend : counts_up g = true -> sorts_up (mdemo_env g objs pick amend).
Proof.
  intros C s l1 x l2 y l3 E A. cbn [mdemo_env re_sort re_hide he_graph] in *.
  assert (L : forall a b, ancestor g a b -> (a <= b)%N).
  { intros a b H. induction H as [a|a b c P H IH]; [lia|]. destruct P as (ps & Hi & Hp). unfold counts_up in C. rewrite forallb_forall in C.
    apply elem_of_list_In in Hi. specialize (C _ Hi). cbn in C. rewrite forallb_forall in C. apply elem_of_list_In in Hp. specialize (C _ Hp).
    apply N.ltb_lt in C. unfold oid in *. lia. }
  assert (S : StronglySorted N.le (by_number s)). { apply StronglySorted_merge_sort; typeclasses eauto. }
  assert (ND : NoDup (by_number s)). { unfold by_number. rewrite merge_sort_Permutation. apply NoDup_elements. }
  rewrite E in S, ND. clear E. induction l1 as [|z l1 IH]; cbn [app] in *.
  - inversion_clear S as [|? ? _ F]. rewrite Forall_forall in F. specialize (F y ltac:(apply elem_of_app; right; left)). pose proof (L y x A).
    assert (x = y) as -> by (unfold oid in *; lia). inversion_clear ND as [|? ? N _]. apply N. apply elem_of_app. right. left.
  - inversion_clear S. inversion_clear ND. auto.
Qed.

(** One subtree. *)
Definition one_source (s d : oid) : move_args := mk_ma [{[s]}] (Some {[d]}) [] [] false false.
Lemma one_source_moves e r s d c : restackable e r -> to_move e r (one_source s d) d c <-> c = s.
Proof.
  intros R. pose proof (graph_wf e r R) as W.
  assert (G : forall c, subtree_given (he_graph (re_hide e)) (one_source s d) r d c <-> c = s).
  { intros x. unfold subtree_given, given_source, given_base, one_source. cbn [ma_sources ma_bases ma_exacts]. split.
    - intros [(y & Hy & Hx)|(b & [(y & Hy & _)|(Y & _)] & _)]; [|now apply elem_of_nil in Hy|discriminate].
      apply elem_of_list_singleton in Hy as ->. now apply elem_of_singleton in Hx.
    - intros ->. left. exists {[s]}. split; [left|now apply elem_of_singleton]. }
  unfold to_move, first_of. rewrite G. split; [intros [H _]; exact H|]. intros ->. split; [reflexivity|]. intros p P Hp. apply G in Hp as ->.
  apply (wf_acyclic _ s W). now apply tc_once.
Qed.
Lemma one_source_movable e r s d : restackable e r -> in_memory e -> shown (he_graph (re_hide e)) (rr_repo r) s ->
  ~ merge_commit (he_graph (re_hide e)) s -> movable e r (one_source s d) d.
Proof.
  intros R M S N. constructor; auto; try reflexivity.
  - split; [reflexivity|]. split; reflexivity.
  - intros b x [(y & Hy & _)|(Y & _)]; [now apply elem_of_nil in Hy|discriminate].
  - intros c H. apply one_source_moves in H as ->; auto.
  - intros c H. apply one_source_moves in H as ->; auto.
Qed.

(** In the repository above, 3 and 4 are moved from 1 onto 6. *)
Definition mdemo_objects : list (oid * object) := objects_in sdemo_graph ++ [again 7 3 6; again 8 4 7].
Definition mdemo : restack_env := mdemo_env sdemo_graph mdemo_objects (picks []) (fun _ _ => Conflict).
Lemma mdemo_order : restackable mdemo sdemo. Proof. apply mdemo_restackable; vm_compute; reflexivity. Qed.
Lemma sdemo_shown o : status_in sdemo_log o = Active -> shown sdemo_graph (rr_repo sdemo) o.
Proof. intros H. exists o. split; [constructor|]. left. now apply status_in_spec. Qed.
Example c77_example :
  let m := move mdemo 9 (TxId 9) (one_source 3 6) sdemo in
  movable mdemo sdemo (one_source 3 6) 6 /\ workable mdemo sdemo /\ (forall c, to_move mdemo sdemo (one_source 3 6) 6 c <-> c = 3%N) /\
  mv_end m = Moved /\ (exists rw, mv_rewritten m = Some rw /\ fresh sdemo_graph sdemo_log rw /\ map_to_list rw = [(3%N, NonZero 7); (4%N, NonZero 8)]) /\
  hr_refs (rr_repo (mv_repo m)) !! ("refs/heads/a" : refname) = Some 8%N /\ hr_head (rr_repo (mv_repo m)) = mk_head (Some 8%N) (Some "refs/heads/a").
Proof.
  intros m. split; [apply one_source_movable; [exact mdemo_order|split; [reflexivity|now left]|apply sdemo_shown; vm_compute; reflexivity|apply no_merges_spec; reflexivity]|].
  split; [apply mdemo_workable; [exact mdemo_order|apply picks_fine|discriminate]|]. split; [intros c; apply one_source_moves; exact mdemo_order|].
  split; [vm_compute; reflexivity|]. split; [|split; vm_compute; reflexivity].
  exists (default ∅ (mv_rewritten m)). split; [vm_compute; reflexivity|]. split; [apply all_fresh_spec; vm_compute; reflexivity|vm_compute; reflexivity].
Qed.
(** Moving 3 onto 4 is refused, and so is moving 2, where the main branch is. *)
Example c77_example_refused :
  movable mdemo sdemo (one_source 3 4) 4 /\ above_itself mdemo sdemo (one_source 3 4) 4 /\ shown sdemo_graph (rr_repo sdemo) 4 /\
  mv_end (move mdemo 9 (TxId 9) (one_source 3 4) sdemo) = NotMoved (PlanCycle [3%N; 4%N; 3%N]) /\
  movable mdemo sdemo (one_source 2 3) 3 /\ would_rewrite_public mdemo sdemo (one_source 2 3) 3.
Proof.
  assert (A : ancestor sdemo_graph 3 4) by (apply rtc_once; exists [3%N]; split; decide_it).
  split; [apply one_source_movable; [exact mdemo_order|split; [reflexivity|now left]|apply sdemo_shown; vm_compute; reflexivity|apply no_merges_spec; reflexivity]|].
  split; [exists 3%N; split; [apply one_source_moves; [exact mdemo_order|reflexivity]|exact A]|].
  split; [apply sdemo_shown; vm_compute; reflexivity|]. split; [vm_compute; reflexivity|].
  split; [apply one_source_movable; [exact mdemo_order|split; [reflexivity|now left]| |apply no_merges_spec; reflexivity]|].
  - exists 2%N. split; [constructor|]. right. right. exists "main". vm_compute. reflexivity.
  - split; [reflexivity|]. exists 2%N, 2%N. split; [apply one_source_moves; [exact mdemo_order|reflexivity]|]. split; [constructor|].
    exists 2%N. split; [vm_compute; reflexivity|constructor].
Qed.

(** Moving a commit onto a hidden one above it is not refused: 3 is made again on top of
    4, which is on top of the old 3. *)
Definition hdemo_graph : graph := [(1%N, []); (3%N, [1%N]); (4%N, [3%N])].
Definition hdemo : rrepo := rdemo_repo hdemo_graph [("refs/heads/main", 1%N)] (mk_head (Some 1%N) (Some "refs/heads/main"))
  (List.map (CommitEvent 1 (TxId 1)) [3%N; 4%N] ++ [ObsoleteEvent 2 (TxId 2) 4]).
Theorem c77_hidden_refuted : exists e ts i a r d rw n,
  movable e r a d /\ workable e r /\ above_itself e r a d /\ ~ would_rewrite_public e r a d /\
  mv_end (move e ts (TxId i) a r) = Moved /\ mv_rewritten (move e ts (TxId i) a r) = Some rw /\
  rw !! 3%N = Some (NonZero n) /\ exists x, rr_store (mv_repo (move e ts (TxId i) a r)) !! n = Some x /\ commit_parents (ob_commit x) = [4%N] /\
  ancestor (he_graph (re_hide e)) 3 4.
Proof.
  set (e := mdemo_env hdemo_graph (objects_in hdemo_graph ++ [again 7 3 4]) (picks []) (fun _ _ => Conflict)).
  assert (R : restackable e hdemo) by (apply mdemo_restackable; vm_compute; reflexivity).
  assert (A : ancestor hdemo_graph 3 4) by (apply rtc_once; exists [3%N]; split; decide_it).
  exists e, 9, 9, (one_source 3 4), hdemo, 4%N, (default ∅ (mv_rewritten (move e 9 (TxId 9) (one_source 3 4) hdemo))), 7%N.
  split; [apply one_source_movable; [exact R|split; [reflexivity|now left]| |apply no_merges_spec; reflexivity]|].
  { exists 3%N. split; [constructor|]. left. apply status_in_spec. vm_compute. reflexivity. }
  split; [apply mdemo_workable; [exact R|apply picks_fine|discriminate]|].
  split; [exists 3%N; split; [now apply one_source_moves|exact A]|].
  split.
  { intros (_ & c & o & Hc & Ao & m & Hm & Am). apply one_source_moves in Hc as ->; [|exact R]. cbn in Hm. injection Hm as <-.
    assert (X : ancestor hdemo_graph 3 1) by (eapply rtc_transitive; eauto). revert X. apply not_ancestor; vm_compute; reflexivity. }
  split; [vm_compute; reflexivity|]. split; [vm_compute; reflexivity|]. split; [vm_compute; reflexivity|].
  eexists. split; [vm_compute; reflexivity|]. split; [reflexivity|exact A].
Qed.

(** Without arguments, HEAD being at 4, the commits 3 and 4 are moved onto the main branch. *)
Definition to_main : move_args := mk_ma [] (Some {[2%N : oid]}) [] [] false false.
Definition bdemo : restack_env := mdemo_env sdemo_graph sdemo_objects (picks []) (fun _ _ => Conflict).
Lemma bdemo_order : restackable bdemo sdemo. Proof. apply mdemo_restackable; vm_compute; reflexivity. Qed.
Lemma sdemo_wf : wf_graph sdemo_graph. Proof. apply ordered_from_spec. vm_compute. reflexivity. Qed.
Lemma bdemo_start c : branch_start sdemo_graph 4 2 c <-> c = 3%N.
Proof.
  split.
  - intros [[[A N] F]|[A _]]; [|exfalso; revert A; apply not_ancestor; vm_compute; reflexivity].
    assert (X : c ∈ only sdemo_graph ({[4%N : oid]} : commit_set) ({[2%N : oid]} : commit_set)).
    { apply (only_spec _ _ _ _ sdemo_wf). split; [exists 4%N; split; [now apply elem_of_singleton|exact A]|].
      intros (y & Hy & A'). apply elem_of_singleton in Hy as ->. contradiction. }
    assert (E : only sdemo_graph ({[4%N : oid]} : commit_set) ({[2%N : oid]} : commit_set) = ({[3%N : oid; 4%N : oid]} : commit_set)) by (apply (bool_decide_unpack _); vm_compute; exact Logic.I).
    rewrite E in X. apply elem_of_union in X. destruct X as [X|X]; apply elem_of_singleton in X; [exact X|]. subst c. exfalso.
    assert (P : parent sdemo_graph 3 4) by (exists [3%N]; split; decide_it). apply F in P. revert P. apply not_ancestor; vm_compute; reflexivity.
  - intros ->. left. split.
    + split; [apply rtc_once; exists [3%N]; split; decide_it|apply not_ancestor; vm_compute; reflexivity].
    + intros p P. apply parent_parents_of in P; [|exact sdemo_wf]. vm_compute in P. apply elem_of_list_singleton in P as ->.
      apply rtc_once. exists [1%N]. split; decide_it.
Qed.
Example c78_example :
  let m := move bdemo 9 (TxId 9) to_main sdemo in
  movable bdemo sdemo to_main 2 /\ given_base to_main sdemo 4 /\ shown sdemo_graph (rr_repo sdemo) 4 /\
  (forall c, to_move bdemo sdemo to_main 2 c <-> c = 3%N) /\
  mv_end m = Moved /\ exists rw, mv_rewritten m = Some rw /\ map_to_list rw = [(3%N, NonZero 7); (4%N, NonZero 8)].
Proof.
  intros m.
  assert (T : forall c, to_move bdemo sdemo to_main 2 c <-> c = 3%N).
  { intros c. rewrite (c78_head bdemo to_main sdemo 2%N 4%N c bdemo_order) by reflexivity. apply bdemo_start. }
  split.
  { constructor; try reflexivity; [exact bdemo_order|split; [reflexivity|now left]|split; [reflexivity|]; split; reflexivity| | |].
    - intros b x _ _. apply no_merges_spec. reflexivity.
    - intros c H. apply T in H as ->. apply sdemo_shown. vm_compute. reflexivity.
    - intros c _. apply no_merges_spec. reflexivity. }
  split; [right; split_and!; reflexivity|]. split; [apply sdemo_shown; vm_compute; reflexivity|]. split; [exact T|]. split; [vm_compute; reflexivity|].
  exists (default ∅ (mv_rewritten m)). split; vm_compute; reflexivity.
Qed.

(** Single commits of the stack 3 to 6 on 1: with 3 and 5 moved onto 2, the others stay on 1. *)
Definition xdemo_graph : graph := [(1%N, []); (2%N, [1%N]); (3%N, [1%N]); (4%N, [3%N]); (5%N, [4%N]); (6%N, [5%N])].
Definition xdemo_objects : list (oid * object) := objects_in xdemo_graph ++ [again 11 3 2; again 12 5 11; again 13 4 1; again 14 6 13].
Definition xdemo_log : list event := List.map (CommitEvent 1 (TxId 1)) [3%N; 4%N; 5%N; 6%N].
Definition xdemo : rrepo := rdemo_repo xdemo_graph [("refs/heads/main", 2%N); ("refs/heads/a", 6%N)] (mk_head (Some 5%N) None) xdemo_log.
Definition xdemo_env : restack_env := mdemo_env xdemo_graph xdemo_objects (picks []) (fun _ _ => Conflict).
Definition xdemo_args (d : oid) : move_args := mk_ma [] (Some {[d]}) [] [{[3%N : oid; 5%N : oid]}] false false.
Lemma xdemo_order : restackable xdemo_env xdemo. Proof. apply mdemo_restackable; vm_compute; reflexivity. Qed.
Lemma xdemo_given d c : given_exact (xdemo_args d) c <-> c = 3%N \/ c = 5%N.
Proof.
  unfold given_exact, xdemo_args. cbn [ma_exacts]. split.
  - intros (s & Hs & Hc). apply elem_of_list_singleton in Hs as ->. apply elem_of_union in Hc. destruct Hc as [Hc|Hc]; apply elem_of_singleton in Hc; auto.
  - intros H. exists {[3%N : oid; 5%N : oid]}. split; [left|]. apply elem_of_union. destruct H as [-> | ->]; [left|right]; now apply elem_of_singleton.
Qed.
Lemma xdemo_pickable d : pickable xdemo_env xdemo (xdemo_args d) d.
Proof.
  constructor; try reflexivity.
  - exact xdemo_order.
  - split; [reflexivity|now left].
  - split_and!; try reflexivity. discriminate.
  - intros c H. apply xdemo_given in H. exists c. split; [constructor|]. left. apply status_in_spec. destruct H as [-> | ->]; vm_compute; reflexivity.
  - intros c H. apply xdemo_given in H. destruct H as [-> | ->]; [exists 1%N, [1%N]|exists 4%N, [4%N]]; split; decide_it.
  - intros c x _ _ _. apply no_merges_spec. reflexivity.
Qed.
Example c79_example :
  let m := move xdemo_env 9 (TxId 9) (xdemo_args 2) xdemo in
  pickable xdemo_env xdemo (xdemo_args 2) 2 /\ workable xdemo_env xdemo /\ sorts_up xdemo_env /\
  mv_end m = Moved /\
  (exists rw, mv_rewritten m = Some rw /\ fresh xdemo_graph xdemo_log rw /\ map_to_list rw = [(3%N, NonZero 11); (5%N, NonZero 12); (4%N, NonZero 13); (6%N, NonZero 14)]) /\
  hr_refs (rr_repo (mv_repo m)) !! ("refs/heads/a" : refname) = Some 14%N /\ hr_head (rr_repo (mv_repo m)) = mk_head (Some 12%N) None /\
  given_exact (xdemo_args 5) 5 /\ mv_end (move xdemo_env 9 (TxId 9) (xdemo_args 5) xdemo) = NotMoved (PlanCycle [3%N; 5%N; 3%N]).
Proof.
  intros m. split; [apply xdemo_pickable|]. split; [apply mdemo_workable; [exact xdemo_order|apply picks_fine|discriminate]|].
  split; [apply mdemo_sorts; vm_compute; reflexivity|]. split; [vm_compute; reflexivity|]. split.
  { exists (default ∅ (mv_rewritten m)). split; [vm_compute; reflexivity|]. split; [apply all_fresh_spec; vm_compute; reflexivity|vm_compute; reflexivity]. }
  split; [vm_compute; reflexivity|]. split; [vm_compute; reflexivity|]. split; [apply xdemo_given; now right|vm_compute; reflexivity].
Qed.

(** Squashing a commit into the main branch rewrites it, though this was not forced. *)
Definition fdemo_objects : list (oid * object) := objects_in sdemo_graph ++
  [(11%N, mk_object (mk_commit [1%N] 52%N) 22%N 33%N 42%N); (12%N, mk_object (mk_commit [1%N] 63%N) 22%N 33%N 42%N); again 13 6 12; again 14 4 1].
Definition fdemo_env : restack_env := mdemo_env sdemo_graph fdemo_objects (picks []) (fun _ c => MadeTree (c + 60)%N).
Definition fdemo_args : move_args := mk_ma [] (Some {[2%N : oid]}) [] [{[3%N : oid]}] true false.
Theorem c80_fixup_refuted : exists e ts i a r rw o n,
  restackable e r /\ in_memory e /\ workable e r /\ re_force e = false /\
  mv_end (move e ts (TxId i) a r) = Moved /\ mv_rewritten (move e ts (TxId i) a r) = Some rw /\
  rw !! o = Some (NonZero n) /\ is_public e r o /\
  hr_refs (rr_repo (mv_repo (move e ts (TxId i) a r))) !! he_main (re_hide e) = Some n.
Proof.
  exists fdemo_env, 9, 9, fdemo_args, sdemo, (default ∅ (mv_rewritten (move fdemo_env 9 (TxId 9) fdemo_args sdemo))), 2%N, 12%N.
  assert (R : restackable fdemo_env sdemo) by (apply mdemo_restackable; vm_compute; reflexivity).
  split; [exact R|]. split; [split; [reflexivity|now left]|].
  split; [apply mdemo_workable; [exact R|apply picks_fine|discriminate]|]. split; [reflexivity|].
  split; [vm_compute; reflexivity|]. split; [vm_compute; reflexivity|]. split; [vm_compute; reflexivity|].
  split; [exists 2%N; split; [vm_compute; reflexivity|constructor]|vm_compute; reflexivity].
Qed.

Print Assumptions c77_moved.
Print Assumptions c77_ends.
Print Assumptions c77_refused.
Print Assumptions c77_hidden_refuted.
Print Assumptions c78_head.
Print Assumptions c78_whole.
Print Assumptions c79_moved.
Print Assumptions c79_ends.
Print Assumptions c79_refused.
Print Assumptions c80_public_partial.
Print Assumptions c80_fixup_refuted.
