(** Property theorems about inserting commits: C81. *)
From Verif Require Import Base TextModel EventLogModel EventLogSpec EventLogProofs EvolveSpec
  DagModel DagSpec DagProofs StrModel HookModel PlanModel PlanSpec ExecModel ExecSpec
  HideModel HideSpec HideProofs HideProps RestackModel RestackSpec RestackProofs RestackProps SyncModel SyncSpec SyncProofs SyncProps
  MoveModel MoveSpec MoveProofs MoveReqProofs MoveProps InsertSpec InsertProofs.
Local Open Scope string_scope.
Local Open Scope list_scope.

(** The commits given are put on the destination, and what was shown there is put on top
    of them; or nothing is different. *)
Theorem c81_inserted : forall e ts i a r d h, insertable e r a d h ->
  comes_to e r (to_insert e r a d) (inserted_onto (he_graph (re_hide e)) (to_move e r a d) (makes_way e r a d) d h)
    (move e ts (TxId i) a r).
Proof. intros e ts i a r d h I. now apply ins_comes_to. Qed.

(** It does succeed, unless public commits would be rewritten, the destination is above a
    commit to be moved, or there is a conflict. *)
Theorem c81_ends : forall e ts i a r d h, insertable e r a d h -> workable e r -> d ∈ vertices (he_graph (re_hide e)) ->
  match mv_end (move e ts (TxId i) a r) with
  | NotMoved WouldRewritePublic => insert_public e r a d
  | NotMoved (PlanCycle _) => above_itself e r a d
  | NotMoved _ => False
  | _ => goes_through e r (to_insert e r a d) (move e ts (TxId i) a r)
  end.
Proof. intros e ts i a r d h I. now apply (ins_ends e r a d h). Qed.

(** In these cases it is refused. *)
Theorem c81_refused : forall e ts tx a r d h, insertable e r a d h ->
  (insert_public e r a d -> move e ts tx a r = mk_mr r None (NotMoved WouldRewritePublic)) /\
  (~ insert_public e r a d -> above_itself e r a d -> shown (he_graph (re_hide e)) (rr_repo r) d ->
   exists l, move e ts tx a r = mk_mr r None (NotMoved (PlanCycle l))).
Proof.
  intros e ts tx a r d h I. split; [now apply (ins_refused_public e r a d h)|]. intros N A S. now apply (ins_refused_cycle e r a d h).
Qed.
(** So it is when there are several tops. *)
Theorem c81_many_tops : forall e ts tx a r d h h', movable e r (just_moving a) d -> ma_insert a = true -> h <> h' ->
  top_of (he_graph (re_hide e)) (subtree_given (he_graph (re_hide e)) a r d) h ->
  top_of (he_graph (re_hide e)) (subtree_given (he_graph (re_hide e)) a r d) h' ->
  exists why, move e ts tx a r = mk_mr r None (NotMoved why) /\ (why = ManyHeads \/ why = WouldRewritePublic).
Proof. exact ins_many. Qed.

(** ** Demonstrations *)
Local Open Scope Z_scope.

(** The main branch is at 1, with the stacks of 3 and 4 and of 5 and 6 on it. *)
Definition idemo_graph : graph := [(1%N, []); (3%N, [1%N]); (4%N, [3%N]); (5%N, [1%N]); (6%N, [5%N])].
Definition idemo_log : list event := List.map (CommitEvent 1 (TxId 1)) [3%N; 4%N; 5%N; 6%N].
Definition idemo : rrepo :=
  rdemo_repo idemo_graph [("refs/heads/main", 1%N); ("refs/heads/a", 4%N)] (mk_head (Some 4%N) (Some "refs/heads/a")) idemo_log.
Definition idemo_env : restack_env := mdemo_env idemo_graph (objects_in idemo_graph ++ [again 7 5 3; again 8 6 7; again 9 4 8]) (picks []) (fun _ _ => Conflict).
Definition insert_source (s d : oid) : move_args := mk_ma [{[s]}] (Some {[d]}) [] [] false true.
Lemma insert_given g s d r c : subtree_given g (insert_source s d) r d c <-> c = s.
Proof.
  unfold subtree_given, given_source, given_base, insert_source. cbn [ma_sources ma_bases ma_exacts]. split.
  - intros [(y & Hy & Hx)|(b & [(y & Hy & _)|(Y & _)] & _)]; [|now apply elem_of_nil in Hy|discriminate].
    apply elem_of_list_singleton in Hy as ->. now apply elem_of_singleton in Hx.
  - intros ->. left. exists {[s]}. split; [left|now apply elem_of_singleton].
Qed.
(** Tops, counted. *)
Lemma tops g (given : oid -> Prop) s h : ordered_from ∅ g = true -> (forall c, given c <-> c = s) ->
  elements (filter (fun x => forallb (fun v => negb (bool_decide (x ∈ snd v))) g = true) (descendants g {[s]})) = [h] -> forall x, top_of g given x <-> x = h.
Proof.
  intros W G E x. apply ordered_from_spec in W.
  assert (K : x ∈ elements (filter (fun x => forallb (fun v => negb (bool_decide (x ∈ snd v))) g = true) (descendants g {[s]})) <-> top_of g given x).
  { rewrite elem_of_elements, elem_of_filter, (descendants_spec _ _ _ W). unfold top_of. setoid_rewrite G. split.
    - intros [L (c & Hc & A)]. apply elem_of_singleton in Hc as ->. split; [eauto|]. intros y (ps & Hi & Hp). rewrite forallb_forall in L.
      apply elem_of_list_In in Hi. specialize (L _ Hi). cbn in L. apply negb_true_iff, bool_decide_eq_false in L. contradiction.
    - intros [(c & -> & A) N]. split; [|exists s; split; [now apply elem_of_singleton|exact A]]. apply forallb_forall. intros [y ps] Hy. cbn.
      apply negb_true_iff, bool_decide_eq_false. intros Hp. apply (N y). exists ps. split; [now apply elem_of_list_In|exact Hp]. }
  rewrite <- K, E. now rewrite elem_of_list_singleton.
Qed.
Lemma idemo_order : restackable idemo_env idemo. Proof. apply mdemo_restackable; vm_compute; reflexivity. Qed.
Lemma idemo_shown o : status_in idemo_log o = Active -> shown idemo_graph (rr_repo idemo) o.
Proof. intros H. exists o. split; [constructor|]. left. now apply status_in_spec. Qed.
Lemma idemo_movable s d : status_in idemo_log s = Active -> movable idemo_env idemo (just_moving (insert_source s d)) d.
Proof.
  intros H. apply (one_source_movable idemo_env idemo s d); [exact idemo_order|split; [reflexivity|now left]|now apply idemo_shown|apply no_merges_spec; reflexivity].
Qed.
Lemma idemo_insertable d : insertable idemo_env idemo (insert_source 5 d) d 6.
Proof.
  constructor; [apply idemo_movable; vm_compute; reflexivity|reflexivity| |].
  - apply (tops idemo_graph _ 5); [vm_compute; reflexivity|apply insert_given|vm_compute; reflexivity].
  - intros c x _ _ _. apply no_merges_spec. reflexivity.
Qed.
(** With 5 inserted after 3, 4 comes to be on 6.  Inserting it after 6 is refused, and so
    is inserting 1, which has two tops and is public. *)
Example c81_example :
  let m := move idemo_env 9 (TxId 9) (insert_source 5 3) idemo in
  insertable idemo_env idemo (insert_source 5 3) 3 6 /\ workable idemo_env idemo /\
  to_move idemo_env idemo (insert_source 5 3) 3 5 /\ makes_way idemo_env idemo (insert_source 5 3) 3 4 /\
  mv_end m = Moved /\
  (exists rw, mv_rewritten m = Some rw /\ fresh idemo_graph idemo_log rw /\ map_to_list rw = [(5%N, NonZero 7); (4%N, NonZero 9); (6%N, NonZero 8)]) /\
  hr_refs (rr_repo (mv_repo m)) !! ("refs/heads/a" : refname) = Some 9%N /\
  option_map (fun x => commit_parents (ob_commit x)) (rr_store (mv_repo m) !! 9%N) = Some [8%N].
Proof.
  intros m. split; [apply idemo_insertable|]. split; [apply mdemo_workable; [exact idemo_order|apply picks_fine|discriminate]|].
  split; [apply (one_source_moves idemo_env idemo 5 3 5 idemo_order); reflexivity|].
  split.
  { split; [apply idemo_shown; vm_compute; reflexivity|]. split; [exists [3%N]; split; decide_it|]. rewrite insert_given. discriminate. }
  split; [vm_compute; reflexivity|]. split; [|split; vm_compute; reflexivity].
  exists (default ∅ (mv_rewritten m)). split; [vm_compute; reflexivity|]. split; [apply all_fresh_spec; vm_compute; reflexivity|vm_compute; reflexivity].
Qed.
Example c81_example_refused :
  insertable idemo_env idemo (insert_source 5 6) 6 6 /\ ~ insert_public idemo_env idemo (insert_source 5 6) 6 /\
  above_itself idemo_env idemo (insert_source 5 6) 6 /\ shown idemo_graph (rr_repo idemo) 6 /\
  mv_end (move idemo_env 9 (TxId 9) (insert_source 5 6) idemo) = NotMoved (PlanCycle [5%N; 6%N; 5%N]).
Proof.
  split; [apply idemo_insertable|].
  assert (NP : forall c, ancestor idemo_graph 5 c -> ~ ancestor idemo_graph c 1).
  { intros c A B. assert (X : ancestor idemo_graph 5 1) by (eapply rtc_transitive; eauto). revert X. apply not_ancestor; vm_compute; reflexivity. }
  assert (A : ancestor idemo_graph 5 6) by (apply rtc_once; exists [5%N]; split; decide_it).
  split.
  { intros (_ & c & o & Hc & Ao & m & Hm & Am). cbn in Hm. injection Hm as <-. assert (X : ancestor idemo_graph c 1) by (eapply rtc_transitive; eauto).
    destruct Hc as [Hc|Hc].
    - apply (one_source_moves idemo_env idemo 5 6 c idemo_order) in Hc as ->. exact (NP 5%N (rtc_refl _ _) X).
    - apply (NP c); [|exact X]. eapply rtc_r; [exact A|exact Hc]. }
  split; [exists 5%N; split; [apply (one_source_moves idemo_env idemo 5 6 5 idemo_order); reflexivity|exact A]|].
  split; [apply idemo_shown; vm_compute; reflexivity|vm_compute; reflexivity].
Qed.
Example c81_example_tops :
  movable idemo_env idemo (just_moving (insert_source 1 3)) 3 /\
  top_of idemo_graph (subtree_given idemo_graph (insert_source 1 3) idemo 3) 4 /\ top_of idemo_graph (subtree_given idemo_graph (insert_source 1 3) idemo 3) 6.
Proof.
  split.
  { apply (one_source_movable idemo_env idemo 1 3); [exact idemo_order|split; [reflexivity|now left]| |apply no_merges_spec; reflexivity].
    exists 1%N. split; [constructor|]. right. right. exists "main". vm_compute. reflexivity. }
  assert (L : forall x, forallb (fun v => negb (bool_decide (x ∈ snd v))) idemo_graph = true -> forall y, ~ parent idemo_graph x y).
  { intros x L y (ps & Hi & Hp). rewrite forallb_forall in L. apply elem_of_list_In in Hi. specialize (L _ Hi). cbn in L.
    apply negb_true_iff, bool_decide_eq_false in L. contradiction. }
  split; (split; [exists 1%N; split; [now apply insert_given|]|apply L; vm_compute; reflexivity]).
  - apply rtc_l with 3%N; [exists [1%N]; split; decide_it|]. apply rtc_once. exists [3%N]; split; decide_it.
  - apply rtc_l with 5%N; [exists [1%N]; split; decide_it|]. apply rtc_once. exists [5%N]; split; decide_it.
Qed.

(** Hidden commits count as tops: with 7 hidden on 6, inserting 5 after 3 puts 4 onto 7,
    which stays on the old 6, so that 4 is on none of the commits inserted. *)
Definition ihidden_graph : graph := idemo_graph ++ [(7%N, [6%N])].
Definition ihidden : rrepo := rdemo_repo ihidden_graph [("refs/heads/main", 1%N)] (mk_head (Some 1%N) (Some "refs/heads/main"))
  (idemo_log ++ [ObsoleteEvent 2 (TxId 2) 7]).
Definition shown_top (e : restack_env) (r : rrepo) (given : oid -> Prop) (h : oid) : Prop :=
  shown (he_graph (re_hide e)) (rr_repo r) h /\ (exists c, given c /\ ancestor (he_graph (re_hide e)) c h) /\
  forall y, parent (he_graph (re_hide e)) h y -> ~ shown (he_graph (re_hide e)) (rr_repo r) y.
Theorem c81_hidden_refuted : exists e ts i a r d h k rw n x,
  movable e r (just_moving a) d /\ workable e r /\ ma_insert a = true /\
  shown_top e r (subtree_given (he_graph (re_hide e)) a r d) h /\ makes_way e r a d k /\
  let m := move e ts (TxId i) a r in
  mv_end m = Moved /\ mv_rewritten m = Some rw /\ rw !! k = Some (NonZero n) /\
  rr_store (mv_repo m) !! n = Some x /\ commit_parents (ob_commit x) = [7%N] /\
  ancestor (he_graph (re_hide e)) h 7 /\ is_Some (rw !! h) /\ rw !! 7%N = None.
Proof.
  set (e := mdemo_env ihidden_graph (objects_in ihidden_graph ++ [again 8 5 3; again 9 6 8; again 10 4 7]) (picks []) (fun _ _ => Conflict)).
  assert (R : restackable e ihidden) by (apply mdemo_restackable; vm_compute; reflexivity).
  set (m := move e 9 (TxId 9) (insert_source 5 3) ihidden).
  assert (Sh : forall o, status_in (hr_log (rr_repo ihidden)) o = Active -> shown ihidden_graph (rr_repo ihidden) o).
  { intros o H. exists o. split; [constructor|]. left. now apply status_in_spec. }
  assert (H7 : forall y, ancestor ihidden_graph 7 y -> y = 7%N).
  { intros y A. apply rtc_inv in A. destruct A as [A|(z & (ps & Hi & Hp) & _)]; [now symmetry|]. exfalso. revert Hi Hp. unfold ihidden_graph, idemo_graph. cbn [app].
    rewrite !elem_of_cons, elem_of_nil. intros Hi Hp. repeat (destruct Hi as [[= -> ->]|Hi]; [revert Hp; rewrite ?elem_of_cons, ?elem_of_nil; intuition discriminate|]). exact Hi. }
  assert (Hid : ~ shown ihidden_graph (rr_repo ihidden) 7).
  { intros (v & Hv & S). apply H7 in Hv as ->. destruct S as [S|[S|S]].
    - assert (X : visibility (hr_log (rr_repo ihidden)) 7 Obsolete) by (apply status_in_spec; vm_compute; reflexivity).
      pose proof (visibility_unique _ _ _ _ X S). discriminate.
    - discriminate S.
    - destruct S as (n & S). cbn in S. apply lookup_insert_Some in S. destruct S as [[_ S]|[_ S]]; [discriminate|]. now rewrite lookup_empty in S. }
  exists e, 9, 9, (insert_source 5 3), ihidden, 3%N, 6%N, 4%N, (default ∅ (mv_rewritten m)), 10%N, (snd (again 10 4 7)).
  split; [apply (one_source_movable e ihidden 5 3); [exact R|split; [reflexivity|now left]|apply Sh; vm_compute; reflexivity|apply no_merges_spec; reflexivity]|].
  split; [apply mdemo_workable; [exact R|apply picks_fine|discriminate]|]. split; [reflexivity|].
  split.
  { split; [apply Sh; vm_compute; reflexivity|]. split.
    - exists 5%N. split; [now apply insert_given|]. apply rtc_once. exists [5%N]. split; decide_it.
    - intros y P. assert (y = 7%N) as ->; [|exact Hid]. destruct P as (ps & Hi & Hp). revert Hi Hp. cbn [e mdemo_env re_hide he_graph]. unfold ihidden_graph, idemo_graph. cbn [app].
      rewrite !elem_of_cons, elem_of_nil. intros Hi Hp. repeat (destruct Hi as [[= -> ->]|Hi]; [revert Hp; rewrite ?elem_of_cons, ?elem_of_nil; intuition discriminate|]). destruct Hi. }
  split; [split; [apply Sh; vm_compute; reflexivity|]; split; [exists [3%N]; split; decide_it|]; rewrite insert_given; discriminate|].
  cbv zeta. fold m. split; [vm_compute; reflexivity|]. split; [vm_compute; reflexivity|]. split; [vm_compute; reflexivity|]. split; [vm_compute; reflexivity|]. split; [reflexivity|].
  split; [apply rtc_once; exists [6%N]; split; decide_it|]. split; [vm_compute; eauto|vm_compute; reflexivity].
Qed.

(** With [--exact] what was on the destination need not come to be on top: with 3 given and
    inserted after 1, where it was already, 4 is moved from 3 onto 1, beside 3, while 5
    is moved from 1 onto 3. *)
Theorem c81_exact_refuted : exists e ts i a r d c k rw n n' x x',
  restackable e r /\ in_memory e /\ workable e r /\ sorts_up e /\ ma_insert a = true /\ ma_fixup a = false /\
  (forall y, given_exact a y <-> y = c) /\ meant_dest a r d /\ given_exact a c /\ ancestor (he_graph (re_hide e)) d k /\ shown (he_graph (re_hide e)) (rr_repo r) k /\
  let m := move e ts (TxId i) a r in
  mv_end m = Moved /\ mv_rewritten m = Some rw /\ rw !! c = Some (NonZero n) /\ rw !! k = Some (NonZero n') /\
  rr_store (mv_repo m) !! n = Some x /\ commit_parents (ob_commit x) = [d] /\
  rr_store (mv_repo m) !! n' = Some x' /\ commit_parents (ob_commit x') = [d].
Proof.
  set (e := mdemo_env idemo_graph (objects_in idemo_graph ++ [again 7 3 1; again 8 4 1; again 9 5 7; again 10 6 9]) (picks []) (fun _ _ => Conflict)).
  assert (R : restackable e idemo) by (apply mdemo_restackable; vm_compute; reflexivity).
  set (a := mk_ma [] (Some {[1%N : oid]}) [] [{[3%N : oid]}] false true).
  set (m := move e 9 (TxId 9) a idemo).
  assert (G : forall y, given_exact a y <-> y = 3%N).
  { intros y. unfold given_exact, a. cbn [ma_exacts]. split; [intros (s & Hs & Hy); apply elem_of_list_singleton in Hs as ->; now apply elem_of_singleton in Hy|].
    intros ->. exists {[3%N]}. split; [left|now apply elem_of_singleton]. }
  exists e, 9, 9, a, idemo, 1%N, 3%N, 4%N, (default ∅ (mv_rewritten m)), 7%N, 8%N, (snd (again 7 3 1)), (snd (again 8 4 1)).
  split; [exact R|]. split; [split; [reflexivity|now left]|]. split; [apply mdemo_workable; [exact R|apply picks_fine|discriminate]|].
  split; [apply mdemo_sorts; vm_compute; reflexivity|]. split; [reflexivity|]. split; [reflexivity|]. split; [exact G|]. split; [reflexivity|]. split; [now apply G|].
  split; [apply rtc_l with 3%N; [exists [1%N]; split; decide_it|]; apply rtc_once; exists [3%N]; split; decide_it|].
  split; [apply idemo_shown; vm_compute; reflexivity|].
  cbv zeta. fold m. repeat (split; [vm_compute; reflexivity|]). vm_compute. reflexivity.
Qed.

Print Assumptions c81_inserted.
Print Assumptions c81_ends.
Print Assumptions c81_refused.
Print Assumptions c81_many_tops.
Print Assumptions c81_hidden_refuted.
Print Assumptions c81_exact_refuted.
