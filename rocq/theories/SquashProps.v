(** Property C82: squashing commits into another. *)
From stdpp Require Import sorting relations countable.
From Verif Require Import Base TextModel EventLogModel EventLogSpec EventLogProofs EvolveModel EvolveSpec
  DagModel DagSpec DagProofs DagCompProofs StrModel StrProofs HookModel HookSpec PlanModel PlanSpec PlanProofs PlanBuildProofs PlanProps ExecModel ExecSpec ExecAfterProofs ExecProps
  HideModel HideSpec HideProofs HideProps RestackModel RestackSpec RestackProofs RestackProps SyncModel SyncSpec SyncProofs SyncProps
  MoveModel MoveSpec MoveProofs MoveReqProofs MoveExactProofs MovePublicProofs MoveProps SquashSpec PlanRunProofs SquashProofs.
Local Open Scope string_scope.
Local Open Scope list_scope.

(** When it succeeds, the commit squashed into is made again with the changes of those to be
    squashed, these are replaced by it, and all that is shown above is made again with the
    gaps closed; branches, HEAD and the log follow, and nothing else is rewritten.  Otherwise
    nothing is different. *)
Theorem c82_squashed : forall e ts i a r t, squashable e r a t ->
  squash_comes_to e r (to_squash e r a t) t (move e ts (TxId i) a r).
Proof. intros e ts i a r t B. now apply squashed. Qed.

(** It does succeed, unless nothing was given, public commits would be rewritten, or there is
    a conflict. *)
Theorem c82_ends : forall e ts i a r t, squashable e r a t -> workable e r -> sorts_up e ->
  match mv_end (move e ts (TxId i) a r) with
  | NothingToDo => ~ squash_public e r a t /\ forall f, ~ to_squash e r a t f
  | NotMoved WouldRewritePublic => squash_public e r a t
  | NotMoved _ => False
  | _ => ~ squash_public e r a t /\ (exists f, to_squash e r a t f) /\
      squash_goes_through e r (to_squash e r a t) t (move e ts (TxId i) a r)
  end.
Proof. intros e ts i a r t B. now apply squash_ends. Qed.

(** It is refused when public commits would have to be squashed or moved. *)
Theorem c82_refused : forall e ts tx a r t, squashable e r a t -> squash_public e r a t ->
  move e ts tx a r = mk_mr r None (NotMoved WouldRewritePublic).
Proof. intros e ts tx a r t B. now apply squash_refused. Qed.

(** ** Demonstrations *)
Local Open Scope Z_scope.
(** A commit with these changes squashed into [c], on [q]. *)
Definition mixed (n c q t : N) : oid * object := (n, mk_object (mk_commit [q] t) (c + 20)%N (c + 31)%N (c + 40)%N).
Definition adds (_ c : oid) : attempt := MadeTree (c + 60)%N.
Definition squash_one (c t : oid) : move_args := mk_ma [] (Some {[t]}) [] [{[c]}] true false.
Definition squash_above (c t : oid) : move_args := mk_ma [{[c]}] (Some {[t]}) [] [] true false.

Lemma squash_one_is e r c t f : to_squash e r (squash_one c t) t f <-> f = c.
Proof.
  unfold to_squash, given_exact, squash_one. cbn [ma_exacts]. split.
  - intros [(s & Hs & Hf)|[E _]]; [|discriminate]. apply elem_of_list_singleton in Hs as ->. now apply elem_of_singleton in Hf.
  - intros ->. left. exists {[c]}. split; [left|now apply elem_of_singleton].
Qed.
Lemma squash_above_is e r c t f : to_squash e r (squash_above c t) t f <-> ancestor (he_graph (re_hide e)) c f.
Proof.
  unfold to_squash, given_exact, subtree_given, given_source, given_base, squash_above. cbn [ma_exacts ma_sources ma_bases]. split.
  - intros [(s & Hs & _)|(_ & x & [(s & Hs & Hx)|(b & [(s & Hs & _)|(Y & _)] & _)] & A)]; try now apply elem_of_nil in Hs.
    + apply elem_of_list_singleton in Hs as ->. apply elem_of_singleton in Hx as ->. exact A.
    + discriminate.
  - intros A. right. split; [reflexivity|]. exists c. split; [|exact A]. left. exists {[c]}. split; [left|now apply elem_of_singleton].
Qed.
Lemma squash_one_fine e r c t : restackable e r -> in_memory e -> no_merges (he_graph (re_hide e)) = true ->
  shown (he_graph (re_hide e)) (rr_repo r) c -> shown (he_graph (re_hide e)) (rr_repo r) t ->
  (exists p, parent (he_graph (re_hide e)) p c) -> (exists p, parent (he_graph (re_hide e)) p t) -> ~ ancestor (he_graph (re_hide e)) c t ->
  squashable e r (squash_one c t) t.
Proof.
  intros R M N Sc St Pc Pt A. assert (Gx : forall f, given_exact (without_fixup (squash_one c t)) f <-> f = c).
  { intros f. unfold given_exact. cbn. split; [intros (s & Hs & Hf); apply elem_of_list_singleton in Hs as ->; now apply elem_of_singleton in Hf|].
    intros ->. exists {[c]}. split; [left|now apply elem_of_singleton]. }
  constructor; auto.
  - left. constructor; auto; try reflexivity.
    + intros f Hf. now apply Gx in Hf as ->.
    + intros f Hf. now apply Gx in Hf as ->.
    + intros f x _ _ _. now apply no_merges_spec.
  - intros f Hf. now apply squash_one_is in Hf as ->.
  - intros f Hf. apply squash_one_is in Hf as ->. split; [exact Pc|now apply no_merges_spec].
  - intros f x _ _ _. now apply no_merges_spec.
Qed.
Lemma squash_above_fine e r c t : restackable e r -> in_memory e -> no_merges (he_graph (re_hide e)) = true ->
  shown (he_graph (re_hide e)) (rr_repo r) c -> shown (he_graph (re_hide e)) (rr_repo r) t ->
  (exists p, parent (he_graph (re_hide e)) p c) -> (exists p, parent (he_graph (re_hide e)) p t) -> ~ ancestor (he_graph (re_hide e)) c t ->
  squashable e r (squash_above c t) t.
Proof.
  intros R M N Sc St Pc Pt A. constructor; auto.
  - right. change (without_fixup (squash_above c t)) with (one_source c t). apply one_source_movable; auto. now apply no_merges_spec.
  - intros f Hf Af. apply squash_above_is in Hf. apply A. eapply rtc_transitive; eauto.
  - intros f Hf. apply squash_above_is in Hf. split; [|now apply no_merges_spec]. apply rtc_inv_r in Hf. destruct Hf as [-> |(p & _ & P)]; eauto.
  - intros f x _ _ _. now apply no_merges_spec.
Qed.

(** In the stack of 3 to 6, 5 is squashed into 3: 4 and 6 are made again on top. *)
Definition qdemo_objects : list (oid * object) := objects_in xdemo_graph ++ [mixed 11 3 1 53; mixed 12 3 1 65; again 13 4 12; again 14 6 13; mixed 15 3 1 66; again 16 4 15].
Definition qdemo : restack_env := mdemo_env xdemo_graph qdemo_objects (picks []) adds.
Lemma qdemo_order : restackable qdemo xdemo. Proof. apply mdemo_restackable; vm_compute; reflexivity. Qed.
Lemma xdemo_shown o : status_in xdemo_log o = Active -> shown xdemo_graph (rr_repo xdemo) o.
Proof. intros H. exists o. split; [constructor|]. left. now apply status_in_spec. Qed.
Example c82_example :
  let m := move qdemo 9 (TxId 9) (squash_one 5 3) xdemo in
  squashable qdemo xdemo (squash_one 5 3) 3 /\ workable qdemo xdemo /\ sorts_up qdemo /\
  mv_end m = Moved /\
  (exists rw, mv_rewritten m = Some rw /\ fresh xdemo_graph xdemo_log rw /\
     map_to_list rw = [(3%N, NonZero 12); (5%N, NonZero 12); (4%N, NonZero 13); (6%N, NonZero 14)]) /\
  hr_refs (rr_repo (mv_repo m)) !! ("refs/heads/a" : refname) = Some 14%N /\ hr_head (rr_repo (mv_repo m)) = mk_head (Some 12%N) None.
Proof.
  intros m. split.
  { apply squash_one_fine; [exact qdemo_order|split; [reflexivity|now left]|reflexivity|apply xdemo_shown; vm_compute; reflexivity|apply xdemo_shown; vm_compute; reflexivity| | |].
    - exists 4%N, [4%N]. split; decide_it.
    - exists 1%N, [1%N]. split; decide_it.
    - apply not_ancestor; vm_compute; reflexivity. }
  split; [apply mdemo_workable; [exact qdemo_order|apply picks_fine|discriminate]|].
  split; [apply mdemo_sorts; vm_compute; reflexivity|]. split; [vm_compute; reflexivity|]. split; [|split; vm_compute; reflexivity].
  exists (default ∅ (mv_rewritten m)). split; [vm_compute; reflexivity|]. split; [apply all_fresh_spec; vm_compute; reflexivity|vm_compute; reflexivity].
Qed.
(** With [--source] 6 goes along. *)
Example c82_example_above :
  let m := move qdemo 9 (TxId 9) (squash_above 5 3) xdemo in
  squashable qdemo xdemo (squash_above 5 3) 3 /\ mv_end m = Moved /\
  (exists rw, mv_rewritten m = Some rw /\ map_to_list rw = [(3%N, NonZero 15); (5%N, NonZero 15); (4%N, NonZero 16); (6%N, NonZero 15)]).
Proof.
  intros m. split.
  { apply squash_above_fine; [exact qdemo_order|split; [reflexivity|now left]|reflexivity|apply xdemo_shown; vm_compute; reflexivity|apply xdemo_shown; vm_compute; reflexivity| | |].
    - exists 4%N, [4%N]. split; decide_it.
    - exists 1%N, [1%N]. split; decide_it.
    - apply not_ancestor; vm_compute; reflexivity. }
  split; [vm_compute; reflexivity|]. exists (default ∅ (mv_rewritten m)). split; [vm_compute; reflexivity|]. vm_compute; reflexivity.
Qed.
(** Squashing the main branch's commit 2 into 3 is refused. *)
Example c82_example_refused :
  squashable qdemo xdemo (squash_one 2 3) 3 /\ squash_public qdemo xdemo (squash_one 2 3) 3.
Proof.
  split.
  - apply squash_one_fine; [exact qdemo_order|split; [reflexivity|now left]|reflexivity| |apply xdemo_shown; vm_compute; reflexivity| | |].
    + exists 2%N. split; [constructor|]. right. right. exists "main". vm_compute. reflexivity.
    + exists 1%N, [1%N]. split; decide_it.
    + exists 1%N, [1%N]. split; decide_it.
    + apply not_ancestor; vm_compute; reflexivity.
  - split; [reflexivity|]. exists 2%N, 2%N. split; [left; now apply squash_one_is|]. split; [constructor|].
    exists 2%N. split; [vm_compute; reflexivity|constructor].
Qed.

(** ** What goes wrong *)

(** With [--source], hidden commits are squashed as well, and so are made part of what is
    shown. *)
Definition ydemo : rrepo := rdemo_repo xdemo_graph [("refs/heads/main", 2%N)] (mk_head (Some 2%N) (Some "refs/heads/main"))
  (xdemo_log ++ [ObsoleteEvent 2 (TxId 2) 6]).
Theorem c82_hidden_refuted : exists e ts i a r t f n x l rw,
  squashable e r a t /\ workable e r /\ sorts_up e /\ ~ shown (he_graph (re_hide e)) (rr_repo r) f /\
  mv_end (move e ts (TxId i) a r) = Moved /\ mv_rewritten (move e ts (TxId i) a r) = Some rw /\
  rw !! t = Some (NonZero n) /\ rr_store (mv_repo (move e ts (TxId i) a r)) !! n = Some x /\ f ∈ l /\
  exists orig p, rr_store r !! t = Some orig /\ squashes (re_exec e) p orig l x.
Proof.
  assert (R : restackable qdemo ydemo) by (apply mdemo_restackable; vm_compute; reflexivity).
  assert (Sh : forall o, status_in (hr_log (rr_repo ydemo)) o = Active -> shown xdemo_graph (rr_repo ydemo) o).
  { intros o H. exists o. split; [constructor|]. left. now apply status_in_spec. }
  set (m := move qdemo 9 (TxId 9) (squash_above 5 3) ydemo).
  exists qdemo, 9, 9, (squash_above 5 3), ydemo, 3%N, 6%N, 15%N, (snd (mixed 15 3 1 66)), [3%N; 5%N; 6%N], (default ∅ (mv_rewritten m)).
  split.
  { apply squash_above_fine; [exact R|split; [reflexivity|now left]|reflexivity|apply Sh; vm_compute; reflexivity|apply Sh; vm_compute; reflexivity| | |].
    - exists 4%N, [4%N]. split; decide_it.
    - exists 1%N, [1%N]. split; decide_it.
    - apply not_ancestor; vm_compute; reflexivity. }
  split; [apply mdemo_workable; [exact R|apply picks_fine|discriminate]|]. split; [apply mdemo_sorts; vm_compute; reflexivity|].
  split.
  { intros (v & Hv & S). assert (v = 6%N) as ->.
    { assert (W : wf_graph xdemo_graph) by (apply ordered_from_spec; vm_compute; reflexivity).
      assert (X : v ∈ descendants xdemo_graph {[6%N]}) by (apply descendants_spec; [exact W|exists 6%N; split; [now apply elem_of_singleton|exact Hv]]).
      assert (Y : descendants xdemo_graph {[6%N]} = {[6%N]}) by (apply (bool_decide_unpack _); vm_compute; exact Logic.I).
      rewrite Y in X. now apply elem_of_singleton in X. }
    destruct S as [S|[S|[s S]]]; [|discriminate|].
    - assert (O : visibility (hr_log (rr_repo ydemo)) 6%N Obsolete) by (apply status_in_spec; vm_compute; reflexivity).
      pose proof (visibility_unique _ _ _ _ S O). discriminate.
    - assert (O : all_refs (fun _ o => negb (N.eqb o 6)) (hr_refs (rr_repo ydemo)) = true) by (vm_compute; reflexivity).
      apply (all_refs_spec _ _ O) in S. discriminate. }
  split; [vm_compute; reflexivity|]. split; [vm_compute; reflexivity|]. split; [vm_compute; reflexivity|]. split; [vm_compute; reflexivity|].
  split; [decide_it|]. exists (object_in xdemo_graph 3), 1%N. split; [vm_compute; reflexivity|].
  set (orig := object_in xdemo_graph 3).
  assert (Q1 : squashes (re_exec qdemo) 1 orig [3%N] (snd (mixed 11 3 1 53))) by (apply (squash_first (re_exec qdemo) 1%N orig 3%N 53%N); vm_compute; reflexivity).
  assert (Q2 : squashes (re_exec qdemo) 1 orig [3%N; 5%N] (snd (mixed 12 3 1 65))) by (apply (squash_more (re_exec qdemo) 1%N orig _ _ 5%N 65%N Q1); vm_compute; reflexivity).
  apply (squash_more (re_exec qdemo) 1%N orig _ _ 6%N 66%N Q2). vm_compute. reflexivity.
Qed.

(** When nothing is left of the commits squashed into one, this one is dropped but those to
    be squashed stay as they are. *)
Definition undoes (_ c : oid) : attempt := MadeTree (if N.eqb c 5 then commit_tree (ob_commit (object_in xdemo_graph 1)) else (c + 60)%N).
Definition zdemo : restack_env := mdemo_env xdemo_graph (objects_in xdemo_graph ++ [mixed 11 3 1 53; mixed 12 3 1 (commit_tree (ob_commit (object_in xdemo_graph 1))); again 13 4 1; again 14 6 13]) (picks []) undoes.
Theorem c82_left_refuted : exists e ts i a r t f rw,
  squashable e r a t /\ workable e r /\ sorts_up e /\ to_squash e r a t f /\
  mv_end (move e ts (TxId i) a r) = Moved /\ mv_rewritten (move e ts (TxId i) a r) = Some rw /\
  rw !! t = Some Zero /\ rw !! f = None /\ visibility (hr_log (rr_repo (mv_repo (move e ts (TxId i) a r)))) f Active.
Proof.
  assert (R : restackable zdemo xdemo) by (apply mdemo_restackable; vm_compute; reflexivity).
  set (m := move zdemo 9 (TxId 9) (squash_one 5 3) xdemo).
  exists zdemo, 9, 9, (squash_one 5 3), xdemo, 3%N, 5%N, (default ∅ (mv_rewritten m)).
  split.
  { apply squash_one_fine; [exact R|split; [reflexivity|now left]|reflexivity|apply xdemo_shown; vm_compute; reflexivity|apply xdemo_shown; vm_compute; reflexivity| | |].
    - exists 4%N, [4%N]. split; decide_it.
    - exists 1%N, [1%N]. split; decide_it.
    - apply not_ancestor; vm_compute; reflexivity. }
  split; [apply mdemo_workable; [exact R|apply picks_fine|unfold undoes; discriminate]|]. split; [apply mdemo_sorts; vm_compute; reflexivity|].
  split; [now apply squash_one_is|]. split; [vm_compute; reflexivity|]. split; [vm_compute; reflexivity|]. split; [vm_compute; reflexivity|].
  split; [vm_compute; reflexivity|]. apply status_in_spec. vm_compute. reflexivity.
Qed.

Print Assumptions c82_squashed.
Print Assumptions c82_ends.
Print Assumptions c82_refused.
Print Assumptions c82_hidden_refuted.
Print Assumptions c82_left_refuted.
