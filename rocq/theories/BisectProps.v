(** C41, C42, C43: searching for the boundary between good and bad commits. *)
From Verif Require Import Base TextModel EventLogModel EvolveModel DagModel DagSpec DagProofs.
From Verif Require Import BisectModel BisectSpec BisectProofs BisectSearchProofs BisectRunProofs.
Local Open Scope N_scope.

(** 1 - 2 - 3 - 5 - 6 with a side branch 4 on 2 that is merged into 5. *)
Definition bisect_graph : graph := [(1, []); (2, [1]); (3, [2]); (4, [2]); (5, [3; 4]); (6, [5])].
Definition bisect_nodes : list oid := [1; 2; 3; 4; 5; 6].
Definition first_bad_is_3 (o : oid) : bstatus :=
  if bool_decide (o ∈ [3; 5; 6]) then Bad else Good.
Definition stack_graph : graph := [(1, []); (2, [1]); (3, [2]); (4, [3]); (5, [4]); (6, [5]); (7, [6])].
Definition from_6 (o : oid) : bstatus := if N.ltb o 6 then Good else Bad.

Lemma bisect_graph_wf : wf_graph bisect_graph.
Proof. repeat split; try (intros p Hp; revert Hp); try decide_it; set_solver. Qed.
Lemma stack_graph_wf : wf_graph stack_graph.
Proof. repeat split; try (intros p Hp; revert Hp); try decide_it; set_solver. Qed.

(** ** C41 *)

(** A report is accepted exactly if it does not contradict what is known. *)
Theorem c41_accepts g nodes h se o s :
  wf_graph g -> searching g nodes h se -> o ∈ nodes ->
  (exists se', search_notify se o s = inl se') <-> compatible g h o s.
Proof. intros Hwf Hs. exact (notify_accepts g nodes Hwf h se o s (searching_inv g nodes Hwf h se Hs)). Qed.

(** A rejection names a contradiction between the report and an earlier one. *)
Theorem c41_rejects g nodes h se o s e :
  wf_graph g -> searching g nodes h se -> search_notify se o s = inr e ->
  (exists from, e = IllegalStateTransition o from s /\ (o, from) ∈ h /\ from <> s) \/
  (exists a, e = InconsistentStateTransition a Bad o Good /\ s = Good /\ (a, Bad) ∈ h /\ ancestor g a o) \/
  (exists d, e = InconsistentStateTransition o Bad d Good /\ s = Bad /\ (d, Good) ∈ h /\ ancestor g o d).
Proof. intros Hwf Hs. exact (notify_error_true g nodes h se o s e Hwf (searching_inv g nodes Hwf h se Hs)). Qed.

(** No commit is known both good and bad; the known good are closed under
    ancestors and the known bad under descendants. *)
Theorem c41_consistent g nodes h se :
  wf_graph g -> searching g nodes h se ->
  (forall o, ~ (known_good g h o /\ known_bad g h o)) /\
  (forall o, o ∈ ancestors_all (se_graph se) (bd_success (search_bounds se)) <-> o ∈ nodes /\ known_good g h o) /\
  (forall o, o ∈ descendants_all (se_graph se) (bd_failure (search_bounds se)) <-> o ∈ nodes /\ known_bad g h o).
Proof.
  intros Hwf Hs. pose proof (searching_inv g nodes Hwf h se Hs) as Hi. split; [|split].
  - intros o. exact (known_disjoint g nodes h se o Hi).
  - intros o. exact (implied_good_spec g nodes Hwf h se o Hi).
  - intros o. exact (implied_bad_spec g nodes Hwf h se o Hi).
Qed.

(** The bounds are the last commits reported good and the first ones reported
    bad. *)
Theorem c41_bounds g nodes h se :
  wf_graph g -> searching g nodes h se ->
  (forall o, o ∈ bd_success (search_bounds se) <->
     (o, Good) ∈ h /\ forall x, (x, Good) ∈ h -> ancestor g o x -> x = o) /\
  (forall o, o ∈ bd_failure (search_bounds se) <->
     (o, Bad) ∈ h /\ forall x, (x, Bad) ∈ h -> ancestor g x o -> x = o).
Proof.
  intros Hwf Hs. pose proof (searching_inv g nodes Hwf h se Hs) as Hi. split; intros o.
  - exact (success_bounds_spec g nodes Hwf h se o Hi).
  - exact (failure_bounds_spec g nodes Hwf h se o Hi).
Qed.

(** A history on the example graph: 4 is good, 3 is bad, 1 cannot be tested; a
    report that 2 is bad is then rejected. *)
Definition example_history : history := [(4, Good); (3, Bad); (1, Indeterminate)].
Definition example_search : search :=
  match search_notify (search_commits bisect_graph bisect_nodes) 4 Good with
  | inl se => match search_notify se 3 Bad with
              | inl se => match search_notify se 1 Indeterminate with inl se => se | inr _ => se end
              | inr _ => se
              end
  | inr _ => search_commits bisect_graph bisect_nodes
  end.
Example example_searching : searching bisect_graph bisect_nodes example_history example_search.
Proof.
  assert (H0 := searching_start bisect_graph bisect_nodes).
  eapply (searching_report _ _ _ _ 4 Good) in H0; [|decide_it|discriminate|vm_compute; reflexivity].
  eapply (searching_report _ _ _ _ 3 Bad) in H0; [|decide_it|discriminate|vm_compute; reflexivity].
  eapply (searching_report _ _ _ _ 1 Indeterminate) in H0; [|decide_it|discriminate|vm_compute; reflexivity].
  vm_compute in H0. vm_compute. exact H0.
Qed.
Example c41_example :
  search_notify example_search 2 Bad = inr (InconsistentStateTransition 2 Bad 4 Good) /\
  known_good bisect_graph example_history 2 /\
  bd_success (search_bounds example_search) = {[4]} /\ bd_failure (search_bounds example_search) = {[3]}.
Proof.
  split; [vm_compute; reflexivity|]. split.
  - exists 4. split; [decide_it|]. apply rtc_once. exists [2]. split; decide_it.
  - split; decide_it.
Qed.

(** ** C42 *)

(** Proposals are given commits, untested and not implied by what is known; they
    are distinct, at most as many as asked for, and none is left out if there
    is room.  [skip] are commits the caller does not want. *)
Theorem c42_proposals g nodes h se st skip want fuel l :
  wf_graph g -> searching g nodes h se -> search_next fuel se st skip want = Proposed l ->
  NoDup l /\ (length l <= want)%nat /\
  (forall o, o ∈ l -> o ∈ nodes /\ undecided g h o /\ skip o = false) /\
  ((length l < want)%nat -> forall o, o ∈ nodes -> undecided g h o -> skip o = false -> o ∈ l).
Proof.
  intros Hwf Hs. exact (search_next_sound g nodes Hwf h se st skip want fuel l (searching_inv g nodes Hwf h se Hs)).
Qed.

(** Proposing succeeds: no commit is proposed again, and the speculation ends. *)
Theorem c42_succeeds g nodes h se st skip want fuel :
  wf_graph g -> searching g nodes h se -> (2 ^ S (length nodes) <= fuel)%nat ->
  exists l, search_next fuel se st skip want = Proposed l.
Proof.
  intros Hwf Hs. exact (search_next_total g nodes Hwf h se st skip want fuel (searching_inv g nodes Hwf h se Hs)).
Qed.

(** Nothing is proposed exactly if every commit is tested or decided (the caller
    skipping only tested commits, as the test command does). *)
Theorem c42_finished g nodes h se st skip want fuel :
  wf_graph g -> searching g nodes h se -> (0 < want)%nat -> (2 ^ S (length nodes) <= fuel)%nat ->
  (forall o, skip o = true -> tested h o) ->
  search_next fuel se st skip want = Proposed [] <-> forall o, o ∈ nodes -> ~ undecided g h o.
Proof.
  intros Hwf Hs Hw Hf Hskip. split.
  - intros Hp o Ho Hu. destruct (c42_proposals _ _ _ _ _ _ _ _ _ Hwf Hs Hp) as (_ & _ & _ & H).
    assert (Hc : o ∈ ([] : list oid)); [|by apply elem_of_nil in Hc].
    apply H; [exact Hw|done|done|]. destruct (skip o) eqn:E; [|done]. by apply Hskip, (proj1 Hu) in E.
  - intros Hd. destruct (c42_succeeds g nodes h se st skip want fuel Hwf Hs Hf) as [l Hl]. rewrite Hl. f_equal.
    destruct (c42_proposals _ _ _ _ _ _ _ _ _ Hwf Hs Hl) as (_ & _ & H & _).
    destruct l as [|o l]; [done|]. exfalso. destruct (H o ltac:(by left)) as (Ho & Hu & _). by apply (Hd o).
Qed.

(** The search never fails with a commit that was already searched, for any
    amount of fuel. *)
Theorem c42_no_error g nodes h se st skip want fuel o s :
  wf_graph g -> searching g nodes h se -> search_next fuel se st skip want <> AlreadySearchedMidpoint o s.
Proof.
  intros Hwf Hs. exact (search_next_no_error g nodes Hwf h se st skip want fuel o s (searching_inv g nodes Hwf h se Hs)).
Qed.

(** A linear search proposes first the first commit that is undecided, in the
    order given; a reverse search the last one. *)
Theorem c42_order g nodes h se st skip want fuel o l :
  wf_graph g -> searching g nodes h se -> NoDup nodes -> st <> Binary ->
  (0 < want)%nat -> (2 ^ S (length nodes) <= fuel)%nat -> (forall o, skip o = true -> tested h o) ->
  search_next fuel se st skip want = Proposed (o :: l) ->
  exists before after, nodes = before ++ o :: after /\ undecided g h o /\
    forall x, x ∈ (match st with Linear => before | _ => after end) -> ~ undecided g h x.
Proof. intros Hwf Hs Hnd Hst Hw Hf Hskip. exact (linear_first g nodes Hwf h se st skip want fuel o l Hs Hnd Hst Hw Hf Hskip). Qed.

Example c42_example :
  search_next 128 (search_commits bisect_graph bisect_nodes) Binary (fun _ => false) 3 = Proposed [4; 2; 5] /\
  search_next 128 (search_commits bisect_graph bisect_nodes) Linear (fun _ => false) 10 = Proposed [1; 2; 3; 4; 5; 6] /\
  search_next 128 example_search Binary (fun _ => false) 10 = Proposed [] /\
  (2 ^ S (length bisect_nodes) <= 128)%nat.
Proof. split; [|split; [|split; [|apply Nat.leb_le]]]; vm_compute; reflexivity. Qed.

(** ** C43 *)

(** Results of testing a monotone property are never rejected, in whatever order
    they arrive. *)
Theorem c43_no_contradiction g nodes verdict h se o :
  wf_graph g -> monotone g verdict -> searching g nodes h se -> honest verdict h -> o ∈ nodes ->
  exists se', search_notify se o (verdict o) = inl se'.
Proof. intros Hwf Hm. exact (honest_accepted g nodes verdict Hwf Hm h se o). Qed.

(** Whenever nothing is left to propose, the bounds are exactly the last good
    and the first bad ones of the given commits, and every commit whose test has
    a result is on its side of them. *)
Theorem c43_boundary g nodes verdict h se st skip want fuel :
  wf_graph g -> monotone g verdict -> searching g nodes h se -> honest verdict h ->
  (0 < want)%nat -> (2 ^ S (length nodes) <= fuel)%nat -> (forall o, skip o = true -> tested h o) ->
  search_next fuel se st skip want = Proposed [] ->
  (forall o, o ∈ bd_success (search_bounds se) <->
     o ∈ nodes /\ verdict o = Good /\ forall x, x ∈ nodes -> verdict x = Good -> ancestor g o x -> x = o) /\
  (forall o, o ∈ bd_failure (search_bounds se) <->
     o ∈ nodes /\ verdict o = Bad /\ forall x, x ∈ nodes -> verdict x = Bad -> ancestor g x o -> x = o) /\
  (forall o, o ∈ nodes -> verdict o = Good ->
     exists b, b ∈ bd_success (search_bounds se) /\ ancestor g o b) /\
  (forall o, o ∈ nodes -> verdict o = Bad ->
     exists b, b ∈ bd_failure (search_bounds se) /\ ancestor g b o).
Proof.
  intros Hwf Hm Hs Hh Hw Hf Hskip Hp.
  pose proof (proj1 (c42_finished g nodes h se st skip want fuel Hwf Hs Hw Hf Hskip) Hp) as Hd.
  pose proof (searching_inv g nodes Hwf h se Hs) as Hi. split; [|split; [|split]].
  - intros o. exact (final_success g nodes verdict Hwf Hm h se o Hs Hh Hd).
  - intros o. exact (final_failure g nodes verdict Hwf Hm h se o Hs Hh Hd).
  - intros o Ho Hv. pose proof (decided_good g verdict Hwf Hm h o Hh (Hd o Ho) Hv) as Hk.
    pose proof (proj2 (implied_good_spec g nodes Hwf h se o Hi) (conj Ho Hk)) as Hx.
    apply (ancestors_all_spec _ (inv_wf g nodes Hwf h se Hi)) in Hx as (_ & b & Hb & Ha). exists b.
    rewrite (inv_graph g nodes h se Hi) in Ha. done.
  - intros o Ho Hv. pose proof (decided_bad g verdict Hwf Hm h o Hh (Hd o Ho) Hv) as Hk.
    pose proof (proj2 (implied_bad_spec g nodes Hwf h se o Hi) (conj Ho Hk)) as Hx.
    apply (descendants_all_spec _ (inv_wf g nodes Hwf h se Hi)) in Hx as (_ & b & Hb & Ha). exists b.
    rewrite (inv_graph g nodes h se Hi) in Ha. done.
Qed.

(** One test at a time: the loop ends without error, tests no commit twice, and
    ends with nothing undecided. *)
Theorem c43_terminates g nodes verdict st fuel search_fuel :
  wf_graph g -> monotone g verdict -> (length nodes < fuel)%nat -> (2 ^ S (length nodes) <= search_fuel)%nat ->
  exists se tests, bisect fuel search_fuel st verdict [] (search_commits g nodes) = Bisected se tests /\
    searching g nodes (List.map (fun o => (o, verdict o)) tests) se /\
    NoDup tests /\ (forall o, o ∈ tests -> o ∈ nodes) /\
    (forall o, o ∈ nodes -> ~ undecided g (List.map (fun o => (o, verdict o)) tests) o).
Proof.
  intros Hwf Hm Hf Hsf.
  pose proof (inv_count g nodes Hwf [] _ (search_start g nodes)) as Hc.
  destruct (bisect_total g nodes verdict Hwf Hm search_fuel st Hsf fuel (search_commits g nodes) []
              (searching_start g nodes) (NoDup_nil_2) ltac:(unfold open_commits; lia))
    as (se & tests & Hb & Hs & Hnd & Hin & Hd & _).
  exists se, tests. cbn [app] in *. split; [done|]. split; [done|]. split; [done|]. split; [|done].
  intros o Ho. by destruct (Hin o Ho).
Qed.

(** Binary search on a stack of [n] commits whose tests all have a result needs
    at most [log2 n + 1] tests. *)
Theorem c43_binary g nodes verdict fuel search_fuel se tests :
  wf_graph g -> monotone g verdict -> stacked g nodes ->
  (forall o, o ∈ nodes -> verdict o <> Indeterminate) ->
  (2 ^ S (length nodes) <= search_fuel)%nat ->
  bisect fuel search_fuel Binary verdict [] (search_commits g nodes) = Bisected se tests ->
  (length tests <= S (Nat.log2 (length nodes)))%nat.
Proof.
  intros Hwf Hm Hst Hind Hsf Hb.
  pose proof (bisect_binary g nodes verdict Hwf Hm search_fuel Hsf Hst Hind fuel _ [] se tests
                (searching_start g nodes) Hb) as Hle.
  pose proof (inv_count g nodes Hwf [] _ (search_start g nodes)) as Hc.
  unfold open_commits in Hle. cbn [length] in Hle.
  set (k := length (candidates _ _)) in *. unfold binary_cost in Hle. destruct k as [|k]; [lia|].
  pose proof (Nat.log2_le_mono (S k) (length nodes) Hc). lia.
Qed.

Lemma first_bad_is_3_monotone : monotone bisect_graph first_bad_is_3.
Proof.
  split.
  - intros o. unfold first_bad_is_3. by destruct (bool_decide _).
  - intros a d Ha Hv. unfold first_bad_is_3 in *.
    assert (Ha3 : a ∈ [3; 5; 6]) by (destruct (bool_decide (a ∈ [3; 5; 6])) eqn:E; [by apply bool_decide_eq_true in E|done]).
    assert (Hd : d ∈ descendants bisect_graph {[3]}).
    { apply descendants_spec; [apply bisect_graph_wf|]. exists 3. split; [by apply elem_of_singleton|].
      refine (transitivity _ Ha). apply (is_ancestor_spec bisect_graph 3 a bisect_graph_wf).
      apply elem_of_list_In in Ha3. destruct Ha3 as [<-|[<-|[<-|[]]]]; vm_compute; reflexivity. }
    assert (Hsub : descendants bisect_graph {[3]} = list_to_set [3; 5; 6]) by decide_it.
    rewrite Hsub in Hd. apply elem_of_list_to_set in Hd. rewrite bool_decide_eq_true_2 by done. discriminate.
Qed.
Lemma stack_stacked : stacked stack_graph [1; 2; 3; 4; 5; 6; 7].
Proof.
  assert (Hp : forall a d, is_ancestor stack_graph a d && negb (N.eqb a d) = true -> proper_ancestor stack_graph a d).
  { intros a d H. apply andb_true_iff in H as [H1 H2]. apply is_ancestor_spec in H1; [|apply stack_graph_wf].
    apply rtc_tc in H1 as [->|H1]; [|done]. by rewrite N.eqb_refl in H2. }
  repeat (apply stacked_cons; [intros x Hx; apply Hp; apply elem_of_list_In in Hx; cbn in Hx;
    repeat (destruct Hx as [<-|Hx]; [vm_compute; reflexivity|]); destruct Hx|]).
  apply stacked_nil.
Qed.
Lemma from_6_monotone : monotone stack_graph from_6.
Proof.
  assert (Hp : forall a d, ancestor stack_graph a d -> a <= d).
  { induction 1 as [a|a b d (ps & Hin & Hp) _ IH]; [lia|]. enough (a <= b) by lia.
    apply elem_of_list_In in Hin. cbn in Hin. apply elem_of_list_In in Hp.
    repeat (destruct Hin as [[= <- <-]|Hin]; [cbn in Hp; repeat (destruct Hp as [<-|Hp]; [lia|]); destruct Hp|]).
    destruct Hin. }
  split.
  - intros o. unfold from_6. by destruct (N.ltb o 6).
  - intros a d Ha. apply Hp in Ha. unfold from_6.
    destruct (N.ltb_spec a 6); [discriminate|]. destruct (N.ltb_spec d 6); [lia|discriminate].
Qed.
Definition tests_of (r : bisect_result) : option (list oid * list oid * list oid) :=
  match r with
  | Bisected se tests => Some (tests, elements (bd_success (search_bounds se)), elements (bd_failure (search_bounds se)))
  | _ => None
  end.
Example c43_example :
  tests_of (bisect 7 128 Binary first_bad_is_3 [] (search_commits bisect_graph bisect_nodes)) =
    Some ([4; 5; 3], [4], [3]) /\
  tests_of (bisect 8 256 Binary from_6 [] (search_commits stack_graph [1; 2; 3; 4; 5; 6; 7])) =
    Some ([4; 6; 5], [5], [6]) /\
  S (Nat.log2 7) = 3%nat.
Proof. split; [|split]; vm_compute; reflexivity. Qed.

(** Without monotonicity the results of a commit tested earlier can contradict
    the search, and the run ends in an error: with two jobs, 4 and 2 are tested
    at once, 4 passes and 2 fails. *)
Theorem c43_not_monotone_refuted :
  exists g nodes verdict se1,
    wf_graph g /\ search_next 128 (search_commits g nodes) Binary (fun _ => false) 2 = Proposed [4; 2] /\
    search_notify (search_commits g nodes) 4 (verdict 4) = inl se1 /\
    search_notify se1 2 (verdict 2) = inr (InconsistentStateTransition 2 Bad 4 Good).
Proof.
  exists bisect_graph, bisect_nodes, (fun o => if N.eqb o 2 then Bad else Good).
  eexists. split; [apply bisect_graph_wf|]. split; [vm_compute; reflexivity|].
  split; [vm_compute; reflexivity|]. vm_compute. reflexivity.
Qed.

Print Assumptions c41_accepts.
Print Assumptions c41_rejects.
Print Assumptions c41_consistent.
Print Assumptions c41_bounds.
Print Assumptions c42_proposals.
Print Assumptions c42_succeeds.
Print Assumptions c42_finished.
Print Assumptions c42_no_error.
Print Assumptions c42_order.
Print Assumptions c43_no_contradiction.
Print Assumptions c43_boundary.
Print Assumptions c43_terminates.
Print Assumptions c43_binary.
Print Assumptions c43_not_monotone_refuted.
