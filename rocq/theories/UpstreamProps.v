(** Properties C108 and C109: commits that were applied upstream already. *)
From stdpp Require Import relations.
From Verif Require Import Base TextModel DagModel DagSpec DagProofs StrModel HookModel PlanModel PlanSpec PlanProofs PlanBuildProofs PlanProps
  ExecModel ExecSpec ExecProps SlogModel SlogSpec NavProofs UpstreamModel UpstreamSpec UpstreamProofs.
Local Open Scope string_scope.
Local Open Scope list_scope.

(** ** C108: what is left out *)

(** A commit is left out exactly if a commit that is looked at, between the place where the first of the commits moved
    parts from its destination and that destination, makes the same change. *)
Theorem c108_left_out : forall d ue cache e allowed cs dest cmds cache' c,
  wf_graph (dag_graph d) -> knows d e -> plannable d e cs -> cache_right ue cache ->
  build_detecting d ue true cache e allowed cs = (Done (BuiltPlan dest cmds), cache') ->
  rebuilt d cs c -> ~ fixed_up cs c -> ~ merge_commit (dag_graph d) c ->
  exists c0 dests, starts d cs c0 dests /\ rtc (new_parent d cs) c0 c /\
    (SkipUpstream c ∈ cmds <->
     exists u, upstream (dag_graph d) c0 dests u /\ same_patch ue c u /\ ue_there ue u = true /\ touches_alike d cs ue u).
Proof.
  intros d ue cache e allowed cs dest cmds cache' c W K P R HB Hc Nf Nm.
  destruct (build_detecting_right d ue true cache e allowed cs R) as (c1 & _ & E). rewrite E in HB. injection HB as HB _.
  set (e' := with_upstream e _) in HB.
  destruct (skipped_iff d e' allowed cs dest cmds c W K (with_upstream_plannable d e _ cs P) HB Hc Nf Nm) as (r & Hs & Hr & Hi & _).
  exists (root_commit r), (root_dests e r). split; [exact Hs|]. split; [exact Hr|]. rewrite Hi. cbn [e' with_upstream pe_upstream].
  unfold known_upstream. rewrite applied_spec by exact W. setoid_rewrite seen_spec; [|exact W].
  assert (Ecg : exists cg, build_constraints d cs = Done cg).
  { apply build_plan_inv in HB. destruct HB as (cg & _ & H & _). eauto. }
  unfold touches_alike. setoid_rewrite (moving_of_spec d cs _ W (pl_stay _ _ _ P) Ecg). split.
  - intros (u & (A & B & C) & D). eauto 10.
  - intros (u & A & D & B & C). eauto 10.
Qed.

(** Commits that were amended and are not left out are there as they were amended. *)
Theorem c108_amended_kept : forall d ue cache e allowed cs dest cmds cache' c a,
  wf_graph (dag_graph d) -> knows d e -> plannable d e cs -> cache_right ue cache ->
  build_detecting d ue true cache e allowed cs = (Done (BuiltPlan dest cmds), cache') ->
  rebuilt d cs c -> ~ fixed_up cs c -> ~ merge_commit (dag_graph d) c -> pe_replace e !! c = Some a ->
  SkipUpstream c ∈ cmds \/ exists ps, Replace c a ps ∈ cmds.
Proof.
  intros d ue cache e allowed cs dest cmds cache' c a W K P R HB Hc Nf Nm Ha.
  destruct (build_detecting_right d ue true cache e allowed cs R) as (c1 & _ & E). rewrite E in HB. injection HB as HB _.
  set (e' := with_upstream e _) in HB.
  destruct (skipped_iff d e' allowed cs dest cmds c W K (with_upstream_plannable d e _ cs P) HB Hc Nf Nm) as (r & _ & _ & _ & [H|H]);
    [now left|]. right. apply H. exact Ha.
Qed.

(** If all commits are there and a change tells what paths it touches, those moved are left out exactly if a commit
    upstream makes the same change. *)
Theorem c108_exact : forall d ue cache e allowed cs dest cmds cache' c,
  wf_graph (dag_graph d) -> knows d e -> plannable d e cs -> cache_right ue cache -> paths_told ue -> all_there d ue ->
  build_detecting d ue true cache e allowed cs = (Done (BuiltPlan dest cmds), cache') ->
  moves d cs c -> ~ fixed_up cs c -> ~ merge_commit (dag_graph d) c ->
  exists c0 dests, starts d cs c0 dests /\ rtc (new_parent d cs) c0 c /\
    (SkipUpstream c ∈ cmds <-> exists u, upstream (dag_graph d) c0 dests u /\ same_patch ue c u).
Proof.
  intros d ue cache e allowed cs dest cmds cache' c W K P R T A HB Mc Nf Nm.
  destruct (c108_left_out d ue cache e allowed cs dest cmds cache' c W K P R HB (or_introl Mc) Nf Nm) as (c0 & dests & S & Rc & Hi).
  exists c0, dests. split; [exact S|]. split; [exact Rc|]. rewrite Hi. split.
  - intros (u & U & Sp & _). eauto.
  - intros (u & U & Sp). exists u. split; [exact U|]. split; [exact Sp|]. split.
    + apply A. assert (V0 : c0 ∈ vertices (dag_graph d)).
      { apply (pl_exists _ _ _ P). destruct S as [(q & Hq & _)|(Ht & _)]; [left; exists q; exact Hq|now right]. }
      destruct U as [_ (p & m & _ & [Cm _] & Hu)]. assert (Am : ancestor (dag_graph d) m c0) by (apply Cm; set_solver).
      apply ancestor_cases in Hu. destruct Hu as [<-|Hu]; [|now apply (proper_vertices _ _ _ W) in Hu].
      apply ancestor_cases in Am. destruct Am as [->|Am]; [exact V0|now apply (proper_vertices _ _ _ W) in Am].
    + exists c. split; [exact Mc|]. split; [|symmetry; now apply T]. apply A. apply (pl_exists _ _ _ P). now left.
Qed.

(** What is upstream is below the destination.  It is not part of the history of the commits moved, unless it is where
    that history parts from the one of the destination. *)
Theorem c108_upstream : forall g c p u, upstream g c [p] u ->
  ancestor g u p /\ (greatest_common g {[c; p]} u \/ ~ ancestor g u c).
Proof. exact upstream_side. Qed.
(** In a history without merges everything else that is new below the destination is upstream. *)
Theorem c108_straight : forall g c p u m,
  wf_graph g -> (forall x, ancestor g x p -> ~ merge_commit g x) -> ancestor g m c -> ancestor g m p ->
  ancestor g u p -> ~ ancestor g u c -> upstream g c [p] u.
Proof. exact upstream_straight. Qed.

(** When one commit is moved with those above it, that is what they are all compared with. *)
Theorem c108_move : forall d ue cache e allowed p c0 dest cmds cache' c,
  wf_graph (dag_graph d) -> knows d e -> (forall x r, pe_replace e !! x = Some r -> exists rc, pe_find e r = Some rc) ->
  cache_right ue cache -> paths_told ue -> all_there d ue ->
  c0 ∈ vertices (dag_graph d) -> ~ merge_commit (dag_graph d) c0 ->
  (forall x, ancestor (dag_graph d) c0 x -> visible d x -> ~ merge_commit (dag_graph d) x) ->
  build_detecting d ue true cache e allowed [MoveSubtree [p] c0] = (Done (BuiltPlan dest cmds), cache') ->
  c = c0 \/ (proper_ancestor (dag_graph d) c0 c /\ visible d c) ->
  SkipUpstream c ∈ cmds <-> exists u, upstream (dag_graph d) c0 [p] u /\ same_patch ue c u.
Proof.
  intros d ue cache e allowed p c0 dest cmds cache' c W K Rp R T A V0 N0 Nm HB Hc.
  assert (P : plannable d e [MoveSubtree [p] c0]).
  { apply subtree_moves_plannable; [exact W| |exact Rp]. apply Forall_singleton. eauto. }
  assert (P0 : placed [MoveSubtree [p] c0] c0 p).
  { exists [], [p], []. split_and!; [reflexivity|now left|constructor]. }
  assert (Mc : moves d [MoveSubtree [p] c0] c).
  { destruct (decide (c = c0)) as [->|N]; [exists p; now left|]. destruct Hc as [->|[Hc V]]; [congruence|].
    pose proof Hc as Hp. apply proper_parent in Hp. destruct Hp as (q & _ & Pq). exists q. right. right. split_and!; [|exact V|exact Pq|].
    - intros [r Hr]. assert (Hn : new_parent d [MoveSubtree [p] c0] r c) by (destruct Hr; [now left|right; now left]).
      destruct Hr as [Hr|(Hr & _ & b & x & aa & a1 & b1 & E & Tk & _)]; [apply one_subtree_placed in Hr; tauto|].
      destruct b as [|y b]; [|destruct b; discriminate]. injection E as <- _. destruct Tk as [Tk|(t & Tk & _)]; discriminate.
    - exists c0. split; [left; exists p; now left|exact Hc]. }
  assert (Nc : ~ merge_commit (dag_graph d) c).
  { destruct Hc as [->|[Hc V]]; [exact N0|]. apply Nm; [now apply tc_rtc|exact V]. }
  destruct (c108_exact d ue cache e allowed _ dest cmds cache' c W K P R T A HB Mc) as (c1 & dests & S & _ & Hi).
  - intros [t Ht]. apply elem_of_list_singleton in Ht. discriminate.
  - exact Nc.
  - apply one_subtree_starts in S; [|exact W| |].
    + destruct S as [-> ->]. exact Hi.
    + apply (pl_exists _ _ _ P). left. exists p. now left.
    + intros x Hx. apply Nm. now apply tc_rtc.
Qed.

(** 3 and 4 are on top of 2, as 5 is. *)
Definition up_graph : graph := [(1, []); (2, [1]); (3, [2]); (4, [3]); (5, [2])]%N.
Definition up_dag : dag := dag_of up_graph 5%N.
(** Everything is in one file; what the patches are is given. *)
Definition up_env (patch : oid -> option N) : upstream_env := mk_ue (fun _ => true) (fun _ => {["file"]}) patch.
Lemma fst_built {A B} (x : A * B) a : fst x = a -> x = (a, snd x).
Proof. destruct x. now intros <-. Qed.
Lemma up_told patch : paths_told (up_env patch).
Proof. intros c u _. reflexivity. Qed.
Lemma up_there d patch : all_there d (up_env patch).
Proof. intros c _. reflexivity. Qed.
Lemma up_wf : wf_graph up_graph.
Proof. unfold up_graph, wf_graph. cbn. split_and!; set_solver. Qed.
Lemma straight_no_merge (g : graph) c : Forall (fun v => length (snd v) <= 1)%nat g -> ~ merge_commit g c.
Proof. intros F (ps & H & L). rewrite Forall_forall in F. specialize (F _ H). cbn in F. lia. Qed.
Lemma up_no_merge c : ~ merge_commit up_graph c.
Proof. apply straight_no_merge. unfold up_graph. repeat (constructor; [cbn; lia|]). constructor. Qed.

(** 5 makes the change of 3, which is left out when 3 is moved there with 4. *)
Definition up_picked : oid -> option N := fun c => lookup c (list_to_map [(1, 5); (2, 6); (3, 7); (4, 8); (5, 7)]%N : gmap oid N).
Example c108_example :
  wf_graph (dag_graph up_dag) /\ knows up_dag (env_of up_graph) /\ plannable up_dag (env_of up_graph) [MoveSubtree [5] 3]%N /\
  cache_right (up_env up_picked) ∅ /\ paths_told (up_env up_picked) /\ all_there up_dag (up_env up_picked) /\
  (forall x, ~ merge_commit (dag_graph up_dag) x) /\ (3%N ∈ vertices (dag_graph up_dag)) /\
  (proper_ancestor (dag_graph up_dag) 3 4 /\ visible up_dag 4)%N /\ same_patch (up_env up_picked) 3%N 5%N /\
  (exists cache, build_detecting up_dag (up_env up_picked) true ∅ (env_of up_graph) {[3; 4]}%N [MoveSubtree [5] 3]%N =
    (Done (BuiltPlan 5 [Reset_ (AtOid 5); SkipUpstream 3; Pick 4 [4]; DetectEmpty 4; RegisterExtra])%N, cache) /\
    dom cache = {[2; 5]}%N).
Proof.
  split; [exact up_wf|]. split; [exact (env_knows _ _ up_wf)|]. split.
  { apply subtree_moves_plannable; [exact up_wf| |intros c r H; discriminate]. apply Forall_singleton. exists 5%N, 3%N.
    split_and!; [reflexivity|decide_it|apply up_no_merge]. }
  split; [apply empty_right|]. split; [apply up_told|]. split; [apply up_there|].
  split; [exact up_no_merge|]. split; [decide_it|]. split.
  { split; [apply tc_once; exists [3%N]; split; [unfold up_dag, up_graph; cbn|]; set_solver|].
    exists 4%N. split; [|constructor]. left. split; cbn; set_solver. }
  split; [exists 7%N; split; reflexivity|]. eexists. split; [apply fst_built; vm_compute; reflexivity|]. decide_it.
Qed.

(** Not all that is left out is upstream apart from the history of the commits moved: 3 takes back what 2 did, and 4
    does it again.  Moved to 5, they become a commit that takes it back: 2, where 5 parts, has the change of 4. *)
Definition up_reapplied : oid -> option N := fun c => lookup c (list_to_map [(1, 5); (2, 7); (3, 8); (4, 7); (5, 9)]%N : gmap oid N).
Definition up_trees (c q : oid) : attempt := MadeTree (if N.eqb c 3 then 201 else 202)%N.
Theorem c108_reapplied_refuted : exists d ue e ee allowed p c0 dest cmds cache' c st st' rw head n x t,
  wf_graph (dag_graph d) /\ knows d e /\ plannable d e [MoveSubtree [p] c0] /\ paths_told ue /\ all_there d ue /\
  build_detecting d ue true ∅ e allowed [MoveSubtree [p] c0] = (Done (BuiltPlan dest cmds), cache') /\
  SkipUpstream c ∈ cmds /\
  (forall u, ancestor (dag_graph d) u p -> same_patch ue c u -> ancestor (dag_graph d) u c0) /\
  faithful_names ee /\ named ee st /\ rebase_in_memory ee st dest cmds = Ok (st', rw, head) /\
  rw !! c = Some Zero /\ rw !! c0 = Some (NonZero n) /\ st' !! n = Some x /\ ee_pick ee c n = MadeTree t /\ t <> commit_tree (ob_commit x).
Proof.
  set (ee := run_in up_graph up_trees (fun _ _ => Conflict) (Some 4%N)).
  set (cmds := [Reset_ (AtOid 5); Pick 3 [3]; DetectEmpty 3; SkipUpstream 4; RegisterExtra]%N).
  destruct (on_ok_spec (rebase_in_memory ee (store_of up_graph) 5%N cmds) (fun r => match r with (st', rw, head) =>
    match rw !! 3%N, rw !! 4%N with
    | Some (NonZero n), Some Zero => match st' !! n with Some x => bool_decide (commit_tree (ob_commit x) = 201%N) | None => false end
    | _, _ => false
    end end)%bool) as (((st' & rw) & head) & E & H).
  { vm_compute. reflexivity. }
  destruct (rw !! 3%N) as [[|n]|] eqn:E3; try discriminate. destruct (rw !! 4%N) as [[|n']|] eqn:E4; try discriminate.
  destruct (st' !! n) as [x|] eqn:En; try discriminate. apply bool_decide_eq_true in H.
  eexists up_dag, (up_env up_reapplied), (env_of up_graph), ee, {[3; 4]}%N, 5%N, 3%N, 5%N, cmds, _, 4%N, (store_of up_graph), st', rw, head, n, x, 202%N.
  split; [exact up_wf|]. split; [exact (env_knows _ _ up_wf)|]. split.
  { apply subtree_moves_plannable; [exact up_wf| |intros c r Hr; discriminate]. apply Forall_singleton. exists 5%N, 3%N.
    split_and!; [reflexivity|decide_it|apply up_no_merge]. }
  split; [apply up_told|]. split; [apply up_there|]. split; [apply fst_built; vm_compute; reflexivity|]. split; [cbn; set_solver|]. split.
  { intros u Hu (i & Ei & Eu). assert (i = 7%N) as -> by (vm_compute in Ei; congruence).
    assert (Hv : u = 2%N \/ u = 4%N).
    { cbn [up_env ue_patch] in Eu. unfold up_reapplied in Eu. apply elem_of_list_to_map_2 in Eu. set_solver. }
    destruct Hv as [-> | ->].
    - apply rtc_once. exists [2%N]. split; [unfold up_dag, up_graph; cbn; set_solver|set_solver].
    - apply ancestor_cases in Hu. destruct Hu as [Hu|Hu]; [discriminate|]. apply proper_parent in Hu. destruct Hu as (q & Hq & Pq).
      apply parent_parents_of in Pq; [|exact up_wf]. vm_compute in Pq. apply elem_of_list_singleton in Pq. subst q.
      apply ancestor_cases in Hq. destruct Hq as [Hq|Hq]; [discriminate|].
      apply (proper_ancestor_rank _ _ _ up_wf) in Hq. vm_compute in Hq. lia. }
  split; [intros a b; apply (name_in_inj up_graph); intros c Hc; unfold vertices, up_graph in Hc; cbn in Hc; set_solver by lia|].
  split; [intros o y; apply (name_in_store up_graph); intros c c' _ _; apply object_in_inj|]. split; [exact E|]. split; [exact E4|]. split; [exact E3|].
  split; [exact En|]. split; [reflexivity|]. rewrite H. lia.
Qed.

(** Nor are amended commits kept: 3, with the change of its parent 2, is to be replaced by 6. *)
Definition up_amended : graph := up_graph ++ [(6, [2])]%N.
Definition up_repeated : oid -> option N := fun c => lookup c (list_to_map [(1, 5); (2, 7); (3, 7); (4, 8); (5, 9); (6, 10)]%N : gmap oid N).
Theorem c108_amended_refuted : exists d ue e allowed p c r dest cmds cache',
  wf_graph (dag_graph d) /\ knows d e /\ plannable d e [MoveSubtree [p] c] /\ paths_told ue /\ all_there d ue /\
  parent (dag_graph d) p c /\ pe_replace e !! c = Some r /\ (forall u, ~ same_patch ue r u \/ u = r) /\
  build_detecting d ue true ∅ e allowed [MoveSubtree [p] c] = (Done (BuiltPlan dest cmds), cache') /\
  SkipUpstream c ∈ cmds /\ (forall x ps, Replace x r ps ∉ cmds).
Proof.
  set (e := mk_pe (find_in up_amended) {[3%N := 6%N]} (fun _ _ => false) sorted_oids).
  assert (W : wf_graph up_amended) by (unfold up_amended, up_graph, wf_graph; cbn; split_and!; set_solver).
  eexists (dag_of up_amended 2%N), (up_env up_repeated), e, {[3; 4]}%N, 2%N, 3%N, 6%N, 2%N, _, _.
  split; [exact W|]. split; [exact (env_knows _ 2%N W)|]. split.
  { apply subtree_moves_plannable; [exact W| |].
    - apply Forall_singleton. exists 2%N, 3%N. split_and!; [reflexivity|decide_it|].
      apply straight_no_merge. unfold up_amended, up_graph. cbn. repeat (constructor; [cbn; lia|]). constructor.
    - intros c r Hr. cbn [e pe_replace] in Hr. apply lookup_singleton_Some in Hr. destruct Hr as [_ <-]. eexists. vm_compute. reflexivity. }
  split; [apply up_told|]. split; [apply up_there|]. split; [exists [2%N]; split; [unfold up_amended, up_graph; cbn; set_solver|set_solver]|].
  split; [reflexivity|]. split.
  { intros u. destruct (decide (u = 6%N)) as [->|N]; [now right|]. left. intros (i & Ei & Eu). vm_compute in Ei. injection Ei as <-.
    cbn [up_env ue_patch] in Eu. unfold up_repeated in Eu. apply elem_of_list_to_map_2 in Eu. set_solver. }
  split; [apply fst_built; vm_compute; reflexivity|]. split; [set_solver|]. intros x ps. set_solver.
Qed.

(** Moved to 5 it is kept as amended. *)
Example c108_amended_example :
  let e := mk_pe (find_in up_amended) {[3%N := 6%N]} (fun _ _ => false) sorted_oids in
  exists cmds cache, build_detecting (dag_of up_amended 2%N) (up_env up_picked) true ∅ e {[3; 4]}%N [MoveSubtree [2] 3]%N =
    (Done (BuiltPlan 2%N cmds), cache) /\ SkipUpstream 3%N ∉ cmds /\ Replace 3%N 6%N [AtOid 2%N] ∈ cmds.
Proof.
  intros e. eexists _, _. split; [apply fst_built; vm_compute; reflexivity|]. split.
  - apply not_elem_of_cons. split; [discriminate|]. rewrite !not_elem_of_cons. split_and!; try discriminate. apply not_elem_of_nil.
  - rewrite !elem_of_cons. tauto.
Qed.

(** Nor is everything looked at that is upstream only: 6, with the change of 3, was merged by 7, but is not above 2. *)
Definition up_merged : graph := [(1, []); (2, [1]); (3, [2]); (6, [1]); (7, [2; 6])]%N.
Definition up_side : oid -> option N := fun c => lookup c (list_to_map [(1, 5); (2, 6); (3, 7); (6, 7)]%N : gmap oid N).
Theorem c108_side_refuted : exists d ue e allowed p c dest cmds cache' u,
  wf_graph (dag_graph d) /\ knows d e /\ plannable d e [MoveSubtree [p] c] /\ paths_told ue /\ all_there d ue /\
  ancestor (dag_graph d) u p /\ ~ ancestor (dag_graph d) u c /\ same_patch ue c u /\
  build_detecting d ue true ∅ e allowed [MoveSubtree [p] c] = (Done (BuiltPlan dest cmds), cache') /\
  SkipUpstream c ∉ cmds.
Proof.
  assert (W : wf_graph up_merged) by (unfold up_merged, wf_graph; cbn; split_and!; set_solver).
  eexists (dag_of up_merged 7%N), (up_env up_side), (env_of up_merged), {[3]}%N, 7%N, 3%N, 7%N, _, _, 6%N.
  split; [exact W|]. split; [exact (env_knows _ _ W)|]. split.
  { apply subtree_moves_plannable; [exact W| |intros c r Hr; discriminate].
    apply Forall_singleton. exists 7%N, 3%N. split_and!; [reflexivity|decide_it|].
    intros (ps & H & L). unfold up_merged in H. cbn in H. assert (ps = [2%N]) as -> by set_solver. cbn in L. lia. }
  split; [apply up_told|]. split; [apply up_there|].
  split; [apply rtc_once; exists [2; 6]%N; split; [unfold up_merged; cbn; set_solver|set_solver]|].
  split.
  { intros A. apply ancestor_cases in A. destruct A as [A|A]; [discriminate|]. apply proper_parent in A. destruct A as (q & Hq & Pq).
    apply parent_parents_of in Pq; [|exact W]. vm_compute in Pq. apply elem_of_list_singleton in Pq. subst q.
    apply ancestor_cases in Hq. destruct Hq as [Hq|Hq]; [discriminate|]. apply (proper_ancestor_rank _ _ _ W) in Hq. vm_compute in Hq. lia. }
  split; [exists 7%N; split; reflexivity|]. split; [apply fst_built; vm_compute; reflexivity|]. set_solver.
Qed.

(** ** C109: what was cached does not matter *)
Theorem c109_cache : forall d ue detect cache e allowed cs, cache_right ue cache ->
  fst (build_detecting d ue detect cache e allowed cs) = fst (build_detecting d ue detect ∅ e allowed cs) /\
  cache_right ue (snd (build_detecting d ue detect cache e allowed cs)).
Proof.
  intros d ue detect cache e allowed cs R.
  destruct (build_detecting_right d ue detect cache e allowed cs R) as (c1 & R1 & ->).
  destruct (build_detecting_right d ue detect ∅ e allowed cs) as (c2 & _ & ->); [apply empty_right|].
  split; [reflexivity|exact R1].
Qed.

(** Nothing is left out when it is not asked for. *)
Theorem c109_off : forall d ue cache e allowed cs dest cmds cache' c, cache_right ue cache ->
  build_detecting d ue false cache e allowed cs = (Done (BuiltPlan dest cmds), cache') -> SkipUpstream c ∉ cmds.
Proof.
  intros d ue cache e allowed cs dest cmds cache' c R HB Hin.
  destruct (build_detecting_right d ue false cache e allowed cs R) as (c1 & _ & E). rewrite E in HB. injection HB as HB _.
  apply build_plan_inv in HB. destruct HB as (cg & s & _ & _ & _ & Es & -> & _).
  apply elem_of_app in Hin. destruct Hin as [Hin|Hin]; [|apply elem_of_list_singleton in Hin; discriminate].
  destruct (build_commands_origin _ cg s Es _ Hin) as (r & _ & Fr). destruct (Fr c) as (_ & cm & _ & Hs & _); [cbn; set_solver|].
  destruct (proj1 Hs eq_refl) as [_ H]. discriminate.
Qed.

(** Either way each commit is dealt with once. *)
Theorem c109_once : forall d ue detect cache e allowed cs dest cmds cache',
  wf_graph (dag_graph d) -> knows d e -> plannable d e cs -> cache_right ue cache ->
  build_detecting d ue detect cache e allowed cs = (Done (BuiltPlan dest cmds), cache') ->
  NoDup (replayed cmds) /\ (forall c, c ∈ replayed cmds -> rebuilt d cs c) /\
  (forall c, rebuilt d cs c -> ~ fixed_up cs c -> c ∈ replayed cmds).
Proof.
  intros d ue detect cache e allowed cs dest cmds cache' W K P R HB.
  destruct (build_detecting_right d ue detect cache e allowed cs R) as (c1 & _ & E). rewrite E in HB. injection HB as HB _.
  destruct (build_replays d (with_upstream e _) allowed cs dest cmds W K (with_upstream_plannable d e _ cs P) HB) as (A & B & C & _). auto.
Qed.

(** A cache that knows 5, from an earlier plan. *)
Example c109_example :
  cache_right (up_env up_picked) {[5%N := {["file"]}]} /\
  (exists cache, build_detecting up_dag (up_env up_picked) true {[5%N := {["file"]}]} (env_of up_graph) {[3; 4]}%N [MoveSubtree [5] 3]%N =
    (Done (BuiltPlan 5 [Reset_ (AtOid 5); SkipUpstream 3; Pick 4 [4]; DetectEmpty 4; RegisterExtra])%N, cache)) /\
  (exists cache, build_detecting up_dag (up_env up_picked) false {[5%N := {["file"]}]} (env_of up_graph) {[3; 4]}%N [MoveSubtree [5] 3]%N =
    (Done (BuiltPlan 5 [Reset_ (AtOid 5); Pick 3 [3]; DetectEmpty 3; Pick 4 [4]; DetectEmpty 4; RegisterExtra])%N, cache)).
Proof.
  split; [|split; eexists; apply fst_built; vm_compute; reflexivity]. intros c ps H. apply lookup_singleton_Some in H. destruct H as [<- <-]. auto.
Qed.

Print Assumptions c108_left_out.
Print Assumptions c108_amended_kept.
Print Assumptions c108_exact.
Print Assumptions c108_upstream.
Print Assumptions c108_straight.
Print Assumptions c108_move.
Print Assumptions c108_reapplied_refuted.
Print Assumptions c108_amended_refuted.
Print Assumptions c108_side_refuted.
Print Assumptions c109_cache.
Print Assumptions c109_off.
Print Assumptions c109_once.
