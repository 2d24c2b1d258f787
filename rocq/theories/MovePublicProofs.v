(** Proofs that moving leaves public commits alone, whatever is asked for. *)
From stdpp Require Import sorting relations.
From Verif Require Import Base TextModel EventLogModel EventLogSpec EventLogProofs EvolveModel EvolveSpec
  DagModel DagSpec DagProofs DagCompProofs StrModel HookModel PlanModel PlanSpec PlanProofs PlanBuildProofs PlanProps ExecModel ExecSpec
  HideModel HideSpec HideProofs RestackModel RestackSpec RestackProofs SyncModel SyncSpec SyncProofs MoveModel MoveSpec MoveProofs MoveReqProofs.
Local Open Scope list_scope.

(** A command only rewrites the commits it names. *)
Lemma exec_command_keys e x s s' o : exec_command e x s = Ok s' -> is_Some (es_rewritten s' !! o) ->
  is_Some (es_rewritten s !! o) \/ o ∈ replays x \/ o ∈ applies x.
Proof.
  assert (K : forall (m : gmap oid moid) c v, is_Some (<[c := v]> m !! o) -> is_Some (m !! o) \/ o = c).
  { intros m c v [y H]. rewrite lookup_insert_Some in H. destruct H as [[-> _]|[_ H]]; eauto. }
  intros H S. destruct x as [l|[o'|l]|c l|c ps|c q ps| | |c|c]; cbn [exec_command] in H; try discriminate H.
  - injection H as <-. now left.
  - injection H as <-. now left.
  - destruct (es_labels s !! l); [|discriminate]. injection H as <-. now left.
  - unfold exec_pick in H. destruct (es_store s !! es_current s); [|discriminate]. destruct (es_store s !! c) as [orig|]; [|discriminate].
    destruct (negb _); [discriminate|]. destruct (apply_all _ _ _ _ _ _) as [r| |]; cbn [ebind] in H; try discriminate.
    destruct (snd r) as [n|]; [|discriminate]. destruct (fst r !! n); [|discriminate].
    destruct (commit_is_empty _ _); injection H as <-; cbn [es_rewritten] in S.
    + apply K in S. destruct S as [S| ->]; [now left|right; left; left].
    + assert (F : forall l (m : gmap oid moid), is_Some (fold_left (fun m c => <[c := NonZero n]> m) l m !! o) -> is_Some (m !! o) \/ o ∈ l).
      { clear -K. induction l as [|y l IH]; intros m; cbn [fold_left]; [auto|]. intros S. destruct (IH _ S) as [S'|S']; [|right; now right].
        apply K in S'. destruct S' as [S'| ->]; [now left|right; left]. }
      apply F in S. destruct S as [S|S]; [|right; right; exact S]. apply K in S. destruct S as [S| ->]; [now left|right; left; left].
  - unfold exec_replace in H. destruct (es_store s !! c); [|discriminate]. destruct (es_store s !! q); [|discriminate].
    destruct (all_some _); [|discriminate]. destruct (orb _ _); [discriminate|]. destruct (add_object _ _ _). injection H as <-. cbn [es_rewritten] in S.
    apply K in S. destruct S as [S| ->]; [now left|right; left; left].
  - injection H as <-. now left.
  - injection H as <-. now left.
  - destruct (es_store s !! _); [|discriminate]. injection H as <-. cbn [es_rewritten] in S.
    apply K in S. destruct S as [S| ->]; [now left|right; left; left].
Qed.

Lemma exec_commands_keys e cmds o : forall s s', exec_commands e cmds s = Ok s' -> is_Some (es_rewritten s' !! o) ->
  is_Some (es_rewritten s !! o) \/ o ∈ replayed cmds \/ exists x, x ∈ cmds /\ o ∈ applies x.
Proof.
  unfold exec_commands, replayed. induction cmds as [|x cmds IH]; intros s s' H S; cbn [fold_left] in H.
  - injection H as <-. now left.
  - cbn [ebind] in H. destruct (exec_command e x s) as [s1| |] eqn:E.
    + destruct (IH s1 s' H S) as [S1|[S1|(y & Hy & S1)]].
      * destruct (exec_command_keys e x s s1 o E S1) as [S2|[S2|S2]]; [now left| |]; right; [left; cbn [flat_map]; apply elem_of_app; now left|right; exists x; split; [left|exact S2]].
      * right. left. cbn [flat_map]. apply elem_of_app. now right.
      * right. right. exists y. split; [now right|exact S1].
    + exfalso. revert H. clear. induction cmds as [|y cmds IH]; cbn [fold_left]; [discriminate|exact IH].
    + exfalso. revert H. clear. induction cmds as [|y cmds IH]; cbn [fold_left]; [discriminate|exact IH].
Qed.
Lemma rebase_keys e st dest cmds st' rw head o : rebase_in_memory e st dest cmds = Ok (st', rw, head) -> is_Some (rw !! o) ->
  o ∈ replayed cmds \/ exists x, x ∈ cmds /\ o ∈ applies x.
Proof.
  unfold rebase_in_memory. intros H S.
  assert (X : exists s, exec_commands e cmds (mk_es st dest ∅ ∅ None) = Ok s /\ es_rewritten s = rw).
  { destruct (List.find merge_command cmds) as [[]|]; try discriminate H;
      (destruct (exec_commands e cmds _) as [s| |]; cbn [ebind] in H; try discriminate H; injection H as _ <- _; eauto). }
  destruct X as (s & E & <-). destruct (exec_commands_keys e cmds o _ _ E S) as [N|X]; [|exact X].
  cbn [es_rewritten] in N. rewrite lookup_empty in N. destruct N as [? N]. discriminate.
Qed.

(** What is squashed, and into what. *)
Section fixups.
Context (e : restack_env) (d : dag).
Hypothesis Sets : forall s : commit_set, re_order e s ≡ₚ elements s.
Lemma component_fixups fx ins dest l starts root cs t f : component_requests e d fx ins dest l starts root = Go cs ->
  FixUpCommit t f ∈ cs -> fx = true /\ t = dest /\ exists C, C ∈ List.map snd l /\ f ∈ C.
Proof.
  unfold component_requests. destruct (component_dest _ _ _ _ _ _) as [cd|]; cbn [and_then]; [|discriminate].
  destruct (set_first _ _) as [p|]; [|discriminate]. intros [= <-] H. apply elem_of_app in H. destruct H as [H|H].
  - exfalso. apply elem_of_list_In, in_flat_map in H. destruct H as (k & _ & H). destruct (andb _ _); cbn in H; intuition discriminate.
  - destruct fx; [|apply elem_of_list_singleton in H; discriminate]. split; [reflexivity|].
    apply elem_of_list_In, in_map_iff in H. destruct H as (c & [= <- <-] & H). split; [reflexivity|].
    apply elem_of_list_In in H. rewrite Sets, elem_of_elements in H. unfold component_of in H.
    destruct (List.find _ l) as [y|] eqn:Ef; [|set_solver]. apply find_some in Ef. destruct Ef as [Ef _]. exists (snd y). split; [|exact H].
    apply elem_of_list_In, in_map, Ef.
Qed.
Lemma all_component_fixups fx ins dest l starts todo : forall cs t f, all_component_requests e d fx ins dest l starts todo = Go cs ->
  FixUpCommit t f ∈ cs -> fx = true /\ t = dest /\ exists C, C ∈ List.map snd l /\ f ∈ C.
Proof.
  induction todo as [|s todo IH]; intros cs t f H Hf; cbn [all_component_requests] in H.
  - injection H as <-. now apply elem_of_nil in Hf.
  - destruct (component_requests _ _ _ _ _ _ _ _) as [c1|] eqn:E1; cbn [and_then] in H; [|discriminate].
    destruct (all_component_requests _ _ _ _ _ _ _ _) as [c2|]; cbn [and_then] in H; [|discriminate].
    injection H as <-. apply elem_of_app in Hf. destruct Hf as [Hf|Hf]; [eapply component_fixups; eauto|eapply IH; eauto].
Qed.
Lemma source_fixups fx dest sources t f : wf_graph (dag_graph d) -> FixUpCommit t f ∈ source_requests e d fx dest sources ->
  fx = true /\ t = dest /\ exists s, s ∈ sources /\ ancestor (dag_graph d) s f.
Proof.
  intros W H. unfold source_requests in H. apply elem_of_list_In, in_flat_map in H. destruct H as (s & Hs & H).
  apply elem_of_list_In in Hs. rewrite Sets, elem_of_elements in Hs. apply roots_spec in Hs.
  destruct fx; [|cbn in H; intuition discriminate]. apply in_map_iff in H. destruct H as (c & [= <- <-] & H). split; [reflexivity|]. split; [reflexivity|].
  apply elem_of_list_In in H. rewrite Sets, elem_of_elements in H. apply descendants_spec in H; [|exact W]. destruct H as (s' & Hs' & A).
  apply elem_of_singleton in Hs' as ->. exists s. split; [apply Hs|exact A].
Qed.
Lemma insert_fixups dest sources l starts cs t f : insert_requests e d dest sources l starts = Go cs -> FixUpCommit t f ∉ cs.
Proof.
  unfold insert_requests. destruct (one_after_another _ _) as [[]|]; [discriminate|]. destruct (re_order _ _) as [|h [|]]; try discriminate.
  intros [= <-] H. apply elem_of_list_In, in_map_iff in H. destruct H as (? & ? & _). discriminate.
Qed.
(** All requests. *)
Lemma requests_fixups head a allowed cs : wf_graph (dag_graph d) -> move_requests e d head a = Go (allowed, cs) ->
  exists to_move dest, verify_rewrite_set d (re_force e) to_move = Some allowed /\
    match ma_dest a with Some s => s = {[dest]} | None => head = Some dest end /\
    forall t f, FixUpCommit t f ∈ cs -> ma_fixup a = true /\ t = dest /\ f ∈ allowed.
Proof.
  intros W. unfold move_requests. cbv zeta.
  assert (Dm : forall dests dest, (match ma_dest a, head with Some s, _ => Go s | None, Some h => Go {[h]} | None, None => Stop NoHead end) = Go dests ->
    re_order e dests = [dest] -> match ma_dest a with Some s => s = {[dest]} | None => head = Some dest end).
  { intros dests dest E O. assert (X : forall y, y ∈ dests <-> y = dest).
    { intros y. rewrite <- elem_of_elements, <- Sets, O. apply elem_of_list_singleton. }
    destruct (ma_dest a) as [s|]; [injection E as <-; apply set_eq; intros y; rewrite X, elem_of_singleton; reflexivity|].
    destruct head as [h|]; [|discriminate]. injection E as <-. f_equal. apply X. now apply elem_of_singleton. }
  destruct (match ma_dest a, head with Some s, _ => Go s | None, Some h => Go {[h]} | None, None => Stop NoHead end) as [dests|]; cbn [and_then]; [|discriminate].
  destruct (match connected_components (dag_graph d) (re_order e (⋃ ma_exacts a)) (⋃ ma_exacts a) with None => Stop MoveFailed | Some cs => exact_components e d cs end) as [comps|]; cbn [and_then]; [|discriminate].
  destruct (re_order e dests) as [|dest [|]] eqn:Ed; try discriminate. specialize (Dm dests dest eq_refl Ed).
  destruct (if match ma_sources a, ma_bases a, ma_exacts a with [], [], [] => true | _, _, _ => false end
            then match head with Some h => Go {[h]} | None => Stop NoHead end else Go (⋃ ma_bases a)) as [bases|]; cbn [and_then]; [|discriminate].
  set (sources := ⋃ (ma_sources a) ∪ base_commits e d dest bases).
  set (tm := sources ∪ ⋃ (List.map snd comps) ∪ _).
  destruct (verify_rewrite_set d (re_force e) tm) as [al|] eqn:Ev; [|discriminate].
  destruct (all_component_requests _ _ _ _ _ _ _ _) as [cx|] eqn:Ex; cbn [and_then]; [|discriminate].
  destruct (if ma_insert a then insert_requests e d dest sources comps _ else Go []) as [ci|] eqn:Ei; cbn [and_then]; [|discriminate].
  intros [= <- <-]. exists tm, dest. split; [exact Ev|]. split; [exact Dm|].
  apply verify_rewrite_set_spec in Ev; [|exact W]. destruct Ev as [Ev _].
  intros t f H. apply elem_of_app in H. destruct H as [H|H]; [|apply elem_of_app in H; destruct H as [H|H]].
  - apply source_fixups in H; [|exact W]. destruct H as (H1 & H2 & s & Hs & A). split; [exact H1|]. split; [exact H2|]. apply Ev. exists s. split; [unfold tm; set_solver|exact A].
  - eapply all_component_fixups in H; [|exact Ex]. destruct H as (H1 & H2 & C & HC & Hf). split; [exact H1|]. split; [exact H2|]. apply Ev. exists f.
    split; [|constructor]. unfold tm. apply elem_of_union. left. apply elem_of_union. right. apply elem_union. eauto.
  - exfalso. destruct (ma_insert a); [exact (insert_fixups _ _ _ _ _ _ _ Ei H)|]. injection Ei as <-. now apply elem_of_nil in H.
Qed.
End fixups.

(** Without force, only the commit squashed into can be public. *)
Lemma move_public e ts tx a r rw o : restackable e r -> in_memory e -> re_force e = false ->
  mv_rewritten (move e ts tx a r) = Some rw -> is_Some (rw !! o) -> is_public e r o ->
  ma_fixup a = true /\ meant_dest a r o.
Proof.
  intros R [Mem Mem'] NF H S Pb. destruct (io_exists _ _ (ra_order _ _ R)) as [m Hm].
  assert (exists d, open_repo (re_hide e) (rr_repo r) = Some d) as [d Op] by (unfold open_repo; rewrite Hm; eauto).
  assert (W : wf_graph (dag_graph d)) by (rewrite (dag_is e r d R Op); exact (graph_wf e r R)).
  unfold move in H. rewrite Op in H.
  destruct (move_requests e d (hi_oid (hr_head (rr_repo r))) a) as [[allowed cs]|] eqn:Rq; [|discriminate].
  destruct (build d (planner e (rr_store r)) allowed cs) as [[dest cmds| | |]| |] eqn:Eb; try discriminate.
  destruct (requests_fixups e d (ra_sets _ _ R) _ a allowed cs W Rq) as (tm & dest' & Ev & Dm & Fx).
  apply verify_rewrite_set_spec in Ev; [|exact W]. destruct Ev as [_ Np].
  assert (Pd : public d o).
  { apply (proj1 (unmerged_draft e r d m (ra_order _ _ R) Op Hm)). destruct Pb as (m' & Hm' & A). rewrite Hm in Hm'. injection Hm' as <-. exact A. }
  assert (Na : o ∉ allowed) by (intros X; exact (Np NF o X Pd)).
  assert (T : fixup_target cs o \/ fixed_up cs o).
  { destruct (build_permitted d (planner e (rr_store r)) _ _ _ _ W (ra_sort _ _ R) Eb) as (_ & B1 & B2).
    unfold run_plan in H. destruct (execute_plan _ _ _ _ _ _ _ _ _ _ _) as [rp res] eqn:Ex. unfold execute_plan in Ex. rewrite Mem in Ex.
    destruct (rebase_in_memory _ _ _ _) as [[[st' rw'] head]|at_ st'|st'] eqn:Em.
    - destruct (post_rebase _ _ _ _ _ _) as [r1 ok]. destruct ok; injection Ex as <- <-; cbn in H; [|discriminate]. injection H as ->.
      destruct (rebase_keys _ _ _ _ _ _ _ _ Em S) as [K|(x & Hx & K)].
      + destruct (B1 o K) as [K'|K']; [contradiction|now left].
      + destruct (B2 x o Hx K) as [K'|[K'|K']]; [contradiction|now left|now right].
    - exfalso. destruct (negb (re_resolve e)) eqn:En; [injection Ex as <- <-; discriminate|]. destruct Mem' as [Mem'|Mem'].
      + rewrite Mem' in En. discriminate.
      + rewrite Mem' in Ex. injection Ex as <- <-. discriminate.
    - injection Ex as <- <-. discriminate. }
  destruct T as [[f Hf]|[t Hf]]; destruct (Fx _ _ Hf) as (F1 & -> & F3); [|contradiction]. split; [exact F1|].
  unfold meant_dest. destruct (ma_dest a); exact Dm.
Qed.
