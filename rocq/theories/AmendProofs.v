From Verif Require Import Base TextModel TextProofs EventLogModel EventLogSpec EventLogProofs EvolveSpec
  DagModel DagSpec DagProofs DagCompProofs StrModel StrProofs HookModel PlanModel PlanSpec PlanProofs PlanDfsProofs PlanLabelProofs PlanCycleProofs PlanBuildProofs PlanProps
  ExecModel ExecSpec ExecProofs ExecBuildProofs ExecAfterProofs ExecProps HideModel HideSpec HideProofs RestackModel RestackSpec RestackProofs
  SyncModel SyncSpec SyncProofs MoveModel MoveSpec MoveProofs PlanRunProofs ModeModel TreeModel SnapModel AmendModel AmendSpec.
From Verif Require NavModel.
Local Open Scope string_scope.
Local Open Scope list_scope.

(** ** A graph with one more commit *)
Section one_more.
Context (g : graph) (n : oid) (ps : list oid).
Hypothesis W : wf_graph g.
Hypothesis Nn : n ∉ vertices g.
Hypothesis Ps : forall p, p ∈ ps -> p ∈ vertices g.
Let g1 := g ++ [(n, ps)].

Lemma more_wf : wf_graph g1.
Proof.
  apply well_ordered_app. split; [exact W|]. cbn [well_ordered]. split; [set_solver|]. split; [|exact Logic.I]. intros p Hp. apply Ps in Hp. set_solver.
Qed.
Lemma more_vertices c : c ∈ vertices g1 <-> c ∈ vertices g \/ c = n.
Proof.
  rewrite !vertices_spec. unfold g1. setoid_rewrite elem_of_app. setoid_rewrite elem_of_list_singleton. split.
  - intros (qs & [H|H]); [eauto|]. injection H as -> ->. now right.
  - intros [(qs & H)| ->]; eauto.
Qed.
Lemma more_parents c : c <> n -> parents_of g1 c = parents_of g c.
Proof.
  intros N. unfold g1. clear Nn W Ps g1. induction g as [|[o qs] g' IH]; cbn [app parents_of].
  - destruct (N.eqb_spec n c); congruence.
  - destruct (N.eqb o c); [reflexivity|exact IH].
Qed.
Lemma more_parents_new : parents_of g1 n = ps.
Proof. apply (parents_of_spec ∅ _ _ _ more_wf). unfold g1. apply elem_of_app. right. left. Qed.
Lemma more_parent p c : parent g1 p c <-> parent g p c \/ (c = n /\ p ∈ ps).
Proof.
  unfold parent, g1. setoid_rewrite elem_of_app. setoid_rewrite elem_of_list_singleton. split.
  - intros (qs & [H|H] & Hp); [eauto|]. injection H as -> ->. auto.
  - intros [(qs & H & Hp)|[-> Hp]]; eauto.
Qed.
Lemma more_parent_old p c : c <> n -> parent g1 p c <-> parent g p c.
Proof. intros N. rewrite more_parent. tauto. Qed.
Lemma more_ancestor a c : c ∈ vertices g -> ancestor g1 a c <-> ancestor g a c.
Proof.
  intros Hc. split.
  - intros H. revert Hc. induction H as [x|x y z P H IH]; [constructor|]. intros Hz. specialize (IH Hz). 
    assert (y ∈ vertices g). { apply rtc_inv in IH. destruct IH as [->|(w & Pw & _)]; [exact Hz|]. apply (parent_vertices _ _ _ W) in Pw. apply Pw. }
    apply more_parent in P. destruct P as [P|[-> _]]; [|contradiction]. eapply rtc_l; eauto.
  - intros H. unfold ancestor in *. eapply rtc_subrel; [|exact H]. intros x y P. apply more_parent. now left.
Qed.
Lemma more_proper a c : c ∈ vertices g -> proper_ancestor g1 a c <-> proper_ancestor g a c.
Proof.
  intros Hc. split.
  - intros H. apply tc_rtc in H as A. apply (more_ancestor _ _ Hc) in A. apply rtc_tc in A. destruct A as [->|A]; [|exact A].
    destruct (wf_acyclic _ _ more_wf H).
  - intros H. induction H as [x y P|x y z P H IH]; [apply tc_once|eapply tc_l; [|now apply IH]]; apply more_parent; now left.
Qed.
Lemma more_merge c : c ∈ vertices g -> merge_commit g1 c <-> merge_commit g c.
Proof.
  intros Hc. unfold merge_commit, g1. setoid_rewrite elem_of_app. setoid_rewrite elem_of_list_singleton. split.
  - intros (qs & [H|H] & L); [eauto|]. injection H as -> ->. contradiction.
  - intros (qs & H & L). eauto.
Qed.
End one_more.

Lemma some_element {A} (l : list A) : l <> [] -> exists x, x ∈ l.
Proof. destruct l as [|x l]; [congruence|]. intros _. exists x. left. Qed.

(** ** The requests *)
Section requests.
Context (d : dag) (h n : oid) (l : list oid).
Let g := dag_graph d.
Hypothesis W : wf_graph g.
Hypothesis Ld : NoDup l.
Hypothesis Lv : forall c, c ∈ l <-> visible d c /\ proper_ancestor g h c.
Hypothesis Nn : n ∉ l.
Let pn (c : oid) := List.map (on_top h n) (parents_of g c).
Let cs := List.map (fun c => MoveSubtree (pn c) c) l.

Lemma rq_in x : x ∈ cs <-> exists c, c ∈ l /\ x = MoveSubtree (pn c) c.
Proof.
  unfold cs. rewrite elem_of_list_In, in_map_iff. split.
  - intros (c & <- & H). exists c. split; [now apply elem_of_list_In|reflexivity].
  - intros (c & H & ->). exists c. split; [reflexivity|now apply elem_of_list_In].
Qed.
Lemma rq_h : h ∉ l.
Proof. intros H. apply Lv in H. destruct H as [_ H]. exact (wf_acyclic _ _ W H). Qed.
Lemma rq_vertex c : c ∈ l -> c ∈ vertices g.
Proof. intros H. apply Lv in H. destruct H as [_ H].
  assert (exists p, parent g p c) as [p P]. { apply tc_rtc in H as A. apply rtc_inv_r in A. destruct A as [->|(p & _ & P)]; [destruct (wf_acyclic _ _ W H)|eauto]. }
  apply (parent_vertices _ _ _ W) in P. apply P.
Qed.
Lemma rq_pn p c : p ∈ pn c <-> goes_above g h n p c.
Proof.
  unfold pn, goes_above. rewrite elem_of_list_In, in_map_iff. setoid_rewrite <- elem_of_list_In. split.
  - intros (q & E & H). apply (parent_parents_of _ _ _ W) in H. unfold on_top in E. destruct (decide (q = h)) as [->|N]; [left|right]; subst; auto.
  - intros [[H ->]|[N H]]; apply (parent_parents_of _ _ _ W) in H.
    + exists h. split; [|exact H]. unfold on_top. now rewrite decide_True.
    + exists p. split; [|exact H]. unfold on_top. now rewrite decide_False.
Qed.
Lemma rq_placed c p : placed cs c p <-> c ∈ l /\ goes_above g h n p c.
Proof.
  rewrite <- rq_pn. split.
  - intros (b & ps & a & E & Hp & _). assert (X : MoveSubtree ps c ∈ cs) by (rewrite E; apply elem_of_app; right; left).
    apply rq_in in X. destruct X as (c' & Hc & [= -> ->]). auto.
  - intros [Hc Hp]. apply elem_of_list_split in Hc. destruct Hc as (l1 & l2 & E).
    exists (List.map (fun c => MoveSubtree (pn c) c) l1), (pn c), (List.map (fun c => MoveSubtree (pn c) c) l2). split; [|split; [exact Hp|]].
    + unfold cs. rewrite E, List.map_app. reflexivity.
    + apply Forall_forall. intros x Hx. apply elem_of_list_In, in_map_iff in Hx. destruct Hx as (c' & <- & Hx). cbn. intros ->.
      rewrite E in Ld. apply NoDup_app in Ld. destruct Ld as (_ & _ & X). apply NoDup_cons in X. destruct X as [X _]. apply X. now apply elem_of_list_In.
Qed.
Lemma rq_no_takes x a b : x ∈ cs -> ~ takes_out x a b.
Proof. intros H T. apply rq_in in H. destruct H as (c & _ & ->). destruct T as [T|(t & T & _)]; discriminate. Qed.
Lemma rq_no_gap x p : ~ closes_gap d cs x p.
Proof. intros (_ & _ & b & y & a & u & v & E & T & _). apply (rq_no_takes y u v); [rewrite E; apply elem_of_app; right; left|exact T]. Qed.
Lemma rq_some c : c ∈ l -> exists p, goes_above g h n p c.
Proof.
  intros H. apply Lv in H as [_ H]. apply tc_rtc in H as A. apply rtc_inv_r in A. destruct A as [->|(p & _ & P)]; [destruct (wf_acyclic _ _ W H)|].
  destruct (decide (p = h)) as [->|N]; [exists n; left|exists p; right]; auto.
Qed.
Lemma rq_requested c : requested d cs c <-> c ∈ l.
Proof.
  split.
  - intros [p [H|H]]; [now apply rq_placed in H|destruct (rq_no_gap _ _ H)].
  - intros H. destruct (rq_some c H) as [p P]. exists p. left. now apply rq_placed.
Qed.
Lemma rq_target c : ~ fixup_target cs c.
Proof. intros [f H]. apply rq_in in H. destruct H as (c' & _ & H). discriminate. Qed.
Lemma rq_fixed c : ~ fixed_up cs c.
Proof. intros [f H]. apply rq_in in H. destruct H as (c' & _ & H). discriminate. Qed.
Lemma rq_no_fixup t f : FixUpCommit t f ∉ cs.
Proof. intros H. apply (rq_fixed f). now exists t. Qed.
Lemma rq_new_parent p c : new_parent d cs p c <-> c ∈ l /\ goes_above g h n p c.
Proof.
  unfold new_parent. rewrite rq_placed. split; [|auto]. intros [H|[H|H]]; [exact H|destruct (rq_no_gap _ _ H)|].
  exfalso. destruct H as (N & V & _ & a & [Ha|Ha] & A); [|destruct (rq_target _ Ha)]. apply N, rq_requested, Lv. split; [exact V|].
  apply rq_requested, Lv in Ha. destruct Ha as [_ Ha]. eapply tc_transitive; eauto.
Qed.
Lemma rq_moves c : moves d cs c <-> c ∈ l.
Proof.
  split; [intros [p H]; now apply rq_new_parent in H|]. intros H. destruct (rq_some c H) as [p P]. exists p. apply rq_new_parent. auto.
Qed.
Lemma rq_rebuilt c : rebuilt d cs c <-> c ∈ l.
Proof. unfold rebuilt. rewrite rq_moves. split; [intros [H|H]; [exact H|destruct (rq_target _ H)]|auto]. Qed.
Lemma rq_rebuilt_on p c : ~ merge_commit g c -> rebuilt_on d cs p c -> goes_above g h n p c.
Proof. intros NM [H|[(H & _)|(H & _)]]; [now apply rq_new_parent in H|destruct (rq_target _ H)|destruct (NM H)]. Qed.
Lemma rq_single c : c ∈ l -> ~ merge_commit g c -> exists p, pn c = [p] /\ goes_above g h n p c.
Proof.
  intros Hc NM. destruct (rq_some c Hc) as [p P]. exists p. split; [|exact P]. apply rq_pn in P. apply rq_vertex, vertices_spec in Hc. destruct Hc as [ps Hc].
  unfold pn in *. rewrite (parents_of_spec _ _ _ _ W Hc) in *. assert (L : (length ps <= 1)%nat). { apply Nat.nlt_ge. intros L. apply NM. exists ps. auto. }
  destruct ps as [|q [|q' ps]]; cbn in *; [now apply elem_of_nil in P| |lia]. apply elem_of_list_singleton in P. now subst.
Qed.
Lemma rq_plannable e : (forall c x, pe_replace e !! c = Some x -> exists rc, pe_find e x = Some rc) -> plannable d e cs.
Proof.
  intros Rep. constructor.
  - intros c H. apply rq_vertex. now apply rq_rebuilt.
  - exact Rep.
  - intros p p' c NM H H'. apply rq_new_parent in H, H'. destruct H as [Hc H], H' as [_ H']. destruct (rq_single c Hc NM) as (q & E & _).
    apply rq_pn in H, H'. rewrite E in H, H'. apply elem_of_list_singleton in H, H'. congruence.
  - intros c M Rb. split; [apply rq_target|]. split; [apply rq_fixed|]. split; [intros p _ H; destruct (rq_target _ H)|].
    intros p Rp. rewrite rq_new_parent. apply rq_rebuilt in Rb, Rp. split.
    + intros [_ [[P ->]|[_ P]]]; [contradiction|exact P].
    + intros P. split; [exact Rb|]. right. split; [intros ->; exact (rq_h Rp)|exact P].
  - intros t H. destruct (rq_target _ H).
  - intros t H. destruct (rq_target _ H).
Qed.
Lemma rq_clear : clear_of_fixups d cs.
Proof. intros p c _ _. apply rq_fixed. Qed.
Lemma rq_gaps : gaps_close d cs.
Proof. intros b x a u v E T. exfalso. apply (rq_no_takes x u v); [rewrite E; apply elem_of_app; right; left|exact T]. Qed.
Lemma rq_possible : ~ impossible d cs.
Proof.
  assert (Tgt : forall p c, tc (new_parent d cs) p c -> c ∈ l).
  { intros p c H. induction H as [p c H|p q c H _ IH]; [now apply rq_new_parent in H|exact IH]. }
  assert (Anc : forall p c, tc (new_parent d cs) p c -> p ∈ l -> proper_ancestor g p c).
  { assert (St : forall p c, new_parent d cs p c -> p ∈ l -> parent g p c).
    { intros p c H Hp. apply rq_new_parent in H. destruct H as [_ [[_ ->]|[_ H]]]; [contradiction|exact H]. }
    intros p c H. induction H as [p c H|p q c H T IH]; intros Hp; [apply tc_once; auto|]. eapply tc_l; [apply St; [exact H|exact Hp]|].
    apply IH. now apply rq_new_parent in H. }
  intros [c H]. exact (wf_acyclic _ _ W (Anc c c H (Tgt c c H))).
Qed.
Lemma rq_fit e : (forall c x rc, c ∈ l -> pe_replace e !! c = Some x -> pe_find e x = Some rc -> commit_parents rc = pn c) -> replacements_fit d e cs.
Proof.
  intros Rep c x rc NM Rb E Fd. apply rq_rebuilt in Rb. rewrite (Rep c x rc Rb E Fd). destruct (rq_single c Rb NM) as (p & -> & P).
  exists p. split; [reflexivity|]. left. now apply rq_new_parent.
Qed.
Lemma rq_build e allowed : knows d e -> (forall c x, pe_replace e !! c = Some x -> exists rc, pe_find e x = Some rc) ->
  (forall c, c ∈ l -> c ∈ allowed) ->
  (l = [] /\ build d e allowed cs = Done BuiltNothing) \/ exists dest cmds, build d e allowed cs = Done (BuiltPlan dest cmds).
Proof.
  intros K Rep Al. destruct (decide (l = [])) as [El|El].
  - left. split; [exact El|]. unfold cs. rewrite El. apply build_none. exact W.
  - right. apply build_total; auto; [now apply rq_plannable|exact rq_gaps|exact rq_possible| |].
    + intros c H. apply Al, rq_moves, H.
    + destruct (some_element l El) as [c0 H]. exists c0. now apply rq_rebuilt.
Qed.

(** What carrying them out does. *)
Context (pe : plan_env) (ee : exec_env) (st st' : store) (rw : gmap oid moid) (head : option oid).
Hypothesis CO : carried_out d cs pe ee st st' rw head.
Lemma rq_rw c : is_Some (rw !! c) <-> c ∈ l.
Proof.
  rewrite <- rq_rebuilt. split.
  - intros H. destruct (co_rest _ _ _ _ _ _ _ _ CO c H) as [X|X]; [exact X|destruct (rq_fixed _ X)].
  - intros H. destruct (co_fate _ _ _ _ _ _ _ _ CO c H (rq_fixed c)); eauto.
Qed.
Lemma rq_lands p q : lands d cs rw p q -> becomes (goes_above g h n) rw p q.
Proof.
  induction 1 as [p H|p q H|p p' q H B L IH]; [now apply becomes_kept|now apply becomes_new|].
  apply (becomes_dropped _ _ p p' q); [exact H| |exact IH]. apply rq_rebuilt_on; [|exact B].
  assert (Rb : rebuilt d cs p) by (apply rq_rebuilt, rq_rw; eauto).
  destruct (co_fate _ _ _ _ _ _ _ _ CO p Rb (rq_fixed p)); congruence || assumption.
Qed.
Lemma rq_squash q orig x k y : (forall f, f ∈ k <-> f = x \/ FixUpCommit x f ∈ cs) -> NoDup k -> squashes ee q orig k y ->
  exists tree, ee_pick ee x q = MadeTree tree /\ y = remade ee orig [q] tree.
Proof.
  intros L N S. assert (k = [x]) as ->.
  { assert (L' : forall f, f ∈ k <-> f = x). { intros f. rewrite L. split; [|auto]. intros [H|H]; [exact H|]. destruct (rq_no_fixup _ _ H). }
    destruct k as [|a [|b k]].
    - destruct (not_elem_of_nil x (proj2 (L' x) eq_refl)).
    - f_equal. apply L'. left.
    - exfalso. apply NoDup_cons in N. destruct N as [N _]. apply N. rewrite (proj1 (L' a)) by left. rewrite <- (proj1 (L' b)) by (right; left). left. }
  inversion S as [c' t Hp E1 E2|l' z c' t S' Ha E1 E2]; subst; [eauto|]. exfalso. destruct l' as [|? [|? ?]]; try discriminate E1. inversion S' as [|[|? ?] ? ? ? ? ? E3]; discriminate E3.
Qed.
Lemma rq_made x y : pe_replace pe = ∅ -> rw !! x = Some (NonZero y) -> exists p q orig tree,
  goes_above g h n p x /\ becomes (goes_above g h n) rw p q /\ st' !! x = Some orig /\
  ee_pick ee x q = MadeTree tree /\ st' !! y = Some (remade ee orig [q] tree).
Proof.
  intros Re Hx. assert (Rb : rebuilt d cs x) by (apply rq_rebuilt, rq_rw; eauto).
  destruct (co_fate _ _ _ _ _ _ _ _ CO x Rb (rq_fixed x)) as [p q Z|p q n' orig k z qx Z NM _ B L Sn Sc _ Hl Nd Sq _|n' rr orig ps qs _ Z'].
  - congruence.
  - rewrite Hx in Z. injection Z as <-. destruct (rq_squash q orig x k z Hl (proj1 Nd) Sq) as (tree & Hp & ->).
    exists p, q, orig, tree. split_and!; auto; [now apply rq_rebuilt_on|now apply rq_lands].
  - rewrite Re, lookup_empty in Z'. discriminate.
Qed.
Lemma rq_dropped x : rw !! x = Some Zero -> exists p q,
  goes_above g h n p x /\ becomes (goes_above g h n) rw p q /\
  ((exists t, pe_upstream pe t x = true) \/
   pe_replace pe !! x = None /\ exists tree qx, ee_pick ee x q = MadeTree tree /\ st' !! q = Some qx /\ commit_tree (ob_commit qx) = tree).
Proof.
  intros Hx. assert (Rb : rebuilt d cs x) by (apply rq_rebuilt, rq_rw; eauto).
  destruct (co_fate _ _ _ _ _ _ _ _ CO x Rb (rq_fixed x)) as [p q Z NM B L Why|p q n' orig k y qx Z|n' rr orig ps qs Z Z']; [|congruence..].
  exists p, q. split; [now apply rq_rebuilt_on|]. split; [now apply rq_lands|].
  destruct Why as [Up|(Re & orig & qx & k & y & _ & Sq & Hl & Nd & S & T')]; [left; exact Up|right]. split; [exact Re|].
  destruct (rq_squash q orig x k y Hl (proj1 Nd) S) as (tree & Hp & ->). exists tree, qx. split; [exact Hp|]. split; [exact Sq|]. now symmetry.
Qed.
Lemma rq_replaced x y z : pe_replace pe !! x = Some z -> rw !! x = Some (NonZero y) -> exists orig ps qs,
  st' !! z = Some orig /\ st' !! y = Some (remade ee orig qs (commit_tree (ob_commit orig))) /\
  Forall2 (becomes (goes_above g h n) rw) ps qs /\ (merge_commit g x -> ps = parents_of g x) /\ (~ merge_commit g x -> ps = pn x).
Proof.
  intros Re Hx. assert (Hl : x ∈ l) by (apply rq_rw; eauto). assert (Rb : rebuilt d cs x) by (now apply rq_rebuilt).
  destruct (co_fate _ _ _ _ _ _ _ _ CO x Rb (rq_fixed x)) as [p q Z|p q n' orig k w qx Z NM Re'|n' rr orig ps qs Z Z' So Sn F M NM]; [congruence..|].
  rewrite Hx in Z. injection Z as <-. rewrite Re in Z'. injection Z' as <-. exists orig, ps, qs. split_and!; auto.
  - eapply Forall2_impl; [exact F|]. intros p q. apply rq_lands.
  - intros H. destruct (NM H) as (p & -> & B). destruct (rq_single x Hl H) as (p' & E & P). rewrite E. f_equal.
    apply rq_rebuilt_on in B; [|exact H]. apply rq_pn in B. rewrite E in B. now apply elem_of_list_singleton in B.
Qed.
End requests.

(** ** Switching to the new commit *)
Lemma mark_one st n refs m : m <> gc_name n -> mark_new st [NonZero n] refs !! m = refs !! m.
Proof. intros H. unfold mark_new. cbn [fold_left]. destruct (decide _); [|reflexivity]. apply lookup_insert_ne. intros E. now apply H. Qed.

Section switch.
Context (s : amend_setting) (r : rrepo) (h n : oid) (x : object) (t : oid) (st : store) (ts : timestamp) (i : Z).
Let e := as_restack s.
Let g := he_graph (re_hide e).
Hypothesis A : amendable s r h.
Hypothesis U : unknown e r n.
Hypothesis Hx : rr_store r !! h = Some x.
Hypothesis Ho : add_object (re_exec e) (amended_object s x t) (rr_store r) = (n, st).
Let R := am_order _ _ _ A.
Let r0 := mk_rrepo st (rr_repo (noted s ts i h r)).

Lemma sw_name : n = ee_hash (re_exec e) (amended_object s x t).
Proof. unfold add_object in Ho. now injection Ho as <- _. Qed.
Lemma sw_grow : rr_store r ⊆ st /\ named (re_exec e) st.
Proof. destruct (add_object_grows _ _ _ _ _ Ho) as [X Y]. split; [exact X|]. apply Y, (ra_named _ _ R). Qed.
Lemma sw_new : st !! n = Some (amended_object s x t).
Proof.
  unfold add_object in Ho. injection Ho as <- Est. pose proof (ra_named _ _ R) as Nd. pose proof (ra_faithful _ _ R) as Fn.
  destruct (rr_store r !! ee_hash (re_exec e) (amended_object s x t)) as [y|] eqn:E; subst st; [|apply lookup_insert]. rewrite E. f_equal. apply Fn. apply (Nd _ _ E).
Qed.
Lemma sw_h : h ∈ vertices g. Proof. exact (io_head _ _ (ra_order _ _ R) _ (am_head _ _ _ A)). Qed.
Lemma sw_parents : commit_parents (ob_commit x) = parents_of g h.
Proof. destruct (ra_store _ _ R h sw_h) as (y & Hy & E). rewrite Hx in Hy. injection Hy as <-. exact E. Qed.
Lemma sw_known p : p ∈ parents_of g h -> p ∈ vertices g.
Proof. intros H. apply (parent_parents_of _ _ _ (io_graph _ _ (ra_order _ _ R))) in H. now apply (parent_vertices _ _ _ (io_graph _ _ (ra_order _ _ R))) in H. Qed.

Let refs0 := mark_new st [NonZero n] (hr_refs (rr_repo r)).
Let m := move_branches (he_branch (re_hide e)) {[h := NonZero n]} (he_groups (re_hide e) refs0) refs0.
Lemma sw_moved b : mr_ok m = true -> mr_refs m !! b = branch_after (he_branch (re_hide e)) {[h := NonZero n]} refs0 b.
Proof. intros K. destruct (move_branches_spec (he_branch (re_hide e)) {[h := NonZero n]} (he_groups (re_hide e) refs0) refs0 (ra_tables _ _ R refs0)) as (_ & _ & C).
  destruct (C K) as (ls & _ & D & _). apply D. Qed.
Lemma sw_none b : mr_ok m = true -> hr_refs (rr_repo r) !! b = None -> b <> gc_name n -> mr_refs m !! b = None.
Proof. intros K H N. rewrite (sw_moved b K). unfold branch_after, refs0. rewrite mark_one by exact N. now rewrite H. Qed.
Lemma sw_branch b : mr_ok m = true -> hi_branch (hr_head (rr_repo r)) = Some b -> mr_refs m !! b = Some n.
Proof.
  intros K H. rewrite (sw_moved b K). pose proof (ra_local _ _ R b H) as L. unfold branch_after, refs0. rewrite mark_new_local by exact L.
  rewrite (io_branch _ _ (ra_order _ _ R) b H), (am_head _ _ _ A), L, lookup_singleton. reflexivity.
Qed.
Lemma sw_rev : mr_ok m = true -> git_rev (mr_refs m) (reset_text (hr_head (rr_repo r)) n) = Some n.
Proof.
  intros K. unfold reset_text. destruct (hi_branch (hr_head (rr_repo r))) as [b|] eqn:Hb.
  - pose proof (ra_local _ _ R b Hb) as L. apply is_local_spec in L. destruct L as [b' ->].
    assert (NavModel.render_suffix ("refs/heads/" +:+ b') = b') as -> by reflexivity.
    destruct (am_name _ _ _ A b' Hb) as [N1 N2]. unfold git_rev.
    assert ((if Nat.eqb (String.length b') 40 then oid_from_string b' else None) = None) as ->.
    { destruct (Nat.eqb_spec (String.length b') 40); auto. }
    cbn [fold_right]. pose proof (N2 b' ltac:(left)) as [B1 B2]. pose proof (N2 ("refs/" +:+ b') ltac:(right; left)) as [C1 C2].
    pose proof (N2 ("refs/tags/" +:+ b') ltac:(right; right; left)) as [D1 D2].
    rewrite (sw_none b' K B1 (B2 n)), (sw_none _ K C1 (C2 n)), (sw_none _ K D1 (D2 n)), (sw_branch _ K Hb). reflexivity.
  - unfold git_rev. rewrite oid_text_length. cbn [Nat.eqb]. rewrite nzoid_text_round_trip by apply U. reflexivity.
Qed.

(** What comes of it. *)
Record sw_result (r1 : rrepo) : Prop := {
  sr_store : rr_store r1 = st;
  sr_branches : forall b, is_local b = true ->
    hr_refs (rr_repo r1) !! b = branch_after (he_branch (re_hide e)) {[h := NonZero n]} (hr_refs (rr_repo r)) b;
  sr_others : forall b, is_local b = false -> b <> gc_name n -> hr_refs (rr_repo r1) !! b = hr_refs (rr_repo r) !! b;
  sr_marked : hr_refs (rr_repo r1) !! gc_name n = Some n;
  sr_head : hr_head (rr_repo r1) = mk_head (Some n) (hi_branch (hr_head (rr_repo r)));
  sr_log : exists es, hr_log (rr_repo r1) = hr_log (rr_repo r) ++ es /\ tells {[h := NonZero n]} es }.

Lemma switch_result : mr_ok m = true -> exists r1, switch_to s ts (TxId i) h n r0 = (r1, Some true) /\ sw_result r1.
Proof.
  intros K. unfold switch_to. cbn [r0 noted rr_store rr_repo hr_refs hr_head hr_log]. fold e. fold refs0. fold m. rewrite K.
  unfold git_reset. rewrite (sw_rev K).
  match goal with |- context [((?l0 ++ ?l1) ++ ?l2 ++ ?l3) ++ as_reset s ?q] => set (rr := q);
    assert (Es : exists es, ((l0 ++ l1) ++ l2 ++ l3) ++ as_reset s rr = hr_log (rr_repo r) ++ es /\ tells {[h := NonZero n]} es) end.
  { cbn [stored]. rewrite <- !app_assoc. eexists. split; [reflexivity|].
    apply (tells_quiet_app _ _ [SnapshotEvent ts (TxId i) (NonZero h) (as_snapshot s) (hi_branch (hr_head (rr_repo r)))]).
    - rewrite (app_assoc [RewriteEvent _ _ _ _]). apply tells_app_quiet; [|intros y o Hy; exact (am_quiet _ _ _ A _ y o Hy)].
      apply tells_app_quiet.
      + split.
        * intros y o Hy _. apply elem_of_list_singleton in Hy. subst y. exists ts, (TxId i), h, (NonZero n). split; [apply lookup_singleton|reflexivity].
        * intros old new H. apply lookup_singleton_Some in H. destruct H as [<- <-]. exists ts, (TxId i). left.
      + intros y o Hy. destruct (mr_lines m); [eapply hook_events_quiet; exact Hy|now apply elem_of_nil in Hy].
    - intros y o Hy. apply elem_of_list_singleton in Hy. subst y. intros [X|X]; exact X. }
  assert (Rf : forall b, mr_refs m !! b = branch_after (he_branch (re_hide e)) {[h := NonZero n]} refs0 b) by (intros; now apply sw_moved).
  assert (Lo : forall b, is_local b = true -> mr_refs m !! b = branch_after (he_branch (re_hide e)) {[h := NonZero n]} (hr_refs (rr_repo r)) b).
  { intros b L. rewrite Rf. apply branch_after_ext. now apply mark_new_local. }
  assert (Ot : forall b, is_local b = false -> b <> gc_name n -> mr_refs m !! b = hr_refs (rr_repo r) !! b).
  { intros b L N. rewrite Rf. unfold branch_after. rewrite L. unfold refs0. rewrite mark_one by exact N. now destruct (hr_refs (rr_repo r) !! b). }
  assert (Mk : mr_refs m !! gc_name n = Some n).
  { rewrite Rf. unfold branch_after. rewrite gc_not_local. unfold refs0. rewrite mark_new_kept; [reflexivity| |apply U|].
    - intros o H. apply elem_of_list_singleton in H. injection H as ->. apply U.
    - left. split; [left|]. rewrite sw_new. eauto. }
  destruct (hi_branch (hr_head (rr_repo r))) as [b|] eqn:Hb.
  - pose proof (sw_branch b K Hb) as Hn. assert (E : <[b := n]> (mr_refs m) = mr_refs m) by (now apply insert_id). rewrite E.
    eexists. split; [reflexivity|]. constructor; cbn [rr_store rr_repo hr_refs hr_head hr_log]; auto. now rewrite Hb.
  - eexists. split; [reflexivity|]. constructor; cbn [rr_store rr_repo hr_refs hr_head hr_log]; auto. now rewrite Hb.
Qed.
Lemma switch_back r1 : switch_to s ts (TxId i) h n r0 = (r1, Some true) -> sw_result r1.
Proof.
  intros H. destruct (mr_ok m) eqn:K.
  - destruct (switch_result K) as (r2 & E & X). rewrite E in H. now injection H as <-.
  - exfalso. revert H. unfold switch_to. cbn [r0 noted rr_store rr_repo hr_refs hr_head hr_log]. fold e. fold refs0. fold m. rewrite K. discriminate.
Qed.
Lemma switch_no_reset r1 : switch_to s ts (TxId i) h n r0 <> (r1, None).
Proof.
  intros H. destruct (mr_ok m) eqn:K.
  - destruct (switch_result K) as (r2 & E & X). rewrite E in H. discriminate.
  - revert H. unfold switch_to. cbn [r0 noted rr_store rr_repo hr_refs hr_head hr_log]. fold e. fold refs0. fold m. rewrite K. discriminate.
Qed.
Lemma switch_goes : workable e r -> mr_ok m = true.
Proof.
  intros Wk. apply move_branches_go; [exact (wk_exists _ _ Wk)|exact (wk_write _ _ Wk)|]. destruct (ra_upstream _ _ R) as [up E]. fold e in E. rewrite E. discriminate.
Qed.

(** ** The repository then *)
Let ps := parents_of g h.
Let g1 := g ++ [(n, ps)].
Definition grown_env : restack_env :=
  mk_re (mk_he g1 (he_found (re_hide e)) (he_describe (re_hide e)) (he_branch (re_hide e)) (he_groups (re_hide e)) (he_utf8 (re_hide e))
           (he_resolve (re_hide e)) (he_packed (re_hide e)))
    (re_exec e) (re_upstream e) (re_order e) (re_sort e) (re_iter e) (re_disk e) (re_checked_out e) (re_force e) (re_in_memory e)
    (re_on_disk e) (re_resolve e).
Context (r1 : rrepo).
Hypothesis SR : sw_result r1.
Let W := io_graph _ _ (ra_order _ _ R).
Let Nn : n ∉ vertices g := proj1 (proj2 U).

Lemma sw_fresh : fresh g (hr_log (rr_repo r)) {[h := NonZero n]}.
Proof. intros y [old H]. apply lookup_singleton_Some in H. destruct H as [_ [= <-]]. exact U. Qed.
Lemma sw_dom c : is_Some (({[h := NonZero n]} : gmap oid moid) !! c) -> c ∈ vertices g.
Proof. intros [y H]. apply lookup_singleton_Some in H. destruct H as [<- _]. exact sw_h. Qed.
Lemma grown_restackable : restackable grown_env r1.
Proof.
  destruct SR as [S1 S2 S3 S4 S5 (es & S6 & T)]. constructor; cbn [grown_env re_hide re_exec re_order re_sort re_iter re_checked_out].
  - constructor; cbn [he_graph he_branch he_groups].
    + exact (more_wf g n ps W Nn sw_known).
    + exact (io_main _ _ (ra_order _ _ R)).
    + destruct (io_main _ _ (ra_order _ _ R)) as [b Hb]. destruct (io_exists _ _ (ra_order _ _ R)) as [o Ho'].
      unfold he_main in *. cbn [he_branch] in *. fold e in Hb, Ho'. rewrite S2 by (rewrite Hb; reflexivity). unfold branch_after. rewrite Ho'.
      destruct (is_local _); [|eauto]. destruct (decide (o = h)) as [->|N]; [rewrite lookup_singleton; eauto|]. rewrite lookup_singleton_ne by congruence. eauto.
    + apply (ra_tables _ _ R).
    + intros b o H. apply (more_vertices g n ps). destruct (decide (b = gc_name n)) as [->|N]; [rewrite S4 in H; injection H as <-; now right|].
      destruct (is_local b) eqn:L.
      * rewrite S2 in H by exact L. unfold branch_after in H. destruct (hr_refs (rr_repo r) !! b) as [o'|] eqn:E; [|discriminate]. rewrite L in H.
        destruct (decide (o' = h)) as [->|N']; [rewrite lookup_singleton in H; injection H as <-; now right|].
        rewrite lookup_singleton_ne in H by congruence. injection H as <-. left. exact (io_known _ _ (ra_order _ _ R) _ _ E).
      * rewrite S3 in H by auto. left. exact (io_known _ _ (ra_order _ _ R) _ _ H).
    + intros o H. apply (more_vertices g n ps). rewrite S6 in H. apply (told_active g _ _ _ T sw_fresh sw_dom) in H. destruct H as [[old H]|H].
      * apply lookup_singleton_Some in H. destruct H as [_ [= <-]]. now right.
      * left. exact (io_active _ _ (ra_order _ _ R) _ H).
    + intros o H. rewrite S5 in H. injection H as <-. apply (more_vertices g n ps). now right.
    + intros b H. rewrite S5 in *. cbn in *. rewrite S2 by exact (ra_local _ _ R b H). unfold branch_after.
      rewrite (io_branch _ _ (ra_order _ _ R) b H), (am_head _ _ _ A), (ra_local _ _ R b H), lookup_singleton. reflexivity.
  - exact (ra_tables _ _ R).
  - exists n. now rewrite S5.
  - intros b H. rewrite S5 in H. exact (ra_local _ _ R b H).
  - exact (ra_upstream _ _ R).
  - intros c Hc. cbn [he_graph] in *. rewrite S1. destruct (decide (c = n)) as [->|N].
    + exists (amended_object s x t). split; [exact sw_new|]. unfold g1. rewrite (more_parents_new g n ps W Nn sw_known). exact sw_parents.
    + apply (more_vertices g n ps) in Hc. destruct Hc as [Hc|Hc]; [|congruence]. destruct (ra_store _ _ R c Hc) as (y & Hy & E).
      exists y. split; [apply (lookup_weaken _ _ _ _ Hy), sw_grow|]. unfold g1. now rewrite (more_parents g n ps c N).
  - exact (ra_faithful _ _ R).
  - rewrite S1. apply sw_grow.
  - intros c Hc. apply (more_vertices g n ps) in Hc. destruct Hc as [Hc| ->]; [exact (ra_oids _ _ R c Hc)|apply U].
  - exact (ra_sets _ _ R).
  - exact (ra_sort _ _ R).
  - exact (ra_iter _ _ R).
  - exact (ra_quiet _ _ R).
Qed.
Lemma grown_workable : workable e r -> workable grown_env r1.
Proof.
  intros Wk. constructor; cbn [grown_env re_hide re_exec he_branch].
  - intros c Hc. rewrite (sr_store _ SR). apply (more_vertices g n ps) in Hc. destruct Hc as [Hc| ->].
    + destruct (wk_read _ _ Wk c Hc) as (y & Hy & D). exists y. split; [apply (lookup_weaken _ _ _ _ Hy), sw_grow|exact D].
    + destruct (wk_read _ _ Wk h sw_h) as (y & Hy & D). rewrite Hx in Hy. injection Hy as <-. exists (amended_object s x t). split; [exact sw_new|exact D].
  - exact (wk_pick _ _ Wk).
  - exact (wk_amend _ _ Wk).
  - exact (wk_exists _ _ Wk).
  - exact (wk_write _ _ Wk).
Qed.
Lemma grown_memory : in_memory grown_env.
Proof. exact (am_memory _ _ _ A). Qed.
Lemma grown_same ts' tx dest cmds r2 : run_plan grown_env ts' tx dest cmds r2 = run_plan e ts' tx dest cmds r2.
Proof. reflexivity. Qed.

Context (d : dag).
Hypothesis Op : open_repo (re_hide e) (rr_repo r) = Some d.
Let d1 := with_commit n ps d.
Lemma grown_dag : dag_graph d1 = g1.
Proof. unfold d1, with_commit. rewrite (dag_is e r d R Op). fold g. rewrite decide_False by exact Nn. reflexivity. Qed.
Lemma grown_kept v : kept d1 v <-> kept d v.
Proof. unfold d1, with_commit. destruct (decide _); reflexivity. Qed.
Lemma grown_visible c : c ∈ vertices g -> visible d1 c <-> shown g (rr_repo r) c.
Proof.
  intros Hc. pose proof (shown_is e r d R Op) as Sh. rewrite (dag_is e r d R Op) in Sh || idtac. pose proof (Sh c) as Shc. etransitivity; [|exact Shc]. clear Shc.
  assert (Kn : forall v, kept d v -> v ∈ vertices g).
  { intros v K. apply (shown_known e r R). apply Sh. eexists. split; [exact K|]. constructor. }
  unfold visible. rewrite grown_dag, (dag_is e r d R Op). setoid_rewrite grown_kept. fold g.
  split; intros (v & K & An); exists v; (split; [exact K|]); apply (more_ancestor g n ps W Nn); auto.
Qed.
Lemma grown_new_invisible : ~ proper_ancestor g1 h n.
Proof.
  intros H. apply tc_rtc in H as H'. apply rtc_inv_r in H'. destruct H' as [E|(p & An & P)]; [pose proof sw_h; congruence|].
  apply (more_parent g n ps) in P. destruct P as [P|[_ P]].
  - apply (parent_vertices _ _ _ W) in P. apply Nn, P.
  - assert (Pp : parent g p h) by (now apply (parent_parents_of _ _ _ W)). apply (more_ancestor g n ps W Nn) in An; [|now apply sw_known].
    apply (wf_acyclic _ h W). eapply tc_rtc_l; [exact An|]. now apply tc_once.
Qed.
Lemma grown_above c : visible d1 c /\ proper_ancestor g1 h c <-> above g (rr_repo r) h c.
Proof.
  unfold above. split.
  - intros [V P]. assert (c <> n) by (intros ->; exact (grown_new_invisible P)).
    assert (Hc : c ∈ vertices g).
    { apply tc_rtc in P as P'. apply rtc_inv_r in P'. destruct P' as [<-|(p & _ & Pp)]; [exact sw_h|]. apply (more_parent_old g n ps) in Pp; [|assumption].
      apply (parent_vertices _ _ _ W) in Pp. apply Pp. }
    split; [now apply grown_visible|now apply (more_proper g n ps W Nn sw_known)].
  - intros [V P]. assert (Hc : c ∈ vertices g) by (now apply (shown_known e r R)).
    split; [now apply grown_visible|now apply (more_proper g n ps W Nn sw_known)].
Qed.
Lemma commits_above_spec c : c ∈ commits_above d1 h <-> above g (rr_repo r) h c.
Proof.
  unfold commits_above. pose proof (more_wf g n ps W Nn sw_known) as W1. fold g1 in W1. rewrite <- grown_above, filter_visible_spec by (now rewrite grown_dag).
  rewrite grown_dag, (descendants_spec _ _ _ W1). setoid_rewrite children_spec. split.
  - intros [(k & (h' & Hh & P) & An) V]. apply elem_of_singleton in Hh. subst h'. split; [exact V|]. eapply tc_rtc_r; [apply tc_once; exact P|exact An].
  - intros [V P]. split; [|exact V]. inversion P as [? ? P0|? k ? P0 P1]; subst.
    + exists c. split; [exists h; split; [set_solver|exact P0]|constructor].
    + exists k. split; [exists h; split; [set_solver|exact P0]|now apply tc_rtc].
Qed.
End switch.

(** ** Commits with a replacement are never applied *)
Definition unreplaced (e : plan_env) (x : PlanModel.command) : Prop :=
  match x with Pick o _ | Merge o _ => pe_replace e !! o = None | _ => True end.
Lemma visit_unreplaced e cg fuel r c cm s s' :
  pe_find e c = Some cm -> Forall (unreplaced e) (bs_acc s) -> visit fuel e cg r c cm s = Done s' -> Forall (unreplaced e) (bs_acc s').
Proof.
  intros Hf Hs Hv. cut (Forall (unreplaced e) (bs_acc s') /\ True); [tauto|]. revert Hv.
  apply (visit_steps e cg (fun s => Forall (unreplaced e) (bs_acc s)) (fun _ _ => True) (fun _ => True) r); auto; clear c cm s s' Hf Hs.
  - intros c cm s s' _ Hf Hs H. split; [|exact I]. revert H. unfold apply_commit. destruct (_ && _)%bool.
    { intros [= <-]. cbn. apply Forall_app. split; [exact Hs|]. apply Forall_singleton. exact I. }
    destruct (is_merge cm) eqn:Em.
    { destruct (merge_parents _ _ _) as [ps|] eqn:Eps; [|discriminate].
      destruct (already_applied _ _); [discriminate|]. destruct ps as [|first rest]; [discriminate|].
      destruct (pe_replace e !! c) as [rp|] eqn:Er; intros [= <-]; cbn; (apply Forall_app; split; [exact Hs|]);
        (apply Forall_cons; split; [exact I|]); apply Forall_singleton; cbn; auto. }
    destruct (decide _); [intros [= <-]; exact Hs|]. destruct (pe_replace e !! c) as [rp|] eqn:Er.
    + destruct (pe_find e rp) as [rc|]; [|discriminate]. intros [= <-]. cbn. apply Forall_app; split; [exact Hs|]. apply Forall_singleton. exact I.
    + intros [= <-]. cbn. apply Forall_app; split; [exact Hs|]. apply Forall_cons. split; [exact Er|apply Forall_singleton; exact I].
  - intros c prefix s x _ Hs Ex. destruct (create_label_total prefix s) as (l & Hn & El). rewrite El in Ex. injection Ex as <-.
    cbn. assert (Forall (unreplaced e) (bs_acc s ++ [CreateLabel l])).
    { apply Forall_app. split; [exact Hs|]. apply Forall_singleton. exact I. }
    split_and!; auto. intros s' Hs' _. split; [|exact I]. apply Forall_app. split; [exact Hs'|]. apply Forall_singleton. exact I.
Qed.
Lemma build_unreplaced d e allowed cs dest cmds x : build d e allowed cs = Done (BuiltPlan dest cmds) -> x ∈ cmds -> unreplaced e x.
Proof.
  intros HB Hx. apply build_plan_inv in HB. destruct HB as (cg & s & Ecg & Ec & Ep & Es & -> & _).
  assert (A : Forall (unreplaced e) (bs_acc s ++ [RegisterExtra])).
  { apply Forall_app. split; [|apply Forall_singleton; exact I]. revert Es. unfold build_commands.
    apply (fold_bind_inv (plan_root e cg) (fun s => Forall (unreplaced e) (bs_acc s))); [|constructor].
    intros r s1 s2 Hr H1. unfold plan_root. destruct (root_dest e r) as [p|] eqn:Ed; [|discriminate].
    destruct (pe_find e (root_commit r)) as [cm|] eqn:F; [|discriminate]. intros H.
    eapply (visit_unreplaced e cg); [exact F| |exact H]. cbn. apply Forall_app. split; [exact H1|]. apply Forall_singleton. exact I. }
  rewrite Forall_forall in A. exact (A x Hx).
Qed.
Definition picks_or_merges (x : PlanModel.command) (c : oid) : Prop := match x with Pick o _ | Merge o _ => o = c | _ => False end.
Lemma command_stop_at e x s c st' : exec_command e x s = StopMerge c st' -> exists o, picks_or_merges x o.
Proof.
  destruct x as [l|[o|l]|o l|o ts|o r ts| | |o|o]; cbn [exec_command]; try discriminate; try (intros; exists o; reflexivity).
  - destruct (es_labels s !! l); discriminate.
  - unfold exec_replace. destruct (es_store s !! o), (es_store s !! r); try discriminate.
    destruct (all_some (List.map (place_of (es_labels s)) ts)); [|discriminate].
    destruct (_ || _)%bool; [discriminate|]. destruct (add_object _ _ _); discriminate.
  - destruct (es_store s !! o); discriminate.
Qed.
Lemma commands_stop_at e cmds : forall s c st', exec_commands e cmds s = StopMerge c st' -> exists x o, x ∈ cmds /\ picks_or_merges x o.
Proof.
  induction cmds as [|x cmds IH]; intros s c st'; [discriminate|]. rewrite exec_cons.
  destruct (exec_command e x s) as [s1|c1 st1|st1] eqn:E; cbn [ebind]; [|intros [= <- _]|discriminate].
  - intros H. destruct (IH _ _ _ H) as (y & o & Hy & Hc). exists y, o. split; [now right|exact Hc].
  - destruct (command_stop_at _ _ _ _ _ E) as [o Ho]. exists x, o. split; [left|exact Ho].
Qed.
Lemma rebase_stop_at e st dest cmds c st' : rebase_in_memory e st dest cmds = StopMerge c st' -> exists x o, x ∈ cmds /\ picks_or_merges x o.
Proof.
  unfold rebase_in_memory. destruct (List.find merge_command cmds) as [x|] eqn:F.
  - apply find_some in F. destruct F as [Hx M]. destruct x as [| | |o ts| | | | |]; try discriminate M. intros [= <- _].
    exists (Merge o ts), o. split; [now apply elem_of_list_In|reflexivity].
  - destruct (exec_commands _ _ _) as [s|c1 st1|st1] eqn:E; cbn [ebind]; [discriminate|intros [= <- _]|discriminate]. eapply commands_stop_at, E.
Qed.
Lemma run_stop e ts tx dest cmds r r' c : in_memory e -> run_plan e ts tx dest cmds r = (r', DeclinedToMerge c) ->
  exists st', rebase_in_memory (runner e r) (rr_store r) dest cmds = StopMerge c st'.
Proof.
  intros [Eo Mem] Er. unfold run_plan in Er. destruct (execute_plan _ _ _ _ _ _ _ _ _ _ _) as [rp res0] eqn:Ex. injection Er as <- ->.
  rewrite Eo in Ex. unfold execute_plan in Ex. change (rp_store (start_repo r)) with (rr_store r) in Ex.
  destruct (rebase_in_memory (runner e r) (rr_store r) dest cmds) as [[[st' rw] head]|at_ st'|st'] eqn:Em.
  - destruct (post_rebase _ _ _ _ _ _) as [r1 ok]. destruct ok; discriminate.
  - exists st'. f_equal. destruct Mem as [Hx|Hx]; rewrite Hx in Ex; cbn [negb] in Ex; [now injection Ex as <- <-|].
    destruct (negb (re_resolve e)); now injection Ex as <- <-.
  - discriminate.
Qed.
(** Why a plan without squashing stops. *)
Lemma plan_stop_why e r d pe allowed cs dest cmds ts tx r' c : restackable e r -> in_memory e -> dag_graph d = he_graph (re_hide e) ->
  (forall fs, Permutation (pe_sort pe fs) (elements fs)) -> (forall t f, FixUpCommit t f ∉ cs) ->
  (forall x y, pe_find pe x = Some y -> find_object (rr_store r) x = Some y) ->
  c ∈ vertices (he_graph (re_hide e)) ->
  build d pe allowed cs = Done (BuiltPlan dest cmds) -> run_plan e ts tx dest cmds r = (r', DeclinedToMerge c) ->
  merge_commit (he_graph (re_hide e)) c \/ exists q, ee_pick (re_exec e) c q = Conflict.
Proof.
  intros R Mem G Srt NF Fnd Hc Eb Er. destruct (run_stop e ts tx dest cmds r r' c Mem Er) as [st' Em].
  assert (W : wf_graph (dag_graph d)) by (rewrite G; exact (io_graph _ _ (ra_order _ _ R))).
  assert (single : forall o l, Pick o l ∈ cmds -> l = [o]).
  { intros o l H. destruct (build_shaped d pe allowed _ dest cmds _ W Srt Eb H) as [Nl Il].
    assert (S1 : forall f, f ∈ l <-> f = o).
    { intros f. rewrite Il. split; [|auto]. intros [E|E]; [exact E|]. destruct (NF _ _ E). }
    destruct l as [|a [|b l]].
    - exfalso. assert (X : o ∈ ([] : list oid)) by now apply S1. now apply elem_of_nil in X.
    - f_equal. apply S1. left.
    - exfalso. apply NoDup_cons in Nl. destruct Nl as [Nl _]. apply Nl. rewrite (proj1 (S1 a)) by left. rewrite (proj1 (S1 b)) by (right; left). left. }
  assert (Mc : forall z, rr_store r !! c = Some z -> is_merge (ob_commit z) = true -> merge_commit (he_graph (re_hide e)) c).
  { intros z Hz Mz. destruct (ra_store _ _ R c Hc) as (y & Hy & Py). rewrite Hy in Hz. injection Hz as <-.
    unfold is_merge in Mz. rewrite Py in Mz. apply Nat.ltb_lt in Mz. apply vertices_spec in Hc as [ps E].
    rewrite (parents_of_spec _ _ _ _ (io_graph _ _ (ra_order _ _ R)) E) in Mz. exists ps. auto. }
  destruct (rebase_stop_why _ _ _ _ _ _ (fun o l H => single o l H) Em) as [[ts' Hm']|[(y & Hy & My)|Q]]; [|left|right; exact Q].
  + left. pose proof (build_shaped d pe allowed _ dest cmds _ W Srt Eb Hm') as (cm & Hcm & Mm). apply Fnd in Hcm. unfold find_object in Hcm.
    destruct (rr_store r !! c) as [z|] eqn:Ez; [|discriminate]. injection Hcm as <-. now apply (Mc z).
  + pose proof (rebase_grows (runner e r) (rr_store r) dest cmds) as Gr. rewrite Em in Gr. destruct Gr as [Gr _].
    destruct (ra_store _ _ R c Hc) as (z & Hz & _). rewrite (lookup_weaken _ _ _ _ Hz Gr) in Hy. injection Hy as <-. now apply (Mc z).
Qed.
Lemma becomes_along (goes goes' : oid -> oid -> Prop) rw p q : (forall p c, is_Some (rw !! c) -> goes p c -> goes' p c) ->
  becomes goes rw p q -> becomes goes' rw p q.
Proof.
  intros H. induction 1 as [p E|p q E|p p' q E G B IH]; [now apply becomes_kept|now apply becomes_new|].
  eapply becomes_dropped; [exact E|apply H; [rewrite E; eauto|exact G]|exact IH].
Qed.

(** ** More commits in the store *)
Lemma restackable_more e r st : restackable e r -> rr_store r ⊆ st -> named (re_exec e) st -> restackable e (mk_rrepo st (rr_repo r)).
Proof.
  intros R L N. destruct R. constructor; auto. intros c Hc. destruct (ra_store c Hc) as (x & Hx & E). exists x. split; [|exact E].
  exact (lookup_weaken _ _ _ _ Hx L).
Qed.
Lemma workable_more e r st : workable e r -> rr_store r ⊆ st -> workable e (mk_rrepo st (rr_repo r)).
Proof.
  intros R L. destruct R. constructor; auto. intros c Hc. destruct (wk_read c Hc) as (x & Hx & E). exists x. split; [|exact E].
  exact (lookup_weaken _ _ _ _ Hx L).
Qed.

(** ** The requests made *)
Definition reparented_object (x : object) (ps : list oid) : object :=
  mk_object (mk_commit ps (commit_tree (ob_commit x))) (ob_author x) (ob_committer x) (ob_message x).
Record prepared (e : exec_env) (reparent : bool) (pn : oid -> list oid) (l : list oid) (st st' : store) (replace replace' : gmap oid oid) : Prop := {
  pr_grows : st ⊆ st';
  pr_named : named e st -> named e st';
  pr_old : forall c, c ∉ l -> replace' !! c = replace !! c;
  pr_without : reparent = false -> st' = st /\ replace' = replace;
  pr_with : reparent = true -> faithful_names e -> named e st -> forall c, c ∈ l -> exists o x,
    replace' !! c = Some o /\ st !! c = Some x /\ st' !! o = Some (reparented_object x (pn c)) /\ ee_decodes e (ob_message x) = true }.
Lemma add_object_there e x st n st' : add_object e x st = (n, st') -> faithful_names e -> named e st -> st' !! n = Some x.
Proof.
  unfold add_object. intros [= <- <-] Fn Nd. destruct (st !! ee_hash e x) as [y|] eqn:E; [|apply lookup_insert]. rewrite E. f_equal. apply Fn, (Nd _ _ E).
Qed.
Lemma requests_above_spec e reparent h n (pn : oid -> list oid) l : NoDup l -> forall st replace cs st' replace',
  (forall c x, c ∈ l -> st !! c = Some x -> List.map (on_top h n) (commit_parents (ob_commit x)) = pn c) ->
  (forall c, c ∈ l -> is_Some (st !! c)) ->
  requests_above e reparent h n l st replace = Some (cs, st', replace') ->
  cs = List.map (fun c => MoveSubtree (pn c) c) l /\ prepared e reparent pn l st st' replace replace'.
Proof.
  induction l as [|c l IH]; intros Nd st replace cs st' replace' P Th; cbn [requests_above].
  - intros [= <- <- <-]. split; [reflexivity|]. constructor; auto. intros _ _ _ c H. now apply elem_of_nil in H.
  - apply NoDup_cons in Nd. destruct Nd as [Nc Nd]. destruct (st !! c) as [x|] eqn:Ec; [|discriminate]. rewrite (P c x ltac:(left) Ec).
    destruct reparent.
    + destruct (_ && _)%bool eqn:Ok; [|discriminate]. destruct (add_object _ _ _) as [o st1] eqn:Ao. fold (reparented_object x (pn c)) in Ao.
      destruct (add_object_grows _ _ _ _ _ Ao) as [G1 N1].
      destruct (requests_above _ _ _ _ _ _ _) as [[[cs1 st2] rp2]|] eqn:Er; [|discriminate]. intros [= <- <- <-].
      destruct (IH Nd st1 (<[c := o]> replace) cs1 st2 rp2) as [-> Pr]; [| |exact Er|].
      { intros c' x' Hc Hx'. destruct (Th c' ltac:(now right)) as [y Hy]. pose proof (lookup_weaken _ _ _ _ Hy G1) as Hy'. rewrite Hx' in Hy'. injection Hy' as ->.
        apply (P c' y); [now right|exact Hy]. }
      { intros c' Hc. destruct (Th c' ltac:(now right)) as [y Hy]. exists y. exact (lookup_weaken _ _ _ _ Hy G1). }
      split; [reflexivity|]. destruct Pr as [p1 p2 p3 p4 p5]. constructor.
      * etransitivity; eauto.
      * auto.
      * intros c' Hc. apply not_elem_of_cons in Hc. destruct Hc as [H1 H2]. rewrite p3 by exact H2. now rewrite lookup_insert_ne by congruence.
      * discriminate.
      * intros _ Fn Nm c' Hc. apply elem_of_cons in Hc. destruct Hc as [->|Hc].
        -- exists o, x. rewrite p3 by exact Nc. rewrite lookup_insert. split_and!; auto.
           ++ eapply lookup_weaken; [|exact p1]. eapply add_object_there; eauto.
           ++ apply andb_true_iff in Ok. apply Ok.
        -- destruct (p5 eq_refl Fn (N1 Nm) c' Hc) as (o' & x' & A1 & A2 & A3 & A4). exists o', x'. split_and!; auto.
           destruct (Th c' ltac:(now right)) as [y Hy]. pose proof (lookup_weaken _ _ _ _ Hy G1) as Hy'. rewrite A2 in Hy'. now injection Hy' as ->.
    + destruct (requests_above _ _ _ _ _ _ _) as [[[cs1 st2] rp2]|] eqn:Er; [|discriminate]. intros [= <- <- <-].
      destruct (IH Nd st replace cs1 st2 rp2) as [-> Pr]; [intros; apply P; [now right|assumption]|intros; apply Th; now right|exact Er|].
      split; [reflexivity|]. destruct Pr as [p1 p2 p3 p4 p5]. constructor; auto; [|discriminate].
      intros c' Hc. apply not_elem_of_cons in Hc. apply p3, Hc.
Qed.
Lemma requests_above_works e reparent h n (pn : oid -> list oid) l : forall st replace,
  (forall c, c ∈ l -> exists x, st !! c = Some x /\ ee_decodes e (ob_message x) = true /\
     forall p, p ∈ List.map (on_top h n) (commit_parents (ob_commit x)) -> is_Some (st !! p)) ->
  is_Some (requests_above e reparent h n l st replace).
Proof.
  induction l as [|c l IH]; intros st replace Th; cbn [requests_above]; [eauto|].
  destruct (Th c ltac:(left)) as (x & Hx & Dx & Px). rewrite Hx. destruct reparent.
  - assert (forallb (fun p => bool_decide (is_Some (st !! p))) (List.map (on_top h n) (commit_parents (ob_commit x))) = true) as ->.
    { apply forallb_forall. intros p Hp. apply bool_decide_eq_true, Px. now apply elem_of_list_In. }
    rewrite Dx. cbn [andb]. destruct (add_object _ _ _) as [o st1] eqn:Ao. destruct (add_object_grows _ _ _ _ _ Ao) as [G1 _].
    destruct (IH st1 (<[c := o]> replace)) as [[[cs1 st2] rp2] ->]; [|eauto].
    intros c' Hc. destruct (Th c' ltac:(now right)) as (y & Hy & Dy & Py). exists y. split; [exact (lookup_weaken _ _ _ _ Hy G1)|]. split; [exact Dy|].
    intros p Hp. destruct (Py p Hp) as [z Hz]. exists z. exact (lookup_weaken _ _ _ _ Hz G1).
  - destruct (IH st replace) as [[[cs1 st2] rp2] ->]; [|eauto]. intros c' Hc. apply Th. now right.
Qed.

(** ** All of it *)
Section finish.
Context (s : amend_setting) (r : rrepo) (h n : oid) (x : object) (t : oid) (st : store) (ts : timestamp) (i : Z).
Let e := as_restack s.
Let g := he_graph (re_hide e).
Let log := hr_log (rr_repo r).
Hypothesis A : amendable s r h.
Hypothesis U : unknown e r n.
Hypothesis Hx : rr_store r !! h = Some x.
Hypothesis Ho : add_object (re_exec e) (amended_object s x t) (rr_store r) = (n, st).
Let R := am_order _ _ _ A.
Let W := io_graph _ _ (ra_order _ _ R).
Let Nn : n ∉ vertices g := proj1 (proj2 U).
Context (r1 : rrepo).
Hypothesis SR : sw_result s r h n st r1.
Let e1 := grown_env s h n.
Let ps := parents_of g h.
Let g1 := g ++ [(n, ps)].
Let R1 : restackable e1 r1 := grown_restackable s r h n x t st ts i A U Hx Ho r1 SR.
Let Hh : h ∈ vertices g := sw_h s r h A.

Lemma fi_fresh rw : fresh g log rw -> ~ made rw n -> fresh g1 (hr_log (rr_repo r1)) rw.
Proof.
  intros F N o M. destruct (F o M) as (F1 & F2 & F3). split; [exact F1|]. split.
  - intros H. apply (more_vertices g n ps) in H. destruct H as [H| ->]; auto.
  - destruct (sr_log _ _ _ _ _ _ SR) as (es & -> & T). intros y Hy C. apply elem_of_app in Hy. destruct Hy as [Hy|Hy]; [exact (F3 y Hy C)|].
    destruct (proj1 T y o Hy C) as (ts' & tx' & old & new & E & ->). apply lookup_singleton_Some in E. destruct E as [<- <-].
    destruct C as [C|C]; cbn in C; injection C as <-; [exact (N M)|exact (F2 Hh)].
Qed.

(** The repository [r'] is what comes of [r1] when [rw] happened. *)
Record followed (rw : gmap oid moid) (r' : rrepo) : Prop := {
  fo_store : rr_store r1 ⊆ rr_store r';
  fo_branches : forall b, is_local b = true ->
    hr_refs (rr_repo r') !! b = branch_after (he_branch (re_hide e)) rw (hr_refs (rr_repo r1)) b;
  fo_others : forall b, is_local b = false -> (forall o, b <> "refs/branchless/" +:+ oid_to_string o) ->
    hr_refs (rr_repo r') !! b = hr_refs (rr_repo r1) !! b;
  fo_head : hr_head (rr_repo r') = hr_head (rr_repo r1);
  fo_old : fresh g1 (hr_log (rr_repo r1)) rw -> forall o new, rw !! o = Some new ->
    rewritten (hr_log (rr_repo r')) o new /\ visibility (hr_log (rr_repo r')) o Obsolete;
  fo_new : fresh g1 (hr_log (rr_repo r1)) rw -> forall n, made rw n -> visibility (hr_log (rr_repo r')) n Active;
  fo_rest : fresh g1 (hr_log (rr_repo r1)) rw -> forall o v, rw !! o = None -> ~ made rw o ->
    visibility (hr_log (rr_repo r')) o v <-> visibility (hr_log (rr_repo r1)) o v;
  fo_rest_rewritten : fresh g1 (hr_log (rr_repo r1)) rw -> forall o new, rw !! o = None -> ~ made rw o ->
    rewritten (hr_log (rr_repo r')) o new <-> rewritten (hr_log (rr_repo r1)) o new;
  fo_marked : fresh g1 (hr_log (rr_repo r1)) rw -> forall o, oid_ok o ->
    made rw o \/ hr_refs (rr_repo r1) !! gc_name o = Some o -> hr_refs (rr_repo r') !! gc_name o = Some o }.

Lemma fi_done rw r' : rw !! h = None -> rw !! n = None -> followed rw r' -> amend_done s r h n rw r'.
Proof.
  intros Nh Nr FO. pose proof SR as SR0. destruct SR0 as [S1 S2 S3 S4 S5 (es & S6 & T)].
  assert (Fs : fresh g log {[h := NonZero n]}) by exact (sw_fresh s r h n U).
  assert (Dm : forall c, is_Some (({[h := NonZero n]} : gmap oid moid) !! c) -> c ∈ vertices g) by exact (sw_dom s r h n A).
  assert (Mk : forall o, made (with_amended h n rw) o -> o = n \/ made rw o).
  { intros o [old M]. unfold with_amended in M. destruct (decide (old = h)) as [->|N]; [rewrite lookup_insert in M; left; congruence|].
    rewrite lookup_insert_ne in M by congruence. right. now exists old. }
  assert (Mk' : forall o, made rw o -> made (with_amended h n rw) o).
  { intros o [old M]. exists old. unfold with_amended. rewrite lookup_insert_ne; [exact M|]. intros E. rewrite <- E, Nh in M. discriminate. }
  assert (Mn : made (with_amended h n rw) n) by (exists h; apply lookup_insert).
  constructor.
  - transitivity st; [apply (sw_grow s r h n x t st A Ho)|]. rewrite <- S1. exact (fo_store _ _ FO).
  - exists x, (amended_object s x t). split; [exact Hx|]. split; [|repeat split]. eapply lookup_weaken; [|exact (fo_store _ _ FO)].
    rewrite S1. exact (add_object_there _ _ _ _ _ Ho (ra_faithful _ _ R) (ra_named _ _ R)).
  - intros b L. rewrite (fo_branches _ _ FO b L). unfold branch_after at 1. rewrite (S2 b L), L. unfold branch_after. rewrite L. fold e.
    destruct (hr_refs (rr_repo r) !! b) as [o|]; [|reflexivity]. unfold with_amended. destruct (decide (o = h)) as [->|N].
    + now rewrite lookup_singleton, lookup_insert, Nr.
    + now rewrite lookup_singleton_ne, lookup_insert_ne by congruence.
  - intros b L N. rewrite (fo_others _ _ FO b L N). apply S3; [exact L|apply N].
  - rewrite (fo_head _ _ FO). exact S5.
  - intros F N o M. change ("refs/branchless/" +:+ oid_to_string o) with (gc_name o). pose proof (fi_fresh rw F N) as F1. apply (fo_marked _ _ FO F1).
    + destruct (Mk o M) as [->|M']; [apply U|apply (F o M')].
    + destruct (Mk o M) as [->|M']; auto.
  - intros F N o new E. pose proof (fi_fresh rw F N) as F1. unfold with_amended in E. destruct (decide (o = h)) as [->|No].
    + rewrite lookup_insert in E. injection E as <-. assert (Nm : ~ made rw h) by (intros M; destruct (F h M) as (_ & X & _); exact (X Hh)).
      split.
      * apply (fo_rest_rewritten _ _ FO F1 h); auto. rewrite S6. eapply told_dom; eauto. apply lookup_singleton.
      * apply (fo_rest _ _ FO F1 h); auto. rewrite S6. eapply told_dom_obsolete; eauto. rewrite lookup_singleton. eauto.
    + rewrite lookup_insert_ne in E by congruence. now apply (fo_old _ _ FO F1).
  - intros F N o M. pose proof (fi_fresh rw F N) as F1. destruct (Mk o M) as [->|M']; [|now apply (fo_new _ _ FO F1)].
    apply (fo_rest _ _ FO F1 n); auto. rewrite S6. eapply told_made_active; eauto. exists h. apply lookup_singleton.
  - intros F N o v E M. pose proof (fi_fresh rw F N) as F1. unfold with_amended in E.
    assert (No : o <> h) by (intros ->; rewrite lookup_insert in E; discriminate). rewrite lookup_insert_ne in E by congruence.
    rewrite (fo_rest _ _ FO F1 o v E) by auto. rewrite S6. eapply told_outside_status; eauto. split.
    + rewrite lookup_singleton_ne by congruence. reflexivity.
    + intros [old M']. apply lookup_singleton_Some in M'. destruct M' as [<- [= <-]]. exact (M Mn).
Qed.

Lemma fi_alone r' : left_alone r1 r' -> followed ∅ r'.
Proof.
  intros [L1 L2 L3 L4 L5]. assert (NM : forall o, ~ made (∅ : gmap oid moid) o) by (intros o [old H]; rewrite lookup_empty in H; discriminate). constructor; auto.
  - intros b L. rewrite L2. unfold branch_after. destruct (_ !! b); [|reflexivity]. rewrite lookup_empty. now destruct (is_local b).
  - intros b L N. now rewrite L2.
  - intros _ o new H. rewrite lookup_empty in H. discriminate.
  - intros _ o M. destruct (NM o M).
  - intros _ o _ [M|H]; [destruct (NM o M)|]. now rewrite L2.
Qed.
Lemma alone_self st2 : rr_store r1 ⊆ st2 -> left_alone r1 (mk_rrepo st2 (rr_repo r1)).
Proof. intros H. constructor; auto; reflexivity. Qed.
Lemma alone_store st2 r' : rr_store r1 ⊆ st2 -> left_alone (mk_rrepo st2 (rr_repo r1)) r' -> left_alone r1 r'.
Proof. intros H [L1 L2 L3 L4 L5]. constructor; auto. now transitivity st2. Qed.
Lemma fi_ran d1 pe cs rw st2 r' : rr_store r1 ⊆ st2 -> rw !! n = None -> ran e1 (mk_rrepo st2 (rr_repo r1)) d1 pe cs rw r' -> followed rw r'.
Proof.
  intros H Nr RN. destruct RN as [q1 q2 q3 q4 q5 q6 q7 q8 q9 q10 q11 q12 q13]. cbn [rr_store rr_repo] in *. constructor; auto.
  - now transitivity st2.
  - pose proof SR as SR0. destruct SR0 as [S1 S2 S3 S4 S5 S6]. specialize (q7 n). rewrite S5 in q7. specialize (q7 eq_refl Nr).
    assert (Br : hi_branch (hr_head (rr_repo r')) = hi_branch (hr_head (rr_repo r1))).
    { destruct (hi_branch (hr_head (rr_repo r1))) as [b|] eqn:Hb.
      - apply q8. split; [congruence|]. rewrite q3 by exact (ra_local _ _ R1 b Hb). unfold branch_after.
        rewrite (io_branch _ _ (ra_order _ _ R1) b Hb), S5. cbn [hi_oid]. rewrite (ra_local _ _ R1 b Hb), Nr. eauto.
      - destruct (hi_branch (hr_head (rr_repo r'))) as [b|] eqn:Hb'; [|reflexivity]. destruct (proj1 (q8 b)) as [E _]; congruence. }
    rewrite S5 in Br |- *. cbn [hi_branch] in Br. destruct (hr_head (rr_repo r')) as [o b]. cbn in *. congruence.
Qed.

(** The plan. *)
Context (d : dag) (reparent : bool).
Hypothesis Op : open_repo (re_hide e) (rr_repo r) = Some d.
Hypothesis Vf : verify_rewrite_set d (re_force e) (filter_visible d (descendants (dag_graph d) {[h]})) <> None.
Let d1 := with_commit n ps d.
Let l := re_order e (commits_above d1 h).
Let W1 : wf_graph g1 := more_wf g n ps W Nn (sw_known s r h A).
Let G1 : dag_graph d1 = g1 := grown_dag s r h n A U d Op.
Let pn (c : oid) := List.map (on_top h n) (parents_of (dag_graph d1) c).

Lemma fi_list c : c ∈ l <-> above g (rr_repo r) h c.
Proof.
  unfold l. rewrite (ra_sets e r R), elem_of_elements. apply (commits_above_spec s r h n x t st A U Hx Ho r1 SR d Op).
Qed.
Lemma fi_lv c : c ∈ l <-> visible d1 c /\ proper_ancestor (dag_graph d1) h c.
Proof. rewrite G1, fi_list. symmetry. apply (grown_above s r h n A U d Op). Qed.
Lemma fi_nodup : NoDup l.
Proof. unfold l. rewrite (ra_sets e r R). apply NoDup_elements. Qed.
Lemma fi_vertex c : c ∈ l -> c ∈ vertices g.
Proof. intros H. apply fi_list in H. destruct H as [H _]. now apply (shown_known e r R). Qed.
Lemma fi_n : n ∉ l.
Proof. intros H. exact (Nn (fi_vertex n H)). Qed.
Lemma fi_hl : h ∉ l.
Proof. intros H. apply fi_list in H. exact (wf_acyclic _ _ W (proj2 H)). Qed.
Lemma fi_parents c : c ∈ l -> parents_of (dag_graph d1) c = parents_of g c.
Proof. intros H. rewrite G1. apply (more_parents g n ps). intros ->. exact (fi_n H). Qed.
Lemma fi_verify : exists allowed, verify_rewrite_set d1 (re_force e) (commits_above d1 h) = Some allowed /\ forall c, c ∈ l -> c ∈ allowed.
Proof.
  destruct (verify_rewrite_set d1 (re_force e) (commits_above d1 h)) as [allowed|] eqn:E.
  - exists allowed. split; [reflexivity|]. intros c Hc. apply verify_rewrite_set_spec in E; [|now rewrite G1]. apply (proj1 E).
    exists c. split; [|constructor]. unfold l in Hc. rewrite (ra_sets e r R), elem_of_elements in Hc. exact Hc.
  - exfalso. apply Vf. apply verify_rewrite_set_none in E; [|now rewrite G1]. destruct E as [Ef (a & c & Ha & An & (m & Hm & Am))].
    apply verify_rewrite_set_none; [rewrite (dag_is e r d R Op); exact W|]. split; [exact Ef|].
    assert (Hm' : m ∈ main_branch_commit d) by (revert Hm; unfold d1, with_commit; destruct (decide _); auto).
    assert (Ha' : above g (rr_repo r) h a) by (now apply (commits_above_spec s r h n x t st A U Hx Ho r1 SR d Op)).
    assert (Vm : m ∈ vertices g).
    { pose proof Op as Op'. revert Hm' Op'. unfold open_repo. destruct (hr_refs (rr_repo r) !! he_main (re_hide e)) as [m0|] eqn:Em; [|discriminate].
      intros Hm' [= <-]. cbn in Hm'. apply elem_of_singleton in Hm'. subst m0. exact (io_known _ _ (ra_order _ _ R) _ _ Em). }
    rewrite G1 in An, Am.
    assert (Ac : ancestor g a m). { apply (more_ancestor g n ps W Nn); [exact Vm|]. etransitivity; eauto. }
    exists h, m. split.
    + apply filter_visible_spec; [rewrite (dag_is e r d R Op); exact W|]. split.
      * apply descendants_spec; [rewrite (dag_is e r d R Op); exact W|]. exists h. split; [set_solver|constructor].
      * apply (shown_is e r d R Op). exists h. split; [constructor|]. right. left. apply (am_head _ _ _ A).
    + rewrite (dag_is e r d R Op). split; [|exists m; split; [exact Hm'|constructor]]. etransitivity; [apply tc_rtc, Ha'|exact Ac].
Qed.
Lemma fi_read c : c ∈ l -> exists y, rr_store r1 !! c = Some y /\ rr_store r !! c = Some y /\ commit_parents (ob_commit y) = parents_of g c.
Proof.
  intros H. destruct (ra_store _ _ R c (fi_vertex c H)) as (y & Hy & E). exists y. split; [|split; auto].
  rewrite (sr_store _ _ _ _ _ _ SR). apply (lookup_weaken _ _ _ _ Hy), (sw_grow s r h n x t st A Ho).
Qed.
Lemma fi_goes p c : c ∈ l -> goes_above (dag_graph d1) h n p c <-> goes_above g h n p c.
Proof.
  intros H. assert (N : c <> n) by (intros ->; exact (fi_n H)). pose proof (fun q => more_parent_old g n ps q c N) as M. unfold goes_above. rewrite G1. unfold g1. rewrite (M h), (M p). reflexivity.
Qed.
Lemma fi_put c : c ∈ l -> pn c = put_on g h n c.
Proof. intros H. unfold pn. rewrite (fi_parents c H). reflexivity. Qed.
Lemma fi_merge c : c ∈ l -> merge_commit (dag_graph d1) c <-> merge_commit g c.
Proof. intros H. rewrite G1. apply (more_merge g n ps Nn). now apply fi_vertex. Qed.

Lemma fi_spec : match restack_above s ts (TxId i) reparent d1 h n r1 with mk_ar r' new rwo en =>
  new = Some n /\
  match en with
  | Amended => exists rw, rw = default ∅ rwo /\ rr_store r' !! n = Some (amended_object s x t) /\ amend_done s r h n rw r' /\
      (if reparent then reparented_above e r h n rw (rr_store r') else restacked_above e r h n rw (rr_store r'))
  | AmendedAlone c => rwo = None /\ rr_store r' !! n = Some (amended_object s x t) /\ amend_done s r h n ∅ r' /\
      (workable e r -> reparent = false /\ above g (rr_repo r) h c /\
         (merge_commit g c \/ exists q, ee_pick (re_exec e) c q = Conflict))
  | AmendFails | RestackFails => ~ workable e r
  | _ => False
  end end.
Proof.
  unfold restack_above. fold e. destruct fi_verify as (allowed & -> & Al). fold l.
  assert (Emp : (∅ : gmap oid moid) !! h = None /\ (∅ : gmap oid moid) !! n = None) by (rewrite !lookup_empty; auto).
  destruct (requests_above (re_exec e) reparent h n l (rr_store r1) ∅) as [[[cs st2] replace]|] eqn:Er.
  2: { split; [reflexivity|]. intros Wk. destruct (requests_above_works (re_exec e) reparent h n pn l (rr_store r1) ∅) as [y Hy]; [|rewrite Er in Hy; discriminate].
       pose proof (grown_workable s r h n x t st ts i A U Hx Ho r1 SR Wk) as Wk1.
       intros c Hc. destruct (fi_read c Hc) as (y & Hy & Hy' & Ey). exists y. split; [exact Hy|].
       destruct (wk_read _ _ Wk c (fi_vertex c Hc)) as (z & Hz & Dz). rewrite Hy' in Hz. injection Hz as <-. split; [exact Dz|].
       intros p Hp. rewrite Ey in Hp. apply elem_of_list_In, in_map_iff in Hp. destruct Hp as (q & Eq & Hq). unfold on_top in Eq.
       assert (Hp : p ∈ vertices g1).
       { apply (more_vertices g n ps). destruct (decide (q = h)); [right; congruence|left]. subst q.
         apply elem_of_list_In in Hq. apply (parent_parents_of _ _ _ W) in Hq. now apply (parent_vertices _ _ _ W) in Hq. }
       destruct (wk_read _ _ Wk1 p Hp) as (z & Hz & _). eauto. }
  destruct (requests_above_spec (re_exec e) reparent h n pn l fi_nodup (rr_store r1) ∅ cs st2 replace) as [-> Pr]; [| |exact Er|].
  { intros c y Hc Hy. destruct (fi_read c Hc) as (z & Hz & _ & Ez). rewrite Hy in Hz. injection Hz as <-. rewrite Ez. unfold pn. now rewrite (fi_parents c Hc). }
  { intros c Hc. destruct (fi_read c Hc) as (z & Hz & _). eauto. }
  set (r2 := mk_rrepo st2 (rr_repo r1)). set (pe := mk_pe (find_object st2) replace (re_upstream e) (re_sort e)).
  set (cs := List.map (fun c => MoveSubtree (pn c) c) l).
  destruct Pr as [P1 P2 P3 P4 P5].
  assert (Sn : rr_store r1 !! n = Some (amended_object s x t)) by (rewrite (sr_store _ _ _ _ _ _ SR); exact (add_object_there _ _ _ _ _ Ho (ra_faithful _ _ R) (ra_named _ _ R))).
  assert (Fn : faithful_names (re_exec e)) by exact (ra_faithful _ _ R).
  assert (Nm1 : named (re_exec e) (rr_store r1)) by exact (ra_named _ _ R1).
  assert (R2 : restackable e1 r2) by (apply restackable_more; [exact R1|exact P1|exact (P2 Nm1)]).
  assert (Wd : wf_graph (dag_graph d1)) by (rewrite G1; exact W1).
  assert (Kn : knows d1 pe).
  { intros c Hc. rewrite G1 in Hc. destruct (ra_store _ _ R2 c Hc) as (y & Hy & E). exists (ob_commit y). cbn. unfold find_object. cbn [r2 rr_store] in Hy. rewrite Hy.
    split; [reflexivity|]. rewrite G1. exact E. }
  assert (Rp : forall c y, replace !! c = Some y -> reparent = true /\ c ∈ l).
  { intros c y Hc. destruct reparent; [|destruct (P4 eq_refl) as [_ ->]; rewrite lookup_empty in Hc; discriminate]. split; [reflexivity|].
    destruct (decide (c ∈ l)) as [Hl|Hl]; [exact Hl|]. rewrite (P3 c Hl), lookup_empty in Hc. discriminate. }
  assert (Rx : forall c y, replace !! c = Some y -> exists z, rr_store r1 !! c = Some z /\ st2 !! y = Some (reparented_object z (pn c)) /\
     ee_decodes (re_exec e) (ob_message z) = true).
  { intros c y Hc. destruct (Rp c y Hc) as [Hr Hl]. destruct (P5 Hr Fn Nm1 c Hl) as (o & z & E1 & E2 & E3 & E4). rewrite Hc in E1. injection E1 as <-. eauto. }
  assert (Rf : forall c y, pe_replace pe !! c = Some y -> exists rc, pe_find pe y = Some rc).
  { cbn. intros c y Hc. destruct (Rx c y Hc) as (z & _ & E & _). unfold find_object. rewrite E. eauto. }
  assert (Fit : replacements_fit d1 pe cs).
  { apply (rq_fit d1 h n l Wd fi_nodup fi_lv fi_n). cbn. intros c y rc _ Hc. destruct (Rx c y Hc) as (z & _ & E & _). unfold find_object. rewrite E. now intros [= <-]. }
  pose proof (rq_plannable d1 h n l Wd fi_nodup fi_lv fi_n pe Rf) as Pl.
  pose proof (rq_clear d1 h n l) as Cl.
  assert (Kf : forall f, fixed_up cs f -> f ∈ vertices (he_graph (re_hide e1))) by (intros f Hf; destruct (rq_fixed d1 h n l f Hf)).
  destruct (rq_build d1 h n l Wd fi_nodup fi_lv fi_n pe allowed Kn Rf Al) as [[El Eb]|(dest & cmds & Eb)].
  { change (build d1 pe allowed cs = Done BuiltNothing) in Eb. rewrite Eb. split; [reflexivity|]. exists ∅. split; [reflexivity|].
    assert (Wh : forall c, is_Some ((∅ : gmap oid moid) !! c) <-> above g (rr_repo r) h c).
    { intros c. rewrite lookup_empty, <- fi_list, El, elem_of_nil. split; [intros [? X]; discriminate|intros []]. }
    split; [exact (lookup_weaken _ _ _ _ Sn P1)|].
    split; [apply fi_done; [apply Emp..|]; apply fi_alone, alone_self, P1|].
    destruct reparent; constructor; auto; intros c; rewrite lookup_empty; discriminate. }
  change (build d1 pe allowed cs = Done (BuiltPlan dest cmds)) in Eb. rewrite Eb. fold r2. destruct (run_plan e ts (TxId i) dest cmds r2) as [r' res] eqn:Ern.
  assert (Ern1 : run_plan e1 ts (TxId i) dest cmds r2 = (r', res)) by exact Ern.
  pose proof (plan_ran_with e1 r2 d1 pe cs R2 (grown_memory s r h n A) G1 Kn (ra_sort _ _ R2) Pl Cl Fit Kf ts i allowed dest cmds r' res Eb Ern1) as Ran.
  assert (Go : workable e r -> match res with
    | Succeeded _ => True
    | DeclinedToMerge c => reparent = false /\ above g (rr_repo r) h c /\ (merge_commit g c \/ exists q, ee_pick (re_exec e) c q = Conflict)
    | _ => False end).
  { intros Wk. pose proof (grown_workable s r h n x t st ts i A U Hx Ho r1 SR Wk) as Wk1.
    assert (Th : forall p, p ∈ vertices g1 -> there st2 p).
    { intros p Hp. destruct (wk_read _ _ Wk1 p Hp) as (z & Hz & _). exists z. exact (lookup_weaken _ _ _ _ Hz P1). }
    assert (Tn : forall p c, c ∈ l -> p ∈ pn c -> there st2 p).
    { intros p c Hc Hp. apply Th. apply (rq_pn d1 h n l Wd fi_n) in Hp. apply fi_goes in Hp; [|exact Hc]. apply (more_vertices g n ps).
      destruct Hp as [[_ ->]|[_ Hp]]; [now right|left]. now apply (parent_vertices _ _ _ W) in Hp. }
    pose proof (plan_runs_with e1 r2 d1 pe cs R2 (grown_memory s r h n A) G1 Kn (ra_sort _ _ R2) Pl Cl Fit Kf ts i allowed dest cmds r' res
      (workable_more _ _ _ Wk1 P1)) as Run.
    assert (Run' := Run). specialize (Run' ltac:(
      intros p c Np; apply (rq_new_parent d1 h n l Wd fi_nodup fi_lv fi_n) in Np; destruct Np as [Hc Hp]; apply (Tn p c Hc);
      apply (rq_pn d1 h n l Wd fi_n), Hp) ltac:(intros c y H; exact H)).
    assert (Rr : forall c y, pe_replace pe !! c = Some y -> readable (re_exec e1) (rr_store r2) y /\
      forall rc p, pe_find pe y = Some rc -> p ∈ commit_parents rc -> there (rr_store r2) p).
    { cbn [pe pe_replace]. intros c y Hc. destruct (Rp c y Hc) as [_ Hl]. destruct (Rx c y Hc) as (z & _ & E & D). split; [exists (reparented_object z (pn c)); split; [exact E|exact D]|].
      cbn [pe pe_find r2 rr_store]. unfold find_object. rewrite E. intros rc p [= <-] Hp. exact (Tn p c Hl Hp). }
    specialize (Run' Rr Eb Ern1). clear Run. destruct res as [rwo|c| |]; auto. destruct Run' as [In Why].
    assert (Hl : c ∈ l) by (destruct In as [H|H]; [now apply (rq_rebuilt d1 h n l Wd fi_nodup fi_lv fi_n)|destruct (rq_fixed d1 h n l c H)]).
    assert (Hr : reparent = false).
    { destruct reparent; [exfalso|reflexivity]. destruct (run_stop e1 _ _ _ _ _ _ _ (grown_memory s r h n A) Ern1) as [st3 Em].
      destruct (rebase_stop_at _ _ _ _ _ _ Em) as (y & o & Hy & Ho'). pose proof (build_unreplaced _ _ _ _ _ _ _ Eb Hy) as Un.
      assert (Ao : exists y c', y ∈ cmds /\ c' ∈ applies y /\ picks_or_merges y c').
      { exists y, o. split; [exact Hy|]. split; [|exact Ho']. pose proof (build_shaped d1 pe allowed cs dest cmds y Wd (ra_sort _ _ R2) Eb Hy) as Sh.
        destruct y; cbn in Ho'; try contradiction; subst; cbn; [apply Sh; now left|left]. }
      destruct Ao as (y' & c' & Hy' & Hc' & Ho2). pose proof (build_unreplaced _ _ _ _ _ _ _ Eb Hy') as Un'.
      destruct (build_applies d1 pe allowed cs dest cmds y' c' Wd Pl (ra_sort _ _ R2) Eb Hy' Hc') as [H|H]; [|destruct (rq_fixed d1 h n l c' H)].
      apply (rq_rebuilt d1 h n l Wd fi_nodup fi_lv fi_n) in H. destruct (P5 eq_refl Fn Nm1 c' H) as (o' & z & E1 & _).
      destruct y'; cbn in Ho2; try contradiction; subst; cbn in Un'; congruence. }
    split; [exact Hr|]. split; [now apply fi_list|].
    destruct (plan_stop_why e1 r2 d1 pe allowed cs dest cmds ts (TxId i) r' c R2 (grown_memory s r h n A) G1 (ra_sort _ _ R2) (rq_no_fixup d1 h n l)
      ltac:(intros y z H; exact H) ltac:(apply (more_vertices g n ps); left; now apply fi_vertex) Eb Ern1) as [Mg|Cf]; [left|right; exact Cf].
    apply (fi_merge c Hl). rewrite G1. exact Mg. }
  destruct res as [rwo|c| |]; [|split; [reflexivity|]..].
  - destruct Ran as (rw & -> & RN). split; [reflexivity|]. exists rw. split; [reflexivity|].
    destruct (rn_out _ _ _ _ _ _ _ RN) as [head CO].
    pose proof (rq_rw d1 h n l Wd fi_nodup fi_lv fi_n _ _ _ _ _ _ CO) as Rw.
    assert (Nr : rw !! n = None) by (destruct (rw !! n) eqn:E; [|reflexivity]; exfalso; apply fi_n, Rw; rewrite E; eauto).
    assert (Nh : rw !! h = None) by (destruct (rw !! h) eqn:E; [|reflexivity]; exfalso; apply fi_hl, Rw; rewrite E; eauto).
    pose proof (fi_done rw r' Nh Nr (fi_ran _ _ _ _ _ _ P1 Nr RN)) as AD.
    split; [exact (lookup_weaken _ _ _ _ (lookup_weaken _ _ _ _ Sn P1) (rn_store _ _ _ _ _ _ _ RN))|]. split; [exact AD|].
    assert (Bc : forall p q, becomes (goes_above (dag_graph d1) h n) rw p q -> becomes (goes_above g h n) rw p q).
    { intros p q. apply becomes_along. intros p' c' H. apply fi_goes. now apply Rw. }
    assert (St : forall c y, c ∈ l -> rr_store r' !! c = Some y -> rr_store r !! c = Some y).
    { intros c y Hc Hy. destruct (fi_read c Hc) as (z & _ & Hz & _). rewrite (lookup_weaken _ _ _ _ Hz (ad_store _ _ _ _ _ _ AD)) in Hy. congruence. }
    assert (Wh : forall c, is_Some (rw !! c) <-> above g (rr_repo r) h c) by (intros c; rewrite Rw; apply fi_list).
    destruct reparent.
    + constructor; [exact Wh| |].
      * intros c y Hc NM. assert (Hl : c ∈ l) by (apply Rw; eauto). destruct (P5 eq_refl Fn Nm1 c Hl) as (o & z & E1 & E2 & E3 & E4).
        destruct (rq_replaced d1 h n l Wd fi_nodup fi_lv fi_n _ _ _ _ _ _ CO c y o E1 Hc) as (orig & qs0 & qs & So & Sy & F2 & Mg & NMg).
        pose proof (lookup_weaken _ _ _ _ E3 (rn_store _ _ _ _ _ _ _ RN)) as So'. rewrite So in So'. injection So' as ->.
        destruct (fi_read c Hl) as (z' & Hz' & Hz & _). rewrite E2 in Hz'. injection Hz' as <-. exists z, qs. split; [exact Hz|]. split; [exact Sy|].
        assert (qs0 = put_on g h n c) as ->.
        { destruct (decide (Nat.lt 1 (length (parents_of g c)))) as [Lt|Ge].
          - assert (Mc : merge_commit g c).
            { pose proof (fi_vertex c Hl) as V. apply vertices_spec in V. destruct V as [ps' V]. exists ps'. split; [exact V|]. now rewrite <- (parents_of_spec _ _ _ _ W V). }
            rewrite (Mg (proj2 (fi_merge c Hl) Mc)), (fi_parents c Hl). unfold put_on. rewrite <- (List.map_id (parents_of g c)) at 1. apply List.map_ext_in. intros p Hp.
            destruct (decide (p = h)) as [->|]; [|reflexivity]. exfalso. apply NM. split; [exact Mc|]. apply (parent_parents_of _ _ _ W). now apply elem_of_list_In.
          - rewrite NMg; [exact (fi_put c Hl)|]. intros M. apply (fi_merge c Hl) in M. destruct M as (ps' & V & L). pose proof (parents_of_spec _ _ _ _ W V) as Ep. fold e in Ep. fold g in Ep. rewrite Ep in Ge. contradiction. }
        eapply Forall2_impl; [exact F2|exact Bc].
      * intros c Hc. assert (Hl : c ∈ l) by (apply Rw; eauto). destruct (P5 eq_refl Fn Nm1 c Hl) as (o & z & E1 & _).
        destruct (rq_dropped d1 h n l Wd fi_nodup fi_lv fi_n _ _ _ _ _ _ CO c Hc) as (p & q & _ & _ & [Up|[X _]]); [exact Up|]. cbn in X. congruence.
    + destruct (P4 eq_refl) as [_ Er0]. constructor; [exact Wh| |].
      * intros c y Hc. assert (Hl : c ∈ l) by (apply Rw; eauto).
        destruct (rq_made d1 h n l Wd fi_nodup fi_lv fi_n _ _ _ _ _ _ CO c y Er0 Hc) as (p & q & orig & tree & B1 & B2 & B3 & B4 & B5).
        exists p, q, orig, tree. split; [now apply fi_goes|]. split; [now apply Bc|]. split; [now apply St|]. split; [exact B4|exact B5].
      * intros c Hc. assert (Hl : c ∈ l) by (apply Rw; eauto).
        destruct (rq_dropped d1 h n l Wd fi_nodup fi_lv fi_n _ _ _ _ _ _ CO c Hc) as (p & q & B1 & B2 & B3). exists p, q. split; [now apply fi_goes|]. split; [now apply Bc|].
        destruct B3 as [B3|[_ B3]]; [left; exact B3|right; exact B3].
  - split; [reflexivity|]. split; [exact (lookup_weaken _ _ _ _ (lookup_weaken _ _ _ _ Sn P1) (la_store _ _ Ran))|]. split; [|exact Go]. apply fi_done; [apply Emp..|]. apply fi_alone, (alone_store st2); [exact P1|exact Ran].
  - exact Go.
  - exact Go.
Qed.
End finish.

(** ** The command *)
Definition went (s : amend_setting) (r : rrepo) (h : oid) (reparent : bool) (n : oid) (x : object) (t : oid) (res : amend_result) : Prop :=
  match ar_end res with
  | Amended => exists rw, rw = default ∅ (ar_rewritten res) /\ rr_store (ar_repo res) !! n = Some (amended_object s x t) /\
    amend_done s r h n rw (ar_repo res) /\
    (if reparent then reparented_above (as_restack s) r h n rw (rr_store (ar_repo res)) else restacked_above (as_restack s) r h n rw (rr_store (ar_repo res)))
  | AmendedAlone c => ar_rewritten res = None /\ rr_store (ar_repo res) !! n = Some (amended_object s x t) /\
    amend_done s r h n ∅ (ar_repo res) /\
    (workable (as_restack s) r -> reparent = false /\ above (he_graph (re_hide (as_restack s))) (rr_repo r) h c /\
      (merge_commit (he_graph (re_hide (as_restack s))) c \/ exists q, ee_pick (re_exec (as_restack s)) c q = Conflict))
  | AmendFails | RestackFails => ~ workable (as_restack s) r
  | _ => False
  end.
Section command.
Context (s : amend_setting) (r : rrepo) (h : oid) (ts : timestamp) (i : Z) (reparent : bool).
Let e := as_restack s.
Let g := he_graph (re_hide e).
Hypothesis A : amendable s r h.
Let R := am_order _ _ _ A.
Let W := io_graph _ _ (ra_order _ _ R).

Lemma staged_spec l : staged_entries l = [] <-> ~ some_staged l.
Proof.
  unfold staged_entries, some_staged. split.
  - intros E (x & Hx & C). apply elem_of_list_In in Hx. assert (X : In x (List.filter (fun x => is_changed (sn_index x)) l)) by (now apply filter_In).
    rewrite E in X. destruct X.
  - intros N. destruct (List.filter _ l) as [|x q] eqn:E; [reflexivity|]. exfalso. apply N. exists x.
    assert (X : In x (List.filter (fun x => is_changed (sn_index x)) l)) by (rewrite E; left; reflexivity). apply filter_In in X. destruct X as [X C].
    split; [now apply elem_of_list_In|exact C].
Qed.
Lemma paths_spec x p : p ∈ sn_paths x <-> p = sn_path x \/ sn_orig x = Some p.
Proof. unfold sn_paths. destruct (sn_orig x) as [q|]; rewrite !elem_of_cons, ?elem_of_nil; split; intros H; naive_solver. Qed.
Lemma changes_spec l : takes l (changes_of l) /\ (no_changes (changes_of l) = true <-> ~ some_staged l /\ ~ some_changed l).
Proof.
  unfold changes_of. destruct (staged_entries l) as [|x q] eqn:E.
  - assert (NS : ~ some_staged l) by (now apply staged_spec).
    assert (In' : forall x, x ∈ unstaged_entries l <-> x ∈ l /\ is_changed (sn_wc x) = true).
    { intros y. unfold unstaged_entries. rewrite !elem_of_list_In, filter_In. reflexivity. }
    split.
    + split; [exact NS|]. intros y. rewrite elem_of_list_In, in_map_iff. split.
      * intros (z & <- & Hz). apply elem_of_list_In, In' in Hz. exists z. naive_solver.
      * intros (z & Hz & C & ->). exists z. split; [reflexivity|]. apply elem_of_list_In, In'. auto.
    + destruct (unstaged_entries l) as [|y q] eqn:E'; cbn.
      * split; [|reflexivity]. intros _. split; [exact NS|]. intros (y & Hy & C). apply (elem_of_nil y), In'. auto.
      * split; [discriminate|]. intros [_ N]. exfalso. apply N. exists y. apply In'. left.
  - assert (SS : some_staged l).
    { destruct (decide (staged_entries l = [])) as [X|X]; [congruence|]. unfold staged_entries in E. exists x.
      assert (Y : In x (List.filter (fun x => is_changed (sn_index x)) l)) by (rewrite E; left; reflexivity). apply filter_In in Y. destruct Y as [Y C].
      split; [now apply elem_of_list_In|exact C]. }
    rewrite <- E. split.
    + split; [exact SS|]. intros p. rewrite elem_of_list_In, in_flat_map. split.
      * intros (y & Hy & Hp). apply filter_In in Hy. destruct Hy as [Hy C]. exists y. split; [now apply elem_of_list_In|]. split; [exact C|].
        now apply paths_spec, elem_of_list_In.
      * intros (y & Hy & C & Hp). exists y. split; [apply filter_In; split; [now apply elem_of_list_In|exact C]|]. now apply elem_of_list_In, paths_spec.
    + split; [|intros [N _]; contradiction]. rewrite E. cbn [flat_map]. unfold sn_paths. destruct (sn_orig x); discriminate.
Qed.
Lemma verify_spec d : open_repo (re_hide e) (rr_repo r) = Some d ->
  verify_rewrite_set d (re_force e) (filter_visible d (descendants (dag_graph d) {[h]})) = None <-> re_force e = false /\ is_public e r h.
Proof.
  intros Op. pose proof (dag_is e r d R Op) as G. assert (Wd : wf_graph (dag_graph d)) by (rewrite G; exact W).
  destruct (io_exists _ _ (ra_order _ _ R)) as [m Hm]. destruct (unmerged_draft e r d m (ra_order _ _ R) Op Hm) as [Pu _].
  rewrite verify_rewrite_set_none by exact Wd. unfold is_public. split; intros [F H]; (split; [exact F|]).
  - destruct H as (a & c & Ha & An & P). apply filter_visible_spec in Ha; [|exact Wd]. destruct Ha as [Ha _]. apply descendants_spec in Ha; [|exact Wd].
    destruct Ha as (h' & Hh & Ah). apply elem_of_singleton in Hh. subst h'. exists m. split; [exact Hm|]. apply Pu in P. rewrite G in Ah, An.
    etransitivity; [exact Ah|]. etransitivity; [exact An|exact P].
  - destruct H as (m' & Hm' & Am). fold e in Hm. rewrite Hm in Hm'. injection Hm' as <-. exists h, h. split; [|split; [constructor|now apply Pu]].
    apply filter_visible_spec; [exact Wd|]. split.
    + apply descendants_spec; [exact Wd|]. exists h. split; [now apply elem_of_singleton|constructor].
    + apply (shown_is e r d R Op). exists h. split; [constructor|]. right. left. apply (am_head _ _ _ A).
Qed.

Lemma amend_ends : let res := amend s ts (TxId i) reparent r in
  match ar_end res with
  | NoCommit => False
  | Unresolved => as_unmerged s = true /\ ar_repo res = r /\ ar_new res = None
  | RewritesPublic => as_unmerged s = false /\ (re_force e = false /\ is_public e r h) /\ ar_repo res = r /\ ar_new res = None
  | NothingToAmend => as_unmerged s = false /\ ~ (re_force e = false /\ is_public e r h) /\ (~ some_staged (as_status s) /\ ~ some_changed (as_status s)) /\
      ar_repo res = noted s ts i h r /\ ar_new res = None
  | _ => as_unmerged s = false /\ ~ (re_force e = false /\ is_public e r h) /\ ~ (~ some_staged (as_status s) /\ ~ some_changed (as_status s)) /\
      (ar_new res = None -> ar_end res = AmendFails /\ ar_repo res = noted s ts i h r) /\
      forall n, ar_new res = Some n -> unknown e r n ->
        exists x tc f t ts', rr_store r !! h = Some x /\ with_trees (rr_store r) x = Some tc /\ takes (as_status s) f /\
          amend_fast (as_trees s) (as_merger s) (as_files s) (as_store s) tc f = Picked t ts' /\
        went s r h reparent n x t res
  end.
Proof.
  unfold amend. fold e. destruct (open_repo_spec (re_hide e) (rr_repo r) (ra_order _ _ R)) as (d & Op & _). rewrite Op, (am_head _ _ _ A).
  destruct (ra_store _ _ R h (sw_h s r h A)) as (x & Hx & Px). rewrite Hx. destruct (as_unmerged s); [cbn; auto|].
  pose proof (verify_spec d Op) as Vs. destruct (verify_rewrite_set _ _ _) as [al|] eqn:Vf.
  2: { cbn. split; [reflexivity|]. split; [now apply Vs|auto]. }
  assert (Np : ~ (re_force e = false /\ is_public e r h)) by (intros X; apply Vs in X; discriminate). clear Vs.
  destruct (changes_spec (as_status s)) as [Tk Nc]. destruct (no_changes (changes_of (as_status s))) eqn:En.
  { cbn. split; [reflexivity|]. split; [exact Np|]. split; [now apply Nc|]. split; [|reflexivity]. reflexivity. }
  assert (Sm : ~ (~ some_staged (as_status s) /\ ~ some_changed (as_status s))) by (intros X; apply Nc in X; discriminate). clear Nc.
  destruct (with_trees (rr_store r) x) as [tc|] eqn:Et; [|cbn; split_and!; auto; discriminate].
  destruct (amend_fast _ _ _ _ tc _) as [t ts'| |] eqn:Ef; [|cbn; split_and!; auto; discriminate..].
  destruct (add_object _ _ _) as [n st] eqn:Ho. fold (noted s ts i h r).
  match goal with |- context [switch_to s ts (TxId i) h n ?q] => change q with (mk_rrepo st (rr_repo (noted s ts i h r))) end.
  destruct (switch_to s ts (TxId i) h n (mk_rrepo st (rr_repo (noted s ts i h r)))) as [r1 [[]|]] eqn:Esw.
  - assert (Hn : ar_new (restack_above s ts (TxId i) reparent (with_commit n (commit_parents (ob_commit x)) d) h n r1) = Some n /\
      match ar_end (restack_above s ts (TxId i) reparent (with_commit n (commit_parents (ob_commit x)) d) h n r1) with
      | NoCommit | Unresolved | RewritesPublic | NothingToAmend => False | _ => True end).
    { unfold restack_above. repeat (match goal with |- context [match ?q with _ => _ end] => destruct q end; try (cbn; now auto)). }
    assert (Fin : unknown e r n -> went s r h reparent n x t (restack_above s ts (TxId i) reparent (with_commit n (commit_parents (ob_commit x)) d) h n r1)).
    { intros U. pose proof (fi_spec s r h n x t st ts i A U Hx Ho r1 (switch_back s r h n x t st ts i A U Ho r1 Esw) d reparent Op
        ltac:(fold e; rewrite Vf; discriminate)) as X. rewrite Px. revert X. unfold went, g, e.
      generalize (restack_above s ts (TxId i) reparent (with_commit n (parents_of (he_graph (re_hide (as_restack s))) h) d) h n r1). intros [r' new rwo en] X. apply X. }
    destruct Hn as [Hn He]. revert Hn He Fin. generalize (restack_above s ts (TxId i) reparent (with_commit n (commit_parents (ob_commit x)) d) h n r1) as res.
    intros res Hn He Fin. cbv zeta.
    assert (Bs : forall n', ar_new res = Some n' -> unknown e r n' -> exists x0 tc f t ts', Some x = Some x0 /\ with_trees (rr_store r) x0 = Some tc /\
      takes (as_status s) f /\ amend_fast (as_trees s) (as_merger s) (as_files s) (as_store s) tc f = Picked t ts' /\ went s r h reparent n' x0 t res).
    { intros n' En2 U. rewrite Hn in En2. injection En2 as <-. exists x, tc, (changes_of (as_status s)), t, ts'. split; [reflexivity|].
      split; [exact Et|]. split; [exact Tk|]. split; [exact Ef|]. exact (Fin U). }
    destruct (ar_end res) eqn:Ee; try contradiction; (split; [reflexivity|]; split; [exact Np|]; split; [exact Sm|]; split; [congruence|exact Bs]).
  - cbn. split; [reflexivity|]. split; [exact Np|]. split; [exact Sm|]. split; [discriminate|]. intros n' [= <-] U. exists x, tc, (changes_of (as_status s)), t, ts'. split_and!; auto.
    intros Wk. destruct (switch_result s r h n x t st ts i A U Ho (switch_goes s r h n st A Wk)) as (r2 & E & _). rewrite E in Esw. discriminate.
  - cbn. split; [reflexivity|]. split; [exact Np|]. split; [exact Sm|]. split; [discriminate|]. intros n' [= <-] U. exists x, tc, (changes_of (as_status s)), t, ts'. split_and!; auto.
    exact (switch_no_reset s r h n x t st ts i A U Ho r1 Esw).
Qed.
End command.
