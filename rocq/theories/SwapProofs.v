(** What comes of putting other commits in the place of given ones, with the rest following. *)
From stdpp Require Import sorting relations.
From Verif Require Import Base TextModel EventLogModel EventLogSpec EventLogProofs EvolveSpec
  DagModel DagSpec DagProofs DagCompProofs StrModel StrProofs HookModel PlanModel PlanSpec PlanProofs PlanBuildProofs PlanProps
  ExecModel ExecSpec ExecProofs ExecBuildProofs ExecAfterProofs ExecProps HideModel HideSpec HideProofs RestackModel RestackSpec RestackProofs
  SyncModel SyncSpec SyncProofs MoveModel MoveSpec MoveProofs MovePublicProofs PlanRunProofs ModeModel TreeModel SnapModel AmendModel AmendSpec AmendProofs RewordCmdSpec.
Local Open Scope string_scope.
Local Open Scope list_scope.

(** ** The requests *)
Section swap.
Context (d : dag) (l : list oid).
Let g := dag_graph d.
Hypothesis W : wf_graph g.
Hypothesis Ld : NoDup l.
Hypothesis Lv : forall c, c ∈ l -> c ∈ vertices g.
Hypothesis Lp : forall c, c ∈ l -> parents_of g c <> [].
Hypothesis Kv : forall c, visible d c -> c ∈ vertices g.
Let cs := List.map (fun c => MoveSubtree (parents_of g c) c) l.
Definition over (c : oid) : Prop := c ∈ l \/ (visible d c /\ exists a, a ∈ l /\ proper_ancestor (dag_graph d) a c).

Lemma sw_in x : x ∈ cs <-> exists c, c ∈ l /\ x = MoveSubtree (parents_of g c) c.
Proof.
  unfold cs. rewrite elem_of_list_In, in_map_iff. split.
  - intros (c & <- & H). exists c. split; [now apply elem_of_list_In|reflexivity].
  - intros (c & H & ->). exists c. split; [reflexivity|now apply elem_of_list_In].
Qed.
Lemma sw_placed c p : placed cs c p <-> c ∈ l /\ parent g p c.
Proof.
  rewrite (parent_parents_of _ _ _ W). split.
  - intros (b & ps & a & E & Hp & _). assert (X : MoveSubtree ps c ∈ cs) by (rewrite E; apply elem_of_app; right; left).
    apply sw_in in X. destruct X as (c' & Hc & [= -> ->]). auto.
  - intros [Hc Hp]. apply elem_of_list_split in Hc. destruct Hc as (l1 & l2 & E).
    exists (List.map (fun c => MoveSubtree (parents_of g c) c) l1), (parents_of g c), (List.map (fun c => MoveSubtree (parents_of g c) c) l2). split; [|split; [exact Hp|]].
    + unfold cs. rewrite E, List.map_app. reflexivity.
    + apply Forall_forall. intros x Hx. apply elem_of_list_In, in_map_iff in Hx. destruct Hx as (c' & <- & Hx). cbn. intros ->.
      rewrite E in Ld. apply NoDup_app in Ld. destruct Ld as (_ & _ & X). apply NoDup_cons in X. destruct X as [X _]. apply X. now apply elem_of_list_In.
Qed.
Lemma sw_no_takes x a b : x ∈ cs -> ~ takes_out x a b.
Proof. intros H T. apply sw_in in H. destruct H as (c & _ & ->). destruct T as [T|(t & T & _)]; discriminate. Qed.
Lemma sw_no_gap x p : ~ closes_gap d cs x p.
Proof. intros (_ & _ & b & y & a & u & v & E & T & _). apply (sw_no_takes y u v); [rewrite E; apply elem_of_app; right; left|exact T]. Qed.
Lemma sw_some c : c ∈ l -> exists p, parent g p c.
Proof. intros H. destruct (some_element _ (Lp c H)) as [p P]. exists p. now apply (parent_parents_of _ _ _ W). Qed.
Lemma sw_requested c : requested d cs c <-> c ∈ l.
Proof.
  split.
  - intros [p [H|H]]; [now apply sw_placed in H|destruct (sw_no_gap _ _ H)].
  - intros H. destruct (sw_some c H) as [p P]. exists p. left. now apply sw_placed.
Qed.
Lemma sw_target c : ~ fixup_target cs c.
Proof. intros [f H]. apply sw_in in H. destruct H as (c' & _ & H). discriminate. Qed.
Lemma sw_fixed c : ~ fixed_up cs c.
Proof. intros [f H]. apply sw_in in H. destruct H as (c' & _ & H). discriminate. Qed.
Lemma sw_no_fixup t f : FixUpCommit t f ∉ cs.
Proof. intros H. apply (sw_fixed f). now exists t. Qed.
Lemma sw_new_parent p c : new_parent d cs p c <-> over c /\ parent g p c.
Proof.
  unfold new_parent, over. rewrite sw_placed. split.
  - intros [[H P]|[H|H]]; [auto|destruct (sw_no_gap _ _ H)|]. destruct H as (_ & V & P & a & [Ha|Ha] & A); [|destruct (sw_target _ Ha)].
    apply sw_requested in Ha. split; [right|exact P]. split; [exact V|eauto].
  - intros [H P]. destruct (decide (c ∈ l)) as [Hl|Hl]; [auto|]. destruct H as [H|(V & a & Ha & A)]; [contradiction|]. right. right.
    split; [rewrite sw_requested; exact Hl|]. split; [exact V|]. split; [exact P|]. exists a. split; [left; now apply sw_requested|exact A].
Qed.
Lemma sw_over_parent c : over c -> exists p, parent g p c.
Proof.
  intros [H|(_ & a & _ & A)]; [now apply sw_some|]. apply tc_rtc in A as A'. apply rtc_inv_r in A'.
  destruct A' as [->|(q & _ & P)]; [destruct (wf_acyclic _ _ W A)|eauto].
Qed.
Lemma sw_vertex c : over c -> c ∈ vertices g.
Proof. intros [H|(V & _)]; auto. Qed.
Lemma sw_moves c : moves d cs c <-> over c.
Proof.
  split; [intros [p H]; now apply sw_new_parent in H|]. intros H. destruct (sw_over_parent c H) as [p P]. exists p. apply sw_new_parent. auto.
Qed.
Lemma sw_rebuilt c : rebuilt d cs c <-> over c.
Proof. unfold rebuilt. rewrite sw_moves. split; [intros [H|H]; [exact H|destruct (sw_target _ H)]|auto]. Qed.
Lemma sw_rebuilt_on p c : ~ merge_commit g c -> rebuilt_on d cs p c -> parent g p c.
Proof. intros NM [H|[(H & _)|(H & _)]]; [now apply sw_new_parent in H|destruct (sw_target _ H)|destruct (NM H)]. Qed.
Lemma sw_single c : over c -> ~ merge_commit g c -> exists p, parents_of g c = [p].
Proof.
  intros Hc NM. destruct (sw_over_parent c Hc) as [p P]. apply (parent_parents_of _ _ _ W) in P. apply sw_vertex, vertices_spec in Hc. destruct Hc as [ps Hc].
  rewrite (parents_of_spec _ _ _ _ W Hc) in *. assert (L : (length ps <= 1)%nat). { apply Nat.nlt_ge. intros L. apply NM. exists ps. auto. }
  destruct ps as [|q [|q' ps]]; cbn in *; [now apply elem_of_nil in P|eauto|lia].
Qed.
Lemma sw_plannable e : (forall c x, pe_replace e !! c = Some x -> exists rc, pe_find e x = Some rc) -> plannable d e cs.
Proof.
  intros Rep. constructor.
  - intros c H. apply sw_vertex. now apply sw_rebuilt.
  - exact Rep.
  - intros p p' c NM H H'. apply sw_new_parent in H, H'. destruct H as [Hc H], H' as [_ H']. destruct (sw_single c Hc NM) as (q & E).
    apply (parent_parents_of _ _ _ W) in H, H'. rewrite E in H, H'. apply elem_of_list_singleton in H, H'. congruence.
  - intros c M Rb. split; [apply sw_target|]. split; [apply sw_fixed|]. split; [intros p _ H; destruct (sw_target _ H)|].
    intros p Rp. rewrite sw_new_parent. apply sw_rebuilt in Rb. tauto.
  - intros t H. destruct (sw_target _ H).
  - intros t H. destruct (sw_target _ H).
Qed.
Lemma sw_clear : clear_of_fixups d cs.
Proof. intros p c _ _. apply sw_fixed. Qed.
Lemma sw_gaps : gaps_close d cs.
Proof. intros b x a u v E T. exfalso. apply (sw_no_takes x u v); [rewrite E; apply elem_of_app; right; left|exact T]. Qed.
Lemma sw_possible : ~ impossible d cs.
Proof.
  assert (Anc : forall p c, tc (new_parent d cs) p c -> proper_ancestor g p c).
  { intros p c H. induction H as [p c H|p q c H T IH]; [apply tc_once; now apply sw_new_parent in H|]. eapply tc_l; [|exact IH]. now apply sw_new_parent in H. }
  intros [c H]. exact (wf_acyclic _ _ W (Anc c c H)).
Qed.
Lemma sw_fit e : (forall c x rc, pe_replace e !! c = Some x -> pe_find e x = Some rc -> commit_parents rc = parents_of g c) -> replacements_fit d e cs.
Proof.
  intros Rep c x rc NM Rb E Fd. apply sw_rebuilt in Rb. rewrite (Rep c x rc E Fd). destruct (sw_single c Rb NM) as (p & Ep). rewrite Ep.
  exists p. split; [reflexivity|]. left. apply sw_new_parent. split; [exact Rb|]. apply (parent_parents_of _ _ _ W). rewrite Ep. left.
Qed.
Lemma sw_build e allowed : knows d e -> (forall c x, pe_replace e !! c = Some x -> exists rc, pe_find e x = Some rc) ->
  (forall c, over c -> c ∈ allowed) ->
  (l = [] /\ build d e allowed cs = Done BuiltNothing) \/ (l <> [] /\ exists dest cmds, build d e allowed cs = Done (BuiltPlan dest cmds)).
Proof.
  intros K Rep Al. destruct (decide (l = [])) as [El|El].
  - left. split; [exact El|]. unfold cs. rewrite El. apply build_none. exact W.
  - right. split; [exact El|]. apply build_total; auto; [now apply sw_plannable|exact sw_gaps|exact sw_possible| |].
    + intros c H. apply Al, sw_moves, H.
    + destruct (some_element l El) as [c0 H]. exists c0. apply sw_rebuilt. now left.
Qed.

(** What carrying them out does, when nothing is looked for upstream. *)
Context (pe : plan_env) (ee : exec_env) (st st' : store) (rw : gmap oid moid) (head : option oid).
Hypothesis CO : carried_out d cs pe ee st st' rw head.
Hypothesis NU : forall t c, pe_upstream pe t c = false.
Lemma sw_rw c : is_Some (rw !! c) <-> over c.
Proof.
  rewrite <- sw_rebuilt. split.
  - intros H. destruct (co_rest _ _ _ _ _ _ _ _ CO c H) as [X|X]; [exact X|destruct (sw_fixed _ X)].
  - intros H. destruct (co_fate _ _ _ _ _ _ _ _ CO c H (sw_fixed c)); eauto.
Qed.
Lemma sw_lands p q : lands d cs rw p q -> becomes (parent g) rw p q.
Proof.
  induction 1 as [p H|p q H|p p' q H B L IH]; [now apply becomes_kept|now apply becomes_new|].
  apply (becomes_dropped _ _ p p' q); [exact H| |exact IH]. apply sw_rebuilt_on; [|exact B].
  assert (Rb : rebuilt d cs p) by (apply sw_rebuilt, sw_rw; eauto).
  destruct (co_fate _ _ _ _ _ _ _ _ CO p Rb (sw_fixed p)); congruence || assumption.
Qed.
Lemma sw_alone c (k : list oid) orig q x : (forall f, f ∈ k <-> f = c \/ FixUpCommit c f ∈ cs) -> NoDup k -> squashes ee q orig k x ->
  exists t, ee_pick ee c q = MadeTree t /\ x = remade ee orig [q] t.
Proof.
  intros L N S. assert (k = [c]) as ->.
  { assert (L' : forall f, f ∈ k <-> f = c). { intros f. rewrite L. split; [|auto]. intros [H|H]; [exact H|]. destruct (sw_no_fixup _ _ H). }
    destruct k as [|a [|b k]].
    - destruct (not_elem_of_nil c (proj2 (L' c) eq_refl)).
    - f_equal. apply L'. left.
    - exfalso. apply NoDup_cons in N. destruct N as [N _]. apply N. rewrite (proj1 (L' a)) by left. rewrite <- (proj1 (L' b)) by (right; left). left. }
  inversion S as [c' t Hp E1 E2|l' z c' t S' Ha E1 E2]; subst; [eauto|]. exfalso. destruct l' as [|? [|? ?]]; try discriminate E1. inversion S' as [|[|? ?] ? ? ? ? ? E3]; discriminate E3.
Qed.
Lemma sw_on p c : ~ merge_commit g c -> rebuilt_on d cs p c -> over c -> parents_of g c = [p].
Proof.
  intros NM B O. apply sw_rebuilt_on in B; [|exact NM]. destruct (sw_single c O NM) as (p' & E). apply (parent_parents_of _ _ _ W) in B. rewrite E in *.
  apply elem_of_list_singleton in B. now subst.
Qed.
(** The commits given. *)
Lemma sw_replaced x z : pe_replace pe !! x = Some z -> over x -> exists y orig qs, rw !! x = Some (NonZero y) /\
  st' !! z = Some orig /\ st' !! y = Some (remade ee orig qs (commit_tree (ob_commit orig))) /\ Forall2 (becomes (parent g) rw) (parents_of g x) qs.
Proof.
  intros Re Hx. assert (Rb : rebuilt d cs x) by (now apply sw_rebuilt).
  destruct (co_fate _ _ _ _ _ _ _ _ CO x Rb (sw_fixed x)) as [p q Z NM B L Why|p q n' orig k w qx Z NM Re'|n' rr orig ps qs Z Z' So Sn F M NM].
  - exfalso. destruct Why as [[t Up]|(Re' & _)]; [rewrite NU in Up; discriminate|congruence].
  - congruence.
  - rewrite Re in Z'. injection Z' as <-. exists n', orig, qs. split_and!; auto.
    assert (ps = parents_of g x) as <-.
    { destruct (decide (Nat.lt 1 (length (parents_of g x)))) as [Lt|Ge].
      - apply M. pose proof (sw_vertex x Hx) as V. apply vertices_spec in V. destruct V as [ps' V]. exists ps'. split; [exact V|]. now rewrite <- (parents_of_spec _ _ _ _ W V).
      - assert (N : ~ merge_commit g x). { intros (ps' & V & L). rewrite (parents_of_spec _ _ _ _ W V) in Ge. contradiction. }
        destruct (NM N) as (p & -> & B). symmetry. now apply sw_on. }
    eapply Forall2_impl; [exact F|]. intros p q. apply sw_lands.
Qed.
(** The others. *)
Lemma sw_picked x y : pe_replace pe !! x = None -> rw !! x = Some (NonZero y) -> ~ merge_commit g x /\ exists p q orig t qx, parents_of g x = [p] /\ becomes (parent g) rw p q /\
  st' !! x = Some orig /\ ee_pick ee x q = MadeTree t /\ st' !! y = Some (remade ee orig [q] t) /\ st' !! q = Some qx /\ t <> commit_tree (ob_commit qx).
Proof.
  intros Re Hx. assert (O : over x) by (apply sw_rw; eauto). assert (Rb : rebuilt d cs x) by (now apply sw_rebuilt).
  destruct (co_fate _ _ _ _ _ _ _ _ CO x Rb (sw_fixed x)) as [p q Z|p q n' orig k z qx Z NM _ B L Sn Sc Sq' Hl Nd Sq Ne|n' rr orig ps qs _ Z']; [congruence| |congruence].
  rewrite Hx in Z. injection Z as <-. destruct (sw_alone x k orig q z Hl (proj1 Nd) Sq) as (t & Hp & ->). split; [exact NM|].
  exists p, q, orig, t, qx. split; [now apply sw_on|]. split; [now apply sw_lands|]. split_and!; auto.
Qed.
Lemma sw_dropped x : rw !! x = Some Zero -> pe_replace pe !! x = None /\ ~ merge_commit g x /\ exists p q orig qx, parents_of g x = [p] /\ becomes (parent g) rw p q /\
  st' !! x = Some orig /\ st' !! q = Some qx /\ ee_pick ee x q = MadeTree (commit_tree (ob_commit qx)).
Proof.
  intros Hx. assert (O : over x) by (apply sw_rw; eauto). assert (Rb : rebuilt d cs x) by (now apply sw_rebuilt).
  destruct (co_fate _ _ _ _ _ _ _ _ CO x Rb (sw_fixed x)) as [p q Z NM B L Why|p q n' orig k y qx Z|n' rr orig ps qs Z Z']; [|congruence..].
  destruct Why as [[t Up]|(Re & orig & qx & k & y & So & Sq & Hl & Nd & S & T')]; [rewrite NU in Up; discriminate|].
  split; [exact Re|]. split; [exact NM|]. destruct (sw_alone x k orig q y Hl (proj1 Nd) S) as (t & Hp & ->). cbn in T'. subst t.
  exists p, q, orig, qx. split; [now apply sw_on|]. split; [now apply sw_lands|]. split_and!; auto.
Qed.
Lemma sw_no_merge x : over x -> pe_replace pe !! x = None -> ~ merge_commit g x.
Proof.
  intros O Re M. assert (S : is_Some (rw !! x)) by (now apply sw_rw). destruct S as [[|y] Hx].
  - destruct (sw_dropped x Hx) as (_ & NM & _). contradiction.
  - destruct (sw_picked x y Re Hx) as [NM _]. contradiction.
Qed.

(** The contents stay when commits are applied without difficulty. *)
Context (st0 : store).
Hypothesis Nm : named ee st'.
Hypothesis Su : st0 ⊆ st'.
Hypothesis In0 : forall c, c ∈ vertices g -> exists x, st0 !! c = Some x /\ commit_parents (ob_commit x) = parents_of g c.
Hypothesis Pp : plain_picks ee st0.
Hypothesis Rs : forall c z, pe_replace pe !! c = Some z -> exists x orig, st0 !! c = Some x /\ st' !! z = Some orig /\ commit_tree (ob_commit orig) = commit_tree (ob_commit x).
Lemma sw_plain x q qx : x ∈ vertices g -> forall p px orig, parents_of g x = [p] -> st0 !! p = Some px -> st0 !! x = Some orig ->
  st' !! q = Some qx -> commit_tree (ob_commit qx) = commit_tree (ob_commit px) -> ee_pick ee x q = MadeTree (commit_tree (ob_commit orig)).
Proof.
  intros Hx p px orig Ep Hp Ho Hq E. rewrite <- (Nm q qx Hq). apply (Pp x orig p px qx); auto.
  destruct (In0 x Hx) as (o' & Ho' & P'). rewrite Ho in Ho'. injection Ho' as <-. now rewrite P'.
Qed.
Lemma sw_contents p q : becomes (parent g) rw p q -> p ∈ vertices g -> forall px, st0 !! p = Some px -> exists qx, st' !! q = Some qx /\
  commit_tree (ob_commit qx) = commit_tree (ob_commit px).
Proof.
  cut (forall n p, rank g p = n -> forall q, becomes (parent g) rw p q -> p ∈ vertices g -> forall px, st0 !! p = Some px -> exists qx, st' !! q = Some qx /\
    commit_tree (ob_commit qx) = commit_tree (ob_commit px)); [eauto|]. clear p q.
  induction n as [n IH] using lt_wf_ind. intros x En q B Hx px Hpx.
  assert (Below : forall p, parent g p x -> forall q, becomes (parent g) rw p q -> exists pp qx, st0 !! p = Some pp /\ st' !! q = Some qx /\ commit_tree (ob_commit qx) = commit_tree (ob_commit pp)).
  { intros p P q' B'. destruct (parent_vertices _ _ _ W P) as [Vp _]. destruct (In0 p Vp) as (pp & Hpp & _).
    destruct (IH (rank g p) ltac:(subst n; apply parent_rank; assumption) p eq_refl q' B' Vp pp Hpp) as (qx & Hq & E). eauto. }
  inversion B as [p H E1 E2|p q' H E1 E2|p p' q' H P B' E1 E2]; subst.
  - exists px. split; [exact (lookup_weaken _ _ _ _ Hpx Su)|reflexivity].
  - destruct (pe_replace pe !! x) as [z|] eqn:Re.
    + destruct (sw_replaced x z Re) as (y & orig & qs & Hy & So & Sy & _); [apply sw_rw; eauto|]. rewrite H in Hy. injection Hy as <-.
      destruct (Rs x z Re) as (x0 & orig0 & H0 & H1 & H2). rewrite So in H1. injection H1 as <-. rewrite Hpx in H0. injection H0 as <-.
      eexists. split; [exact Sy|]. exact H2.
    + destruct (sw_picked x q Re H) as (NM & p & q' & orig & t & qx & Ep & B' & So & Pk & Sy & Sq & _).
      assert (P : parent g p x) by (apply (parent_parents_of _ _ _ W); rewrite Ep; left).
      destruct (Below p P q' B') as (pp & qx' & Hpp & Hq & E). rewrite Sq in Hq. injection Hq as <-.
      rewrite (sw_plain x q' qx Hx p pp px Ep Hpp Hpx Sq E) in Pk. injection Pk as <-. eexists. split; [exact Sy|reflexivity].
  - destruct (sw_dropped x H) as (Re & NM & p0 & q0 & orig & qx & Ep & B0 & So & Sq & Pk).
    assert (p0 = p') as -> by (apply (parent_parents_of _ _ _ W) in P; rewrite Ep in P; apply elem_of_list_singleton in P; now subst).
    destruct (Below p' P q0 B0) as (pp & qx' & Hpp & Hq & E). rewrite Sq in Hq. injection Hq as <-.
    rewrite (sw_plain x q0 qx Hx p' pp px Ep Hpp Hpx Sq E) in Pk. injection Pk as Pk.
    destruct (Below p' P q B') as (pp' & qx' & Hpp' & Hq & E'). rewrite Hpp in Hpp'. injection Hpp' as <-. exists qx'. split; [exact Hq|]. congruence.
Qed.
Lemma sw_picked_plain x y : pe_replace pe !! x = None -> rw !! x = Some (NonZero y) -> exists orig p q pp, st0 !! x = Some orig /\ parents_of g x = [p] /\ becomes (parent g) rw p q /\
  st' !! y = Some (remade ee orig [q] (commit_tree (ob_commit orig))) /\ st0 !! p = Some pp /\ commit_tree (ob_commit orig) <> commit_tree (ob_commit pp).
Proof.
  intros Re H. destruct (sw_picked x y Re H) as (NM & p & q & orig & t & qx & Ep & B & So & Pk & Sy & Sq & Ne).
  assert (Hx : x ∈ vertices g) by (apply sw_vertex, sw_rw; eauto). destruct (In0 x Hx) as (orig' & H0 & _). assert (orig' = orig) as -> by (pose proof (lookup_weaken _ _ _ _ H0 Su); congruence).
  assert (P : parent g p x) by (apply (parent_parents_of _ _ _ W); rewrite Ep; left). destruct (parent_vertices _ _ _ W P) as [Vp _].
  destruct (In0 p Vp) as (pp & Hpp & _). destruct (sw_contents p q B Vp pp Hpp) as (qx' & Hq & E). rewrite Sq in Hq. injection Hq as <-.
  pose proof (sw_plain x q qx Hx p pp orig Ep Hpp H0 Sq E) as Pk'. rewrite Pk in Pk'. injection Pk' as ->.
  exists orig, p, q, pp. split_and!; auto. congruence.
Qed.
Lemma sw_dropped_plain x : rw !! x = Some Zero -> exists orig p pp, st0 !! x = Some orig /\ parents_of g x = [p] /\ st0 !! p = Some pp /\ commit_tree (ob_commit orig) = commit_tree (ob_commit pp).
Proof.
  intros H. destruct (sw_dropped x H) as (Re & NM & p & q & orig & qx & Ep & B & So & Sq & Pk).
  assert (Hx : x ∈ vertices g) by (apply sw_vertex, sw_rw; eauto). destruct (In0 x Hx) as (orig' & H0 & _). assert (orig' = orig) as -> by (pose proof (lookup_weaken _ _ _ _ H0 Su); congruence).
  assert (P : parent g p x) by (apply (parent_parents_of _ _ _ W); rewrite Ep; left). destruct (parent_vertices _ _ _ W P) as [Vp _].
  destruct (In0 p Vp) as (pp & Hpp & _). destruct (sw_contents p q B Vp pp Hpp) as (qx' & Hq & E). rewrite Sq in Hq. injection Hq as <-.
  rewrite (sw_plain x q qx Hx p pp orig Ep Hpp H0 Sq E) in Pk. injection Pk as Pk. exists orig, p, pp. split_and!; auto. congruence.
Qed.
(** Nothing is applied to a commit with which it conflicts. *)
Lemma sw_fits x y orig q t : rw !! x = Some (NonZero y) -> pe_replace pe !! x = None -> st' !! y = Some (remade ee orig [q] t) -> exists o, ee_pick ee x q = MadeTree (commit_tree (ob_commit o)) /\ st0 !! x = Some o /\
  exists p pp qx, parents_of g x = [p] /\ st0 !! p = Some pp /\ st' !! q = Some qx /\ commit_tree (ob_commit qx) = commit_tree (ob_commit pp).
Proof.
  intros H Re Sy. destruct (sw_picked_plain x y Re H) as (o & p & q' & pp & H0 & Ep & B & Sy' & Hpp & _). assert (q' = q) as -> by (rewrite Sy in Sy'; apply Some_inj, (f_equal (fun x => commit_parents (ob_commit x))) in Sy'; cbn in Sy'; congruence).
  assert (Hx : x ∈ vertices g) by (apply sw_vertex, sw_rw; eauto).
  assert (P : parent g p x) by (apply (parent_parents_of _ _ _ W); rewrite Ep; left). destruct (parent_vertices _ _ _ W P) as [Vp _].
  destruct (sw_contents p q B Vp pp Hpp) as (qx & Hq & E). exists o. split; [exact (sw_plain x q qx Hx p pp o Ep Hpp H0 Hq E)|]. split; [exact H0|]. exists p, pp, qx. auto.
Qed.
End swap.
