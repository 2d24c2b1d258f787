From Verif Require Import Base TextModel EventLogModel EventLogSpec EventLogProofs EvolveSpec
  DagModel DagSpec DagProofs DagCompProofs StrModel StrProofs HookModel PlanModel PlanSpec PlanProofs PlanBuildProofs PlanProps
  ExecModel ExecSpec ExecProofs ExecBuildProofs ExecAfterProofs ExecProps HideModel HideSpec HideProofs RestackModel RestackSpec RestackProofs
  SyncModel SyncSpec SyncProofs MoveModel MoveSpec.
Local Open Scope string_scope.
Local Open Scope list_scope.

(** Where a commit goes: to the place it is told to go to, or else onto its parent. *)
Definition as_told (g : graph) (told : oid -> oid -> Prop) (p c : oid) : Prop :=
  told c p \/ ((forall q, ~ told c q) /\ parent g p c).
Definition asked_by (told : oid -> oid -> Prop) (c : oid) : Prop := exists p, told c p.

(** ** Requests to move subtrees *)

(** A request to move a subtree that is told, or one that closes a gap. *)
Definition simple_request (g : graph) (x : constraint) : Prop :=
  (exists p c, x = MoveSubtree [p] c /\ c ∈ vertices g /\ ~ merge_commit g c) \/ exists a b, x = MoveChildren a b.
Section many.
Context (d : dag) (cs : list constraint) (told : oid -> oid -> Prop).
Let g := dag_graph d.
Hypothesis W : wf_graph g.
Hypothesis F : Forall (simple_request g) cs.
Hypothesis NG : forall x p, ~ closes_gap d cs x p.
Hypothesis T : forall c p, placed cs c p <-> told c p.
Hypothesis V : forall c p, told c p -> visible d c.

Lemma many_in x : x ∈ cs -> simple_request g x.
Proof. rewrite Forall_forall in F. apply F. Qed.
Lemma many_subtree ps c : MoveSubtree ps c ∈ cs -> exists p, ps = [p] /\ c ∈ vertices g /\ ~ merge_commit g c.
Proof. intros H. destruct (many_in _ H) as [(p & c' & [= -> ->] & X)|(u & v & X)]; [eauto|discriminate]. Qed.
Lemma many_no_fixup t f : FixUpCommit t f ∉ cs.
Proof. intros H. destruct (many_in _ H) as [(p & c' & X & _)|(u & v & X)]; discriminate. Qed.
Lemma many_told c p : told c p -> MoveSubtree [p] c ∈ cs.
Proof.
  intros H. apply T in H. destruct H as (b & ps & a & E & Hp & _).
  assert (X : MoveSubtree ps c ∈ cs) by (rewrite E; apply elem_of_app; right; left).
  destruct (many_subtree _ _ X) as (p' & -> & _). apply elem_of_list_singleton in Hp as ->. exact X.
Qed.
Lemma last_about l c p : MoveSubtree [p] c ∈ l -> (forall x, x ∈ l -> simple_request g x) -> exists q, placed l c q.
Proof.
  induction l as [|x l IH] using rev_ind; intros H O; [now apply elem_of_nil in H|].
  destruct (O x) as [(p' & c' & -> & _)|(u & v & ->)]; [apply elem_of_app; right; left| |].
  - destruct (decide (c' = c)) as [->|N].
    + exists p'. apply placed_snoc. left. exists [p']. split; [reflexivity|left].
    + apply elem_of_app in H. destruct H as [H|H].
      * destruct IH as [q Q]; [exact H|intros y Hy; apply O, elem_of_app; now left|]. exists q. apply placed_snoc. right. split; [exact Q|exact N].
      * apply elem_of_list_singleton in H. congruence.
  - apply elem_of_app in H. destruct H as [H|H]; [|apply elem_of_list_singleton in H; congruence].
    destruct IH as [q Q]; [exact H|intros y Hy; apply O, elem_of_app; now left|]. exists q. apply placed_snoc. right. split; [exact Q|easy].
Qed.
Lemma many_asked c p : MoveSubtree [p] c ∈ cs -> exists q, told c q.
Proof. intros H. destruct (last_about cs c p H many_in) as [q Q]. exists q. now apply T. Qed.
Lemma many_decide c : (exists p, told c p) \/ (forall p, ~ told c p).
Proof.
  destruct (existsb (fun x => match x with MoveSubtree _ c' => N.eqb c' c | _ => false end) cs) eqn:E.
  { apply existsb_exists in E. destruct E as (x & Hx & E). apply elem_of_list_In in Hx. destruct x as [|ps c'|]; try discriminate E.
    destruct (many_subtree _ _ Hx) as (p & -> & _). apply N.eqb_eq in E. subst c'. left. eapply many_asked; eauto. }
  right. intros p H. apply many_told, elem_of_list_In in H. rewrite <- not_true_iff_false in E. apply E, existsb_exists.
  exists (MoveSubtree [p] c). split; [exact H|apply N.eqb_refl].
Qed.
Lemma many_one c p p' : told c p -> told c p' -> p = p'.
Proof.
  intros H H'. apply T in H, H'. revert H H'. pose proof F as F1. clear - F1. induction cs as [|x l IH] using rev_ind.
  - intros (b & ps & a & E & _). destruct b; discriminate.
  - apply Forall_app in F1. destruct F1 as [F0 Fx]. inversion_clear Fx as [|? ? Fx0 _]. rename Fx0 into Fx. specialize (IH F0). rewrite !placed_snoc.
    destruct Fx as [(q & c' & -> & _)|(u & v & ->)].
    + intros [(ps & E & H)|[H N]] [(ps' & E' & H')|[H' N']]; cbn in *; try congruence; [|now apply IH].
      injection E as <- ->. injection E' as <-. apply elem_of_list_singleton in H, H'. congruence.
    + intros [(ps & E & H)|[H N]] [(ps' & E' & H')|[H' N']]; [discriminate..|now apply IH].
Qed.
Lemma many_vertex c p : told c p -> c ∈ vertices g.
Proof. intros H. apply many_told, many_subtree in H. destruct H as (_ & _ & X & _). exact X. Qed.
Lemma many_no_merge c p : told c p -> ~ merge_commit g c.
Proof. intros H. apply many_told, many_subtree in H. destruct H as (_ & _ & _ & X). exact X. Qed.
Lemma many_requested x : requested d cs x <-> exists p, told x p.
Proof.
  split.
  - intros [p [H|H]]; [exists p; now apply T|destruct (NG _ _ H)].
  - intros [p H]. exists p. left. now apply T.
Qed.
Lemma many_target x : ~ fixup_target cs x.
Proof. intros [f H]. exact (many_no_fixup _ _ H). Qed.
Lemma many_fixed x : ~ fixed_up cs x.
Proof. intros [f H]. exact (many_no_fixup _ _ H). Qed.
Lemma many_new_parent p x : new_parent d cs p x <->
  told x p \/ ((forall q, ~ told x q) /\ visible d x /\ (exists a q, told a q /\ ancestor g a x) /\ parent g p x).
Proof.
  unfold new_parent. rewrite T. split.
  - intros [H|[H|H]]; [auto|destruct (NG _ _ H)|]. right. destruct H as (N & Vx & P & a & [Ha|Ha] & A); [|destruct (many_target _ Ha)].
    apply many_requested in Ha. destruct Ha as [q Ha]. split_and!; auto.
    + intros q' Hq. apply N, many_requested. eauto.
    + exists a, q. split; [exact Ha|now apply tc_rtc].
  - intros [H|(N & Vx & (a & q & Ha & A) & P)]; [auto|]. right. right. split; [intros H; apply many_requested in H; destruct H as [q' H]; exact (N q' H)|].
    split; [exact Vx|]. split; [exact P|]. exists a. split; [left; apply many_requested; eauto|]. apply rtc_tc in A. destruct A as [A|A]; [|exact A].
    subst a. destruct (N q Ha).
Qed.
Lemma many_rebuilt x : rebuilt d cs x <-> visible d x /\ exists a q, told a q /\ ancestor g a x.
Proof.
  unfold rebuilt, moves. setoid_rewrite many_new_parent. split.
  - intros [[p [H|(N & Vx & A & P)]]|H]; [split; [eauto|exists x, p; split; [exact H|constructor]]|auto|destruct (many_target _ H)].
  - intros (Vx & a & q & Ha & A). left. destruct (many_decide x) as [[p H]|N]; [eauto|].
    apply rtc_inv_r in A as A'. destruct A' as [E|(p & A' & P)]; [subst a; destruct (N q Ha)|]. exists p. right. eauto 10.
Qed.
Lemma many_as_told p x : ~ merge_commit g x -> rebuilt_on d cs p x -> as_told g told p x.
Proof.
  intros NM [H|[(H & _)|(H & _)]]; [|destruct (many_target _ H)|destruct (NM H)].
  apply many_new_parent in H. destruct H as [H|(N & _ & _ & P)]; [left; exact H|right; auto].
Qed.
Lemma many_fit e : pe_replace e = ∅ ->
  plannable d e cs /\ clear_of_fixups d cs /\ replacements_fit d e cs.
Proof.
  intros R. split_and!; [|intros p c _ _; apply many_fixed|].
  - constructor.
    + intros c [[p H]|H]; [|destruct (many_target _ H)]. apply many_new_parent in H. destruct H as [H|(_ & _ & _ & P)]; [eapply many_vertex; eauto|].
      apply (parent_vertices _ _ _ W) in P. apply P.
    + intros c x H. rewrite R, lookup_empty in H. discriminate.
    + intros p p' c NM H H'. apply many_new_parent in H, H'.
      destruct H as [H|(N & _ & _ & P)], H' as [H'|(N' & _ & _ & P')]; [eapply many_one; eauto|destruct (N' _ H)|destruct (N _ H')|].
      eapply only_one_parent; eauto.
    + intros c M Rb. split; [apply many_target|]. split; [apply many_fixed|].
      split; [intros p _ H; destruct (many_target _ H)|]. intros p _. rewrite many_new_parent.
      split; [intros [H|(_ & _ & _ & P)]; [destruct (many_no_merge _ _ H M)|exact P]|]. intros P. right.
      apply many_rebuilt in Rb. destruct Rb as [Vc A]. split_and!; auto. intros q H. exact (many_no_merge _ _ H M).
    + intros t H. destruct (many_target _ H).
    + intros t H. destruct (many_target _ H).
  - intros c x rc _ _ H. rewrite R, lookup_empty in H. discriminate.
Qed.
(** It can be planned when nothing would become its own ancestor. *)
Lemma many_plan e allowed : knows d e -> pe_replace e = ∅ -> gaps_close d cs -> ~ impossible d cs ->
  (forall c p x, told c p -> ancestor g c x -> x ∈ allowed) -> (exists c p, told c p) ->
  exists dest cmds, build d e allowed cs = Done (BuiltPlan dest cmds).
Proof.
  intros K R G NI Al (c & p & H). destruct (many_fit e R) as (P & _ & _). apply build_total; auto.
  - intros x M. assert (X : rebuilt d cs x) by now left. apply many_rebuilt in X. destruct X as (_ & a & q & Ha & A). eauto.
  - exists c. apply many_rebuilt. split; [eauto|]. exists c, p. split; [exact H|constructor].
Qed.
Lemma many_cycle e allowed : gaps_close d cs -> impossible d cs -> exists l, build d e allowed cs = Done (BuiltCycle l).
Proof. intros G I. apply c26_moves; auto. exact many_no_fixup. Qed.

(** What it does. *)
Context (e : restack_env) (st : store) (ee : exec_env) (st1 st' : store) (rw : gmap oid moid) (head : option oid).
Hypothesis CO : carried_out d cs (planner e st) ee st1 st' rw head.
Lemma many_rw x : is_Some (rw !! x) <-> visible d x /\ exists a q, told a q /\ ancestor g a x.
Proof.
  rewrite <- many_rebuilt. split.
  - intros H. destruct (co_rest _ _ _ _ _ _ _ _ CO x H) as [X|X]; [exact X|destruct (many_fixed _ X)].
  - intros H. destruct (co_fate _ _ _ _ _ _ _ _ CO x H (many_fixed x)); eauto.
Qed.
Lemma many_single x : is_Some (rw !! x) -> ~ merge_commit g x.
Proof.
  intros H. assert (Rb : rebuilt d cs x) by (now apply many_rebuilt, many_rw).
  destruct (co_fate _ _ _ _ _ _ _ _ CO x Rb (many_fixed x)) as [| |? ? ? ? ? ? X]; [assumption|assumption|].
  cbn in X. now rewrite lookup_empty in X.
Qed.
Lemma many_squash q orig x l y : (forall f, f ∈ l <-> f = x \/ FixUpCommit x f ∈ cs) -> NoDup l -> squashes ee q orig l y ->
  exists tree, ee_pick ee x q = MadeTree tree /\ y = remade ee orig [q] tree.
Proof.
  intros L N S. assert (l = [x]) as ->.
  { assert (L' : forall f, f ∈ l <-> f = x). { intros f. rewrite L. split; [|auto]. intros [H|H]; [exact H|]. destruct (many_no_fixup _ _ H). }
    destruct l as [|a [|b l]].
    - destruct (not_elem_of_nil x (proj2 (L' x) eq_refl)).
    - f_equal. apply L'. left.
    - exfalso. apply NoDup_cons in N. destruct N as [N _]. apply N. rewrite (proj1 (L' a)) by left. rewrite <- (proj1 (L' b)) by (right; left). left. }
  inversion S as [c' t Hp E1 E2|l' z c' t S' Ha E1 E2]; subst; [eauto|]. exfalso. destruct l' as [|? [|? ?]]; try discriminate E1. inversion S' as [|[|? ?] ? ? ? ? ? E3]; discriminate E3.
Qed.
Lemma many_lands p q : lands d cs rw p q -> becomes (as_told g told) rw p q.
Proof.
  induction 1 as [p H|p q H|p p' q H B L IH]; [now apply becomes_kept|now apply becomes_new|].
  apply (becomes_dropped _ _ p p' q); [exact H| |exact IH]. apply many_as_told; [|exact B]. apply many_single. eauto.
Qed.
Lemma many_made x n : rw !! x = Some (NonZero n) -> exists p q orig tree,
  as_told g told p x /\ becomes (as_told g told) rw p q /\ st' !! x = Some orig /\
  ee_pick ee x q = MadeTree tree /\ st' !! n = Some (remade ee orig [q] tree).
Proof.
  intros Hx. assert (Rb : rebuilt d cs x) by (apply many_rebuilt, many_rw; eauto).
  destruct (co_fate _ _ _ _ _ _ _ _ CO x Rb (many_fixed x)) as [p q Z|p q n' orig l y qx Z NM _ B L Sn Sc _ Hl Nd Sq _|n' rr orig ps qs _ Z'].
  - congruence.
  - rewrite Hx in Z. injection Z as <-. destruct (many_squash q orig x l y Hl (proj1 Nd) Sq) as (tree & Hp & ->).
    exists p, q, orig, tree. split_and!; auto; [now apply many_as_told|now apply many_lands].
  - cbn in Z'. now rewrite lookup_empty in Z'.
Qed.
Lemma many_dropped x : rw !! x = Some Zero -> exists p q,
  as_told g told p x /\ becomes (as_told g told) rw p q /\
  ((exists t, re_upstream e t x = true) \/
   exists tree qx, ee_pick ee x q = MadeTree tree /\ st' !! q = Some qx /\ commit_tree (ob_commit qx) = tree).
Proof.
  intros Hx. assert (Rb : rebuilt d cs x) by (apply many_rebuilt, many_rw; eauto).
  destruct (co_fate _ _ _ _ _ _ _ _ CO x Rb (many_fixed x)) as [p q Z NM B L Why|p q n' orig l y qx Z|n' rr orig ps qs _ Z'].
  - exists p, q. split; [now apply many_as_told|]. split; [now apply many_lands|].
    destruct Why as [Up|(_ & orig & qx & l & y & _ & Sq & Hl & Nd & S & T')]; [left; exact Up|right].
    destruct (many_squash q orig x l y Hl (proj1 Nd) S) as (tree & Hp & ->). exists tree, qx. split; [exact Hp|]. split; [exact Sq|]. now symmetry.
  - congruence.
  - cbn in Z'. now rewrite lookup_empty in Z'.
Qed.
End many.

(** ** Running the plan *)
Section run.
Context (e : restack_env) (r : rrepo) (d : dag) (cs : list constraint) (told : oid -> oid -> Prop).
Let g := he_graph (re_hide e).
Let h := rr_repo r.
Hypothesis R : restackable e r.
Hypothesis Mem : in_memory e.
Hypothesis Op : open_repo (re_hide e) h = Some d.
Hypothesis F : Forall (simple_request g) cs.
Hypothesis NG : forall x p, ~ closes_gap d cs x p.
Hypothesis T : forall c p, placed cs c p <-> told c p.
Hypothesis V : forall c p, told c p -> shown g h c.

Lemma run_wf : wf_graph (dag_graph d).
Proof. rewrite (dag_is e r d R Op). apply (io_graph _ _ (ra_order _ _ R)). Qed.
Lemma run_F : Forall (simple_request (dag_graph d)) cs.
Proof. rewrite (dag_is e r d R Op). exact F. Qed.
Lemma run_V c p : told c p -> visible d c.
Proof. intros H. apply (shown_is e r d R Op). eapply V, H. Qed.
Lemma run_knows : knows d (planner e (rr_store r)).
Proof.
  intros x Hx. pose proof (dag_is e r d R Op) as G. rewrite G in Hx. destruct (ra_store _ _ R x Hx) as (y & Hy & P). exists (ob_commit y). cbn. unfold find_object.
  rewrite Hy. split; [reflexivity|]. now rewrite G.
Qed.

Lemma run_many ts i allowed dest cmds r' res :
  build d (planner e (rr_store r)) allowed cs = Done (BuiltPlan dest cmds) -> run_plan e ts (TxId i) dest cmds r = (r', res) ->
  match res with
  | Succeeded rwo => exists rw, rwo = Some rw /\ move_done e r (asked_by told) (as_told g told) rw r'
  | DeclinedToMerge _ => left_alone r r'
  | _ => True
  end.
Proof.
  intros Eb Er. destruct Mem as [Eo Mem']. pose proof (dag_is e r d R Op) as G. fold g in G.
  pose proof run_wf as W. pose proof run_F as F'. pose proof run_V as V'. pose proof run_knows as Kn. pose proof (ra_named _ _ R) as Nd. destruct (ra_head _ _ R) as [hd Hh].
  assert (Fn : faithful_names (runner e r)) by exact (ra_faithful _ _ R).
  destruct (many_fit d cs told W F' NG T V' (planner e (rr_store r)) eq_refl) as (Pl & Cl & Fit).
  unfold run_plan in Er. destruct (execute_plan _ _ _ _ _ _ _ _ _ _ _) as [rp res0] eqn:Ex. injection Er as <- <-.
  rewrite Eo in Ex. pose proof Ex as Ex0. unfold execute_plan in Ex. change (rp_store (start_repo r)) with (rr_store r) in Ex.
  destruct (rebase_in_memory (runner e r) (rr_store r) dest cmds) as [[[st' rw] head]|at_ st'|st'] eqn:Em.
  - (* done *)
    destruct (post_rebase _ _ _ _ _ _) as [r1 ok] eqn:Ep. destruct ok; injection Ex as <- <-; [|exact I].
    exists rw. split; [reflexivity|].
    assert (CO : carried_out d cs (planner e (rr_store r)) (runner e r) (rr_store r) st' rw head).
    { eapply (c30_carried_out_partial d); eauto. exact (ra_sort _ _ R). }
    assert (Est : rp_store r1 = st').
    { revert Ep. unfold post_rebase. destruct (mr_ok _); intros [= <-]. reflexivity. }
    destruct (post_rebase_refs _ _ _ rw head (ra_tables _ _ R) (ra_iter _ _ R rw) _ _ Ep) as (Refs & _ & Others & _ & Rws).
    cbn [with_store start_repo rp_rewrites rp_refs app] in Rws, Refs, Others.
    pose proof (many_rw d cs told F' NG T V' e (rr_store r) (runner e r) (rr_store r) st' rw head CO) as Which.
    assert (K : forall o, is_Some (rw !! o) -> o ∈ vertices g).
    { intros o H. apply Which in H. eapply (SyncProofs.shown_known e r); [exact R|]. apply (shown_is e r d R Op), H. }
    assert (Tells : (forall n, made rw n -> oid_ok n) -> exists es, hr_log (rr_repo (after_plan e ts (TxId i) r r1)) = hr_log h ++ es /\ tells rw es).
    { intros On.
      assert (Ok_ : forall o x, rw !! o = Some x -> oid_ok o /\ moid_ok x).
      { intros o x H. split; [apply (ra_oids _ _ R), K; eauto|]. destruct x as [|n]; [exact I|]. apply On. now exists o. }
      cbn [after_plan rr_repo hr_log]. eexists. split; [reflexivity|].
      apply tells_quiet_app; [|intros x o Hx; eapply hook_events_quiet; exact Hx].
      apply tells_app_quiet; [|intros x o Hx; eapply (ra_quiet _ _ R); exact Hx].
      rewrite rewrite_events_spec.
      2:{ apply Forall_forall. intros [o x] Hp. rewrite Rws in Hp. apply elem_of_map_to_list in Hp. now apply Ok_. }
      split.
      * intros x o Hx _. apply elem_of_list_In, in_map_iff in Hx. destruct Hx as ([o' y] & <- & Hp).
        apply elem_of_list_In in Hp. rewrite Rws in Hp. apply elem_of_map_to_list in Hp. eauto 6.
      * intros old new H. exists ts, (TxId i). apply elem_of_list_In, in_map_iff. exists (old, new). split; [reflexivity|].
        apply elem_of_list_In. rewrite Rws. now apply elem_of_map_to_list. }
    pose proof (co_store _ _ _ _ _ _ _ _ CO) as Grow.
    assert (Br : forall n, hi_branch (hr_head (rr_repo (after_plan e ts (TxId i) r r1))) = Some n <->
      hi_branch (hr_head (rr_repo r)) = Some n /\ is_Some (hr_refs (rr_repo (after_plan e ts (TxId i) r r1)) !! n)).
    { intros n. cbn [after_plan rr_repo hr_head hr_refs]. revert Ep. unfold post_rebase, checked_out_head. cbn [with_store start_repo rp_head].
      destruct (hr_head (rr_repo r)) as [ho hb]. cbn in Hh. subst ho. cbn [hi_oid hi_branch updated_head].
      destruct (mr_ok _); [|discriminate]. intros [= <-]. cbn [rp_checkout rp_head rp_refs]. unfold checkout_of.
      destruct hb as [n0|].
      * destruct (mr_refs _ !! n0) as [x|] eqn:Ex'.
        -- rewrite decide_False by congruence. cbn [hi_branch]. split; [intros [= <-]; split; [reflexivity|eauto]|]. intros [H _]. exact H.
        -- split; [|intros [[= <-] [y Y]]; congruence]. destruct (decide _); [now intros [=]|]. destruct head; now intros [=].
      * split; [|now intros [[=] _]]. destruct (rw !! hd) as [[|q]|]; (destruct (decide _); [now intros [=]|]); try destruct head; now intros [=]. }
    constructor.
    + cbn [after_plan rr_store]. now rewrite Est.
    + cbn [after_plan rr_store]. rewrite Est. constructor.
      * intros o. rewrite Which. rewrite G. rewrite (shown_is e r d R Op). unfold asked_by. fold g h. split; [|intros (X & c & [p Y] & Z); eauto].
        intros (X & c & p & Y & Z). eauto 8.
      * intros o n H. destruct (many_made d cs told F' NG T V' _ _ _ _ _ _ _ CO o n H) as (p & q & orig & tree & O & B & So & Pk & Sn).
        rewrite G in O, B. exists p, q, orig, tree. split_and!; auto.
        destruct (ra_store _ _ R o) as (z & Hz & _); [apply K; eauto|]. pose proof (lookup_weaken _ _ _ _ Hz Grow). congruence.
      * intros o H. destruct (many_dropped d cs told F' NG T V' _ _ _ _ _ _ _ CO o H) as (p & q & O & B & Why).
        rewrite G in O, B. exists p, q. split_and!; auto.
    + intros n L. cbn [after_plan rr_repo hr_refs]. now apply Refs.
    + intros n L N. cbn [after_plan rr_repo hr_refs]. now apply Others.
    + exists hd. cbn [after_plan rr_repo hr_head]. destruct (ra_upstream _ _ R) as [up Hup].
      assert (HBr : forall n, hi_branch (rp_head (start_repo r)) = Some n -> rp_refs (start_repo r) !! n = Some hd /\ is_local n = true).
      { intros n Hn. cbn in Hn |- *. split; [|now apply (ra_local _ _ R)]. rewrite <- Hh. exact (io_branch _ _ (ra_order _ _ R) n Hn). }
      assert (Hf : hi_oid (checked_out_head r1) = final_head r1) by (unfold checked_out_head, final_head; destruct (rp_checkout r1); reflexivity).
      rewrite Hf.
      destruct (c32_head_partial d (planner e (rr_store r)) (runner e r) (he_branch (re_hide e)) (he_groups (re_hide e)) (re_iter e) (re_disk e)
        (re_in_memory e) (re_resolve e) allowed cs dest cmds (start_repo r) r1 st' rw head hd up W Kn Pl Cl Fit (ra_sort _ _ R) Fn Nd
        (ra_tables _ _ R) (ra_iter _ _ R) Hup Eb Em Ex0 Hh Hh HBr (many_fixed d cs F' hd)) as [[(q & X1 & X2)|(Y & Z & t & T1 & T2)] _].
      * exists q. split; [exact Hh|]. split; [exact X1|]. left. fold g. rewrite <- G. eapply (many_lands d cs told F' NG T V'); eauto.
      * exists t. split; [exact Hh|]. split; [exact T2|]. right. split; [exact Y|]. split; [exact Z|]. now rewrite <- T1.
    + exact Br.
    + intros Fr. destruct (Tells (fun n M => proj1 (Fr n M))) as (es & El & Te). intros o new H. rewrite El. split; [eapply told_dom; eauto|eapply told_dom_obsolete; eauto].
    + intros Fr. destruct (Tells (fun n M => proj1 (Fr n M))) as (es & El & Te). intros n M. rewrite El. eapply told_made_active; eauto.
    + intros Fr. destruct (Tells (fun n M => proj1 (Fr n M))) as (es & El & Te). intros o v N M. rewrite El. apply (told_outside_status _ es rw Te). now split.
  - (* declined *)
    pose proof (rebase_grows (runner e r) (rr_store r) dest cmds) as Gr. rewrite Em in Gr. destruct Gr as [Gr1 Gr2].
    assert (X : rp = with_store st' (start_repo r) /\ res0 = DeclinedToMerge at_).
    { destruct Mem' as [Hm|Hm]; rewrite Hm in Ex; cbn [negb] in Ex; [now injection Ex as <- <-|]. destruct (negb (re_resolve e)); now injection Ex as <- <-. }
    destruct X as [-> ->].
    assert (Q : forall x o, x ∈ hook_events (re_hide e) ts (TxId i) [] ++ rewrite_events ts (TxId i) [] ++ re_checked_out e (with_store st' (start_repo r)) -> ~ concerns x o).
    { intros x o Hx. apply elem_of_app in Hx. destruct Hx as [Hx|Hx]; [eapply hook_events_quiet; exact Hx|].
      apply elem_of_app in Hx. destruct Hx as [Hx|Hx]; [now apply elem_of_nil in Hx|]. eapply (ra_quiet _ _ R); exact Hx. }
    constructor; cbn [after_plan with_store start_repo rp_store rp_refs rr_store rr_repo hr_refs hr_head hr_log rp_lines rp_rewrites].
    + exact Gr1.
    + reflexivity.
    + reflexivity.
    + intros o v. apply visibility_app_iff. intros x Hx. now apply Q.
    + intros o new. apply rewritten_quiet. exact Q.
  - injection Ex as <- <-. exact I.
Qed.
(** It ends well, or stops at a merge or a conflict. *)
Lemma run_many_works ts i allowed dest cmds r' res : workable e r -> (forall c p, told c p -> p ∈ vertices g) ->
  build d (planner e (rr_store r)) allowed cs = Done (BuiltPlan dest cmds) ->
  run_plan e ts (TxId i) dest cmds r = (r', res) ->
  match res with
  | Succeeded _ => True
  | DeclinedToMerge x => (shown g h x /\ exists c, asked_by told c /\ ancestor g c x) /\
      (merge_commit g x \/ exists q, ee_pick (re_exec e) x q = Conflict)
  | _ => False
  end.
Proof.
  intros Wk Hd Eb Er. destruct Mem as [Eo Mem']. pose proof (dag_is e r d R Op) as G. fold g in G.
  pose proof run_wf as W. pose proof run_F as F'. pose proof run_V as V'. pose proof run_knows as Kn. pose proof (ra_named _ _ R) as Nd.
  assert (Fn : faithful_names (runner e r)) by exact (ra_faithful _ _ R).
  destruct (many_fit d cs told W F' NG T V' (planner e (rr_store r)) eq_refl) as (Pl & Cl & Fit).
  assert (Rd : forall x, x ∈ vertices (dag_graph d) -> readable (runner e r) (rr_store r) x).
  { intros x Hx. rewrite G in Hx. destruct (wk_read _ _ Wk x Hx) as (y & Hy & D). exists y. auto. }
  assert (Pr : present d (planner e (rr_store r)) (runner e r) cs (rr_store r)).
  { constructor.
    - cbn. unfold find_object. intros x y. destruct (rr_store r !! x) as [z|] eqn:E; [|discriminate]. congruence.
    - exact Rd.
    - intros p x Np. apply (many_new_parent d cs told F' NG T) in Np. assert (Hp : p ∈ vertices (dag_graph d)).
      { destruct Np as [H|(_ & _ & _ & P)]; [rewrite G; eauto|]. apply (parent_vertices _ _ _ W) in P. apply P. }
      destruct (Rd p Hp) as (y & Hy & _). unfold there. eauto.
    - intros f Hf. destruct (many_fixed d cs F' _ Hf).
    - intros x y H. cbn in H. rewrite lookup_empty in H. discriminate. }
  pose proof (build_runs d (planner e (rr_store r)) (runner e r) allowed _ dest cmds (rr_store r) W Kn Pl Cl Fit (ra_sort _ _ R) Fn Nd Pr (wk_pick _ _ Wk) (wk_amend _ _ Wk) Eb) as Rn.
  assert (single : forall o l, Pick o l ∈ cmds -> l = [o]).
  { intros o l H. destruct (build_shaped d (planner e (rr_store r)) allowed _ dest cmds _ W (ra_sort _ _ R) Eb H) as [Nl Il].
    assert (S1 : forall f, f ∈ l <-> f = o).
    { intros f. rewrite Il. split; [|auto]. intros [E|E]; [exact E|]. destruct (many_no_fixup d cs F' _ _ E). }
    destruct l as [|a [|b l]].
    - exfalso. assert (X : o ∈ ([] : list oid)) by now apply S1. now apply elem_of_nil in X.
    - f_equal. apply S1. left.
    - exfalso. apply NoDup_cons in Nl. destruct Nl as [Nl _]. apply Nl. rewrite (proj1 (S1 a)) by left. rewrite (proj1 (S1 b)) by (right; left). left. }
  unfold run_plan in Er. destruct (execute_plan _ _ _ _ _ _ _ _ _ _ _) as [rp res0] eqn:Ex. injection Er as <- <-.
  rewrite Eo in Ex. unfold execute_plan in Ex. change (rp_store (start_repo r)) with (rr_store r) in Ex.
  destruct Rn as [([[st' rw] head] & Em)|(x & st' & Em & St)]; rewrite Em in Ex.
  - destruct (post_rebase _ _ _ _ _ _) as [r1 ok] eqn:Ep. assert (ok = true) as ->.
    { revert Ep. unfold post_rebase. rewrite move_branches_go; [congruence|exact (wk_exists _ _ Wk)|exact (wk_write _ _ Wk)|].
      destruct (ra_upstream _ _ R) as [up ->]. discriminate. }
    injection Ex as <- <-. exact I.
  - assert (res0 = DeclinedToMerge x) as ->.
    { destruct Mem' as [Hx|Hx]; rewrite Hx in Ex; cbn [negb] in Ex; [now injection Ex as <- <-|]. destruct (negb (re_resolve e)); now injection Ex as <- <-. }
    assert (In : visible d x /\ exists a q, told a q /\ ancestor (dag_graph d) a x).
    { destruct (rebase_stop _ _ _ _ _ _ Em) as (y & Y1 & Y2).
      destruct (build_applies d (planner e (rr_store r)) allowed _ dest cmds y x W Pl (ra_sort _ _ R) Eb Y1 Y2) as [Rb|Fx]; [|destruct (many_fixed d cs F' _ Fx)].
      now apply (many_rebuilt d cs told F' NG T V'). }
    assert (Hx : x ∈ vertices g).
    { eapply (SyncProofs.shown_known e r); [exact R|]. apply (shown_is e r d R Op), In. }
    split.
    { destruct In as [Vx (c & q & Hc & A)]. split; [now apply (shown_is e r d R Op)|]. exists c. split; [now exists q|]. now rewrite <- G. }
    assert (Mc : forall z, rr_store r !! x = Some z -> is_merge (ob_commit z) = true -> merge_commit g x).
    { intros z Hz Mz. destruct (ra_store _ _ R x Hx) as (y & Hy & Py). rewrite Hy in Hz. injection Hz as <-.
      unfold is_merge in Mz. rewrite Py in Mz. apply Nat.ltb_lt in Mz.
      assert (E : exists ps, (x, ps) ∈ g).
      { apply elem_of_list_to_set, elem_of_list_In, in_map_iff in Hx. destruct Hx as ([x' ps] & <- & Hx). exists ps. now apply elem_of_list_In. }
      destruct E as [ps E]. unfold g in E. rewrite (parents_of_spec _ _ _ _ (io_graph _ _ (ra_order _ _ R)) E) in Mz. exists ps. auto. }
    destruct (rebase_stop_why _ _ _ _ _ _ (fun o l H => single o l H) Em) as [[ts' Hm']|[(y & Hy & My)|Q]]; [|left|right; exact Q].
    + left. pose proof (build_shaped d (planner e (rr_store r)) allowed _ dest cmds _ W (ra_sort _ _ R) Eb Hm') as (cm & Hcm & Mm). cbn in Hcm. unfold find_object in Hcm.
      destruct (rr_store r !! x) as [z|] eqn:Ez; [|discriminate]. injection Hcm as <-. now apply (Mc z).
    + pose proof (rebase_grows (runner e r) (rr_store r) dest cmds) as Gr. rewrite Em in Gr. destruct Gr as [Gr _].
      destruct (ra_store _ _ R x Hx) as (z & Hz & _). rewrite (lookup_weaken _ _ _ _ Hz Gr) in Hy. injection Hy as <-. now apply (Mc z).
Qed.

(** ** The command, given its requests *)
Lemma move_comes_to ts i a allowed : move_requests e d (hi_oid (hr_head (rr_repo r))) a = Go (allowed, cs) ->
  comes_to e r (asked_by told) (as_told g told) (move e ts (TxId i) a r).
Proof.
  intros Rq. unfold comes_to, move. fold h. rewrite Op. fold h in Rq. rewrite Rq.
  destruct (build d (planner e (rr_store r)) allowed cs) as [[dest cmds| |l|l]| | ] eqn:Eb; cbn [mv_end mv_repo]; auto.
  destruct (run_plan e ts (TxId i) dest cmds r) as [r' res] eqn:Er.
  pose proof (run_many ts i allowed dest cmds r' res Eb Er) as H. destruct res; cbn [mv_end mv_repo mv_rewritten]; auto.
Qed.
Lemma move_goes_through ts i a allowed : move_requests e d (hi_oid (hr_head (rr_repo r))) a = Go (allowed, cs) ->
  workable e r -> (forall c p, told c p -> p ∈ vertices g) -> gaps_close d cs -> ~ impossible d cs ->
  (forall c p x, told c p -> ancestor g c x -> x ∈ allowed) -> (exists c p, told c p) ->
  goes_through e r (asked_by told) (move e ts (TxId i) a r).
Proof.
  intros Rq Wk Hd Gp NI Al Ne. unfold goes_through, move. fold h. rewrite Op. fold h in Rq. rewrite Rq.
  destruct (many_plan d cs told run_wf run_F NG T run_V (planner e (rr_store r)) allowed run_knows eq_refl Gp NI) as (dest & cmds & Eb); [|exact Ne|].
  { rewrite (dag_is e r d R Op). exact Al. }
  rewrite Eb. destruct (run_plan e ts (TxId i) dest cmds r) as [r' res] eqn:Er.
  pose proof (run_many_works ts i allowed dest cmds r' res Wk Hd Eb Er) as H. destruct res; cbn [mv_end]; auto. fold g h. tauto.
Qed.
Lemma move_cycle ts tx a allowed : move_requests e d (hi_oid (hr_head (rr_repo r))) a = Go (allowed, cs) ->
  gaps_close d cs -> impossible d cs -> exists l, move e ts tx a r = mk_mr r None (NotMoved (PlanCycle l)).
Proof.
  intros Rq Gp NI. unfold move. fold h. rewrite Op. fold h in Rq. rewrite Rq.
  destruct (many_cycle d cs run_wf run_F (planner e (rr_store r)) allowed Gp NI) as [l ->]. eauto.
Qed.
Lemma move_nothing ts tx a allowed : move_requests e d (hi_oid (hr_head (rr_repo r))) a = Go (allowed, []) ->
  move e ts tx a r = mk_mr r None NothingToDo.
Proof. intros Rq. unfold move. fold h. rewrite Op. fold h in Rq. rewrite Rq. now rewrite (build_none d _ _ run_wf). Qed.
End run.

(** The same said with other words. *)
Lemma becomes_mono (goes goes' : oid -> oid -> Prop) rw p q :
  (forall p o, is_Some (rw !! o) -> goes p o -> goes' p o) -> becomes goes rw p q -> becomes goes' rw p q.
Proof.
  intros H. induction 1 as [p X|p q X|p p' q X B L IH]; [now apply becomes_kept|now apply becomes_new|].
  apply (becomes_dropped _ _ p p' q); [exact X|apply H; eauto|exact IH].
Qed.
Lemma move_done_ext e r (asked asked' : oid -> Prop) (goes goes' : oid -> oid -> Prop) rw r' :
  (forall o, shown (he_graph (re_hide e)) (rr_repo r) o ->
     (exists c, asked c /\ ancestor (he_graph (re_hide e)) c o) <-> (exists c, asked' c /\ ancestor (he_graph (re_hide e)) c o)) ->
  (forall p o, shown (he_graph (re_hide e)) (rr_repo r) o -> (exists c, asked c /\ ancestor (he_graph (re_hide e)) c o) -> goes p o -> goes' p o) ->
  move_done e r asked goes rw r' -> move_done e r asked' goes' rw r'.
Proof.
  intros HA HG [S [M1 M2 M3] B O Hd Br L1 L2 L3].
  assert (HG' : forall p o, is_Some (rw !! o) -> goes p o -> goes' p o).
  { intros p o H. apply M1 in H. now apply HG. }
  constructor; auto.
  - constructor.
    + intros o. rewrite M1. split; intros [X Y]; (split; [exact X|]); now apply HA.
    + intros o n H. destruct (M2 o n H) as (p & q & orig & tree & G & K & X). exists p, q, orig, tree.
      split; [apply HG'; eauto|]. split; [eapply becomes_mono; eauto|exact X].
    + intros o H. destruct (M3 o H) as (p & q & G & K & X). exists p, q.
      split; [apply HG'; eauto|]. split; [eapply becomes_mono; eauto|exact X].
  - destruct Hd as (hd & q & H1 & H2 & H3). exists hd, q. split; [exact H1|]. split; [exact H2|]. destruct H3 as [H3|H3]; [left|right; exact H3].
    eapply becomes_mono; eauto.
Qed.

(** Requests that do not contradict each other mean what they say. *)
Lemma consistent_told g cs : Forall (simple_request g) cs ->
  (forall p p' c, MoveSubtree [p] c ∈ cs -> MoveSubtree [p'] c ∈ cs -> p = p') ->
  forall c p, placed cs c p <-> MoveSubtree [p] c ∈ cs.
Proof.
  intros F U c p. rewrite Forall_forall in F. split.
  - intros (b & ps & a & E & Hp & _). assert (X : MoveSubtree ps c ∈ cs) by (rewrite E; apply elem_of_app; right; left).
    destruct (F _ X) as [(p' & c' & [= -> ->] & _)|(u & v & Y)]; [|discriminate]. apply elem_of_list_singleton in Hp as ->. exact X.
  - intros H. destruct (last_about (mk_dag g ∅ ∅ ∅ ∅ ∅) cs c p H F) as [q Q]. assert (p = q) as ->; [|exact Q].
    apply (U p q c H). destruct Q as (b & ps & a & E & Hp & _). assert (X : MoveSubtree ps c ∈ cs) by (rewrite E; apply elem_of_app; right; left).
    destruct (F _ X) as [(p' & c' & [= -> ->] & _)|(u & v & Y)]; [|discriminate]. apply elem_of_list_singleton in Hp as ->. exact X.
Qed.
