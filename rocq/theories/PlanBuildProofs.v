(** Building a plan, in terms of the request. *)
From stdpp Require Import sorting relations.
From Verif Require Import Base TextModel DagModel DagSpec DagProofs StrModel StrProofs HookModel PlanModel PlanSpec
  PlanProofs PlanCycleProofs PlanDfsProofs PlanLabelProofs.
Local Open Scope string_scope.
Local Open Scope list_scope.

Lemma tc_iff {A} (R S : A -> A -> Prop) x y : (forall a b, R a b <-> S a b) -> tc R x y <-> tc S x y.
Proof.
  intros H. split; intros T; (induction T; [apply tc_once|eapply tc_l]; eauto); now apply H.
Qed.

(** ** Termination *)
Section fuel.
Context (e : plan_env) (cg : constraint_graph).
Notation E := (edge (cg_inner cg)).

Lemma fold_bind_nofuel {A B} (f : A -> B -> outcome B) l b :
  (forall a s, a ∈ l -> f a s <> NoFuel) -> fold_left (fun r a => bind r (f a)) l (Done b) <> NoFuel.
Proof.
  revert b. induction l as [|a l IH]; intros b H; cbn; [discriminate|].
  destruct (f a b) as [s1| |] eqn:E.
  - apply IH. intros x s Hx. apply H. now right.
  - clear. induction l; cbn; [discriminate|assumption].
  - exfalso. eapply H; [now left|exact E].
Qed.

Lemma apply_commit_fuel r c cm s : apply_commit e cg r c cm s <> NoFuel.
Proof.
  unfold apply_commit. repeat case_match; discriminate.
Qed.

Lemma find_all_kids l kids : find_all (pe_find e) l = Some kids -> forall k, k ∈ kids -> fst k ∈ l /\ pe_find e (fst k) = Some (snd k).
Proof.
  unfold find_all. rewrite all_some_spec. intros Ek [k kc] Hk.
  assert (Hin : Some (k, kc) ∈ List.map Some kids) by (apply elem_of_list_In, in_map, elem_of_list_In; exact Hk).
  rewrite <- Ek in Hin. apply elem_of_list_In, in_map_iff in Hin. destruct Hin as (o & Eo & Ho).
  destruct (pe_find e o) as [oc|] eqn:Fo; [|discriminate]. injection Eo as -> ->. cbn. split; [|exact Fo].
  now apply elem_of_list_In.
Qed.

Lemma visit_fuel fuel r : (forall c, ~ tc E c c) ->
  forall c cm s path, c ∈ universe cg ->
  NoDup path -> (forall x, x ∈ path -> x ∈ universe cg /\ tc E x c) ->
  (size (universe cg) < fuel + length path)%nat ->
  visit fuel e cg r c cm s <> NoFuel.
Proof.
  intros Acyc. induction fuel as [|fuel IH]; intros c cm s path Hc ND Sub L.
  { exfalso. assert (length path <= size (universe cg))%nat; [|cbn in L; lia].
    rewrite <- (size_list_to_set (C := gset oid) path ND). apply subseteq_size.
    intros x Hx. apply elem_of_list_to_set in Hx. now apply Sub. }
  cbn [visit]. destruct (apply_commit e cg r c cm s) as [[s1|]| |] eqn:Ea; cbn [bind]; try discriminate.
  2:{ now apply apply_commit_fuel in Ea. }
  destruct (find_all (pe_find e) _) as [kids|] eqn:Ek; [|discriminate].
  assert (Hkid : forall k s, k ∈ kids -> visit fuel e cg r (fst k) (snd k) s <> NoFuel).
  { intros k s0 Hk. destruct (find_all_kids _ _ Ek k Hk) as [Hin _]. apply sorted_oids_spec in Hin.
    apply (IH _ _ _ (c :: path)).
    - apply node_universe. left. eapply edge_moved. exact Hin.
    - constructor; [|exact ND]. intros Hcp. destruct (Sub c Hcp) as [_ T]. exact (Acyc c T).
    - intros x Hx. apply elem_of_cons in Hx. destruct Hx as [-> |Hx]; [split; [exact Hc|now apply tc_once]|].
      destruct (Sub x Hx) as [A B]. split; [exact A|]. eapply tc_r; eauto.
    - cbn. lia. }
  assert (exists s2, (if needs_label e kids
      then bind (create_label "parent-" s1) (fun r =>
             Done (mk_bs (bs_used (snd r)) (<[c := fst r]> (bs_labels (snd r))) (bs_acc (snd r))))
      else Done s1) = Done s2) as (s2 & ->).
  { destruct (needs_label e kids); [|eauto]. destruct (create_label_total "parent-" s1) as (l & _ & ->). cbn. eauto. }
  cbn [bind]. destruct kids as [|k1 [|k2 kids]]; [discriminate|apply Hkid; now left|].
  destruct (create_label_total "label-" s2) as (l & _ & ->). cbn [bind fst snd].
  apply (fold_bind_nofuel (fun k s => bind (visit fuel e cg r (fst k) (snd k) s) (fun s => Done (push [Reset_ (AtLabel l)] s)))).
  intros k s0 Hk. specialize (Hkid k s0 Hk). destruct (visit fuel e cg r (fst k) (snd k) s0); cbn; congruence.
Qed.

Lemma root_node r : r ∈ find_roots cg -> node cg (root_commit r).
Proof.
  intros Hr. assert (Hin : root_edge r ∈ List.map root_edge (find_roots cg)).
  { apply elem_of_list_In, in_map, elem_of_list_In. exact Hr. }
  destruct r as [p' c|t]; cbn in *; apply find_roots_spec in Hin; destruct Hin as [Hin _]; eapply reached_node; exact Hin.
Qed.

Lemma build_commands_fuel : (forall c, ~ tc E c c) -> build_commands e cg <> NoFuel.
Proof.
  intros Acyc. unfold build_commands. apply fold_bind_nofuel. intros r s Hr. unfold plan_root.
  destruct (root_dest e r); [|discriminate]. destruct (pe_find e (root_commit r)); [|discriminate].
  apply visit_fuel with (path := []); [exact Acyc|apply node_universe, root_node, Hr|constructor| |].
  - intros x Hx. now apply elem_of_nil in Hx.
  - unfold plan_fuel. fold (universe cg). cbn. lia.
Qed.
End fuel.

Lemma build_terminates d e allowed cs : wf_graph (dag_graph d) -> build d e allowed cs <> NoFuel.
Proof.
  intros W. unfold build. destruct (build_constraints_spec d cs W) as (H1 & _ & _).
  destruct (build_constraints d cs) as [cg| |]; cbn [bind]; [|discriminate|congruence].
  pose proof (check_for_cycles_total (cg_inner cg)) as [C1 C2].
  destruct (check_for_cycles (cg_inner cg)) as [[l|]| |] eqn:Ec; cbn [bind]; try congruence.
  destruct (decide _); [|discriminate].
  pose proof (build_commands_fuel e cg (proj1 (check_for_cycles_none _) Ec)) as F.
  destruct (build_commands e cg); cbn [bind]; try congruence; try discriminate.
  destruct (find_roots cg) as [|r rs]; [discriminate|]. destruct (root_dest e r); discriminate.
Qed.

(** ** Cycles *)
Lemma build_cycle_iff d e allowed cs :
  wf_graph (dag_graph d) -> gaps_close d cs ->
  (exists l, build d e allowed cs = Done (BuiltCycle l)) <-> exists c, tc (code_parent d cs) c c.
Proof.
  intros W G. unfold build. destruct (build_constraints_spec d cs W) as (_ & H2 & H3).
  destruct (proj2 H2 G) as [cg Ecg]. rewrite Ecg. cbn [bind]. destruct (H3 cg Ecg) as (_ & _ & HE).
  assert (T : forall c, tc (edge (cg_inner cg)) c c <-> tc (code_parent d cs) c c) by (intros; apply tc_iff, HE).
  pose proof (check_for_cycles_total (cg_inner cg)) as [C1 C2].
  destruct (check_for_cycles (cg_inner cg)) as [[l|]| |] eqn:Ec; cbn [bind]; try congruence.
  - split; [|eauto]. intros _. apply check_for_cycles_some, report_cycle in Ec. destruct Ec as [c Hc].
    exists c. now apply T.
  - rewrite check_for_cycles_none in Ec. split.
    + intros [l Hl]. exfalso. destruct (decide _); [|discriminate].
      destruct (build_commands e cg); cbn [bind] in Hl; try discriminate.
      destruct (find_roots cg) as [|r rs]; [discriminate|]. destruct (root_dest e r); discriminate.
    + intros [c Hc]. exfalso. apply (Ec c). now apply T.
Qed.

Lemma build_cycle_report d e allowed cs l :
  wf_graph (dag_graph d) -> build d e allowed cs = Done (BuiltCycle l) ->
  exists cg, build_constraints d cs = Done cg /\ is_report (cg_inner cg) l.
Proof.
  intros W. unfold build. destruct (build_constraints d cs) as [cg| |] eqn:Ecg; cbn [bind]; try discriminate.
  destruct (check_for_cycles (cg_inner cg)) as [[l'|]| |] eqn:Ec; cbn [bind]; try discriminate.
  - intros [= ->]. exists cg. split; [reflexivity|]. now apply check_for_cycles_some.
  - destruct (decide _); [|discriminate].
    destruct (build_commands e cg); cbn [bind]; try discriminate.
    destruct (find_roots cg) as [|r rs]; [discriminate|]. destruct (root_dest e r); discriminate.
Qed.

(** ** A built plan *)
Lemma build_plan_inv d e allowed cs dest cmds :
  build d e allowed cs = Done (BuiltPlan dest cmds) ->
  exists cg s, build_constraints d cs = Done cg /\ check_for_cycles (cg_inner cg) = Done None /\
    check_permissions cg allowed = ∅ /\ build_commands e cg = Done s /\ cmds = bs_acc s ++ [RegisterExtra] /\
    exists r rs, find_roots cg = r :: rs /\ root_dest e r = Some dest.
Proof.
  unfold build. destruct (build_constraints d cs) as [cg| |] eqn:Ecg; cbn [bind]; try discriminate.
  destruct (check_for_cycles (cg_inner cg)) as [[l'|]| |] eqn:Ec; cbn [bind]; try discriminate.
  destruct (decide (check_permissions cg allowed = ∅)) as [Hp|]; [|discriminate].
  destruct (build_commands e cg) as [s| |] eqn:Es; cbn [bind]; try discriminate.
  destruct (find_roots cg) as [|r rs] eqn:Er; [discriminate|]. destruct (root_dest e r) eqn:Ed; [|discriminate].
  intros [= <- <-]. exists cg, s. eauto 15.
Qed.

Lemma node_rebuilt d cs cg : targets_stay d cs ->
  (forall t, t ∈ commits_to_fixup cg <-> fixup_target cs t) ->
  (forall p c, edge (cg_inner cg) p c <-> code_parent d cs p c) ->
  (forall c, moved cg c <-> moves d cs c) /\ (forall c, node cg c <-> rebuilt d cs c).
Proof.
  intros T Ht He.
  assert (M : forall c, moved cg c <-> moves d cs c).
  { intros c. unfold moved, commits_to_move, moves. rewrite all_values_spec. setoid_rewrite He.
    setoid_rewrite (fun p => code_parent_new d cs p c T). reflexivity. }
  split; [exact M|]. intros c. unfold node, rebuilt, target. now rewrite M, Ht.
Qed.

Lemma merge_commit_spec d e c cm :
  wf_graph (dag_graph d) -> knows d e -> c ∈ vertices (dag_graph d) -> pe_find e c = Some cm ->
  is_merge cm = true <-> merge_commit (dag_graph d) c.
Proof.
  intros W K Hc Hf. destruct (K c Hc) as (cm' & Hf' & Hp). rewrite Hf in Hf'. injection Hf' as <-.
  unfold is_merge, merge_commit. rewrite Nat.ltb_lt, Hp. split.
  - intros L. apply vertices_spec in Hc. destruct Hc as [ps Hps]. exists ps. split; [exact Hps|].
    now rewrite (parents_of_spec _ _ _ _ W Hps) in L.
  - intros (ps & Hps & L). now rewrite (parents_of_spec _ _ _ _ W Hps).
Qed.

Lemma plannable_well_planned d e cs cg :
  wf_graph (dag_graph d) -> knows d e -> plannable d e cs ->
  build_constraints d cs = Done cg -> check_for_cycles (cg_inner cg) = Done None ->
  well_planned e cg.
Proof.
  intros W K [P1 P2 P3 P4 P5 P6] Ecg Ec. destruct (build_constraints_spec d cs W) as (_ & _ & H3).
  destruct (H3 cg Ecg) as (Hfx & Ht & He). destruct (node_rebuilt d cs cg P6 Ht He) as [HM HN].
  assert (He' : forall p c, edge (cg_inner cg) p c <-> new_parent d cs p c).
  { intros p c. rewrite He. now apply code_parent_new. }
  assert (Hm : forall c cm, node cg c -> pe_find e c = Some cm -> is_merge cm = true <-> merge_commit (dag_graph d) c).
  { intros c cm Nd Hf. apply merge_commit_spec with e; auto. apply P1. now apply HN. }
  assert (Hm' : forall c, node cg c -> merges e c <-> merge_commit (dag_graph d) c).
  { intros c Nd. unfold merges. destruct (K c) as (cm & Hf & _); [now apply P1, HN|]. split.
    - intros (cm' & Hf' & M). apply (Hm c cm' Nd Hf'). exact M.
    - intros M. exists cm. split; [exact Hf|]. now apply (Hm c cm Nd Hf). }
  constructor.
  - now apply check_for_cycles_none.
  - intros c Nd. destruct (K c) as (cm & Hf & _); [now apply P1, HN|eauto].
  - exact P2.
  - intros s s' c Nm Hr Hr'. pose proof (reached_node _ _ _ Hr) as Nd.
    assert (Nm' : ~ merge_commit (dag_graph d) c) by (intros M; now apply Nm, Hm').
    destruct s as [p|], s' as [p'|]; cbn in *.
    + f_equal. apply (P3 p p' c Nm'); now apply He'.
    + destruct Hr' as [_ N]. exfalso. apply N. eapply edge_moved. exact Hr.
    + destruct Hr as [_ N]. exfalso. apply N. eapply edge_moved. exact Hr'.
    + reflexivity.
  - intros t cm Htt Nmv Hf. apply Ht in Htt. destruct (P5 t Htt) as [p Hp].
    destruct (K t) as (cm' & Hf' & Hps); [apply P1; now right|]. rewrite Hf in Hf'. injection Hf' as <-.
    apply parent_parents_of in Hp; [|exact W]. rewrite Hps. intros E0. rewrite E0 in Hp. now apply elem_of_nil in Hp.
  - intros c cm Nd Hf M. apply (Hm c cm Nd Hf) in M. apply HN in Nd. destruct (P4 c M Nd) as (A & B & C & D).
    destruct (K c) as (cm' & Hf' & Hps); [now apply P1|]. rewrite Hf in Hf'. injection Hf' as <-.
    split_and!.
    + intros T. apply Ht in T. tauto.
    + unfold fixup_commits. rewrite all_values_spec. intros [t Hh]. apply Hfx in Hh. apply B. exists t. exact Hh.
    + intros p Np. rewrite Hps, <- (parent_parents_of _ _ _ W), He'. apply HN in Np. specialize (D p Np).
      destruct (decide (p ∈ parents_of (dag_graph d) c)) as [Hin|Hin]; rewrite <- (parent_parents_of _ _ _ W) in Hin.
      * left. split; [|tauto]. apply HM. destruct Np as [Np|Np]; [exact Np|]. eapply C; eauto.
      * right. tauto.
Qed.

Lemma elem_of_sublist {A} (x : A) l k : x ∈ l -> sublist l k -> x ∈ k.
Proof. intros H S. induction S; set_solver. Qed.
Lemma sublist_NoDup {A} (l k : list A) : sublist l k -> NoDup k -> NoDup l.
Proof.
  intros S. induction S as [|x l k S IH|x l k S IH]; intros N; [constructor| |].
  - apply NoDup_cons in N. destruct N as [A1 A2]. apply NoDup_cons. split; [|auto].
    intros H. apply A1. eapply elem_of_sublist; eauto.
  - apply NoDup_cons in N. apply IH, N.
Qed.

Lemma sublist_order {A} (r v : list A) l1 c l2 m1 m2 p :
  sublist r v -> NoDup v -> r = l1 ++ c :: l2 -> v = m1 ++ c :: m2 -> p ∈ m1 -> p ∈ r -> p ∈ l1.
Proof.
  intros S ND Er Ev Hp Hr. rewrite Ev in S, ND. apply NoDup_app in ND. destruct ND as (N1 & N2 & N3).
  apply sublist_app_r in S. destruct S as (k1 & k2 & Ek & S1 & S2).
  rewrite Ek, elem_of_app in Hr.
  assert (Pk2 : p ∉ k2). { intros H. apply (N2 p Hp). exact (elem_of_sublist _ _ _ H S2). }
  destruct Hr as [Hr|Hr]; [|tauto].
  assert (Ck1 : c ∉ k1). { intros H. apply (N2 c); [exact (elem_of_sublist _ _ _ H S1)|now left]. }
  rewrite Er in Ek. apply app_eq_inv in Ek. destruct Ek as [(k & E1 & E2)|(k & E1 & E2)].
  - subst l1. apply elem_of_app. auto.
  - destruct k as [|x k].
    + rewrite app_nil_r in E1. subst. exact Hr.
    + cbn in E2. injection E2 as -> E2. exfalso. apply Ck1. rewrite E1. set_solver.
Qed.

Lemma build_replays d e allowed cs dest cmds :
  wf_graph (dag_graph d) -> knows d e -> plannable d e cs ->
  build d e allowed cs = Done (BuiltPlan dest cmds) ->
  NoDup (replayed cmds) /\
  (forall c, c ∈ replayed cmds -> rebuilt d cs c) /\
  (forall c, rebuilt d cs c -> ~ fixed_up cs c -> c ∈ replayed cmds) /\
  (forall l1 c l2 p, replayed cmds = l1 ++ c :: l2 ->
     new_parent d cs p c -> rebuilt d cs p -> ~ fixed_up cs p -> p ∈ l1).
Proof.
  intros W K P HB. apply build_plan_inv in HB. destruct HB as (cg & s & Ecg & Ec & Ep & Es & -> & _).
  pose proof (plannable_well_planned d e cs cg W K P Ecg Ec) as WP.
  destruct (build_commands_inv e cg WP) as (s' & V & Es' & Hi). rewrite Es in Es'. injection Es' as <-.
  destruct (build_constraints_spec d cs W) as (_ & _ & H3).
  destruct (H3 cg Ecg) as (Hfx & Ht & He). destruct (node_rebuilt d cs cg (pl_stay _ _ _ P) Ht He) as [HM HN].
  assert (He' : forall p c, edge (cg_inner cg) p c <-> new_parent d cs p c).
  { intros p c. rewrite He. apply code_parent_new. exact (pl_stay _ _ _ P). }
  assert (Hfix : forall c, c ∈ fixup_commits cg <-> fixed_up cs c).
  { intros c. unfold fixup_commits, fixed_up. rewrite all_values_spec. setoid_rewrite Hfx. reflexivity. }
  rewrite replayed_app. cbn. rewrite app_nil_r.
  pose proof (inv_sub _ _ _ _ _ _ Hi) as Sub. pose proof (inv_nodup _ _ _ _ _ _ Hi) as ND.
  split_and!.
  - eapply sublist_NoDup; eauto.
  - intros c Hc. apply HN. eapply inv_node; [exact Hi|]. eapply elem_of_sublist; eauto.
  - intros c Hc Nf. eapply inv_rep; [exact Hi| |now rewrite Hfix]. eapply all_visited; [exact WP|exact Hi|]. now apply HN.
  - intros l1 c l2 p Er Hp Hrp Nf.
    assert (Hc : c ∈ V). { eapply elem_of_sublist; [|exact Sub]. rewrite Er. set_solver. }
    apply elem_of_list_split in Hc. destruct Hc as (m1 & m2 & Ev).
    assert (p ∈ m1). { eapply inv_order; [exact Hi|exact Ev|now apply He'|now apply HN]. }
    eapply sublist_order; [exact Sub|exact ND|exact Er|exact Ev|assumption|].
    eapply inv_rep; [exact Hi| |now rewrite Hfix]. rewrite Ev. set_solver.
Qed.

(** Such requests are carried out, refused for a cycle or for permissions. *)
Lemma build_total d e allowed cs :
  wf_graph (dag_graph d) -> knows d e -> plannable d e cs -> gaps_close d cs -> ~ impossible d cs ->
  (forall c, moves d cs c -> c ∈ allowed) -> (exists c, rebuilt d cs c) ->
  exists dest cmds, build d e allowed cs = Done (BuiltPlan dest cmds).
Proof.
  intros W K P G NI Al [c0 Hc0]. destruct (build_constraints_spec d cs W) as (_ & H2 & H3).
  destruct (proj2 H2 G) as [cg Ecg]. destruct (H3 cg Ecg) as (Hfx & Ht & He).
  destruct (node_rebuilt d cs cg (pl_stay _ _ _ P) Ht He) as [HM HN].
  assert (Ec : check_for_cycles (cg_inner cg) = Done None).
  { apply check_for_cycles_none. intros c T. apply NI. exists c. revert T. apply tc_iff. intros a b. rewrite He. symmetry.
    apply code_parent_new. exact (pl_stay _ _ _ P). }
  pose proof (plannable_well_planned d e cs cg W K P Ecg Ec) as WP.
  destruct (build_commands_inv e cg WP) as (s & V & Es & Hi).
  unfold build. rewrite Ecg. cbn [bind]. rewrite Ec. cbn [bind].
  rewrite decide_True.
  2:{ unfold check_permissions. apply elem_of_equiv_empty_L. intros c. rewrite elem_of_difference. intros [H N].
      apply N, Al, HM. exact H. }
  rewrite Es. cbn [bind]. destruct (find_roots cg) as [|r rs] eqn:Er.
  - exfalso. apply HN in Hc0. revert c0 Hc0.
    apply (acyclic_ind (cg_inner cg) (fun c => node cg c -> False) (wp_acyclic e cg WP)).
    intros c IH Nd.
    assert (exists s, reached cg s c) as [s0 Hr].
    { destruct (decide (c ∈ commits_to_move cg)) as [M|M].
      - unfold commits_to_move in M. rewrite all_values_spec in M. destruct M as [p H]. exists (Some p). exact H.
      - exists None. destruct Nd as [H|H]; [unfold moved in H; tauto|]. split; assumption. }
    assert (Hin : (s0, c) ∈ List.map root_edge (find_roots cg)).
    { apply find_roots_spec. split; [exact Hr|]. intros p -> Np. eapply IH; [exact Hr|exact Np]. }
    rewrite Er in Hin. now apply elem_of_nil in Hin.
  - assert (Hr : r ∈ find_roots cg) by (rewrite Er; now left).
    assert (Hd : exists p, root_dest e r = Some p); [|destruct Hd as [p ->]; eauto].
    destruct r as [p c|t]; cbn; [eauto|].
    assert (Hin : (None, t) ∈ List.map root_edge (find_roots cg)).
    { apply elem_of_list_In, (in_map root_edge _ (RootFixup t)), elem_of_list_In. exact Hr. }
    apply find_roots_spec in Hin. destruct Hin as [[T Nm] _].
    destruct (wp_find e cg WP t (or_intror T)) as [cm Hcm]. rewrite Hcm.
    pose proof (wp_dest e cg WP t cm T Nm Hcm). destruct (commit_parents cm); [congruence|eauto].
Qed.

(** ** Subtree moves *)
Lemma subtree_moves_plannable d e cs :
  wf_graph (dag_graph d) ->
  Forall (fun x => exists p c, x = MoveSubtree [p] c /\ c ∈ vertices (dag_graph d) /\ ~ merge_commit (dag_graph d) c) cs ->
  (forall c r, pe_replace e !! c = Some r -> exists rc, pe_find e r = Some rc) ->
  plannable d e cs /\ gaps_close d cs.
Proof.
  intros W F R.
  assert (NoRange : forall x a b, x ∈ cs -> ~ takes_out x a b).
  { intros x a b Hx T. rewrite Forall_forall in F. destruct (F x Hx) as (p & c & -> & _).
    destruct T as [T|(t & T & _)]; discriminate. }
  assert (NoFix : forall t, ~ fixup_target cs t).
  { intros t [f Hx]. rewrite Forall_forall in F. destruct (F _ Hx) as (p & c & ? & _). discriminate. }
  assert (NoGap : forall c p, ~ closes_gap d cs c p).
  { intros c p (_ & _ & b & x & a & a1 & b1 & E & T & _). eapply NoRange; [|exact T]. rewrite E. set_solver. }
  assert (Placed : forall c p, placed cs c p -> c ∈ vertices (dag_graph d) /\ ~ merge_commit (dag_graph d) c).
  { intros c p (b & ps & a & E & Hp & _). rewrite Forall_forall in F.
    destruct (F (MoveSubtree ps c)) as (p' & c' & [= -> ->] & A & B); [rewrite E; set_solver|]. auto. }
  assert (Req : forall c, requested d cs c -> c ∈ vertices (dag_graph d) /\ ~ merge_commit (dag_graph d) c).
  { intros c [p [H|H]]; [eauto|]. now apply NoGap in H. }
  assert (One : forall c p p', placed cs c p -> placed cs c p' -> p = p').
  { clear -F. intros c p p'. induction cs as [|x cs' IH] using rev_ind.
    - intros (b & ps & a & E & _). destruct b; discriminate.
    - apply Forall_app in F. destruct F as [F Fx]. inversion Fx as [|? ? (q & c' & -> & _) _]; subst.
      rewrite !placed_snoc. cbn. intros [(ps & E & H)|[H N]] [(ps' & E' & H')|[H' N']].
      + injection E as <- ->. injection E' as <-. apply elem_of_list_singleton in H, H'. congruence.
      + congruence.
      + congruence.
      + eauto. }
  split; [|intros b x a a1 b1 E T; exfalso; eapply NoRange; [|exact T]; rewrite E; set_solver].
  constructor.
  - intros c [[p [H|[H|H]]]|H]; [now apply Placed in H|now apply NoGap in H| |now apply NoFix in H].
    destruct H as (_ & _ & H & _). eapply parent_vertices; [exact W|exact H].
  - exact R.
  - intros p p' c Nm [H|[H|H]] [H'|[H'|H']]; try (now apply NoGap in H); try (now apply NoGap in H').
    + eauto.
    + destruct H' as (N & _). exfalso. apply N. exists p. auto.
    + destruct H as (N & _). exfalso. apply N. exists p'. auto.
    + destruct H as (_ & _ & H & _), H' as (_ & _ & H' & _).
      apply parent_parents_of in H, H'; [|exact W..].
      destruct (parents_of (dag_graph d) c) as [|x [|y l]] eqn:E; [now apply elem_of_nil in H|set_solver|].
      exfalso. apply Nm. destruct (decide (c ∈ vertices (dag_graph d))) as [Hv|Hv].
      * apply vertices_spec in Hv. destruct Hv as [ps Hps]. exists ps. split; [exact Hps|].
        rewrite <- (parents_of_spec _ _ _ _ W Hps), E. cbn. lia.
      * apply parents_of_none in Hv. congruence.
  - intros c M Hc. split_and!; [apply NoFix| | |].
    + intros [t H]. eapply NoFix. exists c. exact H.
    + intros p _ H. now apply NoFix in H.
    + intros p _. split.
      * intros [H|[H|H]]; [now apply Placed in H|now apply NoGap in H|]. apply H.
      * intros Hp. destruct Hc as [[q [H|[H|H]]]|H]; [now apply Placed in H|now apply NoGap in H| |now apply NoFix in H].
        right. right. destruct H as (A & B & _ & C). split_and!; auto.
  - intros t H. now apply NoFix in H.
  - intros t H. now apply NoFix in H.
Qed.

(** ** Permissions *)
Lemma verify_rewrite_set_spec d force s allowed : wf_graph (dag_graph d) ->
  verify_rewrite_set d force s = Some allowed ->
  (forall c, c ∈ allowed <-> exists a, a ∈ s /\ ancestor (dag_graph d) a c) /\
  (force = false -> forall c, c ∈ allowed -> ~ public d c).
Proof.
  intros W. unfold verify_rewrite_set. destruct (negb force && _)%bool eqn:Eb; [discriminate|].
  intros [= <-]. split; [intros c; now apply descendants_spec|]. intros -> c Hc Hp. cbn in Eb.
  apply negb_false_iff, bool_decide_eq_true in Eb. apply public_spec in Hp; [|exact W]. set_solver.
Qed.

Lemma verify_rewrite_set_none d force s : wf_graph (dag_graph d) ->
  verify_rewrite_set d force s = None <->
  force = false /\ exists a c, a ∈ s /\ ancestor (dag_graph d) a c /\ public d c.
Proof.
  intros W. unfold verify_rewrite_set. destruct force; cbn [negb andb].
  - split; [discriminate|]. intros [H _]. discriminate.
  - case_bool_decide as Eb; cbn [negb].
    + split; [discriminate|]. intros (_ & a & c & Ha & Hac & Hp). exfalso.
      assert (c ∈ descendants (dag_graph d) s) by (apply descendants_spec; eauto).
      apply public_spec in Hp; [|exact W]. set_solver.
    + split; [|reflexivity]. intros _. split; [reflexivity|].
      apply set_choose_L in Eb. destruct Eb as [c Hc]. apply elem_of_intersection in Hc. destruct Hc as [Hp Hd].
      apply public_spec in Hp; [|exact W]. apply descendants_spec in Hd; [|exact W]. destruct Hd as (a & Ha & Hac). eauto.
Qed.

Lemma build_permitted d e allowed cs dest cmds :
  wf_graph (dag_graph d) -> (forall fs, Permutation (pe_sort e fs) (elements fs)) ->
  build d e allowed cs = Done (BuiltPlan dest cmds) ->
  (forall c p, code_parent d cs p c -> c ∈ allowed) /\
  (forall c, c ∈ replayed cmds -> c ∈ allowed \/ fixup_target cs c) /\
  (forall x c, x ∈ cmds -> c ∈ applies x -> c ∈ allowed \/ fixup_target cs c \/ fixed_up cs c).
Proof.
  intros W Hsort HB. apply build_plan_inv in HB. destruct HB as (cg & s & Ecg & Ec & Ep & Es & -> & _).
  destruct (build_constraints_spec d cs W) as (_ & _ & H3). destruct (H3 cg Ecg) as (Hfx & Ht & He).
  pose proof (build_commands_mentions e cg s Hsort Es) as M.
  assert (Al : forall c, moved cg c -> c ∈ allowed).
  { intros c Hc. unfold check_permissions in Ep. unfold moved in Hc. destruct (decide (c ∈ allowed)); [assumption|set_solver]. }
  assert (Nd : forall c, node cg c -> c ∈ allowed \/ fixup_target cs c).
  { intros c [H|H]; [auto|]. right. now apply Ht. }
  rewrite Forall_forall in M. split_and!.
  - intros c p H. apply Al. eapply edge_moved. apply He. exact H.
  - intros c. rewrite replayed_app. cbn. rewrite app_nil_r. intros Hc. apply elem_of_list_In, in_flat_map in Hc.
    destruct Hc as (x & Hx & Hc). apply Nd. apply (M x); now apply elem_of_list_In.
  - intros x c Hx Hc. apply elem_of_app in Hx. destruct Hx as [Hx|Hx].
    + destruct (M x Hx) as [_ A]. destruct (A c Hc) as [H|H]; [destruct (Nd c H); auto|].
      right. right. unfold fixup_commits in H. rewrite all_values_spec in H. destruct H as [t H]. exists t. now apply Hfx.
    + apply elem_of_list_singleton in Hx. subst. cbn in Hc. now apply elem_of_nil in Hc.
Qed.

Lemma build_labels d e allowed cs dest cmds :
  build d e allowed cs = Done (BuiltPlan dest cmds) ->
  NoDup (flat_map label_defs cmds) /\
  forall l1 x l2 l, cmds = l1 ++ x :: l2 -> l ∈ label_uses x -> exists y, y ∈ l1 /\ l ∈ label_defs y.
Proof.
  intros HB. apply build_plan_inv in HB. destruct HB as (cg & s & _ & _ & _ & Es & -> & _).
  destruct (build_commands_labels e cg s Es) as [A B C D]. unfold defs in *. split.
  - rewrite flat_map_app. cbn. rewrite app_nil_r. exact A.
  - intros l1 x l2 l E Hl. destruct l2 as [|y l2 _] using rev_ind.
    + apply app_inj_tail in E. destruct E as [_ <-]. cbn in Hl. now apply elem_of_nil in Hl.
    + rewrite app_comm_cons, app_assoc in E. apply app_inj_tail in E. destruct E as [E _].
      specialize (D _ _ _ E l Hl). apply elem_of_list_In, in_flat_map in D. destruct D as (y' & Hy & Hl').
      exists y'. split; now apply elem_of_list_In.
Qed.
