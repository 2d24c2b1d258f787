From Verif Require Import Base TextModel EventLogModel EventLogSpec EventLogProofs EvolveSpec
  DagModel DagSpec DagProofs DagCompProofs StrModel StrProofs HookModel PlanModel PlanSpec PlanProofs PlanBuildProofs PlanProps
  ExecModel ExecSpec ExecProofs ExecBuildProofs ExecAfterProofs ExecProps HideModel HideSpec HideProofs RestackModel RestackSpec RestackProofs
  SyncModel SyncSpec SyncProofs MoveModel MoveSpec MoveProofs MoveReqProofs InsertSpec.
Local Open Scope list_scope.

Section requests.
Context (e : restack_env) (r : rrepo) (d : dag) (a : move_args) (dest : oid).
Let g := he_graph (re_hide e).
Hypothesis M : movable e r (just_moving a) dest.
Hypothesis In : ma_insert a = true.
Hypothesis Op : open_repo (re_hide e) (rr_repo r) = Some d.
Let R := mb_order _ _ _ _ M.
Definition ins_kids (s : commit_set) : commit_set := filter_visible d (children (dag_graph d) {[dest]} ∖ s).

(** What is asked of the builder. *)
Lemma ins_requests : exists s : commit_set, (forall c, c ∈ s <-> subtree_given g a r dest c) /\
  move_requests e d (hi_oid (hr_head (rr_repo r))) a =
  match verify_rewrite_set d (re_force e) (s ∪ children (dag_graph d) {[dest]}) with
  | None => Stop WouldRewritePublic
  | Some allowed =>
      match re_order e (heads (dag_graph d) (descendants (dag_graph d) s)) with
      | [h] => Go (allowed, List.map (MoveSubtree [dest]) (re_order e (roots (dag_graph d) s)) ++
                            List.map (MoveSubtree [h]) (re_order e (ins_kids s)))
      | _ => Stop ManyHeads
      end
  end.
Proof.
  destruct (mb_only _ _ _ _ M) as (Ex & Fx & _). cbn [just_moving ma_exacts ma_fixup] in Ex, Fx.
  destruct (given_bases e r (just_moving a) dest M) as (bases & Eb & Gb).
  exists (⋃ (ma_sources a) ∪ base_commits e d dest bases). split.
  - intros c. rewrite elem_of_union, elem_union.
    rewrite (base_commits_spec e r d (just_moving a) dest M Op bases c) by (intros; now apply Gb).
    unfold subtree_given, given_source. setoid_rewrite Gb. reflexivity.
  - unfold move_requests. pose proof (dest_meant e r (just_moving a) dest M) as Hd. cbn [just_moving ma_dest] in Hd. rewrite Hd. cbn [and_then].
    cbn [just_moving ma_sources ma_bases ma_exacts] in Eb. rewrite Ex in *.
    rewrite (order_none e (ra_sets _ _ R) (⋃ [])) by set_solver.
    change (connected_components (dag_graph d) [] (⋃ [])) with (Some ([] : list commit_set)). cbn [exact_components and_then].
    rewrite (order_one e (ra_sets _ _ R) _ dest) by set_solver. rewrite Eb. cbn [and_then List.map].
    rewrite In, Fx. cbn [orb].
    set (s := ⋃ ma_sources a ∪ base_commits e d dest bases).
    replace (s ∪ ⋃ [] ∪ children (dag_graph d) {[dest]}) with (s ∪ children (dag_graph d) {[dest]}) by set_solver.
    destruct (verify_rewrite_set _ _ _) as [allowed|]; [|reflexivity].
    assert (re_sort e (list_to_set ([] : list oid)) = []) as ->.
    { apply Permutation_nil_r. rewrite (ra_sort _ _ R). cbn. now rewrite elements_empty. }
    cbn [all_component_requests and_then app]. unfold insert_requests. cbn [one_after_another last List.map].
    replace (heads (dag_graph d) (descendants (dag_graph d) s) ∪ ∅) with (heads (dag_graph d) (descendants (dag_graph d) s)) by set_solver.
    destruct (re_order e _) as [|h [|? ?]]; cbn [and_then]; [reflexivity| |reflexivity].
    unfold ins_kids. replace (children (dag_graph d) {[dest]} ∖ s ∖ ⋃ []) with (children (dag_graph d) {[dest]} ∖ s) by set_solver.
    unfold source_requests.
    assert (X : forall l, flat_map (fun s => [MoveSubtree [dest] s]) l = List.map (MoveSubtree [dest]) l) by (induction l; cbn; congruence).
    now rewrite X.
Qed.
End requests.

Section meaning.
Context (e : restack_env) (r : rrepo) (d : dag) (a : move_args) (dest h : oid).
Let g := he_graph (re_hide e).
Hypothesis I : insertable e r a dest h.
Hypothesis Op : open_repo (re_hide e) (rr_repo r) = Some d.
Let M := ib_movable _ _ _ _ _ I.
Let R := mb_order _ _ _ _ M.
Context (s : commit_set).
Hypothesis Hs : forall c, c ∈ s <-> subtree_given g a r dest c.
Let first := to_move e r a dest.
Let kid := makes_way e r a dest.
Definition ins_told (c p : oid) : Prop := (first c /\ p = dest) \/ (kid c /\ p = h).
Let cs := List.map (MoveSubtree [dest]) (re_order e (roots (dag_graph d) s)) ++ List.map (MoveSubtree [h]) (re_order e (ins_kids d dest s)).

Lemma ins_graph : dag_graph d = g. Proof. exact (dag_is e r d R Op). Qed.
Lemma ins_wf : wf_graph g. Proof. exact (graph_wf e r R). Qed.
Lemma ins_first c : c ∈ roots (dag_graph d) s <-> first c.
Proof. exact (sub_first e r d (just_moving a) dest M Op s Hs c). Qed.
Lemma ins_kid c : c ∈ ins_kids d dest s <-> kid c.
Proof.
  unfold ins_kids. rewrite filter_visible_spec by (rewrite ins_graph; exact ins_wf). rewrite elem_of_difference, children_spec, Hs, ins_graph, (shown_is e r d R Op c).
  unfold kid, makes_way. fold g. split.
  - intros [[(p & Hp & P) N] V]. apply elem_of_singleton in Hp as ->. auto.
  - intros (V & P & N). split; [split; [|exact N]|exact V]. exists dest. split; [now apply elem_of_singleton|exact P].
Qed.
Lemma ins_head : re_order e (heads (dag_graph d) (descendants (dag_graph d) s)) = [h].
Proof.
  assert (W : wf_graph (dag_graph d)) by (rewrite ins_graph; exact ins_wf).
  apply (order_one e (ra_sets _ _ R)). intros x. rewrite <- (ib_top _ _ _ _ _ I). unfold top_of. fold g. rewrite heads_spec, ins_graph.
  assert (D : forall y, y ∈ descendants g s <-> exists c, subtree_given g a r dest c /\ ancestor g c y).
  { intros y. rewrite descendants_spec by exact ins_wf. setoid_rewrite Hs. reflexivity. }
  rewrite D. split; (intros [H1 H2]; split; [exact H1|]).
  - intros y P. apply (H2 y); [|exact P]. apply D. destruct H1 as (c & Hc & A). exists c. split; [exact Hc|]. eapply rtc_r; eauto.
  - intros y _. exact (H2 y).
Qed.
Lemma ins_in x : x ∈ cs <-> exists c p, x = MoveSubtree [p] c /\ ins_told c p.
Proof.
  unfold cs. rewrite elem_of_app, !elem_of_list_In, !in_map_iff. unfold ins_told. split.
  - intros [(c & <- & Hc)|(c & <- & Hc)]; apply elem_of_list_In in Hc; rewrite (ra_sets _ _ R), elem_of_elements in Hc.
    + apply ins_first in Hc. exists c, dest. auto.
    + apply ins_kid in Hc. exists c, h. auto.
  - intros (c & p & -> & [[Hc ->]|[Hc ->]]); [left|right]; exists c; (split; [reflexivity|]); apply elem_of_list_In; rewrite (ra_sets _ _ R), elem_of_elements.
    + now apply ins_first.
    + now apply ins_kid.
Qed.
Lemma ins_apart c : first c -> kid c -> False.
Proof. intros [H _] (_ & _ & N). exact (N H). Qed.
Lemma ins_V c p : ins_told c p -> shown g (rr_repo r) c.
Proof. intros [[H _]|[(H & _) _]]; [exact (mb_shown _ _ _ _ M c H)|exact H]. Qed.
Lemma ins_asked c p : ins_told c p -> to_insert e r a dest c.
Proof. intros [[H _]|[H _]]; [left|right]; exact H. Qed.
Lemma ins_NM c p : ins_told c p -> ~ merge_commit g c.
Proof. intros H. eapply (ib_merge _ _ _ _ _ I c c); [eapply ins_asked; eauto|constructor|eapply ins_V; eauto]. Qed.
Lemma ins_F : Forall (simple_request g) cs.
Proof.
  apply Forall_forall. intros x Hx. apply ins_in in Hx. destruct Hx as (c & p & -> & Hc). left. exists p, c. split; [reflexivity|].
  split; [|eapply ins_NM; eauto]. apply (SyncProofs.shown_known e r); [exact R|]. eapply ins_V; eauto.
Qed.
Lemma ins_T c p : placed cs c p <-> ins_told c p.
Proof.
  rewrite (consistent_told g cs ins_F).
  - rewrite ins_in. split; [intros (c' & p' & [= -> ->] & H); auto|intros H; eauto].
  - intros q q' c' H H'. apply ins_in in H, H'. destruct H as (? & ? & [= -> ->] & H), H' as (? & ? & [= -> ->] & H').
    destruct H as [[H ->]|[H ->]], H' as [[H' ->]|[H' ->]]; auto; exfalso; eapply ins_apart; eauto.
Qed.
Lemma ins_no_range x u v : x ∈ cs -> ~ takes_out x u v.
Proof. intros H. apply ins_in in H. destruct H as (c & p & -> & _). intros [X|(t & X & _)]; discriminate. Qed.
Lemma ins_NG x p : ~ closes_gap d cs x p.
Proof.
  intros (_ & _ & b & y & l & u & v & E & X & _). eapply ins_no_range; [|exact X]. rewrite E. apply elem_of_app; right; left.
Qed.
Lemma ins_gaps : gaps_close d cs.
Proof. intros b x l u v E X. exfalso. eapply ins_no_range; [|exact X]. rewrite E. apply elem_of_app; right; left. Qed.
Lemma ins_as_told p c : as_told g ins_told p c -> inserted_onto g first kid dest h p c.
Proof.
  intros [[[H ->]|[H ->]]|[N P]]; [left; auto|right; left; auto|right; right]. split_and!; auto.
  - intros H. apply (N dest). left. auto.
  - intros H. apply (N h). right. auto.
Qed.
Lemma ins_asked_by c : asked_by ins_told c <-> to_insert e r a dest c.
Proof.
  split; [intros [p H]; eapply ins_asked; eauto|]. intros [H|H]; [exists dest; left|exists h; right]; auto.
Qed.
Lemma ins_new_parent p x : new_parent d cs p x <->
  ins_told x p \/ ((forall q, ~ ins_told x q) /\ visible d x /\ (exists a q, ins_told a q /\ ancestor g a x) /\ parent g p x).
Proof.
  rewrite <- ins_graph. apply many_new_parent; [rewrite ins_graph; exact ins_F|exact ins_NG|exact ins_T].
Qed.
Lemma ins_some : exists c p, ins_told c p.
Proof.
  destruct (proj2 (ib_top _ _ _ _ _ I h) eq_refl) as [(c & Hc & _) _]. fold g in Hc. apply Hs in Hc.
  destruct (above_root (dag_graph d) s c) as (f & Hf & _); [rewrite ins_graph; exact ins_wf|exact Hc|]. exists f, dest. left. split; [now apply ins_first|reflexivity].
Qed.
Lemma ins_top_above : exists c, first c /\ ancestor g c h.
Proof.
  destruct (proj2 (ib_top _ _ _ _ _ I h) eq_refl) as [(c & Hc & A) _]. fold g in Hc, A. apply Hs in Hc.
  destruct (above_root (dag_graph d) s c) as (f & Hf & Af); [rewrite ins_graph; exact ins_wf|exact Hc|]. exists f. split; [now apply ins_first|].
  rewrite ins_graph in Af. eapply rtc_transitive; eauto.
Qed.
Lemma ins_told_one x p q : ins_told x p -> visible d x -> parent g q x -> forall q', parent g q' x -> q' = q.
Proof. intros H V P q' P'. eapply (only_one_parent g x); eauto using ins_wf. eapply ins_NM; eauto. Qed.
Lemma ins_possible : (forall c, first c -> ~ ancestor g c dest) -> ~ impossible d cs.
Proof.
  intros NA [x T].
  assert (Kd : forall k, kid k -> visible d k) by (intros k (H & _); now apply (shown_is e r d R Op)).
  assert (NK : forall c k, first c -> kid k -> ~ ancestor g c k).
  { intros c k Hc Hk A. apply rtc_inv_r in A. destruct A as [->|(q & A & P)]; [eapply ins_apart; eauto|].
    rewrite (ins_told_one k h dest (or_intror (conj Hk eq_refl)) (Kd k Hk) (proj1 (proj2 Hk)) q P) in A. exact (NA c Hc A). }
  assert (Nd : forall p, ~ new_parent d cs p dest).
  { intros p H. apply ins_new_parent in H. destruct H as [[[H _]|[H _]]|(_ & _ & (b & q & [[H _]|[H _]] & A) & _)].
    - apply (NA dest H). constructor.
    - destruct H as (_ & P & _). apply (wf_acyclic g dest ins_wf). now apply tc_once.
    - exact (NA b H A).
    - destruct H as (_ & P & _). apply (wf_acyclic g dest ins_wf). eapply tc_rtc_r; [apply tc_once; exact P|exact A]. }
  assert (Z : forall p z, (exists c, first c /\ ancestor g c z) -> new_parent d cs p z ->
    p = dest \/ (parent g p z /\ exists c, first c /\ ancestor g c p)).
  { intros p z (c & Hc & A) H. apply ins_new_parent in H. destruct H as [[[H ->]|[H ->]]|(N & V & (b & q & Hb & _) & P)]; [auto|destruct (NK c z Hc H A)|].
    right. split; [exact P|]. exists c. split; [exact Hc|]. apply rtc_inv_r in A. destruct A as [->|(q' & A & P')]; [destruct (N dest); left; auto|].
    assert (Nm : ~ merge_commit g z).
    { apply (ib_merge _ _ _ _ _ I c z); [left; exact Hc|eapply rtc_r; eauto|now apply (shown_is e r d R Op)]. }
    now rewrite (only_one_parent g z p q' ins_wf Nm P P'). }
  assert (Z' : forall y z, tc (new_parent d cs) y z -> (exists c, first c /\ ancestor g c z) ->
    y = dest \/ (tc (parent g) y z /\ exists c, first c /\ ancestor g c y)).
  { intros y z T'. induction T' as [y z H|y w z H T' IH]; intros C.
    - destruct (Z y z C H) as [X|[X Y]]; [auto|]. right. split; [now apply tc_once|exact Y].
    - destruct (IH C) as [->|[X Y]]; [destruct (Nd y H)|]. destruct (Z y w Y H) as [X'|[X' Y']]; [auto|]. right. split; [eapply tc_l; eauto|exact Y']. }
  assert (Y : forall y z, tc (new_parent d cs) y z -> tc (parent g) y z \/ y = dest \/ exists c, first c /\ ancestor g c y).
  { intros y z T'. induction T' as [y z H|y w z H T' IH].
    - apply ins_new_parent in H. destruct H as [[[H ->]|[H ->]]|(_ & _ & _ & P)]; [auto|right; right; exact ins_top_above|left; now apply tc_once].
    - destruct IH as [X|[->|C]]; [|destruct (Nd y H)|].
      + apply ins_new_parent in H. destruct H as [[[H ->]|[H ->]]|(_ & _ & _ & P)]; [auto|right; right; exact ins_top_above|left; eapply tc_l; eauto].
      + destruct (Z y w C H) as [X|[_ X]]; auto. }
  assert (Nx : x <> dest).
  { intros E. assert (L : forall y z, tc (new_parent d cs) y z -> z = dest -> False).
    { intros y z T'. induction T' as [y z H|y w z H T' IH]; [intros ->; exact (Nd _ H)|exact IH]. }
    exact (L x x T E). }
  destruct (Y x x T) as [C|[C|C]]; [exact (wf_acyclic g x ins_wf C)|exact (Nx C)|].
  destruct (Z' x x T C) as [X|[X _]]; [exact (Nx X)|exact (wf_acyclic g x ins_wf X)].
Qed.
Lemma ins_impossible c : first c -> ancestor g c dest -> shown g (rr_repo r) dest -> impossible d cs.
Proof.
  intros Hc A Sh. exists dest.
  assert (X : forall y, ancestor g c y -> ancestor g y dest -> tc (new_parent d cs) dest y); [|exact (X dest A (rtc_refl _ _))].
  intros y Hy. pattern y. revert y Hy. apply rtc_ind_r; [intros D|intros y z Hy P IH D].
  - apply tc_once, ins_new_parent. left. left. now split.
  - destruct (decide (z ∈ roots (dag_graph d) s)) as [Hz|Nz].
    + apply tc_once, ins_new_parent. left. left. split; [now apply ins_first|reflexivity].
    + eapply tc_r; [apply IH; eapply rtc_l; eauto|]. apply ins_new_parent. right. split_and!.
      * intros q [[H _]|[(_ & H & _) _]]; [apply Nz; now apply ins_first|]. apply (wf_acyclic g dest ins_wf). eapply tc_rtc_r; [apply tc_once; exact H|exact D].
      * apply (shown_is e r d R Op). destruct Sh as (v & Hv & K). exists v. split; [eapply rtc_transitive; eauto|exact K].
      * exists c, dest. split; [left; now split|eapply rtc_r; eauto].
      * exact P.
Qed.
End meaning.

Section inserting.
Context (e : restack_env) (r : rrepo) (a : move_args) (dest h : oid).
Let g := he_graph (re_hide e).
Hypothesis I : insertable e r a dest h.
Let M := ib_movable _ _ _ _ _ I.
Let R := mb_order _ _ _ _ M.

Lemma ins_plan : exists d m s, open_repo (re_hide e) (rr_repo r) = Some d /\ hr_refs (rr_repo r) !! he_main (re_hide e) = Some m /\
  (forall c, c ∈ s <-> subtree_given g a r dest c) /\
  move_requests e d (hi_oid (hr_head (rr_repo r))) a =
  match verify_rewrite_set d (re_force e) (s ∪ children (dag_graph d) {[dest]}) with
  | None => Stop WouldRewritePublic
  | Some allowed => Go (allowed, List.map (MoveSubtree [dest]) (re_order e (roots (dag_graph d) s)) ++
                            List.map (MoveSubtree [h]) (re_order e (ins_kids d dest s)))
  end.
Proof.
  destruct (opens e r (just_moving a) dest M) as (d & m & Op & Hm). destruct (ins_requests e r d a dest M (ib_insert _ _ _ _ _ I) Op) as (s & Hs & Rq).
  exists d, m, s. rewrite (ins_head e r d a dest h I Op s Hs) in Rq. auto.
Qed.
Lemma ins_comes_to ts i : comes_to e r (to_insert e r a dest) (inserted_onto g (to_move e r a dest) (makes_way e r a dest) dest h) (move e ts (TxId i) a r).
Proof.
  destruct ins_plan as (d & m & s & Op & Hm & Hs & Rq).
  destruct (verify_rewrite_set d (re_force e) _) as [allowed|].
  - pose proof (move_comes_to e r d _ _ R (mb_memory _ _ _ _ M) Op (ins_F e r d a dest h I Op s Hs) (ins_NG e r d a dest h I Op s Hs) (ins_T e r d a dest h I Op s Hs)
      (ins_V e r a dest h I) ts i a allowed Rq) as H.
    unfold comes_to in *. destruct (mv_end _); auto. destruct H as (rw & E & H). exists rw. split; [exact E|].
    eapply move_done_ext; [| |exact H].
    + intros o _. setoid_rewrite ins_asked_by. reflexivity.
    + intros p o _ _. apply ins_as_told.
  - unfold comes_to, move. rewrite Op, Rq. reflexivity.
Qed.
Lemma ins_allowed d m s : open_repo (re_hide e) (rr_repo r) = Some d -> hr_refs (rr_repo r) !! he_main (re_hide e) = Some m ->
  (forall c, c ∈ s <-> subtree_given g a r dest c) ->
  (verify_rewrite_set d (re_force e) (s ∪ children (dag_graph d) {[dest]}) = None <-> insert_public e r a dest) /\
  forall allowed, verify_rewrite_set d (re_force e) (s ∪ children (dag_graph d) {[dest]}) = Some allowed ->
    forall c x, to_insert e r a dest c -> ancestor g c x -> x ∈ allowed.
Proof.
  intros Op Hm Hs. pose proof (dag_is e r d R Op) as G. fold g in G.
  assert (W : wf_graph (dag_graph d)) by (rewrite G; exact (graph_wf e r R)).
  assert (Pu : forall o, public d o <-> is_public e r o).
  { intros o. rewrite (proj1 (unmerged_draft e r d m (ra_order _ _ R) Op Hm)). unfold is_public. rewrite Hm. split; [eauto|]. intros (x & [= <-] & A). exact A. }
  assert (Fi : forall c x, c ∈ s -> ancestor g c x -> exists c', to_move e r a dest c' /\ ancestor g c' x).
  { intros c x Hc A. destruct (above_root (dag_graph d) s c W Hc) as (c' & Hc' & A'). exists c'. split.
    - now apply (ins_first e r d a dest h I Op s Hs).
    - rewrite G in A'. eapply rtc_transitive; eauto. }
  assert (Fo : forall c, to_move e r a dest c -> c ∈ s) by (intros c [H _]; now apply Hs).
  assert (Ch : forall c, c ∈ children (dag_graph d) {[dest]} <-> parent g dest c).
  { intros c. rewrite children_spec, G. split; [intros (p & Hp & P); apply elem_of_singleton in Hp as ->; exact P|]. intros P. exists dest. split; [now apply elem_of_singleton|exact P]. }
  split.
  - rewrite verify_rewrite_set_none by exact W. unfold insert_public. fold g. setoid_rewrite elem_of_union. setoid_rewrite Ch. rewrite G. split; (intros [Hf H]; split; [exact Hf|]).
    + destruct H as (c & o & [Hc|Hc] & A & P); apply Pu in P.
      * destruct (Fi c o Hc A) as (c' & Hc' & A'). exists c', o. auto.
      * exists c, o. auto.
    + destruct H as (c & o & [Hc|Hc] & A & P); apply Pu in P; exists c, o; auto.
  - intros allowed Ev c x Hc A. apply verify_rewrite_set_spec in Ev; [|exact W]. destruct Ev as [Ev _]. rewrite Ev. exists c. split; [|rewrite G; exact A].
    apply elem_of_union. destruct Hc as [Hc|(_ & Hc & _)]; [left; now apply Fo|right; now apply Ch].
Qed.
Lemma ins_ends ts i : workable e r -> dest ∈ vertices g ->
  match mv_end (move e ts (TxId i) a r) with
  | NotMoved WouldRewritePublic => insert_public e r a dest
  | NotMoved (PlanCycle _) => above_itself e r a dest
  | NotMoved _ => False
  | _ => goes_through e r (to_insert e r a dest) (move e ts (TxId i) a r)
  end.
Proof.
  intros Wk Hd. destruct ins_plan as (d & m & s & Op & Hm & Hs & Rq).
  destruct (ins_allowed d m s Op Hm Hs) as [Vn Va].
  pose proof (ins_F e r d a dest h I Op s Hs) as F. pose proof (ins_NG e r d a dest h I Op s Hs) as NG. pose proof (ins_T e r d a dest h I Op s Hs) as T.
  pose proof (ins_V e r a dest h I) as V. pose proof (ins_gaps e r d a dest h I Op s Hs) as Gp. pose proof (mb_memory _ _ _ _ M) as Mem.
  destruct (verify_rewrite_set d (re_force e) _) as [allowed|] eqn:Ev.
  2:{ unfold move. rewrite Op, Rq. cbn [mv_end]. now apply Vn. }
  set (cs := List.map (MoveSubtree [dest]) (re_order e (roots (dag_graph d) s)) ++ List.map (MoveSubtree [h]) (re_order e (ins_kids d dest s))) in *.
  assert (Hh : h ∈ vertices g).
  { destruct (ins_top_above e r d a dest h I Op s Hs) as (c & Hc & A). apply rtc_inv_r in A. destruct A as [<-|(q & _ & P)].
    - apply (SyncProofs.shown_known e r); [exact R|]. exact (mb_shown _ _ _ _ M c Hc).
    - apply (parent_vertices _ _ _ (graph_wf e r R)) in P. apply P. }
  assert (Cy : above_itself e r a dest \/ forall c, to_move e r a dest c -> ~ ancestor g c dest).
  { destruct (existsb (fun x => is_ancestor g x dest) (elements (roots (dag_graph d) s))) eqn:E.
    - left. apply existsb_exists in E. destruct E as (x & Hx & A). exists x. apply elem_of_list_In, elem_of_elements in Hx. split.
      + now apply (ins_first e r d a dest h I Op s Hs).
      + apply is_ancestor_spec in A; [exact A|exact (graph_wf e r R)].
    - right. intros x Hx A. rewrite <- not_true_iff_false in E. apply E, existsb_exists. exists x. split.
      + apply elem_of_list_In, elem_of_elements. now apply (ins_first e r d a dest h I Op s Hs).
      + apply is_ancestor_spec; [exact (graph_wf e r R)|exact A]. }
  assert (Go_ : ~ impossible d cs -> goes_through e r (to_insert e r a dest) (move e ts (TxId i) a r)).
  { intros NI. pose proof (move_goes_through e r d _ _ R Mem Op F NG T V ts i a allowed Rq Wk) as H.
    unfold goes_through in *. assert (X : match mv_end (move e ts (TxId i) a r) with
      | Moved => True | Declined x => shown (he_graph (re_hide e)) (rr_repo r) x /\ (exists c, asked_by (ins_told e r a dest h) c /\ ancestor (he_graph (re_hide e)) c x) /\
      (merge_commit (he_graph (re_hide e)) x \/ exists q, ee_pick (re_exec e) x q = Conflict) | _ => False end).
    { apply H; auto.
      - intros c' p [[_ ->]|[_ ->]]; [exact Hd|exact Hh].
      - intros c' p x H' A. apply (Va allowed eq_refl c' x); [|exact A]. apply ins_asked_by with (h := h). now exists p.
      - exact (ins_some e r d a dest h I Op s Hs). }
    clear H. destruct (mv_end _); auto. destruct X as (X1 & (c' & X2 & X3) & X4). split; [exact X1|]. split; [|exact X4]. exists c'. split; [now apply ins_asked_by in X2|exact X3]. }
  assert (Cyc : impossible d cs -> exists l, build d (planner e (rr_store r)) allowed cs = Done (BuiltCycle l)).
  { pose proof (dag_is e r d R Op) as G. apply c26_moves; [rewrite G; exact (graph_wf e r R)|exact Gp|].
    apply (many_no_fixup d). eapply Forall_impl; [exact F|]. intros x. now rewrite <- G. }
  assert (End : goes_through e r (to_insert e r a dest) (move e ts (TxId i) a r) \/
    exists l, move e ts (TxId i) a r = mk_mr r None (NotMoved (PlanCycle l)) /\ above_itself e r a dest).
  { destruct Cy as [Cy|Cy]; [|left; apply Go_, (ins_possible e r d a dest h I Op s Hs), Cy].
    destruct (build d (planner e (rr_store r)) allowed cs) as [[|  |l|]| |] eqn:Eb.
    3:{ right. exists l. split; [|exact Cy]. unfold move. now rewrite Op, Rq, Eb. }
    all: left; apply Go_; intros J; destruct (Cyc J) as [l' J']; congruence. }
  destruct End as [H|(l & -> & H)]; [|exact H].
  pose proof H as H'. unfold goes_through in H'. destruct (mv_end (move e ts (TxId i) a r)); try contradiction; exact H.
Qed.
Lemma ins_refused_cycle ts tx : ~ insert_public e r a dest -> shown g (rr_repo r) dest -> above_itself e r a dest ->
  exists l, move e ts tx a r = mk_mr r None (NotMoved (PlanCycle l)).
Proof.
  intros NP Sh (c & Hc & A). destruct ins_plan as (d & m & s & Op & Hm & Hs & Rq).
  destruct (ins_allowed d m s Op Hm Hs) as [Vn Va].
  destruct (verify_rewrite_set d (re_force e) _) as [allowed|] eqn:Ev; [|destruct NP; now apply Vn].
  apply (move_cycle e r d _ R Op (ins_F e r d a dest h I Op s Hs) ts tx a allowed Rq (ins_gaps e r d a dest h I Op s Hs)).
  exact (ins_impossible e r d a dest h I Op s Hs c Hc A Sh).
Qed.
Lemma ins_refused_public ts tx : insert_public e r a dest -> move e ts tx a r = mk_mr r None (NotMoved WouldRewritePublic).
Proof.
  intros P. destruct ins_plan as (d & m & s & Op & Hm & Hs & Rq).
  destruct (ins_allowed d m s Op Hm Hs) as [Vn Va]. unfold move. rewrite Op, Rq. apply Vn in P. now rewrite P.
Qed.
End inserting.

(** With several tops it is refused. *)
Lemma ins_many e ts tx a r dest h h' : movable e r (just_moving a) dest -> ma_insert a = true -> h <> h' ->
  top_of (he_graph (re_hide e)) (subtree_given (he_graph (re_hide e)) a r dest) h ->
  top_of (he_graph (re_hide e)) (subtree_given (he_graph (re_hide e)) a r dest) h' ->
  exists why, move e ts tx a r = mk_mr r None (NotMoved why) /\ (why = ManyHeads \/ why = WouldRewritePublic).
Proof.
  intros M In Nh H1 H2. pose proof (mb_order _ _ _ _ M) as R.
  destruct (opens e r (just_moving a) dest M) as (d & m & Op & Hm). destruct (ins_requests e r d a dest M In Op) as (s & Hs & Rq).
  pose proof (dag_is e r d R Op) as G.
  assert (T : forall x, top_of (he_graph (re_hide e)) (subtree_given (he_graph (re_hide e)) a r dest) x -> x ∈ re_order e (heads (dag_graph d) (descendants (dag_graph d) s))).
  { intros x [(c & Hc & A) N]. rewrite (ra_sets _ _ R), elem_of_elements, heads_spec. split.
    - apply descendants_spec; [rewrite G; exact (graph_wf e r R)|]. exists c. split; [now apply Hs|]. now rewrite G.
    - intros y _. rewrite G. apply N. }
  unfold move. rewrite Op, Rq. destruct (verify_rewrite_set _ _ _) as [allowed|]; [|eauto].
  apply T in H1, H2. destruct (re_order e (heads _ _)) as [|x [|y l]]; [eauto| |eauto].
  apply elem_of_list_singleton in H1, H2. congruence.
Qed.
