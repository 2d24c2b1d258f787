(** The constraint graph holds the requested parents. *)
From stdpp Require Import sorting relations.
From Verif Require Import Base TextModel DagModel DagSpec DagProofs StrModel HookModel PlanModel PlanSpec.

(** ** Maps of sets *)
Definition edge (m : gmap oid (gset oid)) (p c : oid) : Prop := c ∈ edges_from m p.

Lemma sorted_oids_spec s o : o ∈ sorted_oids s <-> o ∈ s.
Proof. unfold sorted_oids. rewrite merge_sort_Permutation. apply elem_of_elements. Qed.
Lemma sorted_oids_NoDup s : NoDup (sorted_oids s).
Proof. unfold sorted_oids. rewrite merge_sort_Permutation. apply NoDup_elements. Qed.

Lemma all_values_spec m c : c ∈ all_values m <-> exists p, edge m p c.
Proof.
  unfold all_values, edge, edges_from. rewrite elem_of_union_list. split.
  - intros (s & H & Hc). apply elem_of_list_In, in_map_iff in H. destruct H as ([p s'] & <- & H).
    apply elem_of_list_In, elem_of_map_to_list in H. exists p. rewrite H. exact Hc.
  - intros (p & H). destruct (m !! p) as [s|] eqn:E; [|set_solver].
    exists s. split; [|exact H]. apply elem_of_list_In, in_map_iff. exists (p, s). split; [reflexivity|].
    apply elem_of_list_In, elem_of_map_to_list. exact E.
Qed.

Lemma edge_dom m p c : edge m p c -> p ∈ dom m.
Proof.
  unfold edge, edges_from. intros H. apply elem_of_dom. destruct (m !! p); [eauto|set_solver].
Qed.

Lemma edge_empty p c : ~ edge ∅ p c.
Proof. unfold edge, edges_from. rewrite lookup_empty. set_solver. Qed.

Lemma edge_add p0 c0 m p c : edge (add_edge p0 c0 m) p c <-> (p = p0 /\ c = c0) \/ edge m p c.
Proof.
  unfold edge, add_edge. unfold edges_from at 1. destruct (decide (p = p0)) as [->|N].
  - rewrite lookup_insert. set_solver.
  - rewrite lookup_insert_ne by congruence. unfold edges_from. set_solver.
Qed.

Lemma edge_remove c0 m p c : edge (remove_child c0 m) p c <-> edge m p c /\ c <> c0.
Proof.
  unfold edge, remove_child, edges_from. rewrite lookup_fmap. destruct (m !! p); cbn; set_solver.
Qed.

Lemma edge_add_parents ps c0 m p c :
  edge (fold_left (fun m p => add_edge p c0 m) ps m) p c <-> (p ∈ ps /\ c = c0) \/ edge m p c.
Proof.
  revert m. induction ps as [|q ps IH]; intros m; cbn [fold_left].
  - set_solver.
  - rewrite IH, edge_add. set_solver.
Qed.

Lemma edge_add_children p0 l m p c :
  edge (fold_left (fun m c => add_edge p0 c m) l m) p c <-> (p = p0 /\ c ∈ l) \/ edge m p c.
Proof.
  revert m. induction l as [|q ps IH]; intros m; cbn [fold_left].
  - set_solver.
  - rewrite IH, edge_add. set_solver.
Qed.

(** ** The first pass *)
Lemma first_pass_snoc cs x cg : first_pass (cs ++ [x]) cg =
  match x with
  | MoveChildren _ _ => first_pass cs cg
  | MoveSubtree ps child =>
      mk_cg (fold_left (fun m p => add_edge p child m) ps (remove_child child (cg_inner (first_pass cs cg))))
        (cg_fixups (first_pass cs cg))
  | FixUpCommit target fixup =>
      mk_cg (remove_child fixup (cg_inner (first_pass cs cg))) (add_edge target fixup (cg_fixups (first_pass cs cg)))
  end.
Proof. unfold first_pass. rewrite fold_left_app. cbn. destruct x; reflexivity. Qed.

Lemma placed_snoc cs x c p : placed (cs ++ [x]) c p <->
  (exists ps, x = MoveSubtree ps c /\ p ∈ ps) \/ (placed cs c p /\ ~ about c x).
Proof.
  unfold placed. split.
  - intros (before & ps & after & E & Hp & Hf). destruct after as [|y after] using rev_ind.
    + apply app_inj_tail in E. destruct E as [_ ->]. left. eauto.
    + clear IHafter. rewrite app_comm_cons, app_assoc in E. apply app_inj_tail in E. destruct E as [-> ->].
      apply Forall_app in Hf. destruct Hf as [Hf Hy]. right. split; [|now inversion Hy]. eauto 10.
  - intros [(ps & -> & Hp)|((before & ps & after & -> & Hp & Hf) & Hx)].
    + exists cs, ps, []. auto.
    + exists before, ps, (after ++ [x]). rewrite <- app_assoc. split_and!; [reflexivity|exact Hp|].
      apply Forall_app. auto.
Qed.

Lemma first_pass_edge cs cg p c :
  edge (cg_inner (first_pass cs cg)) p c <->
  placed cs c p \/ (edge (cg_inner cg) p c /\ Forall (fun x => ~ about c x) cs).
Proof.
  induction cs as [|x cs IH] using rev_ind.
  - cbn. split; [auto|]. intros [(b & ps & a & E & _)|[H _]]; [destruct b; discriminate|exact H].
  - rewrite first_pass_snoc, placed_snoc, Forall_app, Forall_singleton. destruct x as [a b|ps c'|t f]; cbn.
    + rewrite IH. naive_solver.
    + rewrite edge_add_parents, edge_remove, IH. split.
      * intros [[Hp ->]|[[H|[H1 H2]] Hne]]; [left; left; eauto|left; right; split; [exact H|congruence]|].
        right. split_and!; auto.
      * intros [[(ps' & E & Hp)|[H N]]|(H & Hf & N)].
        -- injection E as -> ->. auto.
        -- right. split; [auto|congruence].
        -- right. split; [auto|congruence].
    + rewrite edge_remove, IH. split.
      * intros [[H|[H1 H2]] Hne]; [left; right; split; [exact H|congruence]|].
        right. split_and!; auto.
      * intros [[(ps' & E & _)|[H N]]|(H & Hf & N)]; [discriminate|split; [auto|congruence]..].
Qed.

Lemma first_pass_fixups cs cg t f :
  edge (cg_fixups (first_pass cs cg)) t f <-> FixUpCommit t f ∈ cs \/ edge (cg_fixups cg) t f.
Proof.
  induction cs as [|x cs IH] using rev_ind.
  - cbn. set_solver.
  - rewrite first_pass_snoc, elem_of_app, elem_of_list_singleton. destruct x as [a b|ps c'|t' f']; cbn.
    + rewrite IH. naive_solver.
    + rewrite IH. naive_solver.
    + rewrite edge_add, IH. naive_solver.
Qed.

Lemma dom_add_edge t f m : dom (add_edge t f m) = {[t]} ∪ dom m.
Proof. apply dom_insert_L. Qed.

Lemma first_pass_targets cs cg t :
  t ∈ commits_to_fixup (first_pass cs cg) <-> fixup_target cs t \/ t ∈ commits_to_fixup cg.
Proof.
  unfold fixup_target. induction cs as [|x cs IH] using rev_ind.
  - cbn. split; [auto|]. intros [[f H]|H]; [now apply elem_of_nil in H|exact H].
  - rewrite first_pass_snoc. setoid_rewrite elem_of_app. setoid_rewrite elem_of_list_singleton.
    unfold commits_to_fixup in *. destruct x as [a b|ps c'|t' f']; cbn.
    + rewrite IH. naive_solver.
    + rewrite IH. naive_solver.
    + rewrite dom_add_edge, elem_of_union, IH, elem_of_singleton. naive_solver.
Qed.

(** ** The second pass *)
Lemma only_parent_spec g c p : get_only_parent g c = Some p <-> only_parent g c p.
Proof.
  unfold get_only_parent, only_parent.
  assert (H : forall q, q ∈ elements (parents g {[c]}) <-> parent g q c).
  { intros q. rewrite elem_of_elements, parents_spec. set_solver. }
  pose proof (NoDup_elements (parents g {[c]})) as ND.
  destruct (elements (parents g {[c]})) as [|x [|y l]].
  - split; [discriminate|]. intros E. specialize (proj2 (E p) eq_refl) as F. apply H in F. now apply elem_of_nil in F.
  - split.
    + intros [= ->] q. rewrite <- H, elem_of_list_singleton. reflexivity.
    + intros E. f_equal. apply E, H. set_solver.
  - split; [discriminate|]. intros E. exfalso.
    assert (x = p) by (apply E, H; set_solver). assert (y = p) by (apply E, H; set_solver).
    subst. inversion ND. set_solver.
Qed.

Lemma only_parent_det g c p p' : only_parent g c p -> only_parent g c p' -> p = p'.
Proof. intros H1 H2. apply H2, H1. reflexivity. Qed.

Lemma settles_det d gone c p p' : settles d gone c p -> settles d gone c p' -> p = p'.
Proof.
  intros H. revert p'. induction H as [c p H N|c q p H G _ IH]; intros p' H'.
  - inversion H' as [? ? H2 N2|? q ? H2 G2 S2]; subst.
    + eauto using only_parent_det.
    + rewrite (only_parent_det _ _ _ _ H H2) in N. tauto.
  - inversion H' as [? ? H2 N2|? q' ? H2 G2 S2]; subst.
    + rewrite (only_parent_det _ _ _ _ H H2) in G. tauto.
    + rewrite <- (only_parent_det _ _ _ _ H H2) in S2. auto.
Qed.

Lemma climb_spec d stop gone :
  wf_graph (dag_graph d) -> (forall o, stop o = false <-> gone o) ->
  forall fuel c p0, only_parent (dag_graph d) c p0 -> (rank (dag_graph d) p0 < fuel)%nat ->
  climb fuel (dag_graph d) stop p0 <> NoFuel /\
  forall p, climb fuel (dag_graph d) stop p0 = Done p <-> settles d gone c p.
Proof.
  intros W Hs fuel. induction fuel as [|fuel IH]; intros c p0 Hp L; [lia|].
  cbn [climb]. destruct (stop p0) eqn:E.
  - assert (G : ~ gone p0) by (intros G; apply Hs in G; congruence).
    split; [discriminate|]. intros p. split.
    + intros [= <-]. now constructor.
    + intros H. f_equal. eapply settles_det; [|exact H]. now constructor.
  - apply Hs in E. destruct (get_only_parent (dag_graph d) p0) as [q|] eqn:Eq.
    + apply only_parent_spec in Eq.
      assert (rank (dag_graph d) q < rank (dag_graph d) p0)%nat.
      { apply parent_rank; [exact W|]. now apply Eq. }
      destruct (IH p0 q Eq ltac:(lia)) as [IH1 IH2]. split; [exact IH1|].
      intros p. rewrite IH2. split.
      * intros H'. eapply settles_below; eauto.
      * intros H'. inversion H' as [? ? H2 N2|? q' ? H2 G2 S2]; subst.
        -- rewrite (only_parent_det _ _ _ _ Hp H2) in E. tauto.
        -- rewrite (only_parent_det _ _ _ _ Hp H2). exact S2.
    + split; [discriminate|]. intros p. split; [discriminate|]. intros H'. exfalso.
      inversion H' as [? ? H2 N2|? q' ? H2 G2 S2]; subst.
      * rewrite (only_parent_det _ _ _ _ Hp H2) in E. tauto.
      * rewrite (only_parent_det _ _ _ _ Hp H2) in Eq.
        inversion S2 as [? ? H3|? ? ? H3]; subst; apply only_parent_spec in H3; congruence.
Qed.

Lemma range_of_spec x a b : range_of x = [(a, b)] <-> takes_out x a b.
Proof.
  unfold takes_out. destruct x as [a' b'|ps c|t f]; cbn; split.
  - intros [= -> ->]. auto.
  - intros [[= -> ->]|(t & E & _)]; [reflexivity|discriminate].
  - discriminate.
  - intros [E|(t & E & _)]; discriminate.
  - intros [= -> ->]. eauto.
  - intros [E|(t' & [= -> ->] & ->)]; [discriminate|reflexivity].
Qed.
Lemma range_of_cases x : range_of x = [] \/ exists a b, range_of x = [(a, b)].
Proof. destruct x; cbn; eauto. Qed.
Lemma takes_out_det x a b a' b' : takes_out x a b -> takes_out x a' b' -> a = a' /\ b = b'.
Proof. intros H1 H2. apply range_of_spec in H1, H2. rewrite H1 in H2. injection H2 as -> ->. auto. Qed.

Lemma ranges_of_heads cs o :
  o ∈ (list_to_set (List.map snd (ranges_of cs)) : gset oid) <-> exists x a, x ∈ cs /\ takes_out x a o.
Proof.
  rewrite elem_of_list_to_set. unfold ranges_of. split.
  - intros H. apply elem_of_list_In, in_map_iff in H. destruct H as ([a b] & <- & H).
    apply in_flat_map in H. destruct H as (x & Hx & H). exists x, a. split; [now apply elem_of_list_In|].
    apply range_of_spec. destruct (range_of_cases x) as [E|(a' & b' & E)]; rewrite E in H; cbn in H; [tauto|].
    destruct H as [[= -> ->]|[]]. exact E.
  - intros (x & a & Hx & H). apply range_of_spec in H. apply elem_of_list_In, in_map_iff. exists (a, o).
    split; [reflexivity|]. apply in_flat_map. exists x. split; [now apply elem_of_list_In|]. rewrite H. now left.
Qed.

Lemma moved_by_snoc d cs b x a b' c : takes_out x a b' ->
  moved_by d cs (b ++ [x]) c <-> moved_by d cs b c \/ (parent (dag_graph d) b' c /\ visible d c).
Proof.
  intros T. unfold moved_by. split.
  - intros [H|(y & a1 & b1 & Hy & T1 & P & V)]; [auto|].
    apply elem_of_app in Hy. destruct Hy as [Hy|Hy]; [left; right; eauto 10|].
    apply elem_of_list_singleton in Hy. subst y. destruct (takes_out_det _ _ _ _ _ T T1) as [-> ->]. auto.
  - intros [[H|(y & a1 & b1 & Hy & T1 & P & V)]|[P V]]; [auto|right; exists y, a1, b1|right; exists x, a, b'];
      rewrite elem_of_app, ?elem_of_list_singleton; auto.
Qed.

Lemma takes_out_none x a b : range_of x = [] -> ~ takes_out x a b.
Proof. intros E H. apply range_of_spec in H. congruence. Qed.

Lemma moved_by_skip d cs b x c : range_of x = [] -> moved_by d cs (b ++ [x]) c <-> moved_by d cs b c.
Proof.
  intros E. unfold moved_by. split; (intros [H|(y & a1 & b1 & Hy & T1 & P & V)]; [now left|right]).
  - apply elem_of_app in Hy. destruct Hy as [Hy|Hy]; [eauto 10|].
    apply elem_of_list_singleton in Hy. subst y. exfalso. eapply takes_out_none; eauto.
  - exists y, a1, b1. rewrite elem_of_app. auto.
Qed.

Lemma closes_gap_in_skip d cs b x c p : range_of x = [] ->
  closes_gap_in d cs (b ++ [x]) c p <-> closes_gap_in d cs b c p.
Proof.
  intros E. unfold closes_gap_in. split; intros (NP & V & b1 & y & a1 & a & b' & Eb & T & P & F & S); split_and!; auto.
  - destruct a1 as [|z a1] using rev_ind.
    + apply app_inj_tail in Eb. destruct Eb as [-> ->]. exfalso. eapply takes_out_none; eauto.
    + clear IHa1. rewrite app_comm_cons, app_assoc in Eb. apply app_inj_tail in Eb. destruct Eb as [-> ->].
      exists b1, y, a1, a, b'. auto.
  - exists b1, y, (a1 ++ [x]), a, b'. subst b. rewrite <- app_assoc. auto.
Qed.

Lemma closes_gap_in_snoc d cs b x a b' c p : takes_out x a b' ->
  closes_gap_in d cs (b ++ [x]) c p <->
  closes_gap_in d cs b c p \/
  ((forall q, ~ placed cs c q) /\ visible d c /\ parent (dag_graph d) b' c /\
   (forall y a1 b1, y ∈ b -> takes_out y a1 b1 -> ~ parent (dag_graph d) b1 c) /\
   settles d (gone d cs b) a p).
Proof.
  intros T. unfold closes_gap_in. split.
  - intros (NP & V & b1 & y & a1 & a2 & b2 & Eb & T2 & P & F & S). destruct a1 as [|z a1] using rev_ind.
    + apply app_inj_tail in Eb. destruct Eb as [-> ->]. destruct (takes_out_det _ _ _ _ _ T T2) as [-> ->].
      right. split_and!; auto.
    + clear IHa1. rewrite app_comm_cons, app_assoc in Eb. apply app_inj_tail in Eb. destruct Eb as [-> ->].
      left. split_and!; auto. exists b1, y, a1, a2, b2. auto.
  - intros [(NP & V & b1 & y & a1 & a2 & b2 & Eb & T2 & P & F & S)|(NP & V & P & F & S)]; split_and!; auto.
    + exists b1, y, (a1 ++ [x]), a2, b2. subst b. rewrite <- app_assoc. auto.
    + exists b, x, [], a, b'. auto.
Qed.

Definition gaps_close_in (d : dag) (cs cs' : list constraint) : Prop :=
  forall before x after a b, cs' = before ++ x :: after -> takes_out x a b ->
    exists p, settles d (gone d cs before) a p.

Lemma gaps_close_in_skip d cs b x : range_of x = [] -> gaps_close_in d cs (b ++ [x]) <-> gaps_close_in d cs b.
Proof.
  intros E. unfold gaps_close_in. split; intros H b1 y a1 a b' Eb T.
  - subst b. eapply (H b1 y (a1 ++ [x])); [|exact T]. now rewrite <- app_assoc.
  - destruct a1 as [|z a1] using rev_ind.
    + apply app_inj_tail in Eb. destruct Eb as [-> ->]. exfalso. eapply takes_out_none; eauto.
    + clear IHa1. rewrite app_comm_cons, app_assoc in Eb. apply app_inj_tail in Eb. destruct Eb as [-> ->]. eauto.
Qed.

Lemma gaps_close_in_snoc d cs b x a b' : takes_out x a b' ->
  gaps_close_in d cs (b ++ [x]) <-> gaps_close_in d cs b /\ exists p, settles d (gone d cs b) a p.
Proof.
  intros T0. unfold gaps_close_in. split.
  - intros H. split.
    + intros b1 y a1 a2 b2 Eb T. subst b. eapply (H b1 y (a1 ++ [x])); [|exact T]. now rewrite <- app_assoc.
    + eapply H; [reflexivity|exact T0].
  - intros [H H'] b1 y a1 a2 b2 Eb T. destruct a1 as [|z a1] using rev_ind.
    + apply app_inj_tail in Eb. destruct Eb as [-> ->]. destruct (takes_out_det _ _ _ _ _ T T0) as [-> ->]. exact H'.
    + clear IHa1. rewrite app_comm_cons, app_assoc in Eb. apply app_inj_tail in Eb. destruct Eb as [-> ->]. eauto.
Qed.

Lemma second_pass d cs before :
  wf_graph (dag_graph d) ->
  let first := first_pass cs empty_cg in
  let r := fold_left (fun r range => bind r (fun cg =>
             move_children d (list_to_set (List.map snd (ranges_of cs))) cg range)) (ranges_of before) (Done first) in
  r <> NoFuel /\ ((exists cg, r = Done cg) <-> gaps_close_in d cs before) /\
  forall cg, r = Done cg ->
    cg_fixups cg = cg_fixups first /\
    (forall c, c ∈ commits_to_move cg <-> moved_by d cs before c) /\
    (forall p c, edge (cg_inner cg) p c <-> placed cs c p \/ closes_gap_in d cs before c p).
Proof.
  intros W first. cbv zeta. induction before as [|x before IH] using rev_ind.
  - cbn. split_and!; [discriminate| |].
    + split; [|eauto]. intros _ b1 y a1 a b E. destruct b1; discriminate.
    + intros cg [= <-].
      assert (EG : forall p c, edge (cg_inner first) p c <-> placed cs c p).
      { intros p c. unfold first. rewrite first_pass_edge. pose proof (edge_empty p c). cbn. tauto. }
      split_and!; [reflexivity| |].
      * intros c. unfold commits_to_move. rewrite all_values_spec. setoid_rewrite EG. unfold moved_by. split; [auto|].
        intros [H|(y & a & b & H & _)]; [exact H|]. now apply elem_of_nil in H.
      * intros p c. rewrite EG. split; [auto|]. intros [H|(_ & _ & b1 & y & a1 & a & b & E & _)]; [exact H|].
        destruct b1; discriminate.
  - unfold ranges_of in *. rewrite flat_map_app, fold_left_app. cbn [flat_map]. rewrite app_nil_r.
    fold (ranges_of cs) in *. set (r := fold_left _ (flat_map range_of before) _) in *. clearbody r.
    destruct IH as (IH0 & IH1 & IH2). destruct (range_of_cases x) as [Ex|(a & b & Ex)]; rewrite Ex.
    + cbn. split_and!; [exact IH0| |].
      * rewrite gaps_close_in_skip by exact Ex. exact IH1.
      * intros cg E. destruct (IH2 cg E) as (A & B & C). split_and!; [exact A| |].
        -- intros c. rewrite moved_by_skip by exact Ex. apply B.
        -- intros p c. rewrite closes_gap_in_skip by exact Ex. apply C.
    + cbn [fold_left]. apply range_of_spec in Ex. rewrite (gaps_close_in_snoc _ _ _ _ _ _ Ex).
      destruct r as [cg| |].
      2:{ cbn. split_and!; [discriminate| |discriminate]. rewrite <- IH1. split.
          - intros [? ?]; discriminate. - intros [[? ?] ?]; discriminate. }
      2:{ congruence. }
      destruct (IH2 cg eq_refl) as (A & B & C). cbn [bind]. unfold move_children. cbn [fst snd].
      assert (GC : gaps_close_in d cs before) by (apply IH1; eauto).
      destruct (get_only_parent (dag_graph d) a) as [p0|] eqn:Ep.
      2:{ split_and!; [discriminate| |discriminate]. split; [intros [? ?]; discriminate|]. intros [_ [p S]].
          exfalso. inversion S as [? ? H3|? ? ? H3]; subst; apply only_parent_spec in H3; congruence. }
      apply only_parent_spec in Ep.
      set (stop := fun p => _). 
      destruct (climb_spec d stop (gone d cs before) W) with (fuel := S (length (dag_graph d))) (c := a) (p0 := p0)
        as [C1 C2]; [|exact Ep|pose proof (rank_bound (dag_graph d) p0); lia|].
      { intros o. unfold stop, gone. rewrite negb_false_iff, andb_true_iff, !bool_decide_eq_true, B.
        rewrite ranges_of_heads. reflexivity. }
      destruct (climb _ _ _ _) as [p| |]; cbn [bind]; [|split_and!; [discriminate| |discriminate]|congruence].
      2:{ split; [intros [? ?]; discriminate|]. intros [_ [p S]]. apply C2 in S. discriminate. }
      pose proof (proj1 (C2 p) eq_refl) as S. split_and!; [discriminate|split; eauto|].
      intros cg' [= <-]. cbn.
      assert (K : forall c, c ∈ filter_visible d (children (dag_graph d) {[b]} ∖ commits_to_move cg) <->
                  parent (dag_graph d) b c /\ visible d c /\ ~ moved_by d cs before c).
      { intros c. rewrite filter_visible_spec by exact W. rewrite elem_of_difference, children_spec, B. set_solver. }
      assert (EG : forall q c, edge (fold_left (fun m c => add_edge p c m)
                 (elements (filter_visible d (children (dag_graph d) {[b]} ∖ commits_to_move cg))) (cg_inner cg)) q c <->
                 (q = p /\ parent (dag_graph d) b c /\ visible d c /\ ~ moved_by d cs before c) \/ edge (cg_inner cg) q c).
      { intros q c. rewrite edge_add_children, elem_of_elements, K. reflexivity. }
      split_and!; [exact A| |].
      * intros c. unfold commits_to_move. rewrite all_values_spec. cbn. setoid_rewrite EG.
        rewrite (moved_by_snoc _ _ _ _ _ _ _ Ex).
        assert (D : moved_by d cs before c \/ ~ moved_by d cs before c).
        { rewrite <- B. destruct (decide (c ∈ commits_to_move cg)); auto. }
        split.
        -- intros [q [(_ & P & V & _)|H]]; [auto|]. left. apply B. unfold commits_to_move. rewrite all_values_spec. eauto.
        -- intros [H|[P V]].
           ++ apply B in H. unfold commits_to_move in H. rewrite all_values_spec in H. destruct H as [q H]. eauto.
           ++ destruct D as [H|N]; [|exists p; auto 10].
              apply B in H. unfold commits_to_move in H. rewrite all_values_spec in H. destruct H as [q H]. eauto.
      * intros q c. rewrite EG, C, (closes_gap_in_snoc _ _ _ _ _ _ _ _ Ex). split.
        -- intros [(-> & P & V & N)|[H|H]]; [|auto..]. right. right. split_and!; auto.
           ++ intros q H. apply N. left. eauto.
           ++ intros y a1 b1 Hy T P1. apply N. right. eauto 10.
        -- intros [H|[H|(NP & V & P & F & S')]]; [auto..|]. left.
           split_and!; [eapply settles_det; eauto|exact P|exact V|].
           intros [[q' H]|(y & a1 & b1 & Hy & T & P1 & _)]; [eapply NP; eauto|eapply F; eauto].
Qed.

Lemma add_constraints_spec d cs :
  wf_graph (dag_graph d) ->
  add_constraints d cs empty_cg <> NoFuel /\
  ((exists cg, add_constraints d cs empty_cg = Done cg) <-> gaps_close d cs) /\
  forall cg, add_constraints d cs empty_cg = Done cg ->
    (forall t f, edge (cg_fixups cg) t f <-> FixUpCommit t f ∈ cs) /\
    (forall t, t ∈ commits_to_fixup cg <-> fixup_target cs t) /\
    (forall p c, edge (cg_inner cg) p c <-> placed cs c p \/ closes_gap d cs c p).
Proof.
  intros W. destruct (second_pass d cs cs W) as (H1 & H2 & H3). unfold add_constraints. cbv zeta in *.
  split_and!; [exact H1|exact H2|]. intros cg E. destruct (H3 cg E) as (A & B & C). split_and!; [| |exact C].
  - intros t f. rewrite A, first_pass_fixups. pose proof (edge_empty t f). cbn. tauto.
  - intros t. unfold commits_to_fixup. rewrite A. pose proof (first_pass_targets cs empty_cg t) as F.
    unfold commits_to_fixup in F. rewrite F. cbn. rewrite dom_empty_L. set_solver.
Qed.

(** ** Descendants *)
Lemma no_ranges (l : list oid) (f : oid -> list oid) :
  ranges_of (List.map (fun o => MoveSubtree (f o) o) l) = [].
Proof. induction l; cbn; auto. Qed.

Lemma placed_descendants (l : list oid) (f : oid -> list oid) c p :
  placed (List.map (fun o => MoveSubtree (f o) o) l) c p <-> c ∈ l /\ p ∈ f c.
Proof.
  induction l as [|x l IH] using rev_ind.
  - cbn. split; [|set_solver]. intros (b & ps & a & E & _). destruct b; discriminate.
  - rewrite map_app. cbn. rewrite placed_snoc, IH, elem_of_app, elem_of_list_singleton. cbn. split.
    + intros [(ps & [= <- ->] & H)|[[H1 H2] N]]; auto.
    + intros [[H| ->] Hp]; [|left; eauto]. destruct (decide (x = c)) as [->|N]; [left; eauto|right; auto].
Qed.

(** The parents in the graph built by the code. *)
Definition code_parent (d : dag) (cs : list constraint) (p c : oid) : Prop :=
  placed cs c p \/ closes_gap d cs c p \/ (follows d cs c p /\ ~ fixup_target cs c).

Lemma ancestor_cases g a c : ancestor g a c <-> a = c \/ proper_ancestor g a c.
Proof.
  split.
  - intros H. apply rtc_tc in H. tauto.
  - intros [-> |H]; [apply rtc_refl|now apply tc_rtc].
Qed.

Lemma build_constraints_spec d cs :
  wf_graph (dag_graph d) ->
  build_constraints d cs <> NoFuel /\
  ((exists cg, build_constraints d cs = Done cg) <-> gaps_close d cs) /\
  forall cg, build_constraints d cs = Done cg ->
    (forall t f, edge (cg_fixups cg) t f <-> FixUpCommit t f ∈ cs) /\
    (forall t, t ∈ commits_to_fixup cg <-> fixup_target cs t) /\
    (forall p c, edge (cg_inner cg) p c <-> code_parent d cs p c).
Proof.
  intros W. destruct (add_constraints_spec d cs W) as (H1 & H2 & H3). unfold build_constraints.
  destruct (add_constraints d cs empty_cg) as [cg0| |]; cbn [bind].
  2:{ split_and!; [discriminate| |discriminate]. rewrite <- H2. split; intros [? ?]; discriminate. }
  2:{ congruence. }
  destruct (H3 cg0 eq_refl) as (A & B & C). unfold add_descendant_constraints, add_constraints.
  rewrite no_ranges. cbn [fold_left]. split_and!; [discriminate|rewrite <- H2; split; eauto|].
  intros cg [= <-]. set (l := elements _). split_and!.
  - intros t f. rewrite first_pass_fixups, A. split; [|auto]. intros [H|H]; [|exact H].
    apply elem_of_list_In, in_map_iff in H. destruct H as (? & E & _). discriminate.
  - intros t. rewrite first_pass_targets, B. split; [|auto]. intros [[f H]|H]; [|exact H].
    apply elem_of_list_In, in_map_iff in H. destruct H as (? & E & _). discriminate.
  - intros p c. rewrite first_pass_edge, placed_descendants, C, <- (parent_parents_of _ _ _ W).
    assert (R : forall x, x ∈ commits_to_move cg0 <-> requested d cs x).
    { intros x. unfold commits_to_move. rewrite all_values_spec. setoid_rewrite C. reflexivity. }
    assert (L : forall x, x ∈ l <-> visible d x /\ ~ requested d cs x /\ ~ fixup_target cs x /\
              exists a, (requested d cs a \/ fixup_target cs a) /\ proper_ancestor (dag_graph d) a x).
    { intros x. unfold l. rewrite elem_of_elements, filter_visible_spec, elem_of_difference, descendants_spec by exact W.
      rewrite elem_of_union, R, B. setoid_rewrite elem_of_union. setoid_rewrite R. setoid_rewrite B.
      setoid_rewrite ancestor_cases. split.
      - intros [[(a & Ha & [-> |Hac]) N] V]; [tauto|]. split_and!; try tauto. eauto.
      - intros (V & N1 & N2 & a & Ha & Hac). split_and!; try tauto. eauto. }
    assert (F : Forall (fun x => ~ about c x) (List.map (fun o => MoveSubtree (parents_of (dag_graph d) o) o) l) <-> c ∉ l).
    { rewrite List.Forall_map, Forall_forall. cbn. split; [intros H Hc; apply (H c); auto|intros H x Hx ->; auto]. }
    rewrite F. unfold code_parent, follows. rewrite L. split.
    + naive_solver.
    + intros [H|[H|H]].
      * right. split; [auto|]. intros (_ & N & _). apply N. exists p. auto.
      * right. split; [auto|]. intros (_ & N & _). apply N. exists p. auto.
      * left. naive_solver.
Qed.

Lemma code_parent_new d cs p c : targets_stay d cs -> code_parent d cs p c <-> new_parent d cs p c.
Proof.
  intros T. unfold code_parent, new_parent. split; [tauto|]. intros [H|[H|H]]; [auto..|].
  right. right. split; [exact H|]. intros F. destruct H as (N & V & P & A). eapply T; eauto.
Qed.
