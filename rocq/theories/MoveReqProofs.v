From Verif Require Import Base TextModel EventLogModel EventLogSpec EventLogProofs EvolveSpec
  DagModel DagSpec DagProofs DagCompProofs StrModel StrProofs HookModel PlanModel PlanSpec PlanProofs PlanBuildProofs PlanProps
  ExecModel ExecSpec ExecProofs ExecBuildProofs ExecAfterProofs ExecProps HideModel HideSpec HideProofs RestackModel RestackSpec RestackProofs
  SyncModel SyncSpec SyncProofs MoveModel MoveSpec MoveProofs.
Local Open Scope list_scope.

(** ** Picking from sets *)
Section first.
Context (e : restack_env).
Hypothesis O : forall s, Permutation (re_order e s) (elements s).
Lemma order_one (s : commit_set) c : (forall x, x ∈ s <-> x = c) -> re_order e s = [c].
Proof.
  intros H. assert (s = {[c]}) as -> by set_solver. apply Permutation_singleton_r. rewrite (O {[c]}). now rewrite elements_singleton.
Qed.
Lemma order_none (s : commit_set) : (forall x, x ∉ s) -> re_order e s = [].
Proof. intros H. assert (s = ∅) as -> by set_solver. apply Permutation_nil_r. rewrite (O ∅). now rewrite elements_empty. Qed.
Lemma first_one (s : commit_set) c : (forall x, x ∈ s <-> x = c) -> set_first e s = Some c.
Proof. intros H. unfold set_first. now rewrite (order_one s c H). Qed.
Lemma first_none (s : commit_set) : (forall x, x ∉ s) -> set_first e s = None.
Proof. intros H. unfold set_first. now rewrite (order_none s H). Qed.

(** ** The first commit of a branch *)
Context (d : dag).
Let g := dag_graph d.
Hypothesis W : wf_graph g.

Lemma ancestor_dec x y : ancestor g x y \/ ~ ancestor g x y.
Proof. destruct (is_ancestor g x y) eqn:E; [left|right]; rewrite <- is_ancestor_spec by exact W; congruence. Qed.
Lemma parent_dec c : (exists p, parent g p c) \/ (forall p, ~ parent g p c).
Proof.
  destruct (parents_of g c) as [|p l] eqn:E.
  - right. intros p H. apply parent_parents_of in H; [|exact W]. rewrite E in H. now apply elem_of_nil in H.
  - left. exists p. apply parent_parents_of; [exact W|]. rewrite E. left.
Qed.

Lemma branch_chain dest : forall n b, (rank g b < n)%nat -> ~ ancestor g b dest -> (forall x, ahead g b dest x -> ~ merge_commit g x) ->
  exists f, first_ahead g b dest f /\ forall x, ancestor g x b -> ancestor g f x \/ (exists m, parent g m f /\ ancestor g x m).
Proof.
  induction n as [|n IH]; intros b Hr Nb NM; [lia|].
  destruct (parent_dec b) as [[p P]|N].
  2:{ exists b. split.
      - split; [split; [constructor|exact Nb]|]. intros p P. destruct (N p P).
      - intros x A. apply rtc_inv_r in A. destruct A as [->|(p & _ & P)]; [left; constructor|destruct (N p P)]. }
  assert (Ob : forall q, parent g q b -> q = p).
  { intros q Q. apply (only_one_parent g b q p W); auto. apply NM. split; [constructor|exact Nb]. }
  destruct (ancestor_dec p dest) as [Ap|Np].
  - exists b. split.
    + split; [split; [constructor|exact Nb]|]. intros q Q. now rewrite (Ob q Q).
    + intros x A. apply rtc_inv_r in A. destruct A as [->|(q & A & Q)]; [left; constructor|]. right. rewrite (Ob q Q) in A. eauto.
  - destruct (IH p) as (f & [[F1 F2] F3] & Ch).
    + pose proof (parent_rank g p b W P). lia.
    + exact Np.
    + intros x [X1 X2]. apply NM. split; [|exact X2]. eapply rtc_r; eauto.
    + exists f. split.
      * split; [split; [eapply rtc_r; eauto|exact F2]|exact F3].
      * intros x A. apply rtc_inv_r in A. destruct A as [->|(q & A & Q)]; [left; eapply rtc_r; eauto|]. rewrite (Ob q Q) in A. now apply Ch.
Qed.

Lemma gca_pair b dest x : x ∈ gca_all g {[b; dest]} <->
  (ancestor g x b /\ ancestor g x dest) /\ forall c, ancestor g c b -> ancestor g c dest -> ~ parent g x c.
Proof.
  unfold gca_all. rewrite heads_spec.
  assert (C : forall y, y ∈ common_ancestors g {[b; dest]} <-> ancestor g y b /\ ancestor g y dest).
  { intros y. rewrite common_ancestors_spec by exact W. split.
    - intros H. split; [eapply H|eapply H]; set_solver.
    - intros [H1 H2]. split; [set_solver|]. intros z Hz. apply elem_of_union in Hz. destruct Hz as [Hz|Hz]; apply elem_of_singleton in Hz; now subst. }
  rewrite C. split; (intros [H1 H2]; split; [exact H1|]).
  - intros c A B. apply H2. now apply C.
  - intros c Hc. apply C in Hc. now apply H2.
Qed.

Lemma resolve_base_spec b dest c : (forall x, ahead g b dest x -> ~ merge_commit g x) ->
  resolve_base e d (gca_one e d {[b; dest]}) b = c <-> branch_start g b dest c.
Proof.
  intros NM. unfold branch_start. unfold gca_one. fold g.
  assert (Eq : forall f, first_ahead g b dest f \/ (ancestor g b dest /\ f = b) -> resolve_base e d (set_first e (gca_all g {[b; dest]})) b = f ->
    (forall f', first_ahead g b dest f' \/ (ancestor g b dest /\ f' = b) -> f' = f) ->
    resolve_base e d (set_first e (gca_all g {[b; dest]})) b = c <-> first_ahead g b dest c \/ (ancestor g b dest /\ c = b)).
  { intros f Hf E U. rewrite E. split; [now intros <-|]. intros H. symmetry. now apply U. }
  destruct (ancestor_dec b dest) as [Ab|Nb].
  - apply (Eq b); [auto| |].
    + rewrite (first_one _ b).
      * unfold resolve_base. fold g. rewrite (first_none); [reflexivity|]. intros x Hx. rewrite elem_of_intersection in Hx. destruct Hx as [Hc Hr].
        apply children_spec in Hc. destruct Hc as (p & Hp & P). apply roots_spec in Hp. destruct Hp as [Hp _].
        apply range_spec in Hp, Hr; [|exact W..]. destruct Hp as (a & z & Ha & Hz & A1 & A2), Hr as (a' & z' & Ha' & Hz' & A3 & A4).
        apply elem_of_singleton in Ha, Hz, Ha', Hz'. subst a z a' z'.
        apply (wf_acyclic g b W). eapply tc_rtc_l; [exact A1|]. eapply tc_rtc_r; [apply tc_once; exact P|exact A4].
      * intros x. rewrite gca_pair. split.
        -- intros [[A B] H]. apply rtc_inv in A. destruct A as [A|(y & P & A)]; [exact A|]. destruct (H y); auto. eapply rtc_transitive; eauto.
        -- intros ->. split; [split; [constructor|exact Ab]|]. intros y A _ P. apply (wf_acyclic g b W). eapply tc_rtc_r; [apply tc_once; exact P|exact A].
    + intros f' [[[F1 F2] _]|[_ ->]]; [|reflexivity]. destruct F2. eapply rtc_transitive; eauto.
  - destruct (branch_chain dest (S (rank g b)) b (Nat.lt_succ_diag_r _) Nb NM) as (f & Ff & Ch).
    assert (U : forall f', first_ahead g b dest f' \/ (ancestor g b dest /\ f' = b) -> f' = f).
    { intros f' [[[F1 F2] F3]|[F1 _]]; [|contradiction]. destruct (Ch f' F1) as [A|(m & P & A)].
      - apply rtc_inv_r in A. destruct A as [A|(y & A & P)]; [now symmetry|]. destruct Ff as [[_ Nf] _]. destruct Nf. eapply rtc_transitive; [exact A|]. now apply F3.
      - destruct F2. eapply rtc_transitive; [exact A|]. destruct Ff as [_ F4]. now apply F4. }
    apply (Eq f); [auto| |exact U]. destruct Ff as [[F1 F2] F3].
    destruct (parent_dec f) as [[m P]|N].
    + assert (Of : forall q, parent g q f -> q = m).
      { intros q Q. apply (only_one_parent g f q m W); auto. apply NM. now split. }
      assert (Rg : forall x, x ∈ range g {[m]} {[b]} <-> x = m \/ (ancestor g f x /\ ancestor g x b)).
      { intros x. rewrite range_spec by exact W. split.
        - intros (a & z & Ha & Hz & A1 & A2). apply elem_of_singleton in Ha, Hz. subst a z. destruct (Ch x A2) as [A|(m' & P' & A)]; [auto|].
          rewrite (Of _ P') in A. left. eapply ancestor_antisym; eauto.
        - intros [-> |[A B]]; exists m, b; (split; [now apply elem_of_singleton|]); (split; [now apply elem_of_singleton|]).
          + split; [constructor|]. eapply rtc_l; eauto.
          + split; [eapply rtc_l; eauto|exact B]. }
      assert (Rt : forall x, x ∈ roots g (range g {[m]} {[b]}) <-> x = m).
      { intros x. rewrite roots_spec, Rg. setoid_rewrite Rg. split.
        - intros [[E|[A B]] H]; [exact E|]. exfalso. apply rtc_inv_r in A. destruct A as [<-|(y & A & Q)].
          + apply (H m); auto.
          + apply (H y); [|exact Q]. right. split; [exact A|]. eapply rtc_l; eauto.
        - intros ->. split; [auto|]. intros y [->|[A B]] Q; [eapply (wf_acyclic g m W); now apply tc_once|].
          apply (wf_acyclic g m W). eapply tc_l; [exact P|]. eapply tc_rtc_l; [exact A|]. now apply tc_once. }
      rewrite (first_one _ m).
      * unfold resolve_base. fold g. rewrite (first_one _ f); [reflexivity|]. intros x. rewrite elem_of_intersection, children_spec, Rg. split.
        -- intros [(q & Hq & Q) [->|[A B]]]; apply Rt in Hq as ->; [destruct (wf_acyclic g m W); now apply tc_once|].
           apply rtc_inv_r in A. destruct A as [A|(y & A & Y)]; [now symmetry|]. exfalso.
           assert (Ax : ahead g b dest x) by (split; [exact B|]; intros Z; apply F2; eapply rtc_transitive; [eapply rtc_r; eauto|exact Z]).
           rewrite (only_one_parent g x y m W (NM x Ax) Y Q) in A. apply (wf_acyclic g m W). eapply tc_l; [exact P|]. eapply tc_rtc_l; [exact A|].
           exfalso. apply (wf_acyclic g m W). eapply tc_rtc_r; [apply tc_once; exact P|exact A].
        -- intros ->. split; [exists m; split; [now apply Rt|exact P]|]. right. split; [constructor|exact F1].
      * intros x. rewrite gca_pair. split.
        -- intros [[A B] H]. destruct (Ch x A) as [A'|(m' & P' & A')].
           ++ destruct F2. eapply rtc_transitive; eauto.
           ++ rewrite (Of _ P') in A'. apply rtc_inv in A'. destruct A' as [A'|(y & Y & A')]; [exact A'|]. destruct (H y); auto.
              ** eapply rtc_transitive; [exact A'|]. eapply rtc_l; eauto.
              ** eapply rtc_transitive; [exact A'|]. now apply F3.
        -- intros ->. split; [split; [eapply rtc_l; eauto|now apply F3]|]. intros y A B Y.
           destruct (Ch y A) as [A'|(m' & P' & A')].
           ++ apply F2. eapply rtc_transitive; eauto.
           ++ rewrite (Of _ P') in A'. apply (wf_acyclic g m W). eapply tc_rtc_r; [apply tc_once; exact Y|exact A'].
    + rewrite first_none.
      * unfold resolve_base. fold g. rewrite (first_one _ f); [reflexivity|]. intros x. rewrite roots_spec. split.
        -- intros [Hx H]. apply ancestors_spec in Hx; [|exact W]. destruct Hx as (z & Hz & A). apply elem_of_singleton in Hz as ->.
           destruct (Ch x A) as [A'|(m' & P' & _)]; [|destruct (N _ P')]. apply rtc_inv_r in A'. destruct A' as [A'|(y & A' & Y)]; [now symmetry|].
           destruct (H y); [|exact Y]. apply ancestors_spec; [exact W|]. exists b. split; [now apply elem_of_singleton|]. eapply rtc_l; eauto.
        -- intros ->. split; [|intros y _ Y; exact (N y Y)]. apply ancestors_spec; [exact W|]. exists b. split; [now apply elem_of_singleton|exact F1].
      * intros x Hx. apply gca_pair in Hx. destruct Hx as [[A B] _]. destruct (Ch x A) as [A'|(m' & P' & _)]; [|destruct (N _ P')].
        apply F2. eapply rtc_transitive; eauto.
Qed.
End first.

(** ** Subtrees *)
Section subtrees.
Context (e : restack_env) (r : rrepo) (d : dag) (a : move_args) (dest : oid).
Let g := he_graph (re_hide e).
Let h := rr_repo r.
Hypothesis M : movable e r a dest.
Hypothesis Op : open_repo (re_hide e) h = Some d.
Let R := mb_order _ _ _ _ M.
Let told (c p : oid) : Prop := to_move e r a dest c /\ p = dest.

Lemma sub_graph : dag_graph d = g. Proof. exact (dag_is e r d R Op). Qed.
Lemma sub_wf : wf_graph g. Proof. exact (graph_wf e r R). Qed.
Lemma dest_meant : (match ma_dest a, hi_oid (hr_head h) with
            | Some s, _ => Go s
            | None, Some h => Go {[h]}
            | None, None => Stop NoHead
            end) = Go ({[dest]} : commit_set).
Proof.
  pose proof (mb_dest _ _ _ _ M) as H. unfold meant_dest in H. destruct (ma_dest a) as [s|]; [now subst|].
  fold h in H. now rewrite H.
Qed.
Lemma given_bases : exists bases : commit_set,
  (if match ma_sources a, ma_bases a, ma_exacts a with [], [], [] => true | _, _, _ => false end
   then match hi_oid (hr_head h) with Some h => Go {[h]} | None => Stop NoHead end else Go (⋃ (ma_bases a))) = Go bases /\
  forall b, b ∈ bases <-> given_base a r b.
Proof.
  destruct (ra_head _ _ R) as [hd Hh]. fold h in Hh.
  destruct (ma_sources a) as [|s l] eqn:E1, (ma_bases a) as [|s' l'] eqn:E2, (ma_exacts a) as [|s'' l''] eqn:E3;
    unfold given_base; fold h; rewrite ?Hh, ?E1, ?E2, ?E3; eexists; (split; [reflexivity|]).
  all: intros b; rewrite ?elem_of_singleton, ?elem_union; split.
  all: try (intros (C & HC & _); now apply elem_of_nil in HC).
  all: try (intros [(C & HC & _)|(X1 & X2 & X3 & X4)]; [now apply elem_of_nil in HC|]; try discriminate; congruence).
  all: try (intros [H|(X1 & X2 & X3 & X4)]; [exact H|discriminate]).
  all: try (intros H; left; exact H).
  intros ->. right. auto.
Qed.
Lemma base_commits_spec (bases : commit_set) c : (forall b, b ∈ bases -> given_base a r b) ->
  c ∈ base_commits e d dest bases <-> exists b, b ∈ bases /\ branch_start g b dest c.
Proof.
  intros G. unfold base_commits. rewrite elem_union. 
  assert (K : forall b, b ∈ bases -> resolve_base e d (gca_one e d {[b; dest]}) b = c <-> branch_start g b dest c).
  { intros b Hb. rewrite <- sub_graph. apply resolve_base_spec; [exact (ra_sets _ _ R)|rewrite sub_graph; exact sub_wf|].
    rewrite sub_graph. intros x. apply (mb_branch _ _ _ _ M b x). now apply G. }
  split.
  - intros (C & HC & Hc). apply elem_of_list_In, in_map_iff in HC. destruct HC as (b & <- & Hb). apply elem_of_list_In in Hb.
    rewrite (ra_sets _ _ R), elem_of_elements in Hb. apply elem_of_singleton in Hc. exists b. split; [exact Hb|]. now apply K.
  - intros (b & Hb & Hc). exists {[c]}. split; [|now apply elem_of_singleton]. apply elem_of_list_In, in_map_iff. exists b.
    split; [f_equal; now apply K|]. apply elem_of_list_In. now rewrite (ra_sets _ _ R), elem_of_elements.
Qed.

Lemma sub_requests : exists s : commit_set, (forall c, c ∈ s <-> subtree_given g a r dest c) /\
  move_requests e d (hi_oid (hr_head h)) a =
  match verify_rewrite_set d (re_force e) s with
  | None => Stop WouldRewritePublic
  | Some allowed => Go (allowed, List.map (MoveSubtree [dest]) (re_order e (roots (dag_graph d) s)))
  end.
Proof.
  destruct (mb_only _ _ _ _ M) as (Ex & Fx & In). destruct given_bases as (bases & Eb & Gb).
  exists (⋃ (ma_sources a) ∪ base_commits e d dest bases). split.
  - intros c. rewrite elem_of_union, elem_union, base_commits_spec by (intros; now apply Gb). unfold subtree_given, given_source.
    setoid_rewrite Gb. reflexivity.
  - unfold move_requests. rewrite dest_meant. cbn [and_then]. rewrite Ex in *.
    rewrite (order_none e (ra_sets _ _ R) (⋃ [])) by set_solver.
    change (connected_components (dag_graph d) [] (⋃ [])) with (Some ([] : list commit_set)). cbn [exact_components and_then].
    rewrite (order_one e (ra_sets _ _ R) _ dest) by set_solver. rewrite Eb. cbn [and_then List.map].
    rewrite In, Fx. cbn [orb].
    replace (⋃ ma_sources a ∪ base_commits e d dest bases ∪ ⋃ [] ∪ ∅) with (⋃ ma_sources a ∪ base_commits e d dest bases) by set_solver.
    destruct (verify_rewrite_set _ _ _) as [allowed|]; [|reflexivity].
    assert (re_sort e (list_to_set ([] : list oid)) = []) as ->.
    { apply Permutation_nil_r. rewrite (ra_sort _ _ R). cbn. now rewrite elements_empty. }
    cbn [all_component_requests and_then]. rewrite !app_nil_r. unfold source_requests.
    assert (X : forall l, flat_map (fun s => [MoveSubtree [dest] s]) l = List.map (MoveSubtree [dest]) l) by (induction l; cbn; congruence).
    rewrite X. reflexivity.
Qed.

(** What these requests mean. *)
Context (s : commit_set).
Hypothesis Hs : forall c, c ∈ s <-> subtree_given g a r dest c.
Let cs := List.map (MoveSubtree [dest]) (re_order e (roots (dag_graph d) s)).
Lemma sub_first c : c ∈ roots (dag_graph d) s <-> to_move e r a dest c.
Proof.
  rewrite roots_spec, sub_graph, Hs. unfold to_move, first_of. fold g. split; (intros [H1 H2]; split; [exact H1|]).
  - intros p P Hp. apply (H2 p); [now apply Hs|exact P].
  - intros p Hp P. apply (H2 p P). now apply Hs.
Qed.
Lemma sub_in x : x ∈ cs <-> exists c, x = MoveSubtree [dest] c /\ to_move e r a dest c.
Proof.
  unfold cs. rewrite elem_of_list_In, in_map_iff. split.
  - intros (c & <- & Hc). apply elem_of_list_In in Hc. rewrite (ra_sets _ _ R), elem_of_elements in Hc. exists c. split; [reflexivity|]. now apply sub_first.
  - intros (c & -> & Hc). exists c. split; [reflexivity|]. apply elem_of_list_In. rewrite (ra_sets _ _ R), elem_of_elements. now apply sub_first.
Qed.
Lemma sub_V c p : told c p -> shown g h c.
Proof. intros [H _]. exact (mb_shown _ _ _ _ M c H). Qed.
Lemma sub_F : Forall (simple_request g) cs.
Proof.
  apply Forall_forall. intros x Hx. apply sub_in in Hx. destruct Hx as (c & -> & Hc). left. exists dest, c. split; [reflexivity|].
  split; [|exact (mb_merge _ _ _ _ M c Hc)]. apply (SyncProofs.shown_known e r); [exact R|]. exact (mb_shown _ _ _ _ M c Hc).
Qed.
Lemma sub_T c p : placed cs c p <-> told c p.
Proof.
  rewrite (consistent_told g cs sub_F).
  - rewrite sub_in. unfold told. split; [intros (c' & [= -> ->] & H); auto|intros [H ->]; eauto].
  - intros q q' c' H H'. apply sub_in in H, H'. destruct H as (? & [= -> ->] & _), H' as (? & [= -> ->] & _). reflexivity.
Qed.
Lemma sub_no_range x u v : x ∈ cs -> ~ takes_out x u v.
Proof. intros H. apply sub_in in H. destruct H as (c & -> & _). intros [X|(t & X & _)]; discriminate. Qed.
Lemma sub_NG x p : ~ closes_gap d cs x p.
Proof.
  intros (_ & _ & b & y & l & u & v & E & X & _). eapply sub_no_range; [|exact X]. rewrite E. apply elem_of_app; right; left.
Qed.
Lemma sub_gaps : gaps_close d cs.
Proof. intros b x l u v E X. exfalso. eapply sub_no_range; [|exact X]. rewrite E. apply elem_of_app; right; left. Qed.
Lemma sub_as_told p c : as_told g told p c -> subtrees_onto g (to_move e r a dest) dest p c.
Proof. intros [[H ->]|[N P]]; [left; auto|right]. split; [|exact P]. intros H. apply (N dest). now split. Qed.
Lemma sub_asked c : asked_by told c <-> to_move e r a dest c.
Proof. unfold asked_by, told. split; [intros (p & H & _); exact H|]. intros H. exists dest. auto. Qed.

Lemma sub_new_parent p x : new_parent d cs p x <->
  told x p \/ ((forall q, ~ told x q) /\ visible d x /\ (exists a q, told a q /\ ancestor g a x) /\ parent g p x).
Proof.
  rewrite <- sub_graph. apply many_new_parent; [rewrite sub_graph; exact sub_F|exact sub_NG|exact sub_T].
Qed.
Lemma sub_possible : (forall c, to_move e r a dest c -> ~ ancestor g c dest) -> ~ impossible d cs.
Proof.
  intros NA [x T].
  assert (B : forall y z, tc (new_parent d cs) y z -> exists c, to_move e r a dest c /\ ancestor g c z).
  { intros y z T'. induction T' as [y z H|y w z H T' IH]; [|exact IH].
    apply sub_new_parent in H. destruct H as [[H ->]|(_ & _ & (c & q & [H _] & A) & _)]; [exists z; split; [exact H|constructor]|eauto]. }
  assert (Up : forall y z, tc (new_parent d cs) y z -> (exists c, to_move e r a dest c /\ ancestor g c y) -> tc (parent g) y z \/ y = dest).
  { intros y z T'. induction T' as [y z H|y w z H T' IH]; intros (c & Hc & A); apply sub_new_parent in H; (destruct H as [[H ->]|(_ & _ & _ & P)]; [auto|]).
    - left. now apply tc_once.
    - destruct IH as [X| ->]; [|left; eapply tc_l; eauto|destruct (NA c Hc)]; [exists c; split; [exact Hc|]|]; eapply rtc_r; eauto. }
  destruct (B x x T) as (c & Hc & A). destruct (Up x x T (ex_intro _ c (conj Hc A))) as [C| ->]; [exact (wf_acyclic g x sub_wf C)|exact (NA c Hc A)].
Qed.
Lemma sub_impossible c : to_move e r a dest c -> ancestor g c dest -> shown g h dest -> impossible d cs.
Proof.
  intros Hc A Sh. exists dest.
  assert (X : forall y, ancestor g c y -> ancestor g y dest -> tc (new_parent d cs) dest y); [|exact (X dest A (rtc_refl _ _))].
  intros y Hy. pattern y. revert y Hy. apply rtc_ind_r; [intros D|intros y z Hy P IH D].
  - apply tc_once, sub_new_parent. left. now split.
  - destruct (decide (z ∈ roots (dag_graph d) s)) as [Hz|Nz].
    + apply tc_once, sub_new_parent. left. split; [now apply sub_first|reflexivity].
    + eapply tc_r; [apply IH; eapply rtc_l; eauto|]. apply sub_new_parent. right. split_and!.
      * intros q [H _]. apply Nz. now apply sub_first.
      * apply (shown_is e r d R Op). destruct Sh as (v & Hv & K). exists v. split; [eapply rtc_transitive; eauto|exact K].
      * exists c, dest. split; [now split|eapply rtc_r; eauto].
      * exact P.
Qed.
End subtrees.

(** ** What comes of moving subtrees *)
Section moving.
Context (e : restack_env) (r : rrepo) (a : move_args) (dest : oid).
Let g := he_graph (re_hide e).
Hypothesis M : movable e r a dest.
Let R := mb_order _ _ _ _ M.

Lemma opens : exists d m, open_repo (re_hide e) (rr_repo r) = Some d /\ hr_refs (rr_repo r) !! he_main (re_hide e) = Some m.
Proof.
  destruct (io_exists _ _ (ra_order _ _ R)) as [m Hm]. unfold open_repo. rewrite Hm. eauto.
Qed.
Lemma sub_comes_to ts i : comes_to e r (to_move e r a dest) (subtrees_onto g (to_move e r a dest) dest) (move e ts (TxId i) a r).
Proof.
  destruct opens as (d & m & Op & Hm). destruct (sub_requests e r d a dest M Op) as (s & Hs & Rq).
  destruct (verify_rewrite_set d (re_force e) s) as [allowed|].
  - pose proof (move_comes_to e r d _ _ R (mb_memory _ _ _ _ M) Op (sub_F e r d a dest M Op s Hs) (sub_NG e r d a dest M Op s Hs) (sub_T e r d a dest M Op s Hs)
      (sub_V e r a dest M) ts i a allowed Rq) as H.
    unfold comes_to in *. destruct (mv_end _); auto. destruct H as (rw & E & H). exists rw. split; [exact E|].
    eapply move_done_ext; [| |exact H].
    + intros o _. setoid_rewrite sub_asked. reflexivity.
    + intros p o _ _. apply sub_as_told.
  - unfold comes_to, move. rewrite Op, Rq. reflexivity.
Qed.

Lemma sub_allowed d m s : open_repo (re_hide e) (rr_repo r) = Some d -> hr_refs (rr_repo r) !! he_main (re_hide e) = Some m ->
  (forall c, c ∈ s <-> subtree_given g a r dest c) ->
  (verify_rewrite_set d (re_force e) s = None <-> would_rewrite_public e r a dest) /\
  forall allowed, verify_rewrite_set d (re_force e) s = Some allowed ->
    (forall x, x ∈ allowed <-> exists c, to_move e r a dest c /\ ancestor g c x).
Proof.
  intros Op Hm Hs. pose proof (sub_graph e r d a dest M Op) as G. fold g in G.
  assert (W : wf_graph (dag_graph d)) by (rewrite G; exact (sub_wf e r a dest M)).
  assert (Pu : forall o, public d o <-> is_public e r o).
  { intros o. rewrite (proj1 (unmerged_draft e r d m (ra_order _ _ R) Op Hm)). unfold is_public. rewrite Hm. split; [eauto|]. intros (x & [= <-] & A). exact A. }
  assert (Fi : forall c x, c ∈ s -> ancestor g c x -> exists c', to_move e r a dest c' /\ ancestor g c' x).
  { intros c x Hc A. destruct (above_root (dag_graph d) s c W Hc) as (c' & Hc' & A'). exists c'. split.
    - now apply (sub_first e r d a dest M Op s Hs).
    - rewrite G in A'. eapply rtc_transitive; eauto. }
  assert (Fo : forall c, to_move e r a dest c -> c ∈ s) by (intros c [H _]; now apply Hs).
  split.
  - rewrite verify_rewrite_set_none by exact W. unfold would_rewrite_public. fold g. split; (intros [Hf H]; split; [exact Hf|]).
    + destruct H as (c & o & Hc & A & P). rewrite G in A. apply Pu in P. destruct (Fi c o Hc A) as (c' & Hc' & A'). eauto.
    + destruct H as (c & o & Hc & A & P). exists c, o. rewrite G. split; [now apply Fo|]. split; [exact A|now apply Pu].
  - intros allowed Ev x. apply verify_rewrite_set_spec in Ev; [|exact W]. destruct Ev as [Ev _]. rewrite Ev, G. split.
    + intros (c & Hc & A). eauto.
    + intros (c & Hc & A). eauto.
Qed.

Lemma sub_ends ts i : workable e r -> dest ∈ vertices g ->
  match mv_end (move e ts (TxId i) a r) with
  | NothingToDo => forall c, ~ to_move e r a dest c
  | NotMoved WouldRewritePublic => would_rewrite_public e r a dest
  | NotMoved (PlanCycle _) => above_itself e r a dest
  | NotMoved _ => False
  | _ => goes_through e r (to_move e r a dest) (move e ts (TxId i) a r)
  end.
Proof.
  intros Wk Hd. destruct opens as (d & m & Op & Hm). destruct (sub_requests e r d a dest M Op) as (s & Hs & Rq).
  destruct (sub_allowed d m s Op Hm Hs) as [Vn Va].
  pose proof (sub_F e r d a dest M Op s Hs) as F. pose proof (sub_NG e r d a dest M Op s Hs) as NG. pose proof (sub_T e r d a dest M Op s Hs) as T.
  pose proof (sub_V e r a dest M) as V. pose proof (sub_gaps e r d a dest M Op s Hs) as Gp. pose proof (mb_memory _ _ _ _ M) as Mem.
  destruct (verify_rewrite_set d (re_force e) s) as [allowed|] eqn:Ev.
  2:{ unfold move. rewrite Op, Rq. cbn [mv_end]. now apply Vn. }
  assert (Em : (forall c, ~ to_move e r a dest c) \/ exists c, to_move e r a dest c).
  { destruct (elements (roots (dag_graph d) s)) as [|c l] eqn:E.
    - left. intros c H. apply (sub_first e r d a dest M Op s Hs), elem_of_elements in H. rewrite E in H. now apply elem_of_nil in H.
    - right. exists c. apply (sub_first e r d a dest M Op s Hs), elem_of_elements. rewrite E. left. }
  destruct Em as [N|[c Hc]].
  { assert (X : List.map (MoveSubtree [dest]) (re_order e (roots (dag_graph d) s)) = []).
    { rewrite (order_none e (ra_sets _ _ R)); [reflexivity|]. intros x Hx. apply (sub_first e r d a dest M Op s Hs) in Hx. exact (N x Hx). }
    rewrite X in Rq. rewrite (move_nothing e r d R Op ts (TxId i) a allowed Rq). exact N. }
  assert (Cy : above_itself e r a dest \/ forall c, to_move e r a dest c -> ~ ancestor g c dest).
  { destruct (existsb (fun x => is_ancestor g x dest) (elements (roots (dag_graph d) s))) eqn:E.
    - left. apply existsb_exists in E. destruct E as (x & Hx & A). exists x. apply elem_of_list_In, elem_of_elements in Hx. split.
      + now apply (sub_first e r d a dest M Op s Hs).
      + apply is_ancestor_spec in A; [exact A|exact (sub_wf e r a dest M)].
    - right. intros x Hx A. rewrite <- not_true_iff_false in E. apply E, existsb_exists. exists x. split.
      + apply elem_of_list_In, elem_of_elements. now apply (sub_first e r d a dest M Op s Hs).
      + apply is_ancestor_spec; [exact (sub_wf e r a dest M)|exact A]. }
  set (told := fun c p => to_move e r a dest c /\ p = dest) in *.
  assert (Go_ : ~ impossible d (List.map (MoveSubtree [dest]) (re_order e (roots (dag_graph d) s))) -> goes_through e r (to_move e r a dest) (move e ts (TxId i) a r)).
  { intros NI. pose proof (move_goes_through e r d _ told R Mem Op F NG T V ts i a allowed Rq Wk) as H.
    unfold goes_through in *. assert (X : match mv_end (move e ts (TxId i) a r) with
      | Moved => True | Declined x => shown (he_graph (re_hide e)) (rr_repo r) x /\ (exists c, asked_by told c /\ ancestor (he_graph (re_hide e)) c x) /\
      (merge_commit (he_graph (re_hide e)) x \/ exists q, ee_pick (re_exec e) x q = Conflict) | _ => False end).
    { apply H; auto.
      - intros c' p [_ ->]. exact Hd.
      - intros c' p x [H' _] A. apply (Va allowed eq_refl). eauto.
      - exists c, dest. now split. }
    clear H. destruct (mv_end _); auto. destruct X as (X1 & (c' & [p [X2 _]] & X3) & X4). split; [exact X1|]. split; [eauto|exact X4]. }
  assert (Cyc : impossible d (List.map (MoveSubtree [dest]) (re_order e (roots (dag_graph d) s))) ->
    exists l, build d (planner e (rr_store r)) allowed (List.map (MoveSubtree [dest]) (re_order e (roots (dag_graph d) s))) = Done (BuiltCycle l)).
  { apply c26_moves; [rewrite (sub_graph e r d a dest M Op); exact (sub_wf e r a dest M)|exact Gp|].
    apply (many_no_fixup d). eapply Forall_impl; [exact F|]. intros x. now rewrite <- (sub_graph e r d a dest M Op). }
  assert (End : goes_through e r (to_move e r a dest) (move e ts (TxId i) a r) \/
    exists l, move e ts (TxId i) a r = mk_mr r None (NotMoved (PlanCycle l)) /\ above_itself e r a dest).
  { destruct Cy as [Cy|Cy]; [|left; apply Go_, (sub_possible e r d a dest M Op s Hs), Cy].
    destruct (build d (planner e (rr_store r)) allowed (List.map (MoveSubtree [dest]) (re_order e (roots (dag_graph d) s)))) as [[|  |l|]| |] eqn:Eb.
    3:{ right. exists l. split; [|exact Cy]. unfold move. now rewrite Op, Rq, Eb. }
    all: left; apply Go_; intros I; destruct (Cyc I) as [l' I']; congruence. }
  destruct End as [H|(l & -> & H)]; [|exact H].
  pose proof H as H'. unfold goes_through in H'. destruct (mv_end (move e ts (TxId i) a r)); try contradiction; exact H.
Qed.
Lemma sub_refused_cycle ts tx : ~ would_rewrite_public e r a dest -> shown g (rr_repo r) dest -> above_itself e r a dest ->
  exists l, move e ts tx a r = mk_mr r None (NotMoved (PlanCycle l)).
Proof.
  intros NP Sh (c & Hc & A). destruct opens as (d & m & Op & Hm). destruct (sub_requests e r d a dest M Op) as (s & Hs & Rq).
  destruct (sub_allowed d m s Op Hm Hs) as [Vn Va].
  destruct (verify_rewrite_set d (re_force e) s) as [allowed|] eqn:Ev; [|destruct NP; now apply Vn].
  apply (move_cycle e r d _ R Op (sub_F e r d a dest M Op s Hs) ts tx a allowed Rq (sub_gaps e r d a dest M Op s Hs)).
  exact (sub_impossible e r d a dest M Op s Hs c Hc A Sh).
Qed.
Lemma sub_refused_public ts tx : would_rewrite_public e r a dest -> move e ts tx a r = mk_mr r None (NotMoved WouldRewritePublic).
Proof.
  intros P. destruct opens as (d & m & Op & Hm). destruct (sub_requests e r d a dest M Op) as (s & Hs & Rq).
  destruct (sub_allowed d m s Op Hm Hs) as [Vn Va]. unfold move. rewrite Op, Rq. apply Vn in P. now rewrite P.
Qed.
End moving.
