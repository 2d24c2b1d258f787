(** Proofs about [git query]. *)
From stdpp Require Import sorting.
From Verif Require Import Base TextModel TextProofs EventLogModel DagModel DagSpec DagProofs DagCompProofs RevsetSyntaxModel RevsetModel RevsetSpec RevsetProofs
  ExecModel ExecAfterProofs NavModel HideUndoProofs GithubProofs SubmitModel QueryModel QuerySpec.

Lemma asked_resolved v hidden text s : wf_env v -> (exists fuel, resolve_commit fuel v hidden text = Resolved s) <-> asked v hidden text s.
Proof.
  intros W. unfold asked. destruct hidden; [|now apply resolve_meaning].
  change (nothing_hidden v) with (with_hidden v). exact (resolve_meaning (with_hidden v) text s (wf_hidden v W)).
Qed.

Lemma resolved_asked fuel v hidden text s : wf_env v -> resolve_commit fuel v hidden text = Resolved s -> asked v hidden text s.
Proof. intros W H. apply asked_resolved; eauto. Qed.

Lemma print_all line cs out : print_commits line cs = (out, QueryDone) <-> List.map line cs = List.map Some out.
Proof.
  revert out. induction cs as [|c cs IH]; cbn; intros out.
  - split; [now intros [= <-]|]. destruct out; [reflexivity|discriminate].
  - destruct (line c) as [l|].
    + destruct (print_commits line cs) as [out' r]. split.
      * intros [= <- ->]. cbn. f_equal. now apply IH.
      * destruct out as [|x out]; [discriminate|]. intros [= -> H]. apply IH in H. congruence.
    + split; [discriminate|]. destruct out; discriminate.
Qed.

Lemma print_broken line cs out r : print_commits line cs = (out, r) -> r <> QueryDone ->
  r = QueryBroken /\ exists cs1 c cs2, cs = cs1 ++ c :: cs2 /\ List.map line cs1 = List.map Some out /\ line c = None.
Proof.
  revert out. induction cs as [|c cs IH]; cbn; intros out.
  - intros [= <- <-] H. now destruct H.
  - destruct (line c) as [l|] eqn:E.
    + destruct (print_commits line cs) as [out' r'] eqn:Ep. intros [= <- ->] H.
      destruct (IH _ eq_refl H) as (-> & cs1 & c' & cs2 & -> & Hm & Hc). split; [reflexivity|].
      exists (c :: cs1), c', cs2. cbn. now rewrite E, Hm.
    + intros [= <- <-] _. split; [reflexivity|]. exists [], c, cs. auto.
Qed.

Lemma sort_spec g s : wf_graph g -> let cs := dag_sort g s in
  NoDup cs /\ (forall o, o ∈ cs <-> o ∈ s /\ o ∈ vertices g) /\ ancestors_first g cs.
Proof.
  intros W cs. split; [now apply dag_sort_nodup|]. split; [intros o; apply dag_sort_mem|].
  intros l1 a l2 b l3 E. exact (dag_sort_order g s l1 a l2 b l3 W E).
Qed.

Lemma string_leb_cons x a y b : String.leb (String x a) (String y b) = true <->
  (N_of_ascii x < N_of_ascii y)%N \/ (x = y /\ String.leb a b = true).
Proof.
  unfold String.leb. cbn [String.compare]. unfold Ascii.compare. destruct (N.compare_spec (N_of_ascii x) (N_of_ascii y)) as [E|L|L].
  - apply (f_equal ascii_of_N) in E. rewrite !ascii_N_embedding in E. subst y. split; [auto|]. intros [H|[_ H]]; [lia|exact H].
  - split; auto.
  - split; [discriminate|]. intros [H|[-> _]]; lia.
Qed.
Lemma string_leb_trans a b c : String.leb a b = true -> String.leb b c = true -> String.leb a c = true.
Proof.
  revert b c. induction a as [|x a IH]; intros [|y b] [|z c]; try reflexivity; try discriminate.
  rewrite !string_leb_cons. intros [H|[-> H]] [K|[-> K]]; [left; lia|now left|now left|]. right. eauto.
Qed.
Lemma name_le_trans a b c : name_le a b -> name_le b c -> name_le a c.
Proof. unfold name_le. intros. eapply string_leb_trans; eauto. Qed.

Lemma sorted_in_order l : in_order (sorted_names l).
Proof.
  intros l1 a l2 b l3 E. pose proof (sorted_sorted l) as H. rewrite E in H.
  apply Sorted_StronglySorted in H; [|exact name_le_trans]. apply StronglySorted_app_inv_r in H.
  inversion H as [|? ? _ F]; subst. rewrite list.Forall_forall in F. apply F. apply elem_of_app. right. left.
Qed.

Lemma split_app {A} (x y l1 l2 : list A) (a : A) : x ++ y = l1 ++ a :: l2 ->
  (exists m, x = l1 ++ a :: m /\ l2 = m ++ y) \/ (exists m, y = m ++ a :: l2 /\ l1 = x ++ m).
Proof.
  revert l1. induction x as [|c x IH]; cbn; intros l1 E; [right; now exists l1|].
  destruct l1 as [|c' l1]; cbn in E.
  - injection E as -> <-. left. now exists x.
  - injection E as -> E. destruct (IH _ E) as [(m & -> & ->)|(m & -> & ->)]; [left|right]; exists m; auto.
Qed.

Lemma flat_map_split {A B} (f : A -> list B) l l1 a l2 b l3 : flat_map f l = l1 ++ a :: l2 ++ b :: l3 ->
  (exists x m1 m2 m3, x ∈ l /\ f x = m1 ++ a :: m2 ++ b :: m3) \/
  (exists k1 x k2 y k3, l = k1 ++ x :: k2 ++ y :: k3 /\ a ∈ f x /\ b ∈ f y).
Proof.
  revert l1. induction l as [|x l IH]; cbn; intros l1 E; [destruct l1; discriminate|].
  destruct (split_app _ _ _ _ _ E) as [(m & Ex & Em)|(m & Ey & ->)].
  - symmetry in Em. destruct (split_app _ _ _ _ _ Em) as [(m' & -> & _)|(m' & Ey & _)].
    + left. exists x, l1, l2, m'. split; [left|exact Ex].
    + right. assert (Hb : b ∈ flat_map f l) by (rewrite Ey; apply elem_of_app; right; left).
      apply elem_of_list_In, in_flat_map in Hb. destruct Hb as (y & Hy & Hb). apply elem_of_list_In, elem_of_list_split in Hy.
      destruct Hy as (k2 & k3 & ->). exists [], x, k2, y, k3. split; [reflexivity|].
      split; [rewrite Ex; apply elem_of_app; right; left|now apply elem_of_list_In].
  - destruct (IH _ Ey) as [(y & m1 & m2 & m3 & Hy & Ef)|(k1 & y & k2 & z & k3 & -> & Ha & Hb)].
    + left. exists y, m1, m2, m3. split; [now right|exact Ef].
    + right. exists (x :: k1), y, k2, z, k3. auto.
Qed.

Lemma flat_map_nodup {A B} (f : A -> list B) l : NoDup l -> (forall x, NoDup (f x)) ->
  (forall x y b, b ∈ f x -> b ∈ f y -> x = y) -> NoDup (flat_map f l).
Proof.
  intros N Nf D. induction N as [|x l Hx N IH]; cbn; [constructor|]. apply NoDup_app. split; [apply Nf|]. split; [|exact IH].
  intros b Hb H. apply elem_of_list_In, in_flat_map in H. destruct H as (y & Hy & H). apply elem_of_list_In in Hy, H.
  rewrite (D x y b Hb H) in Hx. contradiction.
Qed.

Lemma leb_prefix p a b : String.leb (p +:+ a) (p +:+ b) = String.leb a b.
Proof.
  induction p as [|x p IH]; [reflexivity|]. change (String x p +:+ a) with (String x (p +:+ a)). change (String x p +:+ b) with (String x (p +:+ b)).
  rewrite <- IH. apply eq_true_iff_eq. rewrite string_leb_cons. split; [intros [H|[_ H]]; [lia|exact H]|auto].
Qed.

Lemma map_split {A B} (f : A -> B) l l1 a l2 b l3 : List.map f l = l1 ++ a :: l2 ++ b :: l3 ->
  exists m1 x m2 y m3, l = m1 ++ x :: m2 ++ y :: m3 /\ f x = a /\ f y = b.
Proof.
  intros E. apply map_eq_app in E. destruct E as (m1 & m & -> & _ & E). apply map_eq_cons in E. destruct E as (x & m' & -> & Hx & E).
  apply map_eq_app in E. destruct E as (m2 & m'' & -> & _ & E). apply map_eq_cons in E. destruct E as (y & m3 & -> & Hy & _).
  exists m1, x, m2, y, m3. auto.
Qed.

Section branches.
Context (g : graph) (refs : gmap refname oid) (s : commit_set) (at_branches : commit_set).
Context (W : wf_graph g) (Hb : forall o, o ∈ at_branches <-> exists n, refs !! ("refs/heads/" +:+ n) = Some o).
Let ns := flat_map (fun o => sorted_names (ExecModel.branches_at refs o)) (dag_sort g (s ∩ at_branches)).

Lemma here n o : n ∈ sorted_names (ExecModel.branches_at refs o) <-> exists short, n = "refs/heads/" +:+ short /\ refs !! n = Some o.
Proof.
  rewrite branch_here. unfold local. split; intros (x & -> & H); exists x; auto.
Qed.

Lemma names_mem short : ("refs/heads/" +:+ short) ∈ ns <-> exists o, refs !! ("refs/heads/" +:+ short) = Some o /\ o ∈ s /\ o ∈ vertices g.
Proof.
  unfold ns. rewrite elem_of_list_In, in_flat_map. split.
  - intros (o & Ho & Hn). apply elem_of_list_In in Ho, Hn. apply dag_sort_mem in Ho. apply here in Hn. destruct Hn as (_ & _ & Hn).
    exists o. set_solver.
  - intros (o & Hn & Hs & Hv). exists o. rewrite <- !elem_of_list_In. split; [|apply here; eauto].
    apply dag_sort_mem. split; [|exact Hv]. apply elem_of_intersection. split; [exact Hs|]. apply Hb. eauto.
Qed.

Lemma names_local n : n ∈ ns -> exists short, n = "refs/heads/" +:+ short.
Proof.
  unfold ns. rewrite elem_of_list_In, in_flat_map. intros (o & _ & Hn). apply elem_of_list_In, here in Hn. destruct Hn as (x & -> & _). eauto.
Qed.

Lemma names_nodup : NoDup ns.
Proof.
  unfold ns. apply flat_map_nodup; [now apply dag_sort_nodup|intros; apply branches_nodup|].
  intros x y b Hx Hy. apply here in Hx, Hy. destruct Hx as (_ & _ & Hx), Hy as (_ & _ & Hy). congruence.
Qed.

Lemma suffix_mem short : short ∈ List.map render_suffix ns <-> exists o, refs !! ("refs/heads/" +:+ short) = Some o /\ o ∈ s /\ o ∈ vertices g.
Proof.
  rewrite <- names_mem, elem_of_list_In, in_map_iff. split.
  - intros (n & E & Hn). apply elem_of_list_In in Hn. destruct (names_local n Hn) as (x & ->). rewrite render_local in E. now subst.
  - intros H. exists ("refs/heads/" +:+ short). split; [apply render_local|now apply elem_of_list_In].
Qed.

Lemma suffix_nodup : NoDup (List.map render_suffix ns).
Proof.
  pose proof names_local as L. pose proof names_nodup as N. induction N as [|n l Hn N IH]; cbn; constructor; [|apply IH; intros; apply L; now right].
  rewrite elem_of_list_In, in_map_iff. intros (m & E & Hm). apply elem_of_list_In in Hm.
  destruct (L n ltac:(left)) as (x & ->), (L m ltac:(now right)) as (y & ->). rewrite !render_local in E. subst y. contradiction.
Qed.

Lemma suffix_order l1 a l2 b l3 p q : List.map render_suffix ns = l1 ++ a :: l2 ++ b :: l3 ->
  refs !! ("refs/heads/" +:+ a) = Some p -> refs !! ("refs/heads/" +:+ b) = Some q ->
  ~ proper_ancestor g q p /\ (p = q -> String.leb a b = true).
Proof.
  intros E Hp Hq. apply map_split in E. destruct E as (m1 & x & m2 & y & m3 & E & Ex & Ey).
  assert (Lx : exists s, x = "refs/heads/" +:+ s) by (apply names_local; rewrite E; apply elem_of_app; right; left).
  assert (Ly : exists s, y = "refs/heads/" +:+ s).
  { apply names_local. rewrite E. apply elem_of_app. right. right. apply elem_of_app. right. left. }
  destruct Lx as (a' & ->), Ly as (b' & ->). rewrite render_local in Ex, Ey. subst a' b'.
  unfold ns in E. destruct (flat_map_split _ _ _ _ _ _ _ E) as [(o & k1 & k2 & k3 & Ho & Ef)|(k1 & o & k2 & o' & k3 & El & Ha & Hb')].
  - assert (Ha : ("refs/heads/" +:+ a) ∈ sorted_names (ExecModel.branches_at refs o)) by (rewrite Ef; apply elem_of_app; right; left).
    assert (Hb' : ("refs/heads/" +:+ b) ∈ sorted_names (ExecModel.branches_at refs o)).
    { rewrite Ef. apply elem_of_app. right. right. apply elem_of_app. right. left. }
    apply here in Ha, Hb'. destruct Ha as (_ & _ & Ha), Hb' as (_ & _ & Hb'). assert (o = p) by congruence. assert (o = q) by congruence. subst p q. subst.
    split; [now apply wf_acyclic|]. intros _. rewrite <- (leb_prefix "refs/heads/"). eapply sorted_in_order, Ef.
  - apply here in Ha, Hb'. destruct Ha as (_ & _ & Ha), Hb' as (_ & _ & Hb'). assert (o = p) by congruence. assert (o' = q) by congruence. subst o o'.
    split; [eapply dag_sort_order; eauto|]. intros ->. exfalso.
    pose proof (dag_sort_nodup g (s ∩ at_branches) W) as N. rewrite El in N. apply NoDup_app in N. destruct N as (_ & _ & N).
    apply NoDup_cons in N. destruct N as [N _]. apply N. apply elem_of_app. right. left.
Qed.
End branches.

Lemma refused_text fuel v hidden text : wf_env v -> resolve_commit fuel v hidden text <> EvalFailed RevsetModel.OutOfFuel ->
  (forall s, resolve_commit fuel v hidden text <> Resolved s) -> forall s, ~ asked v hidden text s.
Proof.
  intros W F N s H. apply asked_resolved in H; [|exact W]. destruct H as (fuel' & H). revert F N H. unfold resolve_commit.
  destruct (env_revparse _ text) as [o|]; [intros _ N; now destruct (N {[o]})|]. destruct (parse text) as [e|]; [|discriminate].
  destruct (eval fuel _ e) as [s1|err] eqn:E1; [intros _ N; now destruct (N s1)|]. intros F _.
  destruct (eval fuel' _ e) as [s2|err'] eqn:E2; [|discriminate]. intros _.
  assert (err <> RevsetModel.OutOfFuel) by congruence.
  destruct (le_ge_dec fuel fuel') as [L|L].
  - pose proof (eval_more _ _ _ _ _ L E1 ltac:(congruence)). congruence.
  - assert (L' : (fuel' <= fuel)%nat) by lia. pose proof (eval_more _ _ _ _ _ L' E2 ltac:(discriminate)). congruence.
Qed.
