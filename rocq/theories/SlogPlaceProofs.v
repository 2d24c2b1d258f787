(** Proofs about the smartlog: commits without merges. *)
From Coq Require Import Sorted.
From Verif Require Import Base TextModel EventLogModel EvolveModel DagModel DagSpec DagProofs
  DagCompProofs NavModel NavProofs SlogModel SlogSpec SlogProofs.

Section Place.
Context (e : slog_env) (main : oid) (vs : commit_set).
Notation d := (sl_dag e).
Notation g := (dag_graph (sl_dag e)).
Hypothesis OK : slog_ok e main.
Hypothesis NM : no_merges d vs.

Lemma W : wf_graph g. Proof. apply OK. Qed.
Lemma public_main o : public d o <-> ancestor g o main.
Proof.
  unfold public. destruct OK as (_ & M & _). rewrite M. split.
  - intros (m & ->%elem_of_singleton & H). exact H.
  - intros H. exists main. split; [now apply elem_of_singleton|exact H].
Qed.
Lemma public_dec o : {public d o} + {~ public d o}.
Proof.
  destruct (is_public_commit d o) eqn:E; [left|right].
  - apply is_public_spec in E; [exact E|apply W].
  - intros H. apply is_public_spec in H; [congruence|apply W].
Qed.
Lemma anc_trans a b c : ancestor g a b -> ancestor g b c -> ancestor g a c.
Proof. intros. eapply rtc_transitive; eassumption. Qed.
Lemma proper_anc a b : proper_ancestor g a b -> ancestor g a b.
Proof. apply tc_rtc. Qed.
Lemma anc_proper a b c : ancestor g a b -> proper_ancestor g b c -> proper_ancestor g a c.
Proof. intros. eapply tc_rtc_l; eassumption. Qed.
Lemma proper_anc_l a b c : proper_ancestor g a b -> ancestor g b c -> proper_ancestor g a c.
Proof. intros. eapply tc_rtc_r; eassumption. Qed.
Lemma anc_anti a b : ancestor g a b -> ancestor g b a -> a = b.
Proof. apply ancestor_antisym. apply W. Qed.
Lemma no_cycle a b : proper_ancestor g a b -> ancestor g b a -> False.
Proof. intros H1 H2. apply (wf_acyclic g a W). eapply proper_anc_l; eassumption. Qed.

(** [x] is below a shown commit. *)
Definition sub (x : oid) : Prop := exists v, v ∈ vs /\ ancestor g x v.
Lemma sub_shown x : x ∈ vs -> sub x.
Proof. intros H. exists x. split; [exact H|apply rtc_refl]. Qed.
Lemma sub_anc a x : ancestor g a x -> sub x -> sub a.
Proof. intros H (v & Hv & Hx). exists v. split; [exact Hv|]. eapply anc_trans; eassumption. Qed.
Lemma sub_parents x p : sub x -> ~ public d x -> parent g p x -> parents_of g x = [p].
Proof.
  intros (v & Hv & Hx) Np Hp. apply parent_parents_of in Hp; [|apply W].
  destruct (parents_of g x) as [|q ps] eqn:E; [now apply elem_of_nil in Hp|].
  assert (ps = []) as -> by exact (NM v x q ps Hv Hx Np E). apply elem_of_list_singleton in Hp. now subst.
Qed.
Lemma sub_parent_eq x p q : sub x -> ~ public d x -> parent g p x -> parent g q x -> p = q.
Proof. intros S N P Q. apply sub_parents in P, Q; try assumption. congruence. Qed.

Lemma chain x a b : sub x -> ancestor g a x -> ancestor g b x -> ~ public d a ->
  ancestor g a b \/ ancestor g b a.
Proof.
  intros S Ha Hb Na. revert b Hb S.
  apply rtc_ind_r with (P := fun x => forall b, ancestor g b x -> sub x -> ancestor g a b \/ ancestor g b a) (3 := Ha).
  { intros b Hb _. now right. }
  intros y z Hy P IH b Hb S.
  assert (Nz : ~ public d z).
  { intros Z. apply Na. apply (public_closed d a z); [|exact Z]. eapply rtc_r; eassumption. }
  destruct (ancestor_cases g b z Hb) as [->|Hp].
  - left. eapply rtc_r; eassumption.
  - apply proper_parent in Hp. destruct Hp as (p & Hp & Pp).
    rewrite (sub_parent_eq z p y S Nz Pp P) in Hp. apply IH; [exact Hp|].
    apply (sub_anc y z); [now apply rtc_once|exact S].
Qed.

(** The commit at which the line of [x] leaves the main branch. *)
Definition fork (q x : oid) : Prop :=
  public d q /\ ancestor g q x /\ forall b, public d b -> ancestor g b x -> ancestor g b q.
Lemma fork_unique q q' x : fork q x -> fork q' x -> q = q'.
Proof. intros (A1 & A2 & A3) (B1 & B2 & B3). apply anc_anti; auto. Qed.
Lemma fork_cases x : sub x -> ~ public d x ->
  (forall b, public d b -> ~ ancestor g b x) \/ exists q, fork q x.
Proof.
  remember (rank g x) as n eqn:En. revert x En.
  induction n as [n IH] using lt_wf_ind. intros x -> S N.
  destruct (parents_of g x) as [|p ps] eqn:E.
  - left. intros b B H. destruct (ancestor_cases g b x H) as [->|Hp]; [contradiction|].
    apply proper_parent in Hp. destruct Hp as (p & _ & Hp). apply parent_parents_of in Hp; [|apply W].
    rewrite E in Hp. now apply elem_of_nil in Hp.
  - assert (P : parent g p x) by (apply parent_parents_of; [apply W|rewrite E; left]).
    assert (Step : forall b, public d b -> ancestor g b x -> ancestor g b p).
    { intros b B H. destruct (ancestor_cases g b x H) as [->|Hp]; [contradiction|].
      apply proper_parent in Hp. destruct Hp as (p' & Hp & Pp). now rewrite (sub_parent_eq x p' p S N Pp P) in Hp. }
    destruct (public_dec p) as [Pp|Np].
    + right. exists p. split; [exact Pp|]. split; [now apply rtc_once|exact Step].
    + destruct (IH (rank g p)) with (x := p) as [H|(q & Q1 & Q2 & Q3)];
        [apply parent_rank; [apply W|exact P]|reflexivity|apply (sub_anc p x); [now apply rtc_once|exact S]|exact Np| |].
      * left. intros b B Hb. apply (H b B). auto.
      * right. exists q. split; [exact Q1|]. split; [eapply rtc_r; eassumption|]. intros b B Hb. auto.
Qed.
Lemma fork_parent q p x : sub x -> ~ public d x -> parent g p x -> fork q x -> fork q p \/ (q = p /\ public d p).
Proof.
  intros S N P (Q1 & Q2 & Q3). destruct (public_dec p) as [Pp|Np].
  - right. split; [|exact Pp]. destruct (ancestor_cases g q x Q2) as [->|Hp]; [contradiction|].
    apply proper_parent in Hp. destruct Hp as (p' & Hp & Pp'). rewrite (sub_parent_eq x p' p S N Pp' P) in Hp.
    apply anc_anti; [exact Hp|]. apply Q3; [exact Pp|now apply rtc_once].
  - left. split; [exact Q1|]. split.
    + destruct (ancestor_cases g q x Q2) as [->|Hp]; [contradiction|].
      apply proper_parent in Hp. destruct Hp as (p' & Hp & Pp'). now rewrite (sub_parent_eq x p' p S N Pp' P) in Hp.
    + intros b B Hb. apply Q3; [exact B|]. eapply rtc_r; eassumption.
Qed.

Lemma common_main p o : common_ancestor g ({[main]} ∪ {[p]}) o <-> public d o /\ ancestor g o p.
Proof.
  rewrite public_main. split.
  - intros H. split; apply H; set_solver.
  - intros [H1 H2] x Hx. apply elem_of_union in Hx. rewrite !elem_of_singleton in Hx. destruct Hx as [->| ->]; assumption.
Qed.
Lemma greatest_fork q p : fork q p -> greatest_common g ({[main]} ∪ {[p]}) q.
Proof.
  intros (Q1 & Q2 & Q3). split; [now apply common_main|]. intros m Hm P. apply common_main in Hm. destruct Hm as [M1 M2].
  apply (no_cycle q m P). auto.
Qed.
Lemma greatest_is_fork m q p : fork q p -> greatest_common g ({[main]} ∪ {[p]}) m -> m = q.
Proof.
  intros (Q1 & Q2 & Q3) [M1 M2]. pose proof (proj1 (common_main _ _) M1) as [N1 N2].
  destruct (ancestor_cases g m q (Q3 m N1 N2)) as [H|H]; [exact H|]. exfalso.
  apply (M2 q); [now apply common_main|exact H].
Qed.
Lemma public_fork p : public d p -> fork p p.
Proof. intros H. split; [exact H|]. split; [apply rtc_refl|]. auto. Qed.

Lemma gca_one_main p m : sub p -> sl_gca_one e (main_branch_commit d ∪ {[p]}) = Some m -> fork m p.
Proof.
  intros S E. destruct OK as (_ & M & _ & O). specialize (O (main_branch_commit d ∪ {[p]})).
  rewrite E, M in O. destruct O as [O1 O2]; [set_solver|].
  pose proof (proj1 (common_main _ _) O1) as [N1 N2].
  assert (X : exists q, fork q p).
  { destruct (public_dec p) as [Pp|Np]; [exists p; now apply public_fork|].
    destruct (fork_cases p S Np) as [H|H]; [now contradiction (H m N1)|exact H]. }
  destruct X as (q & Q). rewrite (greatest_is_fork m q p Q (conj O1 O2)). exact Q.
Qed.
Lemma gca_one_some p q : fork q p -> sl_gca_one e (main_branch_commit d ∪ {[p]}) = Some q.
Proof.
  intros Q. destruct OK as (_ & M & _ & O). specialize (O (main_branch_commit d ∪ {[p]})).
  destruct (sl_gca_one e _) as [m|]; rewrite M in O.
  - now rewrite (greatest_is_fork m q p Q) by (apply O; set_solver).
  - exfalso. apply (O ltac:(set_solver) q). apply common_main. split; apply Q.
Qed.

Lemma between_chain m p a b : sub p -> fork m p -> ancestor g m a -> ancestor g a p ->
  ancestor g m b -> ancestor g b p -> ancestor g a b \/ ancestor g b a.
Proof.
  intros S (Q1 & Q2 & Q3) A1 A2 B1 B2. destruct (public_dec a) as [Pa|Na].
  - left. rewrite (anc_anti a m) by auto. exact B1.
  - apply (chain p a b S A2 B2 Na).
Qed.
Lemma near_unique a a' p : sub p -> near e vs a p -> near e vs a' p -> a = a'.
Proof.
  intros S (m & E & A1 & A2 & A3 & A4) (m' & E' & B1 & B2 & B3 & B4). rewrite E in E'. injection E' as <-.
  pose proof (gca_one_main p m S E) as F.
  destruct (between_chain m p a a' S F A2 A3 B2 B3) as [H|H]; destruct (ancestor_cases g _ _ H) as [Ha|Ha]; try congruence.
  - now contradiction (A4 a').
  - now contradiction (B4 a).
Qed.

(** ** No merges: the links form a forest *)

Lemma kid_cases a c m : (c, m) ∈ kids e vs a ->
  m = false /\ c ∈ vs /\ ~ public d c /\
  exists p, parents_of g c = [p] /\ ((a = p /\ p ∈ vs) \/ (p ∉ vs /\ near e vs a p)).
Proof.
  intros H. apply (kids_spec e main) in H; [|exact OK]. destruct H as [H|[-> H]].
  - apply (immediate_links_spec e main) in H; [|exact OK]. destruct H as (H1 & H2 & H3 & q & ps & E & H4).
    assert (ps = []) as -> by exact (NM c c q ps H1 (rtc_refl _ _) H2 E).
    destruct H4 as [[-> ->]|[_ H4]]; [|now apply elem_of_nil in H4].
    repeat split; try assumption. exists q. auto.
  - apply (non_immediate_links_spec e main) in H; [|exact OK]. destruct H as (H1 & H2 & p & H3 & H4 & H5).
    repeat split; try assumption. exists p. split; [|auto].
    apply sub_parents; try assumption. now apply sub_shown.
Qed.

Lemma flat_map_nodup {A B} (f : A -> list B) l : NoDup l -> (forall x, NoDup (f x)) ->
  (forall x x' y, y ∈ f x -> y ∈ f x' -> x = x') -> NoDup (flat_map f l).
Proof.
  intros D Df X. induction D as [|x l Hx D IH]; cbn [flat_map]; [constructor|].
  apply NoDup_app. split; [apply Df|]. split; [|exact IH].
  intros y Hy H. apply elem_of_flat_map in H. destruct H as (x' & Hx' & Hy').
  rewrite (X x x' y Hy Hy') in Hx. contradiction.
Qed.
Lemma flat_map_flat_map {A B C} (f : A -> list B) (h : B -> list C) l :
  flat_map h (flat_map f l) = flat_map (fun x => flat_map h (f x)) l.
Proof. induction l as [|x l IH]; cbn [flat_map]; [reflexivity|]. now rewrite flat_map_app, IH. Qed.
Lemma link_children_nodup : NoDup (link_children e vs).
Proof. apply nodup_filter. apply (order_nodup e main). exact OK. Qed.

(** Commits with one parent. *)
Lemma immediate_one c p : parents_of g c = [p] ->
  immediate_of d vs c = if decide (p ∈ vs) then [(c, p, false)] else [].
Proof. intros E. unfold immediate_of. rewrite E. cbn [flat_map]. apply app_nil_r. Qed.
Lemma link_child_parents c : c ∈ link_children e vs -> parents_of g c = [] \/ exists p, parents_of g c = [p].
Proof.
  intros H. apply (link_children_spec e main) in H; [|exact OK]. destruct H as [H1 H2].
  destruct (parents_of g c) as [|q ps] eqn:E; [now left|right].
  assert (ps = []) as -> by exact (NM c c q ps H1 (rtc_refl _ _) H2 E). eauto.
Qed.
Lemma flat_map_links {B} (h : oid * oid * bool -> list B) :
  flat_map h (immediate_links e vs) =
  flat_map (fun c => match parents_of g c with
                     | [p] => if decide (p ∈ vs) then h (c, p, false) else []
                     | _ => [] end) (link_children e vs).
Proof.
  unfold immediate_links. rewrite flat_map_flat_map. assert (H := link_child_parents).
  induction (link_children e vs) as [|c l IH]; [reflexivity|]. cbn [flat_map].
  rewrite IH by (intros x Hx; apply H; now right). f_equal.
  destruct (H c) as [E|(p & E)]; [left| |].
  - unfold immediate_of. now rewrite E.
  - rewrite (immediate_one c p E), E. destruct (decide (p ∈ vs)); [|reflexivity]. cbn [flat_map]. apply app_nil_r.
Qed.

Lemma kids_nodup a : NoDup (kids e vs a).
Proof.
  unfold kids. apply NoDup_app. split; [|split].
  - rewrite node_children_perm. unfold raw_children. rewrite flat_map_links.
    apply flat_map_nodup; [apply link_children_nodup| |].
    + intros c. destruct (parents_of g c) as [|p [|q ps]]; try constructor.
      destruct (decide (p ∈ vs)); [|constructor]. cbn [fst snd]. destruct (N.eqb p a); [|constructor].
      apply NoDup_singleton.
    + intros c c' y Hy Hy'.
      assert (S : forall c, y ∈ match parents_of g c with
                     | [p] => if decide (p ∈ vs) then if (snd (fst (c, p, false)) =? a)%N
                       then [(fst (fst (c, p, false)), snd (c, p, false))] else [] else []
                     | _ => [] end -> fst y = c).
      { intros x. destruct (parents_of g x) as [|p [|q ps]]; try (intros H; now apply elem_of_nil in H).
        destruct (decide (p ∈ vs)); [|intros H; now apply elem_of_nil in H]. cbn [fst snd].
        destruct (N.eqb p a); [|intros H; now apply elem_of_nil in H].
        intros ->%elem_of_list_singleton. reflexivity. }
      rewrite <- (S c Hy), <- (S c' Hy'). reflexivity.
  - intros [c m] H1 H2.
    assert (K1 : (c, a, m) ∈ immediate_links e vs).
    { apply raw_children_spec. now rewrite <- node_children_perm. }
    apply elem_of_list_In, in_map_iff in H2. destruct H2 as (c' & E & H2). injection E as -> <-.
    apply elem_of_list_In, (order_elem e main), elem_of_list_to_set, node_descendants_spec in H2; [|exact OK].
    apply (immediate_links_spec e main) in K1; [|exact OK]. destruct K1 as (V1 & V2 & V3 & q & ps & E & V4).
    apply (non_immediate_links_spec e main) in H2; [|exact OK]. destruct H2 as (_ & _ & p & P1 & P2 & _).
    destruct V4 as [[_ ->]|[V4 _]]; [|discriminate].
    apply (sub_parents c p) in P1; [|now apply sub_shown|exact V2]. rewrite E in P1. injection P1 as -> ->. contradiction.
  -
    assert (D := order_nodup e main (list_to_set (node_descendants e vs a)) OK).
    induction D as [|x l Hx D IH]; cbn [List.map]; [constructor|]. apply NoDup_cons. split; [|exact IH].
    intros H. apply elem_of_list_In, in_map_iff in H. destruct H as (y & E & H). injection E as ->.
    apply Hx. now apply elem_of_list_In.
Qed.

Lemma kid_link a c : kid e vs a c -> node_parents e vs c <> [] \/ node_ancestor e vs c <> None.
Proof.
  intros H. apply (kids_spec e main) in H; [|exact OK]. destruct H as [H|[_ H]].
  - left. intros E. assert (X : a ∈ node_parents e vs c) by (apply node_parents_spec; eauto).
    rewrite E in X. now apply elem_of_nil in X.
  - right. intros E. pose proof (node_ancestor_spec e vs c) as X. rewrite E in X. now apply (X a).
Qed.
Lemma root_spec c : c ∈ roots_of e vs <-> c ∈ vs /\ forall a, ~ kid e vs a c.
Proof.
  unfold roots_of. rewrite sort_by_perm, elem_of_lfilter, (order_elem e main) by exact OK. split.
  - intros [H1 H2]. split; [exact H1|]. intros a K. destruct (kid_link a c K) as [X|X];
      destruct (node_parents e vs c); destruct (node_ancestor e vs c); congruence.
  - intros [H1 H2]. split; [exact H1|].
    destruct (node_parents e vs c) as [|p ps] eqn:E.
    + pose proof (node_ancestor_spec e vs c) as X. destruct (node_ancestor e vs c) as [[a n]|]; [|reflexivity].
      exfalso. apply (H2 a). unfold kid. apply (kids_spec e main); [exact OK|]. right. tauto.
    + exfalso. assert (X : p ∈ node_parents e vs c) by (rewrite E; left).
      apply node_parents_spec in X. destruct X as (m & X).
      assert (K : (c, m) ∈ kids e vs p) by (apply (kids_spec e main); auto).
      destruct (kid_cases p c m K) as (-> & _). now apply (H2 p).
Qed.
Lemma roots_nodup : NoDup (roots_of e vs).
Proof. unfold roots_of. rewrite sort_by_perm. apply nodup_filter, (order_nodup e main). exact OK. Qed.

Lemma is_forest : forest e vs (roots_of e vs).
Proof.
  split.
  - intros a c m H. now apply kid_cases in H.
  - intros a a' c H H'. apply kid_cases in H, H'.
    destruct H as (_ & V & N & p & E & H). destruct H' as (_ & _ & _ & p' & E' & H').
    rewrite E in E'. injection E' as <-.
    destruct H as [[-> Hp]|[Hp H]], H' as [[-> Hp']|[Hp' H']]; try contradiction; [reflexivity|].
    apply (near_unique a a' p); try assumption.
    apply (sub_anc p c); [|now apply sub_shown]. apply rtc_once. apply parent_parents_of; [apply W|]. rewrite E. left.
  - apply kids_nodup.
  - intros a c K H. apply root_spec in H. now apply (proj2 H a).
  - intros a c K. now apply (kid_rank e main vs a c false).
Qed.

Lemma covered x : x ∈ vs -> exists r, r ∈ roots_of e vs /\ below e vs r x.
Proof.
  remember (rank g x) as n eqn:En. revert x En.
  induction n as [n IH] using lt_wf_ind. intros x -> Hx.
  destruct (decide (x ∈ roots_of e vs)) as [R|R].
  { exists x. split; [exact R|apply rtc_refl]. }
  assert (X : exists a, kid e vs a x).
  { destruct (node_parents e vs x) as [|p ps] eqn:E.
    - pose proof (node_ancestor_spec e vs x) as Y. destruct (node_ancestor e vs x) as [[a n]|] eqn:E'.
      + exists a. apply (kids_spec e main); [exact OK|]. right. tauto.
      + exfalso. apply R. unfold roots_of. rewrite sort_by_perm, elem_of_lfilter, (order_elem e main), E, E' by exact OK. auto.
    - assert (Y : p ∈ node_parents e vs x) by (rewrite E; left). apply node_parents_spec in Y. destruct Y as (m & Y).
      assert (K : (x, m) ∈ kids e vs p) by (apply (kids_spec e main); auto).
      destruct (kid_cases p x m K) as (-> & _). eauto. }
  destruct X as (a & K). destruct (kid_proper e main vs a x false OK K) as (Ha & _).
  destruct (IH (rank g a) (kid_rank e main vs a x false OK K) a eq_refl Ha) as (r & R1 & R2).
  exists r. split; [exact R1|]. eapply rtc_r; eassumption.
Qed.

Lemma below_shown r x : r ∈ vs -> below e vs r x -> x ∈ vs.
Proof.
  intros Hr H. destruct (below_last e vs r x H) as [->|(y & _ & K)]; [exact Hr|].
  now apply (kid_proper e main vs y x false OK) in K.
Qed.

Lemma linear_output ls : roots_output e vs (roots_of e vs) (roots_of e vs) = Some ls ->
  NoDup (commits_in ls) /\ (forall x, x ∈ commits_in ls <-> x ∈ vs) /\ (forall x, x ∈ vs -> has_block e vs ls x).
Proof.
  intros E. destruct (roots_output_forest e vs _ is_forest _ ls roots_nodup (fun r H => H) E) as (H1 & H2 & H3).
  split; [exact H1|]. split.
  - intros x. rewrite H2. split; [|apply covered]. intros (r & R & B).
    apply (below_shown r x); [|exact B]. now apply root_spec in R.
  - intros x Hx. destruct (covered x Hx) as (r & R & B). now apply (H3 r).
Qed.

(** ** Everything above the main branch *)

Section Connected.
(** Where a shown line leaves the main branch is shown, too. *)
Hypothesis FS : forall x, x ∈ vs -> ~ public d x -> exists q, q ∈ vs /\ fork q x.

Lemma nearest_near a p x : x ∈ vs -> ~ public d x -> parent g p x -> p ∉ vs ->
  near e vs a p <-> nearest_shown g vs a x.
Proof.
  intros Hx Nx P Hp.
  assert (Sx := sub_shown x Hx). assert (Sp : sub p) by (apply (sub_anc p x); [now apply rtc_once|exact Sx]).
  assert (Up : forall b, proper_ancestor g b x <-> ancestor g b p).
  { intros b. rewrite proper_parent. split.
    - intros (p' & H & P'). now rewrite (sub_parent_eq x p' p Sx Nx P' P) in H.
    - intros H. eauto. }
  destruct (FS x Hx Nx) as (q & Hq & Fq).
  assert (Fp : fork q p).
  { destruct (fork_parent q p x Sx Nx P Fq) as [H|[-> _]]; [exact H|contradiction]. }
  unfold near. rewrite (gca_one_some p q Fp). split.
  - intros (m & E & A1 & A2 & A3 & A4). injection E as <-. split; [exact A1|]. split; [now apply Up|].
    intros b Hb Pb. apply Up in Pb. destruct (public_dec b) as [B|B].
    + apply (anc_trans b q a); [now apply Fp|exact A2].
    + destruct (chain p b q Sp Pb ltac:(apply Fp) B) as [H|H].
      * contradiction B. apply (public_closed d b q H). apply Fp.
      * destruct (between_chain q p a b Sp Fp A2 A3 H Pb) as [X|X]; [|exact X].
        destruct (ancestor_cases g a b X) as [->|Y]; [apply rtc_refl|]. now contradiction (A4 b Hb H Pb).
  - intros (A1 & A2 & A3). exists q. split; [reflexivity|]. split; [exact A1|]. split; [|split].
    + apply A3; [exact Hq|]. apply Up. apply Fp.
    + now apply Up.
    + intros b Hb B1 B2 B3. apply (no_cycle a b B3). apply A3; [exact Hb|]. now apply Up.
Qed.

Lemma kid_nearest a x : kid e vs a x <-> x ∈ vs /\ ~ public d x /\ nearest_shown g vs a x.
Proof.
  split.
  - intros K. apply kid_cases in K. destruct K as (_ & Hx & Nx & p & E & H). split; [exact Hx|]. split; [exact Nx|].
    assert (P : parent g p x) by (apply parent_parents_of; [apply W|rewrite E; left]).
    destruct H as [[-> Hp]|[Hp H]]; [|now apply (nearest_near a p x)].
    split; [exact Hp|]. split; [now apply tc_once|]. intros b Hb Pb. apply proper_parent in Pb.
    destruct Pb as (p' & H & P'). now rewrite (sub_parent_eq x p' p (sub_shown x Hx) Nx P' P) in H.
  - intros (Hx & Nx & A). apply (kids_spec e main); [exact OK|].
    pose proof A as (A1 & A2 & A3). apply proper_parent in A2. destruct A2 as (p & A2 & P).
    destruct (decide (p ∈ vs)) as [Hp|Hp].
    + left. assert (a = p) as ->.
      { apply anc_anti; [exact A2|]. apply A3; [exact Hp|now apply tc_once]. }
      apply (immediate_links_spec e main); [exact OK|]. repeat split; try assumption.
      exists p, []. split; [|now left]. apply sub_parents; try assumption. now apply sub_shown.
    + right. split; [reflexivity|]. apply (non_immediate_links_spec e main); [exact OK|].
      repeat split; try assumption. exists p. repeat split; try assumption. now apply (nearest_near a p x).
Qed.

Lemma maximal (s : commit_set) x : x ∈ s -> exists h, h ∈ heads_ancestors g s.
Proof.
  remember (length g - rank g x)%nat as n eqn:En. revert x En.
  induction n as [n IH] using lt_wf_ind. intros x -> Hx.
  destruct (decide (x ∈ heads_ancestors g s)) as [H|H]; [eauto|].
  unfold heads_ancestors in H. rewrite elem_of_difference in H.
  assert (A : x ∈ ancestors g (parents g s)) by (destruct (decide (x ∈ ancestors g (parents g s))); tauto).
  apply ancestors_spec in A; [|apply W]. destruct A as (p & Hp & Ha). apply parents_spec in Hp. destruct Hp as (c & Hc & P).
  assert (L : (rank g x < rank g c)%nat).
  { apply (proper_ancestor_rank g x c W). apply proper_parent. eauto. }
  pose proof (rank_bound g c). apply (IH (length g - rank g c)%nat) with (x := c); [lia|reflexivity|exact Hc].
Qed.
Lemma nearest_exists x : x ∈ vs -> ~ public d x -> exists a, nearest_shown g vs a x.
Proof.
  intros Hx Nx. destruct (FS x Hx Nx) as (q & Hq & Fq). pose proof Fq as (Q1 & Q2 & Q3).
  destruct (ancestor_cases g q x Q2) as [->|Qp]; [contradiction|]. pose proof Qp as Qp'.
  apply proper_parent in Qp. destruct Qp as (p & Qp & P).
  destruct (decide (p ∈ vs)) as [Hp|Hp].
  - exists p. split; [exact Hp|]. split; [now apply tc_once|]. intros b Hb Pb. apply proper_parent in Pb.
    destruct Pb as (p' & H & P'). now rewrite (sub_parent_eq x p' p (sub_shown x Hx) Nx P' P) in H.
  - destruct (maximal (range g {[q]} {[p]} ∩ vs) q) as (a & Ha).
    { apply elem_of_intersection. split; [|exact Hq]. apply range_spec; [apply W|].
      exists q, p. repeat split; try (now apply elem_of_singleton); [apply rtc_refl|exact Qp]. }
    exists a. apply (nearest_near a p x Hx Nx P Hp). apply (nearest_of_spec e main); [exact OK|].
    unfold nearest_of. rewrite (gca_one_some p q).
    + now apply (order_elem e main).
    + destruct (fork_parent q p x (sub_shown x Hx) Nx P Fq) as [H|[-> _]]; [exact H|contradiction].
Qed.

Lemma below_belongs a x : a ∈ vs -> (x <> a /\ below e vs a x) <-> belongs d vs a x.
Proof.
  intros Ha. split.
  - intros [N H]. revert N. apply rtc_ind_r with (P := fun x => x <> a -> belongs d vs a x) (3 := H).
    { intros X. now contradiction X. }
    intros y z Hy K IH _. apply kid_nearest in K. destruct K as (Hz & Nz & K1 & K2 & K3).
    split; [exact Hz|]. split; [exact Nz|]. destruct (decide (y = a)) as [->|Ny].
    + split; [exact K2|]. intros b Hb B Bz. destruct (ancestor_cases g b z Bz) as [->|Pb]; [contradiction|]. auto.
    + destruct (IH Ny) as (I1 & I2 & I3 & I4). split; [eapply proper_anc_l; [exact I3|now apply proper_anc]|].
      intros b Hb B Bz. destruct (ancestor_cases g b z Bz) as [->|Pb]; [contradiction|]. auto.
  - remember (rank g x) as n eqn:En. revert x En. induction n as [n IH] using lt_wf_ind.
    intros x -> (Hx & Nx & P & B).
    split; [intros ->; apply (wf_acyclic g a W P)|].
    destruct (nearest_exists x Hx Nx) as (y & Y). pose proof Y as (Y1 & Y2 & Y3).
    assert (K : kid e vs y x) by now apply kid_nearest.
    destruct (ancestor_cases g a y (Y3 a Ha P)) as [->|Py]; [now apply rtc_once|].
    assert (Ny : ~ public d y).
    { intros Py'. apply (no_cycle a y Py). apply B; [exact Y1|exact Py'|now apply proper_anc]. }
    apply rtc_r with y; [|exact K].
    apply (IH (rank g y)); [now apply proper_ancestor_rank; [apply W|]|reflexivity|].
    split; [exact Y1|]. split; [exact Ny|]. split; [exact Py|].
    intros b Hb Bp By. apply B; [exact Hb|exact Bp|]. apply (anc_trans b y x By). now apply proper_anc.
Qed.

(** *** The lines around a commit *)

Lemma node_parents_one x : node_parents e vs x = [] \/ exists p, node_parents e vs x = [p].
Proof.
  assert (D : NoDup (node_parents e vs x)).
  { unfold node_parents. rewrite flat_map_links. apply flat_map_nodup; [apply link_children_nodup| |].
    - intros c. destruct (parents_of g c) as [|p [|q ps]]; try constructor.
      destruct (decide (p ∈ vs)); [|constructor]. cbn [fst snd]. destruct (N.eqb c x); [|constructor].
      apply NoDup_singleton.
    - intros c c' y Hy Hy'.
      assert (S : forall c, y ∈ match parents_of g c with
                     | [p] => if decide (p ∈ vs) then if (fst (fst (c, p, false)) =? x)%N
                       then [snd (fst (c, p, false))] else [] else []
                     | _ => [] end -> c = x).
      { intros z. destruct (parents_of g z) as [|p [|q ps]]; try (intros H; now apply elem_of_nil in H).
        destruct (decide (p ∈ vs)); [|intros H; now apply elem_of_nil in H]. cbn [fst snd].
        destruct (N.eqb_spec z x); [auto|intros H; now apply elem_of_nil in H]. }
      rewrite (S c Hy), (S c' Hy'). reflexivity. }
  destruct (node_parents e vs x) as [|p [|q ps]] eqn:E; [now left|right; eauto|exfalso].
  assert (F : forall r, r ∈ node_parents e vs x -> kid e vs r x).
  { intros r Hr. apply node_parents_spec in Hr. destruct Hr as (m & Hr).
    assert (K : (x, m) ∈ kids e vs r) by (apply (kids_spec e main); auto).
    destruct (kid_cases r x m K) as (-> & _). exact K. }
  rewrite E in F. assert (p = q).
  { apply (f_unique e vs _ is_forest p q x); apply F; [left|right; left]. }
  subst. apply NoDup_cons in D. apply (proj1 D). left.
Qed.

Lemma before_right x : x ∈ vs -> right_before d vs x (before_of e vs x).
Proof.
  intros Hx. unfold before_of.
  assert (T : match node_parents e vs x with [] => [] | _ :: ps => List.map MergeParent ps end = []).
  { destruct (node_parents_one x) as [->|(p & ->)]; reflexivity. }
  rewrite T, app_nil_r. clear T. pose proof (node_ancestor_spec e vs x) as A.
  destruct (node_ancestor e vs x) as [[a n]|].
  - right. destruct A as [A ->].
    assert (K : kid e vs a x) by (apply (kids_spec e main); auto).
    apply kid_nearest in K. destruct K as (_ & Nx & K).
    exists a, (range g {[a]} {[x]} ∖ {[a; x]}). split; [reflexivity|]. split; [exact Nx|]. split; [exact K|].
    apply (non_immediate_links_spec e main) in A; [|exact OK]. destruct A as (_ & _ & p & P & Hp & _).
    split.
    + intros Q. rewrite (sub_parent_eq x p a (sub_shown x Hx) Nx P Q) in Hp. now destruct K.
    + intros y. rewrite elem_of_difference, range_spec by apply W. split.
      * intros [(a' & x' & ->%elem_of_singleton & ->%elem_of_singleton & Y1 & Y2) Y].
        assert (y <> a /\ y <> x) as [Ya Yx] by set_solver.
        destruct (ancestor_cases g a y Y1) as [->|?]; [now contradiction Ya|].
        destruct (ancestor_cases g y x Y2) as [->|?]; [now contradiction Yx|]. auto.
      * intros [Y1 Y2]. split.
        -- exists a, x. repeat split; try (now apply elem_of_singleton); now apply proper_anc.
        -- rewrite elem_of_union, !elem_of_singleton. intros [->| ->]; [now apply (wf_acyclic g a W)|now apply (wf_acyclic g x W)].
  - left. split; [reflexivity|]. destruct (public_dec x) as [P|N]; [now left|right].
    destruct (nearest_exists x Hx N) as (a & Ha). exists a. split; [exact Ha|].
    assert (K : kid e vs a x) by now apply kid_nearest. apply (kids_spec e main) in K; [|exact OK].
    destruct K as [K|[_ K]]; [|now contradiction (A a)].
    apply (immediate_links_spec e main) in K; [|exact OK]. destruct K as (_ & _ & _ & q & ps & E & K).
    apply parent_parents_of; [apply W|]. rewrite E. destruct K as [[_ ->]|[_ K]]; [left|now right].
Qed.

Lemma has_kids x : x ∈ vs -> (exists y, belongs d vs x y) <-> exists c, kid e vs x c.
Proof.
  intros Hx. split.
  - intros (y & B). apply below_belongs in B; [|exact Hx]. destruct B as [N B].
    inversion B as [|? c ? K _]; subst; [now contradiction N|]. eauto.
  - intros (c & K). exists c. apply below_belongs; [exact Hx|]. split; [|now apply rtc_once].
    intros ->. apply (kid_rank e main) in K; [lia|exact OK].
Qed.
Lemma no_kids x : raw_children e vs x = [] /\ node_descendants e vs x = [] <-> forall c, ~ kid e vs x c.
Proof.
  split.
  - intros [E1 E2] c K. apply (kids_spec e main) in K; [|exact OK]. destruct K as [K|[_ K]].
    + apply raw_children_spec in K. rewrite E1 in K. now apply elem_of_nil in K.
    + apply node_descendants_spec in K. rewrite E2 in K. now apply elem_of_nil in K.
  - intros H. split.
    + destruct (raw_children e vs x) as [|[c m] l] eqn:E; [reflexivity|]. exfalso.
      assert (X : (c, m) ∈ raw_children e vs x) by (rewrite E; left). apply raw_children_spec in X.
      assert (K : (c, m) ∈ kids e vs x) by (apply (kids_spec e main); auto).
      destruct (kid_cases x c m K) as (-> & _). now apply (H c).
    + destruct (node_descendants e vs x) as [|c l] eqn:E; [reflexivity|]. exfalso.
      assert (X : c ∈ node_descendants e vs x) by (rewrite E; left). apply node_descendants_spec in X.
      apply (H c). apply (kids_spec e main); auto.
Qed.

Lemma after_right x : x ∈ vs -> right_after d main vs x (after_of e vs x).
Proof.
  intros Hx. exists (filter_visible d (descendants g {[x]} ∖ {[x]})). split.
  { intros y. rewrite filter_visible_spec, elem_of_difference, descendants_spec by apply W. split.
    - intros [[(a & ->%elem_of_singleton & H) N] V]. split; [exact V|].
      destruct (ancestor_cases g x y H) as [->|P]; [|exact P]. exfalso. apply N. now apply elem_of_singleton.
    - intros [V P]. split; [|exact V]. split; [exists x; split; [now apply elem_of_singleton|now apply proper_anc]|].
      intros ->%elem_of_singleton. now apply (wf_acyclic g x W). }
  unfold after_of, node_omitted. set (s := filter_visible _ _).
  set (hd := match raw_children e vs x, node_descendants e vs x with [], [] => false | _, _ => true end).
  assert (Hd : hd = true <-> exists y, belongs d vs x y).
  { rewrite has_kids by exact Hx. unfold hd. destruct (raw_children e vs x) as [|[c m] l] eqn:E1; [destruct (node_descendants e vs x) as [|n l'] eqn:E2|].
    - split; [discriminate|]. intros (c & K). exfalso. apply (proj1 (no_kids x)) with c; auto.
    - split; [|reflexivity]. intros _. assert (X : n ∈ node_descendants e vs x) by (rewrite E2; left).
      apply node_descendants_spec in X. exists n. apply (kids_spec e main); auto.
    - split; [|reflexivity]. intros _. assert (X : (c, m) ∈ raw_children e vs x) by (rewrite E1; left).
      apply raw_children_spec in X. assert (K : (c, m) ∈ kids e vs x) by (apply (kids_spec e main); auto).
      destruct (kid_cases x c m K) as (-> & _). eauto. }
  set (am := is_public_commit d x && negb (negb (bool_decide (main_branch_commit d ∩ {[x]} = ∅)))).
  assert (Am : am = true <-> public d x /\ x <> main).
  { unfold am. rewrite negb_involutive, andb_true_iff, bool_decide_eq_true, is_public_spec by apply W.
    destruct OK as (_ & M & _). rewrite M.
    assert (({[main]} : commit_set) ∩ {[x]} = ∅ <-> x <> main) by set_solver. tauto. }
  destruct (am || hd) eqn:E.
  - left. split; [reflexivity|]. apply orb_true_iff in E. tauto.
  - apply orb_false_iff in E. destruct E as [E1 E2].
    destruct (Nat.ltb_spec 0 (size s)) as [L|L].
    + right. split; [reflexivity|]. split; [|split].
      * intros Z. rewrite Z, size_empty in L. lia.
      * intros P. destruct (decide (x = main)) as [Em|Nm]; [exact Em|]. exfalso.
        assert (am = true) by tauto. congruence.
      * intros y B. assert (hd = true) by (apply Hd; eauto). congruence.
    + left. split; [reflexivity|]. right. right. assert (Z : size s = 0%nat) by lia.
      apply size_empty_inv in Z. now apply leibniz_equiv in Z.
Qed.

Lemma block_right ls x : roots_output e vs (roots_of e vs) (roots_of e vs) = Some ls -> x ∈ vs ->
  right_block e main vs ls x.
Proof.
  intros E Hx. destruct (linear_output ls E) as (D & _ & B). destruct (B x Hx) as (l1 & l2 & l3 & -> & H).
  exists l1, (before_of e vs x), (line_of e x), (after_of e vs x), l2, l3.
  split; [reflexivity|]. split; [now apply before_right|]. split; [now apply (line_of_right e main)|].
  split; [now apply after_right|]. intros y. split.
  - rewrite H. now apply below_belongs.
  - intros Hy By. apply below_belongs in By; [|exact Hx]. apply H in By.
    rewrite commits_in_app in Hy. rewrite !(commits_in_app l1), commits_in_app, commits_in_block in D.
    apply NoDup_app in D. destruct D as (_ & D1 & D2).
    apply NoDup_app in D2. destruct D2 as (_ & D2 & _).
    apply elem_of_app in Hy. destruct Hy as [Hy|Hy].
    + apply (D1 y Hy). apply elem_of_app. left. now right.
    + apply (D2 y); [now right|exact Hy].
Qed.

(** *** The main branch *)

Lemma connected_root x : x ∈ roots_of e vs <-> x ∈ vs /\ public d x.
Proof.
  rewrite root_spec. split; intros [H1 H2]; (split; [exact H1|]).
  - destruct (public_dec x) as [P|N]; [exact P|]. exfalso. destruct (nearest_exists x H1 N) as (a & A).
    apply (H2 a). now apply kid_nearest.
  - intros a K. apply kid_nearest in K. tauto.
Qed.

Lemma roots_sorted : (forall x, x ∈ vs -> public d x -> sl_found e x = true) ->
  (forall x y, x ∈ vs -> y ∈ vs -> public d x -> public d y -> ancestor g x y \/ ancestor g y x) ->
  StronglySorted (proper_ancestor g) (roots_of e vs).
Proof.
  intros Fd T. unfold roots_of.
  assert (M : forall x, x ∈ List.filter (fun o => match node_parents e vs o, node_ancestor e vs o with
                [], None => true | _, _ => false end) (sl_order e vs) -> x ∈ vs /\ public d x).
  { intros x Hx. apply connected_root. unfold roots_of. now rewrite sort_by_perm. }
  assert (C : forall x y, x ∈ vs -> public d x -> y ∈ vs -> public d y -> proper_ancestor g x y ->
            root_cmp e x y = Lt /\ root_cmp e y x = Gt).
  { intros x y Hx Px Hy Py A.
    assert (N : x <> y) by (intros ->; now apply (wf_acyclic g y W)).
    assert (G : forall s, (forall z, z ∈ s <-> z = x \/ z = y) -> sl_gca_one e s = Some x).
    { intros s Hs. destruct OK as (_ & _ & _ & O). specialize (O s).
      assert (Cx : common_ancestor g s x).
      { intros z Hz. apply Hs in Hz. destruct Hz as [->| ->]; [apply rtc_refl|now apply proper_anc]. }
      destruct (sl_gca_one e s) as [m|].
      - destruct O as [O1 O2]; [intros ->; assert (x ∈ (∅ : commit_set)) by (apply Hs; auto); set_solver|].
        f_equal. destruct (ancestor_cases g m x) as [Em|Pm]; [apply O1, Hs; auto|exact Em|]. now contradiction (O2 x Cx).
      - contradiction (O ltac:(intros ->; assert (x ∈ (∅ : commit_set)) by (apply Hs; auto); set_solver) x Cx). }
    unfold root_cmp. rewrite !Fd by assumption. cbn [andb].
    rewrite (G {[x; y]}) by (intros z; rewrite elem_of_union, !elem_of_singleton; reflexivity).
    rewrite (G {[y; x]}) by (intros z; rewrite elem_of_union, !elem_of_singleton; tauto).
    rewrite N.eqb_refl. split; [reflexivity|]. destruct (N.eqb_spec x y); [contradiction|reflexivity]. }
  apply sort_by_sorted.
  - intros x y Hx Hy N E. apply M in Hx, Hy. destruct Hx as [Hx Px], Hy as [Hy Py].
    destruct (T x y Hx Hy Px Py) as [A|A]; destruct (ancestor_cases g _ _ A) as [->|P]; try congruence.
    destruct (C x y); auto. congruence.
  - intros x y Hx Hy N E. apply M in Hx, Hy. destruct Hx as [Hx Px], Hy as [Hy Py].
    destruct (T x y Hx Hy Px Py) as [A|A]; destruct (ancestor_cases g _ _ A) as [->|P]; try congruence.
    destruct (C y x); auto. congruence.
  - intros x y z H1 H2. eapply tc_transitive; eassumption.
  - apply nodup_filter, (order_nodup e main). exact OK.
Qed.

Lemma public_lines todo ls : (forall r, r ∈ todo -> r ∈ roots_of e vs) ->
  roots_output e vs (roots_of e vs) todo = Some ls ->
  List.filter (is_public_commit d) (commits_in ls) = todo.
Proof.
  revert ls. induction todo as [|r todo IH]; cbn [roots_output]; intros ls R E.
  - injection E as <-. reflexivity.
  - destruct (child_output _ _ _ _ r) as [x|] eqn:K; [|discriminate].
    destruct (roots_output _ _ _ todo) as [y|]; [|discriminate]. injection E as <-.
    rewrite commits_in_app, List.filter_app, (IH y) by (auto; intros z Hz; apply R; now right).
    change (r :: todo) with ([r] ++ todo). f_equal.
    assert (Hr := R r ltac:(left)). apply connected_root in Hr. destruct Hr as [Hr Pr].
    pose proof (child_output_forest _ e vs _ is_forest r x K) as (D & M & _).
    rewrite child_output_S in K. destruct (outs _ _ _ _ _) as [ab|]; [|discriminate].
    apply (inj Some) in K. subst x. rewrite commits_in_block in *. cbn [List.filter].
    rewrite (proj2 (is_public_spec d r W) Pr). f_equal.
    assert (A : forall z, z ∈ commits_in ab -> is_public_commit d z = false).
    { intros z Hz. apply NoDup_cons in D. destruct D as [D _].
      assert (B : below e vs r z) by (apply M; now right).
      destruct (below_last e vs r z B) as [->|(w & _ & Kw)]; [contradiction|].
      apply kid_nearest in Kw. destruct (is_public_commit d z) eqn:Z; [|reflexivity].
      apply is_public_spec in Z; [tauto|apply W]. }
    clear - A. induction (commits_in ab) as [|z l IHl]; [reflexivity|]. cbn [List.filter].
    rewrite A by left. apply IHl. intros w Hw. apply A. now right.
Qed.
End Connected.
End Place.

(** ** The commits shown *)

Lemma gca_all_spec g s m : wf_graph g -> s <> ∅ -> m ∈ gca_all g s <-> greatest_common g s m.
Proof.
  intros W Hs. unfold gca_all, greatest_common. rewrite heads_spec, common_ancestors_spec by exact W. split.
  - intros [[_ H1] H2]. split; [exact H1|]. intros m' Hm P. apply proper_child in P. destruct P as (c & Pc & A).
    apply (H2 c); [|exact Pc]. apply common_ancestors_spec; [exact W|]. split; [exact Hs|].
    intros x Hx. eapply rtc_transitive; [exact A|]. now apply Hm.
  - intros [H1 H2]. split; [split; assumption|]. intros c Hc P. apply common_ancestors_spec in Hc; [|exact W].
    apply (H2 c); [exact (proj2 Hc)|now apply tc_once].
Qed.
Lemma gca_all_none g s : wf_graph g -> s <> ∅ -> gca_all g s = ∅ -> forall m, ~ common_ancestor g s m.
Proof.
  intros W Hs E m Hm.
  destruct (below_head g (common_ancestors g s) m W) as (h & Hh & _); [now apply common_ancestors_spec|].
  unfold gca_all in E. rewrite E in Hh. set_solver.
Qed.

Lemma shown_elem d commits v : v ∈ shown d commits <->
  exists c, c ∈ commits /\ (v = c \/ v ∈ merge_bases d commits c).
Proof.
  unfold shown. rewrite elem_of_union_list. split.
  - intros (X & H & HX). apply elem_of_list_In, in_map_iff in H. destruct H as (c & <- & H).
    apply elem_of_list_In, elem_of_elements in H. exists c. split; [exact H|].
    apply elem_of_union in HX. rewrite elem_of_singleton in HX. exact HX.
  - intros (c & Hc & H). exists ({[c]} ∪ merge_bases d commits c). split.
    + apply elem_of_list_In, in_map_iff. exists c. split; [reflexivity|]. now apply elem_of_list_In, elem_of_elements.
    + rewrite elem_of_union, elem_of_singleton. exact H.
Qed.
Lemma shown_main e main commits v : slog_ok e main -> main ∈ commits ->
  v ∈ shown (sl_dag e) commits <-> v ∈ commits \/
    exists c, c ∈ commits /\ greatest_common (dag_graph (sl_dag e)) {[main; c]} v.
Proof.
  intros (W & M & _) Hm. rewrite shown_elem.
  assert (B : forall c, merge_bases (sl_dag e) commits c = gca_all (dag_graph (sl_dag e)) {[main; c]}).
  { intros c. unfold merge_bases. rewrite M, decide_False; [reflexivity|]. set_solver. }
  split.
  - intros (c & Hc & [->|H]); [now left|right]. exists c. split; [exact Hc|]. rewrite B in H.
    apply gca_all_spec; [exact W|set_solver|exact H].
  - intros [H|(c & Hc & H)]; [eauto|]. exists c. split; [exact Hc|right]. rewrite B.
    apply gca_all_spec; [exact W|set_solver|exact H].
Qed.
Lemma shown_exact e main commits v : slog_ok e main -> main ∉ commits -> commits <> ∅ ->
  v ∈ shown (sl_dag e) commits <-> v ∈ commits \/ greatest_common (dag_graph (sl_dag e)) commits v.
Proof.
  intros (W & M & _) Hm Hn. rewrite shown_elem.
  assert (B : forall c, c ∈ commits -> merge_bases (sl_dag e) commits c = gca_all (dag_graph (sl_dag e)) commits).
  { intros c Hc. unfold merge_bases. rewrite M, decide_True by set_solver. f_equal. set_solver. }
  split.
  - intros (c & Hc & [->|H]); [now left|right]. rewrite B in H by exact Hc.
    apply gca_all_spec; [exact W|exact Hn|exact H].
  - intros [H|H]; [eauto|]. destruct (set_choose_L commits Hn) as (c & Hc). exists c. split; [exact Hc|right].
    rewrite B by exact Hc. apply gca_all_spec; [exact W|exact Hn|exact H].
Qed.

Lemma selected_main e main exact commits : slog_ok e main -> (exact = true -> main ∈ commits) ->
  main ∈ selected (sl_dag e) exact commits.
Proof. intros (_ & M & _) H. unfold selected. destruct exact; [auto|]. rewrite M. set_solver. Qed.

Lemma forks_shown e main commits : slog_ok e main -> main ∈ commits ->
  no_merges (sl_dag e) (shown (sl_dag e) commits) ->
  (forall c, c ∈ commits -> exists q, public (sl_dag e) q /\ ancestor (dag_graph (sl_dag e)) q c) ->
  forall x, x ∈ shown (sl_dag e) commits -> ~ public (sl_dag e) x ->
    exists q, q ∈ shown (sl_dag e) commits /\ fork e q x.
Proof.
  intros OK Hm NM C x Hx Nx.
  assert (Hc : x ∈ commits).
  { apply (shown_main e main) in Hx; try assumption. destruct Hx as [H|(c & _ & [H _])]; [exact H|].
    contradiction Nx. apply (public_main e main); [exact OK|]. apply H. set_solver. }
  destruct (C x Hc) as (b & B1 & B2).
  destruct (fork_cases e main _ OK NM x) as [H|(q & Q)]; [now apply sub_shown|exact Nx|now contradiction (H b)|].
  exists q. split; [|exact Q]. apply (shown_main e main); [assumption..|]. right. exists x. split; [exact Hc|].
  eapply greatest_fork; eassumption.
Qed.

Lemma selected_asked e main exact commits s : slog_ok e main -> asked (sl_dag e) main exact commits s ->
  selected (sl_dag e) exact commits = s.
Proof.
  intros (_ & M & _) A. apply set_eq. intros x. rewrite (A x). unfold selected. rewrite M. destruct exact.
  - split; [auto|]. intros [H|[H _]]; [exact H|discriminate].
  - rewrite !elem_of_union, elem_of_singleton. intuition.
Qed.
Lemma shown_displayed e main exact commits vs : slog_ok e main -> displayed (sl_dag e) main exact commits vs ->
  shown (sl_dag e) (selected (sl_dag e) exact commits) = vs.
Proof.
  intros OK (s & A & D). rewrite (selected_asked e main exact commits s OK A). apply set_eq. intros x. rewrite (D x).
  destruct (decide (main ∈ s)) as [H|H].
  - rewrite (shown_main e main) by assumption. intuition.
  - destruct (decide (s = ∅)) as [->|Hn].
    + rewrite shown_elem. split; [intros (c & Hc & _); set_solver|]. intros [X|[[X _]|(_ & X & _)]]; [set_solver..|congruence].
    + rewrite (shown_exact e main) by assumption. intuition.
Qed.
Lemma displayed_exists e main exact commits : slog_ok e main -> exists vs, displayed (sl_dag e) main exact commits vs.
Proof.
  intros OK. exists (shown (sl_dag e) (selected (sl_dag e) exact commits)). exists (selected (sl_dag e) exact commits).
  assert (A : asked (sl_dag e) main exact commits (selected (sl_dag e) exact commits)).
  { intros x. destruct OK as (_ & M & _). unfold selected. rewrite M. destruct exact.
    - split; [auto|]. intros [H|[H _]]; [exact H|discriminate].
    - rewrite !elem_of_union, elem_of_singleton. intuition. }
  split; [exact A|]. generalize (selected (sl_dag e) exact commits). intros s x.
  destruct (decide (main ∈ s)) as [H|H].
  - rewrite (shown_main e main) by assumption. intuition.
  - destruct (decide (s = ∅)) as [->|Hn].
    + rewrite shown_elem. split; [intros (c & Hc & _); set_solver|]. intros [X|[[X _]|(_ & X & _)]]; [set_solver..|congruence].
    + rewrite (shown_exact e main) by assumption. intuition.
Qed.

Lemma on_main_forks e main exact commits vs : slog_ok e main -> displayed (sl_dag e) main exact commits vs ->
  no_merges (sl_dag e) vs -> on_main (sl_dag e) main exact commits vs ->
  forall x, x ∈ vs -> ~ public (sl_dag e) x -> exists q, q ∈ vs /\ fork e q x.
Proof.
  intros OK D NM [Hm C] x Hx Nx. pose proof D as (s & A & DS).
  assert (E := shown_displayed e main exact commits vs OK D).
  rewrite (selected_asked e main exact commits s OK A) in E. subst vs.
  apply (forks_shown e main s OK); try assumption.
  - apply A. destruct Hm as [->|Hm]; auto.
  - intros c Hc. apply C. apply DS. now left.
Qed.

(** ** The whole output *)

Section Output.
Context (e : slog_env) (main : oid) (exact : bool) (commits vs : commit_set) (ls : list line).
Hypothesis OK : slog_ok e main.
Hypothesis D : displayed (sl_dag e) main exact commits vs.
Hypothesis E : smartlog e exact commits = Some ls.

Lemma output_roots : roots_output e vs (roots_of e vs) (roots_of e vs) = Some ls.
Proof. rewrite <- E. unfold smartlog. now rewrite (shown_displayed e main exact commits vs OK D). Qed.

Lemma output_lines o p b h : Commit o p b h ∈ ls -> o ∈ vs /\ right_line e o (Commit o p b h).
Proof.
  intros H. pose proof (smartlog_lines e main exact commits ls OK E) as F.
  rewrite (shown_displayed e main exact commits vs OK D), Forall_forall in F. apply (F _ H).
Qed.

Lemma output_once : no_merges (sl_dag e) vs ->
  NoDup (commits_in ls) /\ forall x, x ∈ commits_in ls <-> x ∈ vs.
Proof. intros NM. destruct (linear_output e main vs OK NM ls output_roots) as (H1 & H2 & _). auto. Qed.

Lemma output_blocks : no_merges (sl_dag e) vs -> on_main (sl_dag e) main exact commits vs ->
  forall o, o ∈ vs -> right_block e main vs ls o.
Proof.
  intros NM OM o Ho. apply (block_right e main vs OK NM); [|exact output_roots|exact Ho].
  now apply (on_main_forks e main exact commits).
Qed.

Lemma output_main : no_merges (sl_dag e) vs -> on_main (sl_dag e) main exact commits vs ->
  (forall x, x ∈ vs -> public (sl_dag e) x -> sl_found e x = true) ->
  (forall x y, x ∈ vs -> y ∈ vs -> public (sl_dag e) x -> public (sl_dag e) y ->
     ancestor (dag_graph (sl_dag e)) x y \/ ancestor (dag_graph (sl_dag e)) y x) ->
  forall l1 a l2 b l3, commits_in ls = l1 ++ a :: l2 ++ b :: l3 ->
    public (sl_dag e) a -> public (sl_dag e) b -> proper_ancestor (dag_graph (sl_dag e)) a b.
Proof.
  intros NM OM Fd T l1 a l2 b l3 El Pa Pb.
  assert (FS := on_main_forks e main exact commits vs OK D NM OM).
  pose proof (roots_sorted e main vs OK NM FS Fd T) as S.
  pose proof (public_lines e main vs OK NM FS _ ls (fun r H => H) output_roots) as P.
  rewrite El in P. rewrite <- P in S. pose proof OK as (W & _).
  rewrite List.filter_app in S. cbn [List.filter] in S. rewrite (proj2 (is_public_spec _ a W) Pa) in S.
  rewrite List.filter_app in S. cbn [List.filter] in S. rewrite (proj2 (is_public_spec _ b W) Pb) in S.
  induction (List.filter (is_public_commit (sl_dag e)) l1) as [|z l IH].
  - cbn [app] in S. apply StronglySorted_inv in S. destruct S as [_ S]. rewrite Forall_forall in S. apply S.
    apply elem_of_app. right. left.
  - cbn [app] in S. apply StronglySorted_inv in S. now apply IH.
Qed.

Lemma output_head h : no_merges (sl_dag e) vs -> sl_head e = Some h -> h ∈ vs ->
  exists l1 p b l2, ls = l1 ++ Commit h p b true :: l2 /\
    forall o p' b', Commit o p' b' true ∉ l1 ++ l2.
Proof.
  intros NM Eh Hh. destruct (output_once NM) as [N M].
  assert (X : h ∈ commits_in ls) by now apply M.
  unfold commits_in in X. apply elem_of_flat_map in X. destruct X as (l & Hl & X).
  destruct l as [| |o p b hd| |]; try (now apply elem_of_nil in X). apply elem_of_list_singleton in X. subst o.
  destruct (output_lines h p b hd Hl) as (_ & p' & b' & hd' & R & _ & _ & R3). injection R as <- <- <-.
  assert (hd = true) as -> by now apply R3.
  apply elem_of_list_split in Hl. destruct Hl as (l1 & l2 & El). exists l1, p, b, l2. split; [exact El|].
  intros o p' b' Ho.
  assert (Ho' : Commit o p' b' true ∈ ls).
  { rewrite El. apply elem_of_app in Ho. apply elem_of_app. destruct Ho as [Ho|Ho]; [now left|right; now right]. }
  destruct (output_lines o p' b' true Ho') as (_ & p'' & b'' & hd'' & R & _ & _ & R4). injection R as <- <- <-.
  rewrite Eh in R4. pose proof (proj1 R4 eq_refl) as R5. injection R5 as <-.
  rewrite El, commits_in_app in N. change (commits_in (Commit h p b true :: l2)) with (h :: commits_in l2) in N.
  apply NoDup_app in N. destruct N as (_ & N1 & N2). apply NoDup_cons in N2. destruct N2 as [N2 _].
  assert (X : forall l, Commit h p' b' true ∈ l -> h ∈ commits_in l).
  { intros l Hl. unfold commits_in. apply elem_of_flat_map. eexists. split; [exact Hl|]. left. }
  apply elem_of_app in Ho. destruct Ho as [Ho|Ho].
  - apply (N1 h (X _ Ho)). left.
  - apply N2. now apply X.
Qed.
End Output.

Lemma plain_env_ok d time h main : wf_graph (dag_graph d) -> main_branch_commit d = {[main]} ->
  slog_ok (plain_env d time h) main.
Proof.
  intros W M. split; [exact W|]. split; [exact M|]. split; [reflexivity|]. intros s Hs.
  cbn [plain_env sl_gca_one sl_dag]. destruct (elements (gca_all (dag_graph d) s)) as [|m l] eqn:E; cbn [hd_error].
  - apply elements_empty_inv, leibniz_equiv in E. now apply gca_all_none.
  - apply gca_all_spec; [exact W|exact Hs|]. apply elem_of_elements. rewrite E. left.
Qed.
