(** The search for cycles. *)
From stdpp Require Import sorting relations.
From Verif Require Import Base TextModel DagModel DagSpec DagProofs StrModel HookModel PlanModel PlanSpec PlanProofs.

(** Consecutive commits of a list are joined. *)
Fixpoint walk {A} (R : A -> A -> Prop) (l : list A) : Prop :=
  match l with
  | x :: (y :: _) as l' => R x y /\ walk R l'
  | _ => True
  end.

Lemma walk_snoc {A} (R : A -> A -> Prop) l x y : walk R (l ++ [x]) -> R x y -> walk R (l ++ [x; y]).
Proof.
  induction l as [|a [|b l] IH]; cbn in *; intros H Hr; auto.
  - tauto.
  - destruct H. split; [assumption|]. apply IH; assumption.
Qed.

Lemma walk_app_r {A} (R : A -> A -> Prop) l l' : walk R (l ++ l') -> walk R l'.
Proof.
  induction l as [|a l IH]; [auto|]. intros H. apply IH. destruct l, l'; cbn in *; tauto.
Qed.

Lemma walk_tc {A} (R : A -> A -> Prop) x l y : walk R (x :: l ++ [y]) -> tc R x y.
Proof.
  revert x. induction l as [|a l IH]; intros x H.
  - cbn in H. apply tc_once. tauto.
  - cbn in H. destruct H as [H1 H2]. eapply tc_l; [exact H1|]. apply IH. exact H2.
Qed.

Lemma walk_last {A} (R : A -> A -> Prop) l o : l <> [] -> walk R (l ++ [o]) -> exists y, y ∈ l /\ R y o.
Proof.
  destruct l as [|z l _] using rev_ind; [congruence|]. intros _ W. exists z. split; [set_solver|].
  rewrite <- app_assoc in W. apply walk_app_r in W. cbn in W. tauto.
Qed.

Section cycles.
Context (m : gmap oid (gset oid)).

Lemma edge_nodes p c : edge m p c -> p ∈ cg_nodes m /\ c ∈ cg_nodes m.
Proof.
  intros H. unfold cg_nodes. rewrite !elem_of_union. split; [left; eapply edge_dom; eauto|right].
  apply all_values_spec. eauto.
Qed.

(** The loop over the children stops at the first report. *)
Lemma first_report {B} (f : B -> outcome (option (list oid))) l r :
  fold_left (fun r c => bind r (fun x => match x with Some l => Done (Some l) | None => f c end)) l r =
  match r with
  | Done None => fold_left (fun r c => bind r (fun x => match x with Some l => Done (Some l) | None => f c end)) l (Done None)
  | _ => r
  end.
Proof.
  destruct r as [[r|]| |]; [|reflexivity|..]; induction l as [|b l IH]; cbn; auto.
Qed.

Lemma reports_none {B} (f : B -> outcome (option (list oid))) l :
  fold_left (fun r c => bind r (fun x => match x with Some l => Done (Some l) | None => f c end)) l (Done None) = Done None
  <-> forall c, c ∈ l -> f c = Done None.
Proof.
  induction l as [|b l IH]; cbn.
  - split; [intros _ c Hc; now apply elem_of_nil in Hc|auto].
  - rewrite first_report. destruct (f b) as [[r|]| |] eqn:E.
    + split; [discriminate|]. intros H. rewrite (H b) in E by set_solver. discriminate.
    + rewrite IH. split; [|set_solver]. intros H c Hc. apply elem_of_cons in Hc. destruct Hc as [-> |Hc]; auto.
    + split; [discriminate|]. intros H. rewrite (H b) in E by set_solver. discriminate.
    + split; [discriminate|]. intros H. rewrite (H b) in E by set_solver. discriminate.
Qed.

Lemma reports_other {B} (f : B -> outcome (option (list oid))) l r :
  fold_left (fun r c => bind r (fun x => match x with Some l => Done (Some l) | None => f c end)) l (Done None) = r ->
  r <> Done None -> exists c, c ∈ l /\ f c = r.
Proof.
  induction l as [|b l IH]; cbn.
  - intros <-. congruence.
  - rewrite first_report. intros H N. destruct (f b) as [[r'|]| |] eqn:E.
    + exists b. split; [set_solver|congruence].
    + destruct (IH H N) as (c & Hc & Ec). exists c. split; [set_solver|exact Ec].
    + exists b. split; [set_solver|congruence].
    + exists b. split; [set_solver|congruence].
Qed.

Lemma check_from_fuel fuel path o :
  NoDup path -> (forall x, x ∈ path -> x ∈ cg_nodes m) -> o ∈ cg_nodes m ->
  (size (cg_nodes m) < fuel + length path)%nat -> check_from fuel m path o <> NoFuel /\ check_from fuel m path o <> Failed.
Proof.
  revert path o. induction fuel as [|fuel IH]; intros path o ND Sub Ho L.
  - exfalso. cbn in L.
    assert (length path <= size (cg_nodes m))%nat; [|lia].
    rewrite <- (size_list_to_set (C := gset oid) path ND). apply subseteq_size.
    intros x Hx. apply elem_of_list_to_set in Hx. auto.
  - cbn [check_from]. destruct (decide (o ∈ path)) as [Hin|Hin]; [split; discriminate|].
    assert (K : forall c, c ∈ sorted_oids (edges_from m o) ->
              check_from fuel m (path ++ [o]) c <> NoFuel /\ check_from fuel m (path ++ [o]) c <> Failed).
    { intros c Hc. apply sorted_oids_spec in Hc. apply IH.
      - apply NoDup_app. split_and!; [exact ND|set_solver|apply NoDup_singleton].
      - intros x. rewrite elem_of_app, elem_of_list_singleton. intros [H| ->]; auto.
      - eapply edge_nodes; exact Hc.
      - rewrite app_length. cbn. lia. }
    split; intros E; (eapply reports_other in E; [|discriminate]); destruct E as (c & Hc & Ec); destruct (K c Hc); auto.
Qed.

Lemma check_from_none fuel path o :
  check_from fuel m path o = Done None ->
  forall x, rtc (edge m) o x -> x ∉ path /\ ~ tc (edge m) x x.
Proof.
  revert path o. induction fuel as [|fuel IH]; intros path o; [discriminate|].
  cbn [check_from]. destruct (decide (o ∈ path)) as [Hin|Hin]; [discriminate|].
  rewrite reports_none. intros H.
  assert (K : forall c x, edge m o c -> rtc (edge m) c x -> x ∉ path ++ [o] /\ ~ tc (edge m) x x).
  { intros c x Hc Hr. eapply IH; [|exact Hr]. apply H. now apply sorted_oids_spec. }
  intros x Hr. apply rtc_inv in Hr. destruct Hr as [<-|(c & Hc & Hr)].
  - split; [exact Hin|]. intros T. apply tc_rtc_l in T || idtac.
    assert (exists c, edge m o c /\ rtc (edge m) c o) as (c & Hc & Hr).
    { inversion T; subst; [exists o; split; [assumption|apply rtc_refl]|]. eexists. split; [eassumption|]. now apply tc_rtc. }
    destruct (K c o Hc Hr) as [N _]. set_solver.
  - destruct (K c x Hc Hr) as [N A]. split; [set_solver|exact A].
Qed.

(** A report: a walk that comes back to one of its commits. *)
Definition is_report (l : list oid) : Prop :=
  exists pre o, l = pre ++ [o] /\ o ∈ pre /\ NoDup pre /\ walk (edge m) l.

Lemma check_from_some fuel path o l :
  NoDup path -> walk (edge m) (path ++ [o]) -> check_from fuel m path o = Done (Some l) ->
  is_report l /\ (path <> [] -> head l = head path) /\ (path = [] -> head l = Some o).
Proof.
  revert path o. induction fuel as [|fuel IH]; intros path o ND W; [discriminate|].
  cbn [check_from]. destruct (decide (o ∈ path)) as [Hin|Hin].
  - intros [= <-]. split_and!.
    + exists path, o. auto.
    + destruct path; [congruence|reflexivity].
    + intros ->. reflexivity.
  - intros E. eapply reports_other in E; [|discriminate]. destruct E as (c & Hc & Ec).
    apply sorted_oids_spec in Hc. apply IH in Ec.
    + destruct Ec as (A & B & C). split_and!; [exact A| |].
      * intros N. rewrite B by (destruct path; discriminate). destruct path; [congruence|reflexivity].
      * intros ->. apply B. discriminate.
    + apply NoDup_app. split_and!; [exact ND|set_solver|apply NoDup_singleton].
    + rewrite <- app_assoc. cbn. apply walk_snoc; assumption.
Qed.

Lemma report_cycle l : is_report l -> exists c, tc (edge m) c c.
Proof.
  intros (pre & o & -> & Hin & ND & W). apply elem_of_list_split in Hin. destruct Hin as (l1 & l2 & ->).
  exists o. rewrite <- app_assoc in W. apply walk_app_r in W. cbn in W. apply walk_tc in W. exact W.
Qed.

Lemma check_for_cycles_total : check_for_cycles m <> NoFuel /\ check_for_cycles m <> Failed.
Proof.
  unfold check_for_cycles.
  assert (K : forall o, o ∈ sorted_oids (dom m) -> check_from (S (S (size (cg_nodes m)))) m [] o <> NoFuel /\
                         check_from (S (S (size (cg_nodes m)))) m [] o <> Failed).
  { intros o Ho. apply sorted_oids_spec in Ho. apply check_from_fuel.
    - constructor.
    - intros x Hx. now apply elem_of_nil in Hx.
    - unfold cg_nodes. set_solver.
    - cbn. lia. }
  split; intros E; (eapply reports_other in E; [|discriminate]); destruct E as (c & Hc & Ec); destruct (K c Hc); auto.
Qed.

Lemma check_for_cycles_none : check_for_cycles m = Done None <-> forall c, ~ tc (edge m) c c.
Proof.
  unfold check_for_cycles. rewrite reports_none. split.
  - intros H c T.
    assert (c ∈ dom m) as Hc by (inversion T; subst; eapply edge_dom; eauto).
    destruct (check_from_none _ _ _ (H c (proj2 (sorted_oids_spec _ _) Hc)) c) as [_ N]; [apply rtc_refl|tauto].
  - intros H c Hc. apply sorted_oids_spec in Hc. destruct (check_from _ _ _ _) as [[l|]| |] eqn:E; [|reflexivity|exfalso..].
    + exfalso. apply check_from_some in E; [|constructor|exact I]. destruct E as [R _].
      apply report_cycle in R. destruct R as [x T]. exact (H x T).
    + eapply check_from_fuel in E; [exact E|constructor| |unfold cg_nodes; set_solver|cbn; lia].
      intros x Hx. now apply elem_of_nil in Hx.
    + revert E. apply check_from_fuel; [constructor| |unfold cg_nodes; set_solver|cbn; lia].
      intros x Hx. now apply elem_of_nil in Hx.
Qed.

Lemma check_for_cycles_some l : check_for_cycles m = Done (Some l) -> is_report l.
Proof.
  unfold check_for_cycles. intros E. eapply reports_other in E; [|discriminate]. destruct E as (c & _ & E).
  apply check_from_some in E; [tauto|constructor|exact I].
Qed.

(** When each commit goes to one place only, the report is a cycle. *)
Lemma report_closed l : (forall p p' c, edge m p c -> edge m p' c -> p = p') -> is_report l ->
  exists o mid, l = o :: mid ++ [o].
Proof.
  intros U (pre & o & -> & Hin & ND & W). apply elem_of_list_split in Hin. destruct Hin as (l1 & l2 & ->).
  destruct l1 as [|x l1 _] using rev_ind; [exists o, l2; reflexivity|]. exfalso.
  rewrite <- !app_assoc in W. cbn in W. apply walk_app_r in W.
  assert (exists y, y ∈ o :: l2 /\ edge m y o) as (y & Hy & Ey).
  { cbn in W. destruct W as [_ W]. eapply (walk_last (edge m) (o :: l2)); [discriminate|exact W]. }
  cbn in W. destruct W as [Ex _]. rewrite (U _ _ _ Ex Ey) in ND.
  rewrite <- app_assoc in ND. apply NoDup_app in ND. destruct ND as (_ & _ & ND). cbn in ND. inversion ND; subst. auto.
Qed.
End cycles.
