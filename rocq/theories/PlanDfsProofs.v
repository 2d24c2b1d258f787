(** The traversal that lists the commands of a plan. *)
From stdpp Require Import sorting relations.
From Verif Require Import Base TextModel DagModel DagSpec DagProofs StrModel StrProofs HookModel PlanModel PlanSpec
  PlanProofs PlanCycleProofs.
Local Open Scope string_scope.
Local Open Scope list_scope.

(** ** Fresh labels *)
Fixpoint primes (n : nat) (name : string) : string :=
  match n with O => name | S n' => primes n' (name +:+ "'") end.

Lemma string_length_sapp s t : String.length (s +:+ t) = (String.length s + String.length t)%nat.
Proof. induction s as [|a s IH]; [reflexivity|]. rewrite sapp_cons. cbn. now rewrite IH. Qed.

Lemma primes_length n name : String.length (primes n name) = (String.length name + n)%nat.
Proof.
  revert name. induction n as [|n IH]; intros name; cbn; [lia|]. rewrite IH, string_length_sapp. cbn. lia.
Qed.

Lemma make_label_spec fuel used name l used' :
  make_label fuel used name = Done (l, used') -> l ∉ used /\ used' = {[l]} ∪ used.
Proof.
  revert name. induction fuel as [|fuel IH]; intros name; [discriminate|]. cbn.
  destruct (decide (name ∈ used)); [apply IH|]. intros [= <- <-]. auto.
Qed.

Lemma make_label_total_gen fuel (used : gset string) name seen :
  NoDup seen -> (forall x, x ∈ seen -> x ∈ used /\ (String.length x < String.length name)%nat) ->
  (size used < fuel + length seen)%nat -> exists r, make_label fuel used name = Done r.
Proof.
  revert name seen. induction fuel as [|fuel IH]; intros name seen ND Sub L.
  - exfalso. assert (length seen <= size used)%nat; [|lia].
    rewrite <- (size_list_to_set (C := gset string) seen ND). apply subseteq_size.
    intros x Hx. apply elem_of_list_to_set in Hx. now apply Sub.
  - cbn. destruct (decide (name ∈ used)) as [Hin|Hin]; [|eauto].
    apply (IH _ (name :: seen)).
    + constructor; [|exact ND]. intros H. destruct (Sub _ H). lia.
    + intros x Hx. rewrite string_length_sapp. cbn. apply elem_of_cons in Hx. destruct Hx as [-> |Hx]; [split; [exact Hin|lia]|].
      destruct (Sub _ Hx). split; [assumption|lia].
    + cbn. lia.
Qed.

Lemma make_label_total used name : exists l, make_label (S (size used)) used name = Done (l, {[l]} ∪ used) /\ l ∉ used.
Proof.
  destruct (make_label_total_gen (S (size used)) used name []) as [[l u] H].
  - constructor.
  - intros x Hx. now apply elem_of_nil in Hx.
  - cbn. lia.
  - exists l. pose proof (make_label_spec _ _ _ _ _ H) as [N ->]. auto.
Qed.

Lemma create_label_total prefix s :
  exists l, l ∉ bs_used s /\
    create_label prefix s = Done (l, mk_bs ({[l]} ∪ bs_used s) (bs_labels s) (bs_acc s ++ [CreateLabel l])).
Proof.
  unfold create_label. set (name := prefix +:+ _). destruct (make_label_total (bs_used s) name) as (l & E & N).
  exists l. split; [exact N|]. rewrite E. reflexivity.
Qed.

(** ** Small facts *)
Lemma all_some_spec {A} (l : list (option A)) r : all_some l = Some r <-> l = List.map Some r.
Proof.
  revert r. induction l as [|[a|] l IH]; intros r; cbn.
  - split; [intros [= <-]; reflexivity|]. destruct r; [reflexivity|discriminate].
  - destruct (all_some l) as [r'|].
    + split.
      * intros [= <-]. cbn. f_equal. now apply IH.
      * destruct r as [|b r]; [discriminate|]. cbn. intros [= -> H]. apply IH in H. congruence.
    + split; [discriminate|]. destruct r as [|b r]; [discriminate|]. cbn. intros [= -> H]. apply IH in H. discriminate.
  - split; [discriminate|]. destruct r; discriminate.
Qed.

Lemma all_some_none {A} (l : list (option A)) : all_some l = None -> None ∈ l.
Proof.
  induction l as [|[a|] l IH]; cbn; [discriminate| |set_solver].
  destruct (all_some l); [discriminate|]. intros _. apply elem_of_cons. auto.
Qed.

Lemma replayed_app a b : replayed (a ++ b) = replayed a ++ replayed b.
Proof. unfold replayed. apply flat_map_app. Qed.

Lemma applied_app c a b : already_applied c (a ++ b) = (already_applied c a || already_applied c b)%bool.
Proof. apply existsb_app. Qed.

(** Induction along a finite graph without cycles. *)
Lemma acyclic_ind m (P : oid -> Prop) :
  (forall c, ~ tc (edge m) c c) ->
  (forall c, (forall p, edge m p c -> P p) -> P c) -> forall c, P c.
Proof.
  intros A H.
  assert (K : forall n path c, NoDup path -> (forall x, x ∈ path -> x ∈ cg_nodes m /\ tc (edge m) c x) ->
            (size (cg_nodes m) < n + length path)%nat -> P c).
  { induction n as [|n IH]; intros path c ND Sub L.
    - exfalso. assert (length path <= size (cg_nodes m))%nat; [|lia].
      rewrite <- (size_list_to_set (C := gset oid) path ND). apply subseteq_size.
      intros x Hx. apply elem_of_list_to_set in Hx. now apply Sub.
    - apply H. intros p Hp. apply (IH (c :: path)).
      + constructor; [|exact ND]. intros Hc. apply (A c). now apply Sub.
      + intros x Hx. apply elem_of_cons in Hx. destruct Hx as [-> |Hx].
        * split; [now apply (edge_nodes m p c)|now apply tc_once].
        * destruct (Sub x Hx). split; [assumption|]. eapply tc_l; eauto.
      + cbn. lia. }
  intros c. apply (K (S (size (cg_nodes m))) [] c).
  - constructor.
  - intros x Hx. now apply elem_of_nil in Hx.
  - cbn. lia.
Qed.

(** ** The invariant *)
Section dfs.
Context (e : plan_env) (cg : constraint_graph).
Notation E := (edge (cg_inner cg)).
Notation find := (pe_find e).

Definition moved (c : oid) : Prop := c ∈ commits_to_move cg.
Definition target (t : oid) : Prop := t ∈ commits_to_fixup cg.
Definition node (c : oid) : Prop := moved c \/ target c.
Definition merges (c : oid) : Prop := exists cm, find c = Some cm /\ is_merge cm = true.

(** Where a commit is reached from: a commit below it, or nowhere. *)
Definition reached (s : option oid) (c : oid) : Prop :=
  match s with Some p => E p c | None => target c /\ ~ moved c end.
Definition done (V : list oid) (s : option oid) : Prop :=
  match s with Some p => p ∈ V \/ ~ node p | None => True end.
(** A child that refers to its parents by label. *)
Definition special (p : oid) : Prop := exists k, E p k /\ (merges k \/ is_Some (pe_replace e !! k)).

Record well_planned : Prop := {
  wp_acyclic : forall c, ~ tc E c c;
  wp_find : forall c, node c -> exists cm, find c = Some cm;
  wp_replace : forall c r, pe_replace e !! c = Some r -> exists cm, find r = Some cm;
  wp_one : forall s s' c, ~ merges c -> reached s c -> reached s' c -> s = s';
  wp_dest : forall t cm, target t -> ~ moved t -> find t = Some cm -> commit_parents cm <> [];
  wp_merge : forall c cm, node c -> find c = Some cm -> is_merge cm = true ->
    ~ target c /\ c ∉ fixup_commits cg /\
    forall p, node p -> moved p /\ (p ∈ commit_parents cm <-> E p c) \/ (p ∉ commit_parents cm /\ ~ E p c) }.

Record inv (labels : gmap oid string) (acc : list command) (V : list oid) (pend : list (option oid * oid)) : Prop := {
  inv_sub : sublist (replayed acc) V;
  inv_rep : forall c, c ∈ V -> c ∉ fixup_commits cg -> c ∈ replayed acc;
  inv_nodup : NoDup V;
  inv_node : forall c, c ∈ V -> node c;
  inv_order : forall l1 c l2, V = l1 ++ c :: l2 -> forall p, E p c -> node p -> p ∈ l1;
  inv_labels : forall q, is_Some (labels !! q) <-> q ∈ V /\ special q;
  inv_applied : forall c, merges c -> already_applied c acc = true <-> c ∈ V;
  inv_progress : forall s c, reached s c -> done V s ->
    c ∈ V \/ (s, c) ∈ pend \/ (merges c /\ exists q, E q c /\ moved q /\ (q ∉ V \/ (Some q, c) ∈ pend));
  inv_pend : forall s c, (s, c) ∈ pend -> reached s c /\ done V s /\ (~ merges c -> c ∉ V);
  inv_pend_nodup : NoDup pend }.

Lemma edge_moved p c : E p c -> moved c.
Proof. intros H. unfold moved, commits_to_move. rewrite all_values_spec. eauto. Qed.

Lemma reached_node s c : reached s c -> node c.
Proof. destruct s; cbn; intros H; [left; eapply edge_moved; eauto|right; tauto]. Qed.

Lemma merges_dec c : {merges c} + {~ merges c}.
Proof.
  unfold merges. destruct (find c) as [cm|] eqn:F.
  - destruct (is_merge cm) eqn:M; [left; eauto|right]. intros (cm' & [= <-] & M'). congruence.
  - right. intros (cm' & ? & _). discriminate.
Qed.

Lemma inv_neutral labels acc V pend cmds :
  replayed cmds = [] -> inv labels acc V pend -> inv labels (acc ++ cmds) V pend.
Proof.
  intros R [H1 H2 H3 H4 H5 H6 H7 H8 H9 H10]. constructor; auto.
  - rewrite replayed_app, R, app_nil_r. exact H1.
  - intros c. rewrite replayed_app, R, app_nil_r. apply H2.
  - intros c Hc. rewrite applied_app.
    assert (Hf : already_applied c cmds = false); [|rewrite Hf, orb_false_r; auto].
    clear -R. induction cmds as [|x cmds IH]; [reflexivity|]. cbn in R. apply app_eq_nil in R. destruct R as [R1 R2].
    change (((match x with Merge c' _ | Replace c' _ _ => N.eqb c' c | _ => false end) || already_applied c cmds)%bool = false).
    rewrite (IH R2). destruct x; cbn in *; congruence.
Qed.

(** Coming to a merge commit too early, or again. *)
Lemma inv_later labels acc V src c R :
  merges c -> (c ∈ V \/ exists q, E q c /\ moved q /\ q ∉ V) ->
  inv labels acc V ((src, c) :: R) -> inv labels acc V R.
Proof.
  intros M Hc [H1 H2 H3 H4 H5 H6 H7 H8 H9 H10]. constructor; auto.
  - intros s c' Hr Hd. destruct (H8 s c' Hr Hd) as [H|[H|(M' & q & Eq & Mq & Hq)]]; [auto| |].
    + apply elem_of_cons in H. destruct H as [[= -> ->]|H]; [|auto].
      destruct Hc as [H|(q & Eq & Mq & Nq)]; [auto|]. right. right. split; [exact M|]. eauto.
    + destruct Hq as [Nq|Hq].
      * right. right. split; [exact M'|]. eauto.
      * apply elem_of_cons in Hq. destruct Hq as [[= E1 ->]|Hq]; [|right; right; split; eauto].
        destruct Hc as [H|(q' & Eq' & Mq' & Nq')]; [auto|]. right. right. split; eauto.
  - intros s c' H. apply H9. now right.
  - now inversion H10.
Qed.

(** The pending visits of the children. *)
Definition to_kids (c : oid) (ks : list oid) : list (option oid * oid) := List.map (fun k => (Some c, k)) ks.
Lemma to_kids_spec c ks s k : (s, k) ∈ to_kids c ks <-> s = Some c /\ k ∈ ks.
Proof.
  unfold to_kids. rewrite elem_of_list_In, in_map_iff. split.
  - intros (x & [= <- <-] & H). rewrite elem_of_list_In. auto.
  - intros [-> H]. exists k. rewrite <- elem_of_list_In. auto.
Qed.

(** Replaying a commit. *)
Lemma inv_enter labels acc V src c R labels' cmds :
  well_planned ->
  inv labels acc V ((src, c) :: R) ->
  c ∉ V -> (forall p, E p c -> node p -> p ∈ V) ->
  (replayed cmds = [c] \/ (replayed cmds = [] /\ c ∈ fixup_commits cg)) ->
  (merges c -> already_applied c cmds = true) ->
  (forall c', already_applied c' cmds = true -> c' = c) ->
  (forall q, is_Some (labels' !! q) <-> is_Some (labels !! q) \/ (q = c /\ special c)) ->
  inv labels' (acc ++ cmds) (V ++ [c]) (to_kids c (sorted_oids (edges_from (cg_inner cg) c)) ++ R).
Proof.
  intros WP [H1 H2 H3 H4 H5 H6 H7 H8 H9 H10] Nc Ready Hrep Happ Happ' Hlab.
  assert (Hpc : reached src c /\ done V src /\ (~ merges c -> c ∉ V)) by (apply H9; now left).
  assert (Hk : forall k, k ∈ sorted_oids (edges_from (cg_inner cg) c) <-> E c k) by (intros; apply sorted_oids_spec).
  assert (Nd : node c) by (eapply reached_node; apply Hpc).
  assert (H10' : (src, c) ∉ R /\ NoDup R) by (inversion H10; auto).
  constructor.
  - rewrite replayed_app. destruct Hrep as [-> |[-> _]].
    + apply sublist_app; [exact H1|]. apply sublist_skip, sublist_nil.
    + rewrite app_nil_r. apply sublist_inserts_r. exact H1.
  - intros x. rewrite replayed_app, !elem_of_app, elem_of_list_singleton. intros [Hx| ->] Nx; [auto|].
    destruct Hrep as [-> |[_ F]]; [right; set_solver|tauto].
  - apply NoDup_app. split_and!; [exact H3|set_solver|apply NoDup_singleton].
  - intros x. rewrite elem_of_app, elem_of_list_singleton. intros [Hx| ->]; auto.
  - intros l1 x l2 Ev p Ep Np. destruct l2 as [|y l2 _] using rev_ind.
    + apply app_inj_tail in Ev. destruct Ev as [<- <-]. auto.
    + rewrite app_comm_cons, app_assoc in Ev. apply app_inj_tail in Ev. destruct Ev as [Ev _]. eauto.
  - intros q. rewrite Hlab, H6, elem_of_app, elem_of_list_singleton. naive_solver.
  - intros x Mx. rewrite applied_app, orb_true_iff, (H7 x Mx), elem_of_app, elem_of_list_singleton. split.
    + intros [H|H]; [auto|]. right. auto.
    + intros [H| ->]; [auto|]. right. auto.
  - intros s x Hr Hd. destruct s as [p|].
    + destruct (decide (p = c)) as [->|Npc].
      { right. left. apply elem_of_app. left. apply to_kids_spec. split; [reflexivity|]. now apply Hk. }
      assert (Hd' : done V (Some p)).
      { cbn in *. rewrite elem_of_app, elem_of_list_singleton in Hd. tauto. }
      destruct (decide (x = c)) as [->|Nxc]; [left; set_solver|].
      destruct (H8 _ _ Hr Hd') as [H|[H|(M & q & Eq & Mq & Hq)]].
      * left. set_solver.
      * right. left. apply elem_of_cons in H. destruct H as [[= _ ->]|H]; [congruence|]. apply elem_of_app. auto.
      * right. right. split; [exact M|]. exists q. split_and!; [exact Eq|exact Mq|].
        rewrite elem_of_app, elem_of_list_singleton, elem_of_app, to_kids_spec, Hk.
        destruct Hq as [Hq|Hq].
        -- destruct (decide (q = c)) as [->|]; [right; auto|]. left. tauto.
        -- apply elem_of_cons in Hq. destruct Hq as [[= _ ->]|Hq]; [congruence|auto].
    + destruct (decide (x = c)) as [->|Nxc]; [left; set_solver|].
      destruct (H8 _ _ Hr I) as [H|[H|(M & q & Eq & Mq & Hq)]].
      * left. set_solver.
      * right. left. apply elem_of_cons in H. destruct H as [[= _ ->]|H]; [congruence|]. apply elem_of_app. auto.
      * right. right. split; [exact M|]. exists q. split_and!; [exact Eq|exact Mq|].
        rewrite elem_of_app, elem_of_list_singleton, elem_of_app, to_kids_spec, Hk.
        destruct Hq as [Hq|Hq].
        -- destruct (decide (q = c)) as [->|]; [right; auto|]. left. tauto.
        -- apply elem_of_cons in Hq. destruct Hq as [[= _ ->]|Hq]; [congruence|auto].
  - intros s x. rewrite elem_of_app, to_kids_spec. intros [[-> Hx]|Hx].
    + apply Hk in Hx. split_and!; [exact Hx|cbn; set_solver|]. intros _.
      rewrite elem_of_app, elem_of_list_singleton. intros [Hv| ->].
      * apply elem_of_list_split in Hv. destruct Hv as (l1 & l2 & Ev). 
        pose proof (H5 l1 x l2 Ev c Hx Nd). set_solver.
      * eapply (wp_acyclic WP). apply tc_once. exact Hx.
    + destruct (H9 s x) as (A & B & C); [now right|]. split_and!; [exact A| |].
      * destruct s; cbn in *; [|exact I]. rewrite elem_of_app. tauto.
      * intros Nm. rewrite elem_of_app, elem_of_list_singleton. intros [Hv| ->]; [now apply C|].
        rewrite (wp_one WP _ _ _ Nm A (proj1 Hpc)) in Hx. tauto.
  - apply NoDup_app. split_and!.
    + unfold to_kids. apply (NoDup_fmap_2_strong (fun k => (Some c, k))); [congruence|]. apply sorted_oids_NoDup.
    + intros [s k]. rewrite to_kids_spec. intros [-> Hk'] HR. destruct (H9 (Some c) k) as (_ & D & _); [now right|].
      cbn in D. tauto.
    + tauto.
Qed.

(** ** One visit *)
Definition universe : gset oid := cg_nodes (cg_inner cg) ∪ commits_to_fixup cg.

Lemma node_universe c : node c -> c ∈ universe.
Proof.
  unfold node, moved, target, universe, cg_nodes, commits_to_move. set_solver.
Qed.

Lemma find_all_ok c : well_planned -> node c ->
  exists kids, find_all find (sorted_oids (edges_from (cg_inner cg) c)) = Some kids /\
    List.map fst kids = sorted_oids (edges_from (cg_inner cg) c) /\
    Forall (fun k => find (fst k) = Some (snd k)) kids.
Proof.
  intros WP _.
  assert (K : forall k, k ∈ sorted_oids (edges_from (cg_inner cg) c) -> exists cm, find k = Some cm).
  { intros k Hk. apply sorted_oids_spec in Hk. apply (wp_find WP). left. eapply edge_moved. exact Hk. }
  induction (sorted_oids _) as [|k l IH].
  - exists []. split_and!; [reflexivity|reflexivity|constructor].
  - destruct IH as (kids & A & B & C); [intros; apply K; now right|].
    destruct (K k) as [cm Hcm]; [now left|]. exists ((k, cm) :: kids).
    unfold find_all in *. cbn. rewrite Hcm, A. split_and!; [reflexivity|cbn; congruence|].
    constructor; [exact Hcm|exact C].
Qed.

Lemma needs_label_spec c kids :
  List.map fst kids = sorted_oids (edges_from (cg_inner cg) c) ->
  Forall (fun k => find (fst k) = Some (snd k)) kids ->
  needs_label e kids = true <-> special c.
Proof.
  intros Hk Hf. unfold needs_label, special. rewrite existsb_exists. split.
  - intros ([k cm] & Hin & H). rewrite Forall_forall in Hf. specialize (Hf (k, cm) ltac:(now apply elem_of_list_In)).
    cbn in Hf. exists k. split.
    + apply sorted_oids_spec. rewrite <- Hk. apply elem_of_list_In, in_map_iff. exists (k, cm). auto.
    + apply orb_true_iff in H. cbn in H. destruct H as [H|H]; [left; exists cm; auto|right].
      now apply bool_decide_eq_true in H.
  - intros (k & Ek & H). apply sorted_oids_spec in Ek. rewrite <- Hk in Ek. apply elem_of_list_In, in_map_iff in Ek.
    destruct Ek as ([k' cm] & <- & Hin). exists (k', cm). split; [exact Hin|].
    rewrite Forall_forall in Hf. specialize (Hf (k', cm) ltac:(now apply elem_of_list_In)). cbn in *.
    apply orb_true_iff. destruct H as [(cm' & F & M)|H]; [left; rewrite Hf in F; injection F as <-; exact M|right]. now apply bool_decide_eq_true.
Qed.

(** What [apply_commit] does to the invariant. *)
Lemma apply_commit_inv r c cm s V src R :
  well_planned -> find c = Some cm ->
  inv (bs_labels s) (bs_acc s) V ((src, c) :: R) ->
  (apply_commit e cg r c cm s = Done None /\ inv (bs_labels s) (bs_acc s) V R) \/
  (exists cmds, apply_commit e cg r c cm s = Done (Some (push cmds s)) /\
    c ∉ V /\ (forall p, E p c -> node p -> p ∈ V) /\
    (replayed cmds = [c] \/ (replayed cmds = [] /\ c ∈ fixup_commits cg)) /\
    (merges c -> already_applied c cmds = true) /\
    (forall c', already_applied c' cmds = true -> c' = c)).
Proof.
  intros WP Hf Hi.
  destruct (inv_pend _ _ _ _ Hi src c) as (Hr & Hd & Hv); [now left|].
  pose proof (reached_node _ _ Hr) as Nd.
  assert (Ready : ~ merges c -> forall p, E p c -> node p -> p ∈ V).
  { intros Nm p Ep Np. rewrite (wp_one WP src (Some p) c Nm Hr Ep) in Hd. cbn in Hd. tauto. }
  unfold apply_commit. destruct (is_merge cm) eqn:M; cbn [negb andb].
  - assert (Mc : merges c) by (exists cm; auto).
    destruct (wp_merge WP c cm Nd Hf M) as (NT & NF & Hp).
    destruct (merge_parents _ _ _) as [ps|] eqn:Eps.
    + destruct (already_applied c (bs_acc s)) eqn:Ea.
      { left. split; [reflexivity|]. eapply inv_later; [exact Mc| |exact Hi]. left. now apply (inv_applied _ _ _ _ Hi c Mc). }
      right. unfold merge_parents in Eps. apply all_some_spec in Eps.
      assert (Ready' : forall p, E p c -> node p -> p ∈ V).
      { intros p Ep Np. destruct (Hp p Np) as [[Mp Hiff]|[_ N]]; [|tauto]. apply Hiff in Ep.
        assert (Hin : (if decide (p ∈ commits_to_move cg)
                       then match bs_labels s !! p with Some l => Some (AtLabel l) | None => None end
                       else Some (AtOid p)) ∈ List.map Some ps).
        { rewrite <- Eps. apply elem_of_list_In, in_map_iff. exists p. split; [reflexivity|]. now apply elem_of_list_In. }
        rewrite decide_True in Hin by exact Mp. destruct (bs_labels s !! p) as [l|] eqn:El.
        - apply (inv_labels _ _ _ _ Hi p). eauto.
        - apply elem_of_list_In, in_map_iff in Hin. destruct Hin as (? & ? & _). discriminate. }
      assert (NV : c ∉ V).
      { intros H. apply (inv_applied _ _ _ _ Hi c Mc) in H. congruence. }
      destruct ps as [|first rest].
      { exfalso. unfold is_merge in M. destruct (commit_parents cm); [discriminate|discriminate]. }
      destruct (pe_replace e !! c) as [rep|];
        (eexists; split; [reflexivity|]; split_and!; [exact NV|exact Ready'|left; reflexivity| |]);
        cbn; rewrite ?N.eqb_refl; auto; intros c'; rewrite orb_false_r; intros H; apply N.eqb_eq in H; auto.
    + left. split; [reflexivity|]. eapply inv_later; [exact Mc| |exact Hi]. right.
      unfold merge_parents in Eps. apply all_some_none in Eps. apply elem_of_list_In, in_map_iff in Eps.
      destruct Eps as (p & Ep & Hin). apply elem_of_list_In in Hin.
      destruct (decide (p ∈ commits_to_move cg)) as [Mp|]; [|discriminate].
      destruct (bs_labels s !! p) eqn:El; [discriminate|].
      destruct (Hp p (or_introl Mp)) as [[_ Hiff]|[N _]]; [|tauto].
      apply Hiff in Hin. exists p. split_and!; [exact Hin|exact Mp|]. intros Hv'.
      assert (is_Some (bs_labels s !! p)) as [? ?]; [|congruence].
      apply (inv_labels _ _ _ _ Hi p). split; [exact Hv'|]. exists c. auto.
  - assert (Nm : ~ merges c) by (intros (cm' & F & M'); congruence).
    right. destruct (pe_upstream e r c).
    { eexists. split; [reflexivity|]. split_and!; [auto|auto|left; reflexivity|tauto|cbn; discriminate]. }
    destruct (decide (c ∈ fixup_commits cg)) as [Fx|Fx].
    { exists []. unfold push. rewrite app_nil_r. destruct s; cbn. split; [reflexivity|].
      split_and!; [auto|auto|right; auto|tauto|cbn; discriminate]. }
    destruct (pe_replace e !! c) as [rep|] eqn:Er.
    + destruct (wp_replace WP _ _ Er) as [rc Hrc]. rewrite Hrc.
      eexists. split; [reflexivity|]. split_and!; [auto|auto|left; reflexivity|tauto|].
      cbn. intros c'. rewrite orb_false_r. intros H. apply N.eqb_eq in H. auto.
    + eexists. split; [reflexivity|]. split_and!; [auto|auto|left; reflexivity|tauto|cbn; discriminate].
Qed.

Lemma visit_inv fuel r : well_planned ->
  forall c cm s V src R path,
  find c = Some cm ->
  NoDup path -> (forall x, x ∈ path -> x ∈ universe /\ tc E x c) ->
  (size universe < fuel + length path)%nat ->
  inv (bs_labels s) (bs_acc s) V ((src, c) :: R) ->
  exists s' V', visit fuel e cg r c cm s = Done s' /\ inv (bs_labels s') (bs_acc s') V' R.
Proof.
  intros WP. induction fuel as [|fuel IH]; intros c cm s V src R path Hf ND Sub L Hi.
  { exfalso. assert (length path <= size universe)%nat; [|cbn in L; lia].
    rewrite <- (size_list_to_set (C := gset oid) path ND). apply subseteq_size.
    intros x Hx. apply elem_of_list_to_set in Hx. now apply Sub. }
  destruct (inv_pend _ _ _ _ Hi src c) as (Hr & _ & _); [now left|].
  pose proof (reached_node _ _ Hr) as Nd.
  cbn [visit]. destruct (apply_commit_inv r c cm s V src R WP Hf Hi)
    as [[-> Hi']|(cmds & -> & NV & Ready & Hrep & Happ & Happ')]; cbn [bind]; [eauto|].
  destruct (find_all_ok c WP Nd) as (kids & -> & Hk & Hfk).
  assert (Hpath : forall k, E c k -> NoDup (c :: path) /\ (forall x, x ∈ c :: path -> x ∈ universe /\ tc E x k)).
  { intros k Ek. split.
    - constructor; [|exact ND]. intros Hc. destruct (Sub c Hc) as [_ T]. exact (wp_acyclic WP c T).
    - intros x Hx. apply elem_of_cons in Hx. destruct Hx as [-> |Hx].
      + split; [now apply node_universe|now apply tc_once].
      + destruct (Sub x Hx) as [A B]. split; [exact A|]. eapply tc_r; eauto. }
  assert (HS : exists s1, (if needs_label e kids
      then bind (create_label "parent-" (push cmds s)) (fun r =>
             Done (mk_bs (bs_used (snd r)) (<[c := fst r]> (bs_labels (snd r))) (bs_acc (snd r))))
      else Done (push cmds s)) = Done s1 /\
      inv (bs_labels s1) (bs_acc s1) (V ++ [c]) (to_kids c (List.map fst kids) ++ R)).
  { rewrite Hk. destruct (needs_label e kids) eqn:En.
    - apply (needs_label_spec c kids Hk Hfk) in En.
      destruct (create_label_total "parent-" (push cmds s)) as (l & _ & ->). cbn.
      eexists. split; [reflexivity|]. cbn. apply inv_neutral; [reflexivity|].
      eapply inv_enter; eauto. intros q. destruct (decide (q = c)) as [->|N].
      + rewrite lookup_insert. split; eauto.
      + rewrite lookup_insert_ne by congruence. naive_solver.
    - eexists. split; [reflexivity|]. cbn. eapply inv_enter; eauto. intros q. split; [auto|].
      intros [H|[_ Sp]]; [exact H|]. apply (needs_label_spec c kids Hk Hfk) in Sp. congruence. }
  destruct HS as (s1 & -> & Hi1). cbn [bind].
  assert (Hkid : forall k, k ∈ kids -> E c (fst k)).
  { intros k Hin. apply sorted_oids_spec. rewrite <- Hk. apply elem_of_list_In, in_map. now apply elem_of_list_In. }
  assert (Loop : forall ks, (forall k, k ∈ ks -> k ∈ kids) -> forall l s V,
      inv (bs_labels s) (bs_acc s) V (to_kids c (List.map fst ks) ++ R) ->
      exists s' V', fold_left (fun acc k => bind acc (fun s =>
                            bind (visit fuel e cg r (fst k) (snd k) s) (fun s =>
                              Done (push [Reset_ (AtLabel l)] s)))) ks (Done s) = Done s' /\
                   inv (bs_labels s') (bs_acc s') V' R).
  { induction ks as [|k ks IHk]; intros Hks l s0 V0 Hi0.
    - exists s0, V0. split; [reflexivity|exact Hi0].
    - assert (Ek : E c (fst k)) by (apply Hkid, Hks; now left).
      destruct (Hpath _ Ek) as [ND' Sub'].
      destruct (IH (fst k) (snd k) s0 V0 (Some c) (to_kids c (List.map fst ks) ++ R) (c :: path)) as (s' & V' & E1 & Hi').
      + rewrite Forall_forall in Hfk. apply Hfk, Hks. now left.
      + exact ND'.
      + exact Sub'.
      + cbn. lia.
      + exact Hi0.
      + cbn [fold_left bind]. rewrite E1. cbn [bind].
        apply (IHk ltac:(intros; apply Hks; now right) l _ V'). cbn. apply inv_neutral; [reflexivity|exact Hi']. }
  destruct kids as [|k1 [|k2 kids']].
  - exists s1, (V ++ [c]). split; [reflexivity|exact Hi1].
  - assert (Ek : E c (fst k1)) by (apply Hkid; now left).
    destruct (Hpath _ Ek) as [ND' Sub'].
    eapply (IH (fst k1) (snd k1) s1 (V ++ [c]) (Some c) R (c :: path)); [|exact ND'|exact Sub'|cbn; lia|exact Hi1].
    rewrite Forall_forall in Hfk. apply Hfk. now left.
  - destruct (create_label_total "label-" s1) as (l & _ & ->). cbn [bind fst snd].
    apply (Loop (k1 :: k2 :: kids') ltac:(auto) l _ (V ++ [c])). cbn. apply inv_neutral; [reflexivity|exact Hi1].
Qed.

(** ** All roots *)
Definition root_edge (r : root) : option oid * oid :=
  match r with RootMove p c => (Some p, c) | RootFixup t => (None, t) end.

Lemma find_roots_spec s c : (s, c) ∈ List.map root_edge (find_roots cg) <->
  reached s c /\ (forall p, s = Some p -> ~ node p).
Proof.
  unfold find_roots. set (free := (_ ∖ _) ∖ _). set (ff := _ ∖ _).
  assert (Hff : forall t, t ∈ ff <-> target t /\ ~ moved t) by (intros; apply elem_of_difference).
  assert (Hfree : forall p, p ∈ free <-> p ∈ cg_parents cg /\ ~ node p).
  { intros p. unfold free, node. rewrite !elem_of_difference. unfold moved, target.
    destruct (decide (p ∈ commits_to_move cg)); tauto. }
  rewrite map_app, elem_of_app, map_map. split.
  - intros [H|H]; apply elem_of_list_In, in_map_iff in H.
    + destruct H as (r & Er & H). apply in_flat_map in H. destruct H as (p & Hp & H).
      apply in_map_iff in H. destruct H as (c' & <- & Hc'). cbn in Er. injection Er as <- <-.
      apply elem_of_list_In, sorted_oids_spec in Hc', Hp. apply Hfree in Hp. split; [exact Hc'|]. intros p' [= <-]. tauto.
    + destruct H as (t & [= <- <-] & H). apply elem_of_list_In, sorted_oids_spec, Hff in H. cbn. split; [exact H|congruence].
  - intros [Hr Hn]. destruct s as [p|].
    + left. specialize (Hn p eq_refl). cbn in Hr. apply elem_of_list_In, in_map_iff. exists (RootMove p c).
      split; [reflexivity|]. apply in_flat_map. exists p. split.
      * apply elem_of_list_In, sorted_oids_spec, Hfree. split; [|exact Hn]. eapply edge_dom. exact Hr.
      * apply in_map, elem_of_list_In, sorted_oids_spec. exact Hr.
    + right. apply elem_of_list_In, in_map_iff. exists c. split; [reflexivity|].
      apply elem_of_list_In, sorted_oids_spec, Hff. exact Hr.
Qed.

Lemma roots_nodup : NoDup (List.map root_edge (find_roots cg)).
Proof.
  unfold find_roots. rewrite map_app, map_map. cbn. apply NoDup_app. split_and!.
  - induction (sorted_oids_NoDup ((cg_parents cg ∖ commits_to_move cg) ∖ (commits_to_fixup cg ∖ commits_to_move cg)))
      as [|p l Hp _ IH]; [constructor|]. cbn. rewrite map_app, map_map. cbn. apply NoDup_app. split_and!.
    + apply (NoDup_fmap_2_strong (fun k => (Some p, k))); [congruence|]. apply sorted_oids_NoDup.
    + intros x H1 H2. apply elem_of_list_In, in_map_iff in H1. destruct H1 as (k & <- & _).
      apply elem_of_list_In, in_map_iff in H2. destruct H2 as (r & Er & H2).
      apply in_flat_map in H2. destruct H2 as (p' & Hp' & H2). apply in_map_iff in H2. destruct H2 as (k' & <- & _).
      cbn in Er. injection Er as -> _. apply Hp. now apply elem_of_list_In.
    + exact IH.
  - intros x H1 H2. apply elem_of_list_In, in_map_iff in H2. destruct H2 as (t & <- & _).
    apply elem_of_list_In, in_map_iff in H1. destruct H1 as (r & Er & H1).
    apply in_flat_map in H1. destruct H1 as (p' & Hp' & H1). apply in_map_iff in H1. destruct H1 as (k' & <- & _). discriminate.
  - apply (NoDup_fmap_2_strong (fun t => (None, t))); [congruence|]. apply sorted_oids_NoDup.
Qed.

Lemma build_commands_inv : well_planned ->
  exists s V, build_commands e cg = Done s /\ inv (bs_labels s) (bs_acc s) V [].
Proof.
  intros WP. unfold build_commands.
  assert (H0 : inv ∅ [] [] (List.map root_edge (find_roots cg))).
  { constructor; cbn.
    - constructor.
    - intros c Hc. now apply elem_of_nil in Hc.
    - constructor.
    - intros c Hc. now apply elem_of_nil in Hc.
    - intros l1 c l2 H. destruct l1; discriminate.
    - intros q. rewrite lookup_empty. split; [intros [? ?]; discriminate|]. intros [H _]. now apply elem_of_nil in H.
    - intros c _. split; [discriminate|]. intros H. now apply elem_of_nil in H.
    - intros s c Hr Hd. right. left. apply find_roots_spec. split; [exact Hr|]. intros p ->. cbn in Hd.
      destruct Hd as [Hd|Hd]; [now apply elem_of_nil in Hd|exact Hd].
    - intros s c H. apply find_roots_spec in H. destruct H as [Hr Hn]. split_and!; [exact Hr| |].
      + destruct s as [p|]; [|exact I]. right. auto.
      + intros _ H. now apply elem_of_nil in H.
    - apply roots_nodup. }
  assert (K : forall rs V s, inv (bs_labels s) (bs_acc s) V (List.map root_edge rs) ->
    exists s' V', fold_left (fun acc r => bind acc (plan_root e cg r)) rs (Done s) = Done s' /\
      inv (bs_labels s') (bs_acc s') V' []); [|exact (K _ [] (mk_bs ∅ ∅ []) H0)].
  clear H0. induction rs as [|r rs IH]; intros V s Hi.
  - cbn. eexists _, _. split; [reflexivity|exact Hi].
  - cbn [fold_left bind]. cbn [List.map] in Hi.
    destruct (inv_pend _ _ _ _ Hi (fst (root_edge r)) (snd (root_edge r))) as (Hr & _ & _); [destruct (root_edge r); now left|].
    pose proof (reached_node _ _ Hr) as Nd. destruct (wp_find WP _ Nd) as [cm Hcm].
    assert (Er : snd (root_edge r) = root_commit r) by (destruct r; reflexivity).
    assert (Hd : exists p, root_dest e r = Some p).
    { destruct r as [p c|t]; cbn in *; [eauto|]. rewrite Hcm. destruct Hr as [Ht Nt].
      pose proof (wp_dest WP _ _ Ht Nt Hcm). destruct (commit_parents cm); [congruence|eauto]. }
    destruct Hd as [p Hd]. unfold plan_root at 2. rewrite Hd, <- Er, Hcm.
    destruct (visit_inv (plan_fuel cg) r WP (snd (root_edge r)) cm (push [Reset_ (AtOid p)] s) V
      (fst (root_edge r)) (List.map root_edge rs) []) as (s' & V' & E1 & Hi').
    + exact Hcm.
    + constructor.
    + intros x Hx. now apply elem_of_nil in Hx.
    + unfold plan_fuel. fold universe. cbn. lia.
    + cbn. apply inv_neutral; [reflexivity|]. destruct (root_edge r); exact Hi.
    + rewrite E1. apply (IH V' s' Hi').
Qed.

Lemma all_visited labels acc V : well_planned -> inv labels acc V [] -> forall c, node c -> c ∈ V.
Proof.
  intros WP Hi. apply (acyclic_ind (cg_inner cg) (fun c => node c -> c ∈ V) (wp_acyclic WP)).
  intros c IH Nd.
  assert (exists s, reached s c) as [s Hr].
  { destruct (decide (c ∈ commits_to_move cg)) as [M|M].
    - unfold commits_to_move in M. rewrite all_values_spec in M. destruct M as [p H]. exists (Some p). exact H.
    - exists None. destruct Nd as [H|H]; [unfold moved in H; tauto|]. split; assumption. }
  assert (Hd : done V s).
  { destruct s as [p|]; [|exact I]. cbn in Hr. cbn.
    destruct (decide (p ∈ commits_to_move cg ∪ commits_to_fixup cg)) as [H|H].
    - left. apply IH; [exact Hr|]. apply elem_of_union in H. exact H.
    - right. intros N. apply H, elem_of_union. exact N. }
  destruct (inv_progress _ _ _ _ Hi s c Hr Hd) as [H|[H|(_ & q & Eq & Mq & [Hq|Hq])]].
  - exact H.
  - now apply elem_of_nil in H.
  - exfalso. apply Hq, IH; [exact Eq|]. left. exact Mq.
  - now apply elem_of_nil in Hq.
Qed.
End dfs.
