(** Labels of a plan, and which commits it can mention at all. *)
From stdpp Require Import sorting relations.
From Verif Require Import Base TextModel DagModel DagSpec DagProofs StrModel StrProofs HookModel PlanModel PlanSpec
  PlanProofs PlanCycleProofs PlanDfsProofs.
Local Open Scope string_scope.
Local Open Scope list_scope.

Definition defs (cmds : list command) : list string := flat_map label_defs cmds.
Lemma defs_app a b : defs (a ++ b) = defs a ++ defs b.
Proof. apply flat_map_app. Qed.

(** ** A loop over an outcome *)
Lemma fold_bind_stuck {A B} (f : A -> B -> outcome B) l s' :
  fold_left (fun r a => bind r (f a)) l Failed <> Done s' /\ fold_left (fun r a => bind r (f a)) l NoFuel <> Done s'.
Proof. induction l as [|a l IH]; cbn; [split; discriminate|exact IH]. Qed.

Lemma fold_bind_inv {A B} (f : A -> B -> outcome B) (P : B -> Prop) l b :
  (forall a s s', a ∈ l -> P s -> f a s = Done s' -> P s') ->
  P b -> forall s', fold_left (fun r a => bind r (f a)) l (Done b) = Done s' -> P s'.
Proof.
  revert b. induction l as [|a l IH]; intros b H Hb s'; cbn.
  - intros [= <-]. exact Hb.
  - destruct (f a b) as [s1| |] eqn:E.
    + apply IH; [|eapply H; [now left|exact Hb|exact E]]. intros x s s0 Hx. apply H. now right.
    + intros H'. destruct (fold_bind_stuck f l s') as [N _]. tauto.
    + intros H'. destruct (fold_bind_stuck f l s') as [_ N]. tauto.
Qed.

(** ** Steps of the traversal *)
Section steps.
Context (e : plan_env) (cg : constraint_graph).

(** An invariant of the states, and a relation between those before and after a
    part of the traversal. *)
Lemma visit_steps (I : build_state -> Prop) (G : build_state -> build_state -> Prop) (Q : oid -> Prop) r :
  (forall s, G s s) -> (forall a b c, G a b -> G b c -> G a c) ->
  (forall c cm s s', Q c -> pe_find e c = Some cm -> I s -> apply_commit e cg r c cm s = Done (Some s') -> I s' /\ G s s') ->
  (forall c prefix s x, prefix = "parent-" \/ prefix = "label-" -> I s -> create_label prefix s = Done x ->
     (I (snd x) /\ G s (snd x)) /\
     (I (mk_bs (bs_used (snd x)) (<[c := fst x]> (bs_labels (snd x))) (bs_acc (snd x))) /\
      G s (mk_bs (bs_used (snd x)) (<[c := fst x]> (bs_labels (snd x))) (bs_acc (snd x)))) /\
     forall s', I s' -> G (snd x) s' ->
       I (push [Reset_ (AtLabel (fst x))] s') /\ G s' (push [Reset_ (AtLabel (fst x))] s')) ->
  (forall p c, edge (cg_inner cg) p c -> Q c) ->
  forall fuel c cm s s', Q c -> pe_find e c = Some cm -> I s ->
    visit fuel e cg r c cm s = Done s' -> I s' /\ G s s'.
Proof.
  intros Grefl Gtrans Happly Hlabel Qe. induction fuel as [|fuel IH]; intros c cm s s' Hq Hf Hs; [discriminate|].
  cbn [visit]. destruct (apply_commit e cg r c cm s) as [[s1|]| |] eqn:Ea; cbn [bind]; try discriminate.
  2:{ intros [= <-]. auto. }
  destruct (Happly _ _ _ _ Hq Hf Hs Ea) as [I1 G1].
  destruct (find_all (pe_find e) _) as [kids|] eqn:Ek; [|discriminate].
  assert (Hkids : forall k, k ∈ kids -> Q (fst k) /\ pe_find e (fst k) = Some (snd k)).
  { intros [k kc] Hk. unfold find_all in Ek. apply all_some_spec in Ek.
    assert (Hin : Some (k, kc) ∈ List.map Some kids) by (apply elem_of_list_In, in_map, elem_of_list_In; exact Hk).
    rewrite <- Ek in Hin. apply elem_of_list_In, in_map_iff in Hin. destruct Hin as (o & Eo & Ho).
    destruct (pe_find e o) as [oc|] eqn:Fo; [|discriminate]. injection Eo as -> ->. cbn. split; [|exact Fo].
    apply elem_of_list_In, sorted_oids_spec in Ho. eapply Qe. exact Ho. }
  assert (exists s2, I s2 /\ G s1 s2 /\ (if needs_label e kids
      then bind (create_label "parent-" s1) (fun r =>
             Done (mk_bs (bs_used (snd r)) (<[c := fst r]> (bs_labels (snd r))) (bs_acc (snd r))))
      else Done s1) = Done s2) as (s2 & I2 & G2 & ->).
  { destruct (needs_label e kids); [|eauto].
    destruct (create_label_total "parent-" s1) as (l & _ & El). pose proof (Hlabel c _ _ _ (or_introl eq_refl) I1 El) as (_ & [HI HG] & _).
    rewrite El. cbn. eauto. }
  cbn [bind]. assert (G12 : G s s2) by eauto. destruct kids as [|k1 [|k2 kids]].
  - intros [= <-]. auto.
  - intros Hv. destruct (Hkids k1) as [A B]; [now left|]. destruct (IH _ _ _ _ A B I2 Hv) as [I3 G3]. eauto.
  - destruct (create_label_total "label-" s2) as (l & _ & El). pose proof (Hlabel c _ _ _ (or_intror eq_refl) I2 El) as ([HI HG] & _ & HR).
    rewrite El in *. cbn [bind fst snd] in *. set (s3 := mk_bs _ _ _) in *. intros Hv.
    cut (I s' /\ G s3 s'); [intros [? ?]; eauto|]. revert Hv.
    apply (fold_bind_inv (fun k s => bind (visit fuel e cg r (fst k) (snd k) s) (fun s => Done (push [Reset_ (AtLabel l)] s)))
             (fun s => I s /\ G s3 s)); [|auto].
    intros k sa sb Hk [Ia Ga] Hb. destruct (visit fuel e cg r (fst k) (snd k) sa) as [sc| |] eqn:Ev; cbn in Hb; try discriminate.
    injection Hb as <-. destruct (Hkids k Hk) as [A B]. destruct (IH _ _ _ _ A B Ia Ev) as [Ic Gc].
    assert (G s3 sc) by eauto. destruct (HR sc Ic) as [Id Gd]; [assumption|]. eauto.
Qed.

(** ** Labels *)
Record labels_ok (s : build_state) : Prop := {
  lo_nodup : NoDup (defs (bs_acc s));
  lo_used : forall l, l ∈ defs (bs_acc s) -> l ∈ bs_used s;
  lo_parent : forall q l, bs_labels s !! q = Some l -> l ∈ defs (bs_acc s);
  lo_uses : forall l1 x l2, bs_acc s = l1 ++ x :: l2 -> forall l, l ∈ label_uses x -> l ∈ defs l1 }.
Definition grows (s s' : build_state) : Prop := exists cmds, bs_acc s' = bs_acc s ++ cmds.

Lemma labels_push cmds s :
  Forall (fun x => label_defs x = [] /\ forall l, l ∈ label_uses x -> l ∈ defs (bs_acc s)) cmds ->
  labels_ok s -> labels_ok (push cmds s).
Proof.
  revert s. induction cmds as [|x cmds IH]; intros s H Hs.
  - unfold push. rewrite app_nil_r. destruct s. exact Hs.
  - inversion H as [|? ? [Hx Hu] H']; subst.
    assert (labels_ok (push [x] s)) as H1.
    { destruct Hs as [A B C D]. constructor; unfold push; cbn [bs_acc bs_used bs_labels].
      - rewrite defs_app. cbn. rewrite Hx. cbn. rewrite app_nil_r. exact A.
      - rewrite defs_app. cbn. rewrite Hx. cbn. rewrite app_nil_r. exact B.
      - intros q l. rewrite defs_app. cbn. rewrite Hx. cbn. rewrite app_nil_r. apply C.
      - intros l1 y l2 E l Hl. destruct l2 as [|z l2 _] using rev_ind.
        + apply app_inj_tail in E. destruct E as [<- <-]. auto.
        + rewrite app_comm_cons, app_assoc in E. apply app_inj_tail in E. destruct E as [E _]. eauto. }
    specialize (IH (push [x] s)). unfold push in *. cbn in *. rewrite <- app_assoc in IH. apply IH; [|exact H1].
    eapply Forall_impl; [exact H'|]. cbn. intros y [A B]. split; [exact A|]. intros l Hl. rewrite defs_app.
    apply elem_of_app. auto.
Qed.

Lemma apply_commit_push r c cm s s' : apply_commit e cg r c cm s = Done (Some s') ->
  exists cmds, s' = push cmds s /\
    Forall (fun x => label_defs x = [] /\
      forall l, l ∈ label_uses x -> exists q, bs_labels s !! q = Some l) cmds.
Proof.
  unfold apply_commit. destruct (_ && _)%bool.
  { intros [= <-]. eexists. split; [reflexivity|]. repeat constructor. cbn. set_solver. }
  destruct (is_merge cm).
  { destruct (merge_parents _ _ _) as [ps|] eqn:Eps; [|discriminate].
    destruct (already_applied _ _); [discriminate|]. destruct ps as [|first rest]; [discriminate|].
    assert (U : forall t l, t ∈ first :: rest -> l ∈ place_label t -> exists q, bs_labels s !! q = Some l).
    { intros t l Ht Hl. unfold merge_parents in Eps. apply all_some_spec in Eps.
      assert (Hin : Some t ∈ List.map Some (first :: rest)) by (apply elem_of_list_In, in_map, elem_of_list_In; exact Ht).
      rewrite <- Eps in Hin. apply elem_of_list_In, in_map_iff in Hin. destruct Hin as (p & Ep & _).
      destruct (decide _); [|injection Ep as <-; cbn in Hl; set_solver].
      destruct (bs_labels s !! p) as [l'|] eqn:El; [|discriminate]. injection Ep as <-. cbn in Hl.
      apply elem_of_list_singleton in Hl. subst. eauto. }
    assert (U' : forall ts l, (forall t, t ∈ ts -> t ∈ first :: rest) -> l ∈ flat_map place_label ts ->
                  exists q, bs_labels s !! q = Some l).
    { intros ts l Hts Hl. apply elem_of_list_In, in_flat_map in Hl. destruct Hl as (t & Ht & Hl).
      apply (U t l); [apply Hts|]; now apply elem_of_list_In. }
    destruct (pe_replace e !! c); intros [= <-]; eexists; (split; [reflexivity|]);
      repeat constructor; intros l Hl; cbn in Hl.
    - apply (U first l); [now left|exact Hl].
    - apply (U' (first :: rest) l); [auto|exact Hl].
    - apply (U first l); [now left|exact Hl].
    - apply (U' rest l); [intros; now right|exact Hl]. }
  destruct (decide _).
  { intros [= <-]. exists []. split; [|constructor]. unfold push. rewrite app_nil_r. now destruct s. }
  destruct (pe_replace e !! c) as [rp|].
  - destruct (pe_find e rp) as [rc|]; [|discriminate]. intros [= <-]. eexists. split; [reflexivity|].
    repeat constructor. intros l Hl. cbn in Hl. apply elem_of_list_In, in_flat_map in Hl. destruct Hl as (t & Ht & Hl).
    apply in_map_iff in Ht. destruct Ht as (p & <- & _). destruct (bs_labels s !! p) eqn:El; cbn in Hl; [|tauto].
    destruct Hl as [->|[]]. eauto.
  - intros [= <-]. eexists. split; [reflexivity|]. repeat constructor; intros l Hl; now apply elem_of_nil in Hl.
Qed.

Lemma grows_refl s : grows s s.
Proof. exists []. now rewrite app_nil_r. Qed.
Lemma grows_trans a b c : grows a b -> grows b c -> grows a c.
Proof. intros [x Ex] [y Ey]. exists (x ++ y). now rewrite Ey, Ex, app_assoc. Qed.

Lemma visit_labels fuel r c cm s s' : pe_find e c = Some cm -> labels_ok s ->
  visit fuel e cg r c cm s = Done s' -> labels_ok s' /\ grows s s'.
Proof.
  intros Hf Hs. apply (visit_steps labels_ok grows (fun _ => True) r); auto using grows_refl; clear.
  - apply grows_trans.
  - intros c cm s s' _ _ Hs H. apply apply_commit_push in H. destruct H as (cmds & -> & F). split; [|eexists; reflexivity].
    apply labels_push; [|exact Hs]. eapply Forall_impl; [exact F|]. cbn. intros x [A B]. split; [exact A|].
    intros l Hl. destruct (B l Hl) as [q Hq]. eapply (lo_parent s Hs). exact Hq.
  - intros c prefix s x _ Hs Ex. destruct (create_label_total prefix s) as (l & Hn & El). rewrite El in Ex. injection Ex as <-.
    cbn [fst snd bs_used bs_labels bs_acc].
    assert (G : labels_ok (mk_bs ({[l]} ∪ bs_used s) (bs_labels s) (bs_acc s ++ [CreateLabel l]))).
    { destruct Hs as [A B C D]. constructor; cbn [bs_acc bs_used bs_labels].
      - rewrite defs_app. cbn. apply NoDup_app. split_and!; [exact A| |apply NoDup_singleton].
        intros y Hy. apply B in Hy. set_solver.
      - intros y. rewrite defs_app. cbn. rewrite elem_of_app, elem_of_list_singleton. intros [Hy| ->]; [|set_solver].
        apply B in Hy. set_solver.
      - intros q y Hy. rewrite defs_app. apply elem_of_app. left. eauto.
      - intros l1 y l2 E z Hz. destruct l2 as [|w l2 _] using rev_ind.
        + apply app_inj_tail in E. destruct E as [<- <-]. cbn in Hz. set_solver.
        + rewrite app_comm_cons, app_assoc in E. apply app_inj_tail in E. destruct E as [E _]. eauto. }
    split_and!; [exact G|eexists; reflexivity| |eexists; reflexivity|].
    + destruct G as [A B C D]. constructor; auto.
      cbn in *. intros q y. destruct (decide (q = c)) as [->|N].
      * rewrite lookup_insert. intros [= <-]. rewrite defs_app. cbn. set_solver.
      * rewrite lookup_insert_ne by congruence. apply C.
    + intros s' Hs' [cmds Hg]. split; [|eexists; reflexivity]. apply labels_push; [|exact Hs'].
      cbn in Hg. constructor; [|constructor]. split; [reflexivity|]. intros y Hy. rewrite Hg, !defs_app.
      apply elem_of_app. left. apply elem_of_app. right. exact Hy.
Qed.

Lemma build_commands_labels s : build_commands e cg = Done s -> labels_ok s.
Proof.
  unfold build_commands. apply fold_bind_inv.
  - intros r s1 s2 _ H1. unfold plan_root. destruct (root_dest e r) as [p|]; [|discriminate].
    destruct (pe_find e (root_commit r)) as [cm|] eqn:F; [|discriminate]. intros H.
    eapply visit_labels; [exact F| |exact H]. apply labels_push; [|exact H1]. repeat constructor. cbn. set_solver.
  - constructor; cbn.
    + constructor.
    + set_solver.
    + intros q l. rewrite lookup_empty. discriminate.
    + intros l1 x l2 E. destruct l1; discriminate.
Qed.

(** ** The commits a plan mentions *)
Definition mentions_ok (x : command) : Prop :=
  (forall c, c ∈ replays x -> node cg c) /\
  (forall c, c ∈ applies x -> node cg c \/ c ∈ fixup_commits cg).

Lemma fixups_value c fs f : cg_fixups cg !! c = Some fs -> f ∈ fs -> f ∈ fixup_commits cg.
Proof. intros E H. unfold fixup_commits. rewrite all_values_spec. exists c. unfold edge, edges_from. now rewrite E. Qed.

Ltac mentions := repeat (apply Forall_cons; split; [split; cbn; intros; set_solver|]); apply Forall_nil; exact I.

Lemma visit_mentions fuel r c cm s s' : (forall fs, Permutation (pe_sort e fs) (elements fs)) ->
  node cg c -> pe_find e c = Some cm -> Forall mentions_ok (bs_acc s) ->
  visit fuel e cg r c cm s = Done s' -> Forall mentions_ok (bs_acc s').
Proof.
  intros Hsort Hn Hf Hs Hv.
  cut (Forall mentions_ok (bs_acc s') /\ True); [tauto|]. revert Hv.
  apply (visit_steps (fun s => Forall mentions_ok (bs_acc s)) (fun _ _ => True) (node cg) r); auto; clear -Hsort.
  - intros c cm s s' Hn _ Hs H. split; [|exact I]. revert H. unfold apply_commit. destruct (_ && _)%bool.
    { intros [= <-]. cbn. apply Forall_app. split; [exact Hs|]. mentions. }
    destruct (is_merge cm).
    { destruct (merge_parents _ _ _) as [ps|] eqn:Eps; [|discriminate].
      destruct (already_applied _ _); [discriminate|]. destruct ps as [|first rest]; [discriminate|].
      destruct (pe_replace e !! c); intros [= <-]; cbn; (apply Forall_app; split; [exact Hs|]); mentions. }
    destruct (decide _); [intros [= <-]; exact Hs|].
    destruct (pe_replace e !! c) as [rp|].
    + destruct (pe_find e rp) as [rc|]; [|discriminate]. intros [= <-]. cbn. apply Forall_app; split; [exact Hs|].
      mentions.
    + intros [= <-]. cbn. apply Forall_app; split; [exact Hs|]. apply Forall_cons. split; [|mentions].
      split; cbn; [set_solver|]. intros f. destruct (cg_fixups cg !! c) as [fs|] eqn:Efs; [|set_solver].
      rewrite Hsort, elem_of_elements, elem_of_union, elem_of_singleton. intros [-> |Hin]; [auto|].
      right. eapply fixups_value; eauto.
  - intros c prefix s x _ Hs Ex. destruct (create_label_total prefix s) as (l & Hn & El). rewrite El in Ex. injection Ex as <-.
    cbn. assert (Forall mentions_ok (bs_acc s ++ [CreateLabel l])).
    { apply Forall_app. split; [exact Hs|]. mentions. }
    split_and!; auto. intros s' Hs' _. split; [|exact I]. apply Forall_app. split; [exact Hs'|]. mentions.
  - intros p c H. left. eapply edge_moved. exact H.
Qed.

Lemma build_commands_mentions s : (forall fs, Permutation (pe_sort e fs) (elements fs)) ->
  build_commands e cg = Done s -> Forall mentions_ok (bs_acc s).
Proof.
  intros Hsort. unfold build_commands. apply (fold_bind_inv (plan_root e cg) (fun s => Forall mentions_ok (bs_acc s))); [|constructor].
  intros r s1 s2 Hr H1. unfold plan_root. destruct (root_dest e r) as [p|]; [|discriminate].
  destruct (pe_find e (root_commit r)) as [cm|] eqn:F; [|discriminate]. intros H.
  assert (Hn : node cg (root_commit r)).
  { assert (Hin : root_edge r ∈ List.map root_edge (find_roots cg)).
    { apply elem_of_list_In, in_map, elem_of_list_In. exact Hr. }
    destruct r as [p' c|t]; cbn in *; apply find_roots_spec in Hin; destruct Hin as [Hin _]; eapply reached_node; exact Hin. }
  eapply visit_mentions; [exact Hsort|exact Hn|exact F| |exact H].
  cbn. apply Forall_app. split; [exact H1|]. mentions.
Qed.
End steps.
