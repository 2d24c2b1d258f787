(** Commits whose change is upstream already: proofs. *)
From stdpp Require Import relations.
From Verif Require Import Base TextModel DagModel DagSpec DagProofs StrModel StrProofs HookModel PlanModel PlanSpec
  PlanProofs PlanCycleProofs PlanDfsProofs PlanLabelProofs PlanBuildProofs SlogModel SlogSpec SlogPlaceProofs DagCompProofs NavProofs UpstreamModel UpstreamSpec.
Local Open Scope string_scope.
Local Open Scope list_scope.

(** ** What is looked up *)
Section ids.
Context (ue : upstream_env).
Definition seen_commits (g : graph) (moving : commit_set) (current : oid) (dests : list oid) : list oid :=
  List.filter (fun c => ue_there ue c && should_check (ue_paths ue c) (local_paths ue moving))%bool
    (elements (upstream_path g current dests)).
Definition ids_of (g : graph) (moving : commit_set) (current : oid) (dests : list oid) : gset N :=
  list_to_set (omap (ue_patch ue) (seen_commits g moving current dests)).

Lemma empty_right : cache_right ue ∅.
Proof. intros c ps H. change ((∅ : gmap oid (gset string)) !! c = Some ps) in H. rewrite lookup_empty in H. discriminate. Qed.
Lemma cached_paths_right cache c : cache_right ue cache ->
  cached_paths ue cache c = if ue_there ue c then Some (ue_paths ue c) else None.
Proof.
  intros R. unfold cached_paths. destruct (cache !! c) as [ps|] eqn:E; [|reflexivity].
  destruct (R _ _ E) as [-> ->]. reflexivity.
Qed.
Lemma fill_cache_right cache path : cache_right ue cache -> cache_right ue (fill_cache ue cache path).
Proof.
  intros R. induction path as [|c path IH]; cbn; [exact R|]. rewrite (cached_paths_right _ _ R).
  destruct (ue_there ue c) eqn:E; [|exact IH]. intros c' ps H. apply lookup_insert_Some in H.
  destruct H as [[<- <-]|[_ H]]; [auto|]. now apply IH.
Qed.
Lemma upstream_patch_ids_right g cache moving current dests : cache_right ue cache ->
  exists cache', upstream_patch_ids ue g cache moving current dests = (Some (ids_of g moving current dests), cache') /\ cache_right ue cache'.
Proof.
  intros R. exists (fill_cache ue cache (elements (upstream_path g current dests))).
  split; [|now apply fill_cache_right]. unfold upstream_patch_ids, filter_path.
  set (P := fun c => match cached_paths ue cache c with Some ps => should_check ps (local_paths ue moving) | None => false end).
  assert (E : List.filter P (elements (upstream_path g current dests)) = seen_commits g moving current dests).
  { apply filter_ext. intros c. unfold P. rewrite (cached_paths_right _ _ R). now destruct (ue_there ue c). }
  rewrite E. replace (forallb (ue_there ue) (seen_commits g moving current dests)) with true; [reflexivity|].
  symmetry. apply forallb_forall. intros c H. unfold seen_commits in H. apply filter_In in H. destruct H as [_ H].
  now apply andb_prop in H.
Qed.

Lemma upstream_path_spec g c dests u : wf_graph g -> u ∈ upstream_path g c dests <-> upstream g c dests u.
Proof.
  intros W. unfold upstream_path, upstream. rewrite range_spec by exact W.
  assert (G : forall m, m ∈ ⋃ (List.map (fun p => gca_all g {[c; p]}) dests) <-> exists p, p ∈ dests /\ greatest_common g {[c; p]} m).
  { intros m. rewrite elem_of_union_list. split.
    - intros (X & HX & Hm). apply elem_of_list_In, in_map_iff in HX. destruct HX as (p & <- & Hp). exists p.
      apply elem_of_list_In in Hp. split; [exact Hp|]. apply gca_all_spec; [exact W|set_solver|exact Hm].
    - intros (p & Hp & Hm). exists (gca_all g {[c; p]}). split.
      + apply elem_of_list_In, (in_map (fun p => gca_all g {[c; p]})), elem_of_list_In. exact Hp.
      + apply gca_all_spec; [exact W|set_solver|exact Hm]. }
  setoid_rewrite G. setoid_rewrite elem_of_list_to_set. split.
  - intros (m & p & (p' & Hp' & Hm) & Hp & A & B). eauto 10.
  - intros [(p & Hp & B) (p' & m & Hp' & Hm & A)]. exists m, p. eauto 10.
Qed.

Lemma seen_spec g moving current dests u : wf_graph g ->
  u ∈ seen_commits g moving current dests <->
  upstream g current dests u /\ ue_there ue u = true /\ exists c, c ∈ moving /\ ue_there ue c = true /\ ue_paths ue u = ue_paths ue c.
Proof.
  intros W. unfold seen_commits. rewrite elem_of_list_In, filter_In, <- elem_of_list_In, elem_of_elements, (upstream_path_spec g _ _ _ W).
  rewrite andb_true_iff. unfold should_check. rewrite (bool_decide_eq_true (_ ∈ _)).
  assert (L : forall x, x ∈ local_paths ue moving <-> exists c, c ∈ moving /\ ue_there ue c = true /\ x = ue_paths ue c).
  { intros x. unfold local_paths. rewrite elem_of_list_In, in_map_iff. setoid_rewrite filter_In.
    setoid_rewrite <- elem_of_list_In. setoid_rewrite elem_of_elements. split.
    - intros (c & <- & H1 & H2). eauto.
    - intros (c & H1 & H2 & ->). eauto. }
  rewrite L. tauto.
Qed.

Lemma applied_spec g moving current dests c : wf_graph g ->
  applied_upstream ue (ids_of g moving current dests) c = true <->
  exists u, u ∈ seen_commits g moving current dests /\ same_patch ue c u.
Proof.
  intros W. unfold applied_upstream, ids_of, same_patch. destruct (ue_patch ue c) as [i|].
  - rewrite bool_decide_eq_true, elem_of_list_to_set, elem_of_list_omap. split.
    + intros (u & H & E). eauto.
    + intros (u & H & j & [= <-] & E). eauto.
  - split; [discriminate|]. intros (u & _ & j & [=] & _).
Qed.
End ids.

(** ** Only what is said about one root matters to it *)
Section ext.
Context (e : plan_env) (f : root -> oid -> bool) (cg : constraint_graph) (r : root) (f' : root -> oid -> bool)
  (Hf : forall c, f r c = f' r c).
Lemma apply_commit_ext c cm s : apply_commit (with_upstream e f) cg r c cm s = apply_commit (with_upstream e f') cg r c cm s.
Proof. unfold apply_commit. cbn [with_upstream pe_upstream pe_replace pe_find pe_sort]. now rewrite Hf. Qed.
Lemma visit_ext fuel : forall c cm s, visit fuel (with_upstream e f) cg r c cm s = visit fuel (with_upstream e f') cg r c cm s.
Proof.
  induction fuel as [|fuel IH]; intros c cm s; [reflexivity|]. cbn [visit]. rewrite apply_commit_ext.
  destruct (apply_commit (with_upstream e f') cg r c cm s) as [[s1|]| |]; cbn [bind]; try reflexivity.
  change (pe_find (with_upstream e f')) with (pe_find (with_upstream e f)).
  destruct (find_all _ _) as [kids|]; [|reflexivity].
  change (needs_label (with_upstream e f') kids) with (needs_label (with_upstream e f) kids).
  destruct (if needs_label (with_upstream e f) kids then _ else _) as [s2| |]; cbn [bind]; try reflexivity.
  destruct kids as [|k1 [|k2 kids]]; [reflexivity|apply IH|].
  destruct (create_label "label-" s2) as [x| |]; cbn [bind]; try reflexivity.
  generalize (k1 :: k2 :: kids) as l, (Done (snd x)) as acc. induction l as [|k l IHl]; intros acc; cbn; [reflexivity|].
  rewrite IHl. f_equal. destruct acc as [sa| |]; cbn; [now rewrite IH|reflexivity|reflexivity].
Qed.
Lemma plan_root_ext s : plan_root (with_upstream e f) cg r s = plan_root (with_upstream e f') cg r s.
Proof.
  unfold plan_root. change (root_dest (with_upstream e f')) with (root_dest (with_upstream e f)).
  change (pe_find (with_upstream e f')) with (pe_find (with_upstream e f)).
  destruct (root_dest (with_upstream e f) r), (pe_find (with_upstream e f) (root_commit r)); try reflexivity. apply visit_ext.
Qed.
End ext.

(** ** The loop over the roots *)
Definition known_upstream (ue : upstream_env) (g : graph) (detect : bool) (moving : commit_set) (e : plan_env) (r : root) (c : oid) : bool :=
  if detect then applied_upstream ue (ids_of ue g moving (root_commit r) (root_dests e r)) c else false.

Lemma applied_none ue c : applied_upstream ue ∅ c = false.
Proof. unfold applied_upstream. destruct (ue_patch ue c); [|reflexivity]. apply bool_decide_eq_false. set_solver. Qed.
Lemma plan_root_dest e cg r s x : root_dest e r = None -> plan_root e cg r s = x -> x = Failed.
Proof. unfold plan_root. intros -> <-. reflexivity. Qed.
Lemma fold_stuck {A B} (f : A -> B -> outcome B) l :
  fold_left (fun r a => bind r (f a)) l Failed = Failed /\ fold_left (fun r a => bind r (f a)) l NoFuel = NoFuel.
Proof. induction l as [|a l IH]; cbn; auto. Qed.

Lemma plan_roots_right ue g detect e cg : forall rs cache s, cache_right ue cache ->
  exists cache', cache_right ue cache' /\
    plan_roots ue g detect e cg rs cache s =
    (fold_left (fun acc r => bind acc (plan_root (with_upstream e (known_upstream ue g detect (commits_to_move cg) e)) cg r)) rs (Done s), cache').
Proof.
  set (K := known_upstream ue g detect (commits_to_move cg) e).
  induction rs as [|r rs IH]; intros cache s R; cbn [plan_roots fold_left]; [eauto|].
  destruct (root_dest e r) as [p|] eqn:Ed.
  2:{ exists cache. split; [exact R|]. cbn [bind]. unfold plan_root at 2. change (root_dest (with_upstream e K) r) with (root_dest e r).
      rewrite Ed. now rewrite (proj1 (fold_stuck _ rs)). }
  assert (exists ids cache1, (if detect then upstream_patch_ids ue g cache (commits_to_move cg) (root_commit r) (root_dests e r) else (Some ∅, cache)) = (Some ids, cache1) /\
            cache_right ue cache1 /\ forall c, applied_upstream ue ids c = K r c) as (ids & cache1 & -> & R1 & HK).
  { unfold K, known_upstream. destruct detect.
    - destruct (upstream_patch_ids_right ue g cache (commits_to_move cg) (root_commit r) (root_dests e r) R) as (c1 & -> & R1). eauto 10.
    - exists ∅, cache. split_and!; [reflexivity|exact R|]. intros. apply applied_none. }
  rewrite (plan_root_ext e (fun _ => applied_upstream ue ids) cg r K) by exact HK. cbn [bind].
  destruct (plan_root (with_upstream e K) cg r s) as [s'| |] eqn:Ep.
  - exact (IH cache1 s' R1).
  - exists cache1. split; [exact R1|]. now rewrite (proj1 (fold_stuck _ rs)).
  - exists cache1. split; [exact R1|]. now rewrite (proj2 (fold_stuck _ rs)).
Qed.

(** What is moved, for the plan as a whole. *)
Definition moving_of (d : dag) (cs : list constraint) : commit_set :=
  match build_constraints d cs with Done cg => commits_to_move cg | _ => ∅ end.
Lemma build_detecting_right d ue detect cache e allowed cs : cache_right ue cache ->
  exists cache', cache_right ue cache' /\
    build_detecting d ue detect cache e allowed cs =
    (build d (with_upstream e (known_upstream ue (dag_graph d) detect (moving_of d cs) e)) allowed cs, cache').
Proof.
  intros R. unfold build_detecting, build, moving_of. destruct (build_constraints d cs) as [cg| |]; cbn [bind]; [|eauto|eauto].
  destruct (check_for_cycles (cg_inner cg)) as [[l|]| |]; cbn [bind]; [eauto| |eauto|eauto].
  destruct (decide (check_permissions cg allowed = ∅)); [|eauto].
  destruct (plan_roots_right ue (dag_graph d) detect e cg (find_roots cg) cache (mk_bs ∅ ∅ []) R) as (cache' & R' & ->).
  unfold build_commands. destruct (fold_left _ (find_roots cg) (Done (mk_bs ∅ ∅ []))) as [s| |]; cbn [bind]; eauto.
Qed.

(** ** Where each command comes from *)
Section origin.
Context (e : plan_env) (cg : constraint_graph).
Definition from_root (r : root) (x : command) : Prop :=
  forall c, c ∈ replays x -> rtc (edge (cg_inner cg)) (root_commit r) c /\
    exists cm, pe_find e c = Some cm /\ (x = SkipUpstream c <-> is_merge cm = false /\ pe_upstream e r c = true) /\
    (x = SkipUpstream c \/ forall a, pe_replace e !! c = Some a -> exists ps, x = Replace c a ps).
Definition grows (r : root) (s s' : build_state) : Prop :=
  exists l, bs_acc s' = bs_acc s ++ l /\ forall x, x ∈ l -> from_root r x.

Lemma grows_refl r s : grows r s s.
Proof. exists []. rewrite app_nil_r. split; [reflexivity|]. intros x H. now apply elem_of_nil in H. Qed.
Lemma grows_trans r a b c : grows r a b -> grows r b c -> grows r a c.
Proof.
  intros (l & E & H) (l' & E' & H'). exists (l ++ l'). rewrite E', E, app_assoc. split; [reflexivity|].
  intros x Hx. apply elem_of_app in Hx. destruct Hx; auto.
Qed.
Lemma grows_push r l s : (forall x, x ∈ l -> from_root r x) -> grows r s (push l s).
Proof. intros H. exists l. split; [reflexivity|exact H]. Qed.
Lemma silent_from r x : replays x = [] -> from_root r x.
Proof. intros E c H. rewrite E in H. now apply elem_of_nil in H. Qed.

Lemma apply_grows r c cm s s' : rtc (edge (cg_inner cg)) (root_commit r) c -> pe_find e c = Some cm ->
  apply_commit e cg r c cm s = Done (Some s') -> grows r s s'.
Proof.
  intros Hr Hf. unfold apply_commit.
  assert (One : forall x, replays x = [c] -> (x = SkipUpstream c <-> is_merge cm = false /\ pe_upstream e r c = true) ->
    (x = SkipUpstream c \/ forall a, pe_replace e !! c = Some a -> exists ps, x = Replace c a ps) -> from_root r x).
  { intros x E Hx Ha c' Hc'. rewrite E in Hc'. apply elem_of_list_singleton in Hc'. subst c'. split; [exact Hr|]. exists cm. auto. }
  destruct (negb (is_merge cm) && pe_upstream e r c)%bool eqn:B.
  - intros [= <-]. apply grows_push. intros x Hx. apply elem_of_list_singleton in Hx. subst x. apply One; [reflexivity| |now left].
    apply andb_prop in B. destruct B as [B1 B2]. apply negb_true_iff in B1. tauto.
  - assert (NB : ~ (is_merge cm = false /\ pe_upstream e r c = true)).
    { intros [B1 B2]. rewrite B1, B2 in B. discriminate. }
    assert (Other : forall x, replays x = [c] -> x <> SkipUpstream c -> (forall a, pe_replace e !! c = Some a -> exists ps, x = Replace c a ps) -> from_root r x)
      by (intros x E N Ha; apply One; tauto).
    destruct (is_merge cm).
    + destruct (merge_parents _ _ _) as [ps|]; [|discriminate]. destruct (already_applied c (bs_acc s)); [discriminate|].
      destruct ps as [|fst rest]; [discriminate|]. intros [= <-]. apply grows_push. intros x Hx.
      apply elem_of_cons in Hx. destruct Hx as [->|Hx]; [now apply silent_from|].
      apply elem_of_list_singleton in Hx. subst x. apply Other; destruct (pe_replace e !! c) as [a|];
        first [reflexivity|discriminate|intros ? [= <-]; eauto].
    + destruct (decide (c ∈ fixup_commits cg)); [intros [= <-]; apply grows_refl|].
      destruct (pe_replace e !! c) as [rc|].
      * destruct (pe_find e rc); [|discriminate]. intros [= <-]. apply grows_push. intros x Hx.
        apply elem_of_list_singleton in Hx. subst x. apply Other; [reflexivity|discriminate|]. intros a [= <-]. eauto.
      * intros [= <-]. apply grows_push. intros x Hx. apply elem_of_cons in Hx. destruct Hx as [->|Hx].
        -- apply Other; [reflexivity|discriminate|]. intros a Ha. discriminate.
        -- apply elem_of_list_singleton in Hx. subst x. now apply silent_from.
Qed.
Lemma label_grows r prefix s x : create_label prefix s = Done x -> grows r s (snd x) /\
  forall c, grows r s (mk_bs (bs_used (snd x)) (<[c := fst x]> (bs_labels (snd x))) (bs_acc (snd x))).
Proof.
  unfold create_label. destruct (make_label _ _ _) as [[l u]| |]; cbn [bind]; try discriminate. intros [= <-]. cbn [fst snd bs_acc].
  assert (S : forall y, y ∈ [CreateLabel l] -> from_root r y).
  { intros y Hy. apply elem_of_list_singleton in Hy. subst. now apply silent_from. }
  split; [exists [CreateLabel l]; auto|]. intros c. exists [CreateLabel l]. auto.
Qed.

Lemma visit_grows r : forall fuel c cm s s', rtc (edge (cg_inner cg)) (root_commit r) c -> pe_find e c = Some cm ->
  visit fuel e cg r c cm s = Done s' -> grows r s s'.
Proof.
  induction fuel as [|fuel IH]; intros c cm s s' Hr Hf; [discriminate|]. cbn [visit].
  destruct (apply_commit e cg r c cm s) as [[s1|]| |] eqn:Ea; cbn [bind]; try discriminate.
  2:{ intros [= <-]. apply grows_refl. }
  pose proof (apply_grows _ _ _ _ _ Hr Hf Ea) as G1.
  destruct (find_all (pe_find e) _) as [kids|] eqn:Ek; [|discriminate].
  assert (Hkids : forall k, k ∈ kids -> rtc (edge (cg_inner cg)) (root_commit r) (fst k) /\ pe_find e (fst k) = Some (snd k)).
  { intros [k kc] Hk. unfold find_all in Ek. apply all_some_spec in Ek.
    assert (Hin : Some (k, kc) ∈ List.map Some kids) by (apply elem_of_list_In, in_map, elem_of_list_In; exact Hk).
    rewrite <- Ek in Hin. apply elem_of_list_In, in_map_iff in Hin. destruct Hin as (o & Eo & Ho).
    destruct (pe_find e o) as [oc|] eqn:Fo; [|discriminate]. injection Eo as -> ->. cbn. split; [|exact Fo].
    apply elem_of_list_In, sorted_oids_spec in Ho. eapply rtc_r; [exact Hr|exact Ho]. }
  match goal with |- bind ?b _ = _ -> _ => destruct b as [s2| |] eqn:E2 end; cbn [bind]; try discriminate.
  assert (G2 : grows r s s2).
  { eapply grows_trans; [exact G1|]. destruct (needs_label e kids).
    - destruct (create_label "parent-" s1) as [x| |] eqn:El; cbn [bind] in E2; try discriminate. injection E2 as <-.
      apply (proj2 (label_grows r _ _ _ El)).
    - injection E2 as <-. apply grows_refl. }
  destruct kids as [|k1 [|k2 kids]].
  - intros [= <-]. exact G2.
  - intros Hv. destruct (Hkids k1) as [A B]; [now left|]. eapply grows_trans; [exact G2|]. eauto.
  - destruct (create_label "label-" s2) as [x| |] eqn:El; cbn [bind]; try discriminate.
    pose proof (grows_trans _ _ _ _ G2 (proj1 (label_grows r _ _ _ El))) as G3.
    apply (fold_bind_inv (fun k s => bind (visit fuel e cg r (fst k) (snd k) s) (fun s => Done (push [Reset_ (AtLabel (fst x))] s)))
             (fun s3 => grows r s s3)); [|exact G3].
    intros k sa sb Hk Ga Hb. destruct (visit fuel e cg r (fst k) (snd k) sa) as [sc| |] eqn:Ev; cbn in Hb; try discriminate.
    injection Hb as <-. destruct (Hkids k Hk) as [A B]. eapply grows_trans; [exact Ga|]. eapply grows_trans; [eapply IH; eauto|].
    apply grows_push. intros y Hy. apply elem_of_list_singleton in Hy. subst. now apply silent_from.
Qed.

Lemma build_commands_origin s : build_commands e cg = Done s ->
  forall x, x ∈ bs_acc s -> exists r, r ∈ find_roots cg /\ from_root r x.
Proof.
  unfold build_commands.
  apply (fold_bind_inv (fun r s => plan_root e cg r s) (fun s => forall x, x ∈ bs_acc s -> exists r, r ∈ find_roots cg /\ from_root r x)).
  - intros r sa sb Hr Ha Hb. unfold plan_root in Hb. destruct (root_dest e r) as [p|]; [|discriminate].
    destruct (pe_find e (root_commit r)) as [cm|] eqn:Ef; [|discriminate].
    destruct (visit_grows r _ _ _ _ _ (rtc_refl _ _) Ef Hb) as (l & E & Hl). intros x Hx. rewrite E in Hx. cbn [push bs_acc] in Hx.
    apply elem_of_app in Hx. destruct Hx as [Hx|Hx]; [|eauto].
    apply elem_of_app in Hx. destruct Hx as [Hx|Hx]; [auto|].
    apply elem_of_list_singleton in Hx. subst x. exists r. split; [exact Hr|]. now apply silent_from.
  - cbn. intros x H. now apply elem_of_nil in H.
Qed.
End origin.

Lemma elem_replayed cmds c : c ∈ replayed cmds <-> exists x, x ∈ cmds /\ c ∈ replays x.
Proof.
  unfold replayed. rewrite elem_of_list_In, in_flat_map. setoid_rewrite <- elem_of_list_In. reflexivity.
Qed.
Lemma replayed_once cmds x y c : NoDup (replayed cmds) -> x ∈ cmds -> y ∈ cmds -> c ∈ replays x -> c ∈ replays y -> x = y.
Proof.
  intros N Hx Hy Cx Cy. induction cmds as [|z cmds IH]; [now apply elem_of_nil in Hx|].
  change (replayed (z :: cmds)) with (replays z ++ replayed cmds) in N. apply NoDup_app in N. destruct N as (_ & N1 & N2).
  apply elem_of_cons in Hx, Hy. destruct Hx as [->|Hx], Hy as [->|Hy]; [reflexivity| | |now apply IH].
  - exfalso. apply (N1 c Cx). apply elem_replayed. eauto.
  - exfalso. apply (N1 c Cy). apply elem_replayed. eauto.
Qed.

(** ** A plan *)
Lemma with_upstream_plannable d e f cs : plannable d e cs -> plannable d (with_upstream e f) cs.
Proof. intros [P1 P2 P3 P4 P5 P6]. now constructor. Qed.


Lemma skipped_iff d e allowed cs dest cmds c :
  wf_graph (dag_graph d) -> knows d e -> plannable d e cs ->
  build d e allowed cs = Done (BuiltPlan dest cmds) ->
  rebuilt d cs c -> ~ fixed_up cs c -> ~ merge_commit (dag_graph d) c ->
  exists r, starts d cs (root_commit r) (root_dests e r) /\ rtc (new_parent d cs) (root_commit r) c /\
    (SkipUpstream c ∈ cmds <-> pe_upstream e r c = true) /\
    (SkipUpstream c ∈ cmds \/ forall a, pe_replace e !! c = Some a -> exists ps, Replace c a ps ∈ cmds).
Proof.
  intros W K P HB Hc Nf Nm. destruct (build_replays d e allowed cs dest cmds W K P HB) as (ND & _ & All & _).
  pose proof (All c Hc Nf) as Hin. apply build_plan_inv in HB. destruct HB as (cg & s & Ecg & Ec & Ep & Es & -> & _).
  destruct (build_constraints_spec d cs W) as (_ & _ & H3).
  destruct (H3 cg Ecg) as (Hfx & Ht & He). destruct (node_rebuilt d cs cg (pl_stay _ _ _ P) Ht He) as [HM HN].
  assert (He' : forall p c, edge (cg_inner cg) p c <-> new_parent d cs p c).
  { intros p c'. rewrite He. apply code_parent_new. exact (pl_stay _ _ _ P). }
  apply elem_replayed in Hin. destruct Hin as (x & Hx & Cx).
  assert (Hx' : x ∈ bs_acc s).
  { apply elem_of_app in Hx. destruct Hx as [Hx|Hx]; [exact Hx|]. apply elem_of_list_singleton in Hx. subst x. now apply elem_of_nil in Cx. }
  destruct (build_commands_origin e cg s Es x Hx') as (r & Hr & Fr). destruct (Fr c Cx) as (Rc & cm & Hf & Hs & Hk).
  exists r. split; [|split; [|split]].
  4:{ destruct Hk as [-> |Hk]; [now left|]. right. intros a Ha. destruct (Hk a Ha) as [ps ->]. eauto. }
  - assert (HR : root_edge r ∈ List.map root_edge (find_roots cg)).
    { apply elem_of_list_In, in_map, elem_of_list_In. exact Hr. }
    destruct r as [p c0|t]; cbn [root_edge] in HR; apply find_roots_spec in HR; destruct HR as [A B]; cbn in A |- *.
    + left. exists p. split; [now apply He'|]. split; [|reflexivity]. intros Rp. apply (B p eq_refl). now apply HN.
    + right. destruct A as [A1 A2]. split; [now apply Ht|]. split; [intros M; apply A2; now apply HM|].
      destruct (K t) as (cm' & Hf' & Hps); [apply (pl_exists _ _ _ P); right; now apply Ht|]. rewrite Hf'. exact Hps.
  - clear -Rc He'. induction Rc as [x|x y z Hxy _ IHR]; [apply rtc_refl|]. apply He' in Hxy. eapply rtc_l; [exact Hxy|exact IHR].
  - assert (Im : is_merge cm = false).
    { destruct (is_merge cm) eqn:E; [|reflexivity]. exfalso. apply Nm. apply (merge_commit_spec d e c cm W K); [|exact Hf|exact E].
      apply (pl_exists _ _ _ P). exact Hc. }
    split.
    + intros Hsk. assert (x = SkipUpstream c) as Ex; [|now apply Hs in Ex].
      eapply replayed_once; [exact ND|exact Hx|exact Hsk|exact Cx|]. cbn. set_solver.
    + intros Hu. rewrite <- (proj2 Hs (conj Im Hu)). exact Hx.
Qed.

Lemma moving_of_spec d cs c : wf_graph (dag_graph d) -> targets_stay d cs -> (exists cg, build_constraints d cs = Done cg) ->
  c ∈ moving_of d cs <-> moves d cs c.
Proof.
  intros W T [cg Ecg]. unfold moving_of. rewrite Ecg. destruct (build_constraints_spec d cs W) as (_ & _ & H3).
  destruct (H3 cg Ecg) as (_ & Ht & He). now apply (node_rebuilt d cs cg T Ht He).
Qed.

(** ** What is upstream *)
Lemma upstream_side g c p u : upstream g c [p] u ->
  ancestor g u p /\ (greatest_common g {[c; p]} u \/ ~ ancestor g u c).
Proof.
  intros [(q & Hq & A) (q' & m & Hq' & [C G] & B)]. apply elem_of_list_singleton in Hq, Hq'. subst q q'.
  split; [exact A|]. destruct (decide (u = m)) as [->|N]; [left; split; assumption|]. right. intros Uc.
  apply (G u).
  - intros x Hx. apply elem_of_union in Hx. destruct Hx as [Hx|Hx]; apply elem_of_singleton in Hx; now subst.
  - destruct B as [|x y z H B]; [congruence|]. eapply tc_rtc_r; [apply tc_once; exact H|exact B].
Qed.

Lemma one_parent g c q q' : wf_graph g -> ~ merge_commit g c -> parent g q c -> parent g q' c -> q = q'.
Proof.
  intros W Nm H H'. pose proof (parent_vertices _ _ _ W H) as Hv. apply parent_parents_of in H, H'; [|exact W..].
  destruct (parents_of g c) as [|x [|y l]] eqn:E; [now apply elem_of_nil in H|set_solver|]. exfalso. apply Nm.
  assert (Hv' : c ∈ vertices g) by apply Hv. apply vertices_spec in Hv'. destruct Hv' as [ps Hps]. exists ps. split; [exact Hps|].
  rewrite <- (parents_of_spec _ _ _ _ W Hps), E. cbn. lia.
Qed.
Lemma straight_chain g p a b : wf_graph g -> (forall x, ancestor g x p -> ~ merge_commit g x) ->
  ancestor g a p -> ancestor g b p -> ancestor g a b \/ ancestor g b a.
Proof.
  intros W Nm Ha. revert p Ha b Nm. refine (rtc_ind_r (fun p => forall b, (forall x, ancestor g x p -> ~ merge_commit g x) -> ancestor g b p -> ancestor g a b \/ ancestor g b a) a _ _).
  { intros b _ Hb. now right. }
  intros q p Ha Hq IH b Nm Hb.
  apply rtc_inv_r in Hb. destruct Hb as [->|(q' & Hb & Hq')]; [left; eapply rtc_r; eassumption|].
  assert (q' = q) as -> by (eapply one_parent; [exact W|apply Nm; constructor|eassumption..]).
  apply IH; [|exact Hb]. intros x Hx. apply Nm. eapply rtc_r; eassumption.
Qed.
Lemma upstream_straight g c p u m : wf_graph g -> (forall x, ancestor g x p -> ~ merge_commit g x) ->
  ancestor g m c -> ancestor g m p -> ancestor g u p -> ~ ancestor g u c -> upstream g c [p] u.
Proof.
  intros W Nm Mc Mp Up Uc. split; [exists p; split; [now left|exact Up]|].
  destruct (below_head g (common_ancestors g {[c; p]}) m W) as (h & Hh & _).
  { apply common_ancestors_spec; [exact W|]. split; [set_solver|]. intros x Hx.
    apply elem_of_union in Hx. destruct Hx as [Hx|Hx]; apply elem_of_singleton in Hx; now subst. }
  exists p, h. split; [now left|]. assert (G : greatest_common g {[c; p]} h) by (apply gca_all_spec; [exact W|set_solver|exact Hh]).
  split; [exact G|]. destruct G as [C _]. destruct (straight_chain g p h u W Nm) as [H|H]; [apply C; set_solver|exact Up|exact H|].
  exfalso. apply Uc. eapply rtc_transitive; [exact H|]. apply C. set_solver.
Qed.

(** ** One subtree *)
Lemma one_subtree_placed c0 p c q : placed [MoveSubtree [p] c0] c q -> c = c0 /\ q = p.
Proof.
  intros (b & ps & a & E & Hq & _). destruct b as [|x b]; [|destruct b; discriminate].
  injection E as <- <- _. apply elem_of_list_singleton in Hq. auto.
Qed.
Lemma one_subtree_parent d c0 p c q : new_parent d [MoveSubtree [p] c0] q c ->
  (c = c0 /\ q = p) \/ (c <> c0 /\ visible d c /\ parent (dag_graph d) q c /\ proper_ancestor (dag_graph d) c0 c).
Proof.
  assert (NoGap : forall c p', ~ closes_gap d [MoveSubtree [p] c0] c p').
  { intros c' p' (_ & _ & b & x & a & a1 & b1 & E & T & _). destruct b as [|y b]; [|destruct b; discriminate].
    injection E as <- _. destruct T as [T|(t & T & _)]; discriminate. }
  assert (P0 : placed [MoveSubtree [p] c0] c0 p).
  { exists [], [p], []. split_and!; [reflexivity|now left|constructor]. }
  intros [H|[H|H]]; [left; now apply one_subtree_placed|now apply NoGap in H|]. right.
  destruct H as (Nr & V & P & a & [[q' [Ha|Ha]]|[f Hf]] & A).
  - apply one_subtree_placed in Ha. destruct Ha as [-> _]. split_and!; auto. intros ->. apply Nr. exists p. auto.
  - now apply NoGap in Ha.
  - apply elem_of_list_singleton in Hf. discriminate.
Qed.
Lemma one_subtree_starts d c0 p c1 dests : wf_graph (dag_graph d) -> c0 ∈ vertices (dag_graph d) ->
  (forall c, proper_ancestor (dag_graph d) c0 c -> visible d c -> ~ merge_commit (dag_graph d) c) ->
  starts d [MoveSubtree [p] c0] c1 dests -> c1 = c0 /\ dests = [p].
Proof.
  intros W V0 Nm [(q & Hq & Nr & ->)|([f Hf] & _)].
  2:{ apply elem_of_list_singleton in Hf. discriminate. }
  apply one_subtree_parent in Hq. destruct Hq as [[-> ->]|(N & V & P & A)]; [auto|]. exfalso. apply Nr. left.
  destruct (decide (q = c0)) as [->|Nq].
  { exists p. left. exists [], [p], []. split_and!; [reflexivity|now left|constructor]. }
  apply proper_parent in A. destruct A as (q' & A & P').
  assert (q' = q) as ->.
  { eapply one_parent; [exact W| |exact P'|exact P]. apply Nm; [|exact V]. apply proper_parent. eauto. }
  exists (default q (head (parents_of (dag_graph d) q))). right. right. apply ancestor_cases in A. destruct A as [->|A]; [congruence|].
  assert (Vq : visible d q) by (eapply visible_closed; [apply rtc_once; exact P|exact V]).
  split_and!.
  - intros [r Hr].
    assert (Hn : new_parent d [MoveSubtree [p] c0] r q) by (destruct Hr; [now left|right; now left]).
    apply one_subtree_parent in Hn. destruct Hn as [[-> _]|(_ & _ & _ & _)]; [congruence|].
    destruct Hr as [Hr|(Hr & _ & b & x & aa & a1 & b1 & E & T & _)]; [apply one_subtree_placed in Hr; tauto|].
    destruct b as [|y b]; [|destruct b; discriminate]. injection E as <- _. destruct T as [T|(t & T & _)]; discriminate.
  - exact Vq.
  - apply proper_parent in A. destruct A as (r & _ & Pr). apply parent_parents_of in Pr; [|exact W].
    apply parent_parents_of; [exact W|]. destruct (parents_of (dag_graph d) q); [now apply elem_of_nil in Pr|]. now left.
  - exists c0. split; [|exact A]. left. exists p. left. exists [], [p], []. split_and!; [reflexivity|now left|constructor].
Qed.
