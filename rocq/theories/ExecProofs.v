(** Carrying out plans in memory. *)
From stdpp Require Import sorting relations.
From Verif Require Import Base TextModel DagModel DagSpec DagProofs StrModel StrProofs HookModel PlanModel PlanSpec
  PlanProofs PlanCycleProofs PlanDfsProofs PlanLabelProofs PlanBuildProofs ExecModel ExecSpec.
Local Open Scope string_scope.
Local Open Scope list_scope.

(** ** Lists of commands *)
Lemma exec_fold_stop ee cmds c st : fold_left (fun r x => ebind r (exec_command ee x)) cmds (StopMerge c st) = StopMerge c st.
Proof. induction cmds; [reflexivity|assumption]. Qed.
Lemma exec_fold_err ee cmds st : fold_left (fun r x => ebind r (exec_command ee x)) cmds (Err st) = Err st.
Proof. induction cmds; [reflexivity|assumption]. Qed.
Lemma exec_app ee a b s : exec_commands ee (a ++ b) s = ebind (exec_commands ee a s) (exec_commands ee b).
Proof.
  unfold exec_commands. rewrite fold_left_app. destruct (fold_left _ a (Ok s)); cbn [ebind];
    [reflexivity|apply exec_fold_stop|apply exec_fold_err].
Qed.
Lemma exec_cons ee x b s : exec_commands ee (x :: b) s = ebind (exec_command ee x s) (exec_commands ee b).
Proof.
  change (x :: b) with ([x] ++ b). rewrite exec_app. unfold exec_commands at 1. cbn. now destruct (exec_command ee x s).
Qed.
Lemma ebind_ok {A B} (x : exec A) (f : A -> exec B) b : ebind x f = Ok b -> exists a, x = Ok a /\ f a = Ok b.
Proof. destruct x; cbn; try discriminate. eauto. Qed.

(** ** Objects *)
Lemma add_object_spec ee x st o st' :
  faithful_names ee -> named ee st -> add_object ee x st = (o, st') ->
  o = ee_hash ee x /\ st ⊆ st' /\ named ee st' /\ st' !! o = Some x.
Proof.
  intros F N. unfold add_object. destruct (st !! ee_hash ee x) as [y|] eqn:Ey; intros [= <- <-].
  - split_and!; auto. apply N in Ey as Ey'. apply F in Ey'. now subst.
  - split_and!; auto; [now apply insert_subseteq| |apply lookup_insert].
    intros o y. destruct (decide (o = ee_hash ee x)) as [->|Ne].
    + rewrite lookup_insert. now intros [= <-].
    + rewrite lookup_insert_ne by congruence. apply N.
Qed.

Lemma apply_all_some ee orig q l : forall st r l0 st' o,
  faithful_names ee -> named ee st -> (exists x, r = ee_hash ee x /\ squashes ee q orig l0 x /\ st !! r = Some x) ->
  apply_all ee st q orig (Some r) l = Ok (st', o) ->
  st ⊆ st' /\ named ee st' /\ exists o' x, o = Some o' /\ squashes ee q orig (l0 ++ l) x /\ st' !! o' = Some x.
Proof.
  induction l as [|c l IH]; intros st r l0 st' o F N (x & Er & Hx & Sx); cbn [apply_all].
  - intros [= <- <-]. rewrite app_nil_r. split_and!; eauto.
  - destruct (st !! c) as [cx|]; [|discriminate]. destruct (is_merge (ob_commit cx)); [discriminate|].
    destruct (ee_amend ee r c) as [t| |] eqn:Ea; try discriminate.
    destruct (add_object _ _ st) as [o1 st1] eqn:E1. apply add_object_spec in E1; auto.
    destruct E1 as (-> & S1 & N1 & L1). intros H. apply (IH _ _ (l0 ++ [c])) in H; auto.
    + destruct H as (S2 & N2 & H). rewrite <- app_assoc in H. split_and!; auto. etrans; eauto.
    + eexists. split_and!; [reflexivity| |exact L1]. eapply squash_more; [exact Hx|]. now rewrite <- Er.
Qed.

Lemma apply_all_none ee orig q l st st' o :
  faithful_names ee -> named ee st -> apply_all ee st q orig None l = Ok (st', Some o) ->
  st ⊆ st' /\ named ee st' /\ exists x, squashes ee q orig l x /\ st' !! o = Some x.
Proof.
  intros F N. destruct l as [|c l]; cbn [apply_all]; [discriminate|].
  destruct (st !! c) as [cx|]; [|discriminate]. destruct (is_merge (ob_commit cx)); [discriminate|].
  destruct (ee_pick ee c q) as [t| |] eqn:Ea; try discriminate.
  destruct (add_object _ _ st) as [o1 st1] eqn:E1. apply add_object_spec in E1; auto.
  destruct E1 as (-> & S1 & N1 & L1). intros H. apply (apply_all_some _ _ _ _ _ _ [c]) in H; auto.
  - destruct H as (S2 & N2 & o' & x & [= <-] & Hx & Sx). split_and!; [etrans; eauto|exact N2|]. eauto.
  - eexists. split_and!; [reflexivity| |exact L1]. now constructor.
Qed.

Lemma squashes_shape ee q orig l x : squashes ee q orig l x -> commit_parents (ob_commit x) = [q] /\ x = remade ee orig [q] (commit_tree (ob_commit x)).
Proof. intros H. destruct H; cbn; auto. Qed.

Lemma insert_all_lookup (l : list oid) (v : moid) (m : gmap oid moid) c :
  fold_left (fun m c => <[c := v]> m) l m !! c = if decide (c ∈ l) then Some v else m !! c.
Proof.
  revert m. induction l as [|a l IH]; intros m; cbn.
  - rewrite decide_False by apply not_elem_of_nil. reflexivity.
  - rewrite IH. destruct (decide (c ∈ l)) as [H|H].
    + rewrite decide_True by now right. reflexivity.
    + destruct (decide (c = a)) as [->|Ne].
      * rewrite lookup_insert, decide_True by now left. reflexivity.
      * rewrite lookup_insert_ne by congruence. rewrite decide_False; [reflexivity|]. rewrite elem_of_cons. tauto.
Qed.

Lemma fate_mono (L L' : oid -> oid -> Prop) d cs e ee rw rw' st st' c :
  (forall p q, L p q -> L' p q) -> rw' !! c = rw !! c -> st ⊆ st' ->
  fate_with L d cs e ee rw st c -> fate_with L' d cs e ee rw' st' c.
Proof.
  intros HL Hc S.
  assert (Up : forall o x, st !! o = Some x -> st' !! o = Some x) by (intros o x H; now apply (lookup_weaken st)).
  intros [p q H1 H2 H3 H4 H5|p q n orig l x qx H1 H2 H3 H4 H5 H6 H7 H8|n r orig ps qs H1 H2 H3 H4 H5 H6 H7].
  - eapply fate_skipped; eauto; [congruence|]. destruct H5 as [H5|(R & orig & qx & l & x & A & B & C)]; [auto|].
    right. split; [exact R|]. exists orig, qx, l, x. split_and!; auto; apply C.
  - eapply (fate_picked _ _ _ _ _ _ _ _ p q n orig l x qx); eauto. congruence.
  - eapply (fate_replaced _ _ _ _ _ _ _ _ n r orig ps qs); eauto; [congruence|].
    eapply Forall2_impl; [exact H5|]. auto.
Qed.

(** ** The traversal and what carrying it out does *)
Section run.
Context (d : dag) (cs : list constraint) (e : plan_env) (ee : exec_env) (cg : constraint_graph).
Notation g := (dag_graph d).
Notation E := (edge (cg_inner cg)).
Notation F := (fixup_commits cg).
Notation on := (rebuilt_on d cs).
Notation node := (node cg).

Record runnable : Prop := {
  rn_edge : forall p c, E p c -> on p c;
  rn_root : forall p c, c ∈ commits_to_fixup cg -> c ∉ commits_to_move cg -> root_dest e (RootFixup c) = Some p ->
    on p c /\ ~ node p;
  rn_merge : forall c cm, node c -> pe_find e c = Some cm -> is_merge cm = true <-> merge_commit g c;
  rn_parents : forall c cm, node c -> pe_find e c = Some cm -> commit_parents cm = parents_of g c;
  rn_merge_on : forall c p, node c -> merge_commit g c -> p ∈ parents_of g c -> on p c;
  rn_merge_stay : forall c p, node c -> merge_commit g c -> p ∈ parents_of g c -> p ∉ commits_to_move cg -> ~ node p;
  rn_merge_fix : forall c, node c -> merge_commit g c -> c ∉ F;
  rn_clear : forall p c, on p c -> c ∉ F -> p ∉ F;
  rn_one : forall p p' c, ~ merge_commit g c -> on p c -> on p' c -> p = p';
  rn_fit : forall c r rc, node c -> ~ merge_commit g c -> pe_replace e !! c = Some r -> pe_find e r = Some rc ->
    exists p, commit_parents rc = [p] /\ on p c;
  rn_sort : forall fs, Permutation (pe_sort e fs) (elements fs);
  rn_fix : forall t f, f ∈ edges_from (cg_fixups cg) t <-> FixUpCommit t f ∈ cs;
  rn_names : faithful_names ee }.
Context (R : runnable).

(** What stands for a commit at some point: settled for good. *)
Inductive at_ (rw : gmap oid moid) : oid -> oid -> Prop :=
| at_kept p : ~ node p -> p ∉ F -> at_ rw p p
| at_new p q : node p -> p ∉ F -> rw !! p = Some (NonZero q) -> at_ rw p q
| at_skip p p' q : node p -> p ∉ F -> rw !! p = Some Zero -> on p' p -> at_ rw p' q -> at_ rw p q.

Definition keeps (rw rw' : gmap oid moid) : Prop := forall c v, c ∉ F -> rw !! c = Some v -> rw' !! c = Some v.
Lemma at_mono rw rw' p q : keeps rw rw' -> at_ rw p q -> at_ rw' p q.
Proof.
  intros K. induction 1 as [p N Nf|p q N Nf H|p p' q N Nf H Ho Ha IH]; [now apply at_kept|now apply at_new; auto|].
  eapply at_skip; eauto.
Qed.

Notation fates rw := (fate_with (at_ rw) d cs e ee rw).

(** [f] is squashed into [t] only, and is not upstream. *)
Definition simple_fixup (t f : oid) : Prop :=
  (forall t', FixUpCommit t' f ∈ cs -> t' = t) /\ forall r, pe_upstream e r f = false.

Record J (s : build_state) (es : exec_state) : Prop := {
  j_named : named ee (es_store es);
  j_rw : forall c v, es_rewritten es !! c = Some v -> c ∈ replayed (bs_acc s) \/ c ∈ F;
  j_node : forall c, c ∈ replayed (bs_acc s) -> node c;
  j_fate : forall c, c ∈ replayed (bs_acc s) -> c ∉ F -> fates (es_rewritten es) (es_store es) c;
  j_labels : forall q l, q ∉ F -> bs_labels s !! q = Some l -> exists o, es_labels es !! l = Some o /\ at_ (es_rewritten es) q o;
  j_used : forall l, is_Some (es_labels es !! l) -> l ∈ bs_used s;
  j_skip : forall o, es_skipped_head es = Some o -> exists h, ee_head ee = Some h /\ h ∈ replayed (bs_acc s);
  j_head : forall h, ee_head ee = Some h -> h ∉ F -> es_rewritten es !! h = Some Zero ->
    exists q, es_skipped_head es = Some q /\ at_ (es_rewritten es) h q;
  j_fix : forall f n, f ∈ F -> es_rewritten es !! f = Some (NonZero n) ->
    exists t, FixUpCommit t f ∈ cs /\ t ∉ F /\ es_rewritten es !! t = Some (NonZero n);
  j_into : forall t f n, FixUpCommit t f ∈ cs -> t ∉ F -> pe_replace e !! t = None -> simple_fixup t f ->
    es_rewritten es !! t = Some (NonZero n) -> es_rewritten es !! f = Some (NonZero n) }.

Record G (s : build_state) (es : exec_state) (s' : build_state) (es' : exec_state) : Prop := {
  g_store : es_store es ⊆ es_store es';
  g_rw : keeps (es_rewritten es) (es_rewritten es');
  g_labels : es_labels es ⊆ es_labels es';
  g_parent : forall q, is_Some (bs_labels s !! q) -> is_Some (bs_labels s' !! q) }.
Lemma G_refl s es : G s es s es.
Proof. constructor; auto. now intros c v. Qed.
Lemma G_trans s1 e1 s2 e2 s3 e3 : G s1 e1 s2 e2 -> G s2 e2 s3 e3 -> G s1 e1 s3 e3.
Proof.
  intros [A1 A2 A3 A4] [B1 B2 B3 B4]. constructor; [etrans; eauto| |etrans; eauto|auto].
  intros c v Hf H. apply B2, A2; auto.
Qed.

(** A command that replays [c]. *)
Lemma J_replay s es c cmds st' cur rw' sk :
  J s es -> node c -> replayed cmds = [c] -> c ∉ replayed (bs_acc s) ->
  es_store es ⊆ st' -> named ee st' ->
  (forall c', c' <> c -> c' ∉ F -> rw' !! c' = es_rewritten es !! c') ->
  (c ∉ F -> fates rw' st' c) ->
  (sk = es_skipped_head es /\ (c ∉ F -> rw' !! c <> Some Zero) \/
   sk = skip_head ee c cur (es_skipped_head es) /\ (c ∉ F -> at_ rw' c cur)) ->
  (forall f n, f ∈ F -> rw' !! f = Some (NonZero n) ->
     es_rewritten es !! f = Some (NonZero n) \/ (FixUpCommit c f ∈ cs /\ c ∉ F /\ rw' !! c = Some (NonZero n))) ->
  (forall f, f ∈ F -> rw' !! f = es_rewritten es !! f \/ FixUpCommit c f ∈ cs \/ exists r, pe_upstream e r f = true) ->
  (forall f n, FixUpCommit c f ∈ cs -> c ∉ F -> pe_replace e !! c = None -> rw' !! c = Some (NonZero n) -> rw' !! f = Some (NonZero n)) ->
  forall cur', J (push cmds s) (mk_es st' cur' (es_labels es) rw' sk) /\
    G s es (push cmds s) (mk_es st' cur' (es_labels es) rw' sk).
Proof.
  intros [J1 J2 J3 J4 J5 J6 J7 J8 J9 J10] Nc Ec Hc Hst Hn Hrw Hfate Hsk Hfix Hold Hinto cur'.
  assert (K : keeps (es_rewritten es) rw').
  { intros c' v Nf Hv. rewrite Hrw; auto. intros ->. destruct (J2 _ _ Hv); auto. }
  assert (M : forall p q, at_ (es_rewritten es) p q -> at_ rw' p q) by (intros; eapply at_mono; eauto).
  assert (Rp : replayed (bs_acc (push cmds s)) = replayed (bs_acc s) ++ [c]).
  { unfold push. cbn. now rewrite replayed_app, Ec. }
  split; [|constructor; cbn; auto]. constructor; cbn [es_store es_current es_labels es_rewritten es_skipped_head]; rewrite ?Rp.
  - exact Hn.
  - intros c' v Hv. destruct (decide (c' ∈ F)) as [|Nf]; [auto|]. left. apply elem_of_app.
    destruct (decide (c' = c)) as [->|Ne]; [right; now left|]. rewrite Hrw in Hv by auto. destruct (J2 _ _ Hv); auto. tauto.
  - intros c'. rewrite elem_of_app, elem_of_list_singleton. intros [H| ->]; auto.
  - intros c'. rewrite elem_of_app, elem_of_list_singleton. intros [H| ->] Nf; [|auto].
    eapply fate_mono; [exact M| |exact Hst|auto]. apply Hrw; auto. intros ->. auto.
  - intros q l Hq Hl. destruct (J5 q l Hq Hl) as (o & A & B). eauto.
  - exact J6.
  - intros o Ho. destruct Hsk as [[-> _]|[-> _]].
    + destruct (J7 _ Ho) as (h & A & B). exists h. split; [exact A|]. apply elem_of_app. auto.
    + unfold skip_head in Ho. destruct (decide (ee_head ee = Some c)) as [Eh|Eh].
      * exists c. split; [exact Eh|]. apply elem_of_app. right. now left.
      * destruct (J7 _ Ho) as (h & A & B). exists h. split; [exact A|]. apply elem_of_app. auto.
  - intros h Eh Nf Hz. destruct (decide (h = c)) as [->|Ne].
    + destruct Hsk as [[-> Hsk]|[-> Hsk]]; [exfalso; now apply Hsk|]. unfold skip_head. rewrite decide_True by exact Eh.
      destruct (es_skipped_head es) as [o|] eqn:Eo; [|eauto].
      exfalso. destruct (J7 _ eq_refl) as (h & A & B). rewrite Eh in A. injection A as <-. auto.
    + rewrite Hrw in Hz by auto. destruct (J8 h Eh Nf Hz) as (q & A & B). exists q. split; [|auto].
      destruct Hsk as [[-> _]|[-> _]]; [exact A|]. unfold skip_head. rewrite A. now destruct (decide _).
  - intros f n Hf Hn'. destruct (Hfix f n Hf Hn') as [H|(A & B & C)]; [|eauto].
    destruct (J9 f n Hf H) as (t & A & B & C). exists t. split_and!; auto.
  - intros t f n Hf Nt Er Sf Ht. destruct (decide (t = c)) as [->|Ne]; [eauto|].
    rewrite Hrw in Ht by auto. specialize (J10 t f n Hf Nt Er Sf Ht). destruct Sf as [S1 S2].
    assert (HF : f ∈ F). { unfold fixup_commits. rewrite all_values_spec. exists t. now apply (rn_fix R). }
    destruct (Hold f HF) as [->|[H|[r H]]]; [exact J10| |].
    + exfalso. apply Ne. symmetry. auto.
    + rewrite S2 in H. discriminate.
Qed.

(** A command that only moves. *)
Lemma J_move s es cmds cur : J s es -> replayed cmds = [] ->
  J (push cmds s) (mk_es (es_store es) cur (es_labels es) (es_rewritten es) (es_skipped_head es)) /\
  G s es (push cmds s) (mk_es (es_store es) cur (es_labels es) (es_rewritten es) (es_skipped_head es)).
Proof.
  intros [J1 J2 J3 J4 J5 J6 J7 J8 J9 J10] Ec.
  assert (Rp : replayed (bs_acc (push cmds s)) = replayed (bs_acc s)).
  { unfold push. cbn. now rewrite replayed_app, Ec, app_nil_r. }
  split; [|constructor; cbn; auto; now intros c v]. constructor; cbn [es_store es_current es_labels es_rewritten es_skipped_head];
    rewrite ?Rp; auto.
Qed.

(** A new label for the current place. *)
Lemma J_label prefix s es x es' : J s es -> create_label prefix s = Done x ->
  exec_commands ee [CreateLabel (fst x)] es = Ok es' ->
  es' = mk_es (es_store es) (es_current es) (<[fst x := es_current es]> (es_labels es)) (es_rewritten es) (es_skipped_head es) /\
  bs_acc (snd x) = bs_acc s ++ [CreateLabel (fst x)] /\ J (snd x) es' /\ G s es (snd x) es' /\
  forall c, (c ∉ F -> at_ (es_rewritten es) c (es_current es)) ->
    J (mk_bs (bs_used (snd x)) (<[c := fst x]> (bs_labels (snd x))) (bs_acc (snd x))) es' /\
    G s es (mk_bs (bs_used (snd x)) (<[c := fst x]> (bs_labels (snd x))) (bs_acc (snd x))) es'.
Proof.
  intros [J1 J2 J3 J4 J5 J6 J7 J8 J9 J10] Ex H. destruct (create_label_total prefix s) as (l & Hl & El).
  rewrite El in Ex. injection Ex as <-. cbn [fst snd bs_used bs_labels bs_acc] in *.
  unfold exec_commands in H. cbn in H. injection H as <-.
  assert (Fresh : es_labels es !! l = None).
  { destruct (es_labels es !! l) eqn:E0; [|reflexivity]. exfalso. apply Hl, J6. eauto. }
  assert (Rp : replayed (bs_acc s ++ [CreateLabel l]) = replayed (bs_acc s)) by (rewrite replayed_app; cbn; now rewrite app_nil_r).
  assert (Ks : es_labels es ⊆ <[l := es_current es]> (es_labels es)) by now apply insert_subseteq.
  assert (U : forall l', is_Some (<[l := es_current es]> (es_labels es) !! l') -> l' ∈ {[l]} ∪ bs_used s).
  { intros l' Hl'. destruct (decide (l' = l)) as [->|Ne]; [set_solver|]. rewrite lookup_insert_ne in Hl' by congruence.
    apply J6 in Hl'. set_solver. }
  assert (L : forall q l', q ∉ F -> bs_labels s !! q = Some l' ->
     exists o, <[l := es_current es]> (es_labels es) !! l' = Some o /\ at_ (es_rewritten es) q o).
  { intros q l' Hq H. destruct (J5 q l' Hq H) as (o & A & B). exists o. split; [|exact B]. now apply (lookup_weaken (es_labels es)). }
  split_and!; [reflexivity|reflexivity| | |].
  - constructor; cbn [es_store es_current es_labels es_rewritten es_skipped_head bs_acc bs_used bs_labels]; rewrite ?Rp; auto.
  - constructor; cbn; auto. now intros c v.
  - intros c Hc. split.
    + constructor; cbn [es_store es_current es_labels es_rewritten es_skipped_head bs_acc bs_used bs_labels]; rewrite ?Rp; auto.
      intros q l' Hq. destruct (decide (q = c)) as [->|Ne].
      * rewrite lookup_insert. intros [= <-]. exists (es_current es). split; [apply lookup_insert|auto].
      * rewrite lookup_insert_ne by congruence. now apply L.
    + constructor; cbn; auto; [now intros c' v|]. intros q Hq. destruct (decide (q = c)) as [->|Ne].
      * rewrite lookup_insert. eauto.
      * rewrite lookup_insert_ne by congruence. exact Hq.
Qed.

(** Where a commit is replayed. *)
Definition placed_at (c : oid) (s : build_state) (es : exec_state) : Prop :=
  ~ merge_commit g c -> c ∉ F -> exists p, on p c /\ at_ (es_rewritten es) p (es_current es) /\
    (is_Some (pe_replace e !! c) -> node p -> is_Some (bs_labels s !! p)).

Lemma not_node_at rw p c : on p c -> c ∉ F -> ~ node p -> at_ rw p p.
Proof. intros H Nf N. apply at_kept; [exact N|]. eapply (rn_clear R); eauto. Qed.

Lemma apply_exec r c cm s s1 es :
  apply_commit e cg r c cm s = Done (Some s1) -> node c -> pe_find e c = Some cm -> J s es -> placed_at c s es ->
  exists cmds, s1 = push cmds s /\
    (NoDup (replayed (bs_acc s1)) -> forall es1, exec_commands ee cmds es = Ok es1 ->
       J s1 es1 /\ G s es s1 es1 /\ (c ∉ F -> at_ (es_rewritten es1) c (es_current es1))).
Proof.
  intros Ha Nc Hf HJ Hp. pose proof (rn_merge R c cm Nc Hf) as Mg.
  assert (NewDup : forall cmds, replayed cmds = [c] -> NoDup (replayed (bs_acc (push cmds s))) -> c ∉ replayed (bs_acc s)).
  { intros cmds Ec. unfold push. cbn. rewrite replayed_app, Ec. intros N. apply NoDup_app in N. destruct N as (_ & N & _).
    intros H. apply (N c H). now left. }
  revert Ha. unfold apply_commit. destruct (negb (is_merge cm) && pe_upstream e r c)%bool eqn:Eu.
  { intros [= <-]. exists [SkipUpstream c]. split; [reflexivity|]. intros ND es1. unfold exec_commands. cbn.
    apply andb_true_iff in Eu. destruct Eu as [Em Eu]. apply negb_true_iff in Em.
    assert (Nm : ~ merge_commit g c) by (rewrite <- Mg; congruence).
    destruct (es_store es !! c) as [cx|] eqn:Ecx; [|discriminate]. intros [= <-].
    set (rw' := <[c := Zero]> (es_rewritten es)).
    assert (Hc : c ∉ replayed (bs_acc s)) by (eapply NewDup; [|exact ND]; reflexivity).
    assert (Hrw : forall c', c' <> c -> c' ∉ F -> rw' !! c' = es_rewritten es !! c').
    { intros c' Ne _. apply lookup_insert_ne. congruence. }
    assert (K : keeps (es_rewritten es) rw').
    { intros c' v Nf Hv. rewrite Hrw; auto. intros ->. destruct (j_rw _ _ HJ _ _ Hv); auto. }
    assert (Hz : rw' !! c = Some Zero) by apply lookup_insert.
    assert (Hat' : c ∉ F -> exists p, on p c /\ at_ rw' p (es_current es)).
    { intros Nf. destruct (Hp Nm Nf) as (p & Hon & Hat & _). exists p. split; [exact Hon|]. eapply at_mono; eauto. }
    assert (Hatc : c ∉ F -> at_ rw' c (es_current es)) by (intros Nf; destruct (Hat' Nf) as (p & ? & ?); eapply at_skip; eauto).
    edestruct (J_replay s es c [SkipUpstream c] (es_store es) (es_current es) rw'
      (skip_head ee c (es_current es) (es_skipped_head es))) as [A B]; eauto using j_named.
    - intros Nf. destruct (Hat' Nf) as (p & ? & ?). eapply fate_skipped; eauto.
    - intros f n Hff Hn. left. destruct (decide (f = c)) as [->|Ne]; [congruence|].
      unfold rw' in Hn. now rewrite lookup_insert_ne in Hn by congruence.
    - intros f Hff. destruct (decide (f = c)) as [->|Ne]; [right; right; eauto|].
      left. apply lookup_insert_ne. congruence.
    - intros f n _ _ _. congruence. }
  destruct (is_merge cm) eqn:Em.
  { pose proof (proj1 Mg eq_refl) as M.
    destruct (merge_parents _ _ _) as [ts|] eqn:Ets; [|discriminate].
    destruct (already_applied _ _); [discriminate|]. destruct ts as [|first rest]; [discriminate|].
    destruct (pe_replace e !! c) as [rp|] eqn:Er; intros [= <-].
    2:{ eexists. split; [reflexivity|]. intros _ es1 H. exfalso. rewrite exec_cons in H. apply ebind_ok in H.
        destruct H as (es0 & _ & H). unfold exec_commands in H. cbn in H. discriminate. }
    eexists. split; [reflexivity|]. intros ND es1 H. rewrite exec_cons in H. apply ebind_ok in H.
    destruct H as (es0 & H0 & H).
    assert (Hc : c ∉ replayed (bs_acc s)) by (eapply NewDup; [|exact ND]; reflexivity).
    destruct (J_move s es [Reset_ first] (es_current es0) HJ eq_refl) as [HJ0 HG0].
    assert (Ees : es0 = mk_es (es_store es) (es_current es0) (es_labels es) (es_rewritten es) (es_skipped_head es)).
    { cbn in H0. destruct first; [injection H0 as <-; reflexivity|]. destruct (es_labels es !! _); [|discriminate].
      injection H0 as <-. reflexivity. }
    rewrite <- Ees in HJ0, HG0. unfold exec_commands in H. cbn [fold_left ebind exec_command] in H. unfold exec_replace in H.
    destruct (es_store es0 !! c) as [cx|]; [|discriminate].
    destruct (es_store es0 !! rp) as [rx|] eqn:Erx; [|discriminate].
    destruct (all_some (List.map (place_of (es_labels es0)) (first :: rest))) as [qs|] eqn:Eqs; [|discriminate].
    destruct (_ || _)%bool; [discriminate|].
    destruct (add_object ee _ (es_store es0)) as [o st1] eqn:Eo. injection H as <-.
    apply add_object_spec in Eo; [|exact (rn_names R)|exact (j_named _ _ HJ0)].
    destruct Eo as (_ & S1 & N1 & L1).
    set (rw' := <[c := NonZero o]> (es_rewritten es0)).
    assert (Erw : es_rewritten es0 = es_rewritten es) by (rewrite Ees; reflexivity).
    assert (Elb : es_labels es0 = es_labels es) by (rewrite Ees; reflexivity).
    assert (Hrw : forall c', c' <> c -> c' ∉ F -> rw' !! c' = es_rewritten es0 !! c').
    { intros c' Ne _. apply lookup_insert_ne. congruence. }
    assert (K : keeps (es_rewritten es0) rw').
    { intros c' v Nf Hv. rewrite Hrw; auto. intros ->. rewrite Erw in Hv. destruct (j_rw _ _ HJ _ _ Hv); auto. }
    assert (Nf : c ∉ F) by (apply (rn_merge_fix R); auto).
    assert (Par : Forall2 (at_ rw') (parents_of g c) qs).
    { rewrite <- (rn_parents R c cm Nc Hf). unfold merge_parents in Ets. apply all_some_spec in Ets. apply all_some_spec in Eqs.
      assert (Hin : forall p, p ∈ commit_parents cm -> p ∈ parents_of g c) by (now rewrite (rn_parents R c cm Nc Hf)).
      revert Hin Ets Eqs. generalize (first :: rest), (commit_parents cm), qs. clear -R HJ K Erw Elb Nc M Nf.
      intros ts ps. revert ts. induction ps as [|p ps IH]; intros ts qs Hin Ets Eqs; destruct ts as [|t ts]; try discriminate.
      - destruct qs; [constructor|discriminate].
      - destruct qs as [|q qs]; [discriminate|]. cbn in Ets, Eqs. injection Ets as Et Ets. injection Eqs as Eq Eqs.
        constructor; [|apply (IH ts); auto; intros; apply Hin; now right].
        assert (Hp : p ∈ parents_of g c) by (apply Hin; now left).
        destruct (decide (p ∈ commits_to_move cg)) as [Hm|Hm].
        + destruct (bs_labels s !! p) as [l|] eqn:El; [|discriminate]. injection Et as <-. cbn in Eq.
          destruct (j_labels _ _ HJ p l) as (o' & A & B); [eapply (rn_clear R); [eapply (rn_merge_on R); eauto|exact Nf]|exact El|]. rewrite Elb, A in Eq. injection Eq as <-.
          eapply at_mono; [exact K|]. now rewrite Erw.
        + injection Et as <-. cbn in Eq. injection Eq as <-. eapply not_node_at; [eapply (rn_merge_on R); eauto|exact Nf|].
          eapply (rn_merge_stay R); eauto. }
    assert (Hz : rw' !! c = Some (NonZero o)) by apply lookup_insert.
    edestruct (J_replay (push [Reset_ first] s) es0 c [Replace c rp (first :: rest)] st1 (es_current es0) rw' (es_skipped_head es0)) as [A B]; eauto.
    - unfold push. cbn. rewrite replayed_app. cbn. now rewrite app_nil_r.
    - intros _. eapply (fate_replaced _ _ _ _ _ _ _ _ o rp rx (parents_of g c) qs); eauto.
      + eapply lookup_weaken; [exact Erx|exact S1].
      + tauto.
    - left. split; [reflexivity|]. intros _. congruence.
    - intros f n Hff Hn. left. destruct (decide (f = c)) as [->|Ne]; [contradiction|].
      unfold rw' in Hn. now rewrite lookup_insert_ne in Hn by congruence.
    - intros f Hff. left. apply lookup_insert_ne. intros ->. contradiction.
    - intros f n _ _. congruence.
    - unfold push in A, B |- *. cbn [bs_acc bs_labels bs_used] in A, B |- *. rewrite <- app_assoc in A, B. cbn [app] in A, B.
      split_and!; [exact A|eapply G_trans; [exact HG0|exact B]|]. intros _. now apply at_new. }
  destruct (decide (c ∈ F)) as [HF|NF].
  { intros [= <-]. exists []. split; [unfold push; rewrite app_nil_r; now destruct s|].
    intros _ es1 [= <-]. split_and!; [exact HJ|apply G_refl|tauto]. }
  assert (Nm : ~ merge_commit g c) by (rewrite <- Mg; congruence).
  destruct (Hp Nm NF) as (p & Hon & Hat & Hlab).
  destruct (pe_replace e !! c) as [rp|] eqn:Er.
  - destruct (pe_find e rp) as [rc|] eqn:Erc; [|discriminate]. intros [= <-]. eexists. split; [reflexivity|].
    intros ND es1 H. unfold exec_commands in H. cbn [fold_left ebind exec_command] in H.
    assert (Hc : c ∉ replayed (bs_acc s)) by (eapply NewDup; [|exact ND]; reflexivity).
    destruct (rn_fit R c rp rc Nc Nm Er Erc) as (p' & Eps & Hon'). rewrite (rn_one R p' p c Nm Hon' Hon) in Eps.
    rewrite Eps in *. cbn [List.map] in *. unfold exec_replace in H.
    destruct (es_store es !! c) as [cx|]; [|discriminate].
    destruct (es_store es !! rp) as [rx|] eqn:Erx; [|discriminate]. cbn [List.map all_some] in H.
    set (t := match bs_labels s !! p with Some l => AtLabel l | None => AtOid p end) in *.
    assert (Ht : exists q, place_of (es_labels es) t = Some q /\ at_ (es_rewritten es) p q).
    { unfold t. destruct (bs_labels s !! p) as [l|] eqn:El.
      - destruct (j_labels _ _ HJ p l) as (o & A & B); [eapply (rn_clear R); eauto|exact El|]. eauto.
      - exists p. split; [reflexivity|]. eapply not_node_at; [exact Hon|exact NF|]. intros Np.
        destruct (Hlab ltac:(eauto) Np). congruence. }
    destruct Ht as (q & Eq & Hq). rewrite Eq in H. destruct (_ || _)%bool; [discriminate|].
    destruct (add_object ee _ (es_store es)) as [o st1] eqn:Eo. injection H as <-.
    apply add_object_spec in Eo; [|exact (rn_names R)|exact (j_named _ _ HJ)]. destruct Eo as (_ & S1 & N1 & L1).
    set (rw' := <[c := NonZero o]> (es_rewritten es)).
    assert (Hrw : forall c', c' <> c -> c' ∉ F -> rw' !! c' = es_rewritten es !! c').
    { intros c' Ne _. apply lookup_insert_ne. congruence. }
    assert (K : keeps (es_rewritten es) rw').
    { intros c' v Nf Hv. rewrite Hrw; auto. intros ->. destruct (j_rw _ _ HJ _ _ Hv); auto. }
    assert (Hz : rw' !! c = Some (NonZero o)) by apply lookup_insert.
    edestruct (J_replay s es c [Replace c rp [t]] st1 (es_current es) rw' (es_skipped_head es)) as [A B]; eauto.
    + intros _. eapply (fate_replaced _ _ _ _ _ _ _ _ o rp rx [p] [q]); eauto.
      * eapply lookup_weaken; [exact Erx|exact S1].
      * constructor; [|constructor]. eapply at_mono; eauto.
      * tauto.
    + left. split; [reflexivity|]. intros _. congruence.
    + intros f n Hff Hn. left. destruct (decide (f = c)) as [->|Ne]; [contradiction|].
      unfold rw' in Hn. now rewrite lookup_insert_ne in Hn by congruence.
    + intros f Hff. left. apply lookup_insert_ne. intros ->. contradiction.
    + intros f n _ _. congruence.
    + split_and!; [exact A|exact B|]. intros _. now apply at_new.
  - intros [= <-]. set (l := match cg_fixups cg !! c with Some fs => pe_sort e ({[c]} ∪ fs) | None => [c] end).
    assert (Hl : forall f, f ∈ l <-> f = c \/ FixUpCommit c f ∈ cs).
    { intros f. unfold l. rewrite <- (rn_fix R). unfold edges_from. destruct (cg_fixups cg !! c) as [fs|].
      - rewrite (rn_sort R), elem_of_elements. set_solver.
      - set_solver. }
    assert (Nl : put_in_order e l).
    { unfold l. destruct (cg_fixups cg !! c) as [fs|].
      - split; [rewrite (rn_sort R); apply NoDup_elements|eauto].
      - split; [apply NoDup_singleton|]. exists {[c]}. symmetry. apply Permutation_singleton_r. rewrite (rn_sort R). now rewrite elements_singleton. }
    assert (HlF : forall f, f ∈ l -> f = c \/ f ∈ F).
    { intros f H. apply Hl in H. destruct H as [H|H]; [auto|right]. unfold fixup_commits. rewrite all_values_spec.
      exists c. now apply (rn_fix R). }
    clearbody l. eexists. split; [reflexivity|].
    intros ND es1 H. rewrite exec_cons in H. apply ebind_ok in H. destruct H as (es0 & H & H').
    unfold exec_commands in H'. cbn in H'. injection H' as <-. cbn [exec_command] in H.
    assert (Hc : c ∉ replayed (bs_acc s)) by (eapply NewDup; [|exact ND]; reflexivity).
    unfold exec_pick in H. destruct (es_store es !! es_current es) as [qx|] eqn:Eqx; [|discriminate].
    destruct (es_store es !! c) as [orig|] eqn:Eorig; [|discriminate]. destruct (negb (ee_decodes ee (ob_message orig))); [discriminate|].
    apply ebind_ok in H. destruct H as ([st1 o1] & Eap & H). cbn [fst snd] in H. destruct o1 as [o|]; [|discriminate].
    apply apply_all_none in Eap; [|exact (rn_names R)|exact (j_named _ _ HJ)].
    destruct Eap as (S1 & N1 & x & Hx & Ex). rewrite Ex in H. destruct (squashes_shape _ _ _ _ _ Hx) as [Px _].
    unfold commit_is_empty in H. rewrite Px in H. unfold find_object in H.
    assert (Eqx' : st1 !! es_current es = Some qx) by (eapply lookup_weaken; eauto).
    assert (Eorig' : st1 !! c = Some orig) by (eapply lookup_weaken; eauto).
    rewrite Eqx' in H. destruct (N.eqb_spec (commit_tree (ob_commit x)) (commit_tree (ob_commit qx))) as [Et|Et]; injection H as <-.
    + set (rw' := <[c := Zero]> (es_rewritten es)).
      assert (Hrw : forall c', c' <> c -> c' ∉ F -> rw' !! c' = es_rewritten es !! c').
      { intros c' Ne _. apply lookup_insert_ne. congruence. }
      assert (K : keeps (es_rewritten es) rw').
      { intros c' v Nf Hv. rewrite Hrw; auto. intros ->. destruct (j_rw _ _ HJ _ _ Hv); auto. }
      assert (Hat' : at_ rw' p (es_current es)) by (eapply at_mono; eauto).
      assert (Hz : rw' !! c = Some Zero) by apply lookup_insert.
      assert (Hatc : at_ rw' c (es_current es)) by (eapply at_skip; eauto).
      edestruct (J_replay s es c [Pick c l; DetectEmpty c] st1 (es_current es) rw'
        (skip_head ee c (es_current es) (es_skipped_head es))) as [A B]; eauto.
      * intros _. eapply fate_skipped; eauto. right. split; [assumption|]. exists orig, qx, l, x. split_and!; auto; apply Hl.
      * intros f n Hff Hn. left. destruct (decide (f = c)) as [->|Ne]; [contradiction|].
        unfold rw' in Hn. now rewrite lookup_insert_ne in Hn by congruence.
      * intros f Hff. left. apply lookup_insert_ne. intros ->. contradiction.
      * intros f n _ _. congruence.
    + set (rw' := fold_left _ l _).
      assert (Look : forall c', rw' !! c' = if decide (c' ∈ l) then Some (NonZero o) else es_rewritten es !! c').
      { intros c'. unfold rw'. rewrite insert_all_lookup. destruct (decide (c' ∈ l)) as [|Nl']; [reflexivity|].
        apply lookup_insert_ne. intros <-. apply Nl', Hl. auto. }
      assert (Hrw : forall c', c' <> c -> c' ∉ F -> rw' !! c' = es_rewritten es !! c').
      { intros c' Ne Nf. rewrite Look. destruct (decide _) as [Hin|]; [|reflexivity]. destruct (HlF _ Hin); contradiction. }
      assert (K : keeps (es_rewritten es) rw').
      { intros c' v Nf Hv. rewrite Hrw; auto. intros ->. destruct (j_rw _ _ HJ _ _ Hv); auto. }
      assert (Hat' : at_ rw' p (es_current es)) by (eapply at_mono; eauto).
      assert (Hz : rw' !! c = Some (NonZero o)) by (rewrite Look, decide_True; [reflexivity|apply Hl; auto]).
      edestruct (J_replay s es c [Pick c l; DetectEmpty c] st1 (es_current es) rw' (es_skipped_head es)) as [A B]; eauto.
      * intros _. eapply (fate_picked _ _ _ _ _ _ _ _ p (es_current es) o orig l x qx); eauto.
      * left. split; [reflexivity|]. intros _. congruence.
      * intros f n Hff Hn. rewrite Look in Hn. destruct (decide (f ∈ l)) as [Hin|]; [|auto]. injection Hn as <-.
        right. split_and!; auto. apply Hl in Hin. destruct Hin as [->|Hin]; [contradiction|exact Hin].
      * intros f Hff. rewrite Look. destruct (decide (f ∈ l)) as [Hin|]; [|auto]. apply Hl in Hin.
        destruct Hin as [->|Hin]; [contradiction|auto].
      * intros f n Hff _ _ Hn. rewrite Look, decide_True by (apply Hl; auto). congruence.
      * split_and!; [exact A|exact B|]. intros _. now apply at_new.
Qed.

(** Parts of the traversal, with what holds before and after. *)
Definition steps (P : build_state -> exec_state -> Prop) (s s' : build_state)
  (Q : build_state -> exec_state -> Prop) : Prop :=
  exists cmds, bs_acc s' = bs_acc s ++ cmds /\
    (NoDup (replayed (bs_acc s')) -> forall es es', J s es -> P s es -> exec_commands ee cmds es = Ok es' ->
       J s' es' /\ G s es s' es' /\ Q s' es').

Lemma steps_trans P Q T s s1 s2 : steps P s s1 Q -> steps Q s1 s2 T -> steps P s s2 T.
Proof.
  intros (c1 & E1 & H1) (c2 & E2 & H2). exists (c1 ++ c2). split; [now rewrite E2, E1, app_assoc|].
  intros ND es es2 HJ HP Hx. rewrite exec_app in Hx. apply ebind_ok in Hx. destruct Hx as (es1 & X1 & X2).
  assert (ND1 : NoDup (replayed (bs_acc s1))).
  { rewrite E2, replayed_app in ND. apply NoDup_app in ND. tauto. }
  destruct (H1 ND1 es es1 HJ HP X1) as (A & B & C). destruct (H2 ND es1 es2 A C X2) as (A2 & B2 & C2).
  split_and!; auto. eapply G_trans; eauto.
Qed.
Lemma steps_nil (P Q : build_state -> exec_state -> Prop) s : (forall es, P s es -> Q s es) -> steps P s s Q.
Proof.
  intros H. exists []. split; [now rewrite app_nil_r|]. intros _ es es' HJ HP [= <-]. split_and!; auto. apply G_refl.
Qed.
Lemma steps_weaken (P P' Q Q' : build_state -> exec_state -> Prop) s s' :
  (forall es, P' s es -> P s es) -> (forall es es', P' s es -> G s es s' es' -> Q s' es' -> Q' s' es') ->
  steps P s s' Q -> steps P' s s' Q'.
Proof.
  intros HP HQ (c & E1 & H). exists c. split; [exact E1|]. intros ND es es' HJ HP' Hx.
  destruct (H ND es es' HJ (HP _ HP') Hx) as (A & B & C). split_and!; eauto.
Qed.

(** At the place of [c], which has a label when needed. *)
Definition here (c : oid) (b : bool) (s : build_state) (es : exec_state) : Prop :=
  (c ∉ F -> at_ (es_rewritten es) c (es_current es)) /\ (b = true -> is_Some (bs_labels s !! c)).
(** [l] is a label for the place of [c]. *)
Definition marked (c : oid) (b : bool) (l : string) (s : build_state) (es : exec_state) : Prop :=
  (exists o, es_labels es !! l = Some o /\ (c ∉ F -> at_ (es_rewritten es) c o)) /\ (b = true -> is_Some (bs_labels s !! c)).
Lemma marked_mono c b l s es s' es' : G s es s' es' -> marked c b l s es -> marked c b l s' es'.
Proof.
  intros [G1 G2 G3 G4] [(o & A & B) C]. split; [|auto]. exists o. split; [|intros Nf; eapply at_mono; eauto].
  now apply (lookup_weaken (es_labels es)).
Qed.

Lemma kids_exec fuel r c b l (kids : list (oid * commit)) :
  (forall k s s', k ∈ kids -> visit fuel e cg r (fst k) (snd k) s = Done s' -> steps (here c b) s s' (fun _ _ => True)) ->
  forall s s',
  fold_left (fun acc k => bind acc (fun s =>
      bind (visit fuel e cg r (fst k) (snd k) s) (fun s => Done (push [Reset_ (AtLabel l)] s)))) kids (Done s) = Done s' ->
  steps (fun s es => here c b s es /\ marked c b l s es) s s' (fun _ _ => True).
Proof.
  induction kids as [|k kids IH]; intros Hk s s' Hv; cbn in Hv.
  - injection Hv as <-. now apply steps_nil.
  - destruct (visit fuel e cg r (fst k) (snd k) s) as [s1| |] eqn:E1; cbn in Hv.
    2:{ exfalso. destruct (fold_bind_stuck (fun k s => bind (visit fuel e cg r (fst k) (snd k) s)
          (fun s => Done (push [Reset_ (AtLabel l)] s))) kids s') as [N _]. now apply N. }
    2:{ exfalso. destruct (fold_bind_stuck (fun k s => bind (visit fuel e cg r (fst k) (snd k) s)
          (fun s => Done (push [Reset_ (AtLabel l)] s))) kids s') as [_ N]. now apply N. }
    apply (steps_trans _ (marked c b l) _ _ s1).
    { eapply steps_weaken; [| |apply (Hk k); [now left|exact E1]]; cbn; [tauto|].
      intros es es' [_ M] HG _. eapply marked_mono; eauto. }
    eapply steps_trans; [|apply IH; [intros k' s0 s0' H; apply Hk; now right|exact Hv]].
    exists [Reset_ (AtLabel l)]. split; [reflexivity|]. intros _ es es' HJ M Hx.
    destruct M as [(o & A & B) C]. unfold exec_commands in Hx. cbn in Hx. rewrite A in Hx. injection Hx as <-.
    destruct (J_move s1 es [Reset_ (AtLabel l)] o HJ eq_refl) as [HJ' HG']. split_and!; auto.
    + split; cbn; auto.
    + split; cbn; eauto.
Qed.

Lemma visit_exec fuel r : forall c cm s s',
  visit fuel e cg r c cm s = Done s' -> node c -> pe_find e c = Some cm ->
  steps (placed_at c) s s' (fun _ _ => True).
Proof.
  induction fuel as [|fuel IH]; intros c cm s s' Hv Nc Hf; [discriminate|].
  cbn [visit] in Hv. destruct (apply_commit e cg r c cm s) as [[s1|]| |] eqn:Ea; cbn [bind] in Hv; try discriminate.
  2:{ injection Hv as <-. now apply steps_nil. }
  apply (steps_trans _ (fun s es => c ∉ F -> at_ (es_rewritten es) c (es_current es)) _ _ s1).
  { destruct (apply_commit_push e cg _ _ _ _ _ Ea) as (cmds & E1 & _). exists cmds. split; [now rewrite E1|].
    intros ND es es' HJ HP Hx. destruct (apply_exec _ _ _ _ _ _ Ea Nc Hf HJ HP) as (cmds' & E2 & H).
    assert (cmds' = cmds) as ->. { rewrite E1 in E2. unfold push in E2. injection E2 as E2. now apply app_inv_head in E2. }
    eauto. }
  destruct (find_all (pe_find e) _) as [kids|] eqn:Ek; [|discriminate].
  assert (Hkids : forall k, k ∈ kids -> E c (fst k) /\ pe_find e (fst k) = Some (snd k)).
  { intros [k kc] Hk. unfold find_all in Ek. apply all_some_spec in Ek.
    assert (Hin : Some (k, kc) ∈ List.map Some kids) by (apply elem_of_list_In, in_map, elem_of_list_In; exact Hk).
    rewrite <- Ek in Hin. apply elem_of_list_In, in_map_iff in Hin. destruct Hin as (o & Eo & Ho).
    destruct (pe_find e o) as [oc|] eqn:Fo; [|discriminate]. injection Eo as -> ->. cbn. split; [|exact Fo].
    apply elem_of_list_In, sorted_oids_spec in Ho. exact Ho. }
  clear Ek. destruct kids as [|k0 kids0].
  { cbn in Hv. injection Hv as <-. now apply steps_nil. }
  remember (k0 :: kids0) as kids eqn:Ekids.
  assert (Hkid : forall k s s', k ∈ kids -> visit fuel e cg r (fst k) (snd k) s = Done s' ->
            steps (here c (needs_label e kids)) s s' (fun _ _ => True)).
  { intros k sa sb Hk Hvk. destruct (Hkids k Hk) as [HE Hfk].
    eapply steps_weaken; [| |apply (IH _ _ _ _ Hvk); [left; eapply edge_moved; exact HE|exact Hfk]]; [|auto].
    intros es [A B] _ Nk. pose proof (rn_edge R _ _ HE) as Hon. exists c. split_and!; [exact Hon|exact (A (rn_clear R _ _ Hon Nk))|]. intros Hr _. apply B.
    unfold needs_label. apply existsb_exists. exists k. split; [now apply elem_of_list_In|].
    apply orb_true_iff. right. now apply bool_decide_eq_true. }
  destruct (if needs_label e kids then _ else _) as [s2| |] eqn:E2; cbn [bind] in Hv; try discriminate.
  apply (steps_trans _ (here c (needs_label e kids)) _ _ s2).
  { destruct (needs_label e kids).
    - destruct (create_label "parent-" s1) as [x| |] eqn:Ex; cbn in E2; try discriminate. injection E2 as <-.
      destruct (create_label_total "parent-" s1) as (l & _ & El). rewrite El in Ex. injection Ex as Ex.
      exists [CreateLabel l]. split; [now rewrite <- Ex|]. intros _ es es' HJ HP Hx.
      destruct (J_label "parent-" s1 es (l, snd x) es' HJ) as (E3 & _ & _ & _ & H); [rewrite El, <- Ex; reflexivity|exact Hx|].
      destruct (H c HP) as [A B]. rewrite <- Ex in *. cbn [fst snd] in *. split_and!; auto.
      split; [now rewrite E3|]. cbn. intros _. rewrite lookup_insert. eauto.
    - injection E2 as <-. apply steps_nil. intros es H. split; [auto|discriminate]. }
  destruct kids0 as [|k2 kids0]; rewrite Ekids in *.
  - apply Hkid in Hv; [exact Hv|now left].
  - destruct (create_label_total "label-" s2) as (l & _ & El). rewrite El in Hv. cbn [bind fst snd] in Hv.
    eapply steps_trans; [|eapply kids_exec; [exact Hkid|exact Hv]].
    exists [CreateLabel l]. split; [reflexivity|]. intros _ es es' HJ [HP1 HP2] Hx.
    destruct (J_label "label-" s2 es _ es' HJ El Hx) as (E3 & _ & A & B & _). cbn [fst snd] in *. split_and!; auto.
    + split; rewrite ?E3; cbn; auto.
    + split; rewrite ?E3; cbn; auto. exists (es_current es). split; [apply lookup_insert|exact HP1].
Qed.

(** ** Roots *)
Lemma root_exec r s s' : r ∈ find_roots cg -> plan_root e cg r s = Done s' -> steps (fun _ _ => True) s s' (fun _ _ => True).
Proof.
  intros Hr. unfold plan_root. destruct (root_dest e r) as [p|] eqn:Ed; [|discriminate].
  destruct (pe_find e (root_commit r)) as [cm|] eqn:Ef; [|discriminate]. intros Hv.
  pose proof (root_node cg r Hr) as Nc.
  eapply steps_trans; [|eapply visit_exec; [exact Hv|exact Nc|exact Ef]].
  assert (Hon : on p (root_commit r) /\ ~ node p).
  { assert (Hin : root_edge r ∈ List.map root_edge (find_roots cg)).
    { apply elem_of_list_In, in_map, elem_of_list_In. exact Hr. }
    destruct r as [p' c|t]; cbn in *; apply find_roots_spec in Hin; destruct Hin as [Hin Hn].
    - injection Ed as <-. split; [now apply (rn_edge R)|auto].
    - destruct Hin as [A B]. apply (rn_root R); auto. }
  destruct Hon as [Hon Np].
  exists [Reset_ (AtOid p)]. split; [reflexivity|]. intros _ es es' HJ _ Hx.
  unfold exec_commands in Hx. cbn in Hx. injection Hx as <-.
  destruct (J_move s es [Reset_ (AtOid p)]
    (match es_rewritten es !! p with Some (NonZero n) => n | _ => p end) HJ eq_refl) as [A B].
  split_and!; [exact A|exact B|]. intros _ Nf. pose proof (rn_clear R _ _ Hon Nf) as NF. exists p. split_and!; [exact Hon| |tauto]. cbn.
  destruct (es_rewritten es !! p) as [v|] eqn:Ev; [|now apply at_kept].
  exfalso. destruct (j_rw _ _ HJ _ _ Ev) as [H|H]; [|auto]. apply Np. exact (j_node _ _ HJ _ H).
Qed.

Lemma commands_exec s : build_commands e cg = Done s -> NoDup (replayed (bs_acc s)) ->
  forall st dest es, named ee st -> exec_commands ee (bs_acc s) (mk_es st dest ∅ ∅ None) = Ok es ->
  J s es /\ st ⊆ es_store es.
Proof.
  intros Hb ND st dest es Hn Hx.
  assert (H : steps (fun _ _ => True) (mk_bs ∅ ∅ []) s (fun _ _ => True)).
  { revert Hb. unfold build_commands. generalize (mk_bs ∅ ∅ []).
    assert (Sub : forall r, r ∈ find_roots cg -> r ∈ find_roots cg) by auto. revert Sub.
    generalize (find_roots cg) at 1 3. intros rs. induction rs as [|r rs IH]; intros Sub b; cbn.
    - intros [= <-]. now apply steps_nil.
    - destruct (plan_root e cg r b) as [b1| |] eqn:E1; cbn.
      + intros H. eapply steps_trans; [apply (root_exec r); [apply Sub; now left|exact E1]|]. apply IH; [|exact H].
        intros r' Hr'. apply Sub. now right.
      + intros H. exfalso. destruct (fold_bind_stuck (plan_root e cg) rs s) as [N _]. now apply N.
      + intros H. exfalso. destruct (fold_bind_stuck (plan_root e cg) rs s) as [_ N]. now apply N. }
  destruct H as (cmds & E1 & H). cbn in E1. subst cmds.
  assert (J0 : J (mk_bs ∅ ∅ []) (mk_es st dest ∅ ∅ None)).
  { constructor; cbn; auto; try (intros; now rewrite lookup_empty in *); try (intros c Hc; now apply elem_of_nil in Hc);
      try discriminate.
    intros l [? H']. now rewrite lookup_empty in H'. }
  destruct (H ND _ _ J0 I Hx) as (A & B & _). split; [exact A|]. apply B.
Qed.
End run.
