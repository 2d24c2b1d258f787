(** What an on-disk rebase makes of the commits, along the traversal that plans it. *)
From stdpp Require Import sorting relations.
From Verif Require Import Base TextModel TextProofs EventLogModel DagModel DagSpec DagProofs StrModel StrProofs HookModel HookSpec HookProofs
  PlanModel PlanSpec PlanProofs PlanCycleProofs PlanDfsProofs PlanLabelProofs PlanBuildProofs ExecModel ExecSpec ExecProofs ExecBuildProofs
  ExecDiskProofs SeqModel SeqSpec SeqProofs.
Local Open Scope string_scope.
Local Open Scope list_scope.
Local Arguments oid_to_string _ : simpl never.
Local Arguments oid_from_string _ : simpl never.

Section disk.
Context (d : dag) (cs : list constraint) (e : plan_env) (v : git_env) (cg : constraint_graph) (st0 : store).
Notation ee := (ge_exec v).
Notation g := (dag_graph d).
Notation E := (edge (cg_inner cg)).
Notation on := (rebuilt_on d cs).
Notation node := (node cg).
Notation at_ := (at_ d cs cg).
Notation keeps := (keeps cg).
Context (R : runnable d cs e ee cg) (NF : forall c, c ∉ fixup_commits cg) (Rep : pe_replace e = ∅).
Context (Iter : forall m, ge_iter v m ≡ₚ map_to_list m) (Fresh : fresh_names ee st0).
Context (In0 : forall c, node c -> is_Some (st0 !! c))
  (On0 : forall p c, on p c -> is_Some (st0 !! p)).

Notation fates rw := (disk_fate_with (at_ rw) d cs e v rw).
Notation heads gs := (hs_head (gs_hooks gs)).
Definition okay (gs : git_state) : Prop := forall o, is_Some (gs_store gs !! o) -> oid_ok o.

Record J (s : build_state) (gs : git_state) (l : list (oid * moid)) : Prop := {
  j_named : named ee (gs_store gs);
  j_sub : st0 ⊆ gs_store gs;
  j_file : listed (hs_rewritten (gs_hooks gs)) l;
  j_ok : Forall entry_ok l;
  j_keys : NoDup (map fst l);
  j_rw : forall c x, collect_map l !! c = Some x -> c ∈ replayed (bs_acc s) \/ x = Zero /\ st0 !! c = None;
  j_node : forall c, c ∈ replayed (bs_acc s) -> node c;
  j_fate : forall c, c ∈ replayed (bs_acc s) -> fates (collect_map l) (gs_store gs) c;
  j_labels : forall q lb, bs_labels s !! q = Some lb -> exists o, gs_labels gs !! lb = Some o /\ at_ (collect_map l) q o;
  j_used : forall lb, is_Some (gs_labels gs !! lb) -> lb ∈ bs_used s /\ dashed lb;
  j_orig : hs_orig_head (gs_hooks gs) = ee_head ee;
  j_rebase : hs_rebase (gs_hooks gs) = true;
  j_skip : forall t, hs_updated_head (gs_hooks gs) = Some t -> exists h q, ee_head ee = Some h /\ h ∈ replayed (bs_acc s) /\
    t = oid_to_string q /\ at_ (collect_map l) h q;
  j_head : forall h, ee_head ee = Some h -> h ∈ replayed (bs_acc s) -> collect_map l !! h = Some Zero ->
    exists q, hs_updated_head (gs_hooks gs) = Some (oid_to_string q) /\ at_ (collect_map l) h q }.

Record G (s : build_state) (gs : git_state) (l : list (oid * moid)) (s' : build_state) (gs' : git_state) (l' : list (oid * moid)) : Prop := {
  g_store : gs_store gs ⊆ gs_store gs';
  g_rw : keeps (collect_map l) (collect_map l');
  g_labels : gs_labels gs ⊆ gs_labels gs';
  g_name : gs_name gs' = gs_name gs;
  g_extra : gs_extra gs' = gs_extra gs;
  g_log : hs_log (gs_hooks gs') = hs_log (gs_hooks gs) }.
Lemma G_refl s gs l : G s gs l s gs l.
Proof. constructor; auto. now intros c x. Qed.
Lemma G_trans s1 g1 l1 s2 g2 l2 s3 g3 l3 : G s1 g1 l1 s2 g2 l2 -> G s2 g2 l2 s3 g3 l3 -> G s1 g1 l1 s3 g3 l3.
Proof.
  intros [A1 A2 A3 A4 A5 A6] [B1 B2 B3 B4 B5 B6]. constructor; [etrans; eauto| |etrans; eauto|congruence..].
  intros c x Hf H. apply B2, A2; auto.
Qed.

(** An instruction that replays [c]. *)
Lemma J_replay s gs l c cmds gs' l' :
  J s gs l -> node c -> replayed cmds = [c] -> c ∉ replayed (bs_acc s) ->
  gs_store gs ⊆ gs_store gs' -> named ee (gs_store gs') ->
  listed (hs_rewritten (gs_hooks gs')) l' -> Forall entry_ok l' -> NoDup (map fst l') ->
  (forall c', c' <> c -> collect_map l' !! c' = collect_map l !! c' \/
     st0 !! c' = None /\ collect_map l' !! c' = Some Zero) ->
  fates (collect_map l') (gs_store gs') c ->
  gs_labels gs' = gs_labels gs -> gs_name gs' = gs_name gs -> gs_extra gs' = gs_extra gs ->
  hs_orig_head (gs_hooks gs') = hs_orig_head (gs_hooks gs) -> hs_rebase (gs_hooks gs') = true ->
  hs_log (gs_hooks gs') = hs_log (gs_hooks gs) ->
  (hs_updated_head (gs_hooks gs') = hs_updated_head (gs_hooks gs) /\ (ee_head ee = Some c -> collect_map l' !! c <> Some Zero) \/
   ee_head ee = Some c /\ exists q, hs_updated_head (gs_hooks gs') = Some (oid_to_string q) /\ at_ (collect_map l') c q) ->
  J (push cmds s) gs' l' /\ G s gs l (push cmds s) gs' l'.
Proof.
  intros HJ Nc Ec Hc Hst Hn Hl Hok Hnd Hrw Hfate El En Ee Eo Er Elog Hup.
  assert (K : keeps (collect_map l) (collect_map l')).
  { intros c' x _ Hx. destruct (decide (c' = c)) as [->|Ne].
    - destruct (j_rw _ _ _ HJ _ _ Hx) as [H|[_ H]]; [contradiction|]. destruct (In0 c Nc) as [y Hy]. congruence.
    - destruct (Hrw c' Ne) as [->|[H0 H]]; [exact Hx|]. rewrite H. f_equal.
      destruct (j_rw _ _ _ HJ _ _ Hx) as [H'|[-> _]]; [|reflexivity]. apply (j_node _ _ _ HJ) in H'.
      destruct (In0 c' H') as [y Hy]. congruence. }
  assert (M : forall p q, at_ (collect_map l) p q -> at_ (collect_map l') p q) by (intros; eapply at_mono; eauto).
  assert (Rp : replayed (bs_acc (push cmds s)) = replayed (bs_acc s) ++ [c]).
  { unfold push. cbn. now rewrite replayed_app, Ec. }
  assert (Same : forall c', c' ∈ replayed (bs_acc s) -> collect_map l' !! c' = collect_map l !! c').
  { intros c' H. destruct (Hrw c') as [A|[A _]]; [intros ->; contradiction|exact A|].
    apply (j_node _ _ _ HJ) in H. destruct (In0 c' H) as [y Hy]. congruence. }
  split; [|constructor; cbn; auto; now rewrite El].
  constructor; rewrite ?Rp; auto.
  - etrans; [exact (j_sub _ _ _ HJ)|exact Hst].
  - intros c' x Hx. rewrite elem_of_app, elem_of_list_singleton. destruct (decide (c' = c)) as [->|Ne]; [auto|].
    destruct (Hrw c' Ne) as [H|[H0 H]].
    + rewrite H in Hx. destruct (j_rw _ _ _ HJ _ _ Hx); auto.
    + right. split; congruence.
  - intros c'. rewrite elem_of_app, elem_of_list_singleton. intros [H| ->]; auto. now apply (j_node _ _ _ HJ).
  - intros c'. rewrite elem_of_app, elem_of_list_singleton. intros [H| ->]; [|exact Hfate].
    eapply disk_fate_mono; [exact M| |exact Hst|now apply (j_fate _ _ _ HJ)]. auto.
  - intros q lb Hq. rewrite El. destruct (j_labels _ _ _ HJ q lb Hq) as (o & A & B). eauto.
  - rewrite El. exact (j_used _ _ _ HJ).
  - rewrite Eo. exact (j_orig _ _ _ HJ).
  - intros t Ht. destruct Hup as [[Hup _]|[Hh (q & Hq & Hat)]].
    + rewrite Hup in Ht. destruct (j_skip _ _ _ HJ t Ht) as (h & q & A & B & C & D). exists h, q. split_and!; auto. apply elem_of_app. auto.
    + exists c, q. split_and!; auto; [|congruence]. apply elem_of_app. right. now left.
  - intros h Hh. rewrite elem_of_app, elem_of_list_singleton. intros Hin Hz. destruct (decide (h = c)) as [->|Ne].
    + destruct Hup as [[_ Hup]|[_ Hup]]; [exfalso; now apply Hup|exact Hup].
    + destruct Hin as [Hin|Hin]; [|contradiction]. rewrite (Same h Hin) in Hz.
      destruct (j_head _ _ _ HJ h Hh Hin Hz) as (q & A & B). exists q. split; [|auto].
      destruct Hup as [[Hup _]|[Hh' _]]; congruence.
Qed.

(** An instruction that only moves. *)
Lemma J_move s gs l cmds o : J s gs l -> replayed cmds = [] ->
  J (push cmds s) (move_head o gs) l /\ G s gs l (push cmds s) (move_head o gs) l.
Proof.
  intros HJ Ec.
  assert (Rp : replayed (bs_acc (push cmds s)) = replayed (bs_acc s)).
  { unfold push. cbn. now rewrite replayed_app, Ec, app_nil_r. }
  split; [|constructor; cbn; auto; now intros c x]. destruct HJ. constructor; rewrite ?Rp; auto.
Qed.

(** A new label for the current place. *)
Lemma J_label prefix s gs l x gs' : dashed prefix -> J s gs l -> create_label prefix s = Done x ->
  run_words v [instruction (CreateLabel (fst x))] gs = Went gs' ->
  exists h, heads gs = Some h /\
  gs' = mk_gs (gs_store gs) (<[fst x := h]> (gs_labels gs)) (gs_name gs) (gs_extra gs) (gs_hooks gs) /\
  bs_acc (snd x) = bs_acc s ++ [CreateLabel (fst x)] /\ J (snd x) gs' l /\ G s gs l (snd x) gs' l /\
  forall c, at_ (collect_map l) c h ->
    J (mk_bs (bs_used (snd x)) (<[c := fst x]> (bs_labels (snd x))) (bs_acc (snd x))) gs' l /\
    G s gs l (mk_bs (bs_used (snd x)) (<[c := fst x]> (bs_labels (snd x))) (bs_acc (snd x))) gs' l.
Proof.
  intros Hd HJ Ex H. pose proof (create_label_dashed _ _ _ Hd Ex) as Dx.
  destruct (create_label_total prefix s) as (lb & Hl & El).
  rewrite El in Ex. injection Ex as <-. cbn [fst snd bs_used bs_labels bs_acc] in *.
  rewrite run_one in H. unfold seq_words in H. cbn in H. destruct (heads gs) as [h|] eqn:Eh; [|discriminate].
  injection H as <-. exists h. split; [reflexivity|].
  destruct HJ as [J1 J2 J3 J4 J5 J6 J7 J8 J9 J10 J11 J12 J13 J14].
  assert (Fr : gs_labels gs !! lb = None).
  { destruct (gs_labels gs !! lb) eqn:E0; [|reflexivity]. exfalso. apply Hl, (J10 lb). eauto. }
  assert (Rp : replayed (bs_acc s ++ [CreateLabel lb]) = replayed (bs_acc s)) by (rewrite replayed_app; cbn; now rewrite app_nil_r).
  assert (Ks : gs_labels gs ⊆ <[lb := h]> (gs_labels gs)) by now apply insert_subseteq.
  assert (U : forall l', is_Some (<[lb := h]> (gs_labels gs) !! l') -> l' ∈ {[lb]} ∪ bs_used s /\ dashed l').
  { intros l' Hl'. destruct (decide (l' = lb)) as [->|Ne]; [split; [set_solver|exact Dx]|]. rewrite lookup_insert_ne in Hl' by congruence.
    apply J10 in Hl'. set_solver. }
  assert (L : forall q l', bs_labels s !! q = Some l' ->
     exists o, <[lb := h]> (gs_labels gs) !! l' = Some o /\ at_ (collect_map l) q o).
  { intros q l' Hq. destruct (J9 q l' Hq) as (o & A & B). exists o. split; [|exact B]. now apply (lookup_weaken (gs_labels gs)). }
  split_and!; [reflexivity|reflexivity| | |].
  - constructor; cbn [gs_store gs_labels gs_hooks bs_acc bs_used bs_labels]; rewrite ?Rp; auto.
  - constructor; cbn; auto. now intros c x.
  - intros c Hc. split.
    + constructor; cbn [gs_store gs_labels gs_hooks bs_acc bs_used bs_labels]; rewrite ?Rp; auto.
      intros q l'. destruct (decide (q = c)) as [->|Ne].
      * rewrite lookup_insert. intros [= <-]. exists h. split; [apply lookup_insert|auto].
      * rewrite lookup_insert_ne by congruence. now apply L.
    + constructor; cbn; auto. now intros c' x.
Qed.

(** Where a commit is replayed. *)
Definition placed_at (c : oid) (gs : git_state) (l : list (oid * moid)) : Prop :=
  ~ merge_commit g c -> exists p h, on p c /\ heads gs = Some h /\ at_ (collect_map l) p h.
(** Git is at the place of [c]. *)
Definition here (c : oid) (gs : git_state) (l : list (oid * moid)) : Prop :=
  exists h, heads gs = Some h /\ at_ (collect_map l) c h.

Lemma stays rw p : ~ node p -> at_ rw p p.
Proof. intros N. apply at_kept; auto. Qed.

Lemma node_ok c gs : node c -> st0 ⊆ gs_store gs -> okay gs -> oid_ok c.
Proof. intros Nc S O. destruct (In0 c Nc) as [x Hx]. apply O. exists x. now apply (lookup_weaken st0). Qed.

Lemma place_found s gs l p t : J s gs l -> okay gs -> is_Some (st0 !! p) -> ~ node p -> lookup_place gs (oid_to_string p) = Some t -> t = p.
Proof.
  intros HJ O Hp Np. unfold lookup_place. destruct (gs_labels gs !! oid_to_string p) as [o|] eqn:El.
  - exfalso. destruct (j_used _ _ _ HJ (oid_to_string p)) as [_ D]; [eauto|]. now apply (dashed_oid _ p D).
  - rewrite nzoid_text_round_trip; [destruct (decide _); [now intros [= <-]|discriminate]|].
    apply O. destruct Hp as [x Hx]. exists x. apply (lookup_weaken st0); [exact Hx|exact (j_sub _ _ _ HJ)].
Qed.

Lemma make_named orig ps t gs : named ee (gs_store gs) -> let gs' := make_commit v orig ps t gs in
  exists n, heads gs' = Some n /\ n = ee_hash ee (remade ee orig ps t) /\ named ee (gs_store gs') /\ gs_store gs' !! n = Some (remade ee orig ps t) /\
    gs_labels gs' = gs_labels gs /\ gs_name gs' = gs_name gs /\ gs_extra gs' = gs_extra gs /\
    hs_rewritten (gs_hooks gs') = hs_rewritten (gs_hooks gs) /\ hs_orig_head (gs_hooks gs') = hs_orig_head (gs_hooks gs) /\
    hs_updated_head (gs_hooks gs') = hs_updated_head (gs_hooks gs) /\ hs_rebase (gs_hooks gs') = hs_rebase (gs_hooks gs) /\
    (hs_rebase (gs_hooks gs) = true -> hs_log (gs_hooks gs') = hs_log (gs_hooks gs)).
Proof.
  intros N. cbn zeta. unfold make_commit. fold (remade ee orig ps t).
  destruct (add_object ee (remade ee orig ps t) (gs_store gs)) as [n st] eqn:Eo.
  apply add_object_spec in Eo; [|exact (rn_names _ _ _ _ _ R)|exact N]. destruct Eo as (-> & S1 & N1 & L1).
  exists (ee_hash ee (remade ee orig ps t)). unfold hook_post_commit. cbn.
  destruct (hs_rebase (gs_hooks gs)) eqn:Er; cbn; rewrite ?Er; split_and!; auto; discriminate.
Qed.

Lemma note_facts c n gs : heads gs = Some n -> let gs' := note_rewritten c gs in
  heads gs' = Some n /\ gs_store gs' = gs_store gs /\ gs_labels gs' = gs_labels gs /\ gs_name gs' = gs_name gs /\ gs_extra gs' = gs_extra gs /\
  hs_orig_head (gs_hooks gs') = hs_orig_head (gs_hooks gs) /\ hs_updated_head (gs_hooks gs') = hs_updated_head (gs_hooks gs) /\
  hs_rebase (gs_hooks gs') = hs_rebase (gs_hooks gs) /\ hs_log (gs_hooks gs') = hs_log (gs_hooks gs).
Proof. intros H. cbn zeta. unfold note_rewritten. rewrite H. cbn. auto 10. Qed.

Lemma not_yet s gs l c : J s gs l -> node c -> c ∉ replayed (bs_acc s) -> c ∉ map fst l.
Proof.
  intros HJ Nc Hc Hin. apply elem_of_list_fmap in Hin. destruct Hin as ([c' x] & -> & Hin). cbn in *.
  apply collect_in in Hin; [|exact (j_keys _ _ _ HJ)]. destruct (j_rw _ _ _ HJ _ _ Hin) as [H|[_ H]]; [auto|].
  destruct (In0 _ Nc) as [y Hy]. congruence.
Qed.

(** One more line in the list. *)
Lemma J_noted s gs l c n : J s gs l -> node c -> c ∉ replayed (bs_acc s) -> oid_ok c -> oid_ok n ->
  Forall entry_ok (l ++ [(c, NonZero n)]) /\ NoDup (map fst (l ++ [(c, NonZero n)])) /\
  collect_map (l ++ [(c, NonZero n)]) !! c = Some (NonZero n) /\
  (forall c', c' <> c -> collect_map (l ++ [(c, NonZero n)]) !! c' = collect_map l !! c') /\
  forall p q, at_ (collect_map l) p q -> at_ (collect_map (l ++ [(c, NonZero n)])) p q.
Proof.
  intros HJ Nc Hc Oc On. pose proof (not_yet _ _ _ _ HJ Nc Hc) as Nk.
  assert (O1 : forall c', c' <> c -> collect_map (l ++ [(c, NonZero n)]) !! c' = collect_map l !! c').
  { intros c' Ne. rewrite collect_snoc. apply lookup_insert_ne. congruence. }
  split_and!.
  - apply Forall_app. split; [exact (j_ok _ _ _ HJ)|]. constructor; [|constructor]. split; cbn; auto.
  - rewrite map_app. apply NoDup_app. split_and!; [exact (j_keys _ _ _ HJ)| |apply NoDup_singleton].
    intros o Ho. cbn. rewrite elem_of_list_singleton. intros ->. contradiction.
  - rewrite collect_snoc. apply lookup_insert.
  - exact O1.
  - intros p q. apply at_mono. intros c' x _ Hx. rewrite O1; [exact Hx|]. intros ->. apply Nk, elem_of_list_fmap.
    apply collect_in in Hx; [|exact (j_keys _ _ _ HJ)]. exists (c, x). auto.
Qed.

Lemma apply_seq r c cm s s1 gs l :
  apply_commit e cg r c cm s = Done (Some s1) -> node c -> pe_find e c = Some cm -> J s gs l -> placed_at c gs l ->
  exists cmds, s1 = push cmds s /\
    (NoDup (replayed (bs_acc s1)) -> forall gs1, run_words v (List.map instruction cmds) gs = Went gs1 -> okay gs1 ->
       exists l1, J s1 gs1 l1 /\ G s gs l s1 gs1 l1 /\ here c gs1 l1).
Proof.
  intros Ha Nc Hf HJ Hp. pose proof (rn_merge _ _ _ _ _ R c cm Nc Hf) as Mg.
  assert (NewDup : forall cmds, replayed cmds = [c] -> NoDup (replayed (bs_acc (push cmds s))) -> c ∉ replayed (bs_acc s)).
  { intros cmds Ec. unfold push. cbn. rewrite replayed_app, Ec. intros N. apply NoDup_app in N. destruct N as (_ & N & _).
    intros H. apply (N c H). now left. }
  assert (Oc : forall gs1, gs_store gs ⊆ gs_store gs1 -> okay gs1 -> oid_ok c).
  { intros gs1 S O. eapply node_ok; [exact Nc| |exact O]. etrans; [exact (j_sub _ _ _ HJ)|exact S]. }
  revert Ha. unfold apply_commit. destruct (negb (is_merge cm) && pe_upstream e r c)%bool eqn:Eu.
  { intros [= <-]. exists [SkipUpstream c]. split; [reflexivity|]. intros ND gs1 Hr O1. cbn [List.map] in Hr. rewrite run_one in Hr.
    pose proof (seq_store _ _ _ _ Hr) as S1. specialize (Oc gs1 S1 O1).
    unfold seq_words in Hr. rewrite parse_skip in Hr by exact Oc. cbn [seq_line] in Hr.
    apply andb_true_iff in Eu. destruct Eu as [Em Eu]. apply negb_true_iff in Em.
    assert (Nm : ~ merge_commit g c) by (rewrite <- Mg; congruence). destruct (Hp Nm) as (p & h & Hon & Hh & Hat).
    assert (Hc : c ∉ replayed (bs_acc s)) by (eapply NewDup; [|exact ND]; reflexivity).
    unfold hook_skip_upstream_applied_commit in Hr. cbv zeta in Hr. rewrite Hh in Hr.
    destruct (add_rewritten_list_entries _ _ _) as [t|] eqn:Et; [|discriminate]. injection Hr as <-.
    apply (add_listed _ _ l) in Et; [|exact Iter|exact (j_file _ _ _ HJ)|exact (j_ok _ _ _ HJ)|exact (j_keys _ _ _ HJ)|].
    2:{ constructor; [|constructor]. split; [exact Oc|exact I]. }
    destruct Et as (l1 & -> & Ok1 & Nd1 & Hl1).
    assert (Hz : collect_map l1 !! c = Some Zero).
    { rewrite Hl1. unfold collect_map at 1. cbn. now rewrite lookup_insert. }
    assert (Hrw : forall c', c' <> c -> collect_map l1 !! c' = collect_map l !! c').
    { intros c' Ne. rewrite Hl1. unfold collect_map at 1. cbn. now rewrite lookup_insert_ne, lookup_empty by congruence. }
    assert (M : forall p q, at_ (collect_map l) p q -> at_ (collect_map l1) p q).
    { intros p' q'. apply at_mono. intros c' x _ Hx. rewrite Hrw; [exact Hx|]. intros ->.
      destruct (j_rw _ _ _ HJ _ _ Hx) as [H|[_ H]]; [contradiction|]. destruct (In0 c Nc) as [y Hy]. congruence. }
    assert (Hatc : at_ (collect_map l1) c h) by (eapply at_skip; eauto).
    exists l1. edestruct (J_replay s gs l c [SkipUpstream c]) as [A B];
      [exact HJ|exact Nc|reflexivity|exact Hc| | | | | | | | | | | | | | |split; [exact A|split; [exact B|]]]; cbn; auto.
    - exact (j_named _ _ _ HJ).
    - eapply (disk_skipped _ _ _ _ _ _ _ _ p h); eauto.
    - exact (j_rebase _ _ _ HJ).
    - rewrite (j_orig _ _ _ HJ). destruct (ee_head ee) as [oh|]; [|left; split; [reflexivity|discriminate]].
      destruct (N.eqb_spec oh c) as [->|Ne]; [right; eauto|]. left. split; [reflexivity|]. congruence.
    - exists h. auto. }
  destruct (is_merge cm) eqn:Em.
  { pose proof (proj1 Mg eq_refl) as M.
    destruct (merge_parents _ _ _) as [ts|] eqn:Ets; [|discriminate].
    destruct (already_applied _ _); [discriminate|]. destruct ts as [|first rest]; [discriminate|].
    rewrite Rep, lookup_empty. intros [= <-]. eexists. split; [reflexivity|]. intros ND gs1 Hr O1. cbn [List.map] in Hr.
    apply run_cons in Hr. destruct Hr as (gs0 & H0 & Hr). rewrite run_one in Hr.
    assert (Hc : c ∉ replayed (bs_acc s)) by (eapply NewDup; [|exact ND]; reflexivity).
    pose proof (seq_store _ _ _ _ H0) as S0. pose proof (seq_store _ _ _ _ Hr) as S1.
    assert (S01 : gs_store gs ⊆ gs_store gs1) by (etrans; eauto). specialize (Oc gs1 S01 O1).
    unfold seq_words in H0. cbn in H0. destruct (lookup_place gs (place_text first)) as [q0|] eqn:Eq0; [|discriminate].
    injection H0 as <-. destruct (J_move s gs l [Reset_ first] q0 HJ eq_refl) as [HJ0 HG0].
    unfold seq_words in Hr. rewrite parse_merge in Hr by exact Oc. cbn [seq_line] in Hr. unfold seq_merge in Hr.
    cbn [gs_hooks move_head with_hooks at_commit hs_head] in Hr.
    destruct (gs_store (move_head q0 gs) !! c) as [orig|] eqn:Eorig; [|discriminate].
    destruct (all_some _) as [tips|] eqn:Etips; [|discriminate].
    assert (Ook : forall gs', gs_store gs' = gs_store gs -> okay gs').
    { intros gs' Es o Ho. apply O1. destruct Ho as [x Hx]. exists x. apply (lookup_weaken (gs_store gs)); [now rewrite <- Es|exact S01]. }
    assert (Par : Forall2 (at_ (collect_map l)) (parents_of g c) (q0 :: tips)).
    { rewrite <- (rn_parents _ _ _ _ _ R c cm Nc Hf). unfold merge_parents in Ets. apply all_some_spec in Ets. apply all_some_spec in Etips.
      assert (Eqs : List.map (fun t => lookup_place gs (place_text t)) (first :: rest) = List.map Some (q0 :: tips)).
      { cbn [List.map]. f_equal; [exact Eq0|]. rewrite <- Etips, map_map. reflexivity. }
      assert (Hin : forall p, p ∈ commit_parents cm -> p ∈ parents_of g c) by (now rewrite (rn_parents _ _ _ _ _ R c cm Nc Hf)).
      revert Hin Ets Eqs. generalize (first :: rest), (commit_parents cm), (q0 :: tips). clear -R HJ Nc M Ook NF On0.
      intros ts ps qs. revert ts qs. induction ps as [|p ps IH]; intros ts qs Hin Ets Eqs; destruct ts as [|t ts]; try discriminate.
      - destruct qs; [constructor|discriminate].
      - destruct qs as [|q qs]; [discriminate|]. cbn [List.map] in Ets, Eqs. injection Ets as Et Ets. injection Eqs as Eq Eqs.
        constructor; [|apply (IH ts); auto; intros; apply Hin; now right].
        assert (Hp : p ∈ parents_of g c) by (apply Hin; now left).
        destruct (decide (p ∈ commits_to_move cg)) as [Hm|Hm].
        + destruct (bs_labels s !! p) as [lb|] eqn:El; [|discriminate]. injection Et as <-. cbn in Eq.
          destruct (j_labels _ _ _ HJ p lb El) as (o' & A & B). unfold lookup_place in Eq. rewrite A in Eq.
          destruct (decide _); [|discriminate]. injection Eq as <-. exact B.
        + injection Et as <-. cbn in Eq.
          assert (Np : ~ node p) by (eapply (rn_merge_stay _ _ _ _ _ R); eauto).
          rewrite (place_found s gs l p q HJ (Ook gs eq_refl)) by (auto; eapply On0, (rn_merge_on _ _ _ _ _ R); eauto).
          now apply stays. }
    assert (Oq0 : oid_ok q0). { apply (Ook gs eq_refl). eapply parse_place; eauto. }
    (* what is common to the three ways *)
    assert (Fin : forall gs' n, gs1 = note_rewritten c gs' -> heads gs' = Some n -> named ee (gs_store gs') ->
        gs_labels gs' = gs_labels gs -> gs_name gs' = gs_name gs -> gs_extra gs' = gs_extra gs ->
        hs_rewritten (gs_hooks gs') = hs_rewritten (gs_hooks gs) -> hs_orig_head (gs_hooks gs') = hs_orig_head (gs_hooks gs) ->
        hs_updated_head (gs_hooks gs') = hs_updated_head (gs_hooks gs) -> hs_rebase (gs_hooks gs') = hs_rebase (gs_hooks gs) ->
        hs_log (gs_hooks gs') = hs_log (gs_hooks gs) -> oid_ok n ->
        ((exists x, made_with v (fun t => ge_merge v c (q0 :: tips) = MergedTree t) (gs_store gs') c (q0 :: tips) n x) \/
         ge_merge v c (q0 :: tips) = AlreadyMerged /\ n = q0) ->
        exists l1, J (push [Reset_ first; Merge c rest] s) gs1 l1 /\ G s gs l (push [Reset_ first; Merge c rest] s) gs1 l1 /\ here c gs1 l1).
    { intros gs' n -> Hn Hnm X1 X2 X3 X4 X5 X6 X7 X8 On Hmade.
      destruct (note_facts c n gs' Hn) as (F1 & F2 & F3 & F4 & F5 & F6 & F7 & F8 & F9).
      destruct (J_noted s gs l c n HJ Nc Hc Oc On) as (N1 & N2 & N3 & N4 & N5).
      exists (l ++ [(c, NonZero n)]).
      edestruct (J_replay s gs l c [Reset_ first; Merge c rest] (note_rewritten c gs') (l ++ [(c, NonZero n)])) as [A B];
        [exact HJ|exact Nc|reflexivity|exact Hc|exact S01| | | | | | | | | | | | | |split; [exact A|split; [exact B|]]]; try congruence; auto.
      - rewrite F2. exact Hnm.
      - apply note_listed; [exact Hn|]. rewrite X4. exact (j_file _ _ _ HJ).
      - eapply (disk_merged _ _ _ _ _ _ _ _ (q0 :: tips) n); eauto.
        + eapply Forall2_impl; [exact Par|]. exact N5.
        + rewrite F2. destruct Hmade as [Hmade|[Hm ->]]; [auto|]. right. split_and!; auto.
          destruct (parse_place _ _ _ Eq0) as [y Hy]. exists y. eapply lookup_weaken; [exact Hy|]. rewrite <- F2. exact S01.
      - rewrite F8, X7. exact (j_rebase _ _ _ HJ).
      - left. split; [congruence|]. intros _. congruence.
      - exists n. split; [exact F1|]. now apply at_new. }
    destruct (ge_reuse v && _)%bool eqn:Ereuse.
    { apply andb_true_iff in Ereuse. destruct Ereuse as [Er1 Er2]. apply bool_decide_eq_true in Er2. injection Hr as Hr.
      apply (Fin (move_head c (move_head q0 gs)) c (eq_sym Hr)); auto; [exact (j_named _ _ _ HJ)|].
      left. exists orig, orig. split_and!; auto. }
    destruct (ge_merge v c (q0 :: tips)) as [t| |] eqn:Emg; [|discriminate|].
    - injection Hr as Hr. destruct (make_named orig (q0 :: tips) t (move_head q0 gs) (j_named _ _ _ HJ)) as
        (n & K1 & K2 & K3 & K4 & K5 & K6 & K7 & K8 & K9 & K10 & K11 & K12).
      eapply (Fin _ n (eq_sym Hr)); auto.
      + apply K12. exact (j_rebase _ _ _ HJ).
      + apply O1. rewrite <- Hr. rewrite note_store. eauto.
      + left. exists (remade ee orig (q0 :: tips) t), orig. split_and!; [|exact K4|left; eauto].
        eapply lookup_weaken; [exact Eorig|]. apply make_store.
    - injection Hr as Hr. apply (Fin (move_head q0 gs) q0 (eq_sym Hr)); auto. exact (j_named _ _ _ HJ). }
  rewrite decide_False by apply NF. rewrite Rep, lookup_empty.
  assert (Nm : ~ merge_commit g c) by (rewrite <- Mg; congruence).
  destruct (Hp Nm) as (p & h & Hon & Hh & Hat).
  assert (El : match cg_fixups cg !! c with Some fs => pe_sort e ({[c]} ∪ fs) | None => [c] end = [c]).
  { destruct (cg_fixups cg !! c) as [fs|] eqn:Ef; [|reflexivity].
    assert (fs = ∅) as ->. { apply set_eq. intros f. split; [|set_solver]. intros H. exfalso. apply (NF f). eapply fixups_value; eauto. }
    rewrite (right_id_L ∅ (∪)). pose proof (rn_sort _ _ _ _ _ R {[c]}) as H. rewrite elements_singleton in H. now apply Permutation_singleton_r in H. }
  rewrite El. intros [= <-]. eexists. split; [reflexivity|]. intros ND gs1 Hr O1. cbn [List.map] in Hr.
  apply run_cons in Hr. destruct Hr as (gs0 & H0 & Hr). rewrite run_one in Hr.
  assert (Hc : c ∉ replayed (bs_acc s)) by (eapply NewDup; [|exact ND]; reflexivity).
  pose proof (seq_store _ _ _ _ H0) as S0. pose proof (seq_store _ _ _ _ Hr) as S1.
  assert (S01 : gs_store gs ⊆ gs_store gs1) by (etrans; eauto). specialize (Oc gs1 S01 O1).
  unfold seq_words in H0, Hr. rewrite parse_pick in H0 by exact Oc. rewrite parse_drop in Hr by exact Oc.
  cbn [seq_line] in H0, Hr. unfold seq_pick in H0. rewrite Hh in H0.
  destruct (gs_store gs !! c) as [orig|] eqn:Eorig; [|discriminate].
  destruct (is_merge (ob_commit orig)) eqn:Emo; [discriminate|]. cbn [orb] in H0.
  destruct (bool_decide (is_Some (gs_store gs !! h))) eqn:Ehs; [|discriminate]. cbn [negb] in H0.
  apply bool_decide_eq_true in Ehs. destruct Ehs as [qx Eqx].
  (* the commit, made again or reused *)
  assert (Made : exists gs' n x, gs0 = note_rewritten c gs' /\ heads gs' = Some n /\ named ee (gs_store gs') /\ gs_store gs ⊆ gs_store gs' /\
      gs_labels gs' = gs_labels gs /\ gs_name gs' = gs_name gs /\ gs_extra gs' = gs_extra gs /\
      hs_rewritten (gs_hooks gs') = hs_rewritten (gs_hooks gs) /\ hs_orig_head (gs_hooks gs') = hs_orig_head (gs_hooks gs) /\
      hs_updated_head (gs_hooks gs') = hs_updated_head (gs_hooks gs) /\ hs_rebase (gs_hooks gs') = hs_rebase (gs_hooks gs) /\
      hs_log (gs_hooks gs') = hs_log (gs_hooks gs) /\ (n = c \/ st0 !! n = None) /\ commit_parents (ob_commit x) = [h] /\
      made_with v (fun t => ee_pick ee c h = MadeTree t) (gs_store gs') c [h] n x).
  { destruct (ge_reuse v && _)%bool eqn:Ereuse.
    - apply andb_true_iff in Ereuse. destruct Ereuse as [Er1 Er2]. apply bool_decide_eq_true in Er2. injection H0 as <-.
      exists (move_head c gs), c, orig. split_and!; auto; [exact (j_named _ _ _ HJ)|]. exists orig. split_and!; auto.
    - destruct (ee_pick ee c h) as [t| |] eqn:Ept; try discriminate. injection H0 as <-.
      destruct (make_named orig [h] t gs (j_named _ _ _ HJ)) as (n & K1 & K2 & K3 & K4 & K5 & K6 & K7 & K8 & K9 & K10 & K11 & K12).
      exists (make_commit v orig [h] t gs), n, (remade ee orig [h] t). split_and!; auto; [apply make_store| | |].
      + apply K12. exact (j_rebase _ _ _ HJ).
      + right. rewrite K2. apply Fresh.
      + exists orig. split_and!; [|exact K4|left; eauto]. eapply lookup_weaken; [exact Eorig|]. apply make_store. }
  destruct Made as (gs' & n & x & -> & Hn & Hnm & Ss & X1 & X2 & X3 & X4 & X5 & X6 & X7 & X8 & Hnew & Hpx & Hmade).
  destruct (note_facts c n gs' Hn) as (F1 & F2 & F3 & F4 & F5 & F6 & F7 & F8 & F9).
  assert (Enx : gs_store gs' !! n = Some x) by (destruct Hmade as (? & _ & H & _); exact H).
  assert (Eqx' : gs_store gs' !! h = Some qx) by (eapply lookup_weaken; eauto).
  assert (On : oid_ok n). { apply O1. exists x. eapply lookup_weaken; [|exact S1]. now rewrite F2. }
  destruct (J_noted s gs l c n HJ Nc Hc Oc On) as (N1 & N2 & N3 & N4 & N5).
  assert (Hl' : listed (hs_rewritten (gs_hooks (note_rewritten c gs'))) (l ++ [(c, NonZero n)])).
  { apply note_listed; [exact Hn|]. rewrite X4. exact (j_file _ _ _ HJ). }
  unfold hook_drop_commit_if_empty in Hr. rewrite F1, F2 in Hr.
  assert (Efx : find_object (gs_store gs') n = Some (ob_commit x)) by (unfold find_object; now rewrite Enx). rewrite Efx in Hr.
  unfold commit_is_empty in Hr. rewrite Hpx in Hr.
  assert (Efq : find_object (gs_store gs') h = Some (ob_commit qx)) by (unfold find_object; now rewrite Eqx'). rewrite Efq in Hr.
  destruct (N.eqb_spec (commit_tree (ob_commit x)) (commit_tree (ob_commit qx))) as [Et|Et]; cbn [negb] in Hr.
  - cbv zeta in Hr. destruct (add_rewritten_list_entries _ _ _) as [t|] eqn:Ea; [|discriminate]. injection Hr as <-.
    apply (add_listed _ _ (l ++ [(c, NonZero n)])) in Ea; [|exact Iter|exact Hl'|exact N1|exact N2|].
    2:{ constructor; [split; [exact Oc|exact I]|]. constructor; [split; [exact On|exact I]|constructor]. }
    destruct Ea as (l1 & -> & Ok1 & Nd1 & Hl1).
    assert (Lk : forall o, collect_map [(c, Zero); (n, Zero)] !! o = if decide (o = c \/ o = n) then Some Zero else None).
    { intros o. unfold collect_map. cbn [fold_left fst snd]. destruct (decide (o = n)) as [->|Nn].
      - rewrite lookup_insert, decide_True by auto. reflexivity.
      - rewrite lookup_insert_ne by congruence. destruct (decide (o = c)) as [->|Nc'].
        + rewrite lookup_insert, decide_True by auto. reflexivity.
        + rewrite lookup_insert_ne, lookup_empty, decide_False by (congruence || tauto). reflexivity. }
    assert (Hz : collect_map l1 !! c = Some Zero) by (rewrite Hl1, Lk, decide_True by auto; reflexivity).
    assert (Hrw : forall c', c' <> c -> collect_map l1 !! c' = collect_map l !! c' \/ st0 !! c' = None /\ collect_map l1 !! c' = Some Zero).
    { intros c' Ne. rewrite Hl1, Lk. destruct (decide (c' = n)) as [->|Nn].
      - right. rewrite decide_True by auto. split; [|reflexivity]. destruct Hnew as [->|Hnew]; [contradiction|exact Hnew].
      - left. rewrite decide_False by tauto. now apply N4. }
    assert (M : forall p q, at_ (collect_map l) p q -> at_ (collect_map l1) p q).
    { intros p' q'. apply at_mono. intros c' y _ Hy. destruct (decide (c' = c)) as [->|Ne].
      - exfalso. apply (not_yet _ _ _ _ HJ Nc Hc), elem_of_list_fmap. exists (c, y). split; [reflexivity|].
        apply collect_in; [exact (j_keys _ _ _ HJ)|exact Hy].
      - destruct (Hrw c' Ne) as [->|[Hs ->]]; [exact Hy|]. f_equal. destruct (j_rw _ _ _ HJ _ _ Hy) as [H|[-> _]]; [|reflexivity].
        apply (j_node _ _ _ HJ) in H. destruct (In0 _ H) as [z Hz']. congruence. }
    assert (Hatc : at_ (collect_map l1) c h) by (eapply at_skip; eauto).
    exists l1. edestruct (J_replay s gs l c [Pick c [c]; DetectEmpty c]) as [A B];
      [exact HJ|exact Nc|reflexivity|exact Hc|exact S01| | |exact Ok1|exact Nd1|exact Hrw| | | | | | | | |split; [exact A|split; [exact B|]]]; cbn; try congruence; auto.
    + rewrite F2. exact Hnm.
    + eapply (disk_skipped _ _ _ _ _ _ _ _ p h); eauto. right. exists n, x, qx. rewrite F2. auto.
    + rewrite F8, X7. exact (j_rebase _ _ _ HJ).
    + rewrite F6, X5, (j_orig _ _ _ HJ). destruct (ee_head ee) as [oh|]; [|left; split; [congruence|discriminate]].
      destruct (N.eqb_spec oh c) as [->|Ne]; [right; eauto|]. left. split; congruence.
    + exists h. auto.
  - injection Hr as <-. exists (l ++ [(c, NonZero n)]).
    edestruct (J_replay s gs l c [Pick c [c]; DetectEmpty c] (with_hooks (note_rewritten c gs') (gs_hooks (note_rewritten c gs'))) (l ++ [(c, NonZero n)])) as [A B];
      [exact HJ|exact Nc|reflexivity|exact Hc|exact S01| | |exact N1|exact N2| | | | | | | | | |split; [exact A|split; [exact B|]]]; cbn; try congruence; auto.
    + rewrite F2. exact Hnm.
    + eapply (disk_picked _ _ _ _ _ _ _ _ p h n x qx); eauto; now rewrite F2.
    + rewrite F8, X7. exact (j_rebase _ _ _ HJ).
    + left. split; [congruence|]. intros _. congruence.
    + exists n. split; [exact F1|]. now apply at_new.
Qed.

(** Parts of the traversal, with what holds before and after. *)
Notation pred := (build_state -> git_state -> list (oid * moid) -> Prop).
Definition steps (P : pred) (s s' : build_state) (Q : pred) : Prop :=
  exists cmds, bs_acc s' = bs_acc s ++ cmds /\
    (NoDup (replayed (bs_acc s')) -> forall gs l gs', J s gs l -> P s gs l -> run_words v (List.map instruction cmds) gs = Went gs' -> okay gs' ->
       exists l', J s' gs' l' /\ G s gs l s' gs' l' /\ Q s' gs' l').

Lemma okay_before wss gs gs' : run_words v wss gs = Went gs' -> okay gs' -> okay gs.
Proof. intros H O o [x Hx]. apply O. exists x. eapply lookup_weaken; [exact Hx|]. eapply run_store; eauto. Qed.

Lemma steps_trans P Q T s s1 s2 : steps P s s1 Q -> steps Q s1 s2 T -> steps P s s2 T.
Proof.
  intros (c1 & E1 & H1) (c2 & E2 & H2). exists (c1 ++ c2). split; [now rewrite E2, E1, app_assoc|].
  intros ND gs l gs2 HJ HP Hx O. rewrite map_app, run_app in Hx. apply sbind_went in Hx. destruct Hx as (gs1 & X1 & X2).
  assert (ND1 : NoDup (replayed (bs_acc s1))).
  { rewrite E2, replayed_app in ND. apply NoDup_app in ND. tauto. }
  destruct (H1 ND1 gs l gs1 HJ HP X1 (okay_before _ _ _ X2 O)) as (l1 & A & B & C).
  destruct (H2 ND gs1 l1 gs2 A C X2 O) as (l2 & A2 & B2 & C2).
  exists l2. split_and!; auto. eapply G_trans; eauto.
Qed.
Lemma steps_nil (P Q : pred) s : (forall gs l, P s gs l -> Q s gs l) -> steps P s s Q.
Proof.
  intros H. exists []. split; [now rewrite app_nil_r|]. intros _ gs l gs' HJ HP [= <-] _. exists l. split_and!; auto. apply G_refl.
Qed.
Lemma steps_weaken (P P' Q Q' : pred) s s' :
  (forall gs l, P' s gs l -> P s gs l) -> (forall gs l gs' l', P' s gs l -> G s gs l s' gs' l' -> Q s' gs' l' -> Q' s' gs' l') ->
  steps P s s' Q -> steps P' s s' Q'.
Proof.
  intros HP HQ (c & E1 & H). exists c. split; [exact E1|]. intros ND gs l gs' HJ HP' Hx O.
  destruct (H ND gs l gs' HJ (HP _ _ HP') Hx O) as (l' & A & B & C). exists l'. split_and!; eauto.
Qed.

(** [lb] is a label for the place of [c]. *)
Definition marked (c : oid) (lb : string) (gs : git_state) (l : list (oid * moid)) : Prop :=
  exists o, gs_labels gs !! lb = Some o /\ at_ (collect_map l) c o.
Lemma marked_mono c lb s gs l s' gs' l' : G s gs l s' gs' l' -> marked c lb gs l -> marked c lb gs' l'.
Proof.
  intros HG (o & A & B). exists o. split; [|eapply at_mono; [exact (g_rw _ _ _ _ _ _ HG)|exact B]].
  eapply lookup_weaken; [exact A|exact (g_labels _ _ _ _ _ _ HG)].
Qed.

Lemma kids_seq fuel r c lb (kids : list (oid * commit)) :
  (forall k s s', k ∈ kids -> visit fuel e cg r (fst k) (snd k) s = Done s' -> steps (fun _ => here c) s s' (fun _ _ _ => True)) ->
  forall s s',
  fold_left (fun acc k => bind acc (fun s =>
      bind (visit fuel e cg r (fst k) (snd k) s) (fun s => Done (push [Reset_ (AtLabel lb)] s)))) kids (Done s) = Done s' ->
  steps (fun s gs l => here c gs l /\ marked c lb gs l) s s' (fun _ _ _ => True).
Proof.
  induction kids as [|k kids IH]; intros Hk s s' Hv; cbn in Hv.
  - injection Hv as <-. now apply steps_nil.
  - destruct (visit fuel e cg r (fst k) (snd k) s) as [s1| |] eqn:E1; cbn in Hv.
    2:{ exfalso. destruct (fold_bind_stuck (fun k s => bind (visit fuel e cg r (fst k) (snd k) s)
          (fun s => Done (push [Reset_ (AtLabel lb)] s))) kids s') as [N _]. now apply N. }
    2:{ exfalso. destruct (fold_bind_stuck (fun k s => bind (visit fuel e cg r (fst k) (snd k) s)
          (fun s => Done (push [Reset_ (AtLabel lb)] s))) kids s') as [_ N]. now apply N. }
    apply (steps_trans _ (fun _ => marked c lb) _ _ s1).
    { eapply steps_weaken; [| |apply (Hk k); [now left|exact E1]]; cbn; [tauto|].
      intros gs l gs' l' [_ M] HG _. eapply marked_mono; eauto. }
    eapply steps_trans; [|apply IH; [intros k' s0 s0' H; apply Hk; now right|exact Hv]].
    exists [Reset_ (AtLabel lb)]. split; [reflexivity|]. intros _ gs l gs' HJ M Hx O.
    pose proof M as (o & A & B). cbn [List.map] in Hx. rewrite run_one in Hx. unfold seq_words in Hx. cbn in Hx. unfold lookup_place in Hx.
    rewrite A in Hx. destruct (decide _); [|discriminate]. injection Hx as <-.
    destruct (J_move s1 gs l [Reset_ (AtLabel lb)] o HJ eq_refl) as [HJ' HG']. exists l. split_and!; auto.
    exists o. auto.
Qed.

Lemma visit_seq fuel r : forall c cm s s',
  visit fuel e cg r c cm s = Done s' -> node c -> pe_find e c = Some cm ->
  steps (fun _ => placed_at c) s s' (fun _ _ _ => True).
Proof.
  induction fuel as [|fuel IH]; intros c cm s s' Hv Nc Hf; [discriminate|].
  cbn [visit] in Hv. destruct (apply_commit e cg r c cm s) as [[s1|]| |] eqn:Ea; cbn [bind] in Hv; try discriminate.
  2:{ injection Hv as <-. now apply steps_nil. }
  apply (steps_trans _ (fun _ => here c) _ _ s1).
  { destruct (apply_commit_push e cg _ _ _ _ _ Ea) as (cmds & E1 & _). exists cmds. split; [now rewrite E1|].
    intros ND gs l gs' HJ HP Hx O. destruct (apply_seq _ _ _ _ _ _ _ Ea Nc Hf HJ HP) as (cmds' & E2 & H).
    assert (cmds' = cmds) as ->. { rewrite E1 in E2. unfold push in E2. injection E2 as E2. now apply app_inv_head in E2. }
    eauto. }
  destruct (find_all (pe_find e) _) as [kids|] eqn:Ek; [|discriminate].
  assert (Hkids : forall k, k ∈ kids -> E c (fst k) /\ pe_find e (fst k) = Some (snd k)).
  { intros [k kc] Hk. unfold find_all in Ek. apply all_some_spec in Ek.
    assert (Hin : Some (k, kc) ∈ List.map Some kids) by (apply elem_of_list_In, in_map, elem_of_list_In; exact Hk).
    rewrite <- Ek in Hin. apply elem_of_list_In, in_map_iff in Hin. destruct Hin as (o & Eo & Ho).
    destruct (pe_find e o) as [oc|] eqn:Fo; [|discriminate]. injection Eo as -> ->. cbn. split; [|exact Fo].
    apply elem_of_list_In, sorted_oids_spec in Ho. exact Ho. }
  clear Ek. destruct kids as [|k0 kids0].
  { cbn in Hv. injection Hv as <-. now apply steps_nil. }
  remember (k0 :: kids0) as kids eqn:Ekids.
  assert (Hkid : forall k s s', k ∈ kids -> visit fuel e cg r (fst k) (snd k) s = Done s' ->
            steps (fun _ => here c) s s' (fun _ _ _ => True)).
  { intros k sa sb Hk Hvk. destruct (Hkids k Hk) as [HE Hfk].
    eapply steps_weaken; [| |apply (IH _ _ _ _ Hvk); [left; eapply edge_moved; exact HE|exact Hfk]]; [|auto].
    intros gs l (h & A & B) _. exists c, h. split_and!; auto. exact (rn_edge _ _ _ _ _ R _ _ HE). }
  destruct (if needs_label e kids then _ else _) as [s2| |] eqn:E2; cbn [bind] in Hv; try discriminate.
  apply (steps_trans _ (fun _ => here c) _ _ s2).
  { destruct (needs_label e kids).
    - destruct (create_label "parent-" s1) as [x| |] eqn:Ex; cbn in E2; try discriminate. injection E2 as <-.
      destruct (create_label_total "parent-" s1) as (lb & _ & El). rewrite El in Ex. injection Ex as Ex.
      exists [CreateLabel lb]. split; [now rewrite <- Ex|]. intros _ gs l gs' HJ (h & HP1 & HP2) Hx O.
      destruct (J_label "parent-" s1 gs l (lb, snd x) gs' dashed_parent HJ) as (h' & E0 & E3 & _ & _ & _ & H); [rewrite El, <- Ex; reflexivity|exact Hx|].
      assert (h' = h) as -> by congruence. destruct (H c HP2) as [A B]. rewrite <- Ex in *. cbn [fst snd] in *. exists l. split_and!; auto.
      exists h. rewrite E3. auto.
    - injection E2 as <-. apply steps_nil. auto. }
  destruct kids0 as [|k2 kids0]; rewrite Ekids in *.
  - apply Hkid in Hv; [exact Hv|now left].
  - destruct (create_label_total "label-" s2) as (lb & _ & El). rewrite El in Hv. cbn [bind fst snd] in Hv.
    eapply steps_trans; [|eapply kids_seq; [exact Hkid|exact Hv]].
    exists [CreateLabel lb]. split; [reflexivity|]. intros _ gs l gs' HJ (h & HP1 & HP2) Hx O.
    destruct (J_label "label-" s2 gs l _ gs' dashed_label HJ El Hx) as (h' & E0 & E3 & _ & A & B & _). cbn [fst snd] in *.
    assert (h' = h) as -> by congruence. exists l. split_and!; auto.
    + exists h. rewrite E3. auto.
    + exists h. rewrite E3. cbn. split; [apply lookup_insert|exact HP2].
Qed.

Lemma root_seq r s s' : r ∈ find_roots cg -> plan_root e cg r s = Done s' -> steps (fun _ _ _ => True) s s' (fun _ _ _ => True).
Proof.
  intros Hr. unfold plan_root. destruct (root_dest e r) as [p|] eqn:Ed; [|discriminate].
  destruct (pe_find e (root_commit r)) as [cm|] eqn:Ef; [|discriminate]. intros Hv.
  pose proof (root_node cg r Hr) as Nc.
  eapply steps_trans; [|eapply visit_seq; [exact Hv|exact Nc|exact Ef]].
  assert (Hon : on p (root_commit r) /\ ~ node p).
  { assert (Hin : root_edge r ∈ List.map root_edge (find_roots cg)).
    { apply elem_of_list_In, in_map, elem_of_list_In. exact Hr. }
    destruct r as [p' c|t]; cbn in *; apply find_roots_spec in Hin; destruct Hin as [Hin Hn].
    - injection Ed as <-. split; [now apply (rn_edge _ _ _ _ _ R)|auto].
    - destruct Hin as [A B]. apply (rn_root _ _ _ _ _ R); auto. }
  destruct Hon as [Hon Np].
  exists [Reset_ (AtOid p)]. split; [reflexivity|]. intros _ gs l gs' HJ _ Hx O.
  pose proof (okay_before _ _ _ Hx O) as O0. cbn [List.map] in Hx. rewrite run_one in Hx. unfold seq_words in Hx. cbn in Hx.
  destruct (lookup_place gs (oid_to_string p)) as [o|] eqn:El; [|discriminate]. injection Hx as <-.
  apply (place_found s gs l) in El; auto; [|eapply On0; eauto]. subst o.
  destruct (J_move s gs l [Reset_ (AtOid p)] p HJ eq_refl) as [A B].
  exists l. split_and!; [exact A|exact B|]. intros _. exists p, p. split_and!; auto. now apply stays.
Qed.

Lemma commands_seq s : build_commands e cg = Done s -> NoDup (replayed (bs_acc s)) ->
  forall log h n gs, named ee st0 -> ee_head ee = h -> run_words v (List.map instruction (bs_acc s)) (disk_start log st0 (mk_head h n)) = Went gs -> okay gs ->
  exists l, J s gs l /\ G (mk_bs ∅ ∅ []) (disk_start log st0 (mk_head h n)) [] s gs l.
Proof.
  intros Hb ND log h n gs Hn Eh Hx O.
  assert (H : steps (fun _ _ _ => True) (mk_bs ∅ ∅ []) s (fun _ _ _ => True)).
  { revert Hb. unfold build_commands. generalize (mk_bs ∅ ∅ []).
    assert (Sub : forall r, r ∈ find_roots cg -> r ∈ find_roots cg) by auto. revert Sub.
    generalize (find_roots cg) at 1 3. intros rs. induction rs as [|r rs IH]; intros Sub b; cbn.
    - intros [= <-]. now apply steps_nil.
    - destruct (plan_root e cg r b) as [b1| |] eqn:E1; cbn.
      + intros H. eapply steps_trans; [apply (root_seq r); [apply Sub; now left|exact E1]|]. apply IH; [|exact H].
        intros r' Hr'. apply Sub. now right.
      + intros H. exfalso. destruct (fold_bind_stuck (plan_root e cg) rs s) as [N _]. now apply N.
      + intros H. exfalso. destruct (fold_bind_stuck (plan_root e cg) rs s) as [_ N]. now apply N. }
  destruct H as (cmds & E1 & H). cbn in E1. subst cmds.
  assert (J0 : J (mk_bs ∅ ∅ []) (disk_start log st0 (mk_head h n)) []).
  { constructor; cbn; auto; try (intros; now rewrite lookup_empty in *); try (intros c Hc; now apply elem_of_nil in Hc);
      try discriminate; try (now constructor); try (intros ? ? Hc; now apply elem_of_nil in Hc).
    intros lb [? H']. now rewrite lookup_empty in H'. }
  destruct (H ND _ _ _ J0 I Hx O) as (l & A & B & _). eauto.
Qed.
End disk.

Lemma at_lands d cs e v cg st0 s gs l p q :
  (forall c, node cg c <-> rebuilt d cs c) -> (forall p c, rebuilt_on d cs p c -> is_Some (st0 !! p)) -> J d cs e v cg st0 s gs l ->
  is_Some (st0 !! p) ->
  at_ d cs cg (collect_map l) p q -> lands d cs (collect_map l) p q.
Proof.
  intros HN On0 HJ Hp. induction 1 as [p N Nf|p q N Nf H|p p' q N Nf H Ho Ha IH].
  - apply lands_kept. destruct (collect_map l !! p) as [x|] eqn:Ev; [|reflexivity]. exfalso.
    destruct (j_rw _ _ _ _ _ _ _ _ _ HJ _ _ Ev) as [H|[_ H]]; [|rewrite H in Hp; now destruct Hp]. apply N. exact (j_node _ _ _ _ _ _ _ _ _ HJ _ H).
  - now apply lands_new.
  - eapply lands_skipped; eauto.
Qed.
