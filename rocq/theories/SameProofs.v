(** Rebasing in memory and on disk, step by step. *)
From stdpp Require Import sorting relations.
From Verif Require Import Base TextModel TextProofs EventLogModel DagModel DagSpec DagProofs StrModel StrProofs HookModel HookSpec HookProofs
  PlanModel PlanSpec PlanProofs PlanCycleProofs PlanDfsProofs PlanLabelProofs PlanBuildProofs ExecModel ExecSpec ExecProofs ExecBuildProofs
  ExecAfterProofs ExecDiskProofs SeqModel SeqSpec SeqProofs SeqRunProofs SeqBuildProofs.
Local Open Scope string_scope.
Local Open Scope list_scope.
Local Arguments oid_to_string _ : simpl never.
Local Arguments oid_from_string _ : simpl never.

Lemma add_total iter file l es : listed file l -> Forall entry_ok l -> is_Some (add_rewritten_list_entries iter file es).
Proof.
  intros Hf Hl. unfold add_rewritten_list_entries.
  assert (Er : match file with Some text => read_rewritten_list text | None => Some [] end = Some l).
  { destruct file as [text|]; cbn in Hf; subst; [now apply rewritten_round_trip|reflexivity]. }
  rewrite Er. destruct (replace_entries l (collect_map es)). eauto.
Qed.

(** The objects that are there in the end. *)
Definition left_store (r : exec exec_state) : store :=
  match r with Ok s => es_store s | StopMerge _ st => st | Err st => st end.
Lemma apply_all_grows ee q orig l : forall st made,
  st ⊆ match apply_all ee st q orig made l with Ok (st', _) => st' | StopMerge _ st' => st' | Err st' => st' end.
Proof.
  induction l as [|c l IH]; intros st made; cbn [apply_all]; [reflexivity|].
  destruct (st !! c) as [x|]; [|reflexivity]. destruct (is_merge (ob_commit x)); [reflexivity|].
  destruct (match made with None => _ | Some r => _ end) as [t| |]; [|reflexivity|reflexivity]. cbv zeta.
  set (n := mk_object _ _ _ _). destruct (add_object ee n st) as [o st'] eqn:Ea.
  etrans; [|apply IH]. pose proof (add_object_sub ee n st) as H. now rewrite Ea in H.
Qed.
Lemma command_grows ee x es : es_store es ⊆ left_store (exec_command ee x es).
Proof.
  destruct x as [l|[o|l]|c l|c ts|c r ts| | |c|c]; cbn [exec_command]; try reflexivity.
  - destruct (es_labels es !! l); reflexivity.
  - unfold exec_pick. destruct (es_store es !! es_current es), (es_store es !! c) as [orig|]; try reflexivity.
    destruct (negb _); [reflexivity|]. pose proof (apply_all_grows ee (es_current es) orig l (es_store es) None) as H.
    destruct (apply_all _ _ _ _ _ _) as [[st' [n|]]|c' st'|st']; cbn [ebind fst snd]; try exact H.
    destruct (st' !! n) as [y|]; [|exact H]. destruct (commit_is_empty _ _); exact H.
  - unfold exec_replace. destruct (es_store es !! c), (es_store es !! r) as [rx|], (all_some (List.map (place_of (es_labels es)) ts)); try reflexivity.
    destruct (_ || _)%bool; [reflexivity|]. cbv zeta. set (n := mk_object _ _ _ _).
    pose proof (add_object_sub ee n (es_store es)) as H. destruct (add_object ee n (es_store es)). exact H.
  - destruct (es_store es !! c); reflexivity.
Qed.
Lemma commands_grow ee cmds : forall es, es_store es ⊆ left_store (exec_commands ee cmds es).
Proof.
  induction cmds as [|x cmds IH]; intros es; [reflexivity|]. rewrite exec_cons.
  pose proof (command_grows ee x es) as H. destruct (exec_command ee x es); cbn [ebind]; [etrans; [exact H|apply IH]|exact H|exact H].
Qed.

Section same.
Context (v : git_env) (st0 : store) (node : oid -> Prop).
Notation ee := (ge_exec v).
Notation heads gs := (hs_head (gs_hooks gs)).
Context (Nm : faithful_names ee) (Fresh : fresh_names ee st0) (Iter : forall m, ge_iter v m ≡ₚ map_to_list m) (Anew : ge_reuse v = false).
Context (In0 : forall c, node c -> exists x, st0 !! c = Some x /\ ee_decodes ee (ob_message x) = true).

(** What the instructions come in: labels and moves, and commits to rebuild. *)
Inductive block : bool -> list command -> bool -> Prop :=
| block_label l : dashed l -> block true [CreateLabel l] true
| block_reset b o : is_Some (st0 !! o) -> ~ node o -> block b [Reset_ (AtOid o)] true
| block_back l : block true [Reset_ (AtLabel l)] true
| block_pick c : node c -> (forall x, st0 !! c = Some x -> is_merge (ob_commit x) = false) -> block true [Pick c [c]; DetectEmpty c] true
| block_skip c : node c -> block true [SkipUpstream c] true
| block_merge t c ts : block true [Reset_ t; Merge c ts] true.
Inductive path : bool -> list command -> bool -> Prop :=
| path_nil b : path b [] b
| path_more b l b1 x b2 : path b l b1 -> block b1 x b2 -> path b (l ++ x) b2.

Record sim (b : bool) (done : list oid) (es : exec_state) (gs : git_state) (l : list (oid * moid)) : Prop := {
  sm_named : named ee (es_store es);
  sm_sub : st0 ⊆ es_store es;
  sm_store : gs_store gs = es_store es;
  sm_labels : gs_labels gs = es_labels es;
  sm_head : b = true -> heads gs = Some (es_current es) /\ is_Some (es_store es !! es_current es);
  sm_lab : forall lb o, es_labels es !! lb = Some o -> is_Some (es_store es !! o) /\ dashed lb;
  sm_file : listed (hs_rewritten (gs_hooks gs)) l;
  sm_ok : Forall entry_ok l;
  sm_keys : NoDup (map fst l);
  sm_rw : forall c, is_Some (st0 !! c) -> collect_map l !! c = es_rewritten es !! c;
  sm_new : forall c x, st0 !! c = None -> collect_map l !! c = Some x -> x = Zero;
  sm_done : forall c, is_Some (es_rewritten es !! c) -> c ∈ done;
  sm_node : forall c, c ∈ done -> node c;
  sm_orig : hs_orig_head (gs_hooks gs) = ee_head ee;
  sm_rebase : hs_rebase (gs_hooks gs) = true;
  sm_skip : hs_updated_head (gs_hooks gs) = option_map oid_to_string (es_skipped_head es);
  sm_skipped : forall q, es_skipped_head es = Some q -> is_Some (es_store es !! q) /\ exists h, ee_head ee = Some h /\ h ∈ done }.

(** The same outcome. *)
Definition agree (b : bool) (done : list oid) (r : exec exec_state) (r' : seq_result) : Prop :=
  match r with
  | Ok es => exists gs l, r' = Went gs /\ sim b done es gs l
  | StopMerge _ st => exists gs, r' = Halted gs /\ gs_store gs = st
  | Err _ => True
  end.
Definition fine (r : exec exec_state) : Prop := forall o, is_Some (left_store r !! o) -> oid_ok o.

Lemma skip_once (done : list oid) (c : oid) es (q : oid) gs : c ∉ done -> hs_orig_head (gs_hooks gs) = ee_head ee ->
  (forall q, es_skipped_head es = Some q -> is_Some (es_store es !! q) /\ exists h, ee_head ee = Some h /\ h ∈ done) ->
  hs_updated_head (gs_hooks gs) = option_map oid_to_string (es_skipped_head es) ->
  match hs_orig_head (gs_hooks gs) with
  | Some oh => if N.eqb oh c then Some (oid_to_string q) else hs_updated_head (gs_hooks gs)
  | None => hs_updated_head (gs_hooks gs)
  end = option_map oid_to_string (skip_head ee c q (es_skipped_head es)).
Proof.
  intros Hc Ho Hs Hu. rewrite Ho. unfold skip_head. destruct (ee_head ee) as [h|] eqn:Eh.
  - destruct (N.eqb_spec h c) as [->|Ne]; [rewrite decide_True by reflexivity|rewrite decide_False by congruence; exact Hu].
    destruct (es_skipped_head es) as [q'|] eqn:Es; [|reflexivity]. destruct (Hs q' eq_refl) as (_ & h & [= <-] & H). contradiction.
  - rewrite decide_False by discriminate. exact Hu.
Qed.

Lemma block_agrees b x b' done es gs l : block b x b' -> sim b done es gs l -> NoDup (done ++ replayed x) ->
  forallb (fun c => negb (merge_command c)) x = true -> fine (exec_commands ee x es) ->
  agree b' (done ++ replayed x) (exec_commands ee x es) (run_words v (List.map instruction x) gs).
Proof.
  intros B S ND NM F. pose proof (commands_grow ee x es) as Gr.
  assert (Okes : forall o, is_Some (es_store es !! o) -> oid_ok o) by (intros o [y Hy]; apply F; exists y; eapply lookup_weaken; eauto).
  assert (Ok0 : forall o, is_Some (st0 !! o) -> oid_ok o) by (intros o [y Hy]; apply Okes; exists y; eapply lookup_weaken; [exact Hy|exact (sm_sub _ _ _ _ _ S)]).
  destruct B as [lb Hlb|b o Ho Hn|lb|c Hc Hm|c Hc|t c ts]; cbn [replayed replays flat_map app] in ND |- *.
  - (* label *)
    rewrite exec_cons. cbn [List.map]. rewrite run_one. unfold seq_words. cbn. destruct (sm_head _ _ _ _ _ S eq_refl) as [H1 H2]. rewrite H1.
    rewrite app_nil_r. eexists _, l. split; [reflexivity|]. destruct S. constructor; cbn; auto.
    + now rewrite sm_labels0.
    + intros lb' o. destruct (decide (lb' = lb)) as [->|Ne]; [rewrite lookup_insert; intros [= <-]; auto|].
      rewrite lookup_insert_ne by congruence. auto.
  - (* reset to a commit *)
    rewrite exec_cons. cbn [List.map]. rewrite run_one. unfold seq_words. cbn. unfold lookup_place.
    rewrite (sm_labels _ _ _ _ _ S), (sm_store _ _ _ _ _ S). destruct (es_labels es !! oid_to_string o) as [q|] eqn:El.
    { exfalso. destruct (sm_lab _ _ _ _ _ S _ _ El) as [_ D]. now apply (dashed_oid _ o D). }
    rewrite nzoid_text_round_trip by auto.
    assert (Hs : is_Some (es_store es !! o)) by (destruct Ho as [y Hy]; exists y; eapply lookup_weaken; [exact Hy|exact (sm_sub _ _ _ _ _ S)]).
    rewrite decide_True by exact Hs. rewrite app_nil_r.
    assert (En : es_rewritten es !! o = None).
    { destruct (es_rewritten es !! o) eqn:E; [|reflexivity]. exfalso. apply Hn, (sm_node _ _ _ _ _ S), (sm_done _ _ _ _ _ S). eauto. }
    rewrite En. eexists _, l. split; [reflexivity|]. destruct S. constructor; cbn; auto.
  - (* reset to a label *)
    rewrite exec_cons. cbn [List.map]. rewrite run_one. unfold seq_words. cbn. unfold lookup_place.
    rewrite (sm_labels _ _ _ _ _ S), (sm_store _ _ _ _ _ S). destruct (es_labels es !! lb) as [q|] eqn:El; cbn; [|exact I].
    destruct (sm_lab _ _ _ _ _ S _ _ El) as [Hs _]. rewrite decide_True by exact Hs. rewrite app_nil_r.
    eexists _, l. split; [reflexivity|]. destruct S. constructor; cbn; auto.
  - (* pick *)
    destruct (sm_head _ _ _ _ _ S eq_refl) as [H1 [qx H2]]. destruct (In0 c Hc) as (orig & Eo & Ed).
    assert (Eo' : es_store es !! c = Some orig) by (eapply lookup_weaken; [exact Eo|exact (sm_sub _ _ _ _ _ S)]).
    assert (Oc : oid_ok c) by (apply Ok0; eauto).
    assert (Hcd : c ∉ done). { intros H. apply NoDup_app in ND. destruct ND as (_ & ND & _). apply (ND c H). now left. }
    revert F Gr. rewrite !exec_cons. cbn [exec_command List.map]. unfold exec_pick. rewrite H2, Eo', Ed. cbn [negb].
    cbn [apply_all]. rewrite Eo', (Hm _ Eo).
    assert (Run : run_words v [instruction (Pick c [c]); instruction (DetectEmpty c)] gs =
      sbind (seq_pick v c gs) (fun s => match hook_drop_commit_if_empty (ge_iter v) (find_object (gs_store s)) c (gs_hooks s) with
        | Some h => Went (with_hooks s h) | None => Wrong end)).
    { unfold run_words. cbn [fold_left]. unfold sbind at 2. unfold seq_words. rewrite parse_pick, parse_drop by exact Oc. reflexivity. }
    rewrite Run. unfold seq_pick. rewrite H1, (sm_store _ _ _ _ _ S), Eo', (Hm _ Eo), Anew. cbn [orb andb].
    rewrite bool_decide_eq_true_2 by eauto. cbn [negb].
    destruct (ee_pick ee c (es_current es)) as [t| |]; cbn [ebind sbind].
    2:{ intros _ _. exists gs. split; [reflexivity|exact (sm_store _ _ _ _ _ S)]. }
    2:{ intros _ _. exact I. }
    cbv zeta. set (x := mk_object _ _ _ _). unfold make_commit. fold x. rewrite (sm_store _ _ _ _ _ S).
    destruct (add_object ee x (es_store es)) as [n st] eqn:Ea. apply add_object_spec in Ea; [|exact Nm|exact (sm_named _ _ _ _ _ S)].
    destruct Ea as (En & Ss & Hnm & Hx). cbn [ebind apply_all fst snd]. rewrite Hx.
    assert (Hn0 : st0 !! n = None) by (rewrite En; apply (Fresh orig [es_current es] t)).
    assert (Nec : n <> c) by congruence.
    unfold hook_post_commit. cbn [at_commit hs_head hs_rebase]. rewrite (sm_rebase _ _ _ _ _ S).
    unfold note_rewritten. cbn [gs_hooks hs_head with_hooks gs_store gs_labels gs_name gs_extra hs_rewritten hs_log hs_rebase hs_deferred hs_orig_head hs_updated_head at_commit].
    set (text := match hs_rewritten (gs_hooks gs) with Some t => t | None => "" end).
    assert (Hl1 : text +:+ oid_to_string c +:+ " " +:+ oid_to_string n +:+ String LF "" = write_rewritten_list (l ++ [(c, NonZero n)])).
    { rewrite note_text. unfold text. pose proof (sm_file _ _ _ _ _ S) as Hf. destruct (hs_rewritten (gs_hooks gs)) as [t0|]; cbn in Hf; subst; reflexivity. }
    rewrite Hl1. unfold hook_drop_commit_if_empty. cbn [hs_head hs_orig_head hs_updated_head hs_rewritten gs_store].
    assert (Ef : find_object st n = Some (ob_commit x)) by (unfold find_object; now rewrite Hx). rewrite Ef.
    assert (Kc : c ∉ map fst l).
    { intros H. apply elem_of_list_fmap in H. destruct H as ([c' y] & -> & H). cbn in *. apply collect_in in H; [|exact (sm_keys _ _ _ _ _ S)].
      apply Hcd, (sm_done _ _ _ _ _ S). rewrite <- (sm_rw _ _ _ _ _ S) by eauto. eauto. }
    assert (St0 : st0 ⊆ st) by (etrans; [exact (sm_sub _ _ _ _ _ S)|exact Ss]).
    assert (Up : forall o, is_Some (es_store es !! o) -> is_Some (st !! o)) by (intros o; now apply subset_there).
    assert (Nd1 : NoDup (map fst (l ++ [(c, NonZero n)]))).
    { rewrite map_app. apply NoDup_app. split_and!; [exact (sm_keys _ _ _ _ _ S)| |apply NoDup_singleton].
      intros o Ho. cbn. rewrite elem_of_list_singleton. intros ->. contradiction. }
    assert (Ecur : commit_parents (ob_commit x) = [es_current es]) by reflexivity.
    destruct (commit_is_empty (find_object st) (ob_commit x)) eqn:Ee; cbn [negb ebind exec_commands fold_left exec_command]; intros F _.
    + (* nothing left *)
      assert (On : oid_ok n) by (apply F; cbn; eauto).
      assert (Ok1 : Forall entry_ok (l ++ [(c, NonZero n)])).
      { apply Forall_app. split; [exact (sm_ok _ _ _ _ _ S)|]. constructor; [|constructor]. split; cbn; auto. }
      rewrite Ecur. destruct (add_total (ge_iter v) (Some (write_rewritten_list (l ++ [(c, NonZero n)]))) (l ++ [(c, NonZero n)]) [(c, Zero); (n, Zero)] eq_refl Ok1) as [t1 Et1].
      cbv zeta. rewrite Et1. apply (add_listed _ _ (l ++ [(c, NonZero n)])) in Et1; [|exact Iter|reflexivity|exact Ok1|exact Nd1|].
      2:{ constructor; [split; [exact Oc|exact I]|]. constructor; [split; [exact On|exact I]|constructor]. }
      destruct Et1 as (l1 & -> & Ok2 & Nd2 & Hl2).
      assert (Lk : forall o, collect_map l1 !! o = if decide (o = c \/ o = n) then Some Zero else collect_map l !! o).
      { intros o. rewrite Hl2, collect_snoc. unfold collect_map at 1. cbn [fold_left fst snd]. destruct (decide (o = n)) as [->|Nn].
        - rewrite lookup_insert, decide_True by auto. reflexivity.
        - rewrite lookup_insert_ne by congruence. destruct (decide (o = c)) as [->|Nc'].
          + rewrite lookup_insert, decide_True by auto. reflexivity.
          + rewrite lookup_insert_ne, lookup_empty, decide_False by (congruence || tauto). now rewrite lookup_insert_ne by congruence. }
      eexists _, l1. split; [reflexivity|].
      constructor; cbn; auto.
      * exact (sm_labels _ _ _ _ _ S).
      * intros lb o H. destruct (sm_lab _ _ _ _ _ S _ _ H). auto.
      * intros c' Hc'. rewrite Lk. destruct (decide (c' = c)) as [->|Ne]; [rewrite decide_True, lookup_insert by auto; reflexivity|].
        rewrite lookup_insert_ne by congruence. rewrite decide_False; [now apply (sm_rw _ _ _ _ _ S)|]. intros [H|H]; [contradiction|]. rewrite H, Hn0 in Hc'. now destruct Hc'.
      * intros c' y Hc' Hy. rewrite Lk in Hy. destruct (decide _); [congruence|]. eapply (sm_new _ _ _ _ _ S); eauto.
      * intros c'. destruct (decide (c' = c)) as [->|Ne]; [intros _; apply elem_of_app; right; now left|].
        rewrite lookup_insert_ne by congruence. intros H. apply elem_of_app. left. now apply (sm_done _ _ _ _ _ S).
      * intros c'. rewrite elem_of_app, elem_of_list_singleton. intros [H| ->]; [now apply (sm_node _ _ _ _ _ S)|exact Hc].
      * exact (sm_orig _ _ _ _ _ S).
      * apply (skip_once done c es (es_current es) gs); auto; [exact (sm_orig _ _ _ _ _ S)|exact (sm_skipped _ _ _ _ _ S)|exact (sm_skip _ _ _ _ _ S)].
      * intros q. unfold skip_head. destruct (decide _) as [Eh|_].
        -- intros Hq. split; [|exists c; split; [exact Eh|apply elem_of_app; right; now left]].
           destruct (es_skipped_head es) as [q'|] eqn:Es; injection Hq as <-; apply Up; [|eauto]. now apply (sm_skipped _ _ _ _ _ S).
        -- intros Hq. destruct (sm_skipped _ _ _ _ _ S _ Hq) as [A (h & C & D)]. split; [auto|]. exists h. split; [exact C|]. apply elem_of_app. auto.
    + (* a new commit *)
      assert (On : oid_ok n) by (apply F; cbn; eauto).
      assert (Ok1 : Forall entry_ok (l ++ [(c, NonZero n)])).
      { apply Forall_app. split; [exact (sm_ok _ _ _ _ _ S)|]. constructor; [|constructor]. split; cbn; auto. }
      eexists _, (l ++ [(c, NonZero n)]). split; [reflexivity|]. constructor; cbn; auto.
      * exact (sm_labels _ _ _ _ _ S).
      * intros lb o H. destruct (sm_lab _ _ _ _ _ S _ _ H). auto.
      * intros c' Hc'. rewrite collect_snoc, insert_insert. destruct (decide (c' = c)) as [->|Ne]; [now rewrite !lookup_insert|].
        rewrite !lookup_insert_ne by congruence. now apply (sm_rw _ _ _ _ _ S).
      * intros c' y Hc'. rewrite collect_snoc, lookup_insert_ne by congruence. now apply (sm_new _ _ _ _ _ S).
      * intros c'. rewrite insert_insert. destruct (decide (c' = c)) as [->|Ne]; [intros _; apply elem_of_app; right; now left|].
        rewrite lookup_insert_ne by congruence. intros H. apply elem_of_app. left. now apply (sm_done _ _ _ _ _ S).
      * intros c'. rewrite elem_of_app, elem_of_list_singleton. intros [H| ->]; [now apply (sm_node _ _ _ _ _ S)|exact Hc].
      * exact (sm_orig _ _ _ _ _ S).
      * exact (sm_skip _ _ _ _ _ S).
      * intros q Hq. destruct (sm_skipped _ _ _ _ _ S _ Hq) as [A (h & C & D)]. split; [auto|]. exists h. split; [exact C|]. apply elem_of_app. auto.
  - (* skip *)
    destruct (sm_head _ _ _ _ _ S eq_refl) as [H1 [qx H2]]. destruct (In0 c Hc) as (orig & Eo & Ed).
    assert (Eo' : es_store es !! c = Some orig) by (eapply lookup_weaken; [exact Eo|exact (sm_sub _ _ _ _ _ S)]).
    assert (Oc : oid_ok c) by (apply Ok0; eauto).
    assert (Hcd : c ∉ done). { intros H. apply NoDup_app in ND. destruct ND as (_ & ND & _). apply (ND c H). now left. }
    rewrite exec_cons. cbn [exec_command List.map]. rewrite Eo', run_one. unfold seq_words. rewrite parse_skip by exact Oc. cbn [seq_line].
    unfold hook_skip_upstream_applied_commit. cbv zeta. rewrite H1.
    destruct (add_total (ge_iter v) (hs_rewritten (gs_hooks gs)) l [(c, Zero)] (sm_file _ _ _ _ _ S) (sm_ok _ _ _ _ _ S)) as [t1 Et1].
    rewrite Et1. apply (add_listed _ _ l) in Et1; [|exact Iter|exact (sm_file _ _ _ _ _ S)|exact (sm_ok _ _ _ _ _ S)|exact (sm_keys _ _ _ _ _ S)|].
    2:{ constructor; [|constructor]. split; [exact Oc|exact I]. }
    destruct Et1 as (l1 & -> & Ok1 & Nd1 & Hl1).
    assert (Lk : forall o, collect_map l1 !! o = if decide (o = c) then Some Zero else collect_map l !! o).
    { intros o. rewrite Hl1. unfold collect_map at 1. cbn. destruct (decide (o = c)) as [->|Ne]; [now rewrite lookup_insert|].
      now rewrite lookup_insert_ne, lookup_empty by congruence. }
    eexists _, l1. split; [reflexivity|]. constructor; cbn; auto.
    + exact (sm_named _ _ _ _ _ S).
    + exact (sm_sub _ _ _ _ _ S).
    + exact (sm_store _ _ _ _ _ S).
    + exact (sm_labels _ _ _ _ _ S).
    + exact (sm_lab _ _ _ _ _ S).
    + intros c' Hc'. rewrite Lk. destruct (decide (c' = c)) as [->|Ne]; [now rewrite lookup_insert|].
      rewrite lookup_insert_ne by congruence. now apply (sm_rw _ _ _ _ _ S).
    + intros c' y Hc' Hy. rewrite Lk in Hy. destruct (decide _); [congruence|]. eapply (sm_new _ _ _ _ _ S); eauto.
    + intros c'. destruct (decide (c' = c)) as [->|Ne]; [intros _; apply elem_of_app; right; now left|].
      rewrite lookup_insert_ne by congruence. intros H. apply elem_of_app. left. now apply (sm_done _ _ _ _ _ S).
    + intros c'. rewrite elem_of_app, elem_of_list_singleton. intros [H| ->]; [now apply (sm_node _ _ _ _ _ S)|exact Hc].
    + exact (sm_orig _ _ _ _ _ S).
    + exact (sm_rebase _ _ _ _ _ S).
    + rewrite <- (skip_once done c es (es_current es) gs); [|exact Hcd|exact (sm_orig _ _ _ _ _ S)|exact (sm_skipped _ _ _ _ _ S)|exact (sm_skip _ _ _ _ _ S)].
      now destruct (hs_orig_head (gs_hooks gs)).
    + intros q. unfold skip_head. destruct (decide _) as [Eh|_].
      * intros Hq. split; [|exists c; split; [exact Eh|apply elem_of_app; right; now left]].
        destruct (es_skipped_head es) as [q'|] eqn:Es; injection Hq as <-; [|eauto]. now apply (sm_skipped _ _ _ _ _ S).
      * intros Hq. destruct (sm_skipped _ _ _ _ _ S _ Hq) as [A (h & C & D)]. split; [auto|]. exists h. split; [exact C|]. apply elem_of_app. auto.
  - cbn in NM. discriminate.
Qed.

Lemma path_agrees b x b' : path b x b' -> forall done es gs l, sim b done es gs l -> NoDup (done ++ replayed x) ->
  forallb (fun c => negb (merge_command c)) x = true -> fine (exec_commands ee x es) ->
  agree b' (done ++ replayed x) (exec_commands ee x es) (run_words v (List.map instruction x) gs).
Proof.
  induction 1 as [b|b x1 b1 y b2 P IH B]; intros done es gs l S ND NM F.
  - cbn. exists gs, l. rewrite app_nil_r. auto.
  - rewrite replayed_app in ND |- *. rewrite forallb_app in NM. apply andb_true_iff in NM. destruct NM as [NM1 NM2].
    rewrite map_app, run_app. rewrite exec_app in F |- *.
    assert (ND1 : NoDup (done ++ replayed x1)) by (rewrite app_assoc in ND; apply NoDup_app in ND; tauto).
    assert (F1 : fine (exec_commands ee x1 es)).
    { intros o [z Hz]. apply F. destruct (exec_commands ee x1 es) as [es1|c st|st] eqn:E1; cbn [ebind left_store] in *; eauto.
      exists z. eapply lookup_weaken; [exact Hz|]. apply commands_grow. }
    pose proof (IH done es gs l S ND1 NM1 F1) as A. destruct (exec_commands ee x1 es) as [es1|c st|st]; cbn [ebind agree] in *; [|exact I || idtac|exact I].
    + destruct A as (gs1 & l1 & -> & S1). cbn [sbind]. rewrite app_assoc in ND |- *. eapply block_agrees; eauto.
    + destruct A as (gs1 & -> & Hs). exists gs1. auto.
Qed.
End same.

(** ** The instructions of a plan come in such pieces *)
Lemma path_one st0 node b x b' : block st0 node b x b' -> path st0 node b x b'.
Proof. intros H. rewrite <- (app_nil_l x). eapply path_more; [apply path_nil|exact H]. Qed.

Lemma visit_path d e ee cs cg st fuel r c cm s s' :
  runnable d cs e ee cg -> pe_replace e = ∅ -> (forall c, c ∉ fixup_commits cg) -> present d e ee cs st ->
  node cg c -> pe_find e c = Some cm -> path st (node cg) false (bs_acc s) true ->
  visit fuel e cg r c cm s = Done s' -> path st (node cg) false (bs_acc s') true.
Proof.
  intros R Rep NF Pr Nc Hf Hs Hv. cut (path st (node cg) false (bs_acc s') true /\ True); [tauto|]. revert Hv.
  apply (visit_steps e cg (fun s => path st (node cg) false (bs_acc s) true) (fun _ _ => True) (node cg) r); auto; clear c cm s s' Nc Hf Hs.
  - intros c cm s s' Nc Hf Hs H. split; [|exact I]. revert H. unfold apply_commit. destruct (_ && _)%bool.
    { intros [= <-]. cbn. eapply path_more; [exact Hs|]. now apply block_skip. }
    destruct (is_merge cm) eqn:Em.
    { destruct (merge_parents _ _ _) as [ps|]; [|discriminate]. destruct (already_applied _ _); [discriminate|]. destruct ps as [|first rest]; [discriminate|].
      rewrite Rep, lookup_empty. intros [= <-]. cbn. eapply path_more; [exact Hs|]. apply block_merge. }
    rewrite decide_False by apply NF. rewrite Rep, lookup_empty.
    assert (El : match cg_fixups cg !! c with Some fs => pe_sort e ({[c]} ∪ fs) | None => [c] end = [c]).
    { destruct (cg_fixups cg !! c) as [fs|] eqn:Ef; [|reflexivity].
      assert (fs = ∅) as ->. { apply set_eq. intros f. split; [|set_solver]. intros H. exfalso. apply (NF f). eapply fixups_value; eauto. }
      rewrite (right_id_L ∅ (∪)). pose proof (rn_sort _ _ _ _ _ R {[c]}) as H. rewrite elements_singleton in H. now apply Permutation_singleton_r in H. }
    rewrite El. intros [= <-]. cbn. eapply path_more; [exact Hs|]. apply block_pick; [exact Nc|]. intros x Hx.
    apply (pr_find _ _ _ _ _ Pr) in Hf. unfold find_object in Hf. rewrite Hx in Hf. now injection Hf as ->.
  - intros c prefix s x Hp Hs Ex.
    assert (D : dashed (fst x)) by (eapply create_label_dashed; [|exact Ex]; destruct Hp as [->| ->]; [apply dashed_parent|apply dashed_label]).
    destruct (create_label_total prefix s) as (l & Hn & El). rewrite El in Ex. injection Ex as <-. cbn [fst snd bs_acc bs_used bs_labels] in *.
    assert (P1 : path st (node cg) false (bs_acc s ++ [CreateLabel l]) true) by (eapply path_more; [exact Hs|]; now apply block_label).
    split_and!; auto. intros s' Hs' _. split; [|exact I]. cbn. eapply path_more; [exact Hs'|]. apply block_back.
  - intros p c H. left. eapply edge_moved. exact H.
Qed.

Section whole.
Context (d : dag) (e : plan_env) (v : git_env) (allowed : gset oid) (cs : list constraint) (dest : oid) (cmds : list command).
Context (st : store) (log : list event) (head : head_info).
Notation ee := (ge_exec v).
Context (W : wf_graph (dag_graph d)) (K : knows d e) (P : plannable d e cs) (Rep : pe_replace e = ∅) (Nf : forall t f, FixUpCommit t f ∉ cs)
  (Sort : forall fs, Permutation (pe_sort e fs) (elements fs)) (Iter : forall m, ge_iter v m ≡ₚ map_to_list m)
  (Nm : faithful_names ee) (Ns : named ee st) (Pr : present d e ee cs st) (Fresh : fresh_names ee st) (Anew : ge_reuse v = false)
  (HB : build d e allowed cs = Done (BuiltPlan dest cmds)) (Eh : ee_head ee = hi_oid head).

Lemma same_outcome : Forall (fun x => merge_command x = false) cmds -> fine (exec_commands ee cmds (mk_es st dest ∅ ∅ None)) ->
  match exec_commands ee cmds (mk_es st dest ∅ ∅ None) with
  | Ok es => exists gs l, run_words v (List.map instruction cmds) (disk_start log st head) = Went gs /\
      gs_store gs = es_store es /\ listed (hs_rewritten (gs_hooks gs)) l /\ Forall entry_ok l /\
      (forall c, is_Some (st !! c) -> collect_map l !! c = es_rewritten es !! c) /\
      (forall c x, st !! c = None -> collect_map l !! c = Some x -> x = Zero) /\
      hs_updated_head (gs_hooks gs) = option_map oid_to_string (es_skipped_head es) /\
      (forall q, es_skipped_head es = Some q -> is_Some (es_store es !! q))
  | StopMerge _ st' => exists gs, run_words v (List.map instruction cmds) (disk_start log st head) = Halted gs /\ gs_store gs = st'
  | Err _ => True
  end.
Proof.
  intros NM F. pose proof (build_replays d e allowed cs dest cmds W K P HB) as (ND & _ & _ & _).
  pose proof HB as HB'. apply build_plan_inv in HB'. destruct HB' as (cg & s & Ecg & Ec & Ep & Es & Ecmds & r0 & rs & Er0 & Ed0).
  assert (Nfx : forall f, ~ fixed_up cs f) by (intros f [t H]; now apply Nf in H).
  assert (Cl : clear_of_fixups d cs) by (intros p c _ _; apply Nfx).
  assert (Fit : replacements_fit d e cs) by (intros c r rc _ _ H; rewrite Rep, lookup_empty in H; discriminate).
  destruct (plannable_runnable d e ee cs cg W K P Cl Fit Sort Nm Ecg Ec) as (R & HN & HF).
  assert (NF : forall c, c ∉ fixup_commits cg) by (intros c; rewrite HF; apply Nfx).
  assert (In0 : forall c, node cg c -> exists x, st !! c = Some x /\ ee_decodes ee (ob_message x) = true).
  { intros c Hc. apply HN in Hc. exact (pr_readable _ _ _ _ _ Pr c (pl_exists _ _ _ P c Hc)). }
  assert (Pa : exists b, path st (node cg) false (bs_acc s) b).
  { revert Es. unfold build_commands. apply (fold_bind_inv (plan_root e cg) (fun s => exists b, path st (node cg) false (bs_acc s) b)); [|eexists; apply path_nil].
    intros r s1 s2 Hr [b H1]. unfold plan_root. destruct (root_dest e r) as [p|] eqn:Ed; [|discriminate].
    destruct (pe_find e (root_commit r)) as [cm|] eqn:Ef; [|discriminate]. intros H. exists true.
    assert (Hon : rebuilt_on d cs p (root_commit r) /\ ~ node cg p).
    { assert (Hin : root_edge r ∈ List.map root_edge (find_roots cg)) by (apply elem_of_list_In, in_map, elem_of_list_In; exact Hr).
      destruct r as [p' c|t]; cbn in *; apply find_roots_spec in Hin; destruct Hin as [Hin Hn].
      - injection Ed as <-. split; [now apply (rn_edge _ _ _ _ _ R)|auto].
      - destruct Hin as [A B]. apply (rn_root _ _ _ _ _ R); auto. }
    eapply (visit_path d e ee cs cg st _ r); [exact R|exact Rep|exact NF|exact Pr|apply root_node; exact Hr|exact Ef| |exact H].
    cbn. eapply path_more; [exact H1|]. apply block_reset; [|apply Hon]. eapply (on_there d e v cs st W Pr). apply Hon. }
  destruct Pa as [b Pa]. subst cmds. rewrite replayed_app in ND. cbn in ND. rewrite app_nil_r in ND.
  apply Forall_app in NM. destruct NM as [NM _].
  assert (NM' : forallb (fun c => negb (merge_command c)) (bs_acc s) = true).
  { apply forallb_forall. intros x Hx. rewrite list.Forall_forall in NM. rewrite NM by (now apply elem_of_list_In). reflexivity. }
  assert (S0 : sim v st (node cg) false [] (mk_es st dest ∅ ∅ None) (disk_start log st head) []).
  { constructor; cbn; auto; try discriminate; try (now constructor); try (intros; now rewrite lookup_empty in *).
    intros c [x Hx]. now rewrite lookup_empty in Hx. }
  rewrite exec_app in F |- *. rewrite map_app, run_app.
  assert (F1 : fine (exec_commands ee (bs_acc s) (mk_es st dest ∅ ∅ None))).
  { intros o Ho. apply F. destruct (exec_commands ee (bs_acc s) _); exact Ho. }
  pose proof (path_agrees v st (node cg) Nm Fresh Iter Anew In0 false (bs_acc s) b Pa [] _ _ _ S0 ND NM' F1) as A.
  destruct (exec_commands ee (bs_acc s) (mk_es st dest ∅ ∅ None)) as [es|c st'|st']; cbn [ebind agree] in *; [| |exact I].
  - destruct A as (gs & l & -> & S). unfold exec_commands. cbn [fold_left exec_command ebind].
    eexists _, l. cbn [sbind List.map]. rewrite run_one. unfold seq_words. cbn. split; [reflexivity|]. cbn. destruct S. split_and!; auto.
    intros q Hq. now apply sm_skipped0.
  - destruct A as (gs & -> & Hs). exists gs. auto.
Qed.
End whole.

(** ** The end *)
Lemma end_spec v b groups head gs r r' log' text l :
  (forall refs, branch_table (groups refs) refs) -> gs_name gs = None -> gs_extra gs = true ->
  hs_rewritten (gs_hooks gs) = Some text -> read_rewritten_list text = Some l ->
  end_of_rebase v b groups head gs r = (r', log', true) ->
  rp_store r' = gs_store gs /\ (forall n, rp_refs r' !! n = branch_after b (collect_map l) (rp_refs r) n) /\
  rp_rewrites r' = rp_rewrites r ++ l /\
  forall h, hi_oid head = Some h ->
    match hi_branch head with
    | None =>
        match collect_map l !! h with
        | None => final_head r' = Some h
        | Some (NonZero q) => final_head r' = Some q
        | Some Zero => forall q, hs_updated_head (gs_hooks gs) = Some (oid_to_string q) -> oid_ok q -> final_head r' = Some q
        end
    | Some n =>
        match rp_refs r' !! n with
        | Some o => final_head r' = Some o
        | None => forall q, hs_updated_head (gs_hooks gs) = Some (oid_to_string q) -> oid_ok q -> final_head r' = Some q
        end
    end.
Proof.
  intros Hg En Ex Et El. unfold end_of_rebase. rewrite Et, En, Ex, El.
  destruct (hook_post_rewrite _ _ _ _ _) as [h' ok]. destruct ok; [|discriminate]. cbn [andb].
  set (m := move_branches b (collect_map l) (groups (rp_refs r)) (rp_refs r)).
  destruct (match hs_updated_head (gs_hooks gs) with None => Some None | Some t => option_map Some (oid_from_string t) end) as [sk|] eqn:Es; [|discriminate].
  destruct (mr_ok m) eqn:Ek; [|discriminate]. intros [= <- <-]. cbn [rp_store rp_refs rp_rewrites].
  destruct (move_branches_spec b (collect_map l) (groups (rp_refs r)) (rp_refs r) (Hg _)) as (_ & _ & HM). destruct (HM Ek) as (ls & _ & Hrefs & _).
  split; [reflexivity|]. split; [exact Hrefs|]. split; [reflexivity|]. intros h Hh. unfold final_head. cbn [rp_checkout rp_head rp_refs hi_oid].
  assert (Hsk : forall q, hs_updated_head (gs_hooks gs) = Some (oid_to_string q) -> oid_ok q -> sk = Some q).
  { intros q Hq Oq. rewrite Hq in Es. rewrite nzoid_text_round_trip in Es by exact Oq. cbn in Es. congruence. }
  destruct head as [ho hb]. cbn [hi_oid hi_branch] in *. subst ho. destruct hb as [n|]; cbn [updated_head].
  - destruct (mr_refs m !! n) as [o|] eqn:Er.
    + unfold checkout_of. rewrite decide_False by congruence. exact Er.
    + intros q Hq Oq. rewrite (Hsk q Hq Oq). unfold checkout_of. destruct (decide _) as [Eq|]; [now injection Eq|reflexivity].
  - destruct (collect_map l !! h) as [[|q]|].
    + intros q Hq Oq. rewrite (Hsk q Hq Oq). unfold checkout_of. destruct (decide _) as [Eq|]; [now injection Eq|reflexivity].
    + unfold checkout_of. destruct (decide _) as [Eq|]; [now injection Eq|reflexivity].
    + unfold checkout_of. destruct (decide _) as [Eq|]; [now injection Eq|reflexivity].
Qed.
