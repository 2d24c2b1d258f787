(** An on-disk rebase carries out the plan; what the hooks record. *)
From stdpp Require Import sorting relations.
From Verif Require Import Base TextModel TextProofs EventLogModel DagModel DagSpec DagProofs StrModel StrProofs HookModel HookSpec HookProofs
  PlanModel PlanSpec PlanProofs PlanCycleProofs PlanDfsProofs PlanLabelProofs PlanBuildProofs ExecModel ExecSpec ExecProofs ExecBuildProofs
  ExecAfterProofs ExecDiskProofs SeqModel SeqSpec SeqProofs SeqRunProofs.
Local Open Scope string_scope.
Local Open Scope list_scope.
Local Arguments oid_to_string _ : simpl never.
Local Arguments oid_from_string _ : simpl never.

Lemma written_words d e allowed cs dest cmds head preserve files ok todo :
  wf_graph (dag_graph d) -> (forall fs, Permutation (pe_sort e fs) (elements fs)) -> pe_replace e = ∅ ->
  (forall t f, FixUpCommit t f ∉ cs) -> build d e allowed cs = Done (BuiltPlan dest cmds) ->
  write_state false false head preserve dest cmds = Some (files, ok) -> ("git-rebase-todo", todo) ∈ files ->
  List.map (split_on " ") (lines todo) = List.map instruction cmds.
Proof.
  intros W Sort Rep Nf HB Hw Hin.
  assert (F : Forall disk_ok cmds). { eapply build_disk; eauto. intros f [t H]. now apply Nf in H. }
  destruct (disk_ok_texts cmds F) as (ls & A & B & C).
  assert (E : existsb replaces_original cmds = false).
  { clear -F. induction F as [|x l Hx F IH]; [reflexivity|]. cbn. rewrite IH, orb_false_r. destruct x; try reflexivity. cbn in Hx. subst.
    cbn [replaces_original]. rewrite bool_decide_true by now left. reflexivity. }
  revert Hw. unfold write_state. cbn [orb]. rewrite E, A. intros [= <- <-].
  assert (todo = unlines ls) as ->; [|now rewrite B].
  revert Hin. destruct (hi_oid head), preserve; cbn [app]; rewrite ?elem_of_cons, ?elem_of_nil; naive_solver.
Qed.

(** ** The hooks are told of every commit that is made *)
Record deferral (st0 : store) (log : list event) (s : git_state) (os : list oid) : Prop := {
  df_ing : deferring log os (gs_hooks s);
  df_in : forall o, o ∈ os -> is_Some (gs_store s !! o) /\ st0 !! o = None;
  df_all : forall o, is_Some (gs_store s !! o) -> is_Some (st0 !! o) \/ o ∈ os }.

Lemma deferral_hooks st0 log s os h : deferral st0 log s os -> hs_log h = hs_log (gs_hooks s) -> hs_rebase h = hs_rebase (gs_hooks s) ->
  hs_deferred h = hs_deferred (gs_hooks s) -> deferral st0 log (with_hooks s h) os.
Proof. intros [A B C] E1 E2 E3. constructor; auto. unfold deferring in *. cbn. now rewrite E1, E2, E3. Qed.
Lemma deferral_note st0 log s os c : deferral st0 log s os -> deferral st0 log (note_rewritten c s) os.
Proof. intros H. unfold note_rewritten. destruct (hs_head _); [|exact H]. now apply deferral_hooks. Qed.
Lemma deferral_move st0 log s os c : deferral st0 log s os -> deferral st0 log (move_head c s) os.
Proof. intros H. now apply deferral_hooks. Qed.
Lemma deferral_make st0 log v s os orig ps t : fresh_names (ge_exec v) st0 -> deferral st0 log s os ->
  exists os', deferral st0 log (make_commit v orig ps t s) os'.
Proof.
  intros Fr [A B C]. unfold make_commit. set (x := mk_object _ _ _ _).
  pose proof (add_object_sub (ge_exec v) x (gs_store s)) as S. revert S. unfold add_object. cbn [snd].
  set (n := ee_hash (ge_exec v) x). set (st1 := match gs_store s !! n with Some _ => _ | None => _ end). intros S.
  assert (L : forall o, is_Some (st1 !! o) -> is_Some (gs_store s !! o) \/ o = n).
  { intros o. unfold st1. destruct (gs_store s !! n) eqn:E; [auto|]. destruct (decide (o = n)) as [->|Ne]; [auto|].
    rewrite lookup_insert_ne by congruence. auto. }
  assert (Ln : is_Some (st1 !! n)). { unfold st1. destruct (gs_store s !! n) eqn:E; [eauto|]. rewrite lookup_insert. eauto. }
  exists (os ++ [n]). constructor; cbn [gs_hooks gs_store].
  - destruct A as (A1 & A2 & A3). unfold hook_post_commit. cbn [at_commit hs_head hs_rebase]. rewrite A2. unfold deferring. cbn. split_and!; auto.
    rewrite A3. unfold deferred_text. rewrite map_app, unlines_app. reflexivity.
  - intros o. rewrite elem_of_app, elem_of_list_singleton. intros [H| ->]; [|split; [exact Ln|apply (Fr orig ps t)]].
    destruct (B o H) as [[y Hy] Hn]. split; [|exact Hn]. exists y. eapply lookup_weaken; eauto.
  - intros o H. rewrite elem_of_app, elem_of_list_singleton. destruct (L o H) as [H'| ->]; [|auto]. destruct (C o H'); auto.
Qed.

(** No instruction is to make a commit by hand. *)
Lemma parse_no_tree x r ps : parse_todo (instruction x) <> Some (TCommitTree r ps).
Proof.
  destruct x as [l|[o|l]|c [|a [|]]|c ts|c q ts| | |c|c]; cbn; try discriminate;
    destruct (oid_from_string _); discriminate.
Qed.
Lemma deferral_words st0 log v ws s s' os : fresh_names (ge_exec v) st0 -> (forall r ps, parse_todo ws <> Some (TCommitTree r ps)) ->
  deferral st0 log s os -> seq_words v ws s = Went s' -> exists os', deferral st0 log s' os'.
Proof.
  intros Fr Nt D. unfold seq_words. destruct (parse_todo ws) as [x|]; [|discriminate]. destruct x; cbn [seq_line].
  - destruct (hs_head _); [|discriminate]. intros [= <-]. exists os. destruct D. now constructor.
  - destruct (lookup_place _ _); [|discriminate]. intros [= <-]. exists os. now apply deferral_move.
  - unfold seq_pick. destruct (hs_head _) as [h|]; [|discriminate]. destruct (gs_store s !! o) as [orig|]; [|discriminate].
    destruct (is_merge _ || _)%bool; [discriminate|]. destruct (ge_reuse v && _)%bool.
    { intros [= <-]. exists os. now apply deferral_note, deferral_move. }
    destruct (ee_pick _ _ _); try discriminate. intros [= <-].
    destruct (deferral_make st0 log v s os orig [h] t Fr D) as [os' H]. exists os'. now apply deferral_note.
  - unfold seq_merge. destruct (hs_head _) as [h|]; [|discriminate]. destruct (gs_store s !! o) as [orig|]; [|discriminate].
    destruct (all_some _) as [tips|]; [|discriminate]. destruct (ge_reuse v && _)%bool.
    { intros [= <-]. exists os. now apply deferral_note, deferral_move. }
    destruct (ge_merge _ _ _); try discriminate; intros [= <-].
    + destruct (deferral_make st0 log v s os orig (h :: tips) t Fr D) as [os' H]. exists os'. now apply deferral_note.
    + exists os. now apply deferral_note.
  - discriminate.
  - intros [= <-]. exists os. destruct D. now constructor.
  - unfold hook_drop_commit_if_empty. destruct (hs_head _) as [h|] eqn:Eh; [|intros [= <-]; exists os; now apply deferral_hooks].
    destruct (find_object _ h) as [c|]; [|intros [= <-]; exists os; now apply deferral_hooks].
    destruct (negb _); [intros [= <-]; exists os; now apply deferral_hooks|].
    destruct (commit_parents c) as [|p [|]]; [intros [= <-]; exists os; now apply deferral_hooks| |intros [= <-]; exists os; now apply deferral_hooks].
    cbv zeta. destruct (add_rewritten_list_entries _ _ _); [|discriminate]. intros [= <-]. exists os. now apply deferral_hooks.
  - unfold hook_skip_upstream_applied_commit. cbv zeta.
    destruct (add_rewritten_list_entries _ _ _); [|discriminate]. intros [= <-]. exists os. now apply deferral_hooks.
  - now elim (Nt r ps).
Qed.
Lemma deferral_run st0 log v cmds : fresh_names (ge_exec v) st0 -> forall s s' os, deferral st0 log s os ->
  run_words v (List.map instruction cmds) s = Went s' -> exists os', deferral st0 log s' os'.
Proof.
  intros Fr. induction cmds as [|x cmds IH]; intros s s' os D; [intros [= <-]; eauto|]. intros H. apply run_cons in H.
  destruct H as (s1 & A & B). destruct (deferral_words _ _ _ _ _ _ _ Fr (parse_no_tree x) D A) as [os1 D1]. eauto.
Qed.
Lemma deferral_start st0 log head : deferral st0 log (disk_start log st0 head) [].
Proof. constructor; cbn; [unfold deferring; cbn; now split_and!| |auto]. intros o H. now apply elem_of_nil in H. Qed.
Lemma deferral_read st0 log s os : deferral st0 log s os -> Forall oid_ok os -> read_deferred (hs_deferred (gs_hooks s)) = Some os.
Proof.
  intros [(_ & _ & H3) _ _] F. destruct (hs_deferred _) as [t|]; [rewrite H3; now apply read_deferred_text|].
  destruct os as [|o os]; [reflexivity|]. exfalso. unfold deferred_text in H3. cbn [map unlines] in H3.
  pose proof (hex_nonempty o) as N. destruct (oid_to_string o); [done|discriminate].
Qed.

(** ** The whole plan *)
Lemma disk_fate_at (L L' : oid -> oid -> Prop) d cs e v rw st c : wf_graph (dag_graph d) ->
  (forall p q, rebuilt_on d cs p c \/ parent (dag_graph d) p c -> L p q -> L' p q) ->
  disk_fate_with L d cs e v rw st c -> disk_fate_with L' d cs e v rw st c.
Proof.
  intros W HL [p q H1 H2 H3 H4 H5|p q n x qx H1 H2 H3 H4 H5 H6 H7|qs n H1 H2 H3 H4].
  - eapply disk_skipped; eauto.
  - eapply (disk_picked _ _ _ _ _ _ _ _ p q n x qx); eauto.
  - eapply (disk_merged _ _ _ _ _ _ _ _ qs n); eauto.
    assert (Hp : Forall (fun p => parent (dag_graph d) p c) (parents_of (dag_graph d) c)).
    { apply list.Forall_forall. intros p Hp. now apply parent_parents_of. }
    clear -H3 Hp HL. induction H3; inversion Hp; subst; constructor; auto.
Qed.
(** A new version of a commit exists. *)
Lemma disk_fate_new L d cs e v rw st c n : disk_fate_with L d cs e v rw st c -> rw !! c = Some (NonZero n) -> is_Some (st !! n).
Proof.
  intros [p q H1 H2 H3 H4 H5|p q n' x qx H1 H2 H3 H4 H5 H6 H7|qs n' H1 H2 H3 H4] H; rewrite H1 in H; [discriminate|injection H as ->..].
  - destruct H5 as (orig & A & B & C). eauto.
  - destruct H4 as [(x & orig & A & B & C)|(A & B & C)]; eauto.
Qed.
Section whole.
Context (d : dag) (e : plan_env) (v : git_env) (allowed : gset oid) (cs : list constraint) (dest : oid) (cmds : list command).
Context (st : store) (log : list event) (head : head_info) (gs : git_state).
Context (W : wf_graph (dag_graph d)) (K : knows d e) (P : plannable d e cs) (Rep : pe_replace e = ∅) (Nf : forall t f, FixUpCommit t f ∉ cs)
  (Sort : forall fs, Permutation (pe_sort e fs) (elements fs)) (Iter : forall m, ge_iter v m ≡ₚ map_to_list m)
  (Nm : faithful_names (ge_exec v)) (Ns : named (ge_exec v) st) (Pr : present d e (ge_exec v) cs st) (Fresh : fresh_names (ge_exec v) st)
  (HB : build d e allowed cs = Done (BuiltPlan dest cmds)) (Eh : ee_head (ge_exec v) = hi_oid head)
  (Hd : forall h, hi_oid head = Some h -> is_Some (st !! h))
  (HR : run_words v (List.map instruction cmds) (disk_start log st head) = Went gs)
  (Ok : forall o, is_Some (gs_store gs !! o) -> oid_ok o).

Lemma on_there p c : rebuilt_on d cs p c -> is_Some (st !! p).
Proof.
  intros H. assert (Q : parent (dag_graph d) p c -> is_Some (st !! p)).
  { intros Hp. apply (parent_vertices _ _ _ W) in Hp. destruct (pr_readable _ _ _ _ _ Pr p (proj1 Hp)) as (x & Hx & _). eauto. }
  destruct H as [H|[(_ & _ & H)|(_ & _ & H)]]; auto. exact (pr_dest _ _ _ _ _ Pr p c H).
Qed.

Lemma disk_carried_out : exists l,
  hs_rewritten (gs_hooks gs) = Some (write_rewritten_list l) /\ Forall entry_ok l /\ NoDup (map fst l) /\
  carried_out_on_disk d cs e v st (gs_store gs) (collect_map l) /\ gs_name gs = None /\ gs_extra gs = true /\
  (forall h, hi_oid head = Some h -> exists q, lands d cs (collect_map l) h q /\
     (collect_map l !! h = Some Zero -> hs_updated_head (gs_hooks gs) = Some (oid_to_string q) /\ is_Some (gs_store gs !! q))) /\
  (forall t, hs_updated_head (gs_hooks gs) = Some t -> exists q, t = oid_to_string q /\ is_Some (gs_store gs !! q)).
Proof.
  assert (Nfx : forall f, ~ fixed_up cs f) by (intros f [t H]; now apply Nf in H).
  assert (Cl : clear_of_fixups d cs) by (intros p c _ _; apply Nfx).
  assert (Fit : replacements_fit d e cs) by (intros c r rc _ _ H; rewrite Rep, lookup_empty in H; discriminate).
  pose proof (build_replays d e allowed cs dest cmds W K P HB) as (ND & Rsub & Rall & _).
  pose proof HB as HB'. apply build_plan_inv in HB'. destruct HB' as (cg & s & Ecg & Ec & Ep & Es & Ecmds & r0 & rs & Er0 & Ed0).
  rewrite Ecmds in ND, Rsub, Rall, HR.
  destruct (plannable_runnable d e (ge_exec v) cs cg W K P Cl Fit Sort Nm Ecg Ec) as (R & HN & HF).
  rewrite replayed_app in ND, Rsub, Rall. cbn in ND, Rsub, Rall. rewrite app_nil_r in ND, Rsub, Rall.
  rewrite List.map_app, run_app in HR. apply sbind_went in HR. destruct HR as (gs1 & HR1 & HR2).
  cbn [List.map] in HR2. rewrite run_one in HR2. unfold seq_words in HR2. cbn in HR2. injection HR2 as HR2.
  assert (NF : forall c, c ∉ fixup_commits cg) by (intros c; rewrite HF; apply Nfx).
  assert (In0 : forall c, node cg c -> is_Some (st !! c)).
  { intros c Hc. apply HN in Hc. destruct (K c (pl_exists _ _ _ P c Hc)) as (x & Hx & _). apply (pr_find _ _ _ _ _ Pr) in Hx.
    unfold find_object in Hx. destruct (st !! c); [eauto|discriminate]. }
  assert (Ok1 : okay gs1) by (intros o Ho; apply Ok; now rewrite <- HR2).
  destruct head as [hh hb]. cbn [hi_oid hi_branch] in *.
  destruct (commands_seq d cs e v cg st R NF Rep Iter Fresh In0 on_there s Es ND log hh hb gs1 Ns Eh HR1 Ok1) as (l & HJ & HG).
  exists l. subst gs. cbn [gs_hooks gs_store gs_name gs_extra].
  assert (HL : forall p q, is_Some (st !! p) -> at_ d cs cg (collect_map l) p q -> lands d cs (collect_map l) p q)
    by (intros; eapply at_lands; eauto using on_there).
  assert (HFate : forall c, rebuilt d cs c -> disk_fate d cs e v (collect_map l) (gs_store gs1) c).
  { intros c Hc. assert (Hr : c ∈ replayed (bs_acc s)) by auto.
    pose proof (j_fate _ _ _ _ _ _ _ _ _ HJ c Hr) as Hx. revert Hx. apply disk_fate_at; [exact W|].
    intros p q [Hp|Hp] Ha; apply HL; auto; [eapply on_there; eauto|].
    apply (parent_vertices _ _ _ W) in Hp. destruct (pr_readable _ _ _ _ _ Pr p (proj1 Hp)) as (x & Hx & _). eauto. }
  assert (HRest : forall c x, collect_map l !! c = Some x -> rebuilt d cs c \/ (x = Zero /\ st !! c = None)).
  { intros c x Hx. destruct (j_rw _ _ _ _ _ _ _ _ _ HJ c x Hx) as [H|H]; auto. }
  assert (HIn : forall p q, is_Some (st !! p) -> lands d cs (collect_map l) p q -> is_Some (gs_store gs1 !! q)).
  { intros p q Hp. induction 1 as [p H|p q H|p p' q H Ho Ha IH].
    - destruct Hp as [y Hy]. exists y. eapply lookup_weaken; [exact Hy|exact (j_sub _ _ _ _ _ _ _ _ _ HJ)].
    - destruct (HRest _ _ H) as [Hr|[Hz _]]; [|discriminate]. eapply disk_fate_new; [exact (HFate p Hr)|exact H].
    - apply IH. eapply on_there; eauto. }
  assert (Hne : l <> []).
  { intros ->. assert (Hr : node cg (root_commit r0)) by (apply root_node; rewrite Er0; now left).
    apply HN in Hr. apply HFate in Hr. destruct Hr as [p q H|p q n x qx H|qs n H]; cbn in H; now rewrite lookup_empty in H. }
  split_and!.
  - pose proof (j_file _ _ _ _ _ _ _ _ _ HJ) as F. unfold listed in F. destruct (hs_rewritten (gs_hooks gs1)); [now subst|contradiction].
  - exact (j_ok _ _ _ _ _ _ _ _ _ HJ).
  - exact (j_keys _ _ _ _ _ _ _ _ _ HJ).
  - constructor; [exact (j_sub _ _ _ _ _ _ _ _ _ HJ)|exact HFate|exact HRest].
  - reflexivity.
  - reflexivity.
  - intros h ->. specialize (Hd h eq_refl). destruct (collect_map l !! h) as [[|n]|] eqn:Ex.
    + destruct (HRest _ _ Ex) as [Hr|[_ Hz]]; [|rewrite Hz in Hd; now destruct Hd].
      assert (Hr' : h ∈ replayed (bs_acc s)) by (apply Rall; auto).
      destruct (j_head _ _ _ _ _ _ _ _ _ HJ h Eh Hr' Ex) as (q & Hq & Ha). apply HL in Ha; [|exact Hd].
      exists q. split; [exact Ha|]. intros _. split; [exact Hq|]. eapply HIn; eauto.
    + exists n. split; [now apply lands_new|discriminate].
    + exists h. split; [now apply lands_kept|discriminate].
  - intros t Ht. destruct (j_skip _ _ _ _ _ _ _ _ _ HJ t Ht) as (h & q & E1 & _ & -> & Ha). rewrite Eh in E1. exists q. split; [reflexivity|].
    eapply HIn; [apply Hd; exact E1|]. apply HL; [apply Hd; exact E1|exact Ha].
Qed.

Lemma disk_logged : exists os, deferral st log gs os /\ read_deferred (hs_deferred (gs_hooks gs)) = Some os.
Proof.
  destruct (deferral_run st log v _ Fresh _ _ _ (deferral_start st log head) HR) as [os D]. exists os. split; [exact D|].
  eapply deferral_read; [exact D|]. apply list.Forall_forall. intros o Ho. apply Ok. now apply (df_in _ _ _ _ D).
Qed.

(** ** The end *)
Lemma disk_end b groups r r' log' up :
  (forall refs, branch_table (groups refs) refs) -> be_upstream b = Some up ->
  (forall n h, hi_branch head = Some n -> hi_oid head = Some h -> rp_refs r !! n = Some h /\ is_local n = true) ->
  end_of_rebase v b groups head gs r = (r', log', true) ->
  exists l os,
    carried_out_on_disk d cs e v st (rp_store r') (collect_map l) /\ NoDup (map fst l) /\
    (forall n, rp_refs r' !! n = branch_after b (collect_map l) (rp_refs r) n) /\
    rp_rewrites r' = rp_rewrites r ++ l /\
    (forall o, o ∈ os <-> is_Some (rp_store r' !! o) /\ st !! o = None) /\
    log' = log ++ map (CommitEvent (ge_time v) (ge_tx v)) os ++
           map (fun x => RewriteEvent (ge_time v) (ge_tx v) (NonZero (fst x)) (snd x)) l /\
    (forall h, hi_oid head = Some h ->
       ((exists q, final_head r' = Some q /\ lands d cs (collect_map l) h q) \/
        (hi_branch head = Some (be_main b) /\ collect_map l !! h = Some Zero /\ exists t, up = Some t /\ final_head r' = Some t)) /\
       (forall n, hi_branch head = Some n -> is_Some (rp_refs r' !! n) -> rp_checkout r' = CheckOutBranch n)).
Proof.
  intros Hg Hu Hbr. destruct disk_carried_out as (l & Hf & Hl & Hk & HC & Hname & Hextra & Hhead & Hupd).
  destruct disk_logged as (os & D & Hos). unfold end_of_rebase. rewrite Hf, Hname, Hextra.
  pose proof (rewritten_round_trip l Hl) as Rd. unfold hook_post_rewrite. change (String.eqb "rebase" "amend") with false. cbn [andb].
  rewrite Hos, Rd. cbn [andb]. set (rw := collect_map l) in *. set (m := move_branches b rw (groups (rp_refs r)) (rp_refs r)).
  assert (Hsk : exists sk, match hs_updated_head (gs_hooks gs) with None => Some None | Some t => option_map Some (oid_from_string t) end = Some sk /\
    forall q, hs_updated_head (gs_hooks gs) = Some (oid_to_string q) -> is_Some (gs_store gs !! q) -> sk = Some q).
  { destruct (hs_updated_head (gs_hooks gs)) as [t|] eqn:Et.
    - destruct (Hupd t eq_refl) as (q & -> & Hq). rewrite nzoid_text_round_trip by now apply Ok. cbn. eexists. split; [reflexivity|].
      intros q' Eq Hq'. apply (f_equal (fun o => match o with Some t => oid_from_string t | None => None end)) in Eq. cbv beta iota in Eq. rewrite !nzoid_text_round_trip in Eq by now apply Ok. congruence.
    - exists None. split; [reflexivity|]. discriminate. }
  destruct Hsk as (sk & -> & Hsk). destruct (mr_ok m) eqn:Ek; [|discriminate]. intros [= <- <-].
  destruct (move_branches_spec b rw (groups (rp_refs r)) (rp_refs r) (Hg _)) as (_ & _ & HM). destruct (HM Ek) as (ls & _ & Hrefs & _).
  exists l, os. cbn [rp_store rp_refs rp_rewrites rp_checkout hs_log set_log].
  split; [exact HC|]. split; [exact Hk|]. split; [exact Hrefs|]. split; [reflexivity|]. split.
  { intros o. split; [apply (df_in _ _ _ _ D)|]. intros [H1 H2]. destruct (df_all _ _ _ _ D o H1) as [H|H]; [|exact H]. rewrite H2 in H. now destruct H. }
  split. { destruct (df_ing _ _ _ _ D) as (E1 & _). rewrite E1. now rewrite <- app_assoc. }
  intros h Eh'. destruct (Hhead h Eh') as (q0 & Lq0 & Hz).
  assert (Hq0 : rw !! h = Some Zero -> sk = Some q0) by (intros H; now apply Hsk; apply Hz).
  destruct head as [ho hb]. cbn [hi_oid hi_branch] in *. rewrite Eh' in Hbr |- *. unfold final_head. cbn [rp_checkout rp_head rp_refs hi_oid].
  fold m in Hrefs. destruct hb as [n|]; cbn [updated_head].
  - destruct (Hbr n h eq_refl eq_refl) as [Hn Hloc]. pose proof (Hrefs n) as An. unfold branch_after in An. rewrite Hn, Hloc in An. split.
    + destruct (rw !! h) as [[|q]|] eqn:Er.
      * specialize (Hq0 eq_refl). subst sk. destruct (decide (n = be_main b)) as [->|Hne].
        -- rewrite Hu in An. destruct up as [t|].
           ++ right. split; [reflexivity|]. split; [exact Er|]. exists t. split; [reflexivity|]. rewrite An. unfold checkout_of.
              rewrite decide_False by congruence. first [exact An|reflexivity].
           ++ left. exists q0. split; [|exact Lq0]. rewrite An. unfold checkout_of. destruct (decide _) as [Eq|]; [now injection Eq|reflexivity].
        -- left. exists q0. split; [|exact Lq0]. rewrite An. unfold checkout_of. destruct (decide _) as [Eq|]; [now injection Eq|reflexivity].
      * left. exists q. split; [|now apply lands_new]. rewrite An. unfold checkout_of. rewrite decide_False by congruence. first [exact An|reflexivity].
      * left. exists h. split; [|now apply lands_kept]. rewrite An. unfold checkout_of. rewrite decide_False by congruence. first [exact An|reflexivity].
    + intros n' [= <-] [o Ho]. rewrite Ho. unfold checkout_of. now rewrite decide_False by congruence.
  - split; [|discriminate]. left. destruct (rw !! h) as [[|q]|] eqn:Er.
    + rewrite (Hq0 eq_refl). exists q0. split; [|exact Lq0]. unfold checkout_of. destruct (decide _) as [Eq|]; [now injection Eq|reflexivity].
    + exists q. split; [|now apply lands_new]. unfold checkout_of. destruct (decide _) as [Eq|]; [now injection Eq|reflexivity].
    + exists h. split; [|now apply lands_kept]. unfold checkout_of. destruct (decide _) as [Eq|]; [now injection Eq|reflexivity].
Qed.
End whole.
