(** From requests to what becomes of the commits. *)
From stdpp Require Import sorting relations.
From Verif Require Import Base TextModel DagModel DagSpec DagProofs StrModel StrProofs HookModel PlanModel PlanSpec
  PlanProofs PlanCycleProofs PlanDfsProofs PlanLabelProofs PlanBuildProofs ExecModel ExecSpec ExecProofs.
Local Open Scope string_scope.
Local Open Scope list_scope.

Lemma parent_one g p p' c : wf_graph g -> ~ merge_commit g c -> parent g p c -> parent g p' c -> p = p'.
Proof.
  intros W Nm H H'. pose proof (parent_vertices _ _ _ W H) as [_ Hv].
  apply parent_parents_of in H, H'; [|exact W..].
  destruct (parents_of g c) as [|a [|b l]] eqn:E; [now apply elem_of_nil in H|set_solver|].
  exfalso. apply Nm. apply vertices_spec in Hv. destruct Hv as [ps Hps]. exists ps. split; [exact Hps|].
  rewrite <- (parents_of_spec _ _ _ _ W Hps), E. cbn. lia.
Qed.

Lemma rebuilt_below d cs p t : targets_stay d cs -> fixup_target cs t -> ~ moves d cs t -> parent (dag_graph d) p t -> ~ rebuilt d cs p.
Proof.
  intros T Ht Nm Hp Hr. apply (T t Ht).
  - intros [q H]. apply Nm. exists q. destruct H; [now left|right; now left].
  - destruct Hr as [[q [H|[H|H]]]|H].
    + exists p. split; [left; exists q; auto|now apply tc_once].
    + exists p. split; [left; exists q; auto|now apply tc_once].
    + destruct H as (_ & _ & _ & a & Ha & Hap). exists a. split; [exact Ha|]. eapply tc_r; eauto.
    + exists p. split; [auto|now apply tc_once].
Qed.

Lemma plannable_runnable d e ee cs cg :
  wf_graph (dag_graph d) -> knows d e -> plannable d e cs -> clear_of_fixups d cs -> replacements_fit d e cs ->
  (forall fs, Permutation (pe_sort e fs) (elements fs)) -> faithful_names ee ->
  build_constraints d cs = Done cg -> check_for_cycles (cg_inner cg) = Done None ->
  runnable d cs e ee cg /\ (forall c, node cg c <-> rebuilt d cs c) /\ (forall c, c ∈ fixup_commits cg <-> fixed_up cs c).
Proof.
  intros W K P Cl Fit Sort Nm Ecg Ec. destruct (build_constraints_spec d cs W) as (_ & _ & H3).
  destruct (H3 cg Ecg) as (Hfx & Ht & He). destruct (node_rebuilt d cs cg (pl_stay _ _ _ P) Ht He) as [HM HN].
  assert (He' : forall p c, edge (cg_inner cg) p c <-> new_parent d cs p c).
  { intros p c. rewrite He. apply code_parent_new. exact (pl_stay _ _ _ P). }
  assert (Hfix : forall c, c ∈ fixup_commits cg <-> fixed_up cs c).
  { intros c. unfold fixup_commits, fixed_up. rewrite all_values_spec. setoid_rewrite Hfx. reflexivity. }
  assert (Mc : forall c cm, node cg c -> pe_find e c = Some cm -> is_merge cm = true <-> merge_commit (dag_graph d) c).
  { intros c cm Nd Hf. apply merge_commit_spec with e; auto. apply (pl_exists _ _ _ P). now apply HN. }
  assert (Pc : forall c cm, node cg c -> pe_find e c = Some cm -> commit_parents cm = parents_of (dag_graph d) c).
  { intros c cm Nd Hf. destruct (K c) as (cm' & Hf' & H); [apply (pl_exists _ _ _ P); now apply HN|]. congruence. }
  split; [|auto]. constructor.
  - intros p c H. left. now apply He'.
  - intros p c Tc Nc Hd. cbn in Hd. destruct (pe_find e c) as [cm|] eqn:Hf; [|discriminate].
    assert (Nd : node cg c) by now right. pose proof (Pc c cm Nd Hf) as Hps. rewrite Hps in Hd.
    destruct (parents_of (dag_graph d) c) as [|p' l] eqn:Epo; [discriminate|]. injection Hd as ->.
    assert (Hp : parent (dag_graph d) p c) by (apply parent_parents_of; [exact W|]; rewrite Epo; now left).
    assert (Tc' : fixup_target cs c) by now apply Ht. assert (Nc' : ~ moves d cs c) by (intros H; now apply Nc, HM).
    split; [right; left; auto|]. rewrite HN. eapply rebuilt_below; eauto. exact (pl_stay _ _ _ P).
  - exact Mc.
  - exact Pc.
  - intros c p Nd M Hp. right. right. split_and!; [exact M|now apply HN|]. now apply parent_parents_of.
  - intros c p Nd M Hp Np Hn. destruct (pl_merge _ _ _ P c M) as (_ & _ & C & _); [now apply HN|].
    destruct Hn as [Hn|Hn]; [contradiction|]. apply Np. apply HM. apply C; [now apply parent_parents_of|now apply Ht].
  - intros c Nd M. rewrite Hfix. apply (pl_merge _ _ _ P c M). now apply HN.
  - intros p c H. rewrite !Hfix. eapply Cl. exact H.
  - intros p p' c Nmc [H|[(H1 & H2 & H3')|(M & _)]] [H'|[(H1' & H2' & H3'')|(M' & _)]]; try contradiction.
    + eapply (pl_one _ _ _ P); eauto.
    + exfalso. apply H2'. exists p. exact H.
    + exfalso. apply H2. exists p'. exact H'.
    + eapply parent_one; eauto.
  - intros c r rc Nd Nmc Hr Hf. eapply Fit; eauto. now apply HN.
  - exact Sort.
  - intros t f. apply (Hfx t f).
  - exact Nm.
Qed.

Lemma at_lands d cs e ee cg s es p q :
  (forall c, node cg c <-> rebuilt d cs c) -> J d cs e ee cg s es ->
  at_ d cs cg (es_rewritten es) p q -> lands d cs (es_rewritten es) p q.
Proof.
  intros HN HJ. induction 1 as [p N Nf|p q N Nf H|p p' q N Nf H Ho Ha IH].
  - apply lands_kept. destruct (es_rewritten es !! p) as [v|] eqn:Ev; [|reflexivity]. exfalso.
    destruct (j_rw _ _ _ _ _ _ _ HJ _ _ Ev) as [H|H]; [|auto]. apply N. exact (j_node _ _ _ _ _ _ _ HJ _ H).
  - now apply lands_new.
  - eapply lands_skipped; eauto.
Qed.

Lemma in_memory_commands ee st dest cmds st' rw head :
  rebase_in_memory ee st dest cmds = Ok (st', rw, head) ->
  exists es, exec_commands ee cmds (mk_es st dest ∅ ∅ None) = Ok es /\
    st' = es_store es /\ rw = es_rewritten es /\ head = new_head ee es.
Proof.
  unfold rebase_in_memory. destruct (List.find merge_command cmds) as [x|] eqn:Ef.
  - apply find_some in Ef. destruct Ef as [_ Hm]. destruct x; cbn in Hm; discriminate.
  - intros H. apply ebind_ok in H. destruct H as (es & A & B). injection B as <- <- <-. eauto.
Qed.

Lemma build_carried_out d e ee allowed cs dest cmds st st' rw head :
  wf_graph (dag_graph d) -> knows d e -> plannable d e cs -> clear_of_fixups d cs -> replacements_fit d e cs ->
  (forall fs, Permutation (pe_sort e fs) (elements fs)) -> faithful_names ee -> named ee st ->
  build d e allowed cs = Done (BuiltPlan dest cmds) ->
  rebase_in_memory ee st dest cmds = Ok (st', rw, head) ->
  carried_out d cs e ee st st' rw head.
Proof.
  intros W K P Cl Fit Sort Nm Ns HB HR.
  pose proof (build_replays d e allowed cs dest cmds W K P HB) as (ND & Rsub & Rall & _).
  apply build_plan_inv in HB. destruct HB as (cg & s & Ecg & Ec & Ep & Es & -> & _).
  destruct (plannable_runnable d e ee cs cg W K P Cl Fit Sort Nm Ecg Ec) as (R & HN & HF).
  rewrite replayed_app in ND, Rsub, Rall. cbn in ND, Rsub, Rall. rewrite app_nil_r in ND, Rsub, Rall.
  apply in_memory_commands in HR. destruct HR as (es & Hx & -> & -> & ->).
  rewrite exec_app in Hx. apply ebind_ok in Hx. destruct Hx as (es' & Hx & Hx'). unfold exec_commands in Hx'. cbn in Hx'.
  injection Hx' as ->.
  destruct (commands_exec d cs e ee cg R s Es ND st dest es Ns Hx) as [HJ Hst].
  assert (HL : forall p q, at_ d cs cg (es_rewritten es) p q -> lands d cs (es_rewritten es) p q) by (intros; eapply at_lands; eauto).
  constructor.
  - exact Hst.
  - intros c Hc Nf. eapply fate_mono; [exact HL|reflexivity|reflexivity|].
    apply (j_fate _ _ _ _ _ _ _ HJ); [auto|]. now rewrite HF.
  - intros c [v Ev]. destruct (j_rw _ _ _ _ _ _ _ HJ _ _ Ev) as [H|H]; [auto|]. right. now apply HF.
  - intros f n Hf Hn. apply HF in Hf. destruct (j_fix _ _ _ _ _ _ _ HJ f n Hf Hn) as (t & A & B & C). exists t.
    split_and!; auto. now rewrite <- HF.
  - intros t f n Hf Nt Er S1 S2 Hn. eapply (j_into _ _ _ _ _ _ _ HJ t f n); eauto; [now rewrite HF|]. split; auto.
  - intros h Eh Nf. unfold new_head. rewrite Eh. destruct (es_rewritten es !! h) as [[|o]|] eqn:Ev.
    + destruct (j_head _ _ _ _ _ _ _ HJ h Eh) as (q & A & B); [now rewrite HF|exact Ev|]. rewrite A. eauto.
    + exists o. split; [reflexivity|]. now apply lands_new.
    + exists h. split; [reflexivity|]. now apply lands_kept.
  - intros Eh. unfold new_head. now rewrite Eh.
Qed.

(** ** No internal errors *)
Section errors.
Context (ee : exec_env) (st : store).

Definition place_there (t : oid_or_label) : Prop := match t with AtOid o => there st o | AtLabel _ => True end.
Definition command_ok (x : command) : Prop :=
  match x with
  | Reset_ t => place_there t
  | Pick c l => readable ee st c /\ l <> [] /\ Forall (there st) l
  | Replace c r ts => there st c /\ readable ee st r /\ Forall place_there ts
  | Break_ => False
  | SkipUpstream c => there st c
  | Merge c _ => merge_in st c
  | CreateLabel _ | RegisterExtra | DetectEmpty _ => True
  end.

Definition state_ok (defined : list string) (es : exec_state) : Prop :=
  st ⊆ es_store es /\ is_Some (es_store es !! es_current es) /\
  (forall l, l ∈ defined -> is_Some (es_labels es !! l)) /\
  (forall l o, es_labels es !! l = Some o -> is_Some (es_store es !! o)) /\
  (forall c o, es_rewritten es !! c = Some (NonZero o) -> is_Some (es_store es !! o)).

Lemma subset_there (st1 st2 : store) o : st1 ⊆ st2 -> is_Some (st1 !! o) -> is_Some (st2 !! o).
Proof. intros S [x H]. exists x. eapply lookup_weaken; eauto. Qed.

Lemma add_object_there x st1 o st2 : add_object ee x st1 = (o, st2) -> st1 ⊆ st2 /\ is_Some (st2 !! o).
Proof.
  unfold add_object. destruct (st1 !! ee_hash ee x) as [y|] eqn:Ey; intros [= <- <-]; split; eauto.
  - now apply insert_subseteq.
  - rewrite lookup_insert. eauto.
Qed.

Context (Hpick : forall c q, ee_pick ee c q <> Broken) (Hamend : forall c q, ee_amend ee c q <> Broken).

Lemma apply_all_ok q orig l : forall st1 made, st ⊆ st1 -> Forall (there st) l ->
  (made = None -> l <> []) -> (forall o, made = Some o -> is_Some (st1 !! o)) ->
  (exists st2 o, apply_all ee st1 q orig made l = Ok (st2, Some o) /\ st1 ⊆ st2 /\ is_Some (st2 !! o)) \/
  exists c st2, apply_all ee st1 q orig made l = StopMerge c st2 /\ stopped_by ee st c.
Proof.
  induction l as [|c l IH]; intros st1 made S Hl Hn Hm; cbn [apply_all].
  - destruct made as [o|]; [|exfalso; now apply Hn]. left. exists st1, o. auto.
  - inversion Hl as [|? ? Hc Hl']; subst. destruct (subset_there _ _ _ S Hc) as [x Ex]. rewrite Ex.
    destruct (is_merge (ob_commit x)) eqn:Em.
    { right. exists c, st1. split; [reflexivity|]. left. exists x. split; [|exact Em]. destruct Hc as [x' Hx'].
      rewrite (lookup_weaken _ _ _ _ Hx' S) in Ex. now injection Ex as <-. }
    assert (Step : forall a : attempt, a <> Broken -> (a = Conflict -> stopped_by ee st c) ->
      (exists st2 o, match a with
                     | MadeTree t => let n := mk_object (mk_commit [q] t) (ob_author orig) (ee_stamp ee (ob_committer orig)) (ob_message orig) in
                         let (o, st') := add_object ee n st1 in apply_all ee st' q orig (Some o) l
                     | Conflict => StopMerge c st1 | Broken => Err st1 end = Ok (st2, Some o) /\ st1 ⊆ st2 /\ is_Some (st2 !! o)) \/
      exists c' st2, match a with
                     | MadeTree t => let n := mk_object (mk_commit [q] t) (ob_author orig) (ee_stamp ee (ob_committer orig)) (ob_message orig) in
                         let (o, st') := add_object ee n st1 in apply_all ee st' q orig (Some o) l
                     | Conflict => StopMerge c st1 | Broken => Err st1 end = StopMerge c' st2 /\ stopped_by ee st c').
    { intros [t| |] Hb Hs; [|right; eauto|congruence]. cbv zeta. destruct (add_object ee _ st1) as [o st2] eqn:Ea.
      apply add_object_there in Ea. destruct Ea as [S2 H2].
      assert (Hm2 : forall o', Some o = Some o' -> is_Some (st2 !! o')) by (intros o' [= <-]; exact H2).
      assert (Hn2 : Some o = None -> l <> []) by discriminate.
      destruct (IH st2 (Some o) ltac:(etrans; eauto) Hl' Hn2 Hm2) as [(st3 & o3 & A & B & C)|(c' & st3 & A & Hs')].
      - left. exists st3, o3. split_and!; auto. etrans; eauto.
      - right. eauto. }
    destruct made as [r|]; apply Step; auto; intros Hc'; right; [right|left]; eauto.
Qed.

Lemma command_runs x es defined : command_ok x -> state_ok defined es -> (forall l, l ∈ label_uses x -> l ∈ defined) ->
  (exists es', exec_command ee x es = Ok es' /\ state_ok (defined ++ label_defs x) es') \/
  exists c st', exec_command ee x es = StopMerge c st' /\ stopped_by ee st c.
Proof.
  intros Hx (S & Cur & Def & Lab & Rew) Hu.
  assert (Same : forall o, is_Some (es_store es !! o) -> label_defs x = [] ->
    state_ok (defined ++ label_defs x) (mk_es (es_store es) o (es_labels es) (es_rewritten es) (es_skipped_head es))).
  { intros o Ho E0. rewrite E0, app_nil_r. split_and!; auto. }
  destruct x as [l|t|c l|c ts|c r ts| | |c|c]; cbn in Hx |- *.
  - left. eexists. split; [reflexivity|]. split_and!; cbn; auto.
    + intros l'. rewrite elem_of_app, elem_of_list_singleton. destruct (decide (l' = l)) as [->|Ne]; [rewrite lookup_insert; eauto|].
      rewrite lookup_insert_ne by congruence. intros [H|H]; [auto|contradiction].
    + intros l' o. destruct (decide (l' = l)) as [->|Ne]; [rewrite lookup_insert; now intros [= <-]|].
      rewrite lookup_insert_ne by congruence. apply Lab.
  - left. destruct t as [o|l]; cbn in Hx.
    + eexists. split; [reflexivity|]. apply Same; [|reflexivity].
      destruct (es_rewritten es !! o) as [[|n]|] eqn:E0; [|now apply (Rew o)|]; eapply subset_there; eauto.
    + destruct (Def l) as [o Ho]; [apply Hu; now left|]. rewrite Ho. eexists. split; [reflexivity|]. apply Same; eauto.
  - unfold exec_pick. destruct Cur as [qx Eqx]. rewrite Eqx. destruct Hx as ((orig & Eo & Ed) & Hl & Hth).
    rewrite (lookup_weaken _ _ _ _ Eo S), Ed. cbn [negb].
    destruct (apply_all_ok (es_current es) orig l (es_store es) None S Hth) as [(st2 & o & A & B & C)|(c' & st2 & A & Hs)];
      [auto|discriminate| |right; rewrite A; cbn; eauto]. left.
    rewrite A. cbn [ebind fst snd]. destruct C as [n En]. rewrite En.
    assert (Up : forall o', is_Some (es_store es !! o') -> is_Some (st2 !! o')) by (intros o'; now apply subset_there).
    assert (S2 : st ⊆ st2) by (etrans; eauto).
    destruct (commit_is_empty (find_object st2) (ob_commit n)); eexists; (split; [reflexivity|]); rewrite app_nil_r;
      (split; [|split; [|split; [|split]]]); cbn.
    + exact S2.
    + apply Up. eauto.
    + exact Def.
    + intros l' o' H. apply Up. eauto.
    + intros c' o'. destruct (decide (c' = c)) as [->|Ne]; [rewrite lookup_insert; discriminate|].
      rewrite lookup_insert_ne by congruence. intros H. apply Up. eauto.
    + exact S2.
    + eauto.
    + exact Def.
    + intros l' o' H. apply Up. eauto.
    + intros c' o'. rewrite insert_all_lookup. destruct (decide _); [intros [= <-]; eauto|].
      destruct (decide (c' = c)) as [->|Ne]; [rewrite lookup_insert; intros [= <-]; eauto|].
      rewrite lookup_insert_ne by congruence. intros H. apply Up. eauto.
  - right. exists c, (es_store es). split; [reflexivity|]. now left.
  - left. destruct Hx as (Hc & (rx & Er & Ed) & Hts). unfold exec_replace.
    destruct (subset_there _ _ _ S Hc) as [cx ->]. rewrite (lookup_weaken _ _ _ _ Er S).
    assert (exists qs, all_some (List.map (place_of (es_labels es)) ts) = Some qs /\
              forallb (fun q => bool_decide (is_Some (es_store es !! q))) qs = true) as (qs & -> & Eb).
    { revert Hts Hu. cbn. clear -S Def Lab. induction ts as [|t ts IH]; intros Hts Hu.
      - exists []. auto.
      - inversion Hts as [|? ? Ht Hts']; subst. destruct IH as (qs & A & B); [exact Hts'| |].
        { intros l Hl. apply Hu. cbn. apply elem_of_app. auto. }
        assert (exists q, place_of (es_labels es) t = Some q /\ is_Some (es_store es !! q)) as (q & Eq & Hq).
        { destruct t as [o|l]; cbn; [exists o; split; [reflexivity|eapply subset_there; eauto]|].
          destruct (Def l) as [o Ho]; [apply Hu; cbn; now left|]. exists o. split; [exact Ho|eauto]. }
        exists (q :: qs). cbn. rewrite Eq, A. split; [reflexivity|]. rewrite B. rewrite bool_decide_eq_true_2 by exact Hq. reflexivity. }
    rewrite Eb, Ed. cbn [negb orb]. destruct (add_object ee _ (es_store es)) as [o st1] eqn:Ea.
    apply add_object_there in Ea. destruct Ea as [S1 H1]. eexists. split; [reflexivity|]. rewrite app_nil_r.
    assert (Up : forall o', is_Some (es_store es !! o') -> is_Some (st1 !! o')) by (intros o'; now apply subset_there).
    split; [|split; [|split; [|split]]]; cbn; [etrans; eauto|exact H1|exact Def|intros l' o' H; apply Up; eauto|].
    intros c' o'. destruct (decide (c' = c)) as [->|Ne]; [rewrite lookup_insert; now intros [= <-]|].
    rewrite lookup_insert_ne by congruence. intros H. apply Up. eauto.
  - destruct Hx.
  - left. exists es. split; [reflexivity|]. rewrite app_nil_r. split_and!; auto.
  - left. exists es. split; [reflexivity|]. rewrite app_nil_r. split_and!; auto.
  - left. destruct (subset_there _ _ _ S Hx) as [cx ->]. eexists. split; [reflexivity|]. rewrite app_nil_r.
    split_and!; cbn; auto. intros c' o'. destruct (decide (c' = c)) as [->|Ne]; [rewrite lookup_insert; discriminate|].
    rewrite lookup_insert_ne by congruence. apply Rew.
Qed.

Lemma commands_run cmds : forall es defined, Forall command_ok cmds -> state_ok defined es ->
  (forall l1 x l2 l, cmds = l1 ++ x :: l2 -> l ∈ label_uses x -> l ∈ defined ++ defs l1) ->
  (exists es', exec_commands ee cmds es = Ok es') \/
  exists c st', exec_commands ee cmds es = StopMerge c st' /\ stopped_by ee st c.
Proof.
  induction cmds as [|x cmds IH]; intros es defined Hc Hs Hu.
  - left. exists es. reflexivity.
  - inversion Hc as [|? ? Hx Hc']; subst. rewrite exec_cons.
    destruct (command_runs x es defined Hx Hs) as [(es' & -> & Hs')|(c & st' & -> & Hstop)].
    + intros l Hl. specialize (Hu [] x cmds l eq_refl Hl). now rewrite app_nil_r in Hu.
    + cbn [ebind]. apply (IH es' (defined ++ label_defs x)); auto. intros l1 y l2 l -> Hl.
      specialize (Hu (x :: l1) y l2 l eq_refl Hl). cbn in Hu. now rewrite <- app_assoc.
    + right. cbn. eauto.
Qed.
End errors.

(** The commands of a plan. *)
Lemma visit_commands_ok d e ee cs cg st fuel r c cm s s' :
  runnable d cs e ee cg -> (forall c, node cg c <-> rebuilt d cs c) -> (forall c, c ∈ fixup_commits cg <-> fixed_up cs c) ->
  wf_graph (dag_graph d) -> plannable d e cs -> present d e ee cs st ->
  node cg c -> pe_find e c = Some cm -> Forall (command_ok ee st) (bs_acc s) ->
  visit fuel e cg r c cm s = Done s' -> Forall (command_ok ee st) (bs_acc s').
Proof.
  intros R HN HF W P Pr Nc Hf Hs Hv.
  assert (Rd : forall c, node cg c -> readable ee st c).
  { intros c' H. apply (pr_readable _ _ _ _ _ Pr), (pl_exists _ _ _ P). now apply HN. }
  assert (Th : forall c, readable ee st c -> there st c) by (intros c' (x & H & _); unfold there; eauto).
  cut (Forall (command_ok ee st) (bs_acc s') /\ True); [tauto|]. revert Hv.
  apply (visit_steps e cg (fun s => Forall (command_ok ee st) (bs_acc s)) (fun _ _ => True) (node cg) r); auto;
    clear c cm s s' Nc Hf Hs.
  - intros c cm s s' Nc Hf Hs H. split; [|exact I]. revert H. unfold apply_commit. destruct (_ && _)%bool.
    { intros [= <-]. cbn. apply Forall_app. split; [exact Hs|]. apply Forall_singleton. cbn. auto. }
    destruct (is_merge cm) eqn:Em.
    { destruct (merge_parents _ _ _) as [ps|] eqn:Eps; [|discriminate].
      destruct (already_applied _ _); [discriminate|]. destruct ps as [|first rest]; [discriminate|].
      assert (U : forall t, t ∈ first :: rest -> place_there st t).
      { intros t Ht. unfold merge_parents in Eps. apply all_some_spec in Eps.
        assert (Hin : Some t ∈ List.map Some (first :: rest)) by (apply elem_of_list_In, in_map, elem_of_list_In; exact Ht).
        rewrite <- Eps in Hin. apply elem_of_list_In, in_map_iff in Hin. destruct Hin as (p & Ep & Hp).
        destruct (decide _); [destruct (bs_labels s !! p); [injection Ep as <-; exact I|discriminate]|].
        injection Ep as <-. cbn. apply Th, (pr_readable _ _ _ _ _ Pr). apply elem_of_list_In in Hp.
        rewrite (rn_parents d cs e ee cg R c cm Nc Hf) in Hp. apply parent_parents_of in Hp; [|exact W].
        now apply (parent_vertices _ _ _ W) in Hp. }
      destruct (pe_replace e !! c) as [rp|] eqn:Er; intros [= <-]; cbn; (apply Forall_app; split; [exact Hs|]);
        (apply Forall_cons; split; [cbn; apply U; now left|]); apply Forall_singleton; cbn.
      - destruct (pr_replace _ _ _ _ _ Pr c rp Er) as [A _]. split_and!; auto. apply Forall_forall. exact U.
      - apply (pr_find _ _ _ _ _ Pr) in Hf. unfold find_object in Hf. destruct (st !! c) as [x|] eqn:Ex; [|discriminate].
        exists x. split; [exact Ex|]. now injection Hf as ->. }
    destruct (decide _); [intros [= <-]; exact Hs|].
    destruct (pe_replace e !! c) as [rp|] eqn:Er.
    + destruct (pe_find e rp) as [rc|] eqn:Erc; [|discriminate]. intros [= <-]. cbn. apply Forall_app; split; [exact Hs|].
      apply Forall_singleton. cbn. destruct (pr_replace _ _ _ _ _ Pr c rp Er) as [A B]. split_and!; auto.
      apply Forall_forall. intros t Ht. apply elem_of_list_In, in_map_iff in Ht. destruct Ht as (p & <- & Hp).
      destruct (bs_labels s !! p); [exact I|]. cbn. eapply B; [exact Erc|]. now apply elem_of_list_In.
    + intros [= <-]. cbn. apply Forall_app; split; [exact Hs|].
      apply Forall_cons. split; [|apply Forall_singleton; exact I]. cbn. split; [auto|].
      destruct (cg_fixups cg !! c) as [fs|] eqn:Efs.
      * split.
        -- intros E0. assert (Hin : c ∈ pe_sort e ({[c]} ∪ fs)); [|rewrite E0 in Hin; now apply elem_of_nil in Hin].
           rewrite (rn_sort d cs e ee cg R), elem_of_elements. set_solver.
        -- apply Forall_forall. intros f. rewrite (rn_sort d cs e ee cg R), elem_of_elements, elem_of_union, elem_of_singleton.
           intros [->|Hf']; [auto|]. apply (pr_fixup _ _ _ _ _ Pr), HF. eapply fixups_value; eauto.
      * split; [discriminate|]. apply Forall_singleton. auto.
  - intros c prefix s x _ Hs Ex. destruct (create_label_total prefix s) as (l & Hn & El). rewrite El in Ex. injection Ex as <-.
    cbn. assert (Forall (command_ok ee st) (bs_acc s ++ [CreateLabel l])).
    { apply Forall_app. split; [exact Hs|]. apply Forall_singleton. exact I. }
    split_and!; auto. intros s' Hs' _. split; [|exact I]. apply Forall_app. split; [exact Hs'|]. apply Forall_singleton. exact I.
  - intros p c H. left. eapply edge_moved. exact H.
Qed.

Lemma build_runs d e ee allowed cs dest cmds st :
  wf_graph (dag_graph d) -> knows d e -> plannable d e cs -> clear_of_fixups d cs -> replacements_fit d e cs ->
  (forall fs, Permutation (pe_sort e fs) (elements fs)) -> faithful_names ee -> named ee st ->
  present d e ee cs st -> (forall c q, ee_pick ee c q <> Broken) -> (forall c q, ee_amend ee c q <> Broken) ->
  build d e allowed cs = Done (BuiltPlan dest cmds) ->
  (exists r, rebase_in_memory ee st dest cmds = Ok r) \/
  exists c st', rebase_in_memory ee st dest cmds = StopMerge c st' /\ stopped_by ee st c.
Proof.
  intros W K P Cl Fit Sort Nm Ns Pr Hpk Ham HB. pose proof (build_labels d e allowed cs dest cmds HB) as [_ HL].
  apply build_plan_inv in HB. destruct HB as (cg & s & Ecg & Ec & Ep & Es & -> & r0 & rs & Er0 & Ed0).
  destruct (plannable_runnable d e ee cs cg W K P Cl Fit Sort Nm Ecg Ec) as (R & HN & HF).
  assert (Dest : forall r p, r ∈ find_roots cg -> root_dest e r = Some p -> there st p).
  { intros r p Hr Hd. assert (Hin : root_edge r ∈ List.map root_edge (find_roots cg)).
    { apply elem_of_list_In, in_map, elem_of_list_In. exact Hr. }
    destruct r as [p' c|t]; cbn in Hd, Hin; apply find_roots_spec in Hin; destruct Hin as [Hin _].
    - injection Hd as <-. destruct (build_constraints_spec d cs W) as (_ & _ & H3). destruct (H3 cg Ecg) as (_ & _ & He).
      apply (pr_dest _ _ _ _ _ Pr p' c). apply (code_parent_new d cs p' c (pl_stay _ _ _ P)). now apply He.
    - destruct (pe_find e t) as [cm|] eqn:Hf; [|discriminate]. pose proof (rn_parents d cs e ee cg R t cm (reached_node _ _ _ Hin) Hf) as Hps.
      destruct (commit_parents cm) as [|p' l]; [discriminate|]. injection Hd as ->.
      assert (Hp : parent (dag_graph d) p t) by (apply parent_parents_of; [exact W|]; rewrite <- Hps; now left).
      apply (parent_vertices _ _ _ W) in Hp. destruct (pr_readable _ _ _ _ _ Pr p (proj1 Hp)) as (x & H & _). unfold there. eauto. }
  assert (Ok1 : Forall (command_ok ee st) (bs_acc s ++ [RegisterExtra])).
  { apply Forall_app. split; [|apply Forall_singleton; exact I]. revert Es. unfold build_commands.
    apply (fold_bind_inv (plan_root e cg) (fun s => Forall (command_ok ee st) (bs_acc s))); [|constructor].
    intros r s1 s2 Hr H1. unfold plan_root. destruct (root_dest e r) as [p|] eqn:Ed; [|discriminate].
    destruct (pe_find e (root_commit r)) as [cm|] eqn:F; [|discriminate]. intros H.
    eapply (visit_commands_ok d e ee cs cg st _ _ _ _ _ _ R HN HF W P Pr (root_node _ _ Hr) F); [|exact H]. cbn. apply Forall_app. split; [exact H1|].
    apply Forall_singleton. cbn. eapply Dest; eauto. }
  unfold rebase_in_memory. destruct (List.find merge_command (bs_acc s ++ [RegisterExtra])) as [x|] eqn:Ef.
  { apply find_some in Ef. destruct Ef as [Hin Hm]. destruct x; cbn in Hm; try discriminate.
    right. eexists _, _. split; [reflexivity|]. left. rewrite Forall_forall in Ok1. apply elem_of_list_In in Hin. apply (Ok1 _ Hin). }
  destruct (commands_run ee st Hpk Ham (bs_acc s ++ [RegisterExtra]) (mk_es st dest ∅ ∅ None) []) as [(es & ->)|(c & st' & -> & Hs)].
  - exact Ok1.
  - split_and!; cbn; auto.
    + apply (Dest r0); [rewrite Er0; now left|exact Ed0].
    + intros l Hl. now apply elem_of_nil in Hl.
    + intros l o H. now rewrite lookup_empty in H.
    + intros l o H. now rewrite lookup_empty in H.
  - intros l1 x l2 l E Hl. cbn. destruct (HL l1 x l2 l E Hl) as (y & Hy & Hd). unfold defs.
    apply elem_of_list_In, in_flat_map. exists y. split; now apply elem_of_list_In.
  - left. cbn. eauto.
  - right. cbn. eauto.
Qed.

(** ** Where a rebase stops *)
Lemma apply_all_stop e current orig l : forall st made c st',
  apply_all e st current orig made l = StopMerge c st' -> c ∈ l.
Proof.
  induction l as [|x l IH]; intros st made c st'; cbn [apply_all]; [discriminate|].
  destruct (st !! x) as [y|]; [|discriminate]. destruct (is_merge (ob_commit y)); [intros [= <- _]; left|].
  destruct (match made with Some r => _ | None => _ end); [|intros [= <- _]; left|discriminate].
  destruct (add_object _ _ _) as [o st1]. intros H. right. eapply IH, H.
Qed.
Lemma command_stop e x s c st' : exec_command e x s = StopMerge c st' -> c ∈ applies x.
Proof.
  destruct x as [l|[o|l]|o l|o ts|o r ts| | |o|o]; cbn [exec_command applies]; try discriminate.
  - destruct (es_labels s !! l); discriminate.
  - unfold exec_pick. destruct (es_store s !! es_current s), (es_store s !! o) as [orig|]; try discriminate.
    destruct (negb _); [discriminate|]. destruct (apply_all _ _ _ _ _ _) as [[st1 made]|c' st1|st1] eqn:E; cbn [ebind fst snd]; [|intros [= <- _]|discriminate].
    + destruct made as [n|]; [|discriminate]. destruct (st1 !! n) as [y|]; [|discriminate]. destruct (commit_is_empty _ _); discriminate.
    + eapply apply_all_stop, E.
  - intros [= <- _]. left.
  - unfold exec_replace. destruct (es_store s !! o), (es_store s !! r); try discriminate.
    destruct (all_some (List.map (place_of (es_labels s)) ts)); [|discriminate].
    destruct (_ || _)%bool; [discriminate|]. destruct (add_object _ _ _); discriminate.
  - destruct (es_store s !! o); discriminate.
Qed.
Lemma commands_stop e cmds : forall s c st', exec_commands e cmds s = StopMerge c st' -> exists x, x ∈ cmds /\ c ∈ applies x.
Proof.
  induction cmds as [|x cmds IH]; intros s c st'; [discriminate|]. rewrite exec_cons.
  destruct (exec_command e x s) as [s1|c1 st1|st1] eqn:E; cbn [ebind]; [|intros [= <- _]|discriminate].
  - intros H. destruct (IH _ _ _ H) as (y & Hy & Hc). exists y. split; [now right|exact Hc].
  - exists x. split; [left|eapply command_stop, E].
Qed.
Lemma rebase_stop e st dest cmds c st' : rebase_in_memory e st dest cmds = StopMerge c st' -> exists x, x ∈ cmds /\ c ∈ applies x.
Proof.
  unfold rebase_in_memory. destruct (List.find merge_command cmds) as [x|] eqn:F.
  - apply find_some in F. destruct F as [Hx M]. destruct x as [| | |o ts| | | | |]; try discriminate M. intros [= <- _].
    exists (Merge o ts). split; [now apply elem_of_list_In|left].
  - destruct (exec_commands _ _ _) as [s|c1 st1|st1] eqn:E; cbn [ebind]; [discriminate|intros [= <- _]|discriminate]. eapply commands_stop, E.
Qed.
Lemma build_applies d e allowed cs dest cmds x c :
  wf_graph (dag_graph d) -> plannable d e cs -> (forall fs, Permutation (pe_sort e fs) (elements fs)) ->
  build d e allowed cs = Done (BuiltPlan dest cmds) -> x ∈ cmds -> c ∈ applies x -> rebuilt d cs c \/ fixed_up cs c.
Proof.
  intros W P Hsort HB. apply build_plan_inv in HB. destruct HB as (cg & s & Ecg & Ec & Ep & Es & -> & _).
  destruct (build_constraints_spec d cs W) as (_ & _ & H3). destruct (H3 cg Ecg) as (Hfx & Ht & He).
  destruct (node_rebuilt d cs cg (pl_stay _ _ _ P) Ht He) as [_ HN].
  pose proof (build_commands_mentions e cg s Hsort Es) as M. rewrite Forall_forall in M.
  intros Hx Hc. apply elem_of_app in Hx. destruct Hx as [Hx|Hx].
  - destruct (M x Hx) as [_ A]. destruct (A c Hc) as [H|H]; [left; now apply HN|].
    right. unfold fixup_commits in H. rewrite all_values_spec in H. destruct H as [t H]. exists t. now apply Hfx.
  - apply elem_of_list_singleton in Hx. subst. cbn in Hc. now apply elem_of_nil in Hc.
Qed.

(** What the commands of a plan look like. *)
Definition shaped (e : plan_env) (cg : constraint_graph) (x : command) : Prop :=
  match x with
  | Pick o l => NoDup l /\ forall f, f ∈ l <-> f = o \/ edge (cg_fixups cg) o f
  | Merge c _ => exists cm, pe_find e c = Some cm /\ is_merge cm = true
  | _ => True
  end.
Lemma visit_shaped e cg fuel r c cm s s' : (forall fs, Permutation (pe_sort e fs) (elements fs)) ->
  pe_find e c = Some cm -> Forall (shaped e cg) (bs_acc s) ->
  visit fuel e cg r c cm s = Done s' -> Forall (shaped e cg) (bs_acc s').
Proof.
  intros Hsort Hf Hs Hv. cut (Forall (shaped e cg) (bs_acc s') /\ True); [tauto|]. revert Hv.
  apply (visit_steps e cg (fun s => Forall (shaped e cg) (bs_acc s)) (fun _ _ => True) (fun _ => True) r); auto; clear c cm s s' Hf Hs.
  - intros c cm s s' _ Hf Hs H. split; [|exact I]. revert H. unfold apply_commit. destruct (_ && _)%bool.
    { intros [= <-]. cbn. apply Forall_app. split; [exact Hs|]. apply Forall_singleton. exact I. }
    destruct (is_merge cm) eqn:Em.
    { destruct (merge_parents _ _ _) as [ps|] eqn:Eps; [|discriminate].
      destruct (already_applied _ _); [discriminate|]. destruct ps as [|first rest]; [discriminate|].
      destruct (pe_replace e !! c) as [rp|]; intros [= <-]; cbn; (apply Forall_app; split; [exact Hs|]);
        (apply Forall_cons; split; [exact I|]); apply Forall_singleton; cbn; eauto. }
    destruct (decide _); [intros [= <-]; exact Hs|]. destruct (pe_replace e !! c) as [rp|].
    + destruct (pe_find e rp) as [rc|]; [|discriminate]. intros [= <-]. cbn. apply Forall_app; split; [exact Hs|]. apply Forall_singleton. exact I.
    + intros [= <-]. cbn. apply Forall_app; split; [exact Hs|]. apply Forall_cons. split; [|apply Forall_singleton; exact I]. cbn.
      unfold edge, edges_from. destruct (cg_fixups cg !! c) as [fs|] eqn:Efs; cbn.
      * split; [rewrite Hsort; apply NoDup_elements|]. intros f. rewrite Hsort, elem_of_elements, elem_of_union, elem_of_singleton. reflexivity.
      * split; [apply NoDup_singleton|]. intros f. rewrite elem_of_list_singleton. set_solver.
  - intros c prefix s x _ Hs Ex. destruct (create_label_total prefix s) as (l & Hn & El). rewrite El in Ex. injection Ex as <-.
    cbn. assert (Forall (shaped e cg) (bs_acc s ++ [CreateLabel l])).
    { apply Forall_app. split; [exact Hs|]. apply Forall_singleton. exact I. }
    split_and!; auto. intros s' Hs' _. split; [|exact I]. apply Forall_app. split; [exact Hs'|]. apply Forall_singleton. exact I.
Qed.
Lemma build_shaped d e allowed cs dest cmds x :
  wf_graph (dag_graph d) -> (forall fs, Permutation (pe_sort e fs) (elements fs)) ->
  build d e allowed cs = Done (BuiltPlan dest cmds) -> x ∈ cmds ->
  match x with
  | Pick o l => NoDup l /\ forall f, f ∈ l <-> f = o \/ FixUpCommit o f ∈ cs
  | Merge c _ => exists cm, pe_find e c = Some cm /\ is_merge cm = true
  | _ => True
  end.
Proof.
  intros W Hsort HB Hx. apply build_plan_inv in HB. destruct HB as (cg & s & Ecg & Ec & Ep & Es & -> & _).
  destruct (build_constraints_spec d cs W) as (_ & _ & H3). destruct (H3 cg Ecg) as (Hfx & _).
  assert (A : Forall (shaped e cg) (bs_acc s ++ [RegisterExtra])).
  { apply Forall_app. split; [|apply Forall_singleton; exact I]. revert Es. unfold build_commands.
    apply (fold_bind_inv (plan_root e cg) (fun s => Forall (shaped e cg) (bs_acc s))); [|constructor].
    intros r s1 s2 Hr H1. unfold plan_root. destruct (root_dest e r) as [p|] eqn:Ed; [|discriminate].
    destruct (pe_find e (root_commit r)) as [cm|] eqn:F; [|discriminate]. intros H.
    eapply (visit_shaped e cg); [exact Hsort|exact F| |exact H]. cbn. apply Forall_app. split; [exact H1|]. apply Forall_singleton. exact I. }
  rewrite Forall_forall in A. specialize (A x Hx). destruct x; try exact A. destruct A as [A B]. split; [exact A|].
  intros f. rewrite B. now rewrite Hfx.
Qed.

(** Why it stops when nothing is squashed. *)
Lemma commands_stop_why e cmds : (forall o l, Pick o l ∈ cmds -> l = [o]) -> forall s c st', exec_commands e cmds s = StopMerge c st' ->
  (exists ts, Merge c ts ∈ cmds) \/ merge_in st' c \/ exists q, ee_pick e c q = Conflict.
Proof.
  induction cmds as [|x cmds IH]; intros P s c st'; [discriminate|]. rewrite exec_cons.
  destruct (exec_command e x s) as [s1|c1 st1|st1] eqn:E; cbn [ebind]; [|intros [= <- <-]|discriminate].
  - intros H. destruct (IH ltac:(intros o l Hl; apply P; now right) _ _ _ H) as [[ts H']|H']; [left; exists ts; now right|auto].
  - destruct x as [l|[o|l]|o l|o ts|o r ts| | |o|o]; cbn [exec_command] in E; try discriminate.
    + destruct (es_labels s !! l); discriminate.
    + rewrite (P o l) in E by left. revert E. unfold exec_pick. destruct (es_store s !! es_current s), (es_store s !! o) as [orig|] eqn:Eo; try discriminate.
      destruct (negb _); [discriminate|]. cbn [apply_all]. rewrite Eo. destruct (is_merge (ob_commit orig)) eqn:Em.
      { cbn [ebind]. intros [= <- <-]. right. left. exists orig. auto. }
      destruct (ee_pick e o (es_current s)) as [t| |] eqn:Ep; [|cbn [ebind]; intros [= <- <-]; right; right; eauto|discriminate].
      destruct (add_object _ _ _) as [n st2]. cbn [ebind fst snd]. destruct (st2 !! n) as [y|]; [|discriminate]. destruct (commit_is_empty _ _); discriminate.
    + injection E as <- <-. left. exists ts. left.
    + revert E. unfold exec_replace. destruct (es_store s !! o), (es_store s !! r); try discriminate.
      destruct (all_some (List.map (place_of (es_labels s)) ts)); [|discriminate].
      destruct (_ || _)%bool; [discriminate|]. destruct (add_object _ _ _); discriminate.
    + destruct (es_store s !! o); discriminate.
Qed.
Lemma rebase_stop_why e st dest cmds c st' : (forall o l, Pick o l ∈ cmds -> l = [o]) -> rebase_in_memory e st dest cmds = StopMerge c st' ->
  (exists ts, Merge c ts ∈ cmds) \/ merge_in st' c \/ exists q, ee_pick e c q = Conflict.
Proof.
  intros P. unfold rebase_in_memory. destruct (List.find merge_command cmds) as [x|] eqn:F.
  - apply find_some in F. destruct F as [Hx M]. destruct x as [| | |o ts| | | | |]; try discriminate M. intros [= <- _].
    left. exists ts. now apply elem_of_list_In.
  - destruct (exec_commands _ _ _) as [s|c1 st1|st1] eqn:E; cbn [ebind]; [discriminate|intros [= <- <-]|discriminate]. eapply commands_stop_why; eauto.
Qed.
