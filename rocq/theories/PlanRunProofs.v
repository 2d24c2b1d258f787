(** What comes of running any plan in memory. *)
From Verif Require Import Base TextModel EventLogModel EventLogSpec EventLogProofs EvolveSpec
  DagModel DagSpec DagProofs DagCompProofs StrModel StrProofs HookModel PlanModel PlanSpec PlanProofs PlanBuildProofs PlanProps
  ExecModel ExecSpec ExecProofs ExecBuildProofs ExecAfterProofs ExecProps HideModel HideSpec HideProofs RestackModel RestackSpec RestackProofs
  SyncModel SyncSpec SyncProofs MoveModel MoveSpec MoveProofs.
Local Open Scope string_scope.
Local Open Scope list_scope.

(** The effect on everything but the commits. *)
Record ran (e : restack_env) (r : rrepo) (d : dag) (pe : plan_env) (cs : list constraint) (rw : gmap oid moid) (r' : rrepo) : Prop := {
  rn_store : rr_store r ⊆ rr_store r';
  rn_out : exists head, carried_out d cs pe (runner e r) (rr_store r) (rr_store r') rw head;
  rn_branches : forall n, is_local n = true ->
    hr_refs (rr_repo r') !! n = branch_after (he_branch (re_hide e)) rw (hr_refs (rr_repo r)) n;
  rn_others : forall n, is_local n = false -> (forall o, n <> "refs/branchless/" +:+ oid_to_string o) ->
    hr_refs (rr_repo r') !! n = hr_refs (rr_repo r) !! n;
  rn_head : forall h, hi_oid (hr_head (rr_repo r)) = Some h -> ~ fixed_up cs h -> exists q, hi_oid (hr_head (rr_repo r')) = Some q /\
    (lands d cs rw h q \/
     (hi_branch (hr_head (rr_repo r)) = Some (he_main (re_hide e)) /\ rw !! h = Some Zero /\
      be_upstream (he_branch (re_hide e)) = Some (Some q)));
  rn_head_new : forall h n, hi_oid (hr_head (rr_repo r)) = Some h -> rw !! h = Some (NonZero n) -> hi_oid (hr_head (rr_repo r')) = Some n;
  rn_head_kept : forall h, hi_oid (hr_head (rr_repo r)) = Some h -> rw !! h = None -> hi_oid (hr_head (rr_repo r')) = Some h;
  rn_branch : forall n, hi_branch (hr_head (rr_repo r')) = Some n <->
    hi_branch (hr_head (rr_repo r)) = Some n /\ is_Some (hr_refs (rr_repo r') !! n);
  rn_old : fresh (he_graph (re_hide e)) (hr_log (rr_repo r)) rw -> forall o new, rw !! o = Some new ->
    rewritten (hr_log (rr_repo r')) o new /\ visibility (hr_log (rr_repo r')) o Obsolete;
  rn_new : fresh (he_graph (re_hide e)) (hr_log (rr_repo r)) rw -> forall n, made rw n -> visibility (hr_log (rr_repo r')) n Active;
  rn_rest : fresh (he_graph (re_hide e)) (hr_log (rr_repo r)) rw -> forall o v, rw !! o = None -> ~ made rw o ->
    visibility (hr_log (rr_repo r')) o v <-> visibility (hr_log (rr_repo r)) o v;
  rn_rest_rewritten : fresh (he_graph (re_hide e)) (hr_log (rr_repo r)) rw -> forall o new, rw !! o = None -> ~ made rw o ->
    rewritten (hr_log (rr_repo r')) o new <-> rewritten (hr_log (rr_repo r)) o new;
  rn_marked : fresh (he_graph (re_hide e)) (hr_log (rr_repo r)) rw -> forall o, oid_ok o ->
    made rw o \/ hr_refs (rr_repo r) !! gc_name o = Some o -> hr_refs (rr_repo r') !! gc_name o = Some o }.

(** Commits stay marked, and those made are. *)
Lemma post_rebase_marked b groups iter rw skipped r r' o :
  (forall refs, branch_table (groups refs) refs) -> Permutation (iter rw) (map_to_list rw) ->
  post_rebase b groups iter rw skipped r = (r', true) -> (forall n, made rw n -> oid_ok n) -> oid_ok o ->
  made rw o /\ is_Some (rp_store r !! o) \/ rp_refs r !! gc_name o = Some o -> rp_refs r' !! gc_name o = Some o.
Proof.
  intros Hg Hi Ep Hn Ho H. revert Ep. unfold post_rebase. set (refs := mark_new _ _ _).
  destruct (move_branches_spec b rw (groups refs) refs (Hg refs)) as (A & B & C).
  destruct (mr_ok _); intros [= <-]; try discriminate. destruct (C eq_refl) as (ls & El & D & F).
  assert (In : forall n, NonZero n ∈ List.map snd (iter rw) <-> made rw n) by (intros n; apply (iter_in iter rw Hi)).
  cbn [rp_refs]. rewrite D. unfold branch_after. unfold refs. rewrite mark_new_kept; [now rewrite gc_not_local| |exact Ho|].
  - intros o' H'. apply Hn, In, H'.
  - destruct H as [[H S]|H]; [left; split; [now apply In|exact S]|now right].
Qed.

Section run.
Context (e : restack_env) (r : rrepo) (d : dag) (pe : plan_env) (cs : list constraint).
Let g := he_graph (re_hide e).
Let h := rr_repo r.
Hypothesis R : restackable e r.
Hypothesis Mem : in_memory e.
Hypothesis W : wf_graph (dag_graph d).
Hypothesis Dom : forall c, rebuilt d cs c -> c ∈ vertices g.
Hypothesis Kn : knows d pe.
Hypothesis Srt : forall fs, Permutation (pe_sort pe fs) (elements fs).
Hypothesis Pl : plannable d pe cs.
Hypothesis Cl : clear_of_fixups d cs.
Hypothesis Fit : replacements_fit d pe cs.
Hypothesis Known : forall f, fixed_up cs f -> f ∈ vertices g.

(** The graph the plan was made with may hold commits that the rest does not know of. *)
Lemma plan_ran_any ts i allowed dest cmds r' res :
  build d pe allowed cs = Done (BuiltPlan dest cmds) -> run_plan e ts (TxId i) dest cmds r = (r', res) ->
  match res with
  | Succeeded rwo => exists rw, rwo = Some rw /\ ran e r d pe cs rw r'
  | DeclinedToMerge _ => left_alone r r'
  | _ => True
  end.
Proof.
  intros Eb Er. destruct Mem as [Eo Mem'].
  pose proof (ra_named _ _ R) as Nd. destruct (ra_head _ _ R) as [hd Hh].
  assert (Fn : faithful_names (runner e r)) by exact (ra_faithful _ _ R).
  unfold run_plan in Er. destruct (execute_plan _ _ _ _ _ _ _ _ _ _ _) as [rp res0] eqn:Ex. injection Er as <- <-.
  rewrite Eo in Ex. pose proof Ex as Ex0. unfold execute_plan in Ex. change (rp_store (start_repo r)) with (rr_store r) in Ex.
  destruct (rebase_in_memory (runner e r) (rr_store r) dest cmds) as [[[st' rw] head]|at_ st'|st'] eqn:Em.
  - (* done *)
    destruct (post_rebase _ _ _ _ _ _) as [r1 ok] eqn:Ep. destruct ok; injection Ex as <- <-; [|exact I].
    exists rw. split; [reflexivity|].
    assert (CO : carried_out d cs pe (runner e r) (rr_store r) st' rw head).
    { eapply (c30_carried_out_partial d); eauto. }
    assert (Est : rp_store r1 = st').
    { revert Ep. unfold post_rebase. destruct (mr_ok _); intros [= <-]. reflexivity. }
    destruct (post_rebase_refs _ _ _ rw head (ra_tables _ _ R) (ra_iter _ _ R rw) _ _ Ep) as (Refs & _ & Others & _ & Rws).
    cbn [with_store start_repo rp_rewrites rp_refs app] in Rws, Refs, Others.
    assert (K : forall o, is_Some (rw !! o) -> o ∈ vertices g).
    { intros o H. destruct (co_rest _ _ _ _ _ _ _ _ CO o H) as [X|X]; [now apply Dom|now apply Known]. }
    assert (Tells : (forall n, made rw n -> oid_ok n) -> exists es, hr_log (rr_repo (after_plan e ts (TxId i) r r1)) = hr_log h ++ es /\ tells rw es).
    { intros On.
      assert (Ok_ : forall o x, rw !! o = Some x -> oid_ok o /\ moid_ok x).
      { intros o x H. split; [apply (ra_oids _ _ R), K; eauto|]. destruct x as [|n]; [exact I|]. apply On. now exists o. }
      cbn [after_plan rr_repo hr_log]. eexists. split; [reflexivity|].
      apply tells_quiet_app; [|intros x o Hx; eapply hook_events_quiet; exact Hx].
      apply tells_app_quiet; [|intros x o Hx; eapply (ra_quiet _ _ R); exact Hx].
      rewrite rewrite_events_spec.
      2:{ apply Forall_forall. intros [o x] Hp. rewrite Rws in Hp. apply elem_of_map_to_list in Hp. now apply Ok_. }
      split.
      * intros x o Hx _. apply elem_of_list_In, in_map_iff in Hx. destruct Hx as ([o' y] & <- & Hp).
        apply elem_of_list_In in Hp. rewrite Rws in Hp. apply elem_of_map_to_list in Hp. eauto 6.
      * intros old new H. exists ts, (TxId i). apply elem_of_list_In, in_map_iff. exists (old, new). split; [reflexivity|].
        apply elem_of_list_In. rewrite Rws. now apply elem_of_map_to_list. }
    pose proof (co_store _ _ _ _ _ _ _ _ CO) as Grow.
    assert (Br : forall n, hi_branch (hr_head (rr_repo (after_plan e ts (TxId i) r r1))) = Some n <->
      hi_branch (hr_head (rr_repo r)) = Some n /\ is_Some (hr_refs (rr_repo (after_plan e ts (TxId i) r r1)) !! n)).
    { intros n. cbn [after_plan rr_repo hr_head hr_refs]. revert Ep. unfold post_rebase, checked_out_head. cbn [with_store start_repo rp_head].
      destruct (hr_head (rr_repo r)) as [ho hb]. cbn in Hh. subst ho. cbn [hi_oid hi_branch updated_head].
      destruct (mr_ok _); [|discriminate]. intros [= <-]. cbn [rp_checkout rp_head rp_refs]. unfold checkout_of.
      destruct hb as [n0|].
      * destruct (mr_refs _ !! n0) as [x|] eqn:Ex'.
        -- rewrite decide_False by congruence. cbn [hi_branch]. split; [intros [= <-]; split; [reflexivity|eauto]|]. intros [H _]. exact H.
        -- split; [|intros [[= <-] [y Y]]; congruence]. destruct (decide _); [now intros [=]|]. destruct head; now intros [=].
      * split; [|now intros [[=] _]]. destruct (rw !! hd) as [[|q]|]; (destruct (decide _); [now intros [=]|]); try destruct head; now intros [=]. }
    assert (HBr : forall n, hi_branch (rp_head (start_repo r)) = Some n -> rp_refs (start_repo r) !! n = Some hd /\ is_local n = true).
    { intros n Hn. cbn in Hn |- *. split; [|now apply (ra_local _ _ R)]. rewrite <- Hh. exact (io_branch _ _ (ra_order _ _ R) n Hn). }
    assert (Hf : hi_oid (hr_head (rr_repo (after_plan e ts (TxId i) r r1))) = final_head r1)
      by (cbn [after_plan rr_repo hr_head]; unfold checked_out_head, final_head; destruct (rp_checkout r1); reflexivity).
    pose proof (post_rebase_head _ _ _ _ _ _ _ hd Ep Hh) as Pr. cbn [with_store start_repo rp_head] in Pr.
    assert (Nw : forall n, rw !! hd = Some (NonZero n) \/ (rw !! hd = None /\ n = hd) -> final_head r1 = Some n).
    { intros n Hn. destruct (hi_branch (hr_head (rr_repo r))) as [b|] eqn:Hb.
      - destruct (HBr b Hb) as [B1 B2]. rewrite (Refs b B2) in Pr. cbn in B1. unfold branch_after in Pr. rewrite B1, B2 in Pr.
        destruct Hn as [Hn|[Hn ->]]; rewrite Hn in Pr; apply Pr.
      - destruct Hn as [Hn|[Hn ->]]; rewrite Hn in Pr; [exact Pr|apply Pr]. }
    constructor.
    + cbn [after_plan rr_store]. now rewrite Est.
    + exists head. cbn [after_plan rr_store]. now rewrite Est.
    + intros n L. cbn [after_plan rr_repo hr_refs]. now apply Refs.
    + intros n L N. cbn [after_plan rr_repo hr_refs]. now apply Others.
    + intros hd' Hh' Nf. rewrite Hh in Hh'. injection Hh' as <-. destruct (ra_upstream _ _ R) as [up Hup]. rewrite Hf.
      destruct (c32_head_partial d pe (runner e r) (he_branch (re_hide e)) (he_groups (re_hide e)) (re_iter e) (re_disk e)
        (re_in_memory e) (re_resolve e) allowed cs dest cmds (start_repo r) r1 st' rw head hd up W Kn Pl Cl Fit Srt Fn Nd
        (ra_tables _ _ R) (ra_iter _ _ R) Hup Eb Em Ex0 Hh Hh HBr Nf) as [[(q & X1 & X2)|(Y & Z & t & T1 & T2)] _].
      * exists q. split; [exact X1|]. left. exact X2.
      * exists t. split; [exact T2|]. right. split; [exact Y|]. split; [exact Z|]. now rewrite <- T1.
    + intros hd' n Hh' Hn. rewrite Hh in Hh'. injection Hh' as <-. rewrite Hf. apply Nw. now left.
    + intros hd' Hh' Hn. rewrite Hh in Hh'. injection Hh' as <-. rewrite Hf. apply Nw. now right.
    + exact Br.
    + intros Fr. destruct (Tells (fun n M => proj1 (Fr n M))) as (es & El & Te). intros o new H. rewrite El. split; [eapply told_dom; eauto|eapply told_dom_obsolete; eauto].
    + intros Fr. destruct (Tells (fun n M => proj1 (Fr n M))) as (es & El & Te). intros n M. rewrite El. eapply told_made_active; eauto.
    + intros Fr. destruct (Tells (fun n M => proj1 (Fr n M))) as (es & El & Te). intros o v N M. rewrite El. apply (told_outside_status _ es rw Te). now split.
    + intros Fr. destruct (Tells (fun n M => proj1 (Fr n M))) as (es & El & Te). intros o new N M. rewrite El. apply (told_outside _ es rw Te). now split.
    + intros Fr o Ho H. cbn [after_plan rr_repo hr_refs].
      apply (post_rebase_marked _ _ _ _ _ _ _ o (ra_tables _ _ R) (ra_iter _ _ R rw) Ep (fun n M => proj1 (Fr n M)) Ho).
      cbn [with_store start_repo rp_store rp_refs]. destruct H as [M|H]; [left; split; [exact M|]|now right].
      destruct M as [c Hc]. exact (new_there d cs pe (runner e r) _ _ _ _ CO c o Hc).
  - (* declined *)
    pose proof (rebase_grows (runner e r) (rr_store r) dest cmds) as Gr. rewrite Em in Gr. destruct Gr as [Gr1 Gr2].
    assert (X : rp = with_store st' (start_repo r) /\ res0 = DeclinedToMerge at_).
    { destruct Mem' as [Hm|Hm]; rewrite Hm in Ex; cbn [negb] in Ex; [now injection Ex as <- <-|]. destruct (negb (re_resolve e)); now injection Ex as <- <-. }
    destruct X as [-> ->].
    assert (Q : forall x o, x ∈ hook_events (re_hide e) ts (TxId i) [] ++ rewrite_events ts (TxId i) [] ++ re_checked_out e (with_store st' (start_repo r)) -> ~ concerns x o).
    { intros x o Hx. apply elem_of_app in Hx. destruct Hx as [Hx|Hx]; [eapply hook_events_quiet; exact Hx|].
      apply elem_of_app in Hx. destruct Hx as [Hx|Hx]; [now apply elem_of_nil in Hx|]. eapply (ra_quiet _ _ R); exact Hx. }
    constructor; cbn [after_plan with_store start_repo rp_store rp_refs rr_store rr_repo hr_refs hr_head hr_log rp_lines rp_rewrites].
    + exact Gr1.
    + reflexivity.
    + reflexivity.
    + intros o v. apply visibility_app_iff. intros x Hx. now apply Q.
    + intros o new. apply rewritten_quiet. exact Q.
  - injection Ex as <- <-. exact I.
Qed.

(** It ends well, or stops at a commit that the plan is about. *)
Lemma plan_runs_any ts i allowed dest cmds r' res : workable e r ->
  (forall x, x ∈ vertices (dag_graph d) -> readable (re_exec e) (rr_store r) x) -> (forall p c, new_parent d cs p c -> there (rr_store r) p) ->
  (forall c x, pe_find pe c = Some x -> find_object (rr_store r) c = Some x) ->
  (forall c x, pe_replace pe !! c = Some x -> readable (re_exec e) (rr_store r) x /\
    forall rc p, pe_find pe x = Some rc -> p ∈ commit_parents rc -> there (rr_store r) p) ->
  build d pe allowed cs = Done (BuiltPlan dest cmds) ->
  run_plan e ts (TxId i) dest cmds r = (r', res) ->
  match res with
  | Succeeded _ => True
  | DeclinedToMerge x => (rebuilt d cs x \/ fixed_up cs x) /\
      (merge_commit g x \/ (exists q, ee_pick (re_exec e) x q = Conflict) \/ exists q, ee_amend (re_exec e) q x = Conflict)
  | _ => False
  end.
Proof.
  intros Wk Rd Hd Fnd Rep Eb Er. destruct Mem as [Eo Mem']. pose proof (ra_named _ _ R) as Nd.
  assert (Fn : faithful_names (runner e r)) by exact (ra_faithful _ _ R).
  assert (Pr : present d pe (runner e r) cs (rr_store r)).
  { constructor.
    - exact Fnd.
    - exact Rd.
    - exact Hd.
    - intros f Hf. apply Known in Hf. destruct (wk_read _ _ Wk f Hf) as (y & Hy & _). unfold there. eauto.
    - exact Rep. }
  pose proof (build_runs d pe (runner e r) allowed _ dest cmds (rr_store r) W Kn Pl Cl Fit Srt Fn Nd Pr (wk_pick _ _ Wk) (wk_amend _ _ Wk) Eb) as Rn.
  unfold run_plan in Er. destruct (execute_plan _ _ _ _ _ _ _ _ _ _ _) as [rp res0] eqn:Ex. injection Er as <- <-.
  rewrite Eo in Ex. unfold execute_plan in Ex. change (rp_store (start_repo r)) with (rr_store r) in Ex.
  destruct Rn as [([[st' rw] head] & Em)|(x & st' & Em & St)]; rewrite Em in Ex.
  - destruct (post_rebase _ _ _ _ _ _) as [r1 ok] eqn:Ep. assert (ok = true) as ->.
    { revert Ep. unfold post_rebase. rewrite move_branches_go; [congruence|exact (wk_exists _ _ Wk)|exact (wk_write _ _ Wk)|].
      destruct (ra_upstream _ _ R) as [up ->]. discriminate. }
    injection Ex as <- <-. exact I.
  - assert (res0 = DeclinedToMerge x) as ->.
    { destruct Mem' as [Hx|Hx]; rewrite Hx in Ex; cbn [negb] in Ex; [now injection Ex as <- <-|]. destruct (negb (re_resolve e)); now injection Ex as <- <-. }
    assert (In : rebuilt d cs x \/ fixed_up cs x).
    { destruct (rebase_stop _ _ _ _ _ _ Em) as (y & Y1 & Y2). exact (build_applies d pe allowed _ dest cmds y x W Pl Srt Eb Y1 Y2). }
    split; [exact In|].
    destruct St as [(z & Hz & Mz)|St]; [left|right; exact St].
    assert (Hx : x ∈ vertices g). { destruct In as [H|H]; [now apply Dom|now apply Known]. }
    destruct (ra_store _ _ R x Hx) as (y & Hy & Py). rewrite Hy in Hz. injection Hz as <-.
    unfold is_merge in Mz. rewrite Py in Mz. apply Nat.ltb_lt in Mz.
    assert (E : exists ps, (x, ps) ∈ g).
    { apply elem_of_list_to_set, elem_of_list_In, in_map_iff in Hx. destruct Hx as ([x' ps] & <- & Hx). exists ps. now apply elem_of_list_In. }
    destruct E as [ps E]. unfold g in E. rewrite (parents_of_spec _ _ _ _ (io_graph _ _ (ra_order _ _ R)) E) in Mz. exists ps. auto.
Qed.
End run.

(** The same with the graph of the repository. *)
Section run_same.
Context (e : restack_env) (r : rrepo) (d : dag) (pe : plan_env) (cs : list constraint).
Let g := he_graph (re_hide e).
Hypothesis R : restackable e r.
Hypothesis Mem : in_memory e.
Hypothesis G : dag_graph d = g.
Hypothesis Kn : knows d pe.
Hypothesis Srt : forall fs, Permutation (pe_sort pe fs) (elements fs).
Hypothesis Pl : plannable d pe cs.
Hypothesis Cl : clear_of_fixups d cs.
Hypothesis Fit : replacements_fit d pe cs.
Hypothesis Known : forall f, fixed_up cs f -> f ∈ vertices g.

Lemma plan_wf : wf_graph (dag_graph d).
Proof. rewrite G. apply (io_graph _ _ (ra_order _ _ R)). Qed.
Lemma plan_dom c : rebuilt d cs c -> c ∈ vertices g.
Proof. intros H. rewrite <- G. exact (pl_exists _ _ _ Pl c H). Qed.

Lemma plan_ran_with ts i allowed dest cmds r' res :
  build d pe allowed cs = Done (BuiltPlan dest cmds) -> run_plan e ts (TxId i) dest cmds r = (r', res) ->
  match res with
  | Succeeded rwo => exists rw, rwo = Some rw /\ ran e r d pe cs rw r'
  | DeclinedToMerge _ => left_alone r r'
  | _ => True
  end.
Proof. apply plan_ran_any; auto using plan_wf. exact plan_dom. Qed.

Lemma plan_runs_with ts i allowed dest cmds r' res : workable e r -> (forall p c, new_parent d cs p c -> there (rr_store r) p) ->
  (forall c x, pe_find pe c = Some x -> find_object (rr_store r) c = Some x) ->
  (forall c x, pe_replace pe !! c = Some x -> readable (re_exec e) (rr_store r) x /\
    forall rc p, pe_find pe x = Some rc -> p ∈ commit_parents rc -> there (rr_store r) p) ->
  build d pe allowed cs = Done (BuiltPlan dest cmds) ->
  run_plan e ts (TxId i) dest cmds r = (r', res) ->
  match res with
  | Succeeded _ => True
  | DeclinedToMerge x => (rebuilt d cs x \/ fixed_up cs x) /\
      (merge_commit g x \/ (exists q, ee_pick (re_exec e) x q = Conflict) \/ exists q, ee_amend (re_exec e) q x = Conflict)
  | _ => False
  end.
Proof.
  intros Wk. apply plan_runs_any; auto using plan_wf; [exact plan_dom|].
  intros x Hx. rewrite G in Hx. destruct (wk_read _ _ Wk x Hx) as (y & Hy & D). exists y. auto.
Qed.
End run_same.

(** The same for plans made as usual. *)
Section run_usual.
Context (e : restack_env) (r : rrepo) (d : dag) (cs : list constraint).
Let g := he_graph (re_hide e).
Let h := rr_repo r.
Hypothesis R : restackable e r.
Hypothesis Mem : in_memory e.
Hypothesis Op : open_repo (re_hide e) h = Some d.
Hypothesis Pl : plannable d (planner e (rr_store r)) cs.
Hypothesis Cl : clear_of_fixups d cs.
Hypothesis Known : forall f, fixed_up cs f -> f ∈ vertices g.

Lemma no_replacement : replacements_fit d (planner e (rr_store r)) cs.
Proof. intros c x rc _ _ H. cbn in H. rewrite lookup_empty in H. discriminate. Qed.

Lemma plan_ran ts i allowed dest cmds r' res :
  build d (planner e (rr_store r)) allowed cs = Done (BuiltPlan dest cmds) -> run_plan e ts (TxId i) dest cmds r = (r', res) ->
  match res with
  | Succeeded rwo => exists rw, rwo = Some rw /\ ran e r d (planner e (rr_store r)) cs rw r'
  | DeclinedToMerge _ => left_alone r r'
  | _ => True
  end.
Proof.
  apply plan_ran_with; auto; [exact (dag_is e r d R Op)|exact (run_knows e r d R Op)|exact (ra_sort _ _ R)|exact no_replacement].
Qed.
Lemma plan_runs ts i allowed dest cmds r' res : workable e r -> (forall p c, new_parent d cs p c -> p ∈ vertices g) ->
  build d (planner e (rr_store r)) allowed cs = Done (BuiltPlan dest cmds) ->
  run_plan e ts (TxId i) dest cmds r = (r', res) ->
  match res with
  | Succeeded _ => True
  | DeclinedToMerge x => (rebuilt d cs x \/ fixed_up cs x) /\
      (merge_commit g x \/ (exists q, ee_pick (re_exec e) x q = Conflict) \/ exists q, ee_amend (re_exec e) q x = Conflict)
  | _ => False
  end.
Proof.
  intros Wk Hd. apply plan_runs_with; auto; [exact (dag_is e r d R Op)|exact (run_knows e r d R Op)|exact (ra_sort _ _ R)|exact no_replacement| |..].
  - intros p c Np. apply Hd in Np. destruct (wk_read _ _ Wk p Np) as (y & Hy & _). unfold there. eauto.
  - intros c x H. cbn in H. rewrite lookup_empty in H. discriminate.
Qed.
End run_usual.
