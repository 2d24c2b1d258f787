From stdpp Require Import sorting.
From Verif Require Import Base TextModel EventLogModel EventLogSpec EventLogProofs EventLogRefProofs EvolveModel EvolveSpec EvolveProofs
  DagModel DagSpec DagProofs StrModel StrProofs HookModel HookProofs HookSpec UndoProofs PlanModel PlanSpec PlanProofs PlanCycleProofs PlanDfsProofs PlanBuildProofs PlanProps
  ExecModel ExecSpec ExecAfterProofs ExecProps HideModel HideSpec HideProofs HideUndoProofs RestackModel RestackSpec.
Local Open Scope string_scope.
Local Open Scope list_scope.

(** ** Rewritten commits in the raw log *)

Lemma last_concerning_raw main log o x : last_concerning (events (replay main log)) o x <-> last_concerning log o x.
Proof. rewrite last_concerning_filter, replay_others, <- last_concerning_filter. reflexivity. Qed.
Lemma rewritten_raw main log o new : rewritten (events (replay main log)) o new <-> rewritten log o new.
Proof. unfold rewritten. setoid_rewrite last_concerning_raw. reflexivity. Qed.
Lemma chain_end_raw main log o m : chain_end (events (replay main log)) o m <-> chain_end log o m.
Proof.
  split; induction 1 as [o H|o x H N|o x m H _ IH].
  - apply chain_deleted. exact (proj1 (rewritten_raw main log _ _) H).
  - apply chain_last; [exact (proj1 (rewritten_raw main log _ _) H)|]. intros new X. apply (N new). exact (proj2 (rewritten_raw main log _ _) X).
  - eapply chain_step; [exact (proj1 (rewritten_raw main log _ _) H)|exact IH].
  - apply chain_deleted. exact (proj2 (rewritten_raw main log _ _) H).
  - apply chain_last; [exact (proj2 (rewritten_raw main log _ _) H)|]. intros new X. apply (N new). exact (proj1 (rewritten_raw main log _ _) X).
  - eapply chain_step; [exact (proj2 (rewritten_raw main log _ _) H)|exact IH].
Qed.
Lemma target_now main log o : exists res, find_rewrite_target (replay main log) (default_cursor (replay main log)) o = Some res /\
  match res with
  | None => forall new, ~ rewritten log o new
  | Some m => chain_end log o m
  end.
Proof.
  set (rp := replay main log). destruct (find_rewrite_target_spec rp (default_cursor rp) o (replay_invariant main log) (valid_now main log)) as (res & H & S).
  exists res. split; [exact H|]. unfold rp in S. rewrite upto_now in S. destruct res as [m|].
  - assert (X : chain_end (upto (events rp) (default_cursor rp)) o m).
    { apply find_rewrite_some; [apply replay_invariant|apply valid_now|exact H]. }
    unfold rp in X. rewrite upto_now in X. exact (proj1 (chain_end_raw _ _ _ _) X).
  - assert (X : forall new, ~ rewritten (upto (events rp) (default_cursor rp)) o new).
    { apply find_rewrite_none; [apply replay_invariant|apply valid_now|exact H]. }
    intros new Y. apply (X new). unfold rp. rewrite upto_now. now apply rewritten_raw.
Qed.
Lemma chain_end_rewritten log o m : chain_end log o m -> exists new, rewritten log o new.
Proof. destruct 1; eauto. Qed.
Lemma rewritten_chain_end log o new : rewritten log o new -> exists m, chain_end log o m.
Proof.
  intros H. destruct (target_now "" log o) as ([m|] & _ & S); [eauto|]. exfalso. exact (S _ H).
Qed.
Lemma rewritten_obsolete log o new : rewritten log o new -> visibility log o Obsolete.
Proof.
  intros (ts & tx & L & N). exists (RewriteEvent ts tx (NonZero o) new). split; [exact L|]. split; [reflexivity|].
  cbn. congruence.
Qed.

Lemma last_concerning_app a b o x : last_concerning (a ++ b) o x <->
  last_concerning b o x \/ ((forall y, y ∈ b -> ~ concerns y o) /\ last_concerning a o x).
Proof.
  split.
  - intros L. destruct (last_concerning_exists b o) as [N|(y & Y)]; cycle 1.
    + left. pose proof (last_concerning_app_l a b o y Y) as Y'. now rewrite (last_concerning_unique _ _ _ _ L Y').
    + right. split; [exact N|]. destruct (last_concerning_exists a o) as [N'|(y & Y)]; cycle 1.
      * pose proof (last_concerning_app_r a b o y N Y) as Y'. now rewrite (last_concerning_unique _ _ _ _ L Y').
      * destruct L as (u & v & E & C & _). assert (H : x ∈ a ++ b) by (rewrite E; apply elem_of_app; right; left).
        apply elem_of_app in H. destruct H as [H|H]; [destruct (N' x H C)|destruct (N x H C)].
  - intros [L|[N L]]; [now apply last_concerning_app_l|now apply last_concerning_app_r].
Qed.

(** ** The requests *)

Lemma find_rebases_spec order d main log l : wf_graph (dag_graph d) -> (forall s, Permutation (order s) (elements s)) ->
  exists rs, find_rebases order d (replay main log) (default_cursor (replay main log)) l = Some rs /\
    (forall x, x ∈ rebase_requests rs -> exists t k, x = MoveSubtree [t] k) /\
    (forall t k, MoveSubtree [t] k ∈ rebase_requests rs <-> exists o, o ∈ l /\
       (chain_end log o (NonZero t) \/ (t = o /\ chain_end log o Zero)) /\
       parent (dag_graph d) o k /\ visible d k /\ k ∉ obsolete_commits d) /\
    (forall k, k ∈ flat_map snd rs <-> exists t, MoveSubtree [t] k ∈ rebase_requests rs).
Proof.
  intros W O. induction l as [|o l (rs & E & A & B & C)].
  - exists []. split; [reflexivity|]. split; [intros x H; now apply elem_of_nil in H|]. split.
    + intros t k. split; [intros H; now apply elem_of_nil in H|]. intros (o & H & _). now apply elem_of_nil in H.
    + intros k. split; [intros H; now apply elem_of_nil in H|]. intros [t H]. now apply elem_of_nil in H.
  - destruct (abandoned_spec d main log (default_cursor (replay main log)) o (valid_now main log) W) as (res & H & N & S).
    rewrite upto_now in N, S. cbn [find_rebases]. rewrite H, E. destruct res as [[t0 kids]|].
    + exists ((t0, order kids) :: rs). split; [reflexivity|]. destruct (S _ _ eq_refl) as [T K].
      rewrite !chain_end_raw in T.
      assert (Hd : forall t k, MoveSubtree [t] k ∈ List.map (MoveSubtree [t0]) (order kids) <-> t = t0 /\ k ∈ kids).
      { intros t k. rewrite elem_of_list_In, in_map_iff. split.
        - intros (k' & [= -> ->] & Hk). apply elem_of_list_In in Hk. rewrite (O kids), elem_of_elements in Hk. auto.
        - intros [-> Hk]. exists k. split; [reflexivity|]. apply elem_of_list_In. now rewrite (O kids), elem_of_elements. }
      unfold rebase_requests in *. cbn [flat_map fst snd]. split_and!.
      * intros x Hx. apply elem_of_app in Hx. destruct Hx as [Hx|Hx]; [|auto].
        apply elem_of_list_In, in_map_iff in Hx. destruct Hx as (k & <- & _). eauto.
      * intros t k. rewrite elem_of_app, Hd, B. split.
        -- intros [[-> Hk]|(o' & Ho & X)].
           ++ exists o. split; [left|]. split; [exact T|]. now apply K.
           ++ exists o'. split; [now right|exact X].
        -- intros (o' & Ho & Tt & X). apply elem_of_cons in Ho. destruct Ho as [->|Ho]; [left|right; eauto].
           split; [|now apply K]. destruct T as [T|[-> T]], Tt as [Tt|[-> Tt]];
             pose proof (chain_end_unique _ _ _ _ T Tt) as X'; congruence.
      * intros k. rewrite elem_of_app, C, (O kids), elem_of_elements. setoid_rewrite elem_of_app. split.
        -- intros [Hk|[t Hk]]; [exists t0; left; now apply Hd|eauto].
        -- intros [t [Hk|Hk]]; [left; now apply Hd in Hk|eauto].
    + exists rs. split; [reflexivity|]. split; [exact A|]. split; [|exact C]. intros t k. rewrite B. split.
      * intros (o' & Ho & X). exists o'. split; [now right|exact X].
      * intros (o' & Ho & Tt & X). apply elem_of_cons in Ho. destruct Ho as [->|Ho]; [|eauto]. exfalso.
        assert (Hn : forall new, ~ rewritten log o new) by (intros new Y; apply (proj1 N eq_refl new); now apply rewritten_raw).
        destruct Tt as [Tt|[_ Tt]]; apply chain_end_rewritten in Tt; destruct Tt as [new Tt]; exact (Hn new Tt).
Qed.

(** ** The log afterwards *)

(** The events tell about the commits what [rw] says. *)
Definition tells (rw : gmap oid moid) (es : list event) : Prop :=
  (forall x o, x ∈ es -> concerns x o -> exists ts tx old new, rw !! old = Some new /\ x = RewriteEvent ts tx (NonZero old) new) /\
  (forall old new, rw !! old = Some new -> exists ts tx, RewriteEvent ts tx (NonZero old) new ∈ es).
Definition outside (rw : gmap oid moid) (o : oid) : Prop := rw !! o = None /\ ~ made rw o.

Lemma tells_app_quiet rw es q : tells rw es -> (forall x o, x ∈ q -> ~ concerns x o) -> tells rw (es ++ q).
Proof.
  intros [A B] Q. split.
  - intros x o H C. apply elem_of_app in H. destruct H as [H|H]; [eauto|destruct (Q x o H C)].
  - intros old new H. destruct (B old new H) as (ts & tx & X). exists ts, tx. apply elem_of_app. auto.
Qed.
Lemma tells_quiet_app rw es q : tells rw es -> (forall x o, x ∈ q -> ~ concerns x o) -> tells rw (q ++ es).
Proof.
  intros [A B] Q. split.
  - intros x o H C. apply elem_of_app in H. destruct H as [H|H]; [destruct (Q x o H C)|eauto].
  - intros old new H. destruct (B old new H) as (ts & tx & X). exists ts, tx. apply elem_of_app. auto.
Qed.

(** When everything can be written, moving branches succeeds. *)
Lemma move_branches_go b rw groups refs : (forall o, be_exists b o = true) -> (forall n, be_writes b n = true) -> be_upstream b <> None ->
  mr_ok (move_branches b rw groups refs) = true.
Proof.
  intros Ex Wr Up. unfold move_branches.
  assert (Nn : forall old new ns refs ls, exists refs' ls', move_names b old new ns refs ls = (refs', ls', Go)).
  { intros old new ns. induction ns as [|n ns IH]; intros rf ls; cbn [move_names]; [eauto|]. unfold move_branch. rewrite Wr.
    destruct new; [|apply IH]. destruct (String.eqb _ _); [|apply IH]. destruct (be_upstream b) as [[t|]|]; [apply IH..|congruence]. }
  assert (G : forall groups refs ls, exists refs' ls', move_groups b rw groups refs ls = (refs', ls', Go)).
  { induction groups0 as [|[old ns] gs IH]; intros rf ls; cbn [move_groups]; [eauto|].
    destruct (rw !! old) as [new|]; [|apply IH]. assert (X : (match new with Zero => true | NonZero o => be_exists b o end) = true) by (destruct new; auto).
    rewrite X. destruct (Nn old new (sorted_names ns) rf ls) as (rf' & ls' & ->). apply IH. }
  destruct (G groups refs []) as (rf & ls & ->). reflexivity.
Qed.

Section told.
Context (g : graph) (log es : list event) (rw : gmap oid moid).
Hypothesis T : tells rw es.
Hypothesis F : fresh g log rw.
Hypothesis D : forall c, is_Some (rw !! c) -> c ∈ vertices g.

Lemma told_dom o new : rw !! o = Some new -> rewritten (log ++ es) o new.
Proof.
  intros H. destruct T as [A B]. destruct (last_concerning_exists es o) as [N|[x L]].
  - exfalso. destruct (B _ _ H) as (ts & tx & X). apply (N _ X). right. reflexivity.
  - destruct L as (b & a & -> & C & N).
    destruct (A x o) as (ts & tx & old & new' & H' & ->); [apply elem_of_app; right; left|exact C|].
    assert (Hn : ~ made rw o). { intros Hn. destruct (F o Hn) as (_ & V & _). apply V, D. eauto. }
    assert (old = o) as ->.
    { destruct C as [C|C]; cbn in C; [|congruence]. subst new'. exfalso. apply Hn. now exists old. }
    rewrite H in H'. injection H' as <-. exists ts, tx. split.
    + exists (log ++ b), a. rewrite <- app_assoc. auto.
    + intros ->. apply Hn. now exists o.
Qed.
Lemma told_dom_obsolete o : is_Some (rw !! o) -> visibility (log ++ es) o Obsolete.
Proof. intros [new H]. eapply rewritten_obsolete, told_dom, H. Qed.

Lemma told_made o new : made rw o -> ~ rewritten (log ++ es) o new.
Proof.
  intros Hm (ts & tx & L & _). destruct (F o Hm) as (_ & V & N). apply last_concerning_app in L. destruct L as [L|[_ L]].
  - destruct L as (b & a & E & C & _). destruct (proj1 T (RewriteEvent ts tx (NonZero o) new) o) as (ts' & tx' & old & new' & H & [= <- <- <- <-]).
    + rewrite E. apply elem_of_app. right. left.
    + right. reflexivity.
    + apply V, D. eauto.
  - destruct L as (b & a & E & C & _). eapply N; [rewrite E; apply elem_of_app; right; left|exact C].
Qed.
Lemma told_outside_quiet o : outside rw o -> forall x, x ∈ es -> ~ concerns x o.
Proof.
  intros [No Nm] x Hx C. destruct (proj1 T x o Hx C) as (ts & tx & old & new & H & ->).
  destruct C as [C|C]; cbn in C.
  - subst new. apply Nm. now exists old.
  - injection C as ->. congruence.
Qed.
Lemma told_outside o new : outside rw o -> rewritten (log ++ es) o new <-> rewritten log o new.
Proof.
  intros O. pose proof (told_outside_quiet o O) as Q. unfold rewritten. setoid_rewrite last_concerning_app.
  split; intros (ts & tx & L & N); exists ts, tx; (split; [|exact N]); [|auto].
  destruct L as [L|[_ L]]; [|exact L]. exfalso. destruct L as (b & a & E & C & _). eapply Q; [rewrite E; apply elem_of_app; right; left|exact C].
Qed.
Lemma told_outside_status o v : outside rw o -> visibility (log ++ es) o v <-> visibility log o v.
Proof. intros O. apply visibility_app_iff, told_outside_quiet, O. Qed.
Lemma told_old c : c ∈ vertices g -> ~ made rw c.
Proof. intros V M. destruct (F c M) as (_ & N & _). exact (N V). Qed.
Lemma told_active v : visibility (log ++ es) v Active -> made rw v \/ visibility log v Active.
Proof.
  intros H. destruct (rw !! v) as [new|] eqn:E.
  - exfalso. pose proof (told_dom_obsolete v ltac:(rewrite E; eauto)) as O. pose proof (visibility_unique _ _ _ _ H O). discriminate.
  - destruct (last_concerning_exists es v) as [N|[x L]].
    + right. now apply visibility_app_iff in H.
    + left. destruct L as (b & a & -> & C & _). destruct (proj1 T x v) as (ts & tx & old & new & H' & ->); [apply elem_of_app; right; left|exact C|].
      destruct C as [C|C]; cbn in C; [subst new; now exists old|]. injection C as ->. congruence.
Qed.
Lemma told_made_active n : made rw n -> visibility (log ++ es) n Active.
Proof.
  intros M. destruct (last_concerning_exists es n) as [N|[x L]].
  - exfalso. destruct M as [old H]. destruct (proj2 T _ _ H) as (ts & tx & X). apply (N _ X). left. reflexivity.
  - exists x. split; [apply last_concerning_app; now left|].
    assert (Hx : x ∈ es /\ concerns x n).
    { destruct L as (b & a & -> & C & _). split; [apply elem_of_app; right; left|exact C]. }
    destruct Hx as [Hx C]. destruct (proj1 T x n Hx C) as (ts & tx & old & new & H & ->).
    destruct C as [C|C]; [exact C|]. cbn in C. injection C as ->. destruct (F n M) as (_ & V & _). destruct V. apply D. eauto.
Qed.
End told.

(** Events about no commit. *)
Lemma rewritten_quiet a q o new : (forall x o, x ∈ q -> ~ concerns x o) -> rewritten (a ++ q) o new <-> rewritten a o new.
Proof.
  intros Q. unfold rewritten. setoid_rewrite last_concerning_app. split; intros (ts & tx & L & N); exists ts, tx; (split; [|exact N]).
  - destruct L as [L|[_ L]]; [|exact L]. exfalso. destruct L as (b & a' & -> & C & _). eapply Q; [apply elem_of_app; right; left|exact C].
  - right. split; [|exact L]. intros y Hy. now apply Q.
Qed.
Lemma chain_end_ext a b o m : (forall o new, rewritten a o new <-> rewritten b o new) -> chain_end a o m -> chain_end b o m.
Proof.
  intros X. induction 1 as [o H|o x H N|o x m H _ IH].
  - apply chain_deleted. now apply X.
  - apply chain_last; [now apply X|]. intros new Y. apply (N new). now apply X.
  - eapply chain_step; [apply X, H|exact IH].
Qed.
Lemma chain_end_quiet a q o m : (forall x o, x ∈ q -> ~ concerns x o) -> chain_end (a ++ q) o m <-> chain_end a o m.
Proof. intros Q. split; apply chain_end_ext; intros; [|symmetry]; now apply rewritten_quiet. Qed.

(** ** The events of hooks *)

Lemma all_some_forall {A} (P : A -> Prop) (l : list (option A)) r : all_some l = Some r ->
  (forall x, Some x ∈ l -> P x) -> forall x, x ∈ r -> P x.
Proof.
  revert r. induction l as [|[y|] l IH]; cbn; intros r E H x Hx; [injection E as <-; now apply elem_of_nil in Hx| |discriminate].
  destruct (all_some l) as [r'|]; [|discriminate]. injection E as <-. apply elem_of_cons in Hx. destruct Hx as [->|Hx].
  - apply H. left.
  - apply (IH r' eq_refl); [|exact Hx]. intros z Hz. apply H. now right.
Qed.
Lemma hook_events_quiet e ts tx ls x o : x ∈ hook_events e ts tx ls -> ~ concerns x o.
Proof.
  unfold hook_events. destruct (hook_reference_transaction _ _ _ _ _ _ _) as [es|] eqn:E; [|intros H; now apply elem_of_nil in H].
  intros H. assert (Hx : x ∈ es) by (destruct tx; [now apply elem_of_nil in H|exact H] || (destruct tx; [exact H|now apply elem_of_nil in H])).
  unfold hook_reference_transaction in E. cbn [String.eqb Ascii.eqb Bool.eqb] in E.
  destruct (read_packed_refs _ _) as [packed|]; [|discriminate].
  revert x Hx H. assert (G : forall x, x ∈ es -> is_ref_update x).
  { apply (all_some_forall _ _ _ E). intros x Hx. apply elem_of_list_In, in_map_iff in Hx. destruct Hx as (l & Hl & _).
    destruct (target_as_oid _ _); [|discriminate]. destruct (target_as_oid _ _); [|discriminate]. injection Hl as <-. exact I. }
  intros x Hx _. specialize (G x Hx). destruct x; try destruct G. unfold concerns. cbn. tauto.
Qed.
Lemma rewrite_events_spec ts i l : Forall (fun p => oid_ok (fst p) /\ moid_ok (snd p)) l ->
  rewrite_events ts (TxId i) l = List.map (fun p => RewriteEvent ts (TxId i) (NonZero (fst p)) (snd p)) l.
Proof.
  intros H. unfold rewrite_events, hook_post_rewrite. cbn [hs_rebase hs_deferred read_deferred]. rewrite andb_false_r.
  cbn [read_deferred]. rewrite rewritten_round_trip by exact H. reflexivity.
Qed.

(** ** What a restack in memory did *)

Lemma opened_in e r d : open_repo (re_hide e) (rr_repo r) = Some d -> in_order (re_hide e) (rr_repo r) ->
  dag_graph d = he_graph (re_hide e) /\
  (forall o, visible d o <-> shown (he_graph (re_hide e)) (rr_repo r) o) /\
  (forall o, o ∈ obsolete_commits d <-> visibility (hr_log (rr_repo r)) o Obsolete).
Proof. intros H I. apply open_repo_some; [apply (io_main _ _ I)|exact H]. Qed.

(** The commits whose children are looked for. *)
Definition looked_at (d : dag) (chosen : option commit_set) : commit_set :=
  match chosen with Some cs => cs | None => obsolete_commits d end.

Record ran (e : restack_env) (r : rrepo) (d : dag) (chosen : option commit_set) (rw : gmap oid moid)
  (r1 : rrepo) (cs : list constraint) : Prop := {
  rn_only : forall x, x ∈ cs -> exists t k, x = MoveSubtree [t] k;
  rn_in : forall t k, MoveSubtree [t] k ∈ cs <-> exists o, o ∈ looked_at d chosen /\
    (chain_end (hr_log (rr_repo r)) o (NonZero t) \/ (t = o /\ chain_end (hr_log (rr_repo r)) o Zero)) /\
    parent (dag_graph d) o k /\ visible d k /\ k ∉ obsolete_commits d;
  rn_public : re_force e = false -> forall p c, new_parent d cs p c -> ~ public d c;
  rn_carried : exists head, carried_out d cs (planner e (rr_store r)) (runner e r) (rr_store r) (rr_store r1) rw head;
  rn_log : exists es, hr_log (rr_repo r1) = hr_log (rr_repo r) ++ es /\ tells rw es;
  rn_refs : forall n, is_local n = true -> hr_refs (rr_repo r1) !! n = branch_after (he_branch (re_hide e)) rw (hr_refs (rr_repo r)) n;
  rn_head : exists h, hi_oid (hr_head (rr_repo r)) = Some h /\
    ((exists q, hi_oid (hr_head (rr_repo r1)) = Some q /\ lands d cs rw h q) \/
     (hr_refs (rr_repo r) !! he_main (re_hide e) = Some h /\ rw !! h = Some Zero));
  rn_branch : forall n, hi_branch (hr_head (rr_repo r1)) = Some n ->
    is_local n = true /\ hi_branch (hr_head (rr_repo r)) = Some n /\ hi_oid (hr_head (rr_repo r1)) = hr_refs (rr_repo r1) !! n;
  rn_stays : forall n, hi_branch (hr_head (rr_repo r)) = Some n -> is_Some (hr_refs (rr_repo r1) !! n) ->
    hi_branch (hr_head (rr_repo r1)) = Some n;
  rn_named : named (re_exec e) (rr_store r1) }.

Lemma kid_abandoned e r d o k new : dag_graph d = he_graph (re_hide e) ->
  (forall o, visible d o <-> shown (he_graph (re_hide e)) (rr_repo r) o) ->
  (forall o, o ∈ obsolete_commits d <-> visibility (hr_log (rr_repo r)) o Obsolete) ->
  rewritten (hr_log (rr_repo r)) o new -> parent (dag_graph d) o k -> visible d k -> k ∉ obsolete_commits d ->
  abandoned_on (he_graph (re_hide e)) (rr_repo r) o k.
Proof.
  intros G V O R P Hv Ho. split; [now rewrite <- G|]. split; [eauto|]. split; [now apply V|]. now rewrite <- O.
Qed.
Lemma ends_rewritten log o t : chain_end log o (NonZero t) \/ (t = o /\ chain_end log o Zero) -> exists new, rewritten log o new.
Proof. intros [H|[_ H]]; eapply chain_end_rewritten; eauto. Qed.

Lemma restack_run e ts i r d chosen rw : restackable e r -> disk_silent e ->
  (forall k, abandoned (he_graph (re_hide e)) (rr_repo r) k -> ~ merge_commit (he_graph (re_hide e)) k) ->
  open_repo (re_hide e) (rr_repo r) = Some d -> (forall n, made rw n -> oid_ok n) ->
  rs_ok (restack_commits e ts (TxId i) d chosen r) = true ->
  rs_rewritten (restack_commits e ts (TxId i) d chosen r) = Some rw ->
  exists cs, ran e r d chosen rw (rs_repo (restack_commits e ts (TxId i) d chosen r)) cs.
Proof.
  intros R DS NM Op On. pose proof (ra_order _ _ R) as IO. destruct (opened_in e r d Op IO) as (G & V & O).
  assert (W : wf_graph (dag_graph d)) by (rewrite G; apply (io_graph _ _ IO)).
  unfold restack_commits, plan_restack. set (log := hr_log (rr_repo r)). set (main := he_main (re_hide e)).
  fold (looked_at d chosen).
  destruct (find_rebases_spec (re_order e) d main log (re_order e (looked_at d chosen)) W (ra_sets _ _ R)) as (rs & E & A & B & C).
  rewrite E. set (cs := rebase_requests rs) in *.
  destruct (verify_rewrite_set d (re_force e) _) as [allowed|] eqn:Ev; [|discriminate].
  destruct (build d (planner e (rr_store r)) allowed cs) as [[dest cmds| | |]| |] eqn:Eb; try discriminate.
  set (x := execute_plan _ _ _ _ _ _ _ _ _ _ _). destruct x as [r' res] eqn:Ex. unfold x in Ex. clear x.
  destruct res as [rw'| | |]; try discriminate. cbn [rs_ok rs_rewritten rs_repo]. intros _ ->.
  assert (In : forall t k, MoveSubtree [t] k ∈ cs <-> exists o, o ∈ looked_at d chosen /\
    (chain_end log o (NonZero t) \/ (t = o /\ chain_end log o Zero)) /\
    parent (dag_graph d) o k /\ visible d k /\ k ∉ obsolete_commits d).
  { intros t k. rewrite B. split; intros (o & Ho & X); exists o; (split; [|exact X]);
      rewrite (ra_sets _ _ R), elem_of_elements in Ho || (rewrite (ra_sets _ _ R), elem_of_elements); exact Ho. }
  assert (Kn : knows d (planner e (rr_store r))).
  { intros c Hc. rewrite G in Hc. destruct (ra_store _ _ R c Hc) as (y & Hy & P). exists (ob_commit y). cbn. unfold find_object.
    rewrite Hy. split; [reflexivity|]. now rewrite G. }
  assert (Sub : Forall (fun x => exists p c, x = MoveSubtree [p] c /\ c ∈ vertices (dag_graph d) /\ ~ merge_commit (dag_graph d) c) cs).
  { apply Forall_forall. intros x Hx. destruct (A x Hx) as (t & k & ->). exists t, k. split; [reflexivity|].
    apply In in Hx. destruct Hx as (o & _ & T & P & Hv & Ho). destruct (ends_rewritten _ _ _ T) as [new Rw].
    split; [apply (parent_vertices _ _ _ W) in P; apply P|]. rewrite G. apply NM. exists o.
    eapply kid_abandoned; eauto. }
  destruct (subtrees_fit d (planner e (rr_store r)) cs W eq_refl Sub) as (Pl & Cl & Fit & Nf).
  assert (Fn : faithful_names (runner e r)) by exact (ra_faithful _ _ R).
  assert (Nd : named (runner e r) (rr_store r)) by exact (ra_named _ _ R).
  assert (Mem : exists st' head, re_on_disk e = false /\ rebase_in_memory (runner e r) (rr_store r) dest cmds = Ok (st', rw, head) /\
    post_rebase (he_branch (re_hide e)) (he_groups (re_hide e)) (re_iter e) rw head (with_store st' (start_repo r)) = (r', true)).
  { unfold execute_plan in Ex. destruct (re_on_disk e) eqn:Eo.
    - destruct (re_in_memory e); [discriminate|]. destruct (DS _ _ _ Ex).
    - change (rp_store (start_repo r)) with (rr_store r) in Ex.
      destruct (rebase_in_memory (runner e r) (rr_store r) dest cmds) as [[[st' rw'] head]|c st'|st']; [| |discriminate].
      + destruct (post_rebase _ _ _ _ _ _) as [r1 ok] eqn:Ep. destruct ok; [|discriminate]. injection Ex as <- <-. eauto.
      + destruct (re_resolve e); [|discriminate]. cbn in Ex. destruct (re_in_memory e); [discriminate|]. destruct (DS _ _ _ Ex). }
  destruct Mem as (st' & head & Eo & Er & Ep).
  assert (CO : carried_out d cs (planner e (rr_store r)) (runner e r) (rr_store r) st' rw head).
  { eapply (c30_subtrees d); eauto using ra_sort. exact (ra_sort _ _ R). }
  assert (Est : rp_store r' = st').
  { revert Ep. unfold post_rebase. destruct (mr_ok _); intros [= <-]. reflexivity. }
  assert (Nd' : named (re_exec e) st').
  { pose proof (rebase_grows (runner e r) (rr_store r) dest cmds) as Gr. rewrite Er in Gr. exact (proj2 Gr Nd). }
  destruct (post_rebase_refs _ _ _ rw head (ra_tables _ _ R) (ra_iter _ _ R rw) _ _ Ep) as (Refs & _ & _ & _ & Rws).
  cbn [with_store start_repo rp_rewrites rp_refs app] in Rws, Refs.
  assert (Ok_ : forall o m, rw !! o = Some m -> oid_ok o /\ moid_ok m).
  { intros o m H. destruct (co_rest _ _ _ _ _ _ _ _ CO o ltac:(eauto)) as [Rb|Fx]; [|destruct (Nf _ Fx)].
    split.
    - apply (ra_oids _ _ R). rewrite <- G. exact (pl_exists _ _ _ Pl o Rb).
    - destruct m as [|n]; [exact I|]. apply On. now exists o. }
  exists cs. constructor.
  - exact A.
  - exact In.
  - intros Ff p c Np. rewrite Ff in Ev.
    destruct (c27_allowed d false _ _ W Ev) as [_ X]. apply (X eq_refl).
    eapply (c27_moves_allowed d (planner e (rr_store r)) allowed cs dest cmds p c W (ra_sort _ _ R)); [apply (pl_stay _ _ _ Pl)|exact Eb|exact Np].
  - exists head. cbn [after_plan rr_store]. rewrite Est. exact CO.
  - cbn [after_plan rr_repo hr_log]. eexists. split; [reflexivity|].
    apply tells_quiet_app; [|intros x o Hx; eapply hook_events_quiet; exact Hx].
    apply tells_app_quiet; [|intros x o Hx; eapply (ra_quiet _ _ R); exact Hx].
    rewrite rewrite_events_spec.
    2:{ apply Forall_forall. intros [o m] Hp. rewrite Rws in Hp. apply elem_of_map_to_list in Hp. now apply Ok_. }
    split.
    + intros x o Hx _. apply elem_of_list_In, in_map_iff in Hx. destruct Hx as ([o' m] & <- & Hp).
      apply elem_of_list_In in Hp. rewrite Rws in Hp. apply elem_of_map_to_list in Hp. eauto 6.
    + intros old new H. exists ts, (TxId i). apply elem_of_list_In, in_map_iff. exists (old, new). split; [reflexivity|].
      apply elem_of_list_In. rewrite Rws. now apply elem_of_map_to_list.
  - intros n L. cbn [after_plan rr_repo hr_refs]. now apply Refs.
  - destruct (ra_head _ _ R) as [h Hh]. exists h. split; [exact Hh|]. cbn [after_plan rr_repo hr_head].
    destruct (ra_upstream _ _ R) as [up Hup].
    assert (HBr : forall n, hi_branch (rp_head (start_repo r)) = Some n -> rp_refs (start_repo r) !! n = Some h /\ is_local n = true).
    { intros n Hn. cbn in Hn |- *. split; [|now apply (ra_local _ _ R)]. rewrite (io_branch _ _ IO n Hn). exact Hh. }
    assert (Hf : hi_oid (checked_out_head r') = final_head r') by (unfold checked_out_head, final_head; destruct (rp_checkout r'); reflexivity).
    rewrite Hf. rewrite Eo in Ex.
    destruct (c32_head_partial d (planner e (rr_store r)) (runner e r) (he_branch (re_hide e)) (he_groups (re_hide e)) (re_iter e) (re_disk e)
      (re_in_memory e) (re_resolve e) allowed cs dest cmds (start_repo r) r' st' rw head h up W Kn Pl Cl Fit (ra_sort _ _ R) Fn Nd
      (ra_tables _ _ R) (ra_iter _ _ R) Hup Eb Er Ex Hh Hh HBr (Nf h)) as [[X|(Y & Z & _)] _].
    + left. exact X.
    + right. split; [|exact Z]. apply HBr in Y. apply Y.
  - intros n Hn. cut (hi_branch (hr_head (rr_repo r)) = Some n /\ hi_oid (hr_head (rr_repo (after_plan e ts (TxId i) r r'))) = hr_refs (rr_repo (after_plan e ts (TxId i) r r')) !! n).
    { intros [X Y]. split; [now apply (ra_local _ _ R)|auto]. }
    cbn [after_plan rr_repo hr_head hr_refs] in Hn |- *.
    destruct (ra_head _ _ R) as [h Hh]. revert Ep Hn. unfold post_rebase, checked_out_head. cbn [with_store start_repo rp_head].
    destruct (hr_head (rr_repo r)) as [ho hb]. cbn in Hh. subst ho. cbn [hi_oid hi_branch updated_head].
    destruct (mr_ok _); [|discriminate]. intros [= <-]. cbn [rp_checkout rp_head rp_refs]. unfold checkout_of.
    destruct hb as [n0|].
    + destruct (mr_refs _ !! n0).
      * rewrite decide_False by congruence. intros [= <-]. auto.
      * destruct (decide _); [now intros [=]|]. destruct head; now intros [=].
    + destruct (rw !! h) as [[|q]|]; (destruct (decide _); [now intros [=]|]); try destruct head; now intros [=].
  - intros n. cbn [after_plan rr_repo hr_head hr_refs].
    destruct (ra_head _ _ R) as [h Hh]. revert Ep. unfold post_rebase, checked_out_head. cbn [with_store start_repo rp_head].
    destruct (hr_head (rr_repo r)) as [ho hb]. cbn in Hh. subst ho. cbn [hi_oid hi_branch updated_head].
    destruct (mr_ok _); [|discriminate]. intros [= <-] ->. cbn [rp_checkout rp_head rp_refs]. unfold checkout_of.
    intros [x Hx]. cbn [hi_branch]. rewrite Hx. rewrite decide_False by congruence. reflexivity.
  - cbn [after_plan rr_store]. now rewrite Est.
Qed.

(** ** When there is nothing to do *)

Lemma requests_only rs : (forall x, x ∈ rebase_requests rs -> exists t k, x = MoveSubtree [t] k) ->
  forall t f, FixUpCommit t f ∉ rebase_requests rs.
Proof. intros A t f H. destruct (A _ H) as (? & ? & [=]). Qed.

Lemma build_none d e allowed : wf_graph (dag_graph d) -> build d e allowed [] = Done BuiltNothing.
Proof.
  intros W. destruct (build_constraints_spec d [] W) as (_ & X & S).
  destruct (proj2 X) as [cg Ecg]; [intros b x a u v E; destruct b; discriminate|]. destruct (S cg Ecg) as (_ & Ft & Ed).
  assert (Ne : forall p c, ~ edge (cg_inner cg) p c).
  { intros p c H. apply Ed in H. destruct H as [(b & ? & a & E & _)|[(_ & _ & b & x & a & u & v & E & _)|[(_ & _ & _ & a & [Ha|[? Ha]] & _) _]]].
    - destruct b; discriminate.
    - destruct b; discriminate.
    - destruct Ha as [q [(b & ? & z & E & _)|(_ & _ & b & x & z & u & v & E & _)]]; destruct b; discriminate.
    - now apply elem_of_nil in Ha. }
  assert (Nt : forall t, t ∉ commits_to_fixup cg) by (intros t H; apply Ft in H; destruct H as [? H]; now apply elem_of_nil in H).
  assert (Nr : find_roots cg = []).
  { apply elem_of_nil_inv. intros x Hx. unfold find_roots in Hx. apply elem_of_app in Hx. destruct Hx as [Hx|Hx]; apply elem_of_list_In in Hx.
    - apply in_flat_map in Hx. destruct Hx as (p & _ & Hx). apply in_map_iff in Hx. destruct Hx as (c & _ & Hx).
      apply elem_of_list_In, sorted_oids_spec in Hx. exact (Ne p c Hx).
    - apply in_map_iff in Hx. destruct Hx as (t & _ & Hx). apply elem_of_list_In, sorted_oids_spec in Hx.
      apply elem_of_difference in Hx. exact (Nt t (proj1 Hx)). }
  unfold build. rewrite Ecg. cbn [bind].
  rewrite (proj2 (check_for_cycles_none (cg_inner cg))).
  2:{ intros c T. inversion T; subst; eapply Ne; eauto. }
  cbn [bind]. rewrite decide_True.
  2:{ apply elem_of_equiv_empty_L. intros c H. unfold check_permissions, commits_to_move in H. apply elem_of_difference in H.
      destruct H as [H _]. apply all_values_spec in H. destruct H as [p H]. exact (Ne p c H). }
  unfold build_commands. rewrite Nr. reflexivity.
Qed.

Lemma restack_nothing_plan e ts tx r d chosen : restackable e r ->
  (forall k, abandoned (he_graph (re_hide e)) (rr_repo r) k -> ~ merge_commit (he_graph (re_hide e)) k) ->
  open_repo (re_hide e) (rr_repo r) = Some d ->
  rs_out (restack_commits e ts tx d chosen r) = ["No abandoned commits to restack."] <->
  forall o k, o ∈ looked_at d chosen -> ~ abandoned_on (he_graph (re_hide e)) (rr_repo r) o k.
Proof.
  intros R NM Op. pose proof (ra_order _ _ R) as IO. destruct (opened_in e r d Op IO) as (G & V & O).
  assert (W : wf_graph (dag_graph d)) by (rewrite G; apply (io_graph _ _ IO)).
  unfold restack_commits, plan_restack. set (log := hr_log (rr_repo r)). set (main := he_main (re_hide e)).
  fold (looked_at d chosen).
  destruct (find_rebases_spec (re_order e) d main log (re_order e (looked_at d chosen)) W (ra_sets _ _ R)) as (rs & E & A & B & C).
  rewrite E. set (cs := rebase_requests rs) in *.
  assert (In : forall t k, MoveSubtree [t] k ∈ cs <-> exists o, o ∈ looked_at d chosen /\
    (chain_end log o (NonZero t) \/ (t = o /\ chain_end log o Zero)) /\
    parent (dag_graph d) o k /\ visible d k /\ k ∉ obsolete_commits d).
  { intros t k. rewrite B. split; intros (o & Ho & X); exists o; (split; [|exact X]);
      rewrite (ra_sets _ _ R), elem_of_elements in Ho || (rewrite (ra_sets _ _ R), elem_of_elements); exact Ho. }
  assert (Ab : forall o k, o ∈ looked_at d chosen -> abandoned_on (he_graph (re_hide e)) (rr_repo r) o k -> exists t, MoveSubtree [t] k ∈ cs).
  { intros o k Ho (P & [new Rw] & Vk & Ok_). destruct (rewritten_chain_end _ _ _ Rw) as [[|t] Ce].
    - exists o. apply In. exists o. split; [exact Ho|]. split; [auto|]. split_and!; [now rewrite G|now apply V|now rewrite O].
    - exists t. apply In. exists o. split; [exact Ho|]. split; [auto|]. split_and!; [now rewrite G|now apply V|now rewrite O]. }
  assert (Sub : Forall (fun x => exists p c, x = MoveSubtree [p] c /\ c ∈ vertices (dag_graph d) /\ ~ merge_commit (dag_graph d) c) cs).
  { apply Forall_forall. intros x Hx. destruct (A x Hx) as (t & k & ->). exists t, k. split; [reflexivity|].
    apply In in Hx. destruct Hx as (o & _ & T & P & Hv & Ho). destruct (ends_rewritten _ _ _ T) as [new Rw].
    split; [apply (parent_vertices _ _ _ W) in P; apply P|]. rewrite G. apply NM. exists o.
    eapply kid_abandoned; eauto. }
  split.
  - destruct (verify_rewrite_set d (re_force e) _) as [allowed|] eqn:Ev; [|discriminate].
    destruct (build d (planner e (rr_store r)) allowed cs) as [[dest cmds| | |]| |] eqn:Eb; try discriminate.
    { destruct (execute_plan _ _ _ _ _ _ _ _ _ _ _) as [? []]; discriminate. }
    intros _ o k Ho Hk. destruct (Ab o k Ho Hk) as [t Ht].
    assert (Kn : knows d (planner e (rr_store r))).
    { intros c Hc. rewrite G in Hc. destruct (ra_store _ _ R c Hc) as (y & Hy & P). exists (ob_commit y). cbn. unfold find_object.
      rewrite Hy. split; [reflexivity|]. now rewrite G. }
    destruct (subtrees_fit d (planner e (rr_store r)) cs W eq_refl Sub) as (Pl & _ & _ & Nf).
    assert (Gc : gaps_close d cs).
    { intros b x a u v E1 T. destruct (A x) as (t1 & k1 & ->); [rewrite E1; apply elem_of_app; right; left|].
      destruct T as [T|(t2 & T & _)]; discriminate. }
    assert (Ni : ~ impossible d cs).
    { intros X. apply (c26_moves d (planner e (rr_store r)) allowed cs W Gc (requests_only rs A)) in X. destruct X as [l X]. congruence. }
    assert (Rq : exists p, placed cs k p).
    { clear - A Ht. revert A Ht. assert (X : forall l, (forall x, x ∈ l -> exists t k, x = MoveSubtree [t] k) -> MoveSubtree [t] k ∈ l ->
        exists b t a, l = b ++ MoveSubtree [t] k :: a /\ Forall (fun x => ~ about k x) a).
      { induction l as [|x l IH] using rev_ind; intros A H; [now apply elem_of_nil in H|].
        destruct (A x) as (t1 & k1 & ->); [apply elem_of_app; right; left|]. destruct (decide (k1 = k)) as [->|N].
        - exists l, t1, []. split; [reflexivity|constructor].
        - destruct IH as (b & t2 & a & -> & F).
          + intros y Hy. apply A. apply elem_of_app. now left.
          + apply elem_of_app in H. destruct H as [H|H]; [exact H|]. apply elem_of_list_singleton in H. congruence.
          + exists b, t2, (a ++ [MoveSubtree [t1] k1]). split; [now rewrite <- app_assoc|]. apply Forall_app. split; [exact F|].
            repeat constructor. cbn. congruence. }
      intros A Ht. destruct (X cs A Ht) as (b & t' & a & E & F). exists t', b, [t'], a. split; [exact E|]. split; [left|exact F]. }
    destruct Rq as [p Rq].
    assert (Al : forall c, moves d cs c -> c ∈ allowed).
    { intros c [q Hq]. apply (code_parent_new _ _ _ _ (pl_stay _ _ _ Pl)) in Hq. revert Eb. unfold build.
      destruct (build_constraints d cs) as [cg| |] eqn:Ecg; cbn [bind]; try discriminate.
      destruct (check_for_cycles (cg_inner cg)) as [[l|]| |]; cbn [bind]; try discriminate.
      destruct (decide (check_permissions cg allowed = ∅)) as [Ep|]; [|discriminate]. intros _.
      apply (code_parent_iff _ _ _ _ _ W Ecg) in Hq. apply edge_moved in Hq. unfold moved, check_permissions in *.
      destruct (decide (c ∈ allowed)); [assumption|set_solver]. }
    destruct (c28_planned d (planner e (rr_store r)) allowed cs W Kn Pl Gc Ni Al) as (dest & cmds & X); [|congruence].
    exists k. left. exists p. left. exact Rq.
  - intros N. assert (cs = []) as Ec.
    { destruct cs as [|x cs']; [reflexivity|]. exfalso. destruct (A x) as (t & k & ->); [left|].
      destruct (proj1 (In t k)) as (o & Ho & T & P & Hv & Hk); [left|]. destruct (ends_rewritten _ _ _ T) as [new Rw].
      apply (N o k Ho). eapply kid_abandoned; eauto. }
    assert (Es : flat_map snd rs = []).
    { destruct (flat_map snd rs) as [|k l]; [reflexivity|]. exfalso. destruct (proj1 (C k)) as [t Ht]; [left|]. rewrite Ec in Ht. now apply elem_of_nil in Ht. }
    rewrite Es, Ec. cbn [list_to_set].
    destruct (verify_rewrite_set d (re_force e) ∅) as [allowed|] eqn:Ev.
    + now rewrite build_none by exact W.
    + exfalso. apply verify_rewrite_set_none in Ev; [|exact W]. destruct Ev as (_ & a & _ & H & _). set_solver.
Qed.

Lemma restack_commits_nothing e ts tx d chosen r :
  rs_out (restack_commits e ts tx d chosen r) = ["No abandoned commits to restack."] ->
  rs_repo (restack_commits e ts tx d chosen r) = r /\ rs_rewritten (restack_commits e ts tx d chosen r) = None /\
  rs_ok (restack_commits e ts tx d chosen r) = true.
Proof.
  unfold restack_commits. destruct (plan_restack _ _ _ _ _ _); try discriminate; [auto|].
  destruct (execute_plan _ _ _ _ _ _ _ _ _ _ _) as [? []]; discriminate.
Qed.

(** ** Branches *)

Lemma rewritten_targets_spec main log l : forall m, (forall o x, m !! o = Some x -> chain_end log o x) -> exists m',
  rewritten_targets (replay main log) (default_cursor (replay main log)) l m = Some m' /\
  (forall o x, m' !! o = Some x -> chain_end log o x) /\
  (forall o, is_Some (m' !! o) <-> is_Some (m !! o) \/ (o ∈ l /\ exists x, chain_end log o x)).
Proof.
  induction l as [|a l IH]; intros m Hm; cbn [rewritten_targets].
  - exists m. split; [reflexivity|]. split; [exact Hm|]. intros o. split; [auto|]. intros [H|[H _]]; [exact H|now apply elem_of_nil in H].
  - destruct (target_now main log a) as (res & -> & S). destruct res as [x|].
    + destruct (IH (<[a := x]> m)) as (m' & E & A & B).
      { intros o y. destruct (decide (a = o)) as [<-|N]; [rewrite lookup_insert; now intros [= <-]|].
        rewrite lookup_insert_ne by exact N. apply Hm. }
      exists m'. split; [exact E|]. split; [exact A|]. intros o. rewrite B. destruct (decide (a = o)) as [<-|N].
      * rewrite lookup_insert. split; [|intros _; left; eauto]. intros _. right. split; [left|eauto].
      * rewrite lookup_insert_ne by exact N. split; (intros [H|[H X]]; [auto|right]).
        -- split; [now right|exact X].
        -- apply elem_of_cons in H. destruct H as [H|H]; [congruence|auto].
    + destruct (IH m Hm) as (m' & E & A & B). exists m'. split; [exact E|]. split; [exact A|]. intros o. rewrite B.
      split; (intros [H|[H X]]; [auto|]); [right; split; [now right|exact X]|].
      apply elem_of_cons in H. destruct H as [->|H]; [|auto]. destruct X as [x X]. destruct (chain_end_rewritten _ _ _ X) as [new Y].
      destruct (S new Y).
Qed.

Lemma local_targets refs o : o ∈ List.map snd (local_branches refs) <-> exists n : refname, refs !! n = Some o /\ is_local n = true.
Proof.
  rewrite branch_at_spec. unfold branch_at. split.
  - intros [s H]. exists ("refs/heads/" +:+ s). split; [exact H|]. apply is_local_spec. eauto.
  - intros (n & H & L). apply is_local_spec in L. destruct L as [s ->]. eauto.
Qed.

Lemma restack_branches_spec e ts tx r : branch_table (he_groups (re_hide e) (hr_refs (rr_repo r))) (hr_refs (rr_repo r)) ->
  rs_ok (restack_branches e ts tx r) = true ->
  exists rw, (forall o x, rw !! o = Some x -> chain_end (hr_log (rr_repo r)) o x) /\
    (forall n o x, hr_refs (rr_repo r) !! n = Some o -> is_local n = true -> chain_end (hr_log (rr_repo r)) o x -> rw !! o = Some x) /\
    (forall n, hr_refs (rr_repo (rs_repo (restack_branches e ts tx r))) !! n = branch_after (he_branch (re_hide e)) rw (hr_refs (rr_repo r)) n) /\
    (exists es, hr_log (rr_repo (rs_repo (restack_branches e ts tx r))) = hr_log (rr_repo r) ++ es /\ forall x o, x ∈ es -> ~ concerns x o) /\
    rr_store (rs_repo (restack_branches e ts tx r)) = rr_store r /\
    (rs_out (restack_branches e ts tx r) = ["No abandoned branches to restack."] <-> rw = ∅).
Proof.
  intros T. unfold restack_branches. set (h := rr_repo r) in *.
  destruct (rewritten_targets_spec (he_main (re_hide e)) (hr_log h) (List.map snd (local_branches (hr_refs h))) ∅) as (rw & E & A & B).
  { intros o x H. now rewrite lookup_empty in H. }
  rewrite E. assert (In : forall (n : refname) o x, hr_refs h !! n = Some o -> is_local n = true -> chain_end (hr_log h) o x -> rw !! o = Some x).
  { intros n o x Hn L C. destruct (proj2 (B o)) as [y Hy].
    - right. split; [apply local_targets; eauto|eauto].
    - rewrite Hy. f_equal. eapply chain_end_unique; [apply A, Hy|exact C]. }
  destruct (decide (rw = ∅)) as [->|Ne]; cbn [rs_ok rs_repo rr_repo rs_out hr_refs hr_log rr_store].
  - intros _. exists ∅. split; [exact A|]. split; [exact In|]. split; [|split; [|split; [reflexivity|tauto]]].
    + intros n. unfold branch_after. unfold h. destruct (hr_refs (rr_repo r) !! n); [|reflexivity]. rewrite lookup_empty. now destruct (is_local n).
    + exists []. rewrite app_nil_r. split; [reflexivity|]. intros x o H. now apply elem_of_nil in H.
  - set (m := move_branches _ _ _ _). intros Hk. exists rw. split; [exact A|]. split; [exact In|].
    destruct (c32_branches (he_branch (re_hide e)) rw _ _ T Hk) as [X _]. split; [exact X|]. split.
    + eexists. split; [reflexivity|]. intros x o. destruct (mr_lines m); [apply hook_events_quiet|intros H; now apply elem_of_nil in H].
    + split; [reflexivity|]. fold m in Hk |- *. rewrite Hk. split; [intros [=]|congruence].
Qed.
Lemma restack_branches_head e ts tx r : hi_branch (hr_head (rr_repo (rs_repo (restack_branches e ts tx r)))) = hi_branch (hr_head (rr_repo r)) /\
  (hi_oid (hr_head (rr_repo (rs_repo (restack_branches e ts tx r)))) = hi_oid (hr_head (rr_repo r)) /\ rr_repo (rs_repo (restack_branches e ts tx r)) = rr_repo r
    \/ hi_oid (hr_head (rr_repo (rs_repo (restack_branches e ts tx r)))) =
  match hi_branch (hr_head (rr_repo r)) with
  | Some n => hr_refs (rr_repo (rs_repo (restack_branches e ts tx r))) !! n
  | None => hi_oid (hr_head (rr_repo r))
  end).
Proof.
  unfold restack_branches. destruct (rewritten_targets _ _ _ _) as [rw|]; [|auto].
  destruct (decide _); [auto|]. cbn. destruct (hi_branch (hr_head (rr_repo r))) eqn:E; cbn; auto.
Qed.

Lemma restack_branches_moved e ts tx r : branch_table (he_groups (re_hide e) (hr_refs (rr_repo r))) (hr_refs (rr_repo r)) ->
  (exists up, be_upstream (he_branch (re_hide e)) = Some up) ->
  rs_ok (restack_branches e ts tx r) = true ->
  let r' := rs_repo (restack_branches e ts tx r) in
  (forall n o, is_local n = true -> hr_refs (rr_repo r) !! n = Some o ->
     branch_moved (hr_log (rr_repo r)) (he_branch (re_hide e)) n o (hr_refs (rr_repo r') !! n)) /\
  (forall n, is_local n = false \/ hr_refs (rr_repo r) !! n = None -> hr_refs (rr_repo r') !! n = hr_refs (rr_repo r) !! n).
Proof.
  intros T [up Hu] Hk. destruct (restack_branches_spec e ts tx r T Hk) as (rw & A & B & C & _). cbv zeta. split.
  - intros n o L Hn. rewrite C. unfold branch_after. rewrite Hn, L. destruct (rw !! o) as [[|x]|] eqn:E.
    + right. right. split; [apply A, E|]. destruct (decide (n = be_main (he_branch (re_hide e)))) as [->|Ne].
      * split; [congruence|]. intros _. rewrite Hu. reflexivity.
      * split; [reflexivity|congruence].
    + right. left. exists x. split; [apply A, E|reflexivity].
    + left. split; [|reflexivity]. intros new Rw. destruct (rewritten_chain_end _ _ _ Rw) as [m Ce]. pose proof (B n o m Hn L Ce). congruence.
  - intros n H. rewrite C. unfold branch_after. destruct (hr_refs (rr_repo r) !! n) as [o|] eqn:E; [|reflexivity].
    destruct H as [->|H]; [reflexivity|discriminate].
Qed.
(** The reports of [restack_branches]. *)
Lemma restack_branches_nothing e ts tx r : branch_table (he_groups (re_hide e) (hr_refs (rr_repo r))) (hr_refs (rr_repo r)) ->
  rs_out (restack_branches e ts tx r) = ["No abandoned branches to restack."] <->
  forall n o new, is_local n = true -> hr_refs (rr_repo r) !! n = Some o -> ~ rewritten (hr_log (rr_repo r)) o new.
Proof.
  intros T. unfold restack_branches. set (h := rr_repo r) in *.
  destruct (rewritten_targets_spec (he_main (re_hide e)) (hr_log h) (List.map snd (local_branches (hr_refs h))) ∅) as (rw & E & A & B).
  { intros o x H. now rewrite lookup_empty in H. }
  rewrite E. destruct (decide (rw = ∅)) as [->|Ne]; cbn [rs_out].
  - split; [|reflexivity]. intros _ n o new L Hn Rw. destruct (rewritten_chain_end _ _ _ Rw) as [m Ce].
    destruct (proj2 (B o)) as [x Hx]; [right; split; [apply local_targets; eauto|eauto]|]. now rewrite lookup_empty in Hx.
  - split; [destruct (mr_ok _); discriminate|]. intros N. exfalso. apply Ne, map_empty. intros o. destruct (rw !! o) as [x|] eqn:Ex; [|reflexivity].
    exfalso. destruct (proj1 (B o)) as [[y Hy]|[Ho [y Hy]]]; [eauto|now rewrite lookup_empty in Hy|].
    apply local_targets in Ho. destruct Ho as (n & Hn & L). destruct (chain_end_rewritten _ _ _ Hy) as [new Rw]. exact (N n o new L Hn Rw).
Qed.
Lemma restack_branches_nothing_done e ts tx r : rs_out (restack_branches e ts tx r) = ["No abandoned branches to restack."] ->
  rs_repo (restack_branches e ts tx r) = r /\ rs_ok (restack_branches e ts tx r) = true.
Proof.
  unfold restack_branches. destruct (rewritten_targets _ _ _ _) as [rw|]; [|discriminate].
  destruct (decide _); [auto|]. cbn. destruct (mr_ok _); discriminate.
Qed.

(** ** Nothing is abandoned afterwards *)

Section after.
Context (e : restack_env) (r : rrepo) (d : dag) (chosen : option commit_set) (rw : gmap oid moid) (r1 : rrepo)
  (cs : list constraint) (g' : graph).
Let g := he_graph (re_hide e).
Let log := hr_log (rr_repo r).
Hypothesis R : restackable e r.
Hypothesis Op : open_repo (re_hide e) (rr_repo r) = Some d.
Hypothesis Rn : ran e r d chosen rw r1 cs.
Hypothesis SO : sorted_out g (rr_repo r).

Lemma dag_graph_is : dag_graph d = g. Proof. apply (opened_in e r d Op (ra_order _ _ R)). Qed.
Lemma visible_is o : visible d o <-> shown g (rr_repo r) o. Proof. apply (opened_in e r d Op (ra_order _ _ R)). Qed.
Lemma obsolete_is o : o ∈ obsolete_commits d <-> visibility log o Obsolete. Proof. apply (opened_in e r d Op (ra_order _ _ R)). Qed.
Lemma graph_ok : wf_graph g. Proof. exact (io_graph _ _ (ra_order _ _ R)). Qed.

Lemma request_target t k : MoveSubtree [t] k ∈ cs -> exists o, o ∈ looked_at d chosen /\ abandoned_on g (rr_repo r) o k /\
  chain_end log o (NonZero t).
Proof.
  intros H. apply (rn_in _ _ _ _ _ _ _ Rn) in H. destruct H as (o & Ho & T & P & V & O). exists o.
  split; [exact Ho|]. destruct (ends_rewritten _ _ _ T) as [new Rw].
  assert (A : abandoned_on g (rr_repo r) o k) by (eapply kid_abandoned; eauto using dag_graph_is, visible_is, obsolete_is).
  split; [exact A|]. destruct T as [T|[_ T]]; [exact T|]. destruct (so_kept _ _ SO o k A T).
Qed.
Lemma abandoned_request o k : o ∈ looked_at d chosen -> abandoned_on g (rr_repo r) o k -> exists t, MoveSubtree [t] k ∈ cs.
Proof.
  intros Ho (P & [new Rw] & V & O). destruct (rewritten_chain_end _ _ _ Rw) as [[|t] C].
  - exists o. apply (rn_in _ _ _ _ _ _ _ Rn). exists o. split; [exact Ho|]. split; [auto|].
    split_and!; [now rewrite dag_graph_is|now apply visible_is|now rewrite obsolete_is].
  - exists t. apply (rn_in _ _ _ _ _ _ _ Rn). exists o. split; [exact Ho|]. split; [auto|].
    split_and!; [now rewrite dag_graph_is|now apply visible_is|now rewrite obsolete_is].
Qed.

Lemma last_request k : (exists t, MoveSubtree [t] k ∈ cs) -> exists t, placed cs k t /\ MoveSubtree [t] k ∈ cs.
Proof.
  assert (X : forall l, (forall x, x ∈ l -> exists t k, x = MoveSubtree [t] k) -> (exists t, MoveSubtree [t] k ∈ l) ->
    exists b t a, l = b ++ MoveSubtree [t] k :: a /\ Forall (fun x => ~ about k x) a).
  { induction l as [|x l IH] using rev_ind; intros A [t H]; [now apply elem_of_nil in H|].
    destruct (A x) as (t1 & k1 & ->); [apply elem_of_app; right; left|]. destruct (decide (k1 = k)) as [->|N].
    - exists l, t1, []. split; [reflexivity|constructor].
    - destruct IH as (b & t2 & a & -> & F).
      + intros y Hy. apply A, elem_of_app. auto.
      + apply elem_of_app in H. destruct H as [H|H]; [eauto|]. apply elem_of_list_singleton in H. congruence.
      + exists b, t2, (a ++ [MoveSubtree [t1] k1]). split; [now rewrite <- app_assoc|]. apply Forall_app. split; [exact F|].
        constructor; [exact N|constructor]. }
  intros H. destruct (X cs (rn_only _ _ _ _ _ _ _ Rn) H) as (b & t & a & E & F). exists t. split.
  - exists b, [t], a. split; [exact E|]. split; [left|exact F].
  - rewrite E. apply elem_of_app. right. left.
Qed.
Lemma placed_request k t : placed cs k t -> MoveSubtree [t] k ∈ cs.
Proof.
  intros (b & ps & a & E & H & _). destruct (rn_only _ _ _ _ _ _ _ Rn (MoveSubtree ps k)) as (t1 & k1 & [= -> ->]).
  { rewrite E. apply elem_of_app. right. left. }
  apply elem_of_list_singleton in H. subst t. rewrite E. apply elem_of_app. right. left.
Qed.
Lemma no_gap k p : ~ closes_gap d cs k p.
Proof.
  intros (_ & _ & b & x & a & u & v & E & T & _). destruct (rn_only _ _ _ _ _ _ _ Rn x) as (t & k1 & ->).
  { rewrite E. apply elem_of_app. right. left. }
  destruct T as [T|(t1 & T & _)]; discriminate.
Qed.
Lemma requested_iff k : requested d cs k <-> exists t, MoveSubtree [t] k ∈ cs.
Proof.
  split.
  - intros [p [H|H]]; [exists p; now apply placed_request|destruct (no_gap _ _ H)].
  - intros H. destruct (last_request k H) as (t & P & _). exists t. auto.
Qed.
Lemma requested_dec k : requested d cs k \/ ~ requested d cs k.
Proof.
  rewrite requested_iff. destruct (existsb (fun x => match x with MoveSubtree _ k' => N.eqb k' k | _ => false end) cs) eqn:E.
  - left. apply existsb_exists in E. destruct E as (x & Hx & E). apply elem_of_list_In in Hx.
    destruct (rn_only _ _ _ _ _ _ _ Rn x Hx) as (t & k' & ->). apply N.eqb_eq in E. subst k'. eauto.
  - right. intros [t Ht]. assert (X : existsb (fun x => match x with MoveSubtree _ k' => N.eqb k' k | _ => false end) cs = true); [|congruence].
    apply existsb_exists. exists (MoveSubtree [t] k). split; [now apply elem_of_list_In|apply N.eqb_refl].
Qed.
Lemma not_fixed f : ~ fixed_up cs f.
Proof. intros [t H]. destruct (rn_only _ _ _ _ _ _ _ Rn _ H) as (? & ? & [=]). Qed.
Lemma not_target f : ~ fixup_target cs f.
Proof. intros [t H]. destruct (rn_only _ _ _ _ _ _ _ Rn _ H) as (? & ? & [=]). Qed.

Lemma above_rebuilt a k : requested d cs a -> ancestor g a k -> visible d k -> rebuilt d cs k.
Proof.
  intros Ha A V. destruct (requested_dec k) as [H|H].
  - left. destruct H as [p [H|H]]; exists p; [left; exact H|right; left; exact H].
  - inversion A; subst; [tauto|]. left. apply rtc_inv_r in A. destruct A as [->|(p & A & P)]; [tauto|].
    exists p. right. right. split; [exact H|]. split; [exact V|]. rewrite dag_graph_is. split; [exact P|].
    exists a. split; [auto|]. eapply tc_rtc_l; [exact A|]. now apply tc_once.
Qed.
Lemma rebuilt_above c : rebuilt d cs c -> exists a, requested d cs a /\ ancestor g a c.
Proof.
  intros [[p [H|[H|H]]]|H].
  - exists c. split; [exists p; auto|constructor].
  - exists c. split; [exists p; auto|constructor].
  - destruct H as (_ & _ & _ & a & [Ha|Ha] & A); [|destruct (not_target _ Ha)]. exists a. split; [exact Ha|].
    rewrite dag_graph_is in A. now apply tc_rtc.
  - destruct (not_target _ H).
Qed.
Lemma child_rebuilt o k : rebuilt d cs o -> parent g o k -> visible d k -> rebuilt d cs k.
Proof. intros H P V. destruct (rebuilt_above o H) as (a & Ha & A). eapply above_rebuilt; [exact Ha| |exact V]. eapply rtc_r; eauto. Qed.

Lemma rw_rebuilt c : is_Some (rw !! c) <-> rebuilt d cs c.
Proof.
  destruct (rn_carried _ _ _ _ _ _ _ Rn) as [head CO]. split.
  - intros H. destruct (co_rest _ _ _ _ _ _ _ _ CO c H) as [X|X]; [exact X|destruct (not_fixed _ X)].
  - intros H. destruct (co_fate _ _ _ _ _ _ _ _ CO c H (not_fixed c)); eauto.
Qed.
Lemma rebuilt_no_merge c : rebuilt d cs c -> ~ merge_commit g c.
Proof.
  destruct (rn_carried _ _ _ _ _ _ _ Rn) as [head CO].
  intros H. rewrite <- dag_graph_is. destruct (co_fate _ _ _ _ _ _ _ _ CO c H (not_fixed c)) as [| |? ? ? ? ? ? X]; [assumption|assumption|].
  cbn in X. now rewrite lookup_empty in X.
Qed.
Lemma rw_known c : is_Some (rw !! c) -> c ∈ vertices g.
Proof.
  intros H. apply rw_rebuilt, rebuilt_above in H. destruct H as (a & Ha & A). apply requested_iff in Ha. destruct Ha as [t Ha].
  apply request_target in Ha. destruct Ha as (o & _ & (P & _) & _). apply (parent_vertices _ _ _ graph_ok) in P.
  apply rtc_inv_r in A. destruct A as [->|(p & _ & Q)]; [apply P|]. apply (parent_vertices _ _ _ graph_ok) in Q. apply Q.
Qed.

(** Commits that can be built upon. *)
Definition sound (o : oid) : Prop :=
  made rw o \/ (rw !! o = None /\ shown g (rr_repo r) o /\ forall new, ~ rewritten log o new).

Lemma one_parent c p q : ~ merge_commit g c -> parent g p c -> parent g q c -> p = q.
Proof.
  intros N (ps & Hc & Hp) (qs & Hc' & Hq). assert (ps = qs) as <-.
  { rewrite <- (parents_of_spec ∅ g c ps graph_ok Hc). apply (parents_of_spec ∅ g c qs graph_ok Hc'). }
  destruct ps as [|x [|y ps]].
  - now apply elem_of_nil in Hp.
  - apply elem_of_list_singleton in Hp, Hq. congruence.
  - exfalso. apply N. exists (x :: y :: ps). split; [exact Hc|cbn; lia].
Qed.

Lemma kept_base p c : rebuilt_on d cs p c -> rw !! p = None -> MoveSubtree [p] c ∈ cs /\ sound p.
Proof.
  intros B Np. assert (Q : MoveSubtree [p] c ∈ cs).
  { destruct B as [[H|[H|H]]|[(H & _)|(H & H' & _)]].
    - now apply placed_request.
    - destruct (no_gap _ _ H).
    - exfalso. assert (Rc : rebuilt d cs c) by (left; exists p; right; right; exact H).
      destruct H as (Nr & V & P & a & [Ha|Ha] & A); [|destruct (not_target _ Ha)]. rewrite dag_graph_is in P, A.
      apply tc_rtc in A. apply rtc_inv_r in A. destruct A as [->|(p' & A & P')]; [tauto|].
      rewrite (one_parent c p' p (rebuilt_no_merge c Rc) P' P) in A.
      assert (Rp : rebuilt d cs p).
      { eapply above_rebuilt; [exact Ha|exact A|]. apply visible_is. apply visible_is in V. destruct V as (v & Av & Kv).
        exists v. split; [|exact Kv]. eapply rtc_l; [exact P|exact Av]. }
      apply rw_rebuilt in Rp. rewrite Np in Rp. now destruct Rp.
    - destruct (not_target _ H).
    - rewrite dag_graph_is in H. destruct (rebuilt_no_merge c H' H). }
  split; [exact Q|]. right. split; [exact Np|]. destruct (request_target p c Q) as (o & _ & A & C). split.
  - eapply (so_shown _ _ SO o); [|exact C]. eauto.
  - exact (chain_end_final _ _ _ C).
Qed.
Lemma lands_sound p q : lands d cs rw p q -> q = p /\ rw !! p = None \/ sound q.
Proof.
  induction 1 as [p H|p q H|p p' q H B L IH].
  - auto.
  - right. left. now exists p.
  - destruct IH as [[-> Hn]|S]; [|auto]. right. now apply (kept_base p' p).
Qed.
Lemma rebuilt_on_sound p c q : rebuilt_on d cs p c -> lands d cs rw p q -> sound q.
Proof. intros B L. destruct (lands_sound p q L) as [[-> Hn]|S]; [|exact S]. now apply (kept_base p c). Qed.

(** The parents of a commit made. *)
Lemma made_parents n : made rw n -> exists x q c p, rr_store r1 !! n = Some x /\ commit_parents (ob_commit x) = [q] /\
  rw !! c = Some (NonZero n) /\ rebuilt_on d cs p c /\ lands d cs rw p q /\ sound q.
Proof.
  intros [c Hc]. destruct (rn_carried _ _ _ _ _ _ _ Rn) as [head CO].
  assert (Rb : rebuilt d cs c) by (apply rw_rebuilt; eauto).
  destruct (co_fate _ _ _ _ _ _ _ _ CO c Rb (not_fixed c)) as [p q Z|p q n' orig l x qx Z _ _ B L St _ _ _ _ Sq _|n' rr orig ps qs _ Z'].
  - congruence.
  - rewrite Hc in Z. injection Z as <-. exists x, q, c, p. split; [exact St|]. split.
    + destruct Sq; reflexivity.
    + split; [exact Hc|]. split; [exact B|]. split; [exact L|]. eapply rebuilt_on_sound; eauto.
  - cbn in Z'. now rewrite lookup_empty in Z'.
Qed.

(** What is moved, and where to. *)
Lemma looked_considered o k : abandoned_on g (rr_repo r) o k -> o ∈ looked_at d chosen <-> considered chosen o.
Proof.
  intros (_ & [new Rw] & _). destruct chosen as [s|]; cbn; [reflexivity|]. split; [auto|]. intros _.
  apply obsolete_is. eapply rewritten_obsolete, Rw.
Qed.
Lemma rebuilt_on_goes p c : rebuilt_on d cs p c -> goes_on g (rr_repo r) chosen p c.
Proof.
  intros [[X|[X|X]]|[(X & _)|(X & X' & _)]].
  - left. apply placed_request, request_target in X. destruct X as (o & Ho & Ab & Ce). exists o. split; [|auto].
    now apply (looked_considered o c).
  - destruct (no_gap _ _ X).
  - right. destruct X as (Nr & _ & P & _). rewrite dag_graph_is in P. split; [|exact P]. intros o Ho Ab. apply Nr, requested_iff.
    eapply abandoned_request; [|exact Ab]. now apply (looked_considered o c).
  - destruct (not_target _ X).
  - rewrite dag_graph_is in X. destruct (rebuilt_no_merge c X' X).
Qed.
Lemma lands_stands p q : lands d cs rw p q -> stands g (rr_repo r) chosen rw p q.
Proof.
  induction 1; [now constructor|now constructor|]. eapply stands_dropped; eauto using rebuilt_on_goes.
Qed.
Lemma one_pick q orig c l x : (forall f, f ∈ l <-> f = c \/ FixUpCommit c f ∈ cs) -> NoDup l -> squashes (runner e r) q orig l x ->
  exists tree, ee_pick (re_exec e) c q = MadeTree tree /\ x = remade (re_exec e) orig [q] tree.
Proof.
  intros L N S. assert (l = [c]) as ->.
  { assert (L' : forall f, f ∈ l <-> f = c). { intros f. rewrite L. split; [|auto]. intros [H|H]; [exact H|]. destruct (rn_only _ _ _ _ _ _ _ Rn _ H) as (? & ? & [=]). }
    destruct l as [|a [|b l]].
    - destruct (not_elem_of_nil c (proj2 (L' c) eq_refl)).
    - f_equal. apply L'. left.
    - exfalso. apply NoDup_cons in N. destruct N as [N _]. apply N. rewrite (proj1 (L' a)) by left. rewrite <- (proj1 (L' b)) by (right; left). left. }
  inversion S as [c' t Hp E1 E2|l' y c' t S' Ha E1 E2]; subst; [eauto|]. exfalso. destruct l' as [|? [|? ?]]; try discriminate E1. inversion S' as [|[|? ?] ? ? ? ? ? E3]; discriminate E3.
Qed.
Lemma restacked_ran : restacked e r chosen rw (rr_store r1).
Proof.
  destruct (rn_carried _ _ _ _ _ _ _ Rn) as [head CO].
  assert (St : forall c x, c ∈ vertices g -> rr_store r1 !! c = Some x -> rr_store r !! c = Some x).
  { intros c x Hc Hx. destruct (ra_store _ _ R c Hc) as (y & Hy & _). pose proof (lookup_weaken _ _ _ _ Hy (co_store _ _ _ _ _ _ _ _ CO)). congruence. }
  constructor.
  - intros c. split.
    + intros H. apply rw_rebuilt in H. destruct (rebuilt_above c H) as (a & Ha & A). pose proof Ha as Ha'. apply requested_iff in Ha'.
      destruct Ha' as [t Ht]. destruct (request_target t a Ht) as (o & Ho & Ab & _). split.
      2:{ exists o, a. split; [now apply (looked_considered o a)|auto]. }
      destruct (requested_dec c) as [Hc|Hc].
      * apply requested_iff in Hc. destruct Hc as [t' Hc]. destruct (request_target t' c Hc) as (o' & _ & (_ & _ & S & _) & _). exact S.
      * destruct H as [[p [X|[X|X]]]|X].
        -- exfalso. apply Hc. exists p. auto.
        -- exfalso. apply Hc. exists p. auto.
        -- destruct X as (_ & V & _). now apply visible_is.
        -- destruct (not_target _ X).
    + intros (S & o & k & Ho & Ab & A). destruct (abandoned_request o k) as [t Ht]; [now apply (looked_considered o k)|exact Ab|].
      apply rw_rebuilt. eapply above_rebuilt; [apply requested_iff; eauto|exact A|now apply visible_is].
  - intros c n Hc. assert (Rb : rebuilt d cs c) by (apply rw_rebuilt; eauto).
    destruct (co_fate _ _ _ _ _ _ _ _ CO c Rb (not_fixed c)) as [p q Z|p q n' orig l x qx Z _ _ B L Sn Sc _ Hl Nd Sq _|n' rr orig ps qs _ Z'].
    + congruence.
    + rewrite Hc in Z. injection Z as <-. destruct (one_pick q orig c l x Hl (proj1 Nd) Sq) as (tree & Hp & ->).
      exists p, q, orig, tree. split_and!; eauto using rebuilt_on_goes, lands_stands. apply St; [|exact Sc]. apply rw_known. eauto.
    + cbn in Z'. now rewrite lookup_empty in Z'.
  - intros c Hc. assert (Rb : rebuilt d cs c) by (apply rw_rebuilt; eauto).
    destruct (co_fate _ _ _ _ _ _ _ _ CO c Rb (not_fixed c)) as [p q _ _ B L Why|p q n' orig l x qx Z|n' rr orig ps qs _ Z'].
    + exists p, q. split; [eauto using rebuilt_on_goes|]. split; [eauto using lands_stands|].
      destruct Why as [Up|(_ & orig & qx & l & x & _ & Sq & Hl & Nd & S & T)]; [left; exact Up|right].
      destruct (one_pick q orig c l x Hl (proj1 Nd) S) as (tree & Hp & ->). exists tree, qx. split; [exact Hp|]. split; [exact Sq|]. now symmetry.
    + congruence.
    + cbn in Z'. now rewrite lookup_empty in Z'.
Qed.

Hypothesis F : fresh g log rw.

Lemma sound_not_rewritten es o new : tells rw es -> sound o -> ~ rewritten (log ++ es) o new.
Proof.
  intros T [M|(N & V & Q)].
  - apply (told_made g log es rw T F rw_known o new M).
  - intros X. apply (Q new). apply (told_outside log es rw T o new) in X; [exact X|]. split; [exact N|].
    apply (told_old g log rw F). apply (shown_known (re_hide e) (rr_repo r)); [apply (ra_order _ _ R)|exact V].
Qed.

(** What the newest version of a commit is afterwards. *)
Lemma chain_after es o v : tells rw es -> chain_end (log ++ es) o (NonZero v) -> made rw v \/ (rw !! v = None /\ chain_end log o (NonZero v)).
Proof.
  intros T H. remember (NonZero v) as m eqn:E. revert E. induction H as [o H|o x H N|o x m H C IH]; intros E; [discriminate| |].
  - injection E as ->. destruct (rw !! v) as [new|] eqn:Ev.
    { exfalso. eapply N. eapply told_dom; eauto using rw_known. }
    destruct (rw !! o) as [new|] eqn:Eo.
    { pose proof (told_dom g log es rw T F rw_known o new Eo) as X. pose proof (rewritten_unique _ _ _ _ H X) as <-. left. now exists o. }
    destruct (decide (Exists (fun p => snd p = NonZero v) (map_to_list rw))) as [M|M].
    { apply Exists_exists in M. destruct M as ([c y] & M & Y). cbn in Y. subst y. apply elem_of_map_to_list in M. left. now exists c. }
    assert (Nv : ~ made rw v). { intros [c Hc]. apply M, Exists_exists. exists (c, NonZero v). split; [now apply elem_of_map_to_list|reflexivity]. }
    right. split; [reflexivity|]. assert (No : ~ made rw o) by (intros Hm; exact (told_made g log es rw T F rw_known o _ Hm H)).
    apply chain_last; [apply (told_outside log es rw T o); [split; assumption|exact H]|].
    intros new X. apply (N new). apply (told_outside log es rw T v); [split; assumption|exact X].
  - subst m. specialize (IH eq_refl). destruct IH as [M|[Ev C']]; [auto|]. right. split; [exact Ev|].
    destruct (rw !! o) as [new|] eqn:Eo.
    { exfalso. pose proof (told_dom g log es rw T F rw_known o new Eo) as X. pose proof (rewritten_unique _ _ _ _ H X) as <-.
      destruct (chain_end_rewritten _ _ _ C) as [y Y]. eapply (told_made g log es rw T F rw_known x); [now exists o|exact Y]. }
    assert (No : ~ made rw o) by (intros Hm; exact (told_made g log es rw T F rw_known o _ Hm H)).
    eapply chain_step; [apply (told_outside log es rw T o); [split; assumption|exact H]|exact C'].
Qed.

Hypothesis MS : main_stays e r.

Lemma main_kept m : hr_refs (rr_repo r) !! he_main (re_hide e) = Some m -> rw !! m = None.
Proof.
  intros Hm. destruct (rw !! m) as [new|] eqn:E; [|reflexivity]. exfalso. destruct MS as [Ff _].
  assert (Rb : rebuilt d cs m) by (apply rw_rebuilt; eauto).
  destruct Rb as [[p Hp]|Hp]; [|destruct (not_target _ Hp)]. apply (rn_public _ _ _ _ _ _ _ Rn Ff p m Hp).
  revert Op. unfold open_repo. rewrite Hm. intros [= <-]. exists m. unfold open_dag. cbn [main_branch_commit dag_graph]. split; [set_solver|constructor].
Qed.

Context (ts : timestamp) (tx : txid).
Let r2 := rs_repo (restack_branches e ts tx r1).
Hypothesis Bk : rs_ok (restack_branches e ts tx r1) = true.
Hypothesis Gr : grown g (rr_store r2) rw g'.

Lemma log_after : exists es, hr_log (rr_repo r2) = log ++ es /\ tells rw es.
Proof.
  destruct (rn_log _ _ _ _ _ _ _ Rn) as (es & E & T).
  destruct (restack_branches_spec e ts tx r1 (ra_tables _ _ R _) Bk) as (rw2 & _ & _ & _ & (q & E' & Q) & _).
  exists (es ++ q). split; [unfold r2; rewrite E', E; now rewrite app_assoc|]. now apply tells_app_quiet.
Qed.
Lemma made_store n : made rw n -> exists x q, rr_store r2 !! n = Some x /\ commit_parents (ob_commit x) = [q] /\ sound q.
Proof.
  intros M. destruct (made_parents n M) as (x & q & _ & _ & St & P & _ & _ & _ & S). exists x, q. split; [|auto].
  destruct (restack_branches_spec e ts tx r1 (ra_tables _ _ R _) Bk) as (_ & _ & _ & _ & _ & E & _). unfold r2. now rewrite E.
Qed.
Lemma made_parent p n : made rw n -> parent g' p n -> sound p.
Proof.
  intros M P. destruct (made_store n M) as (x & q & St & E & S). apply (gr_new _ _ _ _ Gr p n x M St) in P.
  rewrite E in P. apply elem_of_list_singleton in P. now subst p.
Qed.

Lemma branch_after_old n o : is_local n = true -> hr_refs (rr_repo r1) !! n = Some o ->
  made rw o \/ (rw !! o = None /\ hr_refs (rr_repo r) !! n = Some o).
Proof.
  intros L. rewrite (rn_refs _ _ _ _ _ _ _ Rn n L). unfold branch_after. rewrite L.
  destruct (hr_refs (rr_repo r) !! n) as [o0|] eqn:E; [|discriminate].
  destruct (rw !! o0) as [[|o']|] eqn:E0.
  - destruct (decide (n = be_main (he_branch (re_hide e)))) as [->|]; [|discriminate].
    pose proof (main_kept o0 E). congruence.
  - intros [= ->]. left. now exists o0.
  - intros [= ->]. auto.
Qed.

Lemma place_after v : visibility (hr_log (rr_repo r2)) v Active \/ hi_oid (hr_head (rr_repo r2)) = Some v \/ branch_at (hr_refs (rr_repo r2)) v ->
  made rw v \/ shown g (rr_repo r) v.
Proof.
  destruct log_after as (es & El & T).
  assert (Br : forall n : refname, is_local n = true -> hr_refs (rr_repo r2) !! n = Some v -> made rw v \/ shown g (rr_repo r) v).
  { intros n L H. destruct (rn_log _ _ _ _ _ _ _ Rn) as (es1 & E1 & T1).
    destruct (restack_branches_spec e ts tx r1 (ra_tables _ _ R _) Bk) as (rw2 & A & B & C & _).
    unfold r2 in H. rewrite C in H. unfold branch_after in H. rewrite L in H.
    destruct (hr_refs (rr_repo r1) !! n) as [o1|] eqn:Eo; [|discriminate].
    destruct (branch_after_old n o1 L Eo) as [M|[No Hn]].
    - destruct (rw2 !! o1) as [m|] eqn:E2; [|injection H as <-; auto].
      apply A in E2. rewrite E1 in E2. destruct (chain_end_rewritten _ _ _ E2) as [y Y].
      destruct (told_made _ log es1 rw T1 F rw_known o1 y M Y).
    - assert (Lo : branch_at (hr_refs (rr_repo r)) o1).
      { apply is_local_spec in L. destruct L as [s ->]. now exists s. }
      destruct (rw2 !! o1) as [[|x]|] eqn:E2.
      + destruct (decide (n = be_main (he_branch (re_hide e)))) as [->|]; [|discriminate]. exfalso.
        apply A in E2. rewrite E1 in E2. destruct (chain_end_rewritten _ _ _ E2) as [y Y].
        destruct MS as [_ M]. apply (M o1 y Hn). apply (told_outside log es1 rw T1 o1); [|exact Y]. split; [exact No|].
        apply (told_old g log rw F). exact (io_known _ _ (ra_order _ _ R) _ _ Hn).
      + injection H as <-. apply A in E2. rewrite E1 in E2. destruct (chain_after es1 o1 x T1 E2) as [M|[_ X]]; [auto|].
        right. eapply (so_shown _ _ SO o1); [|exact X]. auto.
      + injection H as <-. right. exists o1. split; [constructor|]. auto. }
  intros [H|[H|[s H]]].
  - rewrite El in H. destruct (told_active g log es rw T F rw_known v H) as [M|A]; [auto|]. right. exists v. split; [constructor|auto].
  - assert (Hd : forall q, hi_oid (hr_head (rr_repo r1)) = Some q -> made rw q \/ shown g (rr_repo r) q).
    { intros q Hq. destruct (rn_head _ _ _ _ _ _ _ Rn) as (h & Hh & [(q' & Hq' & L)|[Hm Hz]]).
      - rewrite Hq in Hq'. injection Hq' as <-. destruct (lands_sound h q L) as [[-> _]|[M|(_ & S & _)]]; [|auto|auto].
        right. exists h. split; [constructor|auto].
      - rewrite (main_kept h Hm) in Hz. discriminate. }
    destruct (restack_branches_head e ts tx r1) as [_ [[E _]|E]].
    + unfold r2 in H. rewrite E in H. now apply Hd.
    + unfold r2 in H. rewrite E in H. destruct (hi_branch (hr_head (rr_repo r1))) as [n|] eqn:Eb; [|now apply Hd].
      apply (Br n); [exact (proj1 (rn_branch _ _ _ _ _ _ _ Rn n Eb))|exact H].
  - apply (Br ("refs/heads/" +:+ s)); [apply is_local_spec; eauto|exact H].
Qed.

Lemma shown_before k v : ancestor g' k v -> k ∈ vertices g -> made rw v \/ shown g (rr_repo r) v -> shown g (rr_repo r) k.
Proof.
  intros A Hk. revert v A. refine (rtc_ind_r (fun v => made rw v \/ shown g (rr_repo r) v -> shown g (rr_repo r) k) k _ _).
  2: intros y v A P IH.
  - intros [M|S]; [|exact S]. destruct (told_old g log rw F k Hk M).
  - intros [M|S]; apply IH.
    + destruct (made_parent y v M P) as [?|(_ & S & _)]; auto.
    + right. destruct S as (u & Au & Ku). exists u. split; [|exact Ku].
      assert (V : v ∈ vertices g) by (apply (shown_known (re_hide e) (rr_repo r)); [apply (ra_order _ _ R)|exists u; auto]).
      apply (gr_old _ _ _ _ Gr y v V) in P. eapply rtc_l; eauto.
Qed.

Lemma nothing_abandoned k : chosen = None -> ~ abandoned g' (rr_repo r2) k.
Proof.
  intros All.
  intros (o & P & [new Rw] & (v & A & K) & Ob). destruct log_after as (es & El & T). rewrite El in Rw, Ob.
  destruct (gr_vertices _ _ _ _ Gr k) as [Hk|Hk].
  { apply (parent_vertices _ _ _ (gr_graph _ _ _ _ Gr)) in P. apply P. }
  - apply (gr_old _ _ _ _ Gr o k Hk) in P.
    assert (Nk : rw !! k = None).
    { destruct (rw !! k) as [y|] eqn:E; [|reflexivity]. exfalso. apply Ob. eapply told_dom_obsolete; eauto using rw_known. }
    assert (Ok_ : outside rw k) by (split; [exact Nk|exact (told_old g log rw F k Hk)]).
    pose proof (shown_before k v A Hk (place_after v K)) as S.
    assert (Rk : rebuilt d cs k).
    { destruct (rw !! o) as [y|] eqn:E.
      - eapply child_rebuilt; [apply rw_rebuilt; eauto|exact P|now apply visible_is].
      - assert (Ho : o ∈ vertices g) by (apply (parent_vertices _ _ _ graph_ok) in P; apply P).
        apply (told_outside log es rw T o) in Rw; [|split; [exact E|exact (told_old g log rw F o Ho)]].
        destruct (abandoned_request o k) as [t Ht].
        { rewrite All. apply obsolete_is. eapply rewritten_obsolete, Rw. }
        { split; [exact P|]. split; [eauto|]. split; [exact S|]. intros X. apply Ob. now apply (told_outside_status log es rw T k). }
        assert (Rq : requested d cs k) by (apply requested_iff; eauto).
        left. destruct Rq as [p [X|X]]; exists p; [left; exact X|right; left; exact X]. }
    apply rw_rebuilt in Rk. rewrite Nk in Rk. now destruct Rk.
  - exact (sound_not_rewritten es o new T (made_parent o k Hk P) Rw).
Qed.
(** Where branches are in the end. *)
Lemma branch_final n o : (exists up, be_upstream (he_branch (re_hide e)) = Some up) -> is_local n = true -> n <> he_main (re_hide e) ->
  hr_refs (rr_repo r) !! n = Some o ->
  branch_moved (hr_log (rr_repo r2)) (he_branch (re_hide e)) n o (hr_refs (rr_repo r2) !! n).
Proof.
  intros Up L Nm Hn. destruct (rn_log _ _ _ _ _ _ _ Rn) as (es1 & E1 & T1).
  destruct (restack_branches_moved e ts tx r1 (ra_tables _ _ R _) Up Bk) as [M1 M2]. fold r2 in M1, M2.
  destruct (restack_branches_spec e ts tx r1 (ra_tables _ _ R _) Bk) as (_ & _ & _ & _ & (q & El & Q) & _). fold r2 in El.
  assert (Rq : forall o new, rewritten (hr_log (rr_repo r2)) o new <-> rewritten (log ++ es1) o new).
  { intros o' new. rewrite El, E1. now apply rewritten_quiet. }
  assert (Cq : forall o m, chain_end (hr_log (rr_repo r2)) o m <-> chain_end (log ++ es1) o m).
  { intros o' m. rewrite El, E1. now apply chain_end_quiet. }
  pose proof (rn_refs _ _ _ _ _ _ _ Rn n L) as H1. unfold branch_after in H1. rewrite Hn, L in H1.
  destruct (rw !! o) as [[|x]|] eqn:Ew.
  - rewrite decide_False in H1 by exact Nm. right. right. split; [|split; [|intros X; now destruct Nm]].
    + apply Cq, chain_deleted. eapply told_dom; eauto using rw_known.
    + intros _. rewrite M2 by auto. exact H1.
  - right. left. exists x. assert (Mx : made rw x) by now exists o. split.
    + apply Cq, chain_last; [eapply told_dom; eauto using rw_known|]. intros new. eapply told_made; eauto using rw_known.
    + destruct (M1 n x L H1) as [[_ X]|[(y & Ce & _)|[Ce _]]]; [exact X| |]; exfalso; apply chain_end_rewritten in Ce; destruct Ce as [new Rw];
        rewrite E1 in Rw; revert Rw; eapply told_made; eauto using rw_known.
  - destruct (M1 n o L H1) as [[N X]|[(y & Ce & X)|[Ce X]]].
    + left. split; [|exact X]. intros new Rw. apply Rq in Rw. apply (N new). now rewrite E1.
    + right. left. exists y. split; [|exact X]. apply Cq. now rewrite E1 in Ce.
    + right. right. split; [|exact X]. apply Cq. now rewrite E1 in Ce.
Qed.
Lemma main_final : hr_refs (rr_repo r2) !! he_main (re_hide e) = hr_refs (rr_repo r) !! he_main (re_hide e).
Proof.
  destruct (io_main _ _ (ra_order _ _ R)) as [s Hs]. destruct (io_exists _ _ (ra_order _ _ R)) as [m Hm].
  assert (L : is_local (he_main (re_hide e)) = true) by (apply is_local_spec; eauto).
  pose proof (main_kept m Hm) as Km.
  pose proof (rn_refs _ _ _ _ _ _ _ Rn _ L) as H1. unfold branch_after in H1. rewrite Hm, L, Km in H1. rewrite Hm.
  destruct (rn_log _ _ _ _ _ _ _ Rn) as (es1 & E1 & T1).
  destruct (restack_branches_spec e ts tx r1 (ra_tables _ _ R _) Bk) as (rw2 & A & _ & C & _).
  unfold r2. rewrite C. unfold branch_after. rewrite H1, L. destruct (rw2 !! m) as [x|] eqn:E2; [|reflexivity]. exfalso.
  apply A, chain_end_rewritten in E2. destruct E2 as [new Rw]. rewrite E1 in Rw.
  apply (told_outside log es1 rw T1 m) in Rw; [exact (proj2 MS m new Hm Rw)|]. split; [exact Km|].
  apply (told_old g log rw F). exact (io_known _ _ (ra_order _ _ R) _ _ Hm).
Qed.
Lemma branches_done n o new : (exists up, be_upstream (he_branch (re_hide e)) = Some up) -> is_local n = true ->
  hr_refs (rr_repo r2) !! n = Some o -> ~ rewritten (hr_log (rr_repo r2)) o new.
Proof.
  intros Up L Hn Rw. destruct (rn_log _ _ _ _ _ _ _ Rn) as (es1 & E1 & T1).
  destruct (restack_branches_moved e ts tx r1 (ra_tables _ _ R _) Up Bk) as [M1 M2]. fold r2 in M1, M2.
  destruct (restack_branches_spec e ts tx r1 (ra_tables _ _ R _) Bk) as (_ & _ & _ & _ & (q & El & Q) & _). fold r2 in El.
  assert (Rw1 : rewritten (hr_log (rr_repo r1)) o new) by (rewrite El in Rw; now apply rewritten_quiet in Rw).
  destruct (decide (n = he_main (re_hide e))) as [->|Ne].
  - rewrite main_final in Hn. rewrite E1 in Rw1. apply (told_outside log es1 rw T1 o) in Rw1; [exact (proj2 MS o new Hn Rw1)|].
    split; [now apply main_kept|]. apply (told_old g log rw F). exact (io_known _ _ (ra_order _ _ R) _ _ Hn).
  - destruct (hr_refs (rr_repo r1) !! n) as [o1|] eqn:H1.
    + destruct (M1 n o1 L H1) as [[N X]|[(y & Ce & X)|(Ce & X & _)]].
      * rewrite X in Hn. injection Hn as ->. exact (N new Rw1).
      * rewrite X in Hn. injection Hn as ->. exact (chain_end_final _ _ _ Ce new Rw1).
      * rewrite X in Hn by exact Ne. discriminate.
    + rewrite M2 in Hn by auto. congruence.
Qed.
End after.
