(** Proofs about what is left after hiding, about undoing it and about unhiding. *)
From stdpp Require Import sorting.
From Verif Require Import Base TextModel EventLogModel EventLogSpec EventLogProofs EventLogNavProofs EventLogRefProofs
  DagModel DagSpec DagProofs DagCompProofs StrModel StrProofs HookModel HookSpec HookProofs ExecModel ExecSpec ExecAfterProofs
  UndoModel UndoSpec UndoProofs HideModel HideSpec HideProofs.
From Verif Require NavModel.
Local Open Scope string_scope.
Local Open Scope list_scope.

Lemma update_concerns ts tx ls x o : x ∈ List.map (update_event ts tx) ls -> ~ concerns x o.
Proof.
  intros H. apply elem_of_list_In, in_map_iff in H. destruct H as ([[a b] c] & <- & _). unfold concerns. cbn. tauto.
Qed.

(** The status afterwards. *)
Lemma hide_status log ts ts' i cs ls o v :
  visibility (log ++ List.map (ObsoleteEvent ts (TxId i)) cs ++ List.map (update_event ts' (TxId i)) ls) o v <->
  (o ∈ cs /\ v = Obsolete) \/ (o ∉ cs /\ visibility log o v).
Proof.
  destruct (status_map (ObsoleteEvent ts (TxId i)) cs o log v (List.map (update_event ts' (TxId i)) ls)) as [A B].
  - intros x y. apply concerns_obsolete.
  - intros x. apply update_concerns.
  - destruct (decide (o ∈ cs)) as [H|H].
    + rewrite (B H), visibility_one_obsolete. tauto.
    + rewrite (A H). tauto.
Qed.
Lemma unhide_status log ts i cs o v :
  visibility (log ++ List.map (UnobsoleteEvent ts (TxId i)) cs) o v <->
  (o ∈ cs /\ v = Active) \/ (o ∉ cs /\ visibility log o v).
Proof.
  destruct (status_map (UnobsoleteEvent ts (TxId i)) cs o log v []) as [A B].
  - intros x y. apply concerns_unobsolete.
  - intros x H. now apply elem_of_nil in H.
  - rewrite app_nil_r in *. destruct (decide (o ∈ cs)) as [H|H].
    + rewrite (B H), visibility_one_unobsolete. tauto.
    + rewrite (A H). tauto.
Qed.

Lemma detach_if_oid cs h : hi_oid (detach_if cs h) = hi_oid h.
Proof. unfold detach_if, detached. destruct h as [[o|] b]; cbn; [|reflexivity]. now destruct (decide (o ∈ cs)). Qed.

(** Where the branches are. *)
Lemma branch_at_after e cs refs (refs' : gmap refname oid) v : (exists s, he_main e = "refs/heads/" +:+ s) ->
  (forall n, refs' !! n = ref_after e cs refs n) ->
  branch_at refs' v <-> (branch_at refs v /\ v ∉ cs) \/
    (exists m, refs !! he_main e = Some m /\ m ∈ cs /\
       match be_upstream (he_branch e) with Some t => t | None => Some m end = Some v).
Proof.
  intros [sm Hm] H. unfold branch_at. split.
  - intros [s Hs]. change (refs' !! ("refs/heads/" +:+ s : refname) = Some v) in Hs. rewrite H in Hs. unfold ref_after in Hs.
    destruct (refs !! ("refs/heads/" +:+ s : refname)) as [o|] eqn:E; [|discriminate].
    case_decide as D1.
    + case_decide as D2; [|discriminate]. right. exists o. rewrite <- D2. tauto.
    + injection Hs as ->. left. split; [eauto|]. intros Hv. apply D1. split; [apply is_local_spec; eauto|exact Hv].
  - intros [[[s Hs] Hv]|(m & H1 & H2 & H3)].
    + exists s. rewrite H. unfold ref_after. rewrite Hs. rewrite decide_False by tauto. reflexivity.
    + exists sm. rewrite H, <- Hm. unfold ref_after. rewrite H1.
      rewrite decide_True by (split; [apply is_local_spec; eauto|exact H2]). rewrite decide_True by reflexivity. exact H3.
Qed.

(** ** Undoing *)

Lemma after_plain R es : Forall (fun e => ~ is_ref_update e) es -> forall rest,
  after_history R (es ++ rest) = after_history R rest.
Proof.
  induction 1 as [|x es H _ IH]; intros rest; cbn; [reflexivity|]. destruct x; try apply IH. exfalso. apply H. exact Logic.I.
Qed.
Lemma true_plain R es : Forall (fun e => ~ is_ref_update e) es -> forall rest,
  true_history R (es ++ rest) <-> true_history R rest.
Proof.
  induction 1 as [|x es H _ IH]; intros rest; cbn; [reflexivity|]. destruct x; try apply IH. exfalso. apply H. exact Logic.I.
Qed.
Lemma after_updates ts tx ls : forall R, after_history R (List.map (update_event ts tx) ls) = announced R ls.
Proof.
  induction ls as [|[[o x] n] ls IH]; intros R; cbn [List.map update_event after_history announced fold_left]; [reflexivity|].
  rewrite IH. now destruct x.
Qed.
Lemma true_updates ts tx ls : forall R : gmap refname oid, NoDup (List.map snd ls) -> (forall o x n, (o, x, n) ∈ ls -> R !! n = Some o) ->
  true_history R (List.map (update_event ts tx) ls).
Proof.
  induction ls as [|[[o x] n] ls IH]; intros R ND H; cbn [List.map update_event true_history]; [exact I|].
  cbn [List.map snd] in ND. apply NoDup_cons in ND. destruct ND as [N ND].
  split; [now rewrite (H o x n ltac:(left))|]. apply IH; [exact ND|]. intros o' x' n' Hi.
  assert (n' <> n).
  { intros ->. apply N. apply elem_of_list_In, in_map_iff. exists (o', x', n). split; [reflexivity|]. now apply elem_of_list_In. }
  assert (E : R !! n' = Some o') by (eapply H; right; exact Hi).
  destruct x; [now rewrite lookup_delete_ne by congruence|now rewrite lookup_insert_ne by congruence].
Qed.

Definition quiet (e : event) : Prop :=
  match e with
  | RefUpdateEvent _ _ n _ _ _ => n <> "HEAD"
  | SnapshotEvent _ _ _ _ _ => False
  | _ => True
  end.
Lemma extract_quiet es : Forall quiet es -> extract_checkout None es = (None, es).
Proof.
  induction 1 as [|x es H _ IH]; cbn [extract_checkout]; [reflexivity|]. rewrite IH. destruct x as [|? ? n ? [|?] ?| | | |]; try reflexivity.
  - cbn in H. destruct (String.eqb_spec n "HEAD"); [done|reflexivity].
  - destruct H.
Qed.
Lemma inverse_quiet now tx es : Forall quiet es -> Forall quiet (inverse_events now tx es).
Proof.
  intros F. apply Forall_forall. intros x Hx. apply inverse_events_mem in Hx. destruct Hx as (y & Hy & _ & ->).
  rewrite Forall_forall in F. specialize (F y Hy). now destruct y.
Qed.

Lemma undo_last_back main now j w es new i : events (replay main (w_log w)) = es ++ new -> new <> [] ->
  (forall x, x ∈ new -> event_tx x = TxId i) -> (forall x, last es = Some x -> event_tx x <> TxId i) ->
  exists c, undo_last main now (TxId j) true w = undo_events (replay main (w_log w)) c now (TxId j) true w /\
    valid_cursor (replay main (w_log w)) c /\ events_since_cursor (replay main (w_log w)) c = Some new /\
    upto (events (replay main (w_log w))) c = es.
Proof.
  intros E Hne Hn Hl. set (rp := replay main (w_log w)) in *.
  assert (Hlen : (0 < Z.of_nat (length (events rp)))%Z).
  { rewrite E, app_length. destruct new; [done|cbn; lia]. }
  assert (R : latest_run (events rp) (Z.of_nat (length (events rp))) (Z.of_nat (length es)) new).
  { exists es, [], (TxId i). rewrite app_nil_r. split_and!; auto. now rewrite E, app_length. }
  destruct (tx_events_spec rp (Z.of_nat (length (events rp)))) as (st & seg & H1 & H2); [unfold valid_cursor; lia|exact Hlen|].
  destruct (latest_run_unique _ _ _ _ _ _ R H2) as [<- <-].
  unfold tx_events_before_cursor in H1. destruct (advance_tx rp (Z.of_nat (length (events rp))) (-1)) as [c|] eqn:Ea; [|discriminate].
  assert (c = Z.of_nat (length es)) as ->.
  { destruct (slice (events rp) c (Z.of_nat (length (events rp)))) as [[|]|]; try discriminate. injection H1 as H1 _. lia. }
  exists (Z.of_nat (length es)). assert (V : valid_cursor rp (Z.of_nat (length es))).
  { unfold valid_cursor. rewrite E, app_length. lia. }
  assert (U : upto (events rp) (Z.of_nat (length es)) = es).
  { unfold upto. rewrite Nat2Z.id, E. apply take_app. }
  split_and!; [|exact V| |exact U].
  - unfold undo_last. fold rp. rewrite default_cursor_spec, Ea. reflexivity.
  - destruct (events_since_spec rp _ V) as (since & Hs & Hs'). rewrite U, E in Hs'. apply app_inv_head in Hs'. now subst since.
Qed.

Lemma obsolete_plain ts tx cs : Forall (fun e => ~ is_ref_update e) (List.map (ObsoleteEvent ts tx) cs).
Proof. apply Forall_map, Forall_forall. intros x _ []. Qed.

Lemma hide_events main log ts ts' i cs ls : cs <> [] -> NoDup (List.map snd ls) -> (forall o x n, (o, x, n) ∈ ls -> is_local n = true) ->
  events (replay main (log ++ List.map (ObsoleteEvent ts (TxId i)) cs ++ List.map (update_event ts' (TxId i)) ls)) =
  events (replay main log) ++ List.map (ObsoleteEvent ts (TxId i)) cs ++ List.map (update_event ts' (TxId i)) ls.
Proof.
  intros Hne ND L. rewrite app_assoc, replay_updates.
  - rewrite replay_plain by apply obsolete_plain. now rewrite app_assoc.
  - exact ND.
  - exact L.
  - intros x Hx. rewrite replay_plain in Hx by apply obsolete_plain.
    destruct cs as [|c cs _] using rev_ind; [done|]. rewrite map_app in Hx. cbn [List.map] in Hx. rewrite app_assoc, last_snoc in Hx.
    injection Hx as <-. intros [].
Qed.

Lemma undo_hide main log ts ts' i now j cs ls (refs refs' : gmap refname oid) :
  cs <> [] -> NoDup (List.map snd ls) -> refs' = announced refs ls ->
  (forall o x n, (o, x, n) ∈ ls -> is_local n = true /\ refs !! n = Some o) ->
  (forall x, x ∈ log -> event_tx x <> TxId i) ->
  let log' := log ++ List.map (ObsoleteEvent ts (TxId i)) cs ++ List.map (update_event ts' (TxId i)) ls in
  exists w, undo_last main now (TxId j) true (mk_world refs' log') = Some (w, None) /\
    (forall n, n <> "HEAD" -> w_refs w !! n = refs !! n) /\
    forall o v, visibility (w_log w) o v <-> (o ∈ cs /\ v = Active) \/ (o ∉ cs /\ visibility log o v).
Proof.
  intros Hne ND Hr Hls Hf log'. set (new := List.map (ObsoleteEvent ts (TxId i)) cs ++ List.map (update_event ts' (TxId i)) ls) in *.
  assert (Hev : events (replay main log') = events (replay main log) ++ new).
  { apply hide_events; [exact Hne|exact ND|]. intros o x n H. now apply (Hls o x n). }
  assert (Hq : Forall quiet new).
  { apply Forall_app. split; apply Forall_map, Forall_forall; [intros x _; exact I|]. intros [[o x] n] H. cbn.
    destruct (Hls o x n H) as [L _]. apply is_local_spec in L. destruct L as [s ->]. discriminate. }
  destruct (undo_last_back main now j (mk_world refs' log') (events (replay main log)) new i) as (c & E1 & V & E2 & E3).
  - exact Hev.
  - destruct cs; [done|discriminate].
  - intros x Hx. apply elem_of_app in Hx. destruct Hx as [Hx|Hx]; apply elem_of_list_In, in_map_iff in Hx.
    + destruct Hx as (y & <- & _). reflexivity.
    + destruct Hx as ([[a b] n] & <- & _). reflexivity.
  - intros x Hx Ht. assert (Hi : x ∈ events (replay main log)).
    { apply last_Some in Hx. destruct Hx as [l ->]. apply elem_of_app. right. left. }
    assert (S : forall es : list event, x ∈ es -> forall es', events (replay main es') = es -> exists y, y ∈ es' /\ event_tx y = event_tx x).
    { clear. intros es Hx es'. revert es Hx. induction es' as [|z es' IH] using rev_ind; intros es Hx E.
      - cbn in E. subst es. now apply elem_of_nil in Hx.
      - rewrite replay_snoc in E. destruct (process_event_events (replay main es') z) as [E'|E']; rewrite E' in E; subst es.
        + destruct (IH _ Hx eq_refl) as (y & Hy & T). exists y. split; [apply elem_of_app; now left|exact T].
        + apply elem_of_app in Hx. destruct Hx as [Hx|Hx].
          * destruct (IH _ Hx eq_refl) as (y & Hy & T). exists y. split; [apply elem_of_app; now left|exact T].
          * apply elem_of_list_singleton in Hx. subst x. exists z. split; [apply elem_of_app; right; left|].
            destruct z as [|? ? ? [|?] [|?] ?| | | |]; reflexivity. }
    destruct (S _ Hi log eq_refl) as (y & Hy & T). apply (Hf y Hy). congruence.
  - cbn [w_log] in *. destruct (undo_events (replay main log') c now (TxId j) true (mk_world refs' log')) as [[w t]|] eqn:Eu.
    2: { rewrite (undo_result _ _ _ _ _ _ E2) in Eu. discriminate. }
    assert (t = None) as ->.
    { rewrite (undo_result _ _ _ _ _ _ E2) in Eu. rewrite extract_quiet in Eu by now apply inverse_quiet. now injection Eu. }
    exists w. split; [exact E1|]. split.
    + eapply (undo_restores_refs _ _ _ _ (mk_world refs' log') refs new w None E2); [| |exact Eu].
      * unfold new. apply true_plain; [apply obsolete_plain|]. apply true_updates; [exact ND|]. intros o x n H. now apply (Hls o x n).
      * intros n _. cbn [w_refs]. unfold new. rewrite after_plain by apply obsolete_plain. now rewrite after_updates, Hr.
    + intros o v.
      pose proof (undo_status main log' c now j (mk_world refs' log') w None new [] o eq_refl V E2 Eu) as U.
      destruct U as [U1 U2]; [intros x Hx; now apply elem_of_nil in Hx|]. rewrite app_nil_r in U1, U2.
      destruct (decide (o ∈ cs)) as [Hi|Hi].
      * destruct (first_concerning_exists new o) as [N|[x Hx]].
        { exfalso. apply (N (ObsoleteEvent ts (TxId i) o)); [|now apply concerns_obsolete]. apply elem_of_app. left.
          apply elem_of_list_In, in_map_iff. exists o. split; [reflexivity|]. now apply elem_of_list_In. }
        specialize (U2 x Hx). destruct (hides_dec x o) as [Hh|Hh].
        -- apply status_now in U2. split; [intros Hv; left; split; [exact Hi|exact (visibility_unique _ _ _ _ Hv U2)]|].
           intros [[_ ->]|[? _]]; [exact U2|done].
        -- exfalso. destruct Hx as (b & a & E & [Hs|Hs] & _); [|done].
           assert (Hin : x ∈ new) by (rewrite E; apply elem_of_app; right; left). apply elem_of_app in Hin.
           destruct Hin as [Hin|Hin]; apply elem_of_list_In, in_map_iff in Hin.
           ++ destruct Hin as (y & <- & _). destruct Hs.
           ++ destruct Hin as ([[p q] n] & <- & _). destruct Hs.
      * assert (N : forall x, x ∈ new -> ~ concerns x o).
        { intros x Hx. apply elem_of_app in Hx. destruct Hx as [Hx|Hx].
          - apply elem_of_list_In, in_map_iff in Hx. destruct Hx as (y & <- & Hy). rewrite concerns_obsolete. intros ->. apply Hi. now apply elem_of_list_In.
          - eapply update_concerns. exact Hx. }
        specialize (U1 N). apply status_now in U1.
        assert (S : visibility log o (commit_status (replay main log') c o)).
        { rewrite <- (visibility_raw main). rewrite <- E3. apply commit_status_spec; [apply replay_invariant|exact V|reflexivity]. }
        split.
        -- intros Hv. right. split; [exact Hi|]. now rewrite (visibility_unique _ _ _ _ Hv U1).
        -- intros [[? _]|[_ Hv]]; [done|]. now rewrite (visibility_unique _ _ _ _ Hv S).
Qed.

(** ** Unhiding *)

Lemma unhide_spec e ts i recursive chosen r : wf_graph (he_graph e) -> (exists s, he_main e = "refs/heads/" +:+ s) ->
  chosen ⊆ vertices (he_graph e) ->
  let res := unhide e ts (TxId i) recursive chosen r in
  hs_ok res = true ->
  exists cs, NoDup cs /\ (forall o, o ∈ cs <-> meant_to_unhide (he_graph e) r recursive chosen o) /\
    hs_repo res = mk_hrepo (hr_refs r) (hr_head r) (hr_log r ++ List.map (UnobsoleteEvent ts (TxId i)) cs) /\
    hs_out res = flat_map (unhide_line e r) cs ++
      ["To hide " +:+ pluralize (Some ("this", "these")) (length cs) "commit" "commits" +:+ ", run: git undo"].
Proof.
  intros W M Hc. cbv zeta. unfold unhide. destruct (open_repo e r) as [d|] eqn:Hd; [|discriminate].
  destruct (open_repo_some e r d M Hd) as (G & _ & V).
  destruct (unhide_commits_spec e r d recursive chosen W G V Hc) as (C1 & C2).
  set (cs := unhide_commits d recursive chosen) in *. destruct (forallb (he_found e) cs); [|discriminate].
  intros _. exists cs. cbn [hs_repo hs_out stored]. auto.
Qed.

(** ** The names of the branches *)

Lemma branches_at_spec refs o n : n ∈ ExecModel.branches_at refs o <-> refs !! n = Some o /\ is_local n = true.
Proof.
  unfold ExecModel.branches_at. rewrite elem_of_list_In, filter_In, andb_true_iff, bool_decide_eq_true, in_map_iff. split.
  - intros (_ & H). exact H.
  - intros [H L]. split; [|auto]. exists (n, o). split; [reflexivity|]. apply elem_of_list_In, elem_of_map_to_list. exact H.
Qed.

Lemma render_local s : NavModel.render_suffix ("refs/heads/" +:+ s) = s.
Proof.
  unfold NavModel.render_suffix. rewrite (proj2 (strip_prefix_spec NavModel.heads_prefix ("refs/heads/" +:+ s) s)); reflexivity.
Qed.

Lemma sorted_sorted l : Sorted.Sorted name_le (sorted_names l).
Proof. apply Sorted_merge_sort. intros x y. apply String.leb_total. Qed.

Lemma nodup_keys refs : NoDup (List.map fst (map_to_list (refs : gmap refname oid))).
Proof. apply NoDup_fst_map_to_list. Qed.

Lemma names_spec cs refs : NoDup cs ->
  NoDup (abandoned_names cs refs) /\ (forall s, s ∈ abandoned_names cs refs <-> exists o, o ∈ cs /\ refs !! ("refs/heads/" +:+ s) = Some o) /\
  Permutation (abandoned_names cs refs) (List.map NavModel.render_suffix (flat_map (ExecModel.branches_at refs) cs)).
Proof.
  intros ND. unfold abandoned_names. pose proof (sorted_perm (List.map NavModel.render_suffix (flat_map (ExecModel.branches_at refs) cs))) as P.
  assert (F : forall n, n ∈ flat_map (ExecModel.branches_at refs) cs <-> exists o, o ∈ cs /\ refs !! n = Some o /\ is_local n = true).
  { intros n. rewrite elem_of_list_In, in_flat_map. setoid_rewrite <- elem_of_list_In. setoid_rewrite branches_at_spec. reflexivity. }
  assert (N1 : NoDup (flat_map (ExecModel.branches_at refs) cs)).
  { clear P F. induction cs as [|o cs IH]; cbn; [constructor|]. apply NoDup_cons in ND. destruct ND as [N ND].
    apply NoDup_app. split_and!; [apply nodup_filter, nodup_keys| |now apply IH].
    intros n Hn. rewrite elem_of_list_In, in_flat_map. intros (o' & Ho & Hn'). apply elem_of_list_In, branches_at_spec in Hn'.
    apply branches_at_spec in Hn. apply N. apply elem_of_list_In. destruct Hn as [Hn _], Hn' as [Hn' _]. congruence. }
  split_and!.
  - rewrite P. apply (NoDup_fmap_2_strong NavModel.render_suffix); [|exact N1]. intros n n' Hn Hn' E.
    apply F in Hn, Hn'. destruct Hn as (_ & _ & _ & L), Hn' as (_ & _ & _ & L'). apply is_local_spec in L, L'.
    destruct L as [s ->], L' as [s' ->]. rewrite !render_local in E. now subst s'.
  - intros s. rewrite P, elem_of_list_In, in_map_iff. split.
    + intros (n & <- & Hn). apply elem_of_list_In, F in Hn. destruct Hn as (o & Ho & H & L). apply is_local_spec in L. destruct L as [s' ->].
      rewrite render_local. eauto.
    + intros (o & Ho & H). exists ("refs/heads/" +:+ s). split; [apply render_local|]. apply elem_of_list_In, F. exists o.
      split; [exact Ho|]. split; [exact H|]. apply is_local_spec. eauto.
  - exact P.
Qed.

(** ** What is shown *)

Lemma shown_after_hide e r cs r' : (exists s, he_main e = "refs/heads/" +:+ s) ->
  (forall o v, visibility (hr_log r') o v <-> (o ∈ cs /\ v = Obsolete) \/ (o ∉ cs /\ visibility (hr_log r) o v)) ->
  (forall n, hr_refs r' !! n = ref_after e cs (hr_refs r) n) -> hi_oid (hr_head r') = hi_oid (hr_head r) ->
  forall o, shown (he_graph e) r' o <-> exists v, ancestor (he_graph e) o v /\
    (hi_oid (hr_head r) = Some v \/
     (v ∉ cs /\ (visibility (hr_log r) v Active \/ branch_at (hr_refs r) v)) \/
     (exists m, hr_refs r !! he_main e = Some m /\ m ∈ cs /\
        match be_upstream (he_branch e) with Some t => t | None => Some m end = Some v)).
Proof.
  intros M Hv Hr Hh o. unfold shown. setoid_rewrite Hv. rewrite Hh. setoid_rewrite (branch_at_after e cs (hr_refs r) (hr_refs r') _ M Hr).
  split; intros (v & A & B); exists v; (split; [exact A|]).
  - destruct B as [[[_ ?]|?]|[?|[[? ?]|?]]]; [discriminate|tauto..].
  - tauto.
Qed.

(** ** Repairing *)

Lemma last_update_raw main log n m : ~ untracked n -> last_update (events (replay main log)) n m <-> last_update log n m.
Proof.
  intros U. revert m. induction log as [|x log IH] using rev_ind; intros m; [reflexivity|]. rewrite replay_snoc.
  destruct (updates_dec x n) as [Hu|Hu].
  - apply updates_inv in Hu. destruct Hu as (ts & tx & old & m0 & msg & ->). rewrite last_update_snoc_hit.
    unfold process_event. destruct (should_ignore_ref_updates n) eqn:Eg; [exfalso; now apply ignored_spec in Eg|].
    assert (X : exists old', fix_old_oid (replay main log) (RefUpdateEvent ts tx n old m0 msg) = RefUpdateEvent ts tx n old' m0 msg).
    { cbn. destruct old, m0; eauto. }
    destruct X as [old' X]. unfold fix_event. rewrite X. cbv zeta.
    assert (R : last_update (events (record_event (replay main log) (RefUpdateEvent ts tx n old' m0 msg))) n m <-> m = m0)
      by (cbn [record_event events]; now rewrite last_update_snoc_hit).
    destruct m0 as [|o0]; [|exact R].
    destruct (last (events (replay main log))) as [[|ts1 tx1 n1 o1 [|?] m1| | | |]|] eqn:El; try exact R.
    destruct (decide _) as [[<- <-]|]; [|exact R].
    apply last_Some in El. destruct El as [l ->]. apply last_update_snoc_hit.
  - rewrite last_update_snoc_miss by exact Hu. rewrite <- IH.
    destruct (process_event_events (replay main log) x) as [->| ->]; [reflexivity|].
    apply last_update_snoc_miss. destruct x as [|? ? n' [|?] [|?] ?| | | |]; exact Hu.
Qed.

Definition delete_event (ts : timestamp) (tx : txid) (p : oid * refname) : event := RefUpdateEvent ts tx (snd p) (NonZero (fst p)) Zero None.

Lemma last_update_deletes log ts tx bs n m :
  last_update (log ++ List.map (delete_event ts tx) bs) n m <->
  (n ∈ List.map snd bs /\ m = Zero) \/ (n ∉ List.map snd bs /\ last_update log n m).
Proof.
  induction bs as [|[o n'] bs IH] using rev_ind.
  - cbn. rewrite app_nil_r. split; [intros H; right; split; [apply not_elem_of_nil|exact H]|].
    intros [[H _]|[_ H]]; [now apply elem_of_nil in H|exact H].
  - rewrite !map_app, app_assoc. cbn [List.map delete_event fst snd]. destruct (decide (n' = n)) as [->|Hn].
    + unfold delete_event at 2. cbn [fst snd]. rewrite last_update_snoc_hit. setoid_rewrite elem_of_app. setoid_rewrite elem_of_list_singleton. tauto.
    + rewrite last_update_snoc_miss by (intros H; apply Hn; exact H). rewrite IH. setoid_rewrite elem_of_app.
      setoid_rewrite elem_of_list_singleton. split; intros [[? ?]|[? ?]]; [left|right|left|right]; (split; [|assumption]); try tauto.
      * intros [?|?]; congruence.
      * destruct H; [assumption|congruence].
Qed.

Lemma upto_now main log : upto (events (replay main log)) (default_cursor (replay main log)) = events (replay main log).
Proof. rewrite default_cursor_spec. unfold upto. rewrite Nat2Z.id. apply firstn_all. Qed.

Lemma broken_commits_spec e r o : o ∈ broken_commits e r <-> (exists x, x ∈ hr_log r /\ concerns x o) /\ he_found e o = false.
Proof.
  unfold broken_commits. rewrite elem_of_list_In, filter_In, <- elem_of_list_In, negb_true_iff.
  rewrite cursor_oids_spec by (apply replay_invariant || apply valid_now). rewrite upto_now.
  assert (X : (exists x, x ∈ events (replay (he_main e) (hr_log r)) /\ concerns x o) <-> exists x, x ∈ hr_log r /\ concerns x o).
  { pose proof (visibility_raw (he_main e) (hr_log r) o Inactive) as V. cbn [visibility] in V. split; intros (x & Hx & C).
    - destruct (visibility_exists (hr_log r) o) as [[| |] Hv].
      + destruct Hv as (y & (b & a & E & Cy & _) & _). exists y. split; [rewrite E; apply elem_of_app; right; left|exact Cy].
      + exfalso. exact (proj2 V Hv x Hx C).
      + destruct Hv as (y & (b & a & E & Cy & _) & _). exists y. split; [rewrite E; apply elem_of_app; right; left|exact Cy].
    - destruct (visibility_exists (events (replay (he_main e) (hr_log r))) o) as [[| |] Hv].
      + destruct Hv as (y & (b & a & E & Cy & _) & _). exists y. split; [rewrite E; apply elem_of_app; right; left|exact Cy].
      + exfalso. exact (proj1 V Hv x Hx C).
      + destruct Hv as (y & (b & a & E & Cy & _) & _). exists y. split; [rewrite E; apply elem_of_app; right; left|exact Cy]. }
  rewrite X. reflexivity.
Qed.

Lemma broken_branches_spec e r bs : broken_branches e r = Some bs ->
  NoDup bs /\ forall o n, (o, n) ∈ bs <-> is_local n = true /\ last_update (hr_log r) n (NonZero o) /\ hr_refs r !! n = None.
Proof.
  unfold broken_branches. destruct (hr_refs r !! he_main e) as [mo|] eqn:Em; [|discriminate].
  destruct (cursor_branches_spec (replay (he_main e) (hr_log r)) _ (he_main e) mo (valid_now _ _)) as (res & m & -> & _ & H).
  intros [= <-]. split; [apply NoDup_remove_dups|]. intros o n.
  rewrite elem_of_remove_dups, elem_of_list_In, filter_In, <- elem_of_list_In, H, negb_true_iff, bool_decide_eq_false. cbn [snd].
  rewrite upto_now, replay_main, <- eq_None_not_Some. split.
  - intros [[[L U]|[-> _]] N]; [|congruence]. assert (Hl : is_local n = true) by now apply is_local_spec.
    split_and!; [exact Hl| |exact N]. apply (last_update_raw (he_main e)); [now apply local_tracked|exact U].
  - intros (L & U & N). split; [|exact N]. left. split; [now apply is_local_spec|]. apply last_update_raw; [now apply local_tracked|exact U].
Qed.

Lemma broken_branches_total e r : is_Some (hr_refs r !! he_main e) -> is_Some (broken_branches e r).
Proof.
  intros [mo Em]. unfold broken_branches. rewrite Em.
  destruct (cursor_branches_spec (replay (he_main e) (hr_log r)) _ (he_main e) mo (valid_now _ _)) as (res & m & -> & _ & H). eauto.
Qed.

Lemma last_update_obsolete log ts tx cs n m : last_update (log ++ List.map (ObsoleteEvent ts tx) cs) n m <-> last_update log n m.
Proof.
  induction cs as [|c cs IH] using rev_ind; [cbn; now rewrite app_nil_r|].
  rewrite map_app, app_assoc. cbn [List.map]. rewrite last_update_snoc_miss by (intros []). exact IH.
Qed.

Lemma repair_spec e iter biter ts i r : (forall l, Permutation (iter l) l) -> (forall l, Permutation (biter l) l) ->
  is_Some (hr_refs r !! he_main e) ->
  let res := repair e iter biter ts (TxId i) false r in let r' := hs_repo res in
  exists cs bs, broken_branches e r = Some bs /\ cs = broken_commits e r /\ hs_ok res = true /\ hr_refs r' = hr_refs r /\ hr_head r' = hr_head r /\
    hs_out res = repair_lines false cs bs /\
    hr_log r' = hr_log r ++ List.map (ObsoleteEvent ts (TxId i)) (iter cs) ++ List.map (delete_event ts (TxId i)) (biter bs) /\
    (forall o v, visibility (hr_log r') o v <-> (o ∈ cs /\ v = Obsolete) \/ (o ∉ cs /\ visibility (hr_log r) o v)) /\
    (forall n m, last_update (hr_log r') n m <->
       (n ∈ List.map snd bs /\ m = Zero) \/ (n ∉ List.map snd bs /\ last_update (hr_log r) n m)).
Proof.
  intros P1 P2 M. cbv zeta. unfold repair. destruct (broken_branches_total e r M) as [bs Hb]. rewrite Hb. cbn [hs_repo hs_ok hs_out hr_refs hr_head hr_log stored].
  exists (broken_commits e r), bs. split_and!; try reflexivity.
  - intros o v.
    destruct (status_map (ObsoleteEvent ts (TxId i)) (iter (broken_commits e r)) o (hr_log r) v (List.map (delete_event ts (TxId i)) (biter bs))) as [A B].
    + intros x y. apply concerns_obsolete.
    + intros x Hx. apply elem_of_list_In, in_map_iff in Hx. destruct Hx as (p & <- & _). unfold concerns. cbn. tauto.
    + assert (Q : o ∈ iter (broken_commits e r) <-> o ∈ broken_commits e r) by now rewrite P1.
      destruct (decide (o ∈ broken_commits e r)) as [H|H].
      * apply Q in H as H'. etransitivity; [exact (B H')|]. rewrite visibility_one_obsolete. tauto.
      * etransitivity; [apply A; now rewrite Q|]. tauto.
  - intros n m. rewrite app_assoc. change (List.map (fun p => _) (biter bs)) with (List.map (delete_event ts (TxId i)) (biter bs)).
    rewrite last_update_deletes. rewrite last_update_obsolete. assert (Q : Permutation (List.map snd (biter bs)) (List.map snd bs)) by (apply Permutation_map, P2).
    rewrite Q. reflexivity.
Qed.
