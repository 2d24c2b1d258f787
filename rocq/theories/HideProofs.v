(** Proofs about hiding and unhiding. *)
From stdpp Require Import sorting.
From Verif Require Import Base TextModel TextProofs EventLogModel EventLogSpec EventLogProofs EventLogNavProofs EventLogRefProofs
  DagModel DagSpec DagProofs DagCompProofs StrModel StrProofs HookModel HookSpec HookProofs ExecModel ExecSpec ExecAfterProofs
  UndoModel UndoSpec UndoProofs HideModel HideSpec.
Local Open Scope string_scope.
Local Open Scope list_scope.

Lemma is_local_spec n : is_local n = true <-> exists s, n = "refs/heads/" +:+ s.
Proof. apply starts_with_spec. Qed.

(** ** The graph as opened *)

Lemma local_branches_spec refs n o : (n, o) ∈ local_branches refs <-> refs !! n = Some o /\ is_local n = true.
Proof.
  unfold local_branches. rewrite elem_of_list_In, filter_In, <- elem_of_list_In, elem_of_map_to_list. reflexivity.
Qed.
Lemma branch_at_spec refs o : o ∈ List.map snd (local_branches refs) <-> branch_at refs o.
Proof.
  rewrite elem_of_list_In, in_map_iff. split.
  - intros ([n o'] & <- & H). apply elem_of_list_In, local_branches_spec in H. destruct H as [H L].
    apply is_local_spec in L. destruct L as [s ->]. exists s. exact H.
  - intros [s H]. exists ("refs/heads/" +:+ s, o). split; [reflexivity|].
    apply elem_of_list_In, local_branches_spec. split; [exact H|]. apply is_local_spec. eauto.
Qed.

Lemma valid_now main log : valid_cursor (replay main log) (default_cursor (replay main log)).
Proof. rewrite default_cursor_spec. unfold valid_cursor. lia. Qed.

Lemma open_repo_some e r d : (exists s, he_main e = "refs/heads/" +:+ s) -> open_repo e r = Some d -> dag_graph d = he_graph e /\
  (forall o, visible d o <-> shown (he_graph e) r o) /\
  (forall o, o ∈ obsolete_commits d <-> visibility (hr_log r) o Obsolete).
Proof.
  intros [s Hs]. unfold open_repo. destruct (hr_refs r !! he_main e) as [m|] eqn:Hm; [|discriminate].
  intros [= <-]. split; [reflexivity|]. split.
  - intros o. unfold visible, shown. split.
    + intros (v & K & A). exists v. split; [exact A|]. apply open_dag_kept in K; [|apply valid_now].
      rewrite branch_at_spec, status_now in K. destruct K as [K|[K|[->|K]]]; auto.
      right. right. exists s. rewrite <- Hs. exact Hm.
    + intros (v & A & K). exists v. split; [|exact A]. apply open_dag_kept; [apply valid_now|].
      rewrite branch_at_spec, status_now. tauto.
  - intros o. rewrite open_dag_obsolete by apply valid_now. apply status_now.
Qed.
Lemma open_repo_spec e r : in_order e r -> exists d, open_repo e r = Some d /\ dag_graph d = he_graph e /\
  (forall o, visible d o <-> shown (he_graph e) r o) /\
  (forall o, o ∈ obsolete_commits d <-> visibility (hr_log r) o Obsolete).
Proof.
  intros I. assert (X : exists d, open_repo e r = Some d).
  { destruct (io_exists _ _ I) as [m Hm]. unfold open_repo. rewrite Hm. eauto. }
  destruct X as [d Hd]. exists d. split; [exact Hd|]. apply open_repo_some; [apply (io_main _ _ I)|exact Hd].
Qed.

Lemma shown_known e r o : in_order e r -> shown (he_graph e) r o -> o ∈ vertices (he_graph e).
Proof.
  intros I (v & A & K). assert (V : v ∈ vertices (he_graph e)).
  { destruct K as [K|[K|[s K]]]; [now apply (io_active _ _ I)|now apply (io_head _ _ I)|now apply (io_known _ _ I) in K]. }
  destruct A as [x|x y z P _]; [exact V|]. apply parent_vertices in P; [|apply (io_graph _ _ I)]. apply P.
Qed.

Lemma hide_commits_spec e r d recursive chosen : in_order e r -> open_repo e r = Some d -> dag_graph d = he_graph e ->
  (forall o, visible d o <-> shown (he_graph e) r o) -> chosen ⊆ vertices (he_graph e) ->
  NoDup (hide_commits d recursive chosen) /\
  (forall o, o ∈ hide_commits d recursive chosen <-> meant_to_hide (he_graph e) r recursive chosen o) /\
  (forall l1 a l2 b l3, hide_commits d recursive chosen = l1 ++ a :: l2 ++ b :: l3 -> ~ proper_ancestor (he_graph e) b a).
Proof.
  intros I O G V Hc. unfold hide_commits. rewrite G. pose proof (io_graph _ _ I) as W. split; [|split].
  - now apply dag_sort_nodup.
  - intros o. rewrite dag_sort_mem. unfold meant_to_hide. destruct recursive.
    + rewrite filter_visible_spec, descendants_spec, V by (rewrite ?G; exact W).
      split; [tauto|]. intros H. split; [exact H|]. eapply shown_known; [exact I|apply H].
    + split; [tauto|]. intros H. split; [exact H|]. now apply Hc.
  - intros l1 a l2 b l3 E. eapply dag_sort_order; eassumption.
Qed.

Lemma unhide_commits_spec e r d recursive chosen : wf_graph (he_graph e) -> dag_graph d = he_graph e ->
  (forall o, o ∈ obsolete_commits d <-> visibility (hr_log r) o Obsolete) -> chosen ⊆ vertices (he_graph e) ->
  NoDup (unhide_commits d recursive chosen) /\
  (forall o, o ∈ unhide_commits d recursive chosen <-> meant_to_unhide (he_graph e) r recursive chosen o).
Proof.
  intros W G V Hc. unfold unhide_commits. rewrite G. split.
  - now apply dag_sort_nodup.
  - intros o. rewrite dag_sort_mem. unfold meant_to_unhide. destruct recursive.
    + rewrite elem_of_intersection, descendants_spec, V by exact W.
      split; [tauto|]. intros H. split; [exact H|]. destruct H as [(c & Hc1 & A) _]. apply Hc in Hc1.
      clear -A Hc1 W. induction A as [x|x y z P _ IH]; [exact Hc1|]. apply IH. now apply parent_vertices in P.
    + split; [tauto|]. intros H. split; [exact H|]. now apply Hc.
Qed.

(** ** Status *)

Lemma visibility_exists log o : exists a, visibility log o a.
Proof.
  destruct (last_concerning_exists log o) as [N|(e & He)].
  - exists Inactive. exact N.
  - destruct (shows_dec e o) as [Hs|Hs]; [exists Active; exists e; auto|]. exists Obsolete. exists e.
    split; [exact He|]. split; [|exact Hs]. destruct He as (? & ? & _ & [?|?] & _); [done|assumption].
Qed.

Lemma visibility_app_iff a b o v : (forall x, x ∈ b -> ~ concerns x o) -> visibility (a ++ b) o v <-> visibility a o v.
Proof.
  intros H. split; [|now apply visibility_app_r]. intros Hv. destruct (visibility_exists a o) as [v' Hv'].
  assert (v = v') as ->; [|exact Hv']. eapply visibility_unique; [exact Hv|]. now apply visibility_app_r.
Qed.

Lemma last_of_map (f : oid -> event) cs o : (forall x, concerns (f x) o <-> x = o) -> o ∈ cs -> last_concerning (List.map f cs) o (f o).
Proof.
  intros H. induction cs as [|x cs IH] using rev_ind; [intros Hi; now apply elem_of_nil in Hi|].
  intros Hi. rewrite map_app. cbn [List.map]. destruct (decide (x = o)) as [->|N].
  - exists (List.map f cs), []. split; [reflexivity|]. split; [now apply H|]. intros e' He'. now apply elem_of_nil in He'.
  - apply elem_of_app in Hi. destruct Hi as [Hi|Hi]; [|apply elem_of_list_singleton in Hi; congruence].
    apply last_concerning_app_r; [|now apply IH]. intros e' He'. apply elem_of_list_singleton in He'. subst e'. now rewrite H.
Qed.

Lemma status_map f cs o log v rest :
  (forall x y, concerns (f x) y <-> x = y) -> (forall x, x ∈ rest -> ~ concerns x o) ->
  (o ∉ cs -> visibility (log ++ List.map f cs ++ rest) o v <-> visibility log o v) /\
  (o ∈ cs -> visibility (log ++ List.map f cs ++ rest) o v <-> visibility [f o] o v).
Proof.
  intros H R. rewrite app_assoc, visibility_app_iff by exact R. split.
  - intros N. apply visibility_app_iff. intros x Hx. apply elem_of_list_In, in_map_iff in Hx.
    destruct Hx as (y & <- & Hy). rewrite H. intros ->. apply N. now apply elem_of_list_In.
  - intros Hi. pose proof (last_of_map f cs o (fun x => H x o) Hi) as L. apply (last_concerning_app_l log) in L.
    assert (L1 : last_concerning [f o] o (f o)).
    { exists [], []. split; [reflexivity|]. split; [now apply H|]. intros e' He'. now apply elem_of_nil in He'. }
    destruct (visibility_exists [f o] o) as [a Ha].
    assert (Hb : visibility (log ++ List.map f cs) o a).
    { destruct a; cbn in Ha |- *.
      - destruct Ha as (e & He & Hs). rewrite (last_concerning_unique _ _ _ _ He L1) in Hs. eauto.
      - exfalso. apply (Ha (f o)); [left|now apply H].
      - destruct Ha as (e & He & Hs). rewrite (last_concerning_unique _ _ _ _ He L1) in Hs. eauto. }
    split; intros Hv.
    + now rewrite (visibility_unique _ _ _ _ Hv Hb).
    + now rewrite (visibility_unique _ _ _ _ Hv Ha).
Qed.

Lemma concerns_obsolete ts tx x y : concerns (ObsoleteEvent ts tx x) y <-> x = y.
Proof. unfold concerns. cbn. tauto. Qed.
Lemma concerns_unobsolete ts tx x y : concerns (UnobsoleteEvent ts tx x) y <-> x = y.
Proof. unfold concerns. cbn. tauto. Qed.
Lemma visibility_one_obsolete ts tx o v : visibility [ObsoleteEvent ts tx o] o v <-> v = Obsolete.
Proof.
  assert (H : visibility [ObsoleteEvent ts tx o] o Obsolete).
  { exists (ObsoleteEvent ts tx o). split; [|split; [reflexivity|intros []]]. exists [], []. split; [reflexivity|]. split; [now right|].
    intros e' He'. now apply elem_of_nil in He'. }
  split; [intros Hv; exact (visibility_unique _ _ _ _ Hv H)|now intros ->].
Qed.
Lemma visibility_one_unobsolete ts tx o v : visibility [UnobsoleteEvent ts tx o] o v <-> v = Active.
Proof.
  assert (H : visibility [UnobsoleteEvent ts tx o] o Active).
  { exists (UnobsoleteEvent ts tx o). split; [|reflexivity]. exists [], []. split; [reflexivity|]. split; [now left|].
    intros e' He'. now apply elem_of_nil in He'. }
  split; [intros Hv; exact (visibility_unique _ _ _ _ Hv H)|now intros ->].
Qed.

(** ** The hook *)

Definition update_event (ts : timestamp) (tx : txid) (u : oid * moid * refname) : event :=
  match u with (old, new, n) => RefUpdateEvent ts tx n (NonZero old) new None end.

Lemma unlines_pieces ls : Forall (lacks LF) ls -> pieces LF (unlines ls) ls.
Proof. induction 1 as [|x ls H _ IH]; cbn [unlines]; constructor; assumption. Qed.

Lemma local_tracked n : is_local n = true -> ~ untracked n.
Proof.
  intros H U. apply is_local_spec in H. destruct H as [s ->]. destruct U as [[rest E]|U]; [discriminate|].
  repeat (apply elem_of_cons in U; destruct U as [U|U]; [discriminate|]). now apply elem_of_nil in U.
Qed.

Lemma moid_target m : moid_ok m -> names_target (moid_to_string m) (Direct m).
Proof. destruct m; [intros _; exact zeros_target|apply hex_target]. Qed.
Lemma moid_space m : lacks " " (moid_to_string m).
Proof. destruct m; apply hex_space. Qed.

Lemma hook_events_spec e ts i ls (refs' : gmap refname oid) :
  HookSpec.readable (he_utf8 e) (he_packed e) ->
  (forall (n : refname) m, packed_at (he_packed e) n m -> is_Some (refs' !! n)) ->
  (forall o x (n : refname), (o, x, n) ∈ ls -> oid_ok o /\ moid_ok x /\ lacks " " n /\ lacks LF n /\ is_local n = true /\
     he_utf8 e (update_line (o, x, n)) = true /\ (x = Zero -> refs' !! n = None)) ->
  hook_events e ts (TxId i) ls = List.map (update_event ts (TxId i)) ls.
Proof.
  intros R P H. unfold hook_events. set (t := TxId i).
  assert (E : hook_reference_transaction (he_utf8 e) (he_resolve e) (he_packed e) ts t "committed" (unlines (List.map update_line ls))
    = Some (List.map (update_event ts t) ls)); [|now rewrite E].
  apply (hook_records _ _ _ _ _ _ (List.map update_line ls) _ R).
  - apply unlines_pieces. apply Forall_forall. intros l Hl. apply elem_of_list_In, in_map_iff in Hl.
    destruct Hl as ([[o x] n] & <- & Hl). apply elem_of_list_In in Hl. destruct (H _ _ _ Hl) as (_ & _ & _ & L & _). cbn.
    apply lacks_app. split; [apply hex_lacks, oid_hex; repeat constructor; discriminate|].
    rewrite sapp_cons. apply lacks_cons. split; [discriminate|]. rewrite sapp_nil. apply lacks_app.
    split; [apply hex_lacks, moid_hex; repeat constructor; discriminate|].
    rewrite sapp_cons. apply lacks_cons. split; [discriminate|exact L].
  - induction ls as [|[[o x] n] ls IH]; cbn [List.map]; [constructor|].
    destruct (H o x n ltac:(left)) as (H1 & H2 & H3 & _ & H4 & H5 & H6).
    cbn [update_event]. eapply rec_line with (old := Direct (NonZero o)) (new := Direct x) (old' := Direct (NonZero o)) (new' := Direct x).
    + exact H5.
    + exists (oid_to_string o), (moid_to_string x). split_and!; [apply hex_space|apply moid_space|exact H3|reflexivity|now apply hex_target|now apply moid_target].
    + now apply local_tracked.
    + apply net_real; [intros [? _]; discriminate|]. intros [E S]. injection E as ->. cbn in S.
      apply P in S. destruct S as [y S]. pose proof (eq_trans (eq_sym S) (H6 eq_refl)). discriminate.
    + reflexivity.
    + reflexivity.
    + apply IH. intros o' x' n' Hin. apply H. now right.
Qed.

(** ** Deleting the branches *)

Lemma drop_map_spec cs o : drop_map cs !! o = if decide (o ∈ cs) then Some Zero else None.
Proof.
  unfold drop_map. induction cs as [|x cs IH]; cbn [List.map list_to_map foldr]; [reflexivity|]. cbn [fst snd].
  destruct (decide (x = o)) as [->|N].
  - rewrite lookup_insert, decide_True by (now left). reflexivity.
  - rewrite lookup_insert_ne by exact N. rewrite IH. destruct (decide (o ∈ cs)) as [H|H].
    + rewrite decide_True by (now right). reflexivity.
    + rewrite decide_False; [reflexivity|]. rewrite elem_of_cons. intros [->|?]; congruence.
Qed.

(** Where the branch is after hiding [cs]. *)
Definition ref_after (e : hide_env) (cs : list oid) (refs : gmap refname oid) (n : refname) : option oid :=
  match refs !! n with
  | Some o =>
      if decide (is_local n = true /\ o ∈ cs)
      then if decide (n = he_main e) then match be_upstream (he_branch e) with Some t => t | None => Some o end else None
      else Some o
  | None => None
  end.
Lemma branch_after_drop e cs refs n : branch_after (he_branch e) (drop_map cs) refs n = ref_after e cs refs n.
Proof.
  unfold branch_after, ref_after. destruct (refs !! n) as [o|]; [|reflexivity]. rewrite drop_map_spec.
  destruct (is_local n); [|rewrite decide_False by (intros [? _]; discriminate); reflexivity].
  destruct (decide (o ∈ cs)) as [H|H].
  - rewrite (decide_True (P := true = true /\ o ∈ cs)) by auto. reflexivity.
  - rewrite decide_False by tauto. reflexivity.
Qed.

Lemma delete_branches_spec e ts i cs r r' :
  branch_table (he_groups e (hr_refs r)) (hr_refs r) ->
  delete_branches e ts (TxId i) cs r = (r', true) -> hook_ready e (hr_refs r) (hr_refs r') ->
  (forall n, hr_refs r' !! n = ref_after e cs (hr_refs r) n) /\
  hr_head r' = detach_if cs (hr_head r) /\
  exists ls, hr_log r' = hr_log r ++ List.map (update_event ts (TxId i)) ls /\ NoDup (List.map snd ls) /\
    hr_refs r' = announced (hr_refs r) ls /\
    (forall o x n, (o, x, n) ∈ ls <-> hr_refs r !! n = Some o /\ is_local n = true /\ o ∈ cs /\ x = moid_of_option (hr_refs r' !! n)).
Proof.
  intros T. unfold delete_branches.
  destruct (move_branches_spec (he_branch e) (drop_map cs) (he_groups e (hr_refs r)) (hr_refs r) T) as (A & B & C).
  set (m := move_branches _ _ _ _) in *. intros E K. injection E as <- Ek. cbn [hr_refs hr_head hr_log] in *.
  destruct (C Ek) as (ls & El & D & F). destruct (B ls El) as (B1 & B2 & B3).
  assert (D' : forall n, mr_refs m !! n = ref_after e cs (hr_refs r) n) by (intros n; rewrite D; apply branch_after_drop).
  assert (Hin : forall o x n, (o, x, n) ∈ ls <-> hr_refs r !! n = Some o /\ is_local n = true /\ o ∈ cs /\ x = moid_of_option (mr_refs m !! n)).
  { intros o x n. split.
    - intros H. destruct (B3 o x n H) as (H1 & H2 & H3 & H4). split; [exact H1|]. split; [exact H2|]. split.
      + rewrite drop_map_spec in H3. destruct (decide (o ∈ cs)); [assumption|]. destruct H3. discriminate.
      + rewrite D, H4. now destruct x.
    - intros (H1 & H2 & H3 & H4). assert (S : n ∈ List.map snd ls).
      { apply (F o); [exact H1|exact H2|]. rewrite drop_map_spec, decide_True by exact H3. eauto. }
      apply elem_of_list_In, in_map_iff in S. destruct S as ([[o' x'] n'] & <- & S). apply elem_of_list_In in S. cbn [snd] in *.
      destruct (B3 _ _ _ S) as (G1 & G2 & G3 & G4). assert (o' = o) as -> by congruence.
      assert (x' = x) as ->; [|exact S]. rewrite H4, D, G4. now destruct x'. }
  split; [exact D'|]. split; [reflexivity|]. exists ls. rewrite El. split; [|auto].
  f_equal. apply (hook_events_spec _ _ _ _ (mr_refs m)); [apply (hk_file _ _ _ K)|apply (hk_packed _ _ _ K)|].
  intros o x n H. apply Hin in H. destruct H as (H1 & H2 & H3 & H4). destruct (hk_name _ _ _ K n o H1) as (N1 & N2 & N3).
  split_and!; [exact N1| |exact N2|exact N3|exact H2|now apply (hk_text _ _ _ K)|].
  - rewrite H4, D'. unfold ref_after. rewrite H1. rewrite decide_True by auto. case_decide; [|exact I].
    destruct (be_upstream (he_branch e)) as [[t|]|] eqn:Eu; [|exact I|exact N1]. now apply (hk_upstream _ _ _ K).
  - intros ->. destruct (mr_refs m !! n); [discriminate|reflexivity].
Qed.

(** ** Hiding *)

Lemma hide_spec e ts ts' i nd recursive chosen r : in_order e r -> chosen ⊆ vertices (he_graph e) ->
  let res := hide e ts ts' (TxId i) nd recursive chosen r in
  let r' := hs_repo res in
  hs_ok res = true -> hook_ready e (hr_refs r) (hr_refs r') ->
  exists cs ls, NoDup cs /\ (forall o, o ∈ cs <-> meant_to_hide (he_graph e) r recursive chosen o) /\
    (forall l1 a l2 b l3, cs = l1 ++ a :: l2 ++ b :: l3 -> ~ proper_ancestor (he_graph e) b a) /\
    hr_log r' = hr_log r ++ List.map (ObsoleteEvent ts (TxId i)) cs ++ List.map (update_event ts' (TxId i)) ls /\
    NoDup (List.map snd ls) /\ hr_refs r' = announced (hr_refs r) ls /\
    (forall o x n, (o, x, n) ∈ ls <-> nd = false /\ hr_refs r !! n = Some o /\ is_local n = true /\ o ∈ cs /\
       x = moid_of_option (hr_refs r' !! n)) /\
    (forall n, hr_refs r' !! n = if nd then hr_refs r !! n else ref_after e cs (hr_refs r) n) /\
    hr_head r' = (if nd then hr_head r else detach_if cs (hr_head r)) /\
    hs_out res = flat_map (hide_line e r) cs ++ hide_summary (negb nd) (length cs) (abandoned_names cs (hr_refs r)).
Proof.
  intros I Hc. cbv zeta. unfold hide. destruct (open_repo_spec e r I) as (d & Hd & G & V & _). rewrite Hd.
  destruct (hide_commits_spec e r d recursive chosen I Hd G V Hc) as (C1 & C2 & C3).
  set (cs := hide_commits d recursive chosen) in *. destruct (forallb (he_found e) cs) eqn:F; [|discriminate].
  destruct nd; cbn [negb].
  - intros _ K. exists cs, []. cbn [hs_repo hs_out hr_refs hr_head hr_log stored List.map announced fold_left].
    rewrite app_nil_r. split_and!; try assumption; try reflexivity; [constructor|].
    intros o x n. split; [intros H; now apply elem_of_nil in H|intros [H _]; discriminate].
  - set (r1 := mk_hrepo _ _ _). destruct (delete_branches e ts' (TxId i) cs r1) as [r2 ok] eqn:E.
    destruct ok; [|discriminate]. cbn [hs_repo hs_out]. intros _ K.
    destruct (delete_branches_spec e ts' i cs r1 r2 (io_table _ _ I) E K) as (D1 & D2 & ls & D3 & D4 & D5 & D6).
    exists cs, ls. unfold r1 in D3. cbn [hr_log] in D3. rewrite <- app_assoc in D3. cbn [stored] in D3.
    split_and!; try assumption; try reflexivity.
    intros o x n. rewrite D6. unfold r1. cbn [hr_refs]. tauto.
Qed.

(** ** Reading the log afterwards *)

Lemma replay_plain main log es : Forall (fun e => ~ is_ref_update e) es ->
  events (replay main (log ++ es)) = events (replay main log) ++ es.
Proof.
  intros F. induction es as [|x es IH] using rev_ind; [now rewrite !app_nil_r|].
  apply Forall_app in F. destruct F as [F1 F2]. rewrite Forall_cons in F2. destruct F2 as [F2 _]. rewrite (app_assoc log), replay_snoc, (app_assoc _ es).
  rewrite <- (IH F1). destruct x; try reflexivity. exfalso. apply F2. exact Logic.I.
Qed.

Lemma replay_updates main log ts tx ls : NoDup (List.map snd ls) -> (forall o x n, (o, x, n) ∈ ls -> is_local n = true) ->
  (forall e, last (events (replay main log)) = Some e -> ~ is_ref_update e) ->
  events (replay main (log ++ List.map (update_event ts tx) ls)) = events (replay main log) ++ List.map (update_event ts tx) ls.
Proof.
  intros ND L N. induction ls as [|[[o x] n] ls IH] using rev_ind; [cbn; now rewrite !app_nil_r|].
  rewrite map_app in *. cbn [List.map snd] in *. apply NoDup_app in ND. destruct ND as (ND & D & _).
  rewrite (app_assoc log), replay_snoc, (app_assoc (events _)).
  rewrite <- IH; [|exact ND|intros ? ? ? H; eapply L, elem_of_app; left; exact H].
  assert (Hl : is_local n = true) by (eapply (L o x); apply elem_of_app; right; left).
  unfold process_event. cbn [update_event]. destruct (should_ignore_ref_updates n) eqn:Eg.
  { apply ignored_spec in Eg. exfalso. now apply (local_tracked n). }
  unfold fix_event. cbn [fix_old_oid]. cbv zeta. destruct x as [|x]; [|reflexivity].
  rewrite IH; [|exact ND|intros ? ? ? H; eapply L, elem_of_app; left; exact H].
  assert (X : forall ts0 tx0 n0 o0 m0, last (events (replay main log) ++ List.map (update_event ts tx) ls) = Some (RefUpdateEvent ts0 tx0 n0 o0 Zero m0) ->
    ~ (n = n0 /\ None = m0)).
  { intros ts0 tx0 n0 o0 m0 E [<- _]. destruct ls as [|u ls _] using rev_ind.
    - rewrite app_nil_r in E. apply N in E. apply E. exact Logic.I.
    - rewrite map_app in E. cbn [List.map] in E. rewrite app_assoc, last_snoc in E. destruct u as [[o1 x1] n1]. injection E as _ _ -> _ _ _.
      apply (D n); [|left]. rewrite map_app. apply elem_of_app. right. left. }
  destruct (last (events (replay main log) ++ List.map (update_event ts tx) ls)) as [[|? ? ? ? [|?] ?| | | |]|] eqn:El; try (cbn [record_event events]; now rewrite IH by (assumption || (intros ? ? ? H; eapply L, elem_of_app; left; exact H))).
  destruct (decide _) as [Dx|Dx]; [exfalso; eapply X; [reflexivity|exact Dx]|].
  cbn [record_event events]. rewrite IH; [reflexivity|assumption|]. intros ? ? ? H; eapply L, elem_of_app; left; exact H.
Qed.
