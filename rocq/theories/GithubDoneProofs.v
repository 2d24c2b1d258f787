(** What submitting to GitHub does. *)
From stdpp Require Import sorting pretty.
From Verif Require Import Base TextModel EventLogModel DagModel DagSpec DagProofs DagCompProofs ExecModel ExecAfterProofs StrProofs EventLogRefProofs SubmitModel SubmitSpec SubmitProofs GithubModel GithubSpec GithubProofs.
From Verif Require NavModel HideUndoProofs.
Local Open Scope string_scope.
Local Open Scope list_scope.

(** ** The same branches *)
Global Instance name_le_anti : AntiSymm (=) name_le.
Proof. intros a b H H'. now apply String.leb_antisym. Qed.
Lemma compare_trans a : forall b c, String.compare a b <> Gt -> String.compare b c <> Gt -> String.compare a c <> Gt.
Proof.
  induction a as [|x a IH]; intros [|y b] [|z c]; cbn; try easy. unfold Ascii.compare. destruct (N.compare_spec (Ascii.N_of_ascii x) (Ascii.N_of_ascii y)) as [E|L|L]; [| |easy].
  - rewrite E. destruct (N.compare _ _); [apply IH|easy|easy].
  - intros _. destruct (N.compare_spec (Ascii.N_of_ascii y) (Ascii.N_of_ascii z)) as [E|L'|L']; [| |easy].
    + rewrite <- E. now rewrite (proj2 (N.compare_lt_iff _ _) L).
    + now rewrite (proj2 (N.compare_lt_iff _ _) (N.lt_trans _ _ _ L L')).
Qed.
Global Instance name_le_trans : Transitive name_le.
Proof.
  assert (E : forall a b, name_le a b <-> String.compare a b <> Gt) by (intros a b; unfold name_le, String.leb; now destruct (String.compare a b)).
  intros a b c. rewrite !E. apply compare_trans.
Qed.
Lemma branches_same refs refs' o : (forall n, refs' !! local n = refs !! local n) -> sorted_names (branches_at refs' o) = sorted_names (branches_at refs o).
Proof.
  intros L. apply (Sorted_unique name_le); [apply HideUndoProofs.sorted_sorted|apply HideUndoProofs.sorted_sorted|].
  apply NoDup_Permutation; [apply branches_nodup|apply branches_nodup|]. intros b. rewrite !branch_here. now setoid_rewrite L.
Qed.
Lemma pr_at_same refs refs' r prs o : (forall n, refs' !! local n = refs !! local n) -> pr_at refs' r prs o = pr_at refs r prs o.
Proof. intros L. unfold pr_at. now rewrite (branches_same refs refs' o L). Qed.
Lemma updated_same e refs refs' r prs o : (forall n, refs' !! local n = refs !! local n) -> updated e refs' r prs o = updated e refs r prs o.
Proof.
  intros L. unfold updated, stack_prs, base_of.
  rewrite (omap_ext (fun c => match pr_at refs' r prs c with Some p => Some (c, p) | None => None end) (fun c => match pr_at refs r prs c with Some p => Some (c, p) | None => None end))
    by (intros c; now rewrite (pr_at_same refs refs')).
  now rewrite (omap_ext (pr_at refs' r prs) (pr_at refs r prs)) by (intros c; now apply pr_at_same).
Qed.
Lemma desc_same e h h' o : own (hb_repo h) -> same_view (hb_repo h) (hb_repo h') -> face (hb_prs h) (hb_prs h') -> desc e h' o = desc e h o.
Proof.
  intros O V F. unfold desc. rewrite (updated_same e (sr_refs (hb_repo h)) (sr_refs (hb_repo h'))) by apply V.
  rewrite (updated_view e _ (hb_repo h) (hb_repo h')) by assumption. now apply updated_face.
Qed.
Lemma usual_view e h h' : usual e h -> same_view (hb_repo h) (hb_repo h') -> face (hb_prs h) (hb_prs h') -> hb_last h' = hb_last h -> usual e h'.
Proof.
  intros U V F L. pose proof (own_view _ _ V (usual_own _ _ U)) as O'.
  assert (A : forall n o, at_commit h' n o <-> at_commit h n o) by (intros n o; unfold at_commit; split; intros H; rewrite <- H; [symmetry|]; apply (sv_local _ _ V n)).
  assert (P : forall m p, hb_prs h' !! m = Some p -> exists q, hb_prs h !! m = Some q /\ same_request q p).
  { intros m p E. specialize (F m). rewrite E in F. destruct (hb_prs h !! m) as [q|]; [eauto|contradiction]. }
  constructor.
  - apply U.
  - exact O'.
  - intros n o H. apply A in H. now apply (us_known _ _ U n o).
  - intros n H. rewrite (sv_config _ _ V) in H. destruct (us_here _ _ U n H) as [o Ho]. exists o. now apply A.
  - intros n n' o H H'. apply A in H, H'. now apply (us_one _ _ U).
  - intros m p E. destruct (P m p E) as (q & Eq & _ & _ & S). rewrite S. now apply (us_keyed _ _ U).
  - intros m p m' p' E E' H. destruct (P m p E) as (q & Eq & S & _), (P m' p' E') as (q' & Eq' & S' & _). apply (us_numbers _ _ U m q m' q' Eq Eq'). congruence.
  - intros m p E. destruct (P m p E) as (q & Eq & S & _). rewrite L, S. now apply (us_last _ _ U m q).
Qed.
Lemma pr_for_view h h' o n : same_view (hb_repo h) (hb_repo h') -> face (hb_prs h) (hb_prs h') ->
  (forall p, pr_for h o n p -> exists p', hb_prs h' !! n = Some p' /\ pr_for h' o n p' /\ same_request p p') /\
  (forall p', pr_for h' o n p' -> exists p, hb_prs h !! n = Some p /\ pr_for h o n p /\ same_request p p').
Proof.
  intros V F. specialize (F n). split.
  - intros p (A & B & C). rewrite C in F. destruct (hb_prs h' !! n) as [p'|] eqn:E; [|contradiction]. exists p'. split; [reflexivity|]. split; [|exact F]. split; [|split].
    + unfold at_commit in *. now rewrite <- A; apply (sv_local _ _ V n).
    + now apply (sv_seen _ _ V n).
    + exact E.
  - intros p (A & B & C). rewrite C in F. destruct (hb_prs h !! n) as [p'|] eqn:E; [|contradiction]. exists p'. split; [reflexivity|]. split; [|exact F]. split; [|split].
    + unfold at_commit in *. rewrite <- A. symmetry. apply (sv_local _ _ V n).
    + now apply (sv_seen _ _ V n).
    + exact E.
Qed.

(** ** Updating *)
Lemma having_lookup x sts o s : having x sts !! o = Some s <-> sts !! o = Some s /\ hs_status s = x.
Proof. unfold having. rewrite map_filter_lookup_Some. reflexivity. Qed.
Lemma named_spec sts n : n ∈ named sts <-> exists o s, sts !! o = Some s /\ hs_local s = Some n.
Proof.
  unfold named. rewrite sorted_elem, elem_of_list_omap. split.
  - intros ([o s] & H & E). apply elem_of_map_to_list in H. eauto.
  - intros (o & s & H & E). exists (o, s). split; [now apply elem_of_map_to_list|exact E].
Qed.

(** A commit of those listed whose pull request does not say what it should. *)
Definition stale (e : hub_env) (commits : commit_set) (h : hub) (o : oid) (n : string) (p : pull_request) : Prop :=
  o ∈ commits /\ pr_for h o n p /\ edited (desc e h o) p <> p.
Lemma pr_for_one e commits h o n n' p p' : usual e h -> drafts e commits -> o ∈ commits -> pr_for h o n p -> pr_for h o n' p' -> n = n' /\ p = p'.
Proof.
  intros U Dr Ho (A & _ & B) (A' & _ & B'). assert (n = n') as -> by (apply (us_one _ _ U n n' o A A'); apply (Dr o Ho)). split; congruence.
Qed.
Section submit.
Context (e : hub_env) (commits : commit_set) (h : hub) (sts : gmap oid hub_status).
Hypothesis U : usual e h.
Hypothesis Dr : drafts e commits.
Hypothesis Q : query_hub e commits h = Some sts.
Let none := mk_hs Unsubmitted None None None.
Lemma statuses_spec o s : sts !! o = Some s <-> o ∈ commits /\
  ((exists n p remote, pr_for h o n p /\ pushes_to (hb_repo h) n remote /\
      s = mk_hs (if decide (edited (desc e h o) p = p) then UpToDate else NeedsUpdate) (Some remote) (Some n) (Some n)) \/
   (exists n, at_commit h n o /\ (forall p, ~ pr_for h o n p) /\ s = status_with e h n o /\ hs_status s = Unsubmitted /\ hs_local s = Some n) \/
   ((forall n, ~ at_commit h n o) /\ s = none)).
Proof.
  rewrite (query_lookup e commits h U Dr sts Q o s). split.
  - intros (Ho & [(n & En & ->)|H]); (split; [exact Ho|]); [|now right; right].
    destruct (status_cases e h U n o En) as [(p & x & Hp & Px & E)|(Np & x & y & E)].
    + left. exists n, p, x. auto.
    + right. left. exists n. rewrite E. auto.
  - intros (Ho & [(n & p & x & Hp & Px & ->)|[(n & Hn & Np & -> & _)|H]]); (split; [exact Ho|]); [| |now right].
    + left. exists n. split; [apply Hp|]. destruct (status_cases e h U n o (proj1 Hp)) as [(p' & x' & Hp' & Px' & E)|(Np & _)]; [|now apply Np in Hp].
      destruct (pr_for_one _ _ _ _ _ _ _ _ U Dr Ho Hp Hp') as [_ <-]. now rewrite E, (pushes_one _ _ _ _ (usual_own _ _ U) Px Px').
    + left. eauto.
Qed.
Lemma changed_spec o s : having NeedsUpdate sts !! o = Some s <-> exists n p remote, stale e commits h o n p /\ pushes_to (hb_repo h) n remote /\
  s = mk_hs NeedsUpdate (Some remote) (Some n) (Some n).
Proof.
  rewrite having_lookup, statuses_spec. unfold stale. split.
  - intros ((Ho & [(n & p & x & Hp & Px & ->)|[(n & _ & _ & _ & H & _)|(_ & ->)]]) & E); [|congruence|discriminate]. exists n, p, x.
    cbn in E. destruct (decide _) as [D|D]; [discriminate|]. auto.
  - intros (n & p & x & (Ho & Hp & D) & Px & ->). split; [|reflexivity]. split; [exact Ho|]. left. exists n, p, x. rewrite decide_False by exact D. auto.
Qed.
Lemma same_spec n : n ∈ named (having UpToDate sts) <-> exists o p, o ∈ commits /\ pr_for h o n p /\ edited (desc e h o) p = p.
Proof.
  rewrite named_spec. setoid_rewrite having_lookup. setoid_rewrite statuses_spec. split.
  - intros (o & s & ((Ho & [(m & p & x & Hp & Px & ->)|[(m & _ & _ & _ & H & _)|(_ & ->)]]) & E) & El); [|congruence|discriminate]. cbn in E, El. injection El as ->.
    destruct (decide _) as [D|D]; [|discriminate]. eauto.
  - intros (o & p & Ho & Hp & D). destruct (status_cases e h U n o (proj1 Hp)) as [(p' & x & Hp' & Px & _)|(Np & _)]; [|now apply Np in Hp].
    exists o, (mk_hs (if decide (edited (desc e h o) p = p) then UpToDate else NeedsUpdate) (Some x) (Some n) (Some n)). split; [|reflexivity]. split; [split; [exact Ho|]; left; exists n, p, x; split; [exact Hp|split; [exact Px|reflexivity]]|]. cbn. now rewrite decide_True.
Qed.
Lemma changed_named n : n ∈ named (having NeedsUpdate sts) <-> exists o p, stale e commits h o n p.
Proof.
  rewrite named_spec. setoid_rewrite changed_spec. split.
  - intros (o & s & (m & p & x & S & Px & ->) & E). cbn in E. injection E as ->. eauto.
  - intros (o & p & S). destruct S as (Ho & Hp & D). destruct (status_cases e h U n o (proj1 Hp)) as [(p' & x & Hp' & Px & _)|(Np & _)]; [|now apply Np in Hp].
    exists o, (mk_hs NeedsUpdate (Some x) (Some n) (Some n)). split; [exists n, p, x; split; [split; [exact Ho|split; [exact Hp|exact D]]|split; [exact Px|reflexivity]]|reflexivity].
Qed.
Lemma new_named n : n ∈ named (having Unsubmitted sts) <-> exists o, o ∈ commits /\ at_commit h n o /\ forall p, ~ pr_for h o n p.
Proof.
  rewrite named_spec. setoid_rewrite having_lookup. setoid_rewrite statuses_spec. split.
  - intros (o & s & ((Ho & [(m & p & x & Hp & Px & ->)|[(m & Hm & Np & -> & _ & Hl)|(_ & ->)]]) & E) & El); [|exists o; replace n with m by congruence; auto|discriminate].
    cbn in E. destruct (decide _); discriminate.
  - intros (o & Ho & Hn & Np). destruct (status_cases e h U n o Hn) as [(p & x & Hp & _)|(_ & x & y & E)]; [now apply Np in Hp|].
    exists o, (status_with e h n o). rewrite E. cbn. split; [|reflexivity]. split; [|reflexivity]. split; [exact Ho|]. right. left. exists n. auto.
Qed.
End submit.

(** Updating the pull requests that are out of date, of a repository [h0] like the one before. *)
Record refreshed (e : hub_env) (which : oid -> string -> Prop) (h h' : hub) (ok : bool) : Prop := {
  re_view : same_view (hb_repo h) (hb_repo h');
  re_face : face (hb_prs h) (hb_prs h');
  re_last : hb_last h' = hb_last h;
  re_pushed : pushed (he_submit e) WithLease (fun x m => (exists o, which o m) /\ pushes_to (hb_repo h) m x) (hb_repo h) (hb_repo h');
  re_pushed_ok : ok = true -> pushed_ok (he_submit e) WithLease (fun x m => (exists o, which o m) /\ pushes_to (hb_repo h) m x) (hb_repo h) (hb_repo h');
  re_prs : forall m, hb_prs h' !! m = hb_prs h !! m \/ exists o, which o m /\ hb_prs h' !! m = edited (desc e h o) <$> hb_prs h !! m;
  re_prs_ok : ok = true -> forall o m, which o m -> hb_prs h' !! m = edited (desc e h o) <$> hb_prs h !! m }.
Lemma refreshed_none e which h ok : (forall o m, ok = true -> ~ which o m) -> refreshed e which h h ok.
Proof.
  intros N. constructor; auto using view_refl, face_refl, pushed_refl.
  - intros Ok. constructor; [| |discriminate]; intros x m; intros; exfalso.
    + destruct H as [[o Ho] _]. now apply (N o m).
    + destruct H as [[c Hc] _]. now apply (N c m).
  - intros Ok o m H. now apply N in H.
Qed.
Lemma update_hub_spec e k sts (which : oid -> string -> Prop) h h' ok : usual e h ->
  (forall o s, sts !! o = Some s <-> exists n remote, which o n /\ pushes_to (hb_repo h) n remote /\ s = mk_hs NeedsUpdate (Some remote) (Some n) (Some n)) ->
  (forall o n, which o n -> o ∈ vertices (dag_graph (he_dag e)) /\ at_commit h n o /\ on_remote h n /\ is_Some (hb_prs h !! n)) ->
  update_hub e k sts h = (h', ok) -> refreshed e which h h' ok.
Proof.
  intros U S W. unfold update_hub. destruct (he_lists e k); [|intros H; injection H as <- <-; now apply refreshed_none].
  assert (Sd : sound (hb_prs h) sts (hb_repo h)).
  { intros o s E. apply S in E as (n & x & Hw & Px & ->). destruct (W o n Hw) as (_ & A & B & C). exists n, x. split_and!; auto. }
  intros H. destruct (update_each_spec e (sr_refs (hb_repo h)) (hb_prs h) sts (hb_repo h) (usual_own _ _ U) (us_numbers _ _ U) Sd _ h h' ok
    (dag_sort_nodup _ _ (us_graph _ _ U)) (view_refl _) (face_refl _) H) as [V F L P K Q QK].
  assert (B : forall o m, branch_of sts o m <-> which o m).
  { intros o m. unfold branch_of. setoid_rewrite S. split.
    - intros (s & (n & x & Hw & Px & ->) & E). cbn in E. now injection E as <-.
    - intros Hw. destruct (W o m Hw) as (_ & _ & (x & v & Px & _) & _). exists (mk_hs NeedsUpdate (Some x) (Some m) (Some m)). split; [exists m, x; split; [exact Hw|split; [exact Px|reflexivity]]|reflexivity]. }
  assert (M : forall o m, which o m -> o ∈ dag_sort (dag_graph (he_dag e)) (dom sts)).
  { intros o m Hw. apply dag_sort_mem. split; [|now apply (W o m)]. apply elem_of_dom. apply B in Hw as (s & E & _). rewrite E. eauto. }
  assert (Eq : forall x m, todo sts (hb_repo h) (dag_sort (dag_graph (he_dag e)) (dom sts)) x m <-> (exists o, which o m) /\ pushes_to (hb_repo h) m x).
  { intros x m. unfold todo. split.
    - intros (o & _ & Hb & Px). apply B in Hb. eauto.
    - intros ([o Hw] & Px). exists o. split_and!; [now apply (M o m)|now apply B|exact Px]. }
  constructor; auto.
  - now apply (pushed_mono _ _ _ _ _ _ (fun x m => proj1 (Eq x m))).
  - intros Ok. destruct (K Ok) as [X Y Z]. constructor; [| |discriminate].
    + intros x m Hx. apply (X x m). now apply Eq.
    + intros x m c Hx. apply (Y x m c). now apply Eq.
  - intros m. destruct (Q m) as [E|(o & _ & Hb & E)]; [now left|right; exists o; split; [now apply B|exact E]].
  - intros Ok o m Hw. apply (QK Ok o m); [now apply (M o m)|now apply B].
Qed.

(** ** What they say *)
Definition stack_list (e : hub_env) (h : hub) (o : oid) : list (oid * pull_request) := stack_prs e (sr_refs (hb_repo h)) (hb_repo h) (hb_prs h) o.
Lemma stack_list_ok e h : usual e h -> stack_lists e h (stack_list e h).
Proof.
  intros U. constructor; [intros o; now apply (stack_prs_listed e h U o)|]. intros a b H. unfold stack_list, stack_prs. do 2 f_equal.
  apply set_eq. intros c. rewrite !(stack_spec (he_dag e)) by apply U. specialize (H c). split.
  - intros (x & y & Vx & Px & Hy & H1 & H2 & Vc & Pc). apply elem_of_singleton in Hy as ->. assert (I : in_stack (he_dag e) a c) by (unfold in_stack; eauto 10). apply H in I as (_ & _ & z & Vz & Pz & H3 & H4).
    exists z, b. split_and!; auto. now apply elem_of_singleton.
  - intros (x & y & Vx & Px & Hy & H1 & H2 & Vc & Pc). apply elem_of_singleton in Hy as ->. assert (I : in_stack (he_dag e) b c) by (unfold in_stack; eauto 10). apply H in I as (_ & _ & z & Vz & Pz & H3 & H4).
    exists z, a. split_and!; auto. now apply elem_of_singleton.
Qed.
Lemma own_stack d o : visible d o -> ~ public d o -> in_stack d o o.
Proof. intros V P. unfold in_stack. split_and!; auto. exists o. split_and!; auto; reflexivity. Qed.
Lemma says e h o n p q : usual e h -> visible (he_dag e) o -> ~ public (he_dag e) o -> pr_for h o n p -> described e h (stack_list e h) o (edited (desc e h o) q).
Proof.
  intros U V P Hp. constructor; cbn [edited pr_head pr_title pr_body pr_base].
  - reflexivity.
  - exact (desc_title e h U o n p (own_stack _ _ V P) Hp).
  - exact (desc_body e h o).
  - intros Or. exact (desc_base e h U true o Or).
  - intros Or. exact (desc_base e h U false o Or).
Qed.

(** ** Without making any *)
Lemma submit_plain e commits h : usual e h -> drafts e commits -> let res := submit_hub e false false commits h in
  refreshed e (fun o n => exists p, stale e commits h o n p) h (hr_hub res) (hr_ok res) /\
  (hr_ok res = true -> he_lists e 0 = true /\ he_lists e 2 = true /\ hr_submitted res = [] /\
    (forall n, n ∈ hr_updated res <-> exists o p, stale e commits h o n p) /\
    (forall n, n ∈ hr_skipped res <-> exists o p, o ∈ commits /\ pr_for h o n p /\ edited (desc e h o) p = p) /\
    (forall n, n ∈ hr_unsubmitted res <-> exists o, o ∈ commits /\ at_commit h n o /\ forall p, ~ pr_for h o n p)).
Proof.
  intros U Dr. cbn zeta. unfold submit_hub. destruct (query_hub e commits h) as [sts|] eqn:Q; [|split; [now apply refreshed_none|discriminate]].
  cbn [andb negb]. destruct (update_hub e 2 (having NeedsUpdate sts) h) as [h2 ok] eqn:E.
  assert (R : refreshed e (fun o n => exists p, stale e commits h o n p) h h2 ok).
  { apply (update_hub_spec e 2 (having NeedsUpdate sts)); [exact U| | |exact E].
    - intros o s. rewrite (changed_spec e commits h sts U Dr Q). split; [intros (n & p & x & H1 & H2 & H3); eauto 10|intros (n & x & (p & H1) & H2 & H3); eauto 10].
    - intros o n (p & Ho & (A & B & C) & _). split; [apply (Dr o Ho)|]. split; [exact A|]. split; [exact B|]. rewrite C. eauto. }
  destruct ok; cbn [hr_hub hr_ok]; (split; [exact R|]); [|discriminate]. intros _.
  split; [unfold query_hub in Q; now destruct (he_lists e 0)|]. split; [unfold update_hub in E; now destruct (he_lists e 2)|].
  cbn. split_and!; auto.
  - intros n. now rewrite (changed_named e commits h sts U Dr Q).
  - intros n. now rewrite (same_spec e commits h sts U Dr Q).
  - intros n. now rewrite (new_named e commits h sts U Dr Q).
Qed.
Lemma edited_twice u p : edited u (edited u p) = edited u p.
Proof. reflexivity. Qed.
Lemma plain_after e commits h : usual e h -> drafts e commits -> let res := submit_hub e false false commits h in
  usual e (hr_hub res) /\ (forall o, desc e (hr_hub res) o = desc e h o) /\
  (hr_ok res = true -> forall o n p, o ∈ commits -> pr_for h o n p -> hb_prs (hr_hub res) !! n = Some (edited (desc e h o) p)).
Proof.
  intros U Dr. cbn zeta. destruct (submit_plain e commits h U Dr) as [[V F L P K Q QK] _]. split; [now apply (usual_view e h)|]. split; [intros o; apply desc_same; [exact (usual_own _ _ U)|exact V|exact F]|].
  intros Ok o n p Ho Hp. destruct (decide (edited (desc e h o) p = p)) as [E|E].
  - rewrite E. destruct (Q n) as [->|(o' & (p' & Ho' & Hp' & N) & _)]; [apply Hp|].
    exfalso. assert (o' = o) as -> by (destruct Hp as (A & _), Hp' as (A' & _); unfold at_commit in *; congruence).
    destruct (pr_for_one _ _ _ _ _ _ _ _ U Dr Ho Hp Hp') as [_ <-]. contradiction.
  - rewrite (QK Ok o n). { destruct Hp as (_ & _ & ->). reflexivity. } exists p. split_and!; auto; apply Hp.
Qed.
Lemma stack_list_none e (sts : gmap oid hub_status) h k : (forall o, sts !! o = None) -> he_lists e k = true -> update_hub e k sts h = (h, true).
Proof.
  intros N L. unfold update_hub. rewrite L. assert (sts = ∅) as -> by (apply map_eq; intros o; now rewrite N, lookup_empty). rewrite dom_empty_L.
  assert (dag_sort (dag_graph (he_dag e)) ∅ = []) as ->; [|reflexivity].
  destruct (dag_sort _ ∅) as [|c l] eqn:E; [reflexivity|]. assert (H : c ∈ dag_sort (dag_graph (he_dag e)) ∅) by (rewrite E; left). apply dag_sort_mem in H as [H _]. now apply elem_of_empty in H.
Qed.
Lemma plain_again e commits h : usual e h -> drafts e commits -> let res := submit_hub e false false commits h in hr_ok res = true ->
  let res' := submit_hub e false false commits (hr_hub res) in
  hr_hub res' = hr_hub res /\ hr_ok res' = true /\ (forall n, n ∉ hr_updated res') /\
  (forall n, n ∈ hr_skipped res' <-> exists o p, o ∈ commits /\ pr_for h o n p) /\ (forall n, n ∈ hr_unsubmitted res' <-> n ∈ hr_unsubmitted res).
Proof.
  intros U Dr. cbn zeta. intros Ok. destruct (plain_after e commits h U Dr) as (U' & Eq & Pr). specialize (Pr Ok).
  destruct (submit_plain e commits h U Dr) as [[V F L P K Q QK] Rep]. destruct (Rep Ok) as (L0 & L2 & _ & _ & _ & Un).
  set (h' := hr_hub (submit_hub e false false commits h)) in *.
  assert (Ns : forall o n p, ~ stale e commits h' o n p).
  { intros o n p (Ho & Hp & N). destruct (pr_for_view h h' o n V F) as [_ B]. destruct (B p Hp) as (q & _ & Hq & _). apply N. rewrite Eq.
    destruct Hp as (_ & _ & E). rewrite (Pr o n q Ho Hq) in E. injection E as <-. apply edited_twice. }
  assert (Sub : hr_hub (submit_hub e false false commits h') = h' /\ hr_ok (submit_hub e false false commits h') = true).
  { unfold submit_hub. destruct (query_hub e commits h') as [sts|] eqn:Eq'; [|unfold query_hub in Eq'; rewrite L0 in Eq'; discriminate]. cbn [andb negb].
    rewrite (stack_list_none e (having NeedsUpdate sts) h' 2); [auto| |exact L2]. intros o. destruct (having NeedsUpdate sts !! o) as [s|] eqn:Es; [|reflexivity].
    apply (changed_spec e commits h' sts U' Dr Eq') in Es as (n & p & x & S & _). now apply Ns in S. }
  destruct Sub as [S1 S2]. split; [exact S1|]. split; [exact S2|]. destruct (submit_plain e commits h' U' Dr) as [_ Rep']. destruct (Rep' S2) as (_ & _ & _ & Up & Sk & Un').
  split; [intros n H; apply Up in H as (o & p & S); now apply Ns in S|]. split.
  - intros n. rewrite Sk. split.
    + intros (o & p & Ho & Hp & _). destruct (pr_for_view h h' o n V F) as [_ B]. destruct (B p Hp) as (q & _ & Hq & _). eauto.
    + intros (o & p & Ho & Hp). destruct (pr_for_view h h' o n V F) as [A _]. destruct (A p Hp) as (q & _ & Hq & _). exists o, q. split_and!; auto.
      destruct (decide (edited (desc e h' o) q = q)) as [E|E]; [exact E|]. exfalso. apply (Ns o n q). split_and!; auto.
  - intros n. rewrite Un', Un. split; intros (o & Ho & Hn & Np); exists o; (split; [exact Ho|]); (split; [unfold at_commit in *; rewrite <- Hn; first [apply (sv_local _ _ V n)|symmetry; apply (sv_local _ _ V n)]|]).
    + intros p Hp. destruct (pr_for_view h h' o n V F) as [A _]. destruct (A p Hp) as (q & _ & Hq & _). now apply Np in Hq.
    + intros p Hp. destruct (pr_for_view h h' o n V F) as [_ B]. destruct (B p Hp) as (q & _ & Hq & _). now apply Np in Hq.
Qed.
