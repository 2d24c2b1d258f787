(** Proofs about submitting to GitHub. *)
From stdpp Require Import sorting pretty.
From Verif Require Import Base TextModel EventLogModel DagModel DagSpec DagProofs DagCompProofs ExecModel ExecAfterProofs StrProofs EventLogRefProofs SubmitModel SubmitSpec SubmitProofs GithubModel GithubSpec.
From Verif Require NavModel HideUndoProofs.
Local Open Scope string_scope.
Local Open Scope list_scope.

(** ** Names *)
Definition own (r : srepo) : Prop := forall n c, sr_config r !! n = Some c -> exists remote,
  c = mk_bc None (Some remote) (Some n) /\ plain_name remote /\ remote <> "." /\ is_Some (sr_remotes r !! remote).
Definition seen (r : srepo) (n : string) : Prop := exists remote v, pushes_to r n remote /\ sr_refs r !! tracking remote n = Some v.

Lemma option_ext {A} (x y : option A) : (forall a, x = Some a <-> y = Some a) -> x = y.
Proof. intros H. destruct x as [a|]; [symmetry; now apply H|]. destruct y as [b|]; [|reflexivity]. now apply H. Qed.
Lemma pushes_own r n remote : own r -> pushes_to r n remote -> sr_config r !! n = Some (mk_bc None (Some remote) (Some n)) /\ plain_name remote /\ remote <> "." /\ is_Some (sr_remotes r !! remote).
Proof.
  intros O (c & E & H). destruct (O n c E) as (x & -> & Pl & Nd & Is). cbn in H. destruct H as [H|[_ H]]; [discriminate|]. injection H as <-. auto.
Qed.
Lemma pushes_one r n a b : own r -> pushes_to r n a -> pushes_to r n b -> a = b.
Proof. intros O A B. destruct (pushes_own _ _ _ O A) as (X & _), (pushes_own _ _ _ O B) as (Y & _). congruence. Qed.
Lemma upstream_name_spec r n m : own r -> upstream_name r n = Some m <-> m = n /\ seen r n.
Proof.
  intros O. unfold upstream_name, seen. destruct (push_remote (sr_config r) n) as [p|] eqn:Ep.
  - pose proof (proj1 (push_remote_spec _ _ _) Ep) as P. destruct (pushes_own _ _ _ O P) as (Ec & Pl & Nd & Is). unfold upstream_at. rewrite Ec.
    rewrite (proj2 (String.eqb_neq _ _) Nd), bool_decide_true by exact Is. split.
    + destruct (sr_refs r !! tracking p n) as [v|] eqn:Ev; [|discriminate].
      intros H. injection H as H. rewrite (proj2 (strip_prefix_spec (p +:+ "/") (p +:+ "/" +:+ n) n)) in H.
      * split; [now rewrite <- H|]. exists p, v. auto.
      * now rewrite sapp_assoc.
    + intros (-> & x & v & Px & Ev). rewrite <- (pushes_one _ _ _ _ O P Px) in Ev. rewrite Ev.
      rewrite (proj2 (strip_prefix_spec (p +:+ "/") (p +:+ "/" +:+ n) n)); [reflexivity|]. now rewrite sapp_assoc.
  - split; [discriminate|]. intros (_ & x & v & Px & _). apply push_remote_spec in Px. congruence.
Qed.

(** ** The pull request of a commit *)
Lemma branch_here refs o b : b ∈ sorted_names (branches_at refs o) <-> exists n, b = local n /\ refs !! local n = Some o.
Proof.
  rewrite sorted_elem, HideUndoProofs.branches_at_spec, is_local_spec. split.
  - intros (H & n & ->). eauto.
  - intros (n & -> & H). eauto.
Qed.
Lemma branches_nodup refs o : NoDup (sorted_names (branches_at refs o)).
Proof. rewrite names_le_perm. unfold branches_at. apply nodup_filter. apply HideUndoProofs.nodup_keys. Qed.
Lemma single {A} (l : list A) x : NoDup l -> x ∈ l -> (forall y, y ∈ l -> y = x) -> l = [x].
Proof.
  intros ND Hx H. destruct l as [|a l]; [now apply elem_of_nil in Hx|]. rewrite (H a) in * by left. destruct l as [|b l]; [reflexivity|].
  exfalso. inversion ND as [|? ? N _]; subst. apply N. rewrite (H b) by (right; left). left.
Qed.
Lemma pr_at_spec refs r prs o p : own r -> (forall n, refs !! local n = sr_refs r !! local n) ->
  (forall n n', refs !! local n = Some o -> refs !! local n' = Some o -> n = n') ->
  pr_at refs r prs o = Some p <-> exists n, sr_refs r !! local n = Some o /\ seen r n /\ prs !! n = Some p.
Proof.
  intros O L One. unfold pr_at. split.
  - intros H. apply head_Some_elem_of in H. apply elem_of_list_omap in H as (b & Hb & H). apply branch_here in Hb as (n & -> & Hn).
    unfold pr_of_branch in H. rewrite suffix_local in H. rewrite L in Hn. rewrite Hn in H.
    destruct (upstream_name r n) as [m|] eqn:E; [|discriminate]. apply upstream_name_spec in E as [-> S]; [|exact O]. exists n. auto.
  - intros (n & Hn & S & Hp). assert (E : sorted_names (branches_at refs o) = [local n]).
    { apply single; [apply branches_nodup|apply branch_here; exists n; now rewrite L|]. intros y Hy. apply branch_here in Hy as (m & -> & Hm).
      f_equal. apply (One m n); [exact Hm|now rewrite L]. }
    rewrite E. cbn. unfold pr_of_branch. rewrite suffix_local, Hn. rewrite (proj2 (upstream_name_spec r n n O)) by auto. now rewrite Hp.
Qed.

Record same_view (r r' : srepo) : Prop := {
  sv_local : forall n, sr_refs r' !! local n = sr_refs r !! local n;
  sv_config : forall n, sr_config r' !! n = sr_config r !! n;
  sv_there : forall x, is_Some (sr_remotes r !! x) -> is_Some (sr_remotes r' !! x);
  sv_seen : forall n, seen r' n <-> seen r n }.
Lemma view_refl r : same_view r r.
Proof. constructor; auto. Qed.
Lemma view_trans r1 r2 r3 : same_view r1 r2 -> same_view r2 r3 -> same_view r1 r3.
Proof.
  intros [A B T C] [A' B' T' C']. constructor; auto.
  - intros n. now rewrite A'.
  - intros n. now rewrite B'.
  - intros n. now rewrite C'.
Qed.
Lemma own_view r r' : same_view r r' -> own r -> own r'.
Proof. intros V O n c E. rewrite (sv_config _ _ V) in E. destruct (O n c E) as (x & H1 & H2 & H3 & H4). exists x. split_and!; auto. now apply (sv_there _ _ V). Qed.
Lemma view_pushes r r' n x : same_view r r' -> pushes_to r' n x <-> pushes_to r n x.
Proof. intros V. unfold pushes_to. now rewrite (sv_config _ _ V). Qed.
Lemma pr_at_view refs r r' prs o : own r -> same_view r r' -> pr_at refs r' prs o = pr_at refs r prs o.
Proof.
  intros O V. unfold pr_at. f_equal. apply list_omap_ext. induction (sorted_names _) as [|b l IH]; [constructor|]. constructor; [|exact IH].
  unfold pr_of_branch. rewrite (sv_local _ _ V). destruct (sr_refs r !! local (NavModel.render_suffix b)); [|reflexivity].
  assert (upstream_name r' (NavModel.render_suffix b) = upstream_name r (NavModel.render_suffix b)) as ->; [|reflexivity].
  apply option_ext. intros m. rewrite !upstream_name_spec; [now rewrite (sv_seen _ _ V)|exact O|now apply (own_view r)].
Qed.

Lemma omap_ext {A B} (f g : A -> option B) (l : list A) : (forall x, f x = g x) -> omap f l = omap g l.
Proof. intros H. induction l as [|x l IH]; cbn; [reflexivity|]. now rewrite H, IH. Qed.
Lemma updated_view e refs r r' prs o : own r -> same_view r r' -> updated e refs r' prs o = updated e refs r prs o.
Proof.
  intros O V. unfold updated, stack_prs, base_of.
  rewrite (omap_ext (fun c => match pr_at refs r' prs c with Some p => Some (c, p) | None => None end) (fun c => match pr_at refs r prs c with Some p => Some (c, p) | None => None end))
    by (intros c; now rewrite (pr_at_view refs r r')).
  now rewrite (omap_ext (pr_at refs r' prs) (pr_at refs r prs)) by (intros c; now apply pr_at_view).
Qed.

(** ** Editing does not change what is said *)
Definition face (prs prs' : gmap string pull_request) : Prop :=
  forall m, match prs !! m, prs' !! m with Some p, Some q => same_request p q | None, None => True | _, _ => False end.
Lemma face_refl prs : face prs prs.
Proof. intros m. destruct (prs !! m); [|exact I]. unfold same_request. auto. Qed.
Lemma face_trans a b c : face a b -> face b c -> face a c.
Proof.
  intros F G m. specialize (F m). specialize (G m). destruct (a !! m), (b !! m), (c !! m); try tauto. unfold same_request in *. intuition congruence.
Qed.
Definition rel (x y : option pull_request) : Prop := match x, y with Some p, Some q => same_request p q | None, None => True | _, _ => False end.
Lemma pr_at_face refs r prs prs' o : face prs prs' -> rel (pr_at refs r prs o) (pr_at refs r prs' o).
Proof.
  intros F. unfold pr_at. induction (sorted_names _) as [|b l IH]; [exact I|]. cbn [omap list_omap].
  assert (R : rel (pr_of_branch r prs b) (pr_of_branch r prs' b)).
  { unfold pr_of_branch. destruct (sr_refs r !! _); [|exact I]. destruct (upstream_name r _) as [m|]; [|exact I]. exact (F m). }
  unfold rel in R. destruct (pr_of_branch r prs b), (pr_of_branch r prs' b); try contradiction; [exact R|exact IH].
Qed.
Lemma stack_face e refs r prs prs' o : face prs prs' ->
  Forall2 (fun x y => fst x = fst y /\ same_request (snd x) (snd y)) (stack_prs e refs r prs o) (stack_prs e refs r prs' o).
Proof.
  intros F. unfold stack_prs. induction (dag_sort _ _) as [|c l IH]; cbn [omap list_omap]; [constructor|].
  pose proof (pr_at_face refs r prs prs' c F) as R. unfold rel in R. destruct (pr_at refs r prs c), (pr_at refs r prs' c); try contradiction; [|exact IH].
  constructor; [|exact IH]. auto.
Qed.
Lemma updated_face e refs r prs prs' o : face prs prs' -> updated e refs r prs' o = updated e refs r prs o.
Proof.
  intros F. unfold updated. pose proof (stack_face e refs r prs prs' o F) as S.
  assert (B : base_of e refs r prs' o = base_of e refs r prs o).
  { unfold base_of. induction (rev _) as [|c l IH]; [reflexivity|]. cbn [omap list_omap].
    pose proof (pr_at_face refs r prs prs' c F) as R. unfold rel in R. destruct (pr_at refs r prs c), (pr_at refs r prs' c); try contradiction; [|exact IH].
    cbn. apply R. }
  rewrite B. f_equal.
  - unfold title_of. rewrite (Forall2_length _ _ _ S). f_equal. f_equal.
    assert (index_of o (stack_prs e refs r prs' o) = index_of o (stack_prs e refs r prs o)) as ->; [|reflexivity].
    induction S as [|[a p] [b q] l l' [Ea _] _ IH]; [reflexivity|]. cbn in Ea. subst b. cbn. now rewrite IH.
  - unfold body_of.
    assert (List.map (fun x => "* " +:+ pr_url (snd x) +:+ LF) (stack_prs e refs r prs' o) = List.map (fun x => "* " +:+ pr_url (snd x) +:+ LF) (stack_prs e refs r prs o)) as ->; [|reflexivity].
    induction S as [|[a p] [b q] l l' [_ (_ & Eu & _)] _ IH]; [reflexivity|]. cbn [List.map snd]. cbn in Eu. rewrite Eu. now rewrite IH.
Qed.

(** ** Editing *)
Lemma edited_same u p : same_request p (edited u p).
Proof. unfold same_request. auto. Qed.
Lemma edit_face number u prs : face prs (edit_pr number u prs).
Proof.
  intros m. unfold edit_pr. rewrite lookup_fmap. destruct (prs !! m) as [p|]; [|exact I]. cbn. destruct (N.eqb _ _); [apply edited_same|]. unfold same_request; auto.
Qed.
Definition distinct (prs : gmap string pull_request) : Prop := forall m p m' p', prs !! m = Some p -> prs !! m' = Some p' -> pr_number p = pr_number p' -> m = m'.
Lemma distinct_face prs prs' : face prs prs' -> distinct prs -> distinct prs'.
Proof.
  intros F D m p m' p' E E' H. pose proof (F m) as A. pose proof (F m') as A'. rewrite E in A. rewrite E' in A'.
  destruct (prs !! m) as [q|] eqn:Eq; [|contradiction]. destruct (prs !! m') as [q'|] eqn:Eq'; [|contradiction].
  apply (D m q m' q' Eq Eq'). destruct A as [A _], A' as [A' _]. congruence.
Qed.
Lemma edit_at prs m p u : distinct prs -> prs !! m = Some p -> forall m', edit_pr (pr_number p) u prs !! m' = if decide (m' = m) then Some (edited u p) else prs !! m'.
Proof.
  intros D E m'. unfold edit_pr. rewrite lookup_fmap. destruct (decide (m' = m)) as [->|N].
  - rewrite E. cbn. now rewrite N.eqb_refl.
  - destruct (prs !! m') as [q|] eqn:Eq; [|reflexivity]. cbn. destruct (N.eqb_spec (pr_number q) (pr_number p)) as [H|_]; [|reflexivity].
    exfalso. apply N. now apply (D m' q m p).
Qed.

(** ** Updating *)
Lemma update_one se s n remote r r' ok : hs_remote s = Some remote -> hs_local s = Some n -> plain_name remote ->
  SubmitModel.update se [plain_status s] r = (r', ok) ->
  pushed se WithLease (fun x m => x = remote /\ m = n) r r' /\ (ok = true -> pushed_ok se WithLease (fun x m => x = remote /\ m = n) r r').
Proof.
  intros Hr Hl Pl. unfold SubmitModel.update. cbn [flat_map plain_status cs_remote cs_local]. rewrite Hr, Hl. cbn [app]. intros H.
  assert (Eq : forall x m, in_groups (by_remote [(remote, n)]) x m <-> x = remote /\ m = n).
  { intros x m. rewrite in_by_remote, elem_of_list_singleton. split; [intros H'; now injection H'|now intros [-> ->]]. }
  assert (Pln : forall x q, (x, q) ∈ by_remote [(remote, n)] -> plain_name x).
  { apply (groups_plain _ [(remote, n)]); [|reflexivity]. intros x m Hx. apply elem_of_list_singleton in Hx. now injection Hx as -> _. }
  destruct (push_all_spec _ _ _ _ _ Pln H) as [P O]. split.
  - apply (pushed_mono _ _ (in_groups (by_remote [(remote, n)]))); [|exact P]. intros x m. apply Eq.
  - intros Ok. destruct (O Ok) as [X Y Z]. constructor.
    + intros x m Hx. apply (X x m). now apply Eq.
    + intros x m o Hx. apply (Y x m o). now apply Eq.
    + intros x m Hh. discriminate.
Qed.
Lemma push_view se r r' n remote : own r -> pushes_to r n remote -> seen r n -> pushed se WithLease (fun x m => x = remote /\ m = n) r r' -> same_view r r'.
Proof.
  intros O P S Pu.
  assert (C : forall m, sr_config r' !! m = sr_config r !! m).
  { intros m. destruct (pu_config _ _ _ _ _ Pu m) as [H|[H _]]; [exact H|discriminate]. }
  assert (Ps : forall m x, pushes_to r' m x <-> pushes_to r m x) by (intros m x; unfold pushes_to; now rewrite C).
  constructor; [|exact C|exact (pu_present _ _ _ _ _ Pu)|].
  - intros m. now apply (pushed_local _ _ _ _ _ m Pu).
  - intros m. split.
    + intros (x & v & Px & E). apply Ps in Px. destruct (pu_refs _ _ _ _ _ Pu (tracking x m)) as [H|(y & k & o & (-> & ->) & Nd & T & _)].
      * exists x, v. split; [exact Px|congruence].
      * apply tracking_inj in T as [-> ->]; [exact S|now apply (pushes_own r m x)|now apply (pushes_own r n remote)].
    + intros (x & v & Px & E). exists x. destruct (pu_refs _ _ _ _ _ Pu (tracking x m)) as [H|(y & k & o & (-> & ->) & Nd & T & E' & _)].
      * exists v. split; [now apply Ps|congruence].
      * exists o. split; [now apply Ps|exact E'].
Qed.

Section update.
Context (e : hub_env) (refs : gmap refname oid) (prs0 : gmap string pull_request) (statuses : gmap oid hub_status) (r0 : srepo).
Definition sound : Prop := forall o s, statuses !! o = Some s -> exists n remote,
  hs_local s = Some n /\ hs_upstream s = Some n /\ hs_remote s = Some remote /\ sr_refs r0 !! local n = Some o /\ pushes_to r0 n remote /\ seen r0 n /\ is_Some (prs0 !! n).
Definition branch_of (o : oid) (m : string) : Prop := exists s, statuses !! o = Some s /\ hs_local s = Some m.
Definition todo (l : list oid) (x m : string) : Prop := exists o, o ∈ l /\ branch_of o m /\ pushes_to r0 m x.
Hypothesis O : own r0.
Hypothesis D : distinct prs0.
Hypothesis S : sound.
Lemma branch_once o o' m : branch_of o m -> branch_of o' m -> o = o'.
Proof.
  intros (s & Es & Hs) (s' & Es' & Hs'). destruct (S _ _ Es) as (n & x & H1 & _ & _ & H2 & _), (S _ _ Es') as (n' & x' & H1' & _ & _ & H2' & _). congruence.
Qed.
Lemma branch_one o m m' : branch_of o m -> branch_of o m' -> m = m'.
Proof. intros (s & Es & Hs) (s' & Es' & Hs'). congruence. Qed.
Record updates (l : list oid) (h h' : hub) (ok : bool) : Prop := {
  ud_view : same_view r0 (hb_repo h');
  ud_face : face prs0 (hb_prs h');
  ud_last : hb_last h' = hb_last h;
  ud_pushed : pushed (he_submit e) WithLease (todo l) (hb_repo h) (hb_repo h');
  ud_pushed_ok : ok = true -> pushed_ok (he_submit e) WithLease (todo l) (hb_repo h) (hb_repo h');
  ud_prs : forall m, hb_prs h' !! m = hb_prs h !! m \/ exists o, o ∈ l /\ branch_of o m /\ hb_prs h' !! m = edited (updated e refs r0 prs0 o) <$> hb_prs h !! m;
  ud_prs_ok : ok = true -> forall o m, o ∈ l -> branch_of o m -> hb_prs h' !! m = edited (updated e refs r0 prs0 o) <$> hb_prs h !! m }.
Lemma todo_plain l x m : todo l x m -> plain_name x.
Proof. intros (o & _ & _ & P). now apply (pushes_own r0 m x). Qed.
Lemma updates_skip o l h h' ok : statuses !! o = None -> updates l h h' ok -> updates (o :: l) h h' ok.
Proof.
  intros E [V F L P K Q QK].
  assert (Nb : forall m, ~ branch_of o m) by (intros m (s & Es & _); congruence).
  assert (Eq : forall x m, todo (o :: l) x m <-> todo l x m).
  { intros x m. unfold todo. split; intros (c & Hc & Hb & Hp); exists c; (split; [|auto]).
    - apply elem_of_cons in Hc as [->|Hc]; [now apply Nb in Hb|exact Hc].
    - now right. }
  constructor; auto.
  - apply (pushed_mono _ _ (todo l)); [intros x m; apply Eq|exact P].
  - intros Ok. destruct (K Ok) as [X Y Z]. constructor.
    + intros x m Hx. apply (X x m). now apply Eq.
    + intros x m c Hx. apply (Y x m c). now apply Eq.
    + discriminate.
  - intros m. destruct (Q m) as [H|(c & Hc & H)]; [now left|right; exists c; split; [now right|exact H]].
  - intros Ok c m Hc Hb. apply QK; auto. apply elem_of_cons in Hc as [->|Hc]; [now apply Nb in Hb|exact Hc].
Qed.
Lemma update_each_spec l h h' ok : NoDup l -> same_view r0 (hb_repo h) -> face prs0 (hb_prs h) ->
  update_each e refs prs0 statuses l h = (h', ok) -> updates l h h' ok.
Proof.
  revert h. induction l as [|o l IH]; intros h ND V F; cbn [update_each].
  { intros H. injection H as <- <-. constructor; auto using pushed_refl.
    - intros _. constructor; [| |discriminate]; intros x m; unfold todo; intros; exfalso.
      + destruct H as (o & Ho & _). now apply elem_of_nil in Ho.
      + destruct H as (c & Ho & _). now apply elem_of_nil in Ho.
    - intros _ o m H. now apply elem_of_nil in H. }
  inversion ND as [|? ? No ND']; subst. destruct (statuses !! o) as [s|] eqn:Es.
  2: { intros H. apply updates_skip; [exact Es|]. now apply IH. }
  destruct (S o s Es) as (n & remote & Hl & Hu & Hr & Hn & Pn & Sn & [p Hp]). rewrite Hu, Hp.
  destruct (SubmitModel.update (he_submit e) [plain_status s] (hb_repo h)) as [r1 ok1] eqn:E1.
  destruct (pushes_own _ _ _ O Pn) as (_ & Pl & _).
  destruct (update_one _ _ _ _ _ _ _ Hr Hl Pl E1) as [P1 K1].
  assert (Ov := own_view _ _ V O). assert (V1 : same_view (hb_repo h) r1).
  { apply (push_view (he_submit e) _ _ n remote); auto; [now apply (view_pushes _ _ n remote V)|now apply (sv_seen _ _ V)]. }
  assert (V01 := view_trans _ _ _ V V1).
  assert (Bo : branch_of o n) by (exists s; auto).
  assert (To : forall x m, x = remote /\ m = n -> todo (o :: l) x m) by (intros x m [-> ->]; exists o; split; [left|auto]).
  assert (Stop : updates (o :: l) h (set_repo r1 h) false).
  { constructor; cbn; auto; try discriminate. now apply (pushed_mono _ _ _ _ _ _ To). }
  destruct ok1; [|intros H; injection H as <- <-; exact Stop].
  destruct (he_edit_ok e (pr_number p)); [|intros H; injection H as <- <-; exact Stop].
  set (u := updated e refs (hb_repo h) prs0 o). assert (Eu : u = updated e refs r0 prs0 o) by (now apply updated_view).
  set (h1 := mk_hub r1 (edit_pr (pr_number p) u (hb_prs h)) (hb_last h)). intros H.
  assert (F1 : face prs0 (hb_prs h1)) by (apply (face_trans _ (hb_prs h)); [exact F|apply edit_face]).
  destruct (IH h1 ND' V01 F1 H) as [V2 F2 L2 P2 K2 Q2 QK2].
  assert (Hm : exists p', hb_prs h !! n = Some p' /\ pr_number p' = pr_number p).
  { specialize (F n). rewrite Hp in F. destruct (hb_prs h !! n) as [p'|]; [|contradiction]. exists p'. split; [reflexivity|apply F]. }
  destruct Hm as (p' & Hp' & En).
  assert (E : forall m, hb_prs h1 !! m = if decide (m = n) then edited u <$> hb_prs h !! m else hb_prs h !! m).
  { intros m. unfold h1. cbn. rewrite <- En. rewrite (edit_at _ n p'); [|now apply (distinct_face prs0)|exact Hp'].
    destruct (decide (m = n)) as [->|]; [now rewrite Hp'|reflexivity]. }
  assert (Nl : forall c, c ∈ l -> ~ branch_of c n) by (intros c Hc Hb; rewrite (branch_once _ _ _ Hb Bo) in Hc; contradiction).
  assert (Eq : forall x m, (x = remote /\ m = n) \/ todo l x m <-> todo (o :: l) x m).
  { intros x m. split.
    - intros [H'|(c & Hc & H')]; [now apply To|exists c; split; [now right|exact H']].
    - intros (c & Hc & Hb & Hq). apply elem_of_cons in Hc as [->|Hc]; [left|right; exists c; auto].
      rewrite (branch_one _ _ _ Hb Bo) in *. split; [|reflexivity]. now apply (pushes_one r0 n). }
  assert (Pln : forall x m, (x = remote /\ m = n) \/ todo l x m -> plain_name x).
  { intros x m [[-> _]|H']; [exact Pl|now apply todo_plain in H']. }
  constructor; auto.
  - apply (pushed_mono _ _ (fun x m => (x = remote /\ m = n) \/ todo l x m)); [intros x m; apply Eq|]. now apply (pushed_trans (he_submit e) WithLease _ _ (hb_repo h) r1).
  - intros Ok. pose proof (pushed_ok_trans (he_submit e) WithLease _ _ (hb_repo h) r1 (hb_repo h') Pln P1 P2 (K1 eq_refl) (K2 Ok)) as [X Y Z]. constructor; [| |discriminate].
    + intros x m Hx. apply (X x m). now apply Eq.
    + intros x m c Hx. apply (Y x m c). now apply Eq.
  - intros m. destruct (decide (m = n)) as [->|N].
    + right. exists o. split; [left|]. split; [exact Bo|]. destruct (Q2 n) as [->|(c & Hc & Hb & _)]; [|now apply Nl in Hb].
      rewrite E, decide_True by reflexivity. now rewrite Eu.
    + specialize (E m). rewrite decide_False in E by exact N. destruct (Q2 m) as [Q|(c & Hc & Hb & Q)]; [left; congruence|]. right. exists c. split; [now right|]. split; [exact Hb|]. congruence.
  - intros Ok c m Hc Hb. apply elem_of_cons in Hc as [->|Hc].
    + assert (m = n) as -> by (now apply (branch_one o)). destruct (Q2 n) as [->|(c & Hc' & Hb' & _)]; [|now apply Nl in Hb'].
      rewrite E, decide_True by reflexivity. now rewrite Eu.
    + rewrite (QK2 Ok c m Hc Hb). f_equal. rewrite E. destruct (decide (m = n)) as [->|]; [now apply Nl in Hb|reflexivity].
Qed.
End update.

(** ** The statuses *)
Lemma local_branches_spec refs n : n ∈ local_branches refs <-> is_Some (refs !! local n).
Proof.
  unfold local_branches. rewrite elem_of_list_In, in_map_iff. setoid_rewrite <- elem_of_list_In. setoid_rewrite sorted_elem.
  assert (K : forall b, b ∈ List.filter is_local (List.map fst (map_to_list refs)) <-> is_local b = true /\ is_Some (refs !! b)).
  { intros b. rewrite elem_of_list_In, filter_In, in_map_iff. split.
    - intros (((b' & v) & E & H) & L). cbn in E. subst b'. apply elem_of_list_In, elem_of_map_to_list in H. eauto.
    - intros (L & v & H). split; [|exact L]. exists (b, v). split; [reflexivity|]. now apply elem_of_list_In, elem_of_map_to_list. }
  setoid_rewrite K. split.
  - intros (b & <- & L & H). apply is_local_spec in L as (m & ->). now rewrite suffix_local.
  - intros H. exists (local n). split; [apply suffix_local|]. split; [apply is_local_spec; eauto|exact H].
Qed.
Lemma usual_own e h : usual e h -> own (hb_repo h).
Proof. intros U n c E. now apply (us_own _ _ U). Qed.

Section query.
Context (e : hub_env) (commits : commit_set) (h : hub).
Hypothesis U : usual e h.
Hypothesis Dr : drafts e commits.
Let r := hb_repo h.
Let none := mk_hs Unsubmitted None None None.
Lemma one_branch n n' o : o ∈ commits -> sr_refs r !! local n = Some o -> sr_refs r !! local n' = Some o -> n = n'.
Proof. intros Ho H H'. apply (us_one _ _ U n n' o); [exact H|exact H'|apply (Dr o Ho)]. Qed.
Lemma branches_fold l : forall (m : gmap oid hub_status) o,
  (forall n, n ∈ l -> sr_refs r !! local n = Some o -> o ∈ commits -> fold_left (with_branch_status e commits h) l m !! o = Some (status_with e h n o)) /\
  ((forall n, n ∈ l -> sr_refs r !! local n = Some o -> o ∉ commits) -> fold_left (with_branch_status e commits h) l m !! o = m !! o).
Proof.
  induction l as [|n l IH]; intros m o; cbn [fold_left].
  { split; [intros n H; now apply elem_of_nil in H|reflexivity]. }
  destruct (IH (with_branch_status e commits h m n) o) as [A B]. split.
  - intros n' Hn Hr Hc. destruct (decide (Exists (fun x => sr_refs r !! local x = Some o) l)) as [Ex|Nx].
    + apply Exists_exists in Ex as (x & Hx & Ex). rewrite (A x Hx Ex Hc). now rewrite (one_branch x n' o).
    + apply elem_of_cons in Hn as [->|Hn]; [|exfalso; apply Nx, Exists_exists; eauto].
      rewrite B by (intros x Hx Ex _; apply Nx, Exists_exists; eauto). unfold with_branch_status. fold r. rewrite Hr, decide_True by exact Hc. apply lookup_insert.
  - intros H. rewrite B by (intros x Hx; apply H; now right). unfold with_branch_status. fold r. destruct (sr_refs r !! local n) as [c|] eqn:E; [|reflexivity].
    destruct (decide (c ∈ commits)) as [Hc|]; [|reflexivity]. rewrite lookup_insert_ne; [reflexivity|]. intros ->. apply (H n); [left|exact E|exact Hc].
Qed.
Lemma rest_fold l : forall (m : gmap oid hub_status) o, fold_left or_unsubmitted l m !! o = match m !! o with Some s => Some s | None => if decide (o ∈ l) then Some none else None end.
Proof.
  induction l as [|c l IH]; intros m o; cbn [fold_left].
  { destruct (m !! o); [reflexivity|]. rewrite decide_False; [reflexivity|apply not_elem_of_nil]. }
  rewrite IH. unfold or_unsubmitted. destruct (m !! c) as [s|] eqn:Ec.
  - destruct (m !! o) as [t|] eqn:Eo; [reflexivity|]. destruct (decide (o ∈ l)) as [H|H]; [rewrite decide_True; [reflexivity|now right]|].
    rewrite decide_False; [reflexivity|]. intros H'. apply elem_of_cons in H' as [->|H']; congruence.
  - destruct (decide (o = c)) as [->|N].
    + rewrite lookup_insert, Ec, decide_True by left. reflexivity.
    + rewrite lookup_insert_ne by congruence. destruct (m !! o); [reflexivity|]. destruct (decide (o ∈ l)) as [H|H]; [rewrite decide_True; [reflexivity|now right]|].
      rewrite decide_False; [reflexivity|]. intros H'. apply elem_of_cons in H' as [->|H']; congruence.
Qed.
Lemma query_lookup sts : query_hub e commits h = Some sts -> forall o s, sts !! o = Some s <->
  o ∈ commits /\ ((exists n, sr_refs r !! local n = Some o /\ s = status_with e h n o) \/ ((forall n, sr_refs r !! local n <> Some o) /\ s = none)).
Proof.
  unfold query_hub. destruct (he_lists e 0); [|discriminate]. intros H. injection H as <-. intros o s. rewrite rest_fold.
  destruct (branches_fold (local_branches (sr_refs (hb_repo h))) ∅ o) as [A B]. destruct (decide (o ∈ commits)) as [Hc|Hc].
  - destruct (decide (Exists (fun x => sr_refs r !! local x = Some o) (local_branches (sr_refs (hb_repo h))))) as [Ex|Nx].
    + apply Exists_exists in Ex as (n & Hn & En). rewrite (A n Hn En Hc). split.
      * intros H. injection H as <-. split; [exact Hc|]. left. eauto.
      * intros (_ & [(n' & En' & ->)|[No _]]); [now rewrite (one_branch n n' o)|now apply No in En].
    + assert (No : forall n, sr_refs r !! local n <> Some o).
      { intros n En. apply Nx, Exists_exists. exists n. split; [|exact En]. apply local_branches_spec. fold r. rewrite En. eauto. }
      rewrite B by (intros n _ En; now apply No in En). rewrite lookup_empty, decide_True by (now apply elem_of_elements). split.
      * intros H. injection H as <-. split; [exact Hc|]. right. auto.
      * intros (_ & [(n & En & _)|[_ ->]]); [now apply No in En|reflexivity].
  - rewrite B by auto. rewrite lookup_empty, decide_False by (rewrite elem_of_elements; exact Hc). split; [discriminate|]. now intros [? _].
Qed.
Definition desc (o : oid) : pr_update := updated e (sr_refs r) r (hb_prs h) o.
Lemma no_fields u p : fields_to_update u p = [] <-> edited u p = p.
Proof.
  unfold fields_to_update, edited. destruct u as [a b c d], p as [n url hn q w x y]; cbn. split.
  - destruct (decide (q = a)), (decide (w = b)), (decide (x = c)), (decide (y = d)); try discriminate. intros _. congruence.
  - intros H. injection H as -> -> -> ->. now rewrite !decide_True by reflexivity.
Qed.
Lemma status_cases n o : sr_refs r !! local n = Some o ->
  ((exists p remote, pr_for h o n p /\ pushes_to r n remote /\ status_with e h n o = mk_hs (if decide (edited (desc o) p = p) then UpToDate else NeedsUpdate) (Some remote) (Some n) (Some n)) \/
   ((forall p, ~ pr_for h o n p) /\ exists x y, status_with e h n o = mk_hs Unsubmitted x (Some n) y)).
Proof.
  intros Hn. pose proof (usual_own _ _ U) as O. fold r in O. unfold status_with. fold r.
  destruct (upstream_name r n) as [m|] eqn:Eu.
  - apply upstream_name_spec in Eu as [-> Sn]; [|exact O]. destruct (hb_prs h !! n) as [p|] eqn:Ep.
    + left. destruct Sn as (remote & v & Px & Ev). exists p, remote. split; [split; [exact Hn|]; split; [exists remote, v; auto|exact Ep]|]. split; [exact Px|].
      rewrite (proj2 (push_remote_spec _ _ _) Px). f_equal. fold (desc o). destruct (fields_to_update (desc o) p) eqn:Ef.
      * rewrite decide_True; [reflexivity|]. now apply no_fields.
      * rewrite decide_False; [reflexivity|]. intros H. apply no_fields in H. congruence.
    + right. split; [intros p (_ & _ & H); congruence|]. eauto.
  - right. split; [|eauto]. intros p (_ & Sn & _). assert (upstream_name r n = Some n) by (apply upstream_name_spec; [exact O|]; split; [reflexivity|exact Sn]). congruence.
Qed.
End query.

(** ** Orders *)
Section orders.
Context {A : Type}.
Implicit Types (R : A -> A -> Prop) (l : list A).
Lemma ss_split R l l1 a l2 b l3 : StronglySorted R l -> l = l1 ++ a :: l2 ++ b :: l3 -> R a b.
Proof.
  intros S. revert l1. induction S as [|x l S IH F]; intros l1 E; [destruct l1; discriminate|]. destruct l1 as [|y l1]; cbn in E; injection E as -> E.
  - rewrite E in F. apply Forall_app in F as [_ F]. now apply Forall_inv in F.
  - now apply (IH l1).
Qed.
Lemma ss_of_split R l : (forall l1 a l2 b l3, l = l1 ++ a :: l2 ++ b :: l3 -> R a b) -> StronglySorted R l.
Proof.
  induction l as [|x l IH]; intros H; constructor.
  - apply IH. intros l1 a l2 b l3 ->. apply (H (x :: l1) a l2 b l3). reflexivity.
  - apply Forall_forall. intros y Hy. apply elem_of_list_split in Hy as (l2 & l3 & ->). apply (H [] x l2 y l3). reflexivity.
Qed.
Lemma ss_lookup R l i j a b : StronglySorted R l -> l !! i = Some a -> l !! j = Some b -> i < j -> R a b.
Proof.
  intros S. revert i j. induction S as [|x l S IH F]; intros i j Ha Hb L; [discriminate|]. destruct j as [|j]; [lia|]. cbn in Hb. destruct i as [|i]; cbn in Ha.
  - injection Ha as <-. rewrite Forall_forall in F. apply F. now apply elem_of_list_lookup_2 in Hb.
  - apply (IH i j); auto. lia.
Qed.
Lemma ss_of_lookup R l : (forall i j a b, l !! i = Some a -> l !! j = Some b -> i < j -> R a b) -> StronglySorted R l.
Proof.
  induction l as [|x l IH]; intros H; constructor.
  - apply IH. intros i j a b Ha Hb L. apply (H (S i) (S j)); auto. lia.
  - apply Forall_forall. intros y Hy. apply elem_of_list_lookup in Hy as (j & Hy). apply (H 0 (S j)); auto. lia.
Qed.
Lemma ss_rev R l : StronglySorted R l -> StronglySorted (fun x y => R y x) (rev l).
Proof.
  intros S. apply ss_of_split. intros l1 a l2 b l3 E. apply (f_equal (@rev A)) in E. rewrite rev_involutive in E.
  apply (ss_split R l (rev l3) b (rev l2) a (rev l1) S). rewrite E. rewrite rev_app_distr. cbn. rewrite rev_app_distr. cbn. rewrite <- !app_assoc. reflexivity.
Qed.
End orders.
Lemma ss_omap {A B} (R : A -> A -> Prop) (f : A -> option B) (g : B -> A) l : (forall c x, f c = Some x -> g x = c) ->
  StronglySorted R l -> StronglySorted (fun x y => R (g x) (g y)) (omap f l).
Proof.
  intros Hf S. induction S as [|c l S IH F]; cbn [omap list_omap]; [constructor|]. destruct (f c) as [x|] eqn:E; [|exact IH]. constructor; [exact IH|].
  apply Forall_forall. intros y Hy. apply elem_of_list_omap in Hy as (d & Hd & Ey). rewrite (Hf _ _ E), (Hf _ _ Ey). rewrite Forall_forall in F. now apply F.
Qed.
Lemma head_omap {A B} (f : A -> option B) (l : list A) x : head (omap f l) = Some x -> exists l1 a l2, l = l1 ++ a :: l2 /\ f a = Some x /\ forall b, b ∈ l1 -> f b = None.
Proof.
  induction l as [|c l IH]; [discriminate|]. cbn [omap list_omap]. destruct (f c) as [y|] eqn:E.
  - intros H. injection H as <-. exists [], c, l. split_and!; auto. intros b Hb. now apply elem_of_nil in Hb.
  - intros H. destruct (IH H) as (l1 & a & l2 & -> & Ha & H1). exists (c :: l1), a, l2. split_and!; auto. intros b Hb. apply elem_of_cons in Hb as [->|Hb]; auto.
Qed.

(** ** What a pull request is made to say *)
Section says.
Context (e : hub_env) (h : hub).
Hypothesis U : usual e h.
Let r := hb_repo h.
Let d := he_dag e.
Let g := dag_graph d.
Let W : wf_graph g := us_graph _ _ U.
Lemma pr_at_here c p : ~ public d c -> pr_at (sr_refs r) r (hb_prs h) c = Some p <-> exists n, pr_for h c n p.
Proof.
  intros Np. rewrite pr_at_spec; [reflexivity|exact (usual_own _ _ U)|reflexivity|].
  intros n n' H H'. now apply (us_one _ _ U n n' c).
Qed.
Lemma stack_prs_listed o : stack_listed d h (in_stack d o) (stack_prs e (sr_refs r) r (hb_prs h) o).
Proof.
  unfold stack_prs. fold d. fold g. set (f := fun c => match pr_at (sr_refs r) r (hb_prs h) c with Some p => Some (c, p) | None => None end).
  assert (Hf : forall c x, f c = Some x -> fst x = c).
  { intros c x. unfold f. destruct (pr_at _ _ _ c); [|discriminate]. intros H. now injection H as <-. }
  assert (S : StronglySorted (fun x y => ~ proper_ancestor g (fst y) (fst x)) (omap f (dag_sort g (stack_commits d {[o]})))).
  { apply (ss_omap (fun x y => ~ proper_ancestor g y x) f fst); [exact Hf|]. apply ss_of_split. intros l1 a l2 b l3 E. now apply (dag_sort_order g _ _ _ _ _ _ W E). }
  assert (ND : NoDup (List.map fst (omap f (dag_sort g (stack_commits d {[o]}))))).
  { pose proof (dag_sort_nodup g (stack_commits d {[o]}) W) as N. clear S. induction N as [|c l Nc _ IH]; cbn [omap list_omap]; [constructor|].
    destruct (f c) as [x|] eqn:E; [|exact IH]. cbn [List.map]. rewrite (Hf _ _ E). constructor; [|exact IH]. intros H.
    apply elem_of_list_In, in_map_iff in H as (y & Ey & Hy). apply elem_of_list_In, elem_of_list_omap in Hy as (c' & Hc' & Ey'). rewrite (Hf _ _ Ey') in Ey. congruence. }
  constructor; [exact ND| |].
  - intros c p. rewrite elem_of_list_omap.
    assert (St : c ∈ dag_sort g (stack_commits d {[o]}) <-> in_stack d o c /\ c ∈ vertices g).
    { rewrite dag_sort_mem, (stack_spec d _ _ W). unfold in_stack. fold g. split.
      - intros ((a & x & Va & Pa & Hx & H1 & H2 & Vc & Pc) & Ve). apply elem_of_singleton in Hx as ->. split; [|exact Ve]. split_and!; auto. exists a. auto.
      - intros ((Vc & Pc & a & Va & Pa & H1 & H2) & Ve). split; [|exact Ve]. exists a, o. split_and!; auto. now apply elem_of_singleton. }
    split.
    + intros (c' & Hc & E). assert (c' = c) as -> by (now rewrite <- (Hf _ _ E)). apply St in Hc as [Hc _]. split; [exact Hc|]. unfold f in E.
      apply pr_at_here; [apply Hc|]. destruct (pr_at _ _ _ c); [|discriminate]. now injection E as ->.
    + intros (Hc & n & Hp). exists c. split.
      * apply St. split; [exact Hc|]. now apply (us_known _ _ U n c (proj1 Hp)).
      * unfold f. rewrite (proj2 (pr_at_here c p (proj1 (proj2 Hc)))); [reflexivity|eauto].
  - intros i j a b p q Ha Hb Hab. destruct (Nat.lt_trichotomy i j) as [L|[->|L]]; [exact L| |].
    + rewrite Ha in Hb. injection Hb as -> ->. now apply wf_acyclic in Hab.
    + exfalso. exact (ss_lookup _ _ j i _ _ S Hb Ha L Hab).
Qed.
Lemma index_of_lookup o l i p : NoDup (List.map fst l) -> l !! i = Some (o, p) -> index_of o l = Some (S i).
Proof.
  revert i. induction l as [|[c q] l IH]; intros i ND H; [discriminate|]. cbn [index_of List.map fst] in *. inversion ND as [|? ? Nc ND']; subst. destruct i as [|i]; cbn in H.
  - injection H as -> ->. now rewrite N.eqb_refl.
  - destruct (N.eqb_spec c o) as [->|_].
    + exfalso. apply Nc. apply elem_of_list_In, in_map_iff. exists (o, p). split; [reflexivity|]. apply elem_of_list_In. now apply elem_of_list_lookup_2 in H.
    + now rewrite (IH i ND' H).
Qed.
Lemma url_lines_concat l : String.concat "" (List.map (fun x : oid * pull_request => "* " +:+ pr_url (snd x) +:+ LF) l) = url_lines l.
Proof.
  induction l as [|[c p] l IH]; [reflexivity|]. cbn [List.map snd url_lines]. rewrite <- IH. destruct l as [|y l]; cbn [String.concat List.map].
  - rewrite (sapp_nil_r LF). reflexivity.
  - rewrite !sapp_assoc. reflexivity.
Qed.
Lemma desc_title o n p : in_stack d o o -> pr_for h o n p -> title_says e (stack_prs e (sr_refs r) r (hb_prs h) o) o (up_title (desc e h o)).
Proof.
  intros So Hp. destruct (stack_prs_listed o) as [ND A _]. assert (Hin : (o, p) ∈ stack_prs e (sr_refs r) r (hb_prs h) o) by (apply A; split; [exact So|eauto]). apply elem_of_list_lookup in Hin as [i Hi].
  exists i, p. split; [exact Hi|]. unfold desc. cbn [up_title updated]. fold r. unfold title_of. now rewrite (index_of_lookup _ _ _ _ ND Hi).
Qed.
Lemma desc_body o : body_says e (stack_prs e (sr_refs r) r (hb_prs h) o) o (up_body (desc e h o)).
Proof. unfold body_says, desc. cbn [up_body updated]. fold r. unfold body_of. now rewrite url_lines_concat. Qed.
Lemma below_spec o a : a ∈ only g {[o]} (main_branch_commit d) ∖ {[o]} <-> proper_ancestor g a o /\ ~ public d a.
Proof.
  unfold only. rewrite !elem_of_difference, elem_of_singleton, !(ancestors_spec g) by exact W. unfold public. fold g. split.
  - intros (((x & Hx & Ha) & Hp) & Ne). apply elem_of_singleton in Hx as ->. split; [|exact Hp]. apply rtc_inv in Ha as [->|(y & H1 & H2)]; [congruence|]. now apply tc_rtc_r with y; [apply tc_once|].
  - intros (Ha & Hp). split; [split; [|exact Hp]|].
    + exists o. split; [now apply elem_of_singleton|]. now apply tc_rtc.
    + intros ->. now apply wf_acyclic in Ha.
Qed.
Lemma desc_base (pick : bool) o : (if pick then newest_first e else oldest_first e) ->
  base_is e h (if pick then farthest e h o else nearest e h o) o (up_base (desc e h o)).
Proof.
  intros Or. unfold desc. cbn [up_base updated]. fold r. unfold base_of. fold d. fold g. set (s := only g {[o]} (main_branch_commit d) ∖ {[o]}).
  assert (La : lists_all e) by (destruct pick; apply Or). destruct (La s) as [ND In].
  assert (Bl : forall a p, below e h o a p <-> a ∈ rev (he_order e s) /\ pr_at (sr_refs r) r (hb_prs h) a = Some p).
  { intros a p. rewrite (elem_of_list_In (rev _)), <- in_rev, <- elem_of_list_In, In. unfold s. rewrite below_spec. unfold below. fold d. fold g. split.
    - intros (H1 & H2 & H3). split; [auto|]. now apply pr_at_here.
    - intros ((H1 & H2) & H3). split_and!; auto. now apply pr_at_here. }
  destruct (head _) as [p|] eqn:E.
  - left. apply head_omap in E as (l1 & a & l2 & E & Ha & H1). exists a, p. assert (Ba : below e h o a p).
    { apply Bl. split; [|exact Ha]. rewrite E. apply elem_of_app. right. left. }
    split; [exact Ba|]. split; [|reflexivity].
    assert (Later : forall b q, below e h o b q -> b = a \/ b ∈ l2).
    { intros b q Bb. apply Bl in Bb as [Hb Eb]. rewrite E in Hb. apply elem_of_app in Hb as [Hb|Hb]; [rewrite (H1 b Hb) in Eb; discriminate|]. now apply elem_of_cons in Hb. }
    assert (Sp : forall b, b ∈ l2 -> exists l3 l4, rev (he_order e s) = l1 ++ a :: l3 ++ b :: l4).
    { intros b Hb. apply elem_of_list_split in Hb as (l3 & l4 & ->). eauto. }
    destruct pick.
    + assert (Ss : StronglySorted (fun x y => ~ proper_ancestor g y x) (rev (he_order e s))).
      { apply (ss_rev (fun x y => ~ proper_ancestor g x y)). apply ss_of_lookup. intros i j x y Hx Hy L Pa. apply (proj2 Or s i j x y Hx Hy) in Pa. lia. }
      intros b q Bb Pa. fold d g in Pa. destruct (Later b q Bb) as [->|Hb]; [now apply wf_acyclic in Pa|]. destruct (Sp b Hb) as (l3 & l4 & Es).
      exact (ss_split _ _ _ _ _ _ _ Ss Es Pa).
    + assert (Ss : StronglySorted (fun x y => ~ proper_ancestor g x y) (rev (he_order e s))).
      { apply (ss_rev (fun x y => ~ proper_ancestor g y x)). apply ss_of_lookup. intros i j x y Hx Hy L Pa. apply (proj2 Or s j i y x Hy Hx) in Pa. lia. }
      intros b q Bb Pa. fold d g in Pa. destruct (Later b q Bb) as [->|Hb]; [now apply wf_acyclic in Pa|]. destruct (Sp b Hb) as (l3 & l4 & Es).
      exact (ss_split _ _ _ _ _ _ _ Ss Es Pa).
  - right. split; [|reflexivity]. intros a p Ba. apply Bl in Ba as [Ha Ea].
    assert (Hin : p ∈ omap (pr_at (sr_refs r) r (hb_prs h)) (rev (he_order e s))) by (apply elem_of_list_omap; eauto).
    destruct (omap _ (rev (he_order e s))); [now apply elem_of_nil in Hin|discriminate].
Qed.
End says.
