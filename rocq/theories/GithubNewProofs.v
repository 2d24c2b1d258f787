(** What submitting with [--create] does. *)
From stdpp Require Import sorting pretty.
From Verif Require Import Base TextModel EventLogModel DagModel DagSpec DagProofs DagCompProofs ExecModel ExecAfterProofs StrProofs EventLogRefProofs SubmitModel SubmitSpec SubmitProofs GithubModel GithubSpec GithubProofs GithubDoneProofs.
From Verif Require NavModel HideUndoProofs.
Local Open Scope string_scope.
Local Open Scope list_scope.

(** ** Names *)
Lemma fresh_spec r base tries : forall i n, (2 <= i)%N -> fresh_name tries (sr_refs r) base (candidate base (i - 1)) i = Some n <->
  exists k, (i - 1 <= k < i - 1 + N.of_nat tries)%N /\ n = candidate base k /\ ~ taken r n /\ forall j, (i - 1 <= j < k)%N -> taken r (candidate base j).
Proof.
  induction tries as [|tries IH]; intros i n Hi; cbn [fresh_name].
  { split; [discriminate|]. intros (k & H & _). lia. }
  destruct (sr_refs r !! local (candidate base (i - 1))) as [v|] eqn:E.
  - assert (Ec : base +:+ "-" +:+ pretty i = candidate base (i + 1 - 1)).
    { unfold candidate. rewrite decide_False by lia. now replace (i + 1 - 1)%N with i by lia. }
    rewrite Ec, IH by lia. split.
    + intros (k & H & Hn & Hf & Hj). exists k. split; [lia|]. split_and!; auto. intros j Hj'. destruct (decide (j = i - 1)%N) as [->|N].
      * unfold taken. change (is_Some (sr_refs r !! local (candidate base (i - 1)))). rewrite E. eauto.
      * apply Hj. lia.
    + intros (k & H & Hn & Hf & Hj). exists k. assert (k <> i - 1)%N.
      { intros ->. apply Hf. rewrite Hn. unfold taken. change (is_Some (sr_refs r !! local (candidate base (i - 1)))). rewrite E. eauto. }
      split; [lia|]. split_and!; auto. intros j Hj'. apply Hj. lia.
  - split.
    + intros H. injection H as <-. exists (i - 1)%N. split; [lia|]. split; [reflexivity|]. split.
      * intros [v H]. change (sr_refs r !! local (candidate base (i - 1)) = Some v) in H. congruence.
      * intros j Hj. lia.
    + intros (k & H & Hn & Hf & Hj). f_equal. rewrite Hn. destruct (decide (k = i - 1)%N) as [->|N]; [reflexivity|].
      exfalso. destruct (Hj (i - 1)%N) as [v Hv]; [lia|]. change (sr_refs r !! local (candidate base (i - 1)) = Some v) in Hv. congruence.
Qed.
Lemma new_branch_spec e user o r n r' : new_branch e user o r = Some (n, r') -> sr_refs r !! local n = None /\ r' = mk_srepo (<[local n := o]> (sr_refs r)) (sr_config r) (sr_remotes r).
Proof.
  unfold new_branch. set (base := user +:+ "/" +:+ _). destruct (fresh_name 5 (sr_refs r) base base 2) as [m|] eqn:E; [|discriminate]. destruct (he_branch_ok e m); [|discriminate].
  intros H. injection H as <- <-. split; [|reflexivity]. apply (fresh_spec r base 5 2 m) in E as (k & _ & _ & H & _); [|lia].
  destruct (sr_refs r !! local m) eqn:E; [|reflexivity]. exfalso. apply H. unfold taken. change (is_Some (sr_refs r !! local m)). rewrite E. eauto.
Qed.

(** ** New branches *)
Section branches.
Context (e : hub_env) (x : string).
Hypothesis Px : plain_name x.
Hypothesis Nx : x <> ".".
Let se := he_submit e.
Record branched (r r' : srepo) (new : list (oid * string)) : Prop := {
  br_own : own r';
  br_default : default_remote se r' = Some x;
  br_refs : forall b, sr_refs r' !! b = sr_refs r !! b \/
    (exists o n, (o, n) ∈ new /\ b = local n /\ sr_refs r !! b = None /\ sr_refs r' !! b = Some o /\ forall m, sr_refs r !! local m <> Some o) \/
    (exists o n, (o, n) ∈ new /\ b = tracking x n /\ sr_refs r' !! b = Some o);
  br_made : forall o n, (o, n) ∈ new -> sr_refs r' !! local n = Some o /\ pushes_to r' n x /\ sr_refs r' !! tracking x n = Some o /\ rb r' x n = Some o;
  br_config : forall n, (forall o, (o, n) ∉ new) -> sr_config r' !! n = sr_config r !! n;
  br_rb : forall y n, rb r' y n = rb r y n \/ (y = x /\ exists o, (o, n) ∈ new /\ rb r' y n = Some o) }.
Lemma branched_keeps r r' new n o : branched r r' new -> sr_refs r !! local n = Some o -> sr_refs r' !! local n = Some o.
Proof.
  intros B H. destruct (br_refs _ _ _ B (local n)) as [E|[(c & m & _ & _ & E & _)|(c & m & _ & E & _)]]; [congruence|congruence|now apply local_not_tracking in E].
Qed.
Lemma branched_refl r : own r -> default_remote se r = Some x -> branched r r [].
Proof. intros O D. constructor; auto. intros o n H. now apply elem_of_nil in H. Qed.
Lemma branched_trans r r1 r2 a b : branched r r1 a -> branched r1 r2 b -> branched r r2 (a ++ b).
Proof.
  intros A B. pose proof branched_keeps as K. constructor.
  - apply B.
  - apply B.
  - intros c. destruct (br_refs _ _ _ B c) as [E|[(o & n & H & Hc & E1 & E2 & Nm)|(o & n & H & Hc & E)]].
    + destruct (br_refs _ _ _ A c) as [E'|[(o & n & H & Hc & E1 & E2 & Nm)|(o & n & H & Hc & E')]]; [left; congruence| |].
      * right. left. exists o, n. split_and!; auto; [apply elem_of_app; auto|congruence].
      * right. right. exists o, n. split_and!; auto; [apply elem_of_app; auto|congruence].
    + right. left. exists o, n. split_and!; auto; [apply elem_of_app; auto| |].
      * destruct (sr_refs r !! c) as [v|] eqn:E; [|reflexivity]. rewrite Hc in E. apply (K _ _ _ _ _ A) in E. congruence.
      * intros m Hm. apply (K _ _ _ _ _ A) in Hm. now apply Nm in Hm.
    + right. right. exists o, n. split_and!; auto. apply elem_of_app; auto.
  - intros o n H. destruct (decide (Exists (fun q => snd q = n) b)) as [Ex|Ne].
    + apply Exists_exists in Ex as ([o' n'] & Hb & En). cbn in En. subst n'. destruct (br_made _ _ _ B o' n Hb) as (M1 & M2 & M3 & M4).
      assert (o' = o) as ->; [|auto]. apply elem_of_app in H as [H|H].
      * destruct (br_made _ _ _ A o n H) as (L & _). apply (K _ _ _ _ _ B) in L. congruence.
      * destruct (br_made _ _ _ B o n H) as (L & _). congruence.
    + assert (Nb : forall o', (o', n) ∉ b) by (intros o' Ho'; apply Ne, Exists_exists; exists (o', n); auto).
      apply elem_of_app in H as [H|H]; [|now apply Nb in H]. destruct (br_made _ _ _ A o n H) as (M1 & M2 & M3 & M4). split_and!.
      * now apply (K _ _ _ _ _ B).
      * unfold pushes_to. rewrite (br_config _ _ _ B n Nb). exact M2.
      * destruct (br_refs _ _ _ B (tracking x n)) as [E|[(c & m & _ & E & _)|(c & m & Hm & E & _)]]; [congruence|symmetry in E; now apply local_not_tracking in E|].
        apply tracking_same in E as <-. now apply Nb in Hm.
      * destruct (br_rb _ _ _ B x n) as [E|(_ & c & Hc & _)]; [congruence|now apply Nb in Hc].
  - intros n N. rewrite (br_config _ _ _ B n), (br_config _ _ _ A n); [reflexivity| |]; intros o Ho; apply (N o), elem_of_app; auto.
  - intros y n. destruct (br_rb _ _ _ B y n) as [E|(-> & o & Ho & E)]; [|right; split; [reflexivity|]; exists o; split; [apply elem_of_app; auto|exact E]].
    destruct (br_rb _ _ _ A y n) as [E'|(-> & o & Ho & E')]; [left; congruence|]. right. split; [reflexivity|]. exists o. split; [apply elem_of_app; auto|congruence].
Qed.

(** What may be said even after a failure. *)
Definition tried (given : oid -> Prop) (r r' : srepo) : Prop :=
  (forall n o, sr_refs r !! local n = Some o -> sr_refs r' !! local n = Some o) /\
  (forall n o, sr_refs r' !! local n = Some o -> sr_refs r !! local n = Some o \/ (sr_refs r !! local n = None /\ given o)) /\
  (forall y n, rb r' y n = rb r y n \/ exists o, given o /\ sr_refs r' !! local n = Some o /\ rb r' y n = Some o).
Lemma tried_refl given r : tried given r r.
Proof. unfold tried. auto. Qed.
Lemma tried_trans given r r1 r2 : tried given r r1 -> tried given r1 r2 -> tried given r r2.
Proof.
  intros (A1 & A2 & A3) (B1 & B2 & B3). split_and!; auto.
  - intros n o H. destruct (B2 n o H) as [H'|[N G]]; [auto|]. right. split; [|exact G]. destruct (sr_refs r !! local n) as [v|] eqn:E; [|reflexivity]. apply A1 in E. congruence.
  - intros y n. destruct (B3 y n) as [E|H]; [|right; exact H]. destruct (A3 y n) as [E'|(o & G & H & E')]; [left; congruence|]. right. exists o. split_and!; auto. congruence.
Qed.
Lemma push_new cs n r r' ok : default_remote se r = Some x -> cs_local cs = Some n -> SubmitModel.create se [cs] r = (r', ok) ->
  pushed se SetUpstream (fun y m => y = x /\ m = n) r r' /\ (ok = true -> pushed_ok se SetUpstream (fun y m => y = x /\ m = n) r r').
Proof.
  intros D L. unfold SubmitModel.create, names_of. rewrite D. cbn [omap list_omap]. rewrite L. change (sorted_names [n]) with [n]. intros H.
  destruct (git_push_spec _ _ _ _ _ _ _ Px H) as [P K].
  assert (Eq : forall y m, y = x /\ m ∈ [n] <-> y = x /\ m = n) by (intros y m; now rewrite elem_of_list_singleton). split.
  - now apply (pushed_mono _ _ _ _ _ _ (fun y m => proj1 (Eq y m))).
  - intros Ok. destruct (K Ok) as [X Y Z]. constructor.
    + intros y m Hy. apply (X y m). now apply Eq.
    + intros y m c Hy. apply (Y y m c). now apply Eq.
    + intros y m Hh Hy. destruct (Z y m Hh) as (y' & Hy' & E); [now apply Eq|]. exists y'. split; [now apply Eq|exact E].
Qed.
Lemma push_tried (given : oid -> Prop) n o r r' : sr_refs r !! local n = Some o -> given o -> pushed se SetUpstream (fun y m => y = x /\ m = n) r r' -> tried given r r'.
Proof.
  intros H G P. assert (L : forall m, sr_refs r' !! local m = sr_refs r !! local m) by (intros m; now apply (pushed_local _ _ _ _ _ m P)). split_and!.
  - intros m c. now rewrite L.
  - intros m c. rewrite L. auto.
  - intros y m. destruct (pu_remote _ _ _ _ _ P y m) as [E|((-> & ->) & _ & c & Hc & E & _)]; [now left|]. right. exists c. replace c with o in * by congruence. rewrite L. auto.
Qed.
Lemma push_branched n o r r' : own r -> default_remote se r = Some x -> sr_refs r !! local n = Some o ->
  pushed se SetUpstream (fun y m => y = x /\ m = n) r r' -> pushed_ok se SetUpstream (fun y m => y = x /\ m = n) r r' -> branched r r' [(o, n)].
Proof.
  intros O D H P K. assert (C : sr_config r' !! n = Some (mk_bc None (Some x) (Some n))).
  { destruct (pk_config _ _ _ _ _ K x n eq_refl (conj eq_refl eq_refl)) as (y & (-> & _) & E). rewrite E. do 2 f_equal.
    destruct (sr_config r !! n) as [c|] eqn:Ec; [|reflexivity]. now destruct (O n c Ec) as (z & -> & _). }
  assert (Co : forall m, m <> n -> sr_config r' !! m = sr_config r !! m).
  { intros m N. destruct (pu_config _ _ _ _ _ P m) as [E|(_ & y & (_ & ->) & _)]; [exact E|contradiction]. }
  destruct (pk_remote _ _ _ _ _ K x n o (conj eq_refl eq_refl) H Nx) as (R1 & R2 & R3). constructor.
  - intros m c Hc. destruct (decide (m = n)) as [->|N].
    + exists x. rewrite C in Hc. injection Hc as <-. auto.
    + rewrite (Co m N) in Hc. destruct (O m c Hc) as (y & H1 & H2 & H3 & H4). exists y. split_and!; auto. now apply (pu_present _ _ _ _ _ P).
  - unfold default_remote in *. destruct (decide (sv_main se = n)) as [En|N].
    + rewrite En. unfold push_remote. now rewrite C.
    + unfold push_remote in *. now rewrite (Co _ N).
  - intros b. destruct (pu_refs _ _ _ _ _ P b) as [E|(y & m & c & (-> & ->) & _ & -> & E & Hc & _)]; [now left|]. right. right. exists o, n. split; [left|]. split; [reflexivity|]. congruence.
  - intros c m Hm. apply elem_of_list_singleton in Hm. injection Hm as -> ->. split_and!; auto.
    + now rewrite (pushed_local _ _ _ _ _ n P).
    + exists (mk_bc None (Some x) (Some n)). split; [exact C|]. right. auto.
  - intros m Hm. apply Co. intros ->. apply (Hm o). left.
  - intros y m. destruct (pu_remote _ _ _ _ _ P y m) as [E|((-> & ->) & _ & c & Hc & E & _)]; [now left|]. right. split; [reflexivity|]. exists o. split; [left|]. congruence.
Qed.

(** The branches there should be for the statuses given. *)
Definition fits (r : srepo) (l : list (oid * hub_status)) : Prop := forall o s, (o, s) ∈ l ->
  match hs_local s with Some n => sr_refs r !! local n = Some o | None => forall n, sr_refs r !! local n <> Some o end.
Lemma create_branches_spec user (given : oid -> Prop) l : forall r made0 r' om, own r -> default_remote se r = Some x -> NoDup (List.map fst l) -> fits r l ->
  (forall o s, (o, s) ∈ l -> given o) ->
  create_branches e user l r made0 = (r', om) ->
  tried given r r' /\
  forall made, om = Some made -> exists new, made = made0 ++ new /\ List.map fst new = List.map fst l /\ branched r r' new /\
    forall o n s, (o, n) ∈ new -> (o, s) ∈ l -> hs_local s = Some n \/ (hs_local s = None /\ sr_refs r !! local n = None).
Proof.
  induction l as [|[o s] l IH]; intros r made0 r' om O D ND Ft G; cbn [create_branches].
  { intros H. injection H as <- <-. split; [apply tried_refl|]. intros made H. injection H as <-. exists []. rewrite app_nil_r. split_and!; auto; [now apply branched_refl|].
    intros o n s H. now apply elem_of_nil in H. }
  inversion ND as [|? ? No ND']; subst. pose proof (Ft o s (elem_of_list_here _ _)) as Fo. pose proof (G o s (elem_of_list_here _ _)) as Go.
  assert (St : forall n r1, (hs_local s = Some n /\ r1 = r \/ hs_local s = None /\ sr_refs r !! local n = None /\ r1 = mk_srepo (<[local n := o]> (sr_refs r)) (sr_config r) (sr_remotes r)) ->
    sr_refs r1 !! local n = Some o /\ own r1 /\ default_remote se r1 = Some x /\ tried given r r1 /\
    (forall r2, branched r1 r2 [(o, n)] -> branched r r2 [(o, n)])).
  { intros n r1 [[El ->]|(El & Fr & ->)]; rewrite El in Fo.
    - split_and!; auto using tried_refl.
    - assert (La : forall m, m <> n -> <[local n:=o]> (sr_refs r) !! local m = sr_refs r !! local m).
      { intros m N. apply lookup_insert_ne. intros E. apply local_inj in E. congruence. }
      split_and!; auto.
      + apply lookup_insert.
      + split_and!; cbn; auto.
        * intros m c Hm. rewrite La; [exact Hm|]. intros ->. congruence.
        * intros m c. destruct (decide (m = n)) as [->|N]; [|rewrite La by exact N; auto]. rewrite lookup_insert. intros H. injection H as <-. auto.
      + intros r2 B. constructor; try apply B.
        intros b. destruct (br_refs _ _ _ B b) as [E|[(c & m & Hm & -> & E & _)|H]]; [| |now right; right].
          -- cbn in E. destruct (decide (b = local n)) as [->|N]; [|left; now rewrite lookup_insert_ne in E by congruence].
             rewrite lookup_insert in E. right. left. exists o, n. split; [left|]. split_and!; auto.
          -- apply elem_of_list_singleton in Hm. injection Hm as -> ->. cbn in E. rewrite lookup_insert in E. discriminate. }
  destruct (match hs_local s with Some n => Some (n, r) | None => new_branch e user o r end) as [[n r1]|] eqn:En.
  2: { intros H. injection H as <- <-. split; [apply tried_refl|discriminate]. }
  assert (Cs : hs_local s = Some n /\ r1 = r \/ hs_local s = None /\ sr_refs r !! local n = None /\ r1 = mk_srepo (<[local n := o]> (sr_refs r)) (sr_config r) (sr_remotes r)).
  { destruct (hs_local s) as [m|]; [left; split; congruence|]. right. split; [reflexivity|]. now apply (new_branch_spec e user). }
  destruct (St n r1 Cs) as (H1 & O1 & D1 & T1 & B1).
  destruct (SubmitModel.create (he_submit e) _ r1) as [r2 ok] eqn:Ec. destruct (push_new (mk_cs (hs_status s) (hs_remote s) (Some n)) n r1 r2 ok D1 eq_refl Ec) as [P K].
  assert (T2 : tried given r r2) by (apply (tried_trans _ _ r1); [exact T1|now apply (push_tried given n o)]).
  destruct ok; [|intros H; injection H as <- <-; split; [exact T2|discriminate]].
  assert (B2 : branched r r2 [(o, n)]) by (apply B1; now apply push_branched, K).
  assert (Ft2 : fits r2 l).
  { intros c t Hc. pose proof (Ft c t (elem_of_list_further _ _ _ Hc)) as F. destruct (hs_local t) as [m|]; [now apply (branched_keeps _ _ _ _ _ B2)|].
    intros m Hm. destruct (br_refs _ _ _ B2 (local m)) as [E|[(c' & m' & Hm' & E0 & _ & E & _)|(c' & m' & _ & E & _)]]; [apply (F m); congruence| |now apply local_not_tracking in E].
    apply elem_of_list_singleton in Hm'. injection Hm' as -> ->. assert (c = o) as -> by congruence. apply No. apply elem_of_list_In, in_map_iff. exists (o, t). split; [reflexivity|now apply elem_of_list_In]. }
  intros H. destruct (IH r2 (made0 ++ [(o, n)]) r' om (br_own _ _ _ B2) (br_default _ _ _ B2) ND' Ft2 (fun c t Hc => G c t (elem_of_list_further _ _ _ Hc)) H) as [T3 M].
  split; [now apply (tried_trans _ _ r2)|]. intros made Em. destruct (M made Em) as (new & -> & Ef & B3 & Ls). exists ((o, n) :: new). rewrite <- app_assoc. cbn [app List.map fst].
  split; [reflexivity|]. split; [now rewrite Ef|]. split; [now apply (branched_trans _ r2 _ [(o, n)])|].
  assert (Nl : forall t, (o, t) ∉ l) by (intros t Ht; apply No, elem_of_list_In, in_map_iff; exists (o, t); split; [reflexivity|now apply elem_of_list_In]).
  assert (Nn : forall m, (o, m) ∉ new).
  { intros m Hm. apply No. rewrite <- Ef. apply elem_of_list_In, in_map_iff. exists (o, m). split; [reflexivity|now apply elem_of_list_In]. }
  intros c m t Hm Ht. apply elem_of_cons in Hm as [Hm|Hm].
  - injection Hm as -> ->. apply elem_of_cons in Ht as [Ht|Ht]; [|now apply Nl in Ht]. injection Ht as ->. destruct Cs as [[Cs _]|(Cs & Cf & _)]; auto.
  - apply elem_of_cons in Ht as [Ht|Ht]; [injection Ht as -> ->; now apply Nn in Hm|]. destruct (Ls c m t Hm Ht) as [L|[L F]]; [now left|]. right. split; [exact L|].
    destruct (sr_refs r !! local m) as [v|] eqn:Ev; [|reflexivity]. apply (branched_keeps _ _ _ _ _ B2) in Ev. congruence.
Qed.
End branches.

(** ** New pull requests *)
Lemma branched_seen e x r r' new n : plain_name x -> own r -> branched e x r r' new -> (forall o, (o, n) ∉ new) -> seen r' n <-> seen r n.
Proof.
  intros Pl O B N. unfold seen, pushes_to. rewrite (br_config _ _ _ _ _ B n N). split; intros (y & v & Py & E); exists y, v; (split; [exact Py|]).
  - destruct (br_refs _ _ _ _ _ B (tracking y n)) as [E'|[(o & m & _ & Et & _)|(o & m & Hm & Et & _)]]; [congruence|symmetry in Et; now apply local_not_tracking in Et|].
    apply tracking_inj in Et as [-> ->]; [now apply N in Hm| |exact Pl]. apply (pushes_own r n y O). exact Py.
  - destruct (br_refs _ _ _ _ _ B (tracking y n)) as [E'|[(o & m & _ & Et & _)|(o & m & Hm & Et & _)]]; [congruence|symmetry in Et; now apply local_not_tracking in Et|].
    apply tracking_inj in Et as [-> ->]; [now apply N in Hm| |exact Pl]. apply (pushes_own r n y O). exact Py.
Qed.
Lemma usual_branched e x h r' new : plain_name x -> usual e h -> branched e x (hb_repo h) r' new -> NoDup (List.map fst new) ->
  (forall o n, (o, n) ∈ new -> o ∈ vertices (dag_graph (he_dag e))) -> usual e (set_repo r' h).
Proof.
  intros Pl U B ND G.
  assert (Ct : forall n o, sr_refs r' !! local n = Some o -> sr_refs (hb_repo h) !! local n = Some o \/ ((o, n) ∈ new /\ forall m, sr_refs (hb_repo h) !! local m <> Some o)).
  { intros n o H. destruct (br_refs _ _ _ _ _ B (local n)) as [E|[(c & m & Hm & E & _ & E' & N)|(c & m & _ & E & _)]]; [left; congruence| |now apply local_not_tracking in E].
    apply local_inj in E as ->. right. replace o with c by congruence. auto. }
  constructor.
  - apply U.
  - exact (br_own _ _ _ _ _ B).
  - intros n o H. destruct (Ct n o H) as [H'|[H' _]]; [now apply (us_known _ _ U n o)|now apply (G o n)].
  - intros n [c Hc]. cbn in Hc. destruct (decide (Exists (fun q => snd q = n) new)) as [Ex|Ne].
    + apply Exists_exists in Ex as ([o n'] & H & E). cbn in E. subst n'. exists o. now apply (br_made _ _ _ _ _ B o n).
    + assert (N : forall o, (o, n) ∉ new) by (intros o Ho; apply Ne, Exists_exists; exists (o, n); auto).
      rewrite (br_config _ _ _ _ _ B n N) in Hc. destruct (us_here _ _ U n) as [o Ho]; [rewrite Hc; eauto|]. exists o. now apply (branched_keeps e x (hb_repo h) r' new n o B).
  - intros n n' o H H' Np. destruct (Ct n o H) as [E|[E N]], (Ct n' o H') as [E'|[E' N']].
    + now apply (us_one _ _ U n n' o).
    + now apply N' in E.
    + now apply N in E'.
    + clear -ND E E'. induction new as [|[c m] new IH]; [now apply elem_of_nil in E|]. cbn in ND. inversion ND as [|? ? Nc ND']; subst.
      assert (Hn : forall k, (c, k) ∉ new) by (intros k Hk; apply Nc, elem_of_list_In, in_map_iff; exists (c, k); split; [reflexivity|now apply elem_of_list_In]).
      apply elem_of_cons in E, E'. destruct E as [E|E], E' as [E'|E']; try congruence; auto.
      * injection E as -> ->. now apply Hn in E'.
      * injection E' as -> ->. now apply Hn in E.
  - intros m p. apply (us_keyed _ _ U).
  - intros m p m' p'. apply (us_numbers _ _ U).
  - intros m p. apply (us_last _ _ U).
Qed.
Lemma usual_new_pr e o n h : usual e h -> hb_prs h !! n = None -> usual e (new_pr e o n h).
Proof.
  intros U N. constructor; try apply U; unfold new_pr; cbn.
  - intros m p. rewrite lookup_insert_Some. intros [[<- <-]|[_ H]]; [reflexivity|now apply (us_keyed _ _ U)].
  - intros m p m' p'. rewrite !lookup_insert_Some. intros [[<- <-]|[Nm H]] [[<- <-]|[Nm' H']]; cbn; auto.
    + apply (us_last _ _ U) in H'. lia.
    + apply (us_last _ _ U) in H. lia.
    + now apply (us_numbers _ _ U).
  - intros m p. rewrite lookup_insert_Some. intros [[<- <-]|[_ H]]; cbn; [lia|]. apply (us_last _ _ U) in H. lia.
Qed.
Lemma create_prs_spec e l : forall h h' ok, usual e h -> NoDup (List.map snd l) -> (forall o n, (o, n) ∈ l -> hb_prs h !! n = None) -> create_prs e l h = (h', ok) ->
  usual e h' /\ hb_repo h' = hb_repo h /\ (hb_last h <= hb_last h')%N /\ (forall m, (forall o, (o, m) ∉ l) -> hb_prs h' !! m = hb_prs h !! m) /\
  (forall m p, hb_prs h !! m = Some p -> hb_prs h' !! m = Some p) /\
  (ok = true -> forall o n, (o, n) ∈ l -> exists p, hb_prs h' !! n = Some p /\ (hb_last h < pr_number p)%N).
Proof.
  induction l as [|[o n] l IH]; intros h h' ok U ND N; cbn [create_prs].
  { intros H. injection H as <- <-. split_and!; auto; try lia. intros _ o n H. now apply elem_of_nil in H. }
  cbn in ND. inversion ND as [|? ? Nn ND']; subst. destruct (he_new_ok e n).
  2: { intros H. injection H as <- <-. split_and!; auto; try lia; discriminate. }
  assert (Ne : forall c m, (c, m) ∈ l -> m <> n).
  { intros c m H ->. apply Nn, elem_of_list_In, in_map_iff. exists (c, n). split; [reflexivity|now apply elem_of_list_In]. }
  assert (Fr : hb_prs h !! n = None) by (apply (N o n); left).
  intros H. destruct (IH (new_pr e o n h) h' ok (usual_new_pr _ _ _ _ U Fr) ND') as (U' & R & L & P & Q & K); [|exact H|].
  { intros c m Hm. cbn. rewrite lookup_insert_ne; [apply (N c m); now right|]. intros E. symmetry in E. now apply Ne in Hm. }
  cbn in R, L, K. split_and!; auto.
  - lia.
  - intros m Hm. rewrite P; [cbn; apply lookup_insert_ne; intros ->; apply (Hm o); left|]. intros c Hc. apply (Hm c). now right.
  - intros m p Hm. apply Q. cbn. rewrite lookup_insert_ne; [exact Hm|]. intros ->. congruence.
  - intros Ok c m Hm. apply elem_of_cons in Hm as [Hm|Hm].
    + injection Hm as -> ->. eexists. split; [apply Q; cbn; apply lookup_insert|]. cbn. lia.
    + destruct (K Ok c m Hm) as (p & Hp & Hl). exists p. split; [exact Hp|lia].
Qed.

(** ** With [--create] *)
Lemma hub_remote_spec e h x : pushes_new_to e h x -> hub_remote e (hb_repo h) = Some x /\ default_remote (he_submit e) (hb_repo h) = Some x.
Proof.
  intros (D & _ & _ & R). apply default_remote_spec in D. split; [|exact D]. unfold hub_remote.
  destruct R as [(l & l' & -> & H)|H].
  - induction l as [|y l IH]; cbn [app find]; [cbn; now rewrite bool_decide_true|]. rewrite bool_decide_false by (apply H; left). apply IH. intros z Hz. apply H. now right.
  - assert (List.find (fun x => bool_decide (snd x = Some "base")) (he_resolved e) = None) as ->; [|exact D].
    induction (he_resolved e) as [|y l IH]; [reflexivity|]. cbn. rewrite bool_decide_false by (apply H; left). apply IH. intros z Hz. apply H. now right.
Qed.
Section create.
Context (e : hub_env) (commits : commit_set) (h : hub) (x : string).
Hypothesis U : usual e h.
Hypothesis Dr : drafts e commits.
Hypothesis Rh : requests_here h.
Hypothesis Pn : pushes_new_to e h x.
Let without (o : oid) : Prop := o ∈ commits /\ forall n p, ~ pr_for h o n p.
(** What is known after the first part, with the branches and names of commits that had no pull
    request. *)
Record created (h3 : hub) (new : list (oid * string)) : Prop := {
  cd_usual : usual e h3;
  cd_new : forall o, without o <-> exists n, (o, n) ∈ new;
  cd_there : forall o n, (o, n) ∈ new -> exists p q, pr_for h3 o n p /\ p = edited (desc e h3 o) q /\ (hb_last h < pr_number p)%N /\ rb (hb_repo h3) x n = Some o;
  cd_name : forall o n, (o, n) ∈ new -> hb_prs h !! n = None /\ (at_commit h n o \/ ((forall m, ~ at_commit h m o) /\ ~ taken (hb_repo h) n));
  cd_branches : forall n o, at_commit h n o -> at_commit h3 n o;
  cd_only : forall n o, at_commit h3 n o -> at_commit h n o \/ (o, n) ∈ new;
  cd_config : forall n, (forall o, (o, n) ∉ new) -> sr_config (hb_repo h3) !! n = sr_config (hb_repo h) !! n;
  cd_seen : forall n, (forall o, (o, n) ∉ new) -> on_remote h3 n <-> on_remote h n;
  cd_prs : forall n, (forall o, (o, n) ∉ new) -> hb_prs h3 !! n = hb_prs h !! n }.
Lemma fmap_map {A B} (f : A -> B) l : f <$> l = List.map f l.
Proof. induction l as [|a l IH]; [reflexivity|]. cbn. now rewrite <- IH. Qed.
Lemma to_create_spec sts o s : usual e h -> (o, s) ∈ to_create e sts <-> sts !! o = Some s /\ hs_status s = Unsubmitted /\ o ∈ vertices (dag_graph (he_dag e)).
Proof.
  intros _. unfold to_create. rewrite elem_of_list_omap. setoid_rewrite dag_sort_mem. split.
  - intros (c & (_ & V) & E). destruct (sts !! c) as [t|] eqn:Ec; [|discriminate]. destruct (decide _) as [D|]; [|discriminate]. injection E as -> ->. auto.
  - intros (E & D & V). exists o. split; [split; [apply elem_of_dom; rewrite E; eauto|exact V]|]. rewrite E. now rewrite decide_True.
Qed.
Lemma to_create_nodup sts : NoDup (List.map fst (to_create e sts)).
Proof.
  unfold to_create. pose proof (dag_sort_nodup (dag_graph (he_dag e)) (dom sts) (us_graph _ _ U)) as N.
  set (f := fun o => match sts !! o with Some s => if decide (hs_status s = Unsubmitted) then Some (o, s) else None | None => None end).
  assert (Hf : forall c y, f c = Some y -> fst y = c).
  { intros c y. unfold f. destruct (sts !! c); [|discriminate]. destruct (decide _); [|discriminate]. intros H. now injection H as <-. }
  induction N as [|c l Nc _ IH]; cbn [omap list_omap]; [constructor|]. destruct (f c) as [y|] eqn:E; [|exact IH]. cbn [List.map]. rewrite (Hf _ _ E). constructor; [|exact IH]. intros H.
  apply elem_of_list_In, in_map_iff in H as (z & Ez & Hz). apply elem_of_list_In, elem_of_list_omap in Hz as (c' & Hc' & Ez'). rewrite (Hf _ _ Ez') in Ez. congruence.
Qed.
Lemma snd_nodup (r : srepo) (new : list (oid * string)) : NoDup (List.map fst new) -> (forall o n, (o, n) ∈ new -> sr_refs r !! local n = Some o) -> NoDup (List.map snd new).
Proof.
  intros ND H. induction new as [|[o n] new IH]; [constructor|]. cbn in *. inversion ND as [|? ? No ND']; subst. constructor.
  - intros Hn. apply elem_of_list_In, in_map_iff in Hn as ([c m] & E & Hc). cbn in E. subst m. apply elem_of_list_In in Hc.
    assert (c = o) as -> by (assert (H1 := H o n (elem_of_list_here _ _)); assert (H2 := H c n (elem_of_list_further _ _ _ Hc)); congruence).
    apply No, elem_of_list_In, in_map_iff. exists (o, n). split; [reflexivity|now apply elem_of_list_In].
  - apply IH; [exact ND'|]. intros c m Hc. apply H. now right.
Qed.
Lemma refreshed_tried (which : oid -> string -> Prop) (given : oid -> Prop) a b ok : refreshed e which a b ok ->
  (forall o n, which o n -> at_commit a n o /\ given o) -> tried given (hb_repo a) (hb_repo b).
Proof.
  intros R H. assert (L := sv_local _ _ (re_view _ _ _ _ _ R)). split_and!.
  - intros n o. now rewrite L.
  - intros n o. rewrite L. auto.
  - intros y n. destruct (pu_remote _ _ _ _ _ (re_pushed _ _ _ _ _ R) y n) as [E|(((c & Hc) & _) & _ & o & Ho & E & _)]; [now left|]. right.
    destruct (H c n Hc) as [A G]. assert (c = o) as -> by (unfold at_commit in A; unfold local in Ho; congruence). exists o. rewrite L. auto.
Qed.
Lemma create_hub_spec sts h3 om : query_hub e commits h = Some sts -> create_hub e (having Unsubmitted sts) h = (h3, om) ->
  tried (fun o => o ∈ commits) (hb_repo h) (hb_repo h3) /\ (forall m p, hb_prs h !! m = Some p -> hb_prs h3 !! m = Some p) /\
  (forall m p, hb_prs h3 !! m = Some p -> hb_prs h !! m = None -> exists o, o ∈ commits /\ at_commit h3 m o) /\
  forall names, om = Some names -> exists new, created h3 new /\ names = List.map snd new.
Proof.
  intros Q. destruct (hub_remote_spec e h x Pn) as [Rm D]. destruct Pn as (_ & Pl & Nd & _). unfold create_hub. rewrite Rm.
  destruct (he_user e) as [user|]; [|intros H; injection H as <- <-; split_and!; auto using tried_refl; [congruence|discriminate]].
  set (l := to_create e (having Unsubmitted sts)).
  assert (Ls : forall o s, (o, s) ∈ l <-> o ∈ commits /\ hs_status s = Unsubmitted /\
    ((exists n, at_commit h n o /\ (forall p, ~ pr_for h o n p) /\ s = status_with e h n o /\ hs_local s = Some n) \/ ((forall n, ~ at_commit h n o) /\ s = mk_hs Unsubmitted None None None))).
  { intros o s. unfold l. rewrite (to_create_spec _ _ _ U), having_lookup, (statuses_spec e commits h sts U Dr Q). split.
    - intros ((( Ho & [(n & p & y & Hp & _ & ->)|[(n & H1 & H2 & H3 & H4 & H5)|(H1 & H2)]]) & Hs) & _).
      + cbn in Hs. destruct (decide _); discriminate.
      + split_and!; auto. left. eauto 10.
      + split_and!; auto.
    - intros (Ho & Hs & Hc). split; [split; [split; [exact Ho|]|exact Hs]|split; [exact Hs|apply (Dr o Ho)]].
      destruct Hc as [(n & H1 & H2 & H3 & H4)|(H1 & H2)]; right; [left; exists n|right]; auto. }
  assert (Ft : fits (hb_repo h) l).
  { intros o s H. apply Ls in H as (_ & _ & [(n & H1 & _ & _ & ->)|(H1 & ->)]); [exact H1|exact H1]. }
  destruct (create_branches e user l (hb_repo h) []) as [r1 om1] eqn:Ec.
  destruct (create_branches_spec e x Pl Nd user (fun o => o ∈ commits) l (hb_repo h) [] r1 om1 (usual_own _ _ U) D (to_create_nodup _) Ft) as [T1 M]; [|exact Ec|].
  { intros o s H. apply Ls in H as (H & _). exact H. }
  destruct om1 as [made|]; [|intros H; injection H as <- <-; split_and!; auto; [cbn; congruence|discriminate]].
  destruct (M made eq_refl) as (new & -> & Ef & B & Nm). clear M. cbn [app].
  assert (NDf : NoDup (List.map fst new)) by (rewrite Ef; apply to_create_nodup).
  assert (Inn : forall o, (exists n, (o, n) ∈ new) <-> exists s, (o, s) ∈ l).
  { intros o. assert (E : (exists n, (o, n) ∈ new) <-> o ∈ List.map fst new).
    { rewrite elem_of_list_In, in_map_iff. split; [intros (n & H); exists (o, n); split; [reflexivity|now apply elem_of_list_In]|intros ([c n] & E & H); cbn in E; subst c; exists n; now apply elem_of_list_In]. }
    rewrite E, Ef, elem_of_list_In, in_map_iff. split; [intros ([c n] & E' & H); cbn in E'; subst c; exists n; now apply elem_of_list_In|intros (n & H); exists (o, n); split; [reflexivity|now apply elem_of_list_In]]. }
  assert (Inc : forall o n, (o, n) ∈ new -> o ∈ commits).
  { intros o n H. destruct (proj1 (Inn o)) as [s Hs]; [eauto|]. apply Ls in Hs as (H' & _). exact H'. }
  assert (Name : forall o n, (o, n) ∈ new -> (at_commit h n o /\ forall p, ~ pr_for h o n p) \/ ((forall m, ~ at_commit h m o) /\ ~ taken (hb_repo h) n)).
  { intros o n H. destruct (proj1 (Inn o)) as [s Hs]; [eauto|]. destruct (Nm o n s H Hs) as [Hl|[Hl Fr]]; apply Ls in Hs as (Ho & Hst & [(m & H1 & H2 & H3 & H4)|(H1 & H2)]); subst s; try (cbn in *; congruence).
    - left. replace n with m by congruence. auto.
    - right. split; [exact H1|]. intros [v Hv]. unfold local in Fr. congruence. }
  assert (Fresh : forall o n, (o, n) ∈ new -> hb_prs h !! n = None).
  { intros o n H. destruct (hb_prs h !! n) as [p|] eqn:E; [|reflexivity]. exfalso. destruct (Rh n p E) as (c & Hc). destruct (Name o n H) as [[H1 H2]|[H1 H2]].
    - apply (H2 p). replace o with c; [exact Hc|]. destruct Hc as (Hc & _). unfold at_commit in *. congruence.
    - apply H2. destruct Hc as (Hc & _). unfold taken, at_commit in *. rewrite Hc. eauto. }
  assert (U1 : usual e (set_repo r1 h)).
  { apply (usual_branched e x h r1 new Pl U B NDf). intros o n H. apply (Dr o). now apply (Inc o n). }
  assert (NDs : NoDup (List.map snd new)) by (apply (snd_nodup r1); [exact NDf|intros o n H; now apply (br_made _ _ _ _ _ B o n)]).
  destruct (create_prs e new (set_repo r1 h)) as [h2 ok2] eqn:E2. destruct (create_prs_spec e new (set_repo r1 h) h2 ok2 U1 NDs Fresh E2) as (U2 & R2 & L2 & P2 & K2 & N2). cbn in R2, L2, P2, K2, N2.
  assert (Only2 : forall m p, hb_prs h2 !! m = Some p -> hb_prs h !! m = None -> exists o, (o, m) ∈ new).
  { intros m p Hp Hn. destruct (decide (Exists (fun q => snd q = m) new)) as [Ex|Ne].
    - apply Exists_exists in Ex as ([c m'] & H & E). cbn in E. subst m'. eauto.
    - rewrite P2 in Hp; [congruence|]. intros o Ho. apply Ne, Exists_exists. exists (o, m). auto. }
  assert (At2 : forall o n, (o, n) ∈ new -> at_commit h2 n o).
  { intros o n H. unfold at_commit. rewrite R2. now apply (br_made _ _ _ _ _ B o n). }
  destruct ok2.
  2: { intros H. injection H as <- <-. rewrite R2. split_and!; auto; [|discriminate]. intros m p Hp Hn. destruct (Only2 m p Hp Hn) as [o Ho]. exists o. split; [now apply (Inc o m)|now apply At2]. }
  destruct (update_hub e 1 (list_to_map (List.map (created_status x) new)) h2) as [h4 ok4] eqn:E4.
  assert (R : refreshed e (fun o n => (o, n) ∈ new) h2 h4 ok4).
  { apply (update_hub_spec e 1 (list_to_map (List.map (created_status x) new))); [exact U2| | |exact E4].
    - intros o s. rewrite <- elem_of_list_to_map.
      + rewrite elem_of_list_In, in_map_iff. split.
        * intros ([c n] & E & H). unfold created_status in E. cbn in E. injection E as -> <-. apply elem_of_list_In in H. exists n, x. split_and!; auto. rewrite R2. now apply (br_made _ _ _ _ _ B o n).
        * intros (n & y & H & Py & ->). exists (o, n). split; [|now apply elem_of_list_In]. unfold created_status. cbn. do 2 f_equal. f_equal.
          apply (pushes_one r1 n); [exact (br_own _ _ _ _ _ B)|now apply (br_made _ _ _ _ _ B o n)|now rewrite <- R2].
      + rewrite fmap_map, map_map. cbn. exact NDf.
    - intros o n H. destruct (br_made _ _ _ _ _ B o n H) as (M1 & M2 & M3 & M4). split; [apply (Dr o); now apply (Inc o n)|]. split; [now apply At2|]. split.
      + exists x, o. rewrite R2. auto.
      + destruct (N2 eq_refl o n H) as (p & Hp & _). rewrite Hp. eauto. }
  destruct R as [V4 F4 L4 P4 K4 Q4 QK4].
  assert (T4 : tried (fun o => o ∈ commits) (hb_repo h) (hb_repo h4)).
  { apply (tried_trans _ _ r1); [exact T1|]. rewrite <- R2. apply (refreshed_tried (fun o n => (o, n) ∈ new) _ h2 h4 ok4); [now constructor|].
    intros o n H. split; [now apply At2|now apply (Inc o n)]. }
  assert (Keep4 : forall m p, hb_prs h !! m = Some p -> hb_prs h4 !! m = Some p).
  { intros m p H. destruct (Q4 m) as [E|(o & Ho & _)]; [rewrite E; auto|]. apply Fresh in Ho. congruence. }
  assert (At4 : forall n o, at_commit h4 n o <-> at_commit h2 n o).
  { intros n o. unfold at_commit. split; intros H; rewrite <- H; [symmetry|]; apply (sv_local _ _ V4 n). }
  assert (Only4 : forall m p, hb_prs h4 !! m = Some p -> hb_prs h !! m = None -> exists o, o ∈ commits /\ at_commit h4 m o).
  { intros m p Hp Hn. specialize (F4 m). rewrite Hp in F4. destruct (hb_prs h2 !! m) as [q|] eqn:Eq; [|contradiction]. destruct (Only2 m q Eq Hn) as [o Ho].
    exists o. split; [now apply (Inc o m)|]. now apply At4, At2. }
  destruct ok4; intros H; injection H as <- <-; (split_and!; auto); [|discriminate]. intros names H. injection H as <-. exists new. split; [|reflexivity].
  assert (U4 : usual e h4) by (now apply (usual_view e h2)).
  assert (Ap : forall n o, at_commit h4 n o -> at_commit h n o \/ (o, n) ∈ new).
  { intros n o H. apply At4 in H. unfold at_commit in H. rewrite R2 in H. destruct (br_refs _ _ _ _ _ B (local n)) as [E|[(c & m & Hm & E & _ & E' & _)|(c & m & _ & E & _)]].
    - left. unfold at_commit. rewrite <- H. symmetry. exact E.
    - right. apply local_inj in E as ->. replace o with c; [exact Hm|]. unfold local in *. congruence.
    - now apply local_not_tracking in E. }
  constructor; auto.
  - intros o. unfold without. rewrite Inn. setoid_rewrite Ls. split.
    + intros (Ho & Np). assert (Cs : (exists n, at_commit h n o) \/ forall n, ~ at_commit h n o).
      { destruct (decide (Exists (fun n => sr_refs (hb_repo h) !! local n = Some o) (local_branches (sr_refs (hb_repo h))))) as [Ex|Ne].
        - left. apply Exists_exists in Ex as (n & _ & H). exists n. exact H.
        - right. intros n H. apply Ne, Exists_exists. exists n. split; [|exact H]. apply local_branches_spec. change (sr_refs (hb_repo h) !! local n = Some o) in H. rewrite H. eauto. }
      destruct Cs as [(n & Hn)|Nn].
      * destruct (status_cases e h U n o Hn) as [(p & y & Hp & _)|(_ & y & z & E)]; [now apply Np in Hp|]. exists (status_with e h n o). rewrite E. split_and!; auto. left. exists n. rewrite E. split_and!; auto.
      * exists (mk_hs Unsubmitted None None None). split_and!; auto.
    + intros (s & Ho & Hs & [(n & Hn & Np & _)|(Nn & _)]); (split; [exact Ho|]); intros m p Hp.
      * assert (m = n) as -> by (apply (us_one _ _ U m n o); [apply Hp|exact Hn|apply (Dr o Ho)]). now apply Np in Hp.
      * destruct Hp as (Hp & _). now apply Nn in Hp.
  - intros o n H. destruct (N2 eq_refl o n H) as (p & Hp & Hl). destruct (br_made _ _ _ _ _ B o n H) as (M1 & M2 & M3 & M4).
    assert (E : hb_prs h4 !! n = Some (edited (desc e h2 o) p)) by (rewrite (QK4 eq_refl o n H), Hp; reflexivity).
    exists (edited (desc e h2 o) p), p. unfold pr_for. split_and!.
    + now apply At4, At2.
    + apply (sv_seen _ _ V4 n). rewrite R2. exists x, o. auto.
    + exact E.
    + f_equal. symmetry. apply desc_same; [exact (usual_own _ _ U2)|exact V4|exact F4].
    + exact Hl.
    + apply (pk_remote _ _ _ _ _ (K4 eq_refl) x n o); [split; [eauto|now rewrite R2]|rewrite R2; exact M1|exact Nd].
  - intros o n H. split; [now apply (Fresh o n)|]. destruct (Name o n H) as [[H1 _]|H1]; auto.
  - intros n o H. apply At4. unfold at_commit. rewrite R2. now apply (branched_keeps e x (hb_repo h) r1 new n o B).
  - intros n H. rewrite (sv_config _ _ V4), R2. now apply (br_config _ _ _ _ _ B).
  - intros n H. transitivity (seen r1 n); [rewrite <- R2; apply (sv_seen _ _ V4 n)|]. exact (branched_seen e x (hb_repo h) r1 new n Pl (usual_own _ _ U) B H).
  - intros n H. destruct (Q4 n) as [E|(o & Ho & _)]; [rewrite E; now apply P2|now apply H in Ho].
Qed.
Lemma submit_new : let res := submit_hub e true false commits h in let h' := hr_hub res in
  tried (fun o => o ∈ commits) (hb_repo h) (hb_repo h') /\
  (forall m p, hb_prs h !! m = Some p -> exists p', hb_prs h' !! m = Some p' /\ same_request p p' /\ (p' = p \/ exists o, o ∈ commits /\ at_commit h m o)) /\
  (forall m p, hb_prs h' !! m = Some p -> hb_prs h !! m = None -> exists o, o ∈ commits /\ at_commit h' m o) /\
  (hr_ok res = true -> usual e h' /\
    (forall o, without o -> exists n p q, pr_for h' o n p /\ p = edited (desc e h' o) q /\ (hb_last h < pr_number p)%N /\ rb (hb_repo h') x n = Some o /\ n ∈ hr_submitted res /\
      (at_commit h n o \/ ((forall m, ~ at_commit h m o) /\ ~ taken (hb_repo h) n))) /\
    (forall o n p, stale e commits h o n p -> n ∈ hr_updated res /\ exists remote, pushes_to (hb_repo h) n remote /\ rb (hb_repo h') remote n = Some o /\ pr_for h' o n (edited (desc e h' o) p)) /\
    (forall o n p, o ∈ commits -> pr_for h o n p -> edited (desc e h o) p = p -> n ∈ hr_skipped res /\ pr_for h' o n p) /\
    (forall n, n ∈ hr_submitted res -> exists o, without o /\ at_commit h' n o)).
Proof.
  cbn zeta. unfold submit_hub. destruct (query_hub e commits h) as [sts|] eqn:Q.
  2: { cbn. split_and!; [apply tried_refl| |congruence|discriminate]. intros m p H. exists p. unfold same_request. auto 10. }
  cbn [andb negb]. destruct (create_hub e (having Unsubmitted sts) h) as [h3 om] eqn:Ec. destruct (create_hub_spec sts h3 om Q Ec) as (T3 & K3 & O3 & M3).
  destruct om as [names|].
  2: { cbn. split_and!; [exact T3| |exact O3|discriminate]. intros m p H. exists p. unfold same_request. auto 10. }
  destruct (M3 names eq_refl) as (new & Cd & ->). clear M3. destruct (update_hub e 2 (having NeedsUpdate sts) h3) as [h4 ok] eqn:E4.
  assert (Apart : forall o n p c, pr_for h o n p -> (c, n) ∉ new).
  { intros o n p c (_ & _ & H) Hc. apply (cd_name _ _ Cd) in Hc as [Hc _]. congruence. }
  assert (R : refreshed e (fun o n => exists p, stale e commits h o n p) h3 h4 ok).
  { apply (update_hub_spec e 2 (having NeedsUpdate sts)); [exact (cd_usual _ _ Cd)| | |exact E4].
    - intros o s. rewrite (changed_spec e commits h sts U Dr Q).
      assert (Ps : forall n p y, stale e commits h o n p -> pushes_to (hb_repo h3) n y <-> pushes_to (hb_repo h) n y).
      { intros n p y (_ & Hp & _). unfold pushes_to. rewrite (cd_config _ _ Cd n); [reflexivity|]. intros c. now apply (Apart o n p). }
      split; [intros (n & p & y & S & Py & ->)|intros (n & y & (p & S) & Py & ->)].
      + exists n, y. split_and!; eauto. now apply (Ps n p).
      + exists n, p, y. split_and!; auto. now apply (Ps n p).
    - intros o n (p & Ho & Hp & _). split; [apply (Dr o Ho)|]. split; [now apply (cd_branches _ _ Cd), Hp|]. split.
      + apply (cd_seen _ _ Cd); [intros c; now apply (Apart o n p)|apply Hp].
      + rewrite (K3 n p); [eauto|apply Hp]. }
  destruct R as [V4 F4 L4 P4 KK4 Q4 QK4].
  assert (At4 : forall n o, at_commit h4 n o <-> at_commit h3 n o).
  { intros n o. unfold at_commit. split; intros H; rewrite <- H; [symmetry|]; apply (sv_local _ _ V4 n). }
  assert (T4 : tried (fun o => o ∈ commits) (hb_repo h) (hb_repo h4)).
  { apply (tried_trans _ _ (hb_repo h3)); [exact T3|]. apply (refreshed_tried (fun o n => exists p, stale e commits h o n p) _ h3 h4 ok); [now constructor|].
    intros o n (p & Ho & Hp & _). split; [now apply (cd_branches _ _ Cd), Hp|exact Ho]. }
  assert (K4 : forall m p, hb_prs h !! m = Some p -> exists p', hb_prs h4 !! m = Some p' /\ same_request p p' /\ (p' = p \/ exists o, o ∈ commits /\ at_commit h m o)).
  { intros m p H. apply K3 in H as H3. destruct (Q4 m) as [E|(o & (q & Ho & Hq & _) & E)].
    - exists p. rewrite E. unfold same_request. auto 10.
    - rewrite H3 in E. cbn in E. exists (edited (desc e h3 o) p). split_and!; auto using edited_same. right. exists o. split; [exact Ho|apply Hq]. }
  assert (O4 : forall m p, hb_prs h4 !! m = Some p -> hb_prs h !! m = None -> exists o, o ∈ commits /\ at_commit h4 m o).
  { intros m p Hp Hn. specialize (F4 m). rewrite Hp in F4. destruct (hb_prs h3 !! m) as [q|] eqn:Eq; [|contradiction]. destruct (O3 m q Eq Hn) as (o & Ho & A). exists o. split; [exact Ho|now apply At4]. }
  destruct ok; cbn [hr_hub hr_ok hr_submitted hr_updated hr_skipped hr_unsubmitted]; (split; [exact T4|]; split; [exact K4|]; split; [exact O4|]); [|discriminate]. intros _.
  assert (De : forall o, desc e h4 o = desc e h3 o) by (intros o; apply desc_same; [exact (usual_own _ _ (cd_usual _ _ Cd))|exact V4|exact F4]).
  assert (Ns : forall c n o p, (c, n) ∈ new -> ~ stale e commits h o n p) by (intros c n o p Hc (_ & Hp & _); now apply (Apart o n p c)).
  split_and!.
  - exact (usual_view e h3 h4 (cd_usual _ _ Cd) V4 F4 L4).
  - intros o W. destruct (proj1 (cd_new _ _ Cd o) W) as [n Hn]. destruct (cd_there _ _ Cd o n Hn) as (p & q & (A & B & C) & Ep & L & R). exists n, p, q.
    assert (C4 : hb_prs h4 !! n = Some p) by (destruct (Q4 n) as [->|(c & (p' & S) & _)]; [exact C|now apply (Ns o n) in S]).
    split; [split; [now apply At4|split; [now apply (sv_seen _ _ V4 n)|exact C4]]|]. split; [now rewrite De|]. split; [exact L|]. split; [|split].
    + destruct (pu_remote _ _ _ _ _ P4 x n) as [E|(((c & p' & S) & _) & _)]; [congruence|now apply (Ns o n) in S].
    + apply sorted_elem. apply elem_of_list_In, in_map_iff. exists (o, n). split; [reflexivity|now apply elem_of_list_In].
    + now apply (cd_name _ _ Cd).
  - intros o n p S. split; [apply (changed_named e commits h sts U Dr Q); eauto|]. destruct S as (Ho & Hp & D). pose proof Hp as (A & (y & v & Py & Hv) & C). exists y. split; [exact Py|].
    assert (Py3 : pushes_to (hb_repo h3) n y) by (unfold pushes_to; rewrite (cd_config _ _ Cd n); [exact Py|]; intros c; now apply (Apart o n p)).
    assert (A3 : at_commit h3 n o) by (now apply (cd_branches _ _ Cd)). split.
    + apply (pk_remote _ _ _ _ _ (KK4 eq_refl) y n o); [split; [exists o, p; split_and!; auto|exact Py3]|exact A3|]. now apply (pushes_own _ _ _ (usual_own _ _ U) Py).
    + split; [now apply At4|]. split.
      * apply (sv_seen _ _ V4 n). apply (cd_seen _ _ Cd); [intros c; now apply (Apart o n p)|exists y, v; auto].
      * rewrite (QK4 eq_refl o n); [|exists p; split_and!; auto]. rewrite (K3 n p C), De. reflexivity.
  - intros o n p Ho Hp E. split; [apply (same_spec e commits h sts U Dr Q); eauto|]. split; [apply At4, (cd_branches _ _ Cd), Hp|]. split.
    + apply (sv_seen _ _ V4 n), (cd_seen _ _ Cd); [intros c; now apply (Apart o n p)|apply Hp].
    + destruct (Q4 n) as [->|(o' & (p' & Ho' & Hp' & N) & _)]; [apply K3, Hp|]. exfalso.
      assert (o' = o) as -> by (destruct Hp as (A & _), Hp' as (A' & _); unfold at_commit in *; congruence).
      destruct (pr_for_one _ _ _ _ _ _ _ _ U Dr Ho Hp Hp') as [_ <-]. contradiction.
  - intros n H. apply sorted_elem, elem_of_list_In, in_map_iff in H as ([o m] & E & H). cbn in E. subst m. apply elem_of_list_In in H. exists o. split; [apply (cd_new _ _ Cd); eauto|].
    apply At4. now destruct (cd_there _ _ Cd o n H) as (p & q & (A & _) & _).
Qed.
End create.
