(** Proofs about submitting. *)
From stdpp Require Import sorting.
From Verif Require Import Base TextModel EventLogModel DagModel HookModel PlanModel ExecModel ExecAfterProofs StrProofs EventLogRefProofs SubmitModel SubmitSpec.
From Verif Require NavModel HideUndoProofs.
Local Open Scope string_scope.
Local Open Scope list_scope.

(** ** Names *)
Lemma local_inj a b : local a = local b -> a = b.
Proof. unfold local. apply (inj _). Qed.
Lemma local_not_tracking n remote m : local n <> tracking remote m.
Proof. unfold local, tracking. cbn. discriminate. Qed.
Lemma is_local_spec b : is_local b = true <-> exists n, b = local n.
Proof. unfold is_local. apply starts_with_spec. Qed.
Lemma suffix_local n : NavModel.render_suffix (local n) = n.
Proof. apply HideUndoProofs.render_local. Qed.
Lemma plain_tail c s : plain_name (String c s) -> plain_name s.
Proof. intros P a b E. apply (P (String c a) b). cbn. now rewrite E. Qed.
Lemma slash_split a b x y : plain_name a -> plain_name b -> a +:+ "/" +:+ x = b +:+ "/" +:+ y -> a = b /\ x = y.
Proof.
  revert b. induction a as [|c a IH]; intros b Pa Pb E; destruct b as [|d b]; cbn in E.
  - injection E as E. auto.
  - injection E as E1 E2. exfalso. apply (Pb "" b). cbn. now rewrite <- E1.
  - injection E as E1 E2. exfalso. apply (Pa "" a). cbn. now rewrite E1.
  - injection E as E1 E2. destruct (IH b (plain_tail _ _ Pa) (plain_tail _ _ Pb) E2) as [-> ->]. now rewrite E1.
Qed.
Lemma tracking_inj a b x y : plain_name a -> plain_name b -> tracking a x = tracking b y -> a = b /\ x = y.
Proof. intros Pa Pb E. unfold tracking in E. apply (inj _) in E. now apply slash_split. Qed.
Lemma tracking_same a x y : tracking a x = tracking a y -> x = y.
Proof. unfold tracking. intros E. now repeat apply (inj _) in E. Qed.

Lemma push_remote_spec r n remote : push_remote (sr_config r) n = Some remote <-> pushes_to r n remote.
Proof.
  unfold push_remote, pushes_to. destruct (sr_config r !! n) as [c|] eqn:E.
  - split.
    + intros H. exists c. split; [reflexivity|]. destruct (bc_push c); [left|right]; auto.
    + intros (c' & Ec & H). injection Ec as <-. destruct H as [->|[-> H]]; [reflexivity|exact H].
  - split; [discriminate|]. intros (c & Ec & _). discriminate.
Qed.
Lemma upstream_spec r n o : upstream_at r n = Some o <-> upstream r n o.
Proof.
  unfold upstream_at, upstream. split.
  - destruct (sr_config r !! n) as [[p [remote|] [m|]]|] eqn:E; try discriminate. intros H. exists (mk_bc p (Some remote) (Some m)), remote, m.
    split; [reflexivity|]. split; [reflexivity|]. split; [reflexivity|]. destruct (String.eqb_spec remote ".") as [Ed|Ed]; [left; split; [exact Ed|exact H]|right].
    case_bool_decide as B; [|discriminate]. split; [exact Ed|]. split; [exact B|exact H].
  - intros ([p q w] & remote & m & E & Hr & Hm & H). cbn in Hr, Hm. subst q w. rewrite E. destruct H as [[-> H]|(Nd & B & H)].
    + cbn. exact H.
    + apply String.eqb_neq in Nd. rewrite Nd, bool_decide_true by exact B. exact H.
Qed.
Lemma no_upstream_spec r n : upstream_at r n = None <-> no_upstream r n.
Proof.
  unfold no_upstream. split.
  - intros E o H. apply upstream_spec in H. congruence.
  - intros H. destruct (upstream_at r n) as [o|] eqn:E; [|reflexivity]. exfalso. apply (H o). now apply upstream_spec.
Qed.
Lemma default_remote_spec e r remote : default_remote e r = Some remote <-> new_go_to e r remote.
Proof.
  unfold default_remote, new_go_to. destruct (push_remote (sr_config r) (sv_main e)) as [x|] eqn:E.
  - pose proof (proj1 (push_remote_spec _ _ _) E) as P. split.
    + intros H. injection H as <-. now left.
    + intros [H|[H _]]; [|exfalso; exact (H x P)]. apply push_remote_spec in H. congruence.
  - split.
    + intros H. right. split; [|exact H]. intros x P. apply push_remote_spec in P. congruence.
    + intros [H|[_ H]]; [|exact H]. apply push_remote_spec in H. congruence.
Qed.
Lemma upstream_remote r n o : upstream r n o -> exists remote, pushes_to r n remote.
Proof.
  intros (c & remote & m & E & Hr & _). destruct (bc_push c) as [p|] eqn:Ep.
  - exists p, c. auto.
  - exists remote, c. auto.
Qed.

Lemma names_le_perm (l : list string) : Permutation (sorted_names l) l.
Proof. apply sorted_perm. Qed.
Lemma sorted_elem (l : list string) n : n ∈ sorted_names l <-> n ∈ l.
Proof. now rewrite names_le_perm. Qed.

(** ** Grouping *)
Lemma by_remote_names l remote names n : (remote, names) ∈ by_remote l -> n ∈ names <-> (remote, n) ∈ l.
Proof.
  unfold by_remote. intros H. apply elem_of_list_In, in_map_iff in H as (x & E & _). injection E as -> <-.
  rewrite sorted_elem, elem_of_remove_dups. rewrite elem_of_list_In, in_map_iff. split.
  - intros ((a & b) & <- & Hi). apply filter_In in Hi as [Hi Eq]. apply String.eqb_eq in Eq. cbn in Eq. subst a. now apply elem_of_list_In.
  - intros H. exists (remote, n). split; [reflexivity|]. apply filter_In. split; [now apply elem_of_list_In|]. cbn. now apply String.eqb_eq.
Qed.
Lemma by_remote_there l remote n : (remote, n) ∈ l -> exists names, (remote, names) ∈ by_remote l.
Proof.
  intros H. unfold by_remote. eexists. apply elem_of_list_In, in_map_iff. exists remote. split; [reflexivity|]. apply elem_of_list_In.
  rewrite sorted_elem, elem_of_remove_dups. apply elem_of_list_In, in_map_iff. exists (remote, n). split; [reflexivity|now apply elem_of_list_In].
Qed.
Definition in_groups (l : list (string * list string)) (remote n : string) : Prop := exists names, (remote, names) ∈ l /\ n ∈ names.
Lemma in_by_remote l remote n : in_groups (by_remote l) remote n <-> (remote, n) ∈ l.
Proof.
  split.
  - intros (names & H & Hn). now apply (by_remote_names _ _ _ _ H).
  - intros H. destruct (by_remote_there _ _ _ H) as (names & Hn). exists names. split; [exact Hn|]. now apply (by_remote_names _ _ _ _ Hn).
Qed.

(** ** Fetching *)
Lemma fetch_fold (rs : remotes) remote names (refs : gmap refname oid) :
  let refs' := fold_right (fun n refs => match remote_branch rs remote n with Some o => <[tracking remote n := o]> refs | None => refs end) refs names in
  (forall b, refs' !! b = refs !! b \/ exists n, n ∈ names /\ b = tracking remote n /\ is_Some (remote_branch rs remote n) /\ refs' !! b = remote_branch rs remote n) /\
  forall n o, n ∈ names -> remote_branch rs remote n = Some o -> refs' !! tracking remote n = Some o.
Proof.
  induction names as [|m names IH]; cbn [fold_right]; [split; [auto|intros n o H; now apply elem_of_nil in H]|].
  destruct IH as [IH1 IH2]. set (refs1 := fold_right _ refs names) in *. split.
  - intros b. assert (P : refs1 !! b = refs !! b \/ exists n, n ∈ m :: names /\ b = tracking remote n /\ is_Some (remote_branch rs remote n) /\ refs1 !! b = remote_branch rs remote n).
    { destruct (IH1 b) as [H|(n & Hn & H)]; [now left|]. right. exists n. split; [now right|exact H]. }
    destruct (remote_branch rs remote m) as [o|] eqn:E; [|exact P]. destruct (decide (b = tracking remote m)) as [->|N].
    + right. exists m. split; [left|]. rewrite lookup_insert, E. split_and!; auto.
    + rewrite lookup_insert_ne by congruence. exact P.
  - intros n o Hn E. destruct (decide (n = m)) as [->|N].
    + rewrite E. apply lookup_insert.
    + assert (Hn' : n ∈ names) by (apply elem_of_cons in Hn as [Hn|Hn]; [congruence|exact Hn]).
      destruct (remote_branch rs remote m) as [x|]; [|now apply IH2]. rewrite lookup_insert_ne; [now apply IH2|].
      intros T. apply tracking_same in T. congruence.
Qed.
(** What a fetch may do, for the branches [l]. *)
Record fetched_in (l : string -> string -> Prop) (r r' : srepo) : Prop := {
  fi_config : sr_config r' = sr_config r;
  fi_remotes : sr_remotes r' = sr_remotes r;
  fi_refs : forall b, sr_refs r' !! b = sr_refs r !! b \/
    exists remote n, l remote n /\ remote <> "." /\ b = tracking remote n /\ is_Some (remote_branch (sr_remotes r) remote n) /\
      sr_refs r' !! b = remote_branch (sr_remotes r) remote n }.
Definition fetched_ok (l : string -> string -> Prop) (r r' : srepo) : Prop :=
  forall remote n, l remote n -> remote <> "." -> is_Some (remote_branch (sr_remotes r) remote n) /\
    sr_refs r' !! tracking remote n = remote_branch (sr_remotes r) remote n.
Lemma git_fetch_spec remote names r r' ok : git_fetch remote names r = (r', ok) ->
  fetched_in (fun x n => x = remote /\ n ∈ names) r r' /\ (ok = true -> fetched_ok (fun x n => x = remote /\ n ∈ names) r r').
Proof.
  unfold git_fetch. destruct (String.eqb_spec remote ".") as [Ed|Ed].
  { intros H. injection H as <- _. split; [now constructor; auto|]. intros _ x n [-> _] N. congruence. }
  destruct (forallb _ names) eqn:F; intros H; injection H as <- <-.
  - destruct (fetch_fold (sr_remotes r) remote names (sr_refs r)) as [A B]. split.
    + constructor; [reflexivity|reflexivity|]. cbn. intros b. destruct (A b) as [H|(n & Hn & H)]; [now left|]. right. exists remote, n. now split_and!.
    + intros _ x n [-> Hn] _. cbn. rewrite forallb_forall in F. specialize (F n (proj1 (elem_of_list_In _ _) Hn)). apply bool_decide_eq_true in F.
      destruct F as [o Ho]. split; [now rewrite Ho|]. rewrite Ho. now apply B.
  - split; [now constructor; auto|discriminate].
Qed.
Lemma fetch_all_spec l r r' ok : (forall remote names, (remote, names) ∈ l -> plain_name remote) -> fetch_all l r = (r', ok) ->
  fetched_in (in_groups l) r r' /\ (ok = true -> fetched_ok (in_groups l) r r').
Proof.
  revert r. induction l as [|[remote names] l IH]; intros r P H; cbn [fetch_all] in H.
  { injection H as <- <-. split; [now constructor; auto|]. intros _ x n (q & Hq & _). now apply elem_of_nil in Hq. }
  destruct (git_fetch remote names r) as [r1 ok1] eqn:E1. destruct (git_fetch_spec _ _ _ _ _ E1) as [[C1 M1 R1] O1].
  assert (Here : forall n, n ∈ names -> in_groups ((remote, names) :: l) remote n) by (intros n Hn; exists names; split; [left|exact Hn]).
  assert (There : forall x n, in_groups l x n -> in_groups ((remote, names) :: l) x n) by (intros x n (q & Hq & Hn); exists q; split; [now right|exact Hn]).
  destruct ok1.
  - destruct (IH r1) as [[C2 M2 R2] O2]; [intros x q Hq; apply (P x q); now right|exact H|]. rewrite M1 in R2. split.
    + constructor; [congruence|congruence|]. intros b. destruct (R2 b) as [Hb|(x & n & Hl & Hb)].
      * rewrite Hb. destruct (R1 b) as [Hc|(x & n & [-> Hn] & Hc)]; [now left|]. right. exists remote, n. split; [now apply Here|exact Hc].
      * right. exists x, n. split; [now apply There|exact Hb].
    + intros ->. specialize (O2 eq_refl). specialize (O1 eq_refl). intros x n (q & Hq & Hn) Nd. unfold fetched_ok in O1, O2. rewrite M1 in O2.
      apply elem_of_cons in Hq as [Hq|Hq].
      * injection Hq as -> ->. destruct (O1 remote n (conj eq_refl Hn) Nd) as [S T]. split; [exact S|].
        destruct (R2 (tracking remote n)) as [Hb|(x & m & (q & Hq & Hm) & Nx & Et & _ & Hb)]; [congruence|].
        apply tracking_inj in Et as [<- <-]; [exact Hb|apply (P remote names); left|apply (P x q); now right].
      * apply (O2 x n); [now exists q|exact Nd].
  - injection H as <- <-. split; [|discriminate]. constructor; auto. intros b. destruct (R1 b) as [Hc|(x & n & [-> Hn] & Hc)]; [now left|].
    right. exists remote, n. split; [now apply Here|exact Hc].
Qed.

(** ** Pushing *)
Definition rb (r : srepo) : string -> string -> option oid := remote_branch (sr_remotes r).
Lemma rb_set remote n o rs x m : remote_branch (set_remote remote n o rs) x m = if decide (x = remote /\ m = n) then Some o else remote_branch rs x m.
Proof.
  unfold set_remote, remote_branch, remotes in *. destruct (decide (x = remote /\ m = n)) as [[-> ->]|N].
  - rewrite lookup_insert. apply lookup_insert.
  - destruct (decide (x = remote)) as [->|Nx].
    + rewrite lookup_insert. rewrite lookup_insert_ne by (intros ->; now apply N). destruct (rs !! remote); reflexivity.
    + now rewrite lookup_insert_ne by congruence.
Qed.
Record pushed (e : submit_env) (how : push_how) (l : string -> string -> Prop) (r r' : srepo) : Prop := {
  pu_refs : forall b, sr_refs r' !! b = sr_refs r !! b \/
    exists remote n o, l remote n /\ remote <> "." /\ b = tracking remote n /\ sr_refs r' !! b = Some o /\ sr_refs r !! local n = Some o /\ rb r' remote n = Some o;
  pu_remote : forall remote n, rb r' remote n = rb r remote n \/
    (l remote n /\ remote <> "." /\ exists o, sr_refs r !! local n = Some o /\ rb r' remote n = Some o /\ push_allowed e how remote n o r = true);
  pu_config : forall n, sr_config r' !! n = sr_config r !! n \/
    (how = SetUpstream /\ exists remote, l remote n /\
      sr_config r' !! n = Some (mk_bc (match sr_config r !! n with Some b => bc_push b | None => None end) (Some remote) (Some n)));
  pu_present : forall remote, is_Some (sr_remotes r !! remote) -> is_Some (sr_remotes r' !! remote) }.
Record pushed_ok (e : submit_env) (how : push_how) (l : string -> string -> Prop) (r r' : srepo) : Prop := {
  pk_local : forall remote n, l remote n -> is_Some (sr_refs r !! local n);
  pk_remote : forall remote n o, l remote n -> sr_refs r !! local n = Some o -> remote <> "." ->
    rb r' remote n = Some o /\ sr_refs r' !! tracking remote n = Some o /\ is_Some (sr_remotes r' !! remote);
  pk_config : forall remote n, how = SetUpstream -> l remote n -> exists remote', l remote' n /\
    sr_config r' !! n = Some (mk_bc (match sr_config r !! n with Some b => bc_push b | None => None end) (Some remote') (Some n)) }.
Lemma pushed_refl e how l r : pushed e how l r r.
Proof. constructor; auto. Qed.
Lemma pushed_mono e how (l l' : string -> string -> Prop) r r' : (forall x n, l x n -> l' x n) -> pushed e how l r r' -> pushed e how l' r r'.
Proof.
  intros S [A B C D]. constructor; auto.
  - intros b. destruct (A b) as [H|(x & n & o & Hl & H)]; [now left|right; exists x, n, o; auto].
  - intros x n. destruct (B x n) as [H|(Hl & H)]; auto.
  - intros n. destruct (C n) as [H|(Hh & x & Hl & H)]; [now left|right; split; [exact Hh|exists x; auto]].
Qed.
Lemma pushed_local e how l r r' n : pushed e how l r r' -> sr_refs r' !! local n = sr_refs r !! local n.
Proof. intros [A _ _ _]. destruct (A (local n)) as [H|(x & m & o & _ & _ & T & _)]; [exact H|]. now apply local_not_tracking in T. Qed.
Section compose.
Context (e : submit_env) (how : push_how) (l1 l2 : string -> string -> Prop) (r r1 r2 : srepo).
Let l x n := l1 x n \/ l2 x n.
Hypothesis plain : forall x n, l x n -> plain_name x.
Hypothesis P1 : pushed e how l1 r r1.
Hypothesis P2 : pushed e how l2 r1 r2.
Lemma pushed_trans : pushed e how l r r2.
Proof.
  assert (L : forall n, sr_refs r1 !! local n = sr_refs r !! local n) by (intros n; now apply (pushed_local _ _ _ _ _ n P1)). destruct P1 as [A1 B1 C1 D1], P2 as [A2 B2 C2 D2]. constructor; auto.
  - intros b. destruct (A2 b) as [H|(x & n & o & Hl & Nd & T & Hr & Hlo & Hb)].
    + destruct (A1 b) as [H1|(x & n & o & Hl & Nd & T & Hr & Hlo & Hb)]; [left; congruence|]. right. exists x, n, o. split_and!; auto.
      * now left.
      * congruence.
      * destruct (B2 x n) as [Q|(_ & _ & o' & Q1 & Q2 & _)]; [congruence|]. rewrite (L n) in Q1. congruence.
    + right. exists x, n, o. split_and!; auto; [now right|]. rewrite (L n) in Hlo. exact Hlo.
  - intros x n. destruct (B2 x n) as [H|(Hl & Nd & o & Ho & Hr & Al)].
    + destruct (B1 x n) as [H1|(Hl & Nd & o & Ho & Hr & Al)]; [left; congruence|]. right. split; [now left|]. split; [exact Nd|]. exists o. split_and!; auto. congruence.
    + rewrite (L n) in Ho. right. split; [now right|]. split; [exact Nd|]. exists o. split_and!; auto.
      destruct (B1 x n) as [H1|(_ & _ & o' & Ho' & Hr' & Al')]; [|assert (o' = o) as -> by congruence; exact Al'].
      unfold push_allowed in *. change (remote_branch (sr_remotes r1) x n) with (rb r1 x n) in Al. change (remote_branch (sr_remotes r) x n) with (rb r x n).
      rewrite H1 in Al. destruct how; [|exact Al]. apply orb_true_iff in Al as [Al|Al]; [now rewrite Al|].
      destruct (A1 (tracking x n)) as [T1|(y & m & o' & Hl1 & _ & T & _ & Ho' & Hb)].
      * rewrite T1 in Al. now rewrite Al, orb_true_r.
      * apply tracking_inj in T as [<- <-]; [|apply (plain x n); now right|apply (plain y m); now left].
        assert (rb r x n = Some o) as -> by congruence. now rewrite bool_decide_true by reflexivity.
  - intros n. destruct (C2 n) as [H|(Hh & x & Hl & H)].
    + destruct (C1 n) as [H1|(Hh & x & Hl & H1)]; [left; congruence|]. right. split; [exact Hh|]. exists x. split; [now left|congruence].
    + right. split; [exact Hh|]. exists x. split; [now right|]. rewrite H. destruct (C1 n) as [->|(_ & y & _ & ->)]; reflexivity.
Qed.
Lemma pushed_ok_trans : pushed_ok e how l1 r r1 -> pushed_ok e how l2 r1 r2 -> pushed_ok e how l r r2.
Proof.
  assert (L : forall n, sr_refs r1 !! local n = sr_refs r !! local n) by (intros n; now apply (pushed_local _ _ _ _ _ n P1)). destruct P1 as [A1 B1 C1 D1], P2 as [A2 B2 C2 D2]. intros [X1 Y1 Z1] [X2 Y2 Z2]. constructor.
  - intros x n [H|H]; [now apply (X1 x)|]. rewrite <- (L n). now apply (X2 x).
  - intros x n o [H|H] Ho Nd; [|apply (Y2 x n o H); [now rewrite (L n)|exact Nd]].
    destruct (Y1 x n o H Ho Nd) as (Q1 & Q2 & Q3). split; [|split; [|now apply D2]].
    + destruct (B2 x n) as [Q|(_ & _ & o' & Q4 & Q5 & _)]; [congruence|]. rewrite (L n) in Q4. congruence.
    + destruct (A2 (tracking x n)) as [Q|(y & m & o' & Hl & _ & T & Q4 & Q5 & _)]; [congruence|].
      apply tracking_inj in T as [<- <-]; [|apply (plain x n); now left|apply (plain y m); now right]. rewrite (L n) in Q5. congruence.
  - intros x n Hh [H|H].
    + destruct (C2 n) as [Q|(_ & y & Hy & Q)].
      * destruct (Z1 x n Hh H) as (y & Hy & E). exists y. split; [now left|]. congruence.
      * exists y. split; [now right|]. rewrite Q. destruct (C1 n) as [->|(_ & z & _ & ->)]; reflexivity.
    + destruct (Z2 x n Hh H) as (y & Hy & E). exists y. split; [now right|]. rewrite E. destruct (C1 n) as [->|(_ & z & _ & ->)]; reflexivity.
Qed.
End compose.
Lemma push_one_spec e how remote n r r' ok : is_Some (sr_remotes r !! remote) \/ remote = "." -> push_one e how remote n r = (r', ok) ->
  pushed e how (fun x m => x = remote /\ m = n) r r' /\ (ok = true -> pushed_ok e how (fun x m => x = remote /\ m = n) r r').
Proof.
  intros There. unfold push_one. destruct (sr_refs r !! local n) as [o|] eqn:Ho; [|intros H; injection H as <- <-; split; [apply pushed_refl|discriminate]].
  set (config := match how with SetUpstream => _ | WithLease => _ end).
  assert (Cf : forall m, config !! m = sr_config r !! m \/ (how = SetUpstream /\ exists x, (x = remote /\ m = n) /\
    config !! m = Some (mk_bc (match sr_config r !! m with Some b => bc_push b | None => None end) (Some x) (Some m)))).
  { intros m. unfold config. destruct how; [now left|]. unfold set_upstream. destruct (decide (m = n)) as [->|N].
    - right. split; [reflexivity|]. exists remote. split; [auto|]. apply lookup_insert.
    - left. now rewrite lookup_insert_ne by congruence. }
  assert (Ck : how = SetUpstream -> config !! n = Some (mk_bc (match sr_config r !! n with Some b => bc_push b | None => None end) (Some remote) (Some n))).
  { intros Hh. unfold config. rewrite Hh. apply lookup_insert. }
  destruct (String.eqb_spec remote ".") as [Ed|Ed].
  { intros H. injection H as <- <-. split.
    - constructor; auto.
    - intros _. constructor; cbn.
      + intros x m [-> ->]. rewrite Ho. eauto.
      + intros x m o' [-> ->] _ Nd. congruence.
      + intros x m Hh [-> ->]. exists remote. split; [auto|]. now apply Ck. }
  destruct (push_allowed e how remote n o r) eqn:Al; intros H; injection H as <- <-; [|split; [apply pushed_refl|discriminate]].
  assert (Rb : forall x m, rb (mk_srepo (<[tracking remote n := o]> (sr_refs r)) config (set_remote remote n o (sr_remotes r))) x m =
    if decide (x = remote /\ m = n) then Some o else rb r x m) by (intros x m; apply rb_set).
  split.
  - constructor.
    + cbn. intros b. destruct (decide (b = tracking remote n)) as [->|N]; [|left; now rewrite lookup_insert_ne by congruence].
      right. exists remote, n, o. rewrite lookup_insert, Rb, decide_True by auto. split_and!; auto.
    + intros x m. rewrite Rb. destruct (decide _) as [[-> ->]|N]; [|now left]. right. split; [auto|]. split; [exact Ed|]. exists o. auto.
    + exact Cf.
    + cbn. intros x Hx. unfold set_remote, remotes in *. destruct (decide (x = remote)) as [->|N]; [rewrite lookup_insert; eauto|]. now rewrite lookup_insert_ne by congruence.
  - intros _. constructor.
    + intros x m [-> ->]. rewrite Ho. eauto.
    + intros x m o' [-> ->] Ho' _. assert (o' = o) as -> by congruence. rewrite Rb, decide_True by auto. split; [reflexivity|]. cbn. split; [apply lookup_insert|].
      unfold set_remote, remotes in *. rewrite lookup_insert. eauto.
    + cbn. intros x m Hh [-> ->]. exists remote. split; [auto|]. now apply Ck.
Qed.
Lemma push_each_spec e how remote names r r' ok : plain_name remote -> is_Some (sr_remotes r !! remote) \/ remote = "." -> push_each e how remote names r = (r', ok) ->
  pushed e how (fun x m => x = remote /\ m ∈ names) r r' /\ (ok = true -> pushed_ok e how (fun x m => x = remote /\ m ∈ names) r r').
Proof.
  intros Pl. revert r ok. induction names as [|n names IH]; intros r ok There; cbn [push_each].
  { intros H. injection H as <- <-. split; [apply pushed_refl|]. intros _.
    constructor; intros; match goal with H : _ = _ /\ _ ∈ [] |- _ => destruct H as [_ H]; now apply elem_of_nil in H end. }
  destruct (push_one e how remote n r) as [r1 ok1] eqn:E1. destruct (push_each e how remote names r1) as [r2 ok2] eqn:E2. intros H. injection H as <- <-.
  destruct (push_one_spec _ _ _ _ _ _ _ There E1) as [P1 O1].
  destruct (IH r1 ok2) as [P2 O2]; [destruct There as [H|H]; [left; now apply (pu_present _ _ _ _ _ P1)|now right]|exact E2|].
  assert (Pln : forall x m, (x = remote /\ m = n) \/ (x = remote /\ m ∈ names) -> plain_name x) by (intros x m [[-> _]|[-> _]]; exact Pl).
  assert (Eq : forall x m, x = remote /\ m ∈ n :: names <-> (x = remote /\ m = n) \/ (x = remote /\ m ∈ names)) by (intros x m; rewrite elem_of_cons; tauto).
  split.
  - apply (pushed_mono _ _ (fun x m => (x = remote /\ m = n) \/ (x = remote /\ m ∈ names))); [intros x m; apply Eq|]. now apply (pushed_trans e how _ _ r r1 r2).
  - intros H. apply andb_true_iff in H as [-> ->]. pose proof (pushed_ok_trans e how _ _ r r1 r2 Pln P1 P2 (O1 eq_refl) (O2 eq_refl)) as [X Y Z]. constructor.
    + intros x m Hx. apply (X x). now apply Eq.
    + intros x m o Hx. apply (Y x m o). now apply Eq.
    + intros x m Hh Hx. destruct (Z x m Hh (proj1 (Eq _ _) Hx)) as (y & Hy & E). exists y. split; [now apply Eq|exact E].
Qed.
Lemma git_push_spec e how remote names r r' ok : plain_name remote -> git_push e how remote names r = (r', ok) ->
  pushed e how (fun x m => x = remote /\ m ∈ names) r r' /\ (ok = true -> pushed_ok e how (fun x m => x = remote /\ m ∈ names) r r').
Proof.
  intros Pl. unfold git_push. destruct (existsb _ names); [intros H; injection H as <- <-; split; [apply pushed_refl|discriminate]|].
  destruct (_ || _)%bool eqn:B; [|intros H; injection H as <- <-; split; [apply pushed_refl|discriminate]]. apply push_each_spec; [exact Pl|].
  apply orb_true_iff in B as [B|B]; [right; now apply String.eqb_eq|left; now apply bool_decide_eq_true in B].
Qed.
Lemma push_all_spec e l r r' ok : (forall remote names, (remote, names) ∈ l -> plain_name remote) -> push_all e l r = (r', ok) ->
  pushed e WithLease (in_groups l) r r' /\ (ok = true -> pushed_ok e WithLease (in_groups l) r r').
Proof.
  revert r. induction l as [|[remote names] l IH]; intros r Pl; cbn [push_all].
  { intros H. injection H as <- <-. split; [apply pushed_refl|]. intros _.
    constructor; intros; match goal with H : in_groups [] _ _ |- _ => destruct H as (q & Hq & _); now apply elem_of_nil in Hq end. }
  destruct (git_push e WithLease remote names r) as [r1 ok1] eqn:E1. destruct (git_push_spec _ _ _ _ _ _ _ (Pl remote names (elem_of_list_here _ _)) E1) as [P1 O1].
  assert (Eq : forall x m, in_groups ((remote, names) :: l) x m <-> (x = remote /\ m ∈ names) \/ in_groups l x m).
  { intros x m. unfold in_groups. split.
    - intros (q & Hq & Hm). apply elem_of_cons in Hq as [Hq|Hq]; [injection Hq as -> ->; auto|right; eauto].
    - intros [[-> Hm]|(q & Hq & Hm)]; [exists names; split; [left|exact Hm]|exists q; split; [now right|exact Hm]]. }
  destruct ok1.
  - intros H. destruct (IH r1) as [P2 O2]; [intros x q Hq; apply (Pl x q); now right|exact H|].
    assert (Pln : forall x m, (x = remote /\ m ∈ names) \/ in_groups l x m -> plain_name x).
    { intros x m [[-> _]|(q & Hq & _)]; [apply (Pl remote names); left|apply (Pl x q); now right]. }
    split.
    + apply (pushed_mono _ _ (fun x m => (x = remote /\ m ∈ names) \/ in_groups l x m)); [intros x m; apply Eq|]. now apply (pushed_trans e _ _ _ r r1 r').
    + intros ->. pose proof (pushed_ok_trans e _ _ _ r r1 r' Pln P1 P2 (O1 eq_refl) (O2 eq_refl)) as [X Y Z]. constructor.
      * intros x m Hx. apply (X x). now apply Eq.
      * intros x m o Hx. apply (Y x m o). now apply Eq.
      * intros x m Hh Hx. destruct (Z x m Hh (proj1 (Eq _ _) Hx)) as (y & Hy & E). exists y. split; [now apply Eq|exact E].
  - intros H. injection H as <- <-. split; [|discriminate]. apply (pushed_mono _ _ (fun x m => x = remote /\ m ∈ names)); [|exact P1]. intros x m H. apply Eq. now left.
Qed.

(** ** The statuses *)
Section statuses.
Context (e : submit_env) (commits : commit_set) (r r' : srepo).
Let infos := branch_infos e commits r.
Lemma infos_spec b : b ∈ infos <-> exists n o, b = local n /\ given e commits r n o.
Proof.
  unfold infos, branch_infos. rewrite elem_of_list_In, filter_In, in_flat_map, negb_true_iff, String.eqb_neq. split.
  - intros ((o & Ho & Hb) & Nm). apply elem_of_list_In, HideUndoProofs.branches_at_spec in Hb as [Hb Hl]. apply is_local_spec in Hl as (n & ->).
    exists n, o. rewrite suffix_local in Nm. split; [reflexivity|]. split; [exact Hb|]. split; [|exact Nm]. now apply elem_of_elements, elem_of_list_In.
  - intros (n & o & -> & Hb & Ho & Nm). rewrite suffix_local. split; [|exact Nm]. exists o. split; [now apply elem_of_list_In, elem_of_elements|].
    apply elem_of_list_In, HideUndoProofs.branches_at_spec. split; [exact Hb|]. apply is_local_spec. now exists n.
Qed.
Lemma names_infos n : n ∈ List.map NavModel.render_suffix infos <-> exists o, given e commits r n o.
Proof.
  rewrite elem_of_list_In, in_map_iff. split.
  - intros (b & <- & Hb). apply elem_of_list_In, infos_spec in Hb as (m & o & -> & G). exists o. now rewrite suffix_local.
  - intros (o & G). exists (local n). split; [apply suffix_local|]. apply elem_of_list_In, infos_spec. now exists n, o.
Qed.
Lemma to_fetch_spec remote n : (remote, n) ∈ flat_map (with_remote (push_remote (sr_config r))) (List.map NavModel.render_suffix infos) <->
  (exists o, given e commits r n o) /\ pushes_to r n remote.
Proof.
  rewrite elem_of_list_In, in_flat_map, <- push_remote_spec, <- names_infos. unfold with_remote. split.
  - intros (m & Hm & H). destruct (push_remote (sr_config r) m) as [x|] eqn:E; [|easy]. destruct H as [H|[]]. injection H as -> ->. split; [now apply elem_of_list_In|exact E].
  - intros [H E]. exists n. split; [now apply elem_of_list_In|]. rewrite E. now left.
Qed.
Let at_ o := List.filter (fun b => bool_decide (b ∈ infos)) (sorted_names (branches_at (sr_refs r) o)).
Lemma at_spec o b : b ∈ at_ o <-> exists n, b = local n /\ given e commits r n o.
Proof.
  unfold at_. rewrite elem_of_list_In, filter_In, bool_decide_eq_true, <- elem_of_list_In, sorted_elem, HideUndoProofs.branches_at_spec, infos_spec. split.
  - intros ((Hb & _) & n & o' & -> & G). exists n. split; [reflexivity|]. destruct G as (G & Go & Gm). change (sr_refs r !! local n = Some o') in G. assert (o' = o) as -> by congruence. split; auto.
  - intros (n & -> & G). split; [|now exists n, o]. destruct G as (G & _). split; [exact G|]. apply is_local_spec. now exists n.
Qed.
Lemma at_nodup o : NoDup (at_ o).
Proof.
  unfold at_. apply NoDup_ListNoDup, List.NoDup_filter, NoDup_ListNoDup. rewrite names_le_perm. unfold branches_at.
  apply NoDup_ListNoDup. assert (Q : forall (l : list (refname * oid)), List.NoDup (List.map fst l) -> forall f, List.NoDup (List.map fst (List.filter f l))).
  { intros l ND f. induction l as [|x l IH]; cbn; [constructor|]. inversion ND as [|? ? N1 N2]; subst. destruct (f x); cbn; [|auto]. constructor; [|auto].
    intros H. apply N1. apply in_map_iff in H as (y & Ey & Hy). apply filter_In in Hy as [Hy _]. rewrite <- Ey. now apply in_map. }
  pose proof (NoDup_fst_map_to_list (sr_refs r)) as ND. apply NoDup_ListNoDup in ND.
  first [ apply Q; exact ND | apply List.NoDup_filter; exact ND ].
Qed.
Lemma at_one o b : at_ o = [b] <-> exists n, b = local n /\ alone e commits r n o.
Proof.
  split.
  - intros E. assert (Hb : b ∈ at_ o) by (rewrite E; left). apply at_spec in Hb as (n & -> & G). exists n. split; [reflexivity|]. split; [exact G|].
    intros m Gm. assert (Hm : local m ∈ at_ o) by (apply at_spec; now exists m). rewrite E in Hm. apply elem_of_list_singleton in Hm. now apply local_inj.
  - intros (n & -> & G & Al). pose proof (at_nodup o) as ND. assert (Hb : local n ∈ at_ o) by (apply at_spec; now exists n).
    assert (All : forall b, b ∈ at_ o -> b = local n) by (intros b Hin; apply at_spec in Hin as (m & -> & Gm); now rewrite (Al m Gm)).
    destruct (at_ o) as [|x l]; [now apply elem_of_nil in Hb|]. rewrite (All x) by left. f_equal. destruct l as [|y l]; [reflexivity|].
    exfalso. pose proof (All x ltac:(left)) as ->. pose proof (All y ltac:(right; left)) as ->. apply NoDup_cons in ND as [N _]. apply N. left.
Qed.
Definition st (n : string) (o : oid) : submit_status :=
  match upstream_at r' n with None => Unsubmitted | Some u => if decide (o = u) then UpToDate else NeedsUpdate end.
Lemma status_alone n o : alone e commits r n o ->
  status_of infos r r' o = mk_cs (st n o) (match upstream_at r' n with None => None | Some _ => push_remote (sr_config r) n end) (Some n).
Proof.
  intros Al. unfold status_of. change (List.filter _ _) with (at_ o). rewrite (proj2 (at_one o (local n))) by (now exists n). rewrite suffix_local. unfold st.
  destruct (upstream_at r' n) as [u|]; [|reflexivity]. destruct (decide (o = u)); reflexivity.
Qed.
Lemma status_other o : (forall n, ~ alone e commits r n o) -> cs_local (status_of infos r r' o) = None.
Proof.
  intros Na. unfold status_of. change (List.filter _ _) with (at_ o). destruct (at_ o) as [|b [|c l]] eqn:E; [reflexivity| |reflexivity].
  exfalso. apply at_one in E as (n & _ & Al). now apply (Na n).
Qed.
Let sts := List.map (status_of infos r r') (elements (with_branches r)).
Lemma alone_dec o : (exists n, alone e commits r n o) \/ (forall n, ~ alone e commits r n o).
Proof.
  destruct (at_ o) as [|b [|c l]] eqn:E.
  - right. intros n Al. assert (at_ o = [local n]) by (apply at_one; now exists n). congruence.
  - left. apply at_one in E as (n & _ & Al). now exists n.
  - right. intros n Al. assert (at_ o = [local n]) by (apply at_one; now exists n). congruence.
Qed.
Lemma alone_branches n o : alone e commits r n o -> o ∈ elements (with_branches r).
Proof.
  intros ((G & _) & _). apply elem_of_elements. unfold with_branches. apply elem_of_list_to_set, elem_of_list_In, in_map_iff. exists (local n, o). split; [reflexivity|].
  apply filter_In. split; [now apply elem_of_list_In, elem_of_map_to_list|]. apply is_local_spec. now exists n.
Qed.
Lemma sts_spec s n : s ∈ sts -> cs_local s = Some n -> exists o, alone e commits r n o /\
  s = mk_cs (st n o) (match upstream_at r' n with None => None | Some _ => push_remote (sr_config r) n end) (Some n).
Proof.
  intros Hs Hl. unfold sts in Hs. apply elem_of_list_In, in_map_iff in Hs as (o & <- & _). destruct (alone_dec o) as [(m & Al)|Na].
  - rewrite (status_alone m o Al) in *. cbn in Hl. injection Hl as ->. exists o. auto.
  - rewrite (status_other o Na) in Hl. discriminate.
Qed.
Lemma sts_there n o : alone e commits r n o ->
  mk_cs (st n o) (match upstream_at r' n with None => None | Some _ => push_remote (sr_config r) n end) (Some n) ∈ sts.
Proof.
  intros Al. rewrite <- (status_alone n o Al). unfold sts. apply elem_of_list_In, in_map, elem_of_list_In. now apply (alone_branches n).
Qed.
Lemma names_status X n : n ∈ names_of (with_status X sts) <-> exists o, alone e commits r n o /\ st n o = X.
Proof.
  unfold names_of, with_status. rewrite elem_of_list_omap. split.
  - intros (s & Hs & Hl). apply elem_of_list_In, filter_In in Hs as [Hs Hx]. apply bool_decide_eq_true in Hx. apply elem_of_list_In in Hs.
    destruct (sts_spec s n Hs Hl) as (o & Al & ->). exists o. auto.
  - intros (o & Al & E). eexists. split; [|]; cycle 1; [|apply elem_of_list_In, filter_In; split; [apply elem_of_list_In, (sts_there n o Al)|now apply bool_decide_eq_true]]. reflexivity.
Qed.
Lemma to_update_spec remote n :
  (remote, n) ∈ flat_map (fun s => match cs_remote s, cs_local s with Some x, Some n => [(x, n)] | _, _ => [] end) (with_status NeedsUpdate sts) <->
  exists o, alone e commits r n o /\ st n o = NeedsUpdate /\ pushes_to r n remote.
Proof.
  rewrite elem_of_list_In, in_flat_map. unfold with_status. split.
  - intros (s & Hs & H). apply filter_In in Hs as [Hs Hx]. apply bool_decide_eq_true in Hx. apply elem_of_list_In in Hs.
    destruct (cs_remote s) as [x|] eqn:Er; [|easy]. destruct (cs_local s) as [m|] eqn:El; [|easy]. destruct H as [H|[]]. injection H as -> ->.
    destruct (sts_spec s n Hs El) as (o & Al & ->). cbn in Er, Hx. exists o. split; [exact Al|]. split; [exact Hx|]. apply push_remote_spec.
    destruct (upstream_at r' n); [exact Er|discriminate].
  - intros (o & Al & E & P). eexists. split; [apply filter_In; split; [apply elem_of_list_In, (sts_there n o Al)|now apply bool_decide_eq_true]|]. cbn.
    apply push_remote_spec in P. rewrite P. unfold st in E. destruct (upstream_at r' n); [now left|discriminate].
Qed.
Lemma st_new n o : st n o = Unsubmitted <-> no_upstream r' n.
Proof.
  rewrite <- no_upstream_spec. unfold st. destruct (upstream_at r' n) as [u|]; [|tauto]. destruct (decide (o = u)); split; discriminate.
Qed.
Lemma st_same n o : st n o = UpToDate <-> upstream r' n o.
Proof.
  rewrite <- upstream_spec. unfold st. destruct (upstream_at r' n) as [u|]; [|split; discriminate]. destruct (decide (o = u)) as [->|N]; [tauto|]. split; congruence.
Qed.
Lemma st_changed n o : st n o = NeedsUpdate <-> exists u, upstream r' n u /\ u <> o.
Proof.
  unfold st. destruct (upstream_at r' n) as [u|] eqn:E.
  - destruct (decide (o = u)) as [->|N].
    + split; [discriminate|]. intros (v & Hv & Nv). apply upstream_spec in Hv. congruence.
    + split; [|reflexivity]. intros _. exists u. split; [now apply upstream_spec|congruence].
  - split; [discriminate|]. intros (v & Hv & Nv). apply upstream_spec in Hv. congruence.
Qed.
End statuses.

(** ** Submitting *)
Section submit.
Context (e : submit_env) (create_ dry_run : bool) (commits : commit_set) (r : srepo).
Hypothesis plain : plain_remotes r.
Hypothesis plain_new : forall remote, new_go_to e r remote -> plain_name remote.
Let res := submit e create_ dry_run commits r.
Let to_fetch remote n := (exists o, given e commits r n o) /\ pushes_to r n remote.
Let new r0 remote n := create_ = true /\ dry_run = false /\ new_go_to e r remote /\ exists o, alone e commits r n o /\ no_upstream r0 n.
Let old r0 remote n := dry_run = false /\ exists o, alone e commits r n o /\ (exists u, upstream r0 n u /\ u <> o) /\ pushes_to r n remote.
Lemma groups_plain f l : (forall remote n, (remote, n) ∈ l -> plain_name remote) -> f = by_remote l -> forall remote names, (remote, names) ∈ f -> plain_name remote.
Proof.
  intros P -> remote names H. unfold by_remote in H. apply elem_of_list_In, in_map_iff in H as (x & E & Hx). injection E as -> _.
  apply elem_of_list_In in Hx. rewrite sorted_elem, elem_of_remove_dups in Hx. apply elem_of_list_In, in_map_iff in Hx as ((a & b) & <- & Hi). apply (P a b). now apply elem_of_list_In.
Qed.
Lemma query_spec r0 ok : query_status e commits r = (r0, ok) ->
  fetched_in to_fetch r r0 /\ match ok with
  | None => True
  | Some sts => fetched_ok to_fetch r r0 /\ sts = List.map (status_of (branch_infos e commits r) r r0) (elements (with_branches r))
  end.
Proof.
  unfold query_status. set (l := flat_map _ _). destruct (fetch_all (by_remote l) r) as [r1 ok1] eqn:E.
  assert (Eq : forall remote n, in_groups (by_remote l) remote n <-> to_fetch remote n) by (intros remote n; rewrite in_by_remote; apply to_fetch_spec).
  destruct (fetch_all_spec (by_remote l) r r1 ok1) as [[A B C] O].
  - apply (groups_plain _ l); [|reflexivity]. intros remote n H. apply to_fetch_spec in H as [_ H]. now apply (plain n).
  - exact E.
  - assert (F : fetched_in to_fetch r r1).
    { constructor; auto. intros b. destruct (C b) as [H|(x & n & Hl & H)]; [now left|]. right. exists x, n. split; [now apply Eq|exact H]. }
    destruct ok1; intros H; injection H as <- <-; (split; [exact F|]); [|exact Logic.I]. split; [|reflexivity]. intros x n Hl. apply (O eq_refl). now apply Eq.
Qed.
Lemma push_remote_config a b n remote : sr_config a = sr_config b -> pushes_to a n remote <-> pushes_to b n remote.
Proof. intros E. unfold pushes_to. now rewrite E. Qed.
Lemma new_go_to_config a b remote : sr_config a = sr_config b -> new_go_to e a remote <-> new_go_to e b remote.
Proof. intros E. unfold new_go_to, pushes_to. now rewrite E. Qed.
Lemma fetched_of r0 : fetched_in to_fetch r r0 -> fetched_ok to_fetch r r0 -> fetched e commits r r0.
Proof.
  intros [A B C] O. constructor; auto.
  - intros n o remote G P Nd. destruct (O remote n) as [[v Hv] T]; [split; [now exists o|exact P]|exact Nd|]. exists v. split; [exact Hv|]. change (sr_refs r0 !! tracking remote n = Some v). congruence.
  - intros b Nb. destruct (C b) as [H|(remote & n & [[o G] P] & Nd & T & _)]; [exact H|]. exfalso. exact (Nb n o remote G P Nd T).
Qed.
Lemma submit_spec : exists r0 r2,
  let r1 := after_others e r0 in
  fetched_in to_fetch r r0 /\
  pushed e SetUpstream (new r0) r1 r2 /\ pushed e WithLease (old r0) r2 (su_repo res) /\
  (fetched_ok to_fetch r r0 \/ (r2 = r1 /\ su_repo res = r1 /\ su_ok res = false)) /\
  (su_ok res = false -> su_submitted res = [] /\ su_updated res = [] /\ su_skipped res = [] /\ su_unsubmitted res = []) /\
  (su_ok res = true -> fetched_ok to_fetch r r0 /\ pushed_ok e SetUpstream (new r0) r1 r2 /\ pushed_ok e WithLease (old r0) r2 (su_repo res) /\
    (create_ = true -> dry_run = false -> exists remote, new_go_to e r remote) /\
    (forall n, n ∈ su_submitted res <-> create_ = true /\ exists o, alone e commits r n o /\ no_upstream r0 n) /\
    (forall n, n ∈ su_unsubmitted res <-> create_ = false /\ exists o, alone e commits r n o /\ no_upstream r0 n) /\
    (forall n, n ∈ su_skipped res <-> exists o, alone e commits r n o /\ upstream r0 n o) /\
    (forall n, n ∈ su_updated res <-> exists o, alone e commits r n o /\ exists u, upstream r0 n u /\ u <> o)).
Proof.
  unfold res, submit. destruct (query_status e commits r) as [r0 [sts|]] eqn:Q; destruct (query_spec _ _ Q) as [F O].
  2:{ exists r0, (after_others e r0). cbn. split_and!; auto using pushed_refl; try discriminate. }
  destruct O as [O ->]. set (sts := List.map _ (elements (with_branches r))).
  assert (Cf : sr_config (after_others e r0) = sr_config r) by apply F.
  assert (Un : forall n, n ∈ names_of (with_status Unsubmitted sts) <-> exists o, alone e commits r n o /\ no_upstream r0 n).
  { intros n. unfold sts. rewrite names_status. split; intros (o & Al & H); exists o; (split; [exact Al|]); [now apply st_new in H|now apply st_new]. }
  assert (Up : forall n, n ∈ names_of (with_status UpToDate sts) <-> exists o, alone e commits r n o /\ upstream r0 n o).
  { intros n. unfold sts. rewrite names_status. split; intros (o & Al & H); exists o; (split; [exact Al|]); now apply st_same. }
  assert (Ne : forall n, n ∈ names_of (with_status NeedsUpdate sts) <-> exists o, alone e commits r n o /\ exists u, upstream r0 n u /\ u <> o).
  { intros n. unfold sts. rewrite names_status. split; intros (o & Al & H); exists o; (split; [exact Al|]); now apply st_changed. }
  assert (Tu : forall remote n, in_groups (by_remote (flat_map (fun s => match cs_remote s, cs_local s with Some x, Some n => [(x, n)] | _, _ => [] end) (with_status NeedsUpdate sts))) remote n <->
    exists o, alone e commits r n o /\ (exists u, upstream r0 n u /\ u <> o) /\ pushes_to r n remote).
  { intros remote n. rewrite in_by_remote. unfold sts. rewrite to_update_spec. split; intros (o & Al & H & P); exists o; (split; [exact Al|]); (split; [now apply st_changed|exact P]). }
  set (c := if (create_ && negb dry_run)%bool then create e (with_status Unsubmitted sts) (after_others e r0) else (after_others e r0, true)).
  assert (Cr : forall r2 ok, c = (r2, ok) -> pushed e SetUpstream (new r0) (after_others e r0) r2 /\ (ok = true -> pushed_ok e SetUpstream (new r0) (after_others e r0) r2 /\
    (create_ = true -> dry_run = false -> exists remote, new_go_to e r remote))).
  { intros r2 ok. unfold c. destruct (create_ && negb dry_run)%bool eqn:Eb.
    - apply andb_true_iff in Eb as [Ec Ed]. apply negb_true_iff in Ed. unfold create. destruct (default_remote e (after_others e r0)) as [remote|] eqn:Dr.
      + apply default_remote_spec, (new_go_to_config _ r remote Cf) in Dr. pose proof (plain_new _ Dr) as Pr. destruct (sorted_names (names_of (with_status Unsubmitted sts))) as [|x l] eqn:Es.
        * intros H. injection H as <- <-. split; [apply pushed_refl|]. intros _. split; [|now exists remote].
          assert (No : forall x n, ~ new r0 x n).
          { intros x n (_ & _ & _ & H). apply Un in H. apply sorted_elem in H. rewrite Es in H. now apply elem_of_nil in H. }
          constructor; [intros x n H|intros x n o H|intros x n _ H]; now apply No in H.
        * rewrite <- Es. intros H.
          assert (Eq : forall y n, (y = remote /\ n ∈ x :: l) <-> new r0 y n).
          { intros y n. rewrite <- Es, sorted_elem, Un. split.
            - intros [-> H1]. unfold new. auto.
            - intros (_ & _ & Hr & H1). split; [|exact H1]. apply default_remote_spec in Hr, Dr. congruence. }
          rewrite Es in H. destruct (git_push_spec _ _ _ _ _ _ _ Pr H) as [P Ok]. split.
          -- apply (pushed_mono _ _ (fun y n => y = remote /\ n ∈ x :: l)); [intros y n; apply Eq|exact P].
          -- intros ->. split; [|now exists remote]. destruct (Ok eq_refl) as [X Y Z]. constructor.
             ++ intros y m Hy. apply (X y). now apply Eq.
             ++ intros y m o Hy. apply (Y y m o). now apply Eq.
             ++ intros y m Hh Hy. destruct (Z y m Hh (proj2 (Eq _ _) Hy)) as (z & Hz & E). exists z. split; [now apply Eq|exact E].
      + intros H. injection H as <- <-. split; [apply pushed_refl|discriminate].
    - intros H. injection H as <- <-. split; [apply pushed_refl|]. intros _. split; [|intros -> ->; discriminate].
      assert (No : forall x n, ~ new r0 x n). { intros x n (Hc & Hd & _). rewrite Hc, Hd in Eb. discriminate. }
      constructor; [intros x n H|intros x n o H|intros x n _ H]; now apply No in H. }
  destruct c as [r2 ok2] eqn:Ec. destruct (Cr r2 ok2 eq_refl) as [P1 O1]. destruct ok2.
  2:{ exists r0, r2. cbn. split_and!; auto using pushed_refl; try discriminate. }
  destruct (O1 eq_refl) as [K1 D1].
  set (u := if dry_run then (r2, true) else update e (with_status NeedsUpdate sts) r2).
  assert (Ur : forall r3 ok, u = (r3, ok) -> pushed e WithLease (old r0) r2 r3 /\ (ok = true -> pushed_ok e WithLease (old r0) r2 r3)).
  { intros r3 ok. unfold u. destruct dry_run eqn:Ed.
    - intros H. injection H as <- <-. split; [apply pushed_refl|]. intros _. constructor; [intros x n H|intros x n o H|intros x n _ H]; destruct H as [H _]; discriminate.
    - unfold update. set (l := flat_map _ _) in *. intros H. destruct (push_all_spec e (by_remote l) r2 r3 ok) as [P Ok].
      + apply (groups_plain _ l); [|reflexivity]. intros remote n Hl. apply in_by_remote, Tu in Hl as (o & _ & _ & Hp). now apply (plain n).
      + exact H.
      + assert (Eq : forall x n, in_groups (by_remote l) x n <-> old r0 x n) by (intros x n; rewrite Tu; unfold old; tauto). split.
        * apply (pushed_mono _ _ (in_groups (by_remote l))); [intros x n; apply Eq|exact P].
        * intros ->. destruct (Ok eq_refl) as [X Y Z]. constructor.
          -- intros y m Hy. apply (X y). now apply Eq.
          -- intros y m o Hy. apply (Y y m o). now apply Eq.
          -- intros y m Hh Hy. destruct (Z y m Hh (proj2 (Eq _ _) Hy)) as (z & Hz & E). exists z. split; [now apply Eq|exact E]. }
  destruct u as [r3 ok3] eqn:Eu. destruct (Ur r3 ok3 eq_refl) as [P2 O2]. destruct ok3.
  2:{ exists r0, r2. cbn. split_and!; auto; try discriminate. }
  exists r0, r2. cbn. split_and!; auto; try discriminate. intros _. split_and!; auto.
  - intros n. destruct create_; [rewrite sorted_elem, Un; tauto|]. split; [intros H; now apply elem_of_nil in H|intros [H _]; discriminate].
  - intros n. destruct create_; [|rewrite sorted_elem, Un; tauto]. split; [intros H; now apply elem_of_nil in H|intros [H _]; discriminate].
  - intros n. now rewrite sorted_elem, Up.
  - intros n. now rewrite sorted_elem, Ne.
Qed.
End submit.

Section consequences.
Context (e : submit_env) (create_ dry_run : bool) (commits : commit_set) (r : srepo).
Hypothesis PS : plain_setting e r.
Let res := submit e create_ dry_run commits r.
Let plain : plain_remotes r := proj1 PS.
Let plain_new : forall remote, new_go_to e r remote -> plain_name remote := proj2 PS.

Lemma pushed_apart l r1 r2 n : pushed e SetUpstream l r1 r2 -> (forall remote, ~ l remote n) -> (forall remote m, l remote m -> plain_name remote) ->
  forall remote, plain_name remote -> rb r2 remote n = rb r1 remote n /\ sr_refs r2 !! tracking remote n = sr_refs r1 !! tracking remote n.
Proof.
  intros P No Pl remote Pr. split.
  - destruct (pu_remote _ _ _ _ _ P remote n) as [H|(H & _)]; [exact H|]. now apply No in H.
  - destruct (pu_refs _ _ _ _ _ P (tracking remote n)) as [H|(x & m & o & H & _ & T & _)]; [exact H|].
    apply tracking_inj in T as [<- <-]; [now apply No in H|exact Pr|now apply (Pl x m)].
Qed.

Lemma submit_only remote n :
  let before := remote_branch (sv_meanwhile e (sr_remotes r)) remote n in
  let after := remote_branch (sr_remotes (su_repo res)) remote n in
  after = before \/
  (dry_run = false /\ exists o r0, alone e commits r n o /\ after = Some o /\ fetched e commits r r0 /\ sv_accepts e remote n o = true /\
    ((create_ = true /\ new_go_to e r remote /\ no_upstream r0 n /\ forall v, before = Some v -> sv_forward e v o = true) \/
     (pushes_to r n remote /\ (exists u, upstream r0 n u /\ u <> o) /\ is_Some before /\ before = remote_branch (sr_remotes r) remote n))).
Proof.
  intros before after. destruct (submit_spec e create_ dry_run commits r plain plain_new) as (r0 & r2 & F & P1 & P2 & O & _). fold res in P2, O.
  assert (B1 : rb (after_others e r0) remote n = before) by (unfold rb, before; cbn; now rewrite (fi_remotes _ _ _ F)).
  change after with (rb (su_repo res) remote n). destruct O as [O|(-> & -> & _)]; [|now left].
  pose proof (fetched_of e commits r r0 F O) as Fd.
  destruct (pu_remote _ _ _ _ _ P2 remote n) as [E2|((Hd & o & Al & (u & Hu & Nu) & Hp) & Nd & o' & Ho & E2 & A2)].
  - rewrite E2. destruct (pu_remote _ _ _ _ _ P1 remote n) as [E1|((Hc & Hd & Hg & o & Al & Nu) & Nd & o' & Ho & E1 & A1)]; [left; congruence|].
    assert (o' = o) as ->. { destruct Al as ((G & _) & _). cbn in Ho. destruct (fi_refs _ _ _ F (local n)) as [Q|(x & m & _ & _ & T & _)]; [|now apply local_not_tracking in T]. unfold local in *. congruence. }
    unfold push_allowed in A1. apply orb_true_iff in A1 as [A1|A1].
    { left. apply bool_decide_eq_true in A1. change (rb (after_others e r0) remote n = Some o) in A1. congruence. }
    apply andb_true_iff in A1 as [A1 A3]. right. split; [exact Hd|]. exists o, r0. split; [exact Al|]. split; [exact E1|]. split; [exact Fd|]. split; [exact A3|].
    left. split; [exact Hc|]. split; [exact Hg|]. split; [exact Nu|]. intros v Hv.
    change (remote_branch _ _ _) with (rb (after_others e r0) remote n) in A1. rewrite B1, Hv in A1. exact A1.
  - assert (o' = o) as ->.
    { destruct Al as ((G & _) & _). rewrite (pushed_local _ _ _ _ _ n P1) in Ho. cbn in Ho. destruct (fi_refs _ _ _ F (local n)) as [Q|(x & m & _ & _ & T & _)]; [|now apply local_not_tracking in T]. unfold local in *. congruence. }
    pose proof (plain n remote Hp) as Pr.
    destruct (pushed_apart _ _ _ n P1) with (remote := remote) as [Q1 Q2].
    + intros x (_ & _ & _ & o'' & _ & Nu'). now apply (Nu' u).
    + intros x m (_ & _ & Hg & _). now apply plain_new.
    + exact Pr.
    + unfold push_allowed in A2. change (remote_branch (sr_remotes r2) remote n) with (rb r2 remote n) in A2. rewrite Q1, Q2, B1 in A2.
      apply orb_true_iff in A2 as [A2|A2].
      { left. apply bool_decide_eq_true in A2. congruence. }
      apply andb_true_iff in A2 as [A2 A3]. apply bool_decide_eq_true in A2. cbn in A2.
      destruct (O remote n) as [S T]; [split; [exists o; apply Al|exact Hp]|exact Nd|].
      right. split; [exact Hd|]. exists o, r0. split; [exact Al|]. split; [exact E2|]. split; [exact Fd|]. split; [exact A3|]. right.
      split; [exact Hp|]. split; [now exists u|]. rewrite A2, T. split; [exact S|reflexivity].
Qed.
Lemma submit_here :
  (forall b, (forall remote n, b <> tracking remote n) -> sr_refs (su_repo res) !! b = sr_refs r !! b) /\
  (forall n, sr_config (su_repo res) !! n = sr_config r !! n \/
    (create_ = true /\ dry_run = false /\ exists o remote, alone e commits r n o /\ new_go_to e r remote /\
      sr_config (su_repo res) !! n = Some (mk_bc (match sr_config r !! n with Some b => bc_push b | None => None end) (Some remote) (Some n)))) /\
  (forall remote n, plain_name remote -> sr_refs (su_repo res) !! tracking remote n = sr_refs r !! tracking remote n \/
    sr_refs (su_repo res) !! tracking remote n = remote_branch (sr_remotes r) remote n \/
    sr_refs (su_repo res) !! tracking remote n = remote_branch (sr_remotes (su_repo res)) remote n).
Proof.
  destruct (submit_spec e create_ dry_run commits r plain plain_new) as (r0 & r2 & F & P1 & P2 & O & _). fold res in P2, O. split_and!.
  - intros b Nb. destruct (pu_refs _ _ _ _ _ P2 b) as [E2|(x & n & o & _ & _ & T & _)]; [|now apply Nb in T].
    destruct (pu_refs _ _ _ _ _ P1 b) as [E1|(x & n & o & _ & _ & T & _)]; [|now apply Nb in T]. rewrite E2, E1. cbn.
    destruct (fi_refs _ _ _ F b) as [E|(x & n & _ & _ & T & _)]; [exact E|now apply Nb in T].
  - intros n. destruct (pu_config _ _ _ _ _ P2 n) as [E2|(H & _)]; [|discriminate]. rewrite E2.
    destruct (pu_config _ _ _ _ _ P1 n) as [E1|(_ & x & (Hc & Hd & Hg & o & Al & _) & E1)]; rewrite E1; cbn; rewrite (fi_config _ _ _ F); [now left|].
    right. split; [exact Hc|]. split; [exact Hd|]. exists o, x. auto.
  - intros remote n Pr. destruct (pu_refs _ _ _ _ _ P2 (tracking remote n)) as [E2|(x & m & o & (Hd & o' & Al & _ & Hp) & _ & T & E2 & _ & Q)].
    + rewrite E2. destruct (pu_refs _ _ _ _ _ P1 (tracking remote n)) as [E1|(x & m & o & (Hc & Hd & Hg & o' & Al & _) & _ & T & E1 & Ql & Q)].
      * rewrite E1. cbn. destruct (fi_refs _ _ _ F (tracking remote n)) as [E|(x & m & [_ Hp] & _ & T & _ & E)]; [now left|].
        apply tracking_inj in T as [<- <-]; [right; left; exact E|exact Pr|now apply (plain m)].
      * apply tracking_inj in T as [<- <-]; [|exact Pr|now apply plain_new]. right. right. rewrite E1.
        destruct (pu_remote _ _ _ _ _ P2 remote n) as [Q2|(_ & _ & o2 & Ho2 & Q2 & _)]; [unfold rb in *; congruence|].
        rewrite (pushed_local _ _ _ _ _ n P1) in Ho2. unfold rb in *. congruence.
    + apply tracking_inj in T as [<- <-]; [|exact Pr|now apply (plain m)]. right. right. unfold rb in Q. congruence.
Qed.
Lemma submit_reported :
  (su_ok res = false -> su_submitted res = [] /\ su_updated res = [] /\ su_skipped res = [] /\ su_unsubmitted res = []) /\
  (su_ok res = true -> exists r0, fetched e commits r r0 /\ forall n,
    (n ∈ su_submitted res <-> create_ = true /\ exists o, alone e commits r n o /\ no_upstream r0 n) /\
    (n ∈ su_unsubmitted res <-> create_ = false /\ exists o, alone e commits r n o /\ no_upstream r0 n) /\
    (n ∈ su_skipped res <-> exists o, alone e commits r n o /\ upstream r0 n o) /\
    (n ∈ su_updated res <-> exists o, alone e commits r n o /\ exists u, upstream r0 n u /\ u <> o)).
Proof.
  destruct (submit_spec e create_ dry_run commits r plain plain_new) as (r0 & r2 & F & P1 & P2 & _ & Q & K). fold res in P2, Q, K. split; [exact Q|].
  intros Ok. destruct (K Ok) as (O & _ & _ & _ & A & B & C & D). exists r0. split; [now apply fetched_of|]. intros n. split_and!; auto.
Qed.
Lemma fetched_local r0 n : fetched_in (fun remote n => (exists o, given e commits r n o) /\ pushes_to r n remote) r r0 -> sr_refs r0 !! local n = sr_refs r !! local n.
Proof. intros F. destruct (fi_refs _ _ _ F (local n)) as [Q|(x & m & _ & _ & T & _)]; [exact Q|now apply local_not_tracking in T]. Qed.
Lemma submit_pushed : su_ok res = true -> dry_run = false ->
  (forall n, n ∈ su_submitted res -> exists o remote, alone e commits r n o /\ new_go_to e r remote /\
    (remote <> "." -> remote_branch (sr_remotes (su_repo res)) remote n = Some o /\ upstream (su_repo res) n o)) /\
  (forall n, n ∈ su_updated res -> exists o remote, alone e commits r n o /\ pushes_to r n remote /\
    (remote <> "." -> remote_branch (sr_remotes (su_repo res)) remote n = Some o)).
Proof.
  intros Ok Dr. destruct (submit_spec e create_ dry_run commits r plain plain_new) as (r0 & r2 & F & P1 & P2 & _ & _ & K). fold res in P2, K.
  destruct (K Ok) as (O & K1 & K2 & Hr & A & B & C & D). split.
  - intros n Hn. apply A in Hn as (Hc & o & Al & Nu). destruct (Hr Hc Dr) as (remote & Hg). exists o, remote. split; [exact Al|]. split; [exact Hg|]. intros Nd.
    assert (Hl : sr_refs (after_others e r0) !! local n = Some o). { cbn. rewrite (fetched_local r0 n F). apply Al. }
    assert (Hnew : create_ = true /\ dry_run = false /\ new_go_to e r remote /\ exists o, alone e commits r n o /\ no_upstream r0 n) by (split_and!; auto; now exists o).
    destruct (pk_remote _ _ _ _ _ K1 remote n o Hnew Hl Nd) as (R1 & T1 & S1).
    assert (No : forall x, ~ (dry_run = false /\ exists o, alone e commits r n o /\ (exists u, upstream r0 n u /\ u <> o) /\ pushes_to r n x)).
    { intros x (_ & o' & _ & (u & Hu & _) & _). now apply (Nu u). }
    split.
    + destruct (pu_remote _ _ _ _ _ P2 remote n) as [Q|(Q & _)]; [unfold rb in *; congruence|now apply No in Q].
    + destruct (pk_config _ _ _ _ _ K1 remote n eq_refl Hnew) as (x & (_ & _ & Hgx & _) & Ec). assert (x = remote) as ->.
      { apply default_remote_spec in Hgx, Hg. congruence. }
      destruct (pu_config _ _ _ _ _ P2 n) as [E2|(H & _)]; [|discriminate]. rewrite Ec in E2. eexists _, remote, n. split; [exact E2|]. split; [reflexivity|]. split; [reflexivity|].
      right. split; [exact Nd|]. split; [now apply (pu_present _ _ _ _ _ P2)|].
      destruct (pu_refs _ _ _ _ _ P2 (tracking remote n)) as [Q|(y & m & o' & Hy & _ & T & Q & Ql & _)]; [unfold tracking in *; congruence|].
      apply tracking_inj in T as [<- <-]; [now apply No in Hy|now apply plain_new|destruct Hy as (_ & _ & _ & _ & Hp); now apply (plain m)].
  - intros n Hn. apply D in Hn as (o & Al & u & Hu & Nu). assert (Hu' := Hu). apply upstream_remote in Hu' as (remote & Hp).
    apply (push_remote_config r0 r) in Hp; [|apply F]. exists o, remote. split; [exact Al|]. split; [exact Hp|]. intros Nd.
    apply (pk_remote _ _ _ _ _ K2 remote n o); [| |exact Nd].
    + split; [exact Dr|]. exists o. split; [exact Al|]. split; [now exists u|exact Hp].
    + rewrite (pushed_local _ _ _ _ _ n P1). cbn. rewrite (fetched_local r0 n F). apply Al.
Qed.
End consequences.

(** ** Submitting again *)
Lemma fetch_all_total l r : (forall remote n, in_groups l remote n -> is_Some (sr_refs r !! local n)) ->
  (forall remote n, in_groups l remote n -> remote <> "." -> is_Some (remote_branch (sr_remotes r) remote n)) -> snd (fetch_all l r) = true.
Proof.
  revert r. induction l as [|[remote names] l IH]; intros r L H; cbn [fetch_all]; [reflexivity|].
  destruct (git_fetch remote names r) as [r1 ok1] eqn:E1. destruct (git_fetch_spec _ _ _ _ _ E1) as [G _]. assert (ok1 = true) as ->.
  { revert E1. unfold git_fetch. assert (Here : forall n, In n names -> in_groups ((remote, names) :: l) remote n).
    { intros n Hn. exists names. split; [left|now apply elem_of_list_In]. }
    destruct (String.eqb_spec remote ".") as [Ed|Ed].
    - intros E1. injection E1 as <- <-. apply forallb_forall. intros n Hn. apply bool_decide_eq_true. apply (L remote). now apply Here.
    - destruct (forallb _ names) eqn:F; intros E1; injection E1 as <- <-; [reflexivity|].
      exfalso. apply not_true_iff_false in F. apply F, forallb_forall. intros n Hn. apply bool_decide_eq_true, H; [|exact Ed]. now apply Here. }
  assert (There : forall x n, in_groups l x n -> in_groups ((remote, names) :: l) x n) by (intros x n (q & Hq & Hn); exists q; split; [now right|exact Hn]).
  apply IH.
  - intros x n Hx. destruct (fi_refs _ _ _ G (local n)) as [->|(y & m & _ & _ & T & _)]; [apply (L x n); now apply There|now apply local_not_tracking in T].
  - intros x n Hx Nd. rewrite (fi_remotes _ _ _ G). apply H; [now apply There|exact Nd].
Qed.
Lemma none_in {A} (l : list A) : (forall x, x ∉ l) -> l = [].
Proof. destruct l as [|x l]; [reflexivity|]. intros H. exfalso. apply (H x). left. Qed.
Section again.
Context (e : submit_env) (create_ : bool) (commits : commit_set) (r : srepo).
Hypothesis PS : plain_setting e r.
Hypothesis Quiet : forall rs, sv_meanwhile e rs = rs.
Hypothesis Own : own_upstreams e commits r.
Let res := submit e create_ false commits r.
Hypothesis Ok : su_ok res = true.
Hypothesis NewThere : create_ = true -> ~ new_go_to e r ".".
Let r' := su_repo res.
Lemma submit_again : let res' := submit e create_ false commits r' in
  su_ok res' = true /\ su_submitted res' = [] /\ su_updated res' = [] /\
  forall remote n, remote_branch (sr_remotes (su_repo res')) remote n = remote_branch (sr_remotes r') remote n.
Proof.
  destruct PS as [plain plain_new].
  destruct (submit_spec e create_ false commits r plain plain_new) as (r0 & r2 & F & P1 & P2 & _ & _ & K). fold res in P2, K. fold r' in P2, K.
  destruct (K Ok) as (O & K1 & K2 & Hr & _). clear K.
  assert (Loc : forall n, sr_refs r' !! local n = sr_refs r !! local n).
  { intros n. rewrite (pushed_local _ _ _ _ _ n P2), (pushed_local _ _ _ _ _ n P1). cbn. now apply (fetched_local e commits). }
  assert (Giv : forall n o, given e commits r' n o <-> given e commits r n o) by (intros n o; unfold given; change ("refs/heads/" +:+ n) with (local n); now rewrite Loc).
  assert (Alo : forall n o, alone e commits r' n o <-> alone e commits r n o).
  { intros n o. unfold alone. rewrite Giv. split; intros [G A]; (split; [exact G|]); intros m Gm; apply A; now apply Giv. }
  assert (Cfg : forall n, sr_config r' !! n = sr_config r !! n \/ (create_ = true /\ no_upstream r0 n /\ exists o remote, alone e commits r n o /\ new_go_to e r remote /\
    sr_config r' !! n = Some (mk_bc (match sr_config r !! n with Some b => bc_push b | None => None end) (Some remote) (Some n)))).
  { intros n. destruct (pu_config _ _ _ _ _ P2 n) as [E2|(H & _)]; [|discriminate]. rewrite E2.
    destruct (pu_config _ _ _ _ _ P1 n) as [E1|(_ & x & (Hc & _ & Hg & o & Al & Nu) & E1)]; rewrite E1; cbn; rewrite (fi_config _ _ _ F); [now left|].
    right. split; [exact Hc|]. split; [exact Nu|]. exists o, x. auto. }
  (* what has its own upstream *)
  assert (Has : forall n o c, alone e commits r n o -> sr_config r !! n = Some c -> exists remote v, remote <> "." /\ pushes_to r n remote /\ bc_remote c = Some remote /\ bc_merge c = Some n /\
    rb r remote n = Some v /\ upstream r0 n v).
  { intros n o c Al Ec. destruct (Own n o c Al Ec) as (remote & Nd & Hp & Er & Em). destruct (O remote n) as [[v S] T]; [split; [exists o; apply Al|exact Hp]|exact Nd|].
    exists remote, v. split_and!; auto. exists c, remote, n. rewrite (fi_config _ _ _ F). split; [exact Ec|]. split; [exact Er|]. split; [exact Em|]. right. split; [exact Nd|].
    rewrite (fi_remotes _ _ _ F). split.
    - unfold remote_branch in S. destruct (sr_remotes r !! remote); [eauto|discriminate].
    - change (sr_refs r0 !! tracking remote n = Some v). congruence. }
  assert (NoCfg : forall n o, alone e commits r n o -> no_upstream r0 n -> sr_config r !! n = None).
  { intros n o Al Nu. destruct (sr_config r !! n) as [c|] eqn:Ec; [|reflexivity]. destruct (Has n o c Al Ec) as (_ & v & _ & _ & _ & _ & _ & Hu). now apply Nu in Hu. }
  assert (Rest : forall remote n, is_Some (rb r remote n) -> is_Some (rb r' remote n)).
  { intros remote n S. destruct (pu_remote _ _ _ _ _ P2 remote n) as [E2|(_ & _ & o & _ & E2 & _)]; rewrite E2; [|eauto].
    destruct (pu_remote _ _ _ _ _ P1 remote n) as [E1|(_ & _ & o & _ & E1 & _)]; rewrite E1; [|eauto]. unfold rb. cbn. now rewrite Quiet, (fi_remotes _ _ _ F). }
  assert (Main : forall remote, new_go_to e r' remote <-> new_go_to e r remote).
  { assert (E : sr_config r' !! sv_main e = sr_config r !! sv_main e).
    { destruct (Cfg (sv_main e)) as [E|(_ & _ & o & x & ((_ & _ & N) & _) & _)]; [exact E|congruence]. }
    intros remote. unfold new_go_to, pushes_to. now rewrite E. }
  (* pushed where *)
  assert (NewAt : forall n o remote, create_ = true -> alone e commits r n o -> no_upstream r0 n -> new_go_to e r remote -> rb r' remote n = Some o).
  { intros n o remote Hc Al Nu Hg. assert (Nd : remote <> ".") by (intros ->; now apply NewThere).
    assert (Hl : sr_refs (after_others e r0) !! local n = Some o). { cbn. rewrite (fetched_local e commits r r0 n F). apply Al. }
    destruct (pk_remote _ _ _ _ _ K1 remote n o) as (R1 & _); [split_and!; auto; now exists o|exact Hl|exact Nd|].
    destruct (pu_remote _ _ _ _ _ P2 remote n) as [Q|((_ & o' & _ & (u & Hu & _) & _) & _)]; [congruence|now apply Nu in Hu]. }
  assert (OldAt : forall n o c remote, alone e commits r n o -> sr_config r !! n = Some c -> remote <> "." -> pushes_to r n remote -> rb r' remote n = Some o).
  { intros n o c remote Al Ec Nd Hp. destruct (Has n o c Al Ec) as (remote' & v & Nd' & Hp' & Er & Em & Hv & Hu).
    assert (remote' = remote) as -> by (apply push_remote_spec in Hp, Hp'; congruence).
    assert (Hl : sr_refs r2 !! local n = Some o). { rewrite (pushed_local _ _ _ _ _ n P1). cbn. rewrite (fetched_local e commits r r0 n F). apply Al. }
    destruct (decide (v = o)) as [->|N].
    - destruct (pu_remote _ _ _ _ _ P2 remote n) as [E2|(_ & _ & o' & Ho' & E2 & _)]; [|congruence]. rewrite E2.
      destruct (pu_remote _ _ _ _ _ P1 remote n) as [E1|((_ & _ & _ & o' & _ & Nu) & _)]; [|now apply Nu in Hu]. rewrite E1. unfold rb. cbn. rewrite Quiet, (fi_remotes _ _ _ F). exact Hv.
    - apply (pk_remote _ _ _ _ _ K2 remote n o); [|exact Hl|exact Nd]. split; [reflexivity|]. exists o. split; [exact Al|]. split; [now exists v|exact Hp]. }
  assert (Pu : forall n remote, pushes_to r' n remote -> pushes_to r n remote \/ (create_ = true /\ no_upstream r0 n /\ new_go_to e r remote /\ exists o, alone e commits r n o)).
  { intros n remote (c & Ec & Hc). destruct (Cfg n) as [E|(Hcr & Nu & o & x & Al & Hg & E)].
    - left. exists c. split; [congruence|exact Hc].
    - right. rewrite (NoCfg n o Al Nu) in E. assert (c = mk_bc None (Some x) (Some n)) as -> by congruence. cbn in Hc. destruct Hc as [Hc|[_ Hc]]; [discriminate|].
      injection Hc as <-. split_and!; auto. now exists o. }
  assert (plain' : plain_remotes r').
  { intros n remote Hp. destruct (Pu n remote Hp) as [H|(_ & _ & H & _)]; [now apply (plain n)|now apply plain_new]. }
  assert (plain_new' : forall remote, new_go_to e r' remote -> plain_name remote) by (intros remote H; now apply plain_new, Main).
  (* the second time *)
  assert (Q : snd (query_status e commits r') = Some (List.map (status_of (branch_infos e commits r') r' (fst (query_status e commits r'))) (elements (with_branches r')))).
  { unfold query_status. set (l := flat_map _ _). destruct (fetch_all (by_remote l) r') as [q ok] eqn:E. assert (ok = true) as ->; [|reflexivity].
    change ok with (snd (q, ok)). rewrite <- E. apply fetch_all_total.
    { intros remote n Hl. apply in_by_remote, to_fetch_spec in Hl as [[o G] _]. exists o. apply G. }
    intros remote n Hl Nd. apply in_by_remote, to_fetch_spec in Hl as [[o G] Hp]. apply Giv in G.
    destruct (Pu n remote Hp) as [H|(Hc & Nu & Hg & o' & Al)].
    - apply Rest. apply (O remote n); [|exact Nd]. split; [now exists o|exact H].
    - exists o'. now apply NewAt. }
  destruct (query_status e commits r') as [q0 qs] eqn:Eq. cbn [fst snd] in Q. subst qs.
  destruct (query_spec e commits r' plain' _ _ Eq) as [F' [O' _]].
  assert (Status : forall n o, alone e commits r' n o -> upstream q0 n o \/ (create_ = false /\ no_upstream q0 n)).
  { intros n o Al'. assert (Al := Al'). apply Alo in Al. destruct (sr_config r !! n) as [c|] eqn:Ec.
    - left. destruct (Has n o c Al Ec) as (remote & v & Nd & Hp & Er & Em & Hv & Hu). assert (Ec' : sr_config r' !! n = Some c).
      { destruct (Cfg n) as [E|(_ & Nu & _)]; [congruence|now apply Nu in Hu]. }
      assert (Hp' : pushes_to r' n remote) by (destruct Hp as (c' & E' & H'); exists c'; split; [congruence|exact H']).
      destruct (O' remote n) as [_ T]; [split; [exists o; apply Al'|exact Hp']|exact Nd|]. pose proof (OldAt n o c remote Al Ec Nd Hp) as Hat.
      exists c, remote, n. rewrite (fi_config _ _ _ F'), (fi_remotes _ _ _ F'). split_and!; auto. right. split; [exact Nd|]. split.
      + unfold rb, remote_branch in Hat. destruct (sr_remotes r' !! remote); [eauto|discriminate].
      + change (sr_refs q0 !! tracking remote n = Some o). rewrite T. exact Hat.
    - assert (Nu : no_upstream r0 n). { intros v (c & x & m & E & _). rewrite (fi_config _ _ _ F) in E. congruence. }
      destruct create_ eqn:Ecr.
      + left. destruct (Hr eq_refl eq_refl) as (remote & Hg). assert (Nd : remote <> ".") by (intros ->; now apply NewThere).
        pose proof (NewAt n o remote eq_refl Al Nu Hg) as Hat.
        destruct (pk_config _ _ _ _ _ K1 remote n eq_refl) as (x & (_ & _ & Hgx & _) & E1); [split_and!; auto; now exists o|].
        assert (x = remote) as -> by (apply default_remote_spec in Hgx, Hg; congruence).
        destruct (pu_config _ _ _ _ _ P2 n) as [E2|(H & _)]; [|discriminate]. rewrite E1 in E2. cbn in E2. rewrite (fi_config _ _ _ F), Ec in E2.
        assert (Hp' : pushes_to r' n remote) by (eexists; split; [exact E2|right; auto]).
        destruct (O' remote n) as [_ T]; [split; [exists o; apply Al'|exact Hp']|exact Nd|].
        eexists _, remote, n. rewrite (fi_config _ _ _ F'), (fi_remotes _ _ _ F'). split; [exact E2|]. split; [reflexivity|]. split; [reflexivity|]. right. split; [exact Nd|]. split.
        * unfold rb, remote_branch in Hat. destruct (sr_remotes r' !! remote); [eauto|discriminate].
        * change (sr_refs q0 !! tracking remote n = Some o). rewrite T. exact Hat.
      + right. split; [reflexivity|]. intros v (c & x & m & E & _). rewrite (fi_config _ _ _ F') in E.
        destruct (Cfg n) as [E'|(H & _)]; [congruence|discriminate]. }
  assert (Uniq : forall n o u, upstream q0 n o -> upstream q0 n u -> u = o) by (intros n o u H1 H2; apply upstream_spec in H1, H2; congruence).
  intros res'. unfold res', submit. rewrite Eq. set (sts := List.map _ (elements (with_branches r'))). cbn [negb]. rewrite andb_true_r.
  assert (Upd : update e (with_status NeedsUpdate sts) (after_others e q0) = (after_others e q0, true)).
  { unfold update. set (l := flat_map _ _). assert (El : l = []).
    { apply none_in. intros [x n] H. apply to_update_spec in H as (o & Al & H & _). apply st_changed in H as (u & Hu & N).
      destruct (Status n o Al) as [H|[_ H]]; [apply N; now apply (Uniq n)|now apply H in Hu]. }
    rewrite El. reflexivity. }
  assert (NoUpd : sorted_names (names_of (with_status NeedsUpdate sts)) = []).
  { apply none_in. intros n H. apply (proj1 (sorted_elem _ _)) in H. unfold sts in H. apply names_status in H as (o & Al & H). apply st_changed in H as (u & Hu & N).
    destruct (Status n o Al) as [H|[_ H]]; [apply N; now apply (Uniq n)|now apply H in Hu]. }
  assert (Rem : sr_remotes (after_others e q0) = sr_remotes r') by (cbn; rewrite Quiet; apply F').
  destruct create_ eqn:Ecr.
  - assert (NoNew : sorted_names (names_of (with_status Unsubmitted sts)) = []).
    { apply none_in. intros n H. apply (proj1 (sorted_elem _ _)) in H. unfold sts in H. apply names_status in H as (o & Al & H). 
      assert (H' : no_upstream q0 n) by (revert H; clear; unfold st; rewrite <- no_upstream_spec; destruct (upstream_at q0 n) as [u|]; [destruct (decide _); discriminate|reflexivity]). clear H. rename H' into H.
      destruct (Status n o Al) as [Hu|[Hu _]]; [now apply H in Hu|discriminate]. }
    unfold create. destruct (Hr eq_refl eq_refl) as (remote & Hg). apply Main in Hg. apply (new_go_to_config e r' (after_others e q0)) in Hg; [|symmetry; apply F'].
    apply default_remote_spec in Hg. rewrite Hg, NoNew, Upd. cbn [su_ok su_submitted su_updated su_repo]. rewrite NoUpd. split_and!; try reflexivity. intros x n. now rewrite Rem.
  - rewrite Upd. cbn [su_ok su_submitted su_updated su_repo]. rewrite NoUpd. split_and!; try reflexivity. intros x n. now rewrite Rem.
Qed.
End again.
