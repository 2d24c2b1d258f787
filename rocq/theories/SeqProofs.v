(** Git carrying out the instructions of a plan. *)
From stdpp Require Import sorting relations.
From Verif Require Import Base TextModel TextProofs EventLogModel DagModel DagSpec DagProofs StrModel StrProofs HookModel HookSpec HookProofs
  PlanModel PlanSpec PlanProofs PlanCycleProofs PlanDfsProofs PlanLabelProofs PlanBuildProofs ExecModel ExecSpec ExecProofs ExecBuildProofs
  ExecDiskProofs SeqModel SeqSpec.
Local Open Scope string_scope.
Local Open Scope list_scope.
Local Arguments oid_to_string _ : simpl never.
Local Arguments oid_from_string _ : simpl never.

(** ** Lists of instructions *)
Lemma seq_fold_halted v wss s : fold_left (fun r ws => sbind r (seq_words v ws)) wss (Halted s) = Halted s.
Proof. induction wss; [reflexivity|assumption]. Qed.
Lemma seq_fold_wrong v wss : fold_left (fun r ws => sbind r (seq_words v ws)) wss Wrong = Wrong.
Proof. induction wss; [reflexivity|assumption]. Qed.
Lemma run_app v a b s : run_words v (a ++ b) s = sbind (run_words v a s) (run_words v b).
Proof.
  unfold run_words. rewrite fold_left_app. destruct (fold_left _ a (Went s)); cbn [sbind];
    [reflexivity|apply seq_fold_halted|apply seq_fold_wrong].
Qed.
Lemma run_one v ws s : run_words v [ws] s = seq_words v ws s.
Proof. reflexivity. Qed.
Lemma sbind_went x f s : sbind x f = Went s -> exists a, x = Went a /\ f a = Went s.
Proof. destruct x; cbn; try discriminate. eauto. Qed.
Lemma run_cons v ws b s s' : run_words v (ws :: b) s = Went s' -> exists s1, seq_words v ws s = Went s1 /\ run_words v b s1 = Went s'.
Proof. change (ws :: b) with ([ws] ++ b). rewrite run_app, run_one. apply sbind_went. Qed.

(** ** Commits are never lost *)
Lemma add_object_sub ee x st : st ⊆ snd (add_object ee x st).
Proof. unfold add_object. cbn. destruct (st !! ee_hash ee x) eqn:E; [reflexivity|now apply insert_subseteq]. Qed.
Lemma note_store c s : gs_store (note_rewritten c s) = gs_store s.
Proof. unfold note_rewritten. now destruct (hs_head _). Qed.
Lemma make_store v orig ps t s : gs_store s ⊆ gs_store (make_commit v orig ps t s).
Proof.
  unfold make_commit. set (x := mk_object _ _ _ _). pose proof (add_object_sub (ge_exec v) x (gs_store s)) as H.
  now destruct (add_object (ge_exec v) x (gs_store s)).
Qed.
Lemma seq_store v ws s s' : seq_words v ws s = Went s' -> gs_store s ⊆ gs_store s'.
Proof.
  unfold seq_words. destruct (parse_todo ws) as [x|]; [|discriminate]. destruct x; cbn [seq_line].
  - destruct (hs_head _); [|discriminate]. now intros [= <-].
  - destruct (lookup_place _ _); [|discriminate]. now intros [= <-].
  - unfold seq_pick. destruct (hs_head _); [|discriminate]. destruct (gs_store s !! o); [|discriminate].
    destruct (_ || _)%bool; [discriminate|]. destruct (_ && _)%bool; [intros [= <-]; now rewrite note_store|].
    destruct (ee_pick _ _ _); try discriminate. intros [= <-]. rewrite note_store. apply make_store.
  - unfold seq_merge. destruct (hs_head _); [|discriminate]. destruct (gs_store s !! o); [|discriminate].
    destruct (all_some _); [|discriminate]. destruct (_ && _)%bool; [intros [= <-]; now rewrite note_store|].
    destruct (ge_merge _ _ _); try discriminate; intros [= <-]; rewrite note_store; [apply make_store|reflexivity].
  - discriminate.
  - now intros [= <-].
  - destruct (hook_drop_commit_if_empty _ _ _ _); [|discriminate]. now intros [= <-].
  - destruct (hook_skip_upstream_applied_commit _ _ _); [|discriminate]. now intros [= <-].
  - unfold seq_commit_tree. destruct (gs_store s !! r); [|discriminate]. destruct (all_some _); [|discriminate].
    intros [= <-]. cbn [gs_store]. apply add_object_sub.
Qed.
Lemma run_store v wss : forall s s', run_words v wss s = Went s' -> gs_store s ⊆ gs_store s'.
Proof.
  induction wss as [|ws wss IH]; intros s s'; [now intros [= <-]|]. intros H. apply run_cons in H.
  destruct H as (s1 & A & B). etrans; [eapply seq_store; eauto|eauto].
Qed.

(** ** The list of rewritten commits *)
Definition listed (file : option string) (l : list (oid * moid)) : Prop :=
  match file with None => l = [] | Some t => t = write_rewritten_list l end.

Lemma collect_in l o m : NoDup (map fst l) -> collect_map l !! o = Some m <-> (o, m) ∈ l.
Proof.
  intros N. rewrite collect_spec. split.
  - intros (b & a & -> & _). apply elem_of_app. right. left.
  - intros H. apply elem_of_list_split in H. destruct H as (b & a & ->). exists b, a. split; [reflexivity|].
    intros m' H. rewrite map_app in N. cbn in N. apply NoDup_app in N. destruct N as (_ & _ & N).
    apply NoDup_cons in N. destruct N as [N _]. apply N. apply elem_of_list_fmap. exists (o, m'). auto.
Qed.
Lemma collect_snoc l o m : collect_map (l ++ [(o, m)]) = <[o := m]> (collect_map l).
Proof. unfold collect_map. now rewrite fold_left_app. Qed.

Lemma add_listed iter file l es t : (forall m, iter m ≡ₚ map_to_list m) -> listed file l -> Forall entry_ok l -> NoDup (map fst l) ->
  Forall entry_ok es -> add_rewritten_list_entries iter file es = Some t ->
  exists l', t = write_rewritten_list l' /\ Forall entry_ok l' /\ NoDup (map fst l') /\
    forall o, collect_map l' !! o = match collect_map es !! o with Some m => Some m | None => collect_map l !! o end.
Proof.
  intros Hi Hf Hl Nd He. unfold add_rewritten_list_entries.
  assert (Er : match file with Some text => read_rewritten_list text | None => Some [] end = Some l).
  { destruct file as [text|]; cbn in Hf; subst; [now apply rewritten_round_trip|reflexivity]. }
  rewrite Er. destruct (replace_entries l (collect_map es)) as [new rem] eqn:Ep. intros [= <-].
  destruct (replace_spec _ _ _ _ Nd Ep) as [F H].
  assert (Le : forall o m, collect_map es !! o = Some m -> entry_ok (o, m)).
  { intros o m Hm. apply collect_spec in Hm. destruct Hm as (b & a & -> & _). rewrite Forall_forall in He. apply He, elem_of_app. right. left. }
  assert (Ek : map fst new = map fst l).
  { clear -F. induction F as [|a b l k [E _] _ IH]; cbn; [reflexivity|]. now rewrite E, IH. }
  assert (Nd' : NoDup (map fst (new ++ iter rem))).
  { rewrite map_app, Ek. apply NoDup_app. split_and!; [exact Nd| |].
    - intros o H1 H2. apply elem_of_list_fmap in H2. destruct H2 as ([o' m'] & -> & H2). rewrite Hi in H2.
      apply elem_of_map_to_list in H2. apply H in H2. tauto.
    - rewrite Hi. apply NoDup_fst_map_to_list. }
  exists (new ++ iter rem). split; [reflexivity|]. split; [|split; [exact Nd'|]].
  - apply Forall_app. split.
    + apply Forall_forall. intros [o m] Hm. apply elem_of_list_lookup in Hm. destruct Hm as [i Hm].
      destruct (Forall2_lookup_r _ _ _ _ _ F Hm) as ([o' m'] & Hc & Eq & X). cbn in *. subst o'.
      destruct X as [X|[_ X]]; [now apply Le|]. rewrite Forall_forall in Hl. rewrite X. apply Hl. eapply elem_of_list_lookup_2, Hc.
    + apply Forall_forall. intros [o m] Hm. rewrite Hi in Hm. apply elem_of_map_to_list in Hm. apply H in Hm. apply Le. tauto.
  - intros o. apply option_eq. intros m. rewrite collect_in by exact Nd'. rewrite elem_of_app, Hi, elem_of_map_to_list, H.
    assert (Hnew : (o, m) ∈ new <-> o ∈ map fst l /\ (collect_map es !! o = Some m \/ collect_map es !! o = None /\ (o, m) ∈ l)).
    { split.
      - intros Hin. apply elem_of_list_lookup in Hin. destruct Hin as [i Hin].
        destruct (Forall2_lookup_r _ _ _ _ _ F Hin) as ([o' m'] & Hc & Eq & X). cbn in *. subst o'.
        apply elem_of_list_lookup_2 in Hc. split; [apply elem_of_list_fmap; exists (o, m'); auto|].
        destruct X as [X|[X1 X2]]; [auto|]. right. split; [exact X1|]. now rewrite X2.
      - intros [Hin X]. apply elem_of_list_fmap in Hin. destruct Hin as ([o' m'] & -> & Hin).
        assert (Hm : collect_map l !! o' = Some m') by now apply collect_in.
        apply elem_of_list_lookup in Hin. destruct Hin as [i Hin].
        destruct (Forall2_lookup_l _ _ _ _ _ F Hin) as ([o2 m2] & Hc & Eq & Y). cbn in *. subst o2.
        apply elem_of_list_lookup_2 in Hc.
        destruct X as [X|[X1 X2]], Y as [Y|[Y1 Y2]].
        + assert (m2 = m) as -> by congruence. exact Hc.
        + congruence.
        + congruence.
        + apply collect_in in X2; [|exact Nd]. injection Y2 as ->. assert (m' = m) as <- by congruence. exact Hc. }
    rewrite Hnew. destruct (collect_map es !! o) as [m0|] eqn:E0.
    + split; [intros [[_ [X|[X _]]]|[X _]]; congruence|]. intros X. destruct (decide (o ∈ map fst l)); tauto.
    + rewrite collect_in by exact Nd. split; [intros [[_ [X|[_ X]]]|[X _]]; [congruence|exact X|congruence]|].
      intros X. left. split; [|auto]. apply elem_of_list_fmap. exists (o, m). auto.
Qed.

Lemma note_text l c n : write_rewritten_list (l ++ [(c, NonZero n)]) =
  write_rewritten_list l +:+ oid_to_string c +:+ " " +:+ oid_to_string n +:+ String LF "".
Proof.
  unfold write_rewritten_list. rewrite map_app, unlines_app. cbn [map unlines fst snd].
  rewrite <- !sapp_assoc. reflexivity.
Qed.
Lemma note_listed c n s l : hs_head (gs_hooks s) = Some n -> listed (hs_rewritten (gs_hooks s)) l ->
  listed (hs_rewritten (gs_hooks (note_rewritten c s))) (l ++ [(c, NonZero n)]).
Proof.
  intros Hh Hl. unfold note_rewritten. rewrite Hh. cbn [gs_hooks with_hooks hs_rewritten listed]. rewrite note_text.
  destruct (hs_rewritten (gs_hooks s)) as [t|]; cbn in Hl; subst; reflexivity.
Qed.

(** ** Reading the instructions *)
Lemma parse_place s t o : lookup_place s t = Some o -> is_Some (gs_store s !! o).
Proof. unfold lookup_place. destruct (match gs_labels s !! t with Some o => Some o | None => oid_from_string t end); [|discriminate]. destruct (decide _); [|discriminate]. now intros [= <-]. Qed.
Lemma parse_pick c : oid_ok c -> parse_todo (instruction (Pick c [c])) = Some (TPick c).
Proof. intros H. cbn. now rewrite nzoid_text_round_trip. Qed.
Lemma parse_drop c : oid_ok c -> parse_todo (instruction (DetectEmpty c)) = Some (TDrop c).
Proof. intros H. cbn. now rewrite nzoid_text_round_trip. Qed.
Lemma parse_skip c : oid_ok c -> parse_todo (instruction (SkipUpstream c)) = Some (TSkip c).
Proof. intros H. cbn. now rewrite nzoid_text_round_trip. Qed.
Lemma parse_merge c ts : oid_ok c -> parse_todo (instruction (Merge c ts)) = Some (TMerge c (List.map place_text ts)).
Proof. intros H. cbn. now rewrite nzoid_text_round_trip. Qed.

(** Labels do not look like commits. *)
Definition dashed (l : string) : Prop := ~ lacks "-" l.
Lemma dashed_oid l o : dashed l -> l <> oid_to_string o.
Proof. intros H ->. apply H. apply hex_lacks; [repeat constructor; discriminate|apply oid_hex]. Qed.
Lemma dashed_app a b : dashed a -> dashed (a +:+ b).
Proof. unfold dashed. rewrite lacks_app. tauto. Qed.
Lemma make_label_dashed fuel used : forall name r, dashed name -> make_label fuel used name = Done r -> dashed (fst r).
Proof.
  induction fuel as [|fuel IH]; intros name r Hn; cbn; [discriminate|]. destruct (decide _); [|intros [= <-]; exact Hn].
  apply IH. now apply dashed_app.
Qed.
Lemma create_label_dashed prefix s x : dashed prefix -> create_label prefix s = Done x -> dashed (fst x).
Proof.
  intros Hp. unfold create_label. destruct (make_label _ _ _) as [y| |] eqn:Em; cbn; try discriminate. intros [= <-]. cbn.
  eapply make_label_dashed; [|exact Em]. now apply dashed_app.
Qed.
Lemma dashed_parent : dashed "parent-".
Proof. intros H. apply H. cbn. do 6 right. left. Qed.
Lemma dashed_label : dashed "label-".
Proof. intros H. apply H. cbn. do 5 right. left. Qed.

Lemma disk_fate_mono (L L' : oid -> oid -> Prop) d cs e v rw rw' st st' c :
  (forall p q, L p q -> L' p q) -> rw' !! c = rw !! c -> st ⊆ st' ->
  disk_fate_with L d cs e v rw st c -> disk_fate_with L' d cs e v rw' st' c.
Proof.
  intros HL Hc S.
  assert (Up : forall o x, st !! o = Some x -> st' !! o = Some x) by (intros o x H; now apply (lookup_weaken st)).
  assert (Mk : forall T c ps n x, made_with v T st c ps n x -> made_with v T st' c ps n x).
  { intros T c0 ps n x (orig & A & B & C). exists orig. auto. }
  intros [p q H1 H2 H3 H4 H5|p q n x qx H1 H2 H3 H4 H5 H6 H7|qs n H1 H2 H3 H4].
  - eapply disk_skipped; eauto; [congruence|]. destruct H5 as [H5|(n & x & qx & A & B & C)]; [auto|].
    right. exists n, x, qx. auto.
  - eapply (disk_picked _ _ _ _ _ _ _ _ p q n x qx); eauto. congruence.
  - eapply (disk_merged _ _ _ _ _ _ _ _ qs n); eauto; [congruence|eapply Forall2_impl; eauto|].
    destruct H4 as [[x H4]|(H4 & H5 & y & H6)]; [eauto|]. right. split_and!; auto. exists y. eapply lookup_weaken; eauto.
Qed.
