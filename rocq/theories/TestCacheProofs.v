(** Proofs about kept test results, the options of [git test] and its hints. *)
From Verif Require Import Base TextModel TextProofs SnapModel TestCacheModel TestCacheSpec.
Local Open Scope string_scope.

(** ** Looking *)

Lemma read_saved_not sv : read_saved sv <> OSignalled /\ read_saved sv <> OInProgress.
Proof.
  unfold read_saved. destruct (read_name (sv_head sv)), (read_name (sv_tree sv)); repeat case_decide; split; discriminate.
Qed.

Lemma command_runs_spec busy o tree k :
  command_runs busy o tree k <-> (make_test_files busy o tree k).1 = NotCached.
Proof.
  unfold command_runs, run_test. destruct (make_test_files busy o tree k) as [[x|] k1] eqn:E; cbn; [|done].
  split; [|discriminate]. intros ->. exfalso. revert E. unfold make_test_files.
  destruct (ro_cache o); cbn; [|congruence]. case_bool_decide; [congruence|].
  destruct (default Absent (k !! key o tree)) as [| | | |s]; try congruence.
  intros [= E _]. exact (proj1 (read_saved_not s) E).
Qed.

(** Looking changes at most one file, which is empty or not there afterwards. *)
Lemma mtf_at busy o tree k x f : (make_test_files busy o tree k).2 !! x = Some f ->
  k !! x = Some f \/ f = Absent \/ f = Empty.
Proof.
  unfold make_test_files. destruct (ro_cache o); cbn; [|auto]. case_bool_decide; cbn.
  - intros [[<- <-]|[_ ?]]%lookup_insert_Some; [|auto]. destruct (k !! key o tree); cbn; auto.
  - destruct (default Absent (k !! key o tree)); cbn; auto;
      intros [[<- <-]|[_ ?]]%lookup_insert_Some; auto.
Qed.

Lemma mtf_keeps busy o tree k x sv : k !! x = Some (Result sv) -> (make_test_files busy o tree k).2 !! x = Some (Result sv).
Proof.
  intros H. unfold make_test_files. destruct (ro_cache o); cbn; [|done]. case_bool_decide; cbn.
  - destruct (decide (key o tree = x)) as [<-|n]; [rewrite lookup_insert, H; done|now rewrite lookup_insert_ne].
  - destruct (decide (key o tree = x)) as [<-|n]; [rewrite H; done|].
    destruct (default Absent (k !! key o tree)); cbn; rewrite ?lookup_insert_ne by done; done.
Qed.

Lemma mtf_runs busy o tree k sv : k !! key o tree = Some (Result sv) -> (make_test_files busy o tree k).1 = NotCached ->
  ro_cache o = false.
Proof.
  unfold make_test_files. destruct (ro_cache o); cbn; [|done]. intros ->. cbn. case_bool_decide; discriminate.
Qed.

Lemma clean_at trees : forall k x f, (clean trees k).2 !! x = Some f <-> k !! x = Some f /\ x.1 ∉ trees.
Proof.
  induction trees as [|t ts IH]; intros k x f; cbn [clean].
  - cbn. rewrite elem_of_nil. tauto.
  - unfold clean_one. destruct (clean ts _) as [n k2] eqn:E. cbn [snd].
    assert (E2 : k2 = (clean ts (filter (fun y => y.1.1 <> t) k)).2) by now rewrite E. subst k2.
    rewrite IH, map_filter_lookup_Some, elem_of_cons. cbn. tauto.
Qed.

(** ** Histories *)

Lemma cache_after_snoc h x : cache_after (h ++ [x])%list = apply_op x (cache_after h).
Proof. unfold cache_after. now rewrite fold_left_app. Qed.

Lemma not_cleaned_snoc tree h x : not_cleaned tree (h ++ [x])%list <->
  not_cleaned tree h /\ match x with Clean ts => tree ∉ ts | _ => True end.
Proof.
  unfold not_cleaned. setoid_rewrite elem_of_app. setoid_rewrite elem_of_list_singleton. split.
  - intros H. split; [auto|]. destruct x; auto.
  - intros [H1 H2] ts [?| <-]; auto.
Qed.

Lemma ran_before_snoc h x tree s code a i c : ran_before h tree s code a i c ->
  match x with Clean ts => tree ∉ ts | _ => True end -> ran_before (h ++ [x])%list tree s code a i c.
Proof.
  intros (h1 & busy & h2 & -> & ? & ? & ?) Hx. exists h1, busy, (h2 ++ [x])%list. rewrite not_cleaned_snoc.
  rewrite <- (app_assoc h1). done.
Qed.
Lemma torn_before_snoc h x tree s : torn_before h tree s ->
  match x with Clean ts => tree ∉ ts | _ => True end -> torn_before (h ++ [x])%list tree s.
Proof.
  intros (h1 & busy & o & h2 & -> & ? & ? & ?) Hx. exists h1, busy, o, (h2 ++ [x])%list. rewrite not_cleaned_snoc.
  rewrite <- (app_assoc h1). done.
Qed.

(** Where what is in the files comes from. *)
Lemma cache_origin h : forall t s f, cache_after h !! (t, s) = Some f ->
  match f with
  | Absent | Empty => True
  | Unreadable => False
  | Garbage => torn_before h t s
  | Result sv => exists code a i c, ran_before h t s code a i c /\ sv = saved_of (mk_ro c true i) code a
  end.
Proof.
  induction h as [|x h IH] using rev_ind; intros t s f H.
  { unfold cache_after in H; cbn [fold_left] in H; now rewrite lookup_empty in H. }
  rewrite cache_after_snoc in H.
  assert (K : cache_after h !! (t, s) = Some f -> match x with Clean ts => t ∉ ts | _ => True end ->
    match f with
    | Absent | Empty => True
    | Unreadable => False
    | Garbage => torn_before (h ++ [x])%list t s
    | Result sv => exists code a i c, ran_before (h ++ [x])%list t s code a i c /\ sv = saved_of (mk_ro c true i) code a
    end).
  { intros Hf Hx. specialize (IH _ _ _ Hf). destruct f; auto using torn_before_snoc.
    destruct IH as (code & a & i & c & R & ->). exists code, a, i, c. auto using ran_before_snoc. }
  assert (M : forall busy o tree, (make_test_files busy o tree (cache_after h)).2 !! (t, s) = Some f ->
    match x with Clean ts => t ∉ ts | _ => True end ->
    match f with
    | Absent | Empty => True
    | Unreadable => False
    | Garbage => torn_before (h ++ [x])%list t s
    | Result sv => exists code a i c, ran_before (h ++ [x])%list t s code a i c /\ sv = saved_of (mk_ro c true i) code a
    end).
  { intros busy o tree [Hf|[-> | ->]]%mtf_at Hx; [exact (K Hf Hx)|exact I|exact I]. }
  destruct x as [busy o tree res|busy o tree torn|busy o tree|ts]; cbn [apply_op] in H.
  - unfold run_test in H. specialize (M busy o tree).
    destruct (make_test_files busy o tree (cache_after h)) as [[y|] k1] eqn:E; cbn [fst snd] in *; [now apply M|].
    destruct res as [| | |code a]; cbn [snd] in *; try now apply M.
    destruct (ro_cache o) eqn:C; [|now apply M].
    apply lookup_insert_Some in H as [[Hk <-]|[_ H]]; [|now apply M].
    unfold key in Hk. injection Hk as <- <-. exists code, a, (ro_interactive o), (ro_command o).
    assert (Eo : o = mk_ro (ro_command o) true (ro_interactive o)) by (destruct o; cbn in *; now subst).
    rewrite <- Eo. split; [|done]. exists h, busy, []. rewrite <- Eo. split; [done|]. split; [done|].
    split; [apply command_runs_spec; now rewrite E|]. intros ts Hts. now apply elem_of_nil in Hts.
  - specialize (M busy o tree).
    destruct (make_test_files busy o tree (cache_after h)) as [[y|] k1] eqn:E; cbn [fst snd] in *; [now apply M|].
    destruct torn; cbn [andb] in H; [|now apply M]. destruct (ro_cache o) eqn:C; [|now apply M].
    apply lookup_insert_Some in H as [[Hk <-]|[_ H]]; [|now apply M].
    unfold key in Hk. injection Hk as <- <-. exists h, busy, o, []. split; [done|]. split; [done|]. split; [done|].
    intros ts Hts. now apply elem_of_nil in Hts.
  - exact (M busy o tree H I).
  - apply clean_at in H as [H1 H2]. cbn in H2. now apply K.
Qed.

Lemma result_keeps x k t s sv : k !! (t, s) = Some (Result sv) ->
  match x with Clean ts => t ∉ ts | _ => True end -> apply_op x k !! (t, s) = Some (Result sv).
Proof.
  intros H Hx. destruct x as [busy o tree res|busy o tree torn|busy o tree|ts]; cbn [apply_op].
  - unfold run_test. pose proof (mtf_keeps busy o tree k _ _ H) as K. pose proof (mtf_runs busy o tree k sv) as R.
    destruct (make_test_files busy o tree k) as [[y|] k1] eqn:E; cbn [fst snd] in *; [done|].
    destruct res as [| | |code a]; cbn [snd] in *; try done. destruct (ro_cache o) eqn:C; [|done].
    destruct (decide (key o tree = (t, s))) as [Ek|n]; [|now rewrite lookup_insert_ne].
    rewrite Ek in R. specialize (R H eq_refl). discriminate.
  - pose proof (mtf_keeps busy o tree k _ _ H) as K. pose proof (mtf_runs busy o tree k sv) as R.
    destruct (make_test_files busy o tree k) as [[y|] k1] eqn:E; cbn [fst snd] in *; [done|].
    destruct torn; cbn [andb]; [|done]. destruct (ro_cache o) eqn:C; [|done].
    destruct (decide (key o tree = (t, s))) as [Ek|n]; [|now rewrite lookup_insert_ne].
    rewrite Ek in R. specialize (R H eq_refl). discriminate.
  - now apply mtf_keeps.
  - apply clean_at. auto.
Qed.

Lemma result_lasts t s sv h2 : forall h1, cache_after h1 !! (t, s) = Some (Result sv) -> not_cleaned t h2 ->
  cache_after (h1 ++ h2)%list !! (t, s) = Some (Result sv).
Proof.
  induction h2 as [|x h2 IH] using rev_ind; intros h1 H N; [now rewrite app_nil_r|].
  apply not_cleaned_snoc in N as [N1 N2]. rewrite app_assoc, cache_after_snoc. apply result_keeps; auto.
Qed.

(** ** Reading a result back *)

Lemma read_saved_of o code a : (forall x, lb_head a = Some x -> oid_ok x) -> (forall x, lb_tree a = NonZero x -> oid_ok x) ->
  tells_of code a (ro_interactive o) true (read_saved (saved_of o code a)).
Proof.
  intros H1 H2. unfold read_saved, saved_of, status_of. cbn [sv_head sv_tree sv_code sv_interactive sv_command].
  destruct (decide (code = 0%Z)) as [->|n0].
  - cbn [fix_of fi_head fi_tree].
    assert (R1 : read_name (option_map oid_to_string (lb_head a)) = Some (lb_head a)).
    { destruct (lb_head a); cbn [option_map read_name]; [|done]. now rewrite nzoid_text_round_trip by auto. }
    rewrite R1.
    set (t := match lb_changes a with NoChanges | Unstaged => match lb_tree a with NonZero t => Some t | Zero => None end | _ => None end).
    assert (R2 : read_name (option_map oid_to_string t) = Some t).
    { subst t. destruct (lb_changes a), (lb_tree a); cbn [option_map read_name]; try done; rewrite nzoid_text_round_trip by auto; done. }
    rewrite R2. constructor; [done|]. subst t. unfold contents_left.
    destruct (lb_changes a) eqn:E1, (lb_tree a) eqn:E2; auto.
  - destruct (decide (code = 125%Z)) as [->|n1]; cbn; [now constructor|].
    destruct (decide (code = 127%Z)) as [->|n2]; cbn; [now constructor|]. now constructor.
Qed.

Lemma status_tells o code a : tells_of code a (ro_interactive o) false (status_of o code a).
Proof.
  unfold status_of. case_decide as E0; [subst code; constructor; [done|]|].
  - unfold contents_left. destruct (lb_changes a) eqn:E1, (lb_tree a) eqn:E2; auto.
  - case_decide as E1; [subst; now constructor|]. case_decide as E2; [subst; now constructor|]. now constructor.
Qed.

Lemma good_ran h tree s code a i c : Forall good_op h -> ran_before h tree s code a i c ->
  (forall x, lb_head a = Some x -> oid_ok x) /\ (forall x, lb_tree a = NonZero x -> oid_ok x).
Proof.
  intros G (h1 & busy & h2 & -> & _). apply Forall_app in G as [_ G]. now apply Forall_cons in G as [G _].
Qed.

(** ** The slug *)

Lemma slug_inj s : forall s', plain s -> plain s' -> slug s = slug s' -> s = s'.
Proof.
  induction s as [|c s IH]; intros [|c' s'] P P' E; [done| | |].
  - cbn in E. destruct (_ || _)%bool in E; discriminate.
  - cbn in E. destruct (_ || _)%bool in E; discriminate.
  - cbn [plain] in P, P'. destruct P as (P1 & P2 & P3 & P), P' as (Q1 & Q2 & Q3 & Q). cbn [slug] in E.
    pose proof (Ascii.eqb_spec c "/") as X1. destruct (Ascii.eqb c "/"); [inversion X1; now subst|].
    pose proof (Ascii.eqb_spec c' "/") as Y1. destruct (Ascii.eqb c' "/"); [inversion Y1; now subst|].
    pose proof (Ascii.eqb_spec c "010") as X2. destruct (Ascii.eqb c "010"); [inversion X2; now subst|].
    pose proof (Ascii.eqb_spec c' "010") as Y2. destruct (Ascii.eqb c' "010"); [inversion Y2; now subst|].
    pose proof (Ascii.eqb_spec c " ") as X3. pose proof (Ascii.eqb_spec c' " ") as Y3.
    destruct (Ascii.eqb c " "), (Ascii.eqb c' " "); inversion X3; inversion Y3; subst; cbn in E.
    + injection E as E. f_equal. now apply IH.
    + injection E as E1 E2. now subst.
    + injection E as E1 E2. now subst.
    + injection E as -> E2. f_equal. now apply IH.
Qed.

(** ** Cleaning *)

Lemma clean_count trees : forall k, exists l, NoDup l /\ length l = (clean trees k).1
  /\ forall t, t ∈ l <-> t ∈ trees /\ exists s, is_Some (k !! (t, s)).
Proof.
  induction trees as [|t ts IH]; intros k; cbn [clean].
  { exists []. split; [constructor|]. split; [done|]. intros t. rewrite elem_of_nil. split; [done|]. now intros [? _]. }
  unfold clean_one. set (k1 := filter (fun y => y.1.1 <> t) k). destruct (IH k1) as (l & N & L & H).
  destruct (clean ts k1) as [n k2] eqn:E. cbn [fst] in *.
  assert (Ht : t ∉ l).
  { intros (_ & s & [f Hf])%H. subst k1. apply map_filter_lookup_Some in Hf as [_ Hf]. now cbn in Hf. }
  assert (Ho : forall u s, u <> t -> k1 !! (u, s) = k !! (u, s)).
  { intros u s n'. subst k1. apply option_eq. intros f. rewrite map_filter_lookup_Some. cbn. tauto. }
  assert (Hd : t ∈ map (fun x => x.1.1) (map_to_list k) <-> exists s, is_Some (k !! (t, s))).
  { rewrite elem_of_list_In, in_map_iff. split.
    - intros ([[u s] f] & <- & Hin%elem_of_list_In%elem_of_map_to_list). exists s, f. done.
    - intros (s & f & Hf). exists ((t, s), f). split; [done|]. apply elem_of_list_In. now apply elem_of_map_to_list. }
  case_bool_decide as D.
  - exists (t :: l). split; [now constructor|]. split; [cbn; now rewrite L|]. intros u. rewrite !elem_of_cons, H.
    destruct (decide (u = t)) as [->|n']; [split; [|auto]|].
    + intros _. split; [auto|]. now apply Hd.
    + setoid_rewrite (fun s => Ho u s n'). tauto.
  - exists l. split; [done|]. split; [done|]. intros u. rewrite elem_of_cons, H.
    destruct (decide (u = t)) as [->|n'].
    + split; [intros [Hu Hs]; exfalso; apply Ht; apply H; auto|]. intros [_ Hs]. exfalso. apply D, Hd, Hs.
    + setoid_rewrite (fun s => Ho u s n'). tauto.
Qed.

(** ** Quoting *)

Lemma in_quotes_esc d r : d = "034"%char \/ d = "092"%char ->
  in_quotes (String "092" (String d r)) = option_map (String d) (in_quotes r).
Proof. intros [-> | ->]; reflexivity. Qed.
Lemma app_cons c s t : String c s ++ t = String c (s ++ t).
Proof. reflexivity. Qed.

Lemma escape_reads s : without ["$"%char; "`"%char] s ->
  in_quotes (escape_all s ++ String "034" EmptyString) = Some (doubled s).
Proof.
  induction s as [|c s IH]; [done|]. cbn [without]. intros [Hc Hs]. specialize (IH Hs). cbn [escape_all doubled].
  pose proof (Ascii.eqb_spec c "034") as X1. destruct (Ascii.eqb c "034") eqn:E1.
  { inversion X1; subst c. rewrite !app_cons, in_quotes_esc, IH by auto. done. }
  pose proof (Ascii.eqb_spec c "092") as X2. destruct (Ascii.eqb c "092") eqn:E2.
  { inversion X2; subst c. rewrite !app_cons, !in_quotes_esc, IH by auto. done. }
  change ((String c (escape_all s)) ++ String "034" EmptyString) with (String c (escape_all s ++ String "034" EmptyString)).
  cbn [in_quotes]. rewrite E1, E2, IH.
  pose proof (Ascii.eqb_spec c "$") as X3. destruct (Ascii.eqb c "$"); [inversion X3; subst; now destruct Hc; left|].
  pose proof (Ascii.eqb_spec c "`") as X4. destruct (Ascii.eqb c "`"); [inversion X4; subst; now destruct Hc; right; left|].
  done.
Qed.

Lemma doubled_id s : without ["092"%char] s -> doubled s = s.
Proof.
  induction s as [|c s IH]; [done|]. cbn [without doubled]. intros [Hc Hs].
  pose proof (Ascii.eqb_spec c "092") as X. destruct (Ascii.eqb c "092"); [inversion X; subst; now destruct Hc; left|].
  now rewrite IH.
Qed.

Lemma without_sub l l' s : (forall c, c ∈ l' -> c ∈ l) -> without l s -> without l' s.
Proof. intros H. induction s as [|c s IH]; cbn; [done|]. intros [Hc Hs]. auto. Qed.

(** A backslash, [$] or backtick is never read back as it was. *)
Lemma doubled_length s : String.length s <= String.length (doubled s).
Proof. induction s as [|c s IH]; cbn; [done|]. destruct (Ascii.eqb c "092"); cbn; lia. Qed.
Lemma doubled_same s : doubled s = s -> without ["092"%char] s.
Proof.
  induction s as [|c s IH]; cbn [without doubled]; [done|]. pose proof (Ascii.eqb_spec c "092") as X.
  destruct (Ascii.eqb c "092"); intros E.
  - exfalso. apply (f_equal String.length) in E. cbn in E. pose proof (doubled_length s). lia.
  - injection E as E. split; [|auto]. intros ->%elem_of_list_singleton. now inversion X.
Qed.
Lemma escape_fails s : ~ without ["$"%char; "`"%char] s ->
  in_quotes (escape_all s ++ String "034" EmptyString) = None.
Proof.
  induction s as [|c s IH]; intros H; [now destruct H|]. cbn [escape_all without] in *.
  pose proof (Ascii.eqb_spec c "034") as X1. destruct (Ascii.eqb c "034") eqn:E1.
  { inversion X1; subst c. rewrite !app_cons, !in_quotes_esc, IH; auto. intros W. apply H. split; [|done].
    rewrite !elem_of_cons, elem_of_nil. intros [?|[?|?]]; done. }
  pose proof (Ascii.eqb_spec c "092") as X2. destruct (Ascii.eqb c "092") eqn:E2.
  { inversion X2; subst c. rewrite !app_cons, !in_quotes_esc, IH; auto. intros W. apply H. split; [|done].
    rewrite !elem_of_cons, elem_of_nil. intros [?|[?|?]]; done. }
  change ((String c (escape_all s)) ++ String "034" EmptyString) with (String c (escape_all s ++ String "034" EmptyString)).
  cbn [in_quotes]. rewrite E1, E2.
  pose proof (Ascii.eqb_spec c "$") as X3. destruct (Ascii.eqb c "$") eqn:E3; [done|].
  pose proof (Ascii.eqb_spec c "`") as X4. destruct (Ascii.eqb c "`") eqn:E4; [done|]. cbn [orb].
  rewrite IH; [done|]. intros W. apply H. split; [|done]. rewrite !elem_of_cons, elem_of_nil.
  inversion X3; inversion X4. tauto.
Qed.

Global Instance without_dec bad s : Decision (without bad s).
Proof. induction s as [|c s IH]; cbn [without]; apply _. Defined.
