(** Proofs about updating and reducing trees. *)
From Verif Require Import Base ModeModel TreeModel TreeSpec TreeProofs TreeDiffProofs.
Local Open Scope N_scope.

Lemma entry_at_app st p : forall t r, p <> [] -> r <> [] ->
  entry_at st t (p ++ r) = within st (entry_at st t p) r.
Proof.
  induction p as [|n p IH]; intros t r Hp Hr; [congruence|]. clear Hp.
  destruct p as [|m p].
  - cbn [app]. rewrite entry_at_cons_ne by exact Hr. destruct r as [|k r]; [congruence|]. reflexivity.
  - cbn [app] in *. rewrite !entry_at_cons. destruct (t !! n) as [x|]; [|destruct r; [congruence|reflexivity]].
    destruct (is_tree x); [|destruct r; [congruence|reflexivity]].
    destruct (st !! fst x) as [t'|]; [|destruct r; [congruence|reflexivity]].
    apply IH; [discriminate|exact Hr].
Qed.
Lemma file_not_dir st t p r : r <> [] -> file_at st t p <> None -> entry_at st t (p ++ r) = None.
Proof.
  intros Hr H. destruct p as [|n p]; [cbn in H; congruence|].
  rewrite entry_at_app by (discriminate || exact Hr). unfold file_at in H.
  destruct (entry_at st t (n :: p)) as [x|]; [|destruct r; [congruence|reflexivity]].
  destruct (is_tree x) eqn:E; [congruence|]. destruct r; [congruence|]. cbn. rewrite E. reflexivity.
Qed.

Lemma hydrate_tree_spec e st t u o st' : hydrate_tree e st t u = Some (o, st') -> sound e st -> closed_tree st t ->
  NoDup (map fst u) -> trees_there st u ->
  st ⊆ st' /\ sound e st' /\ exists t', st' !! o = Some t' /\ updated st t u st' t'.
Proof. apply hydrate_updated. Qed.

(** ** Paths of the result *)
Lemma nodup_value {A B} (l : list (A * B)) k a b : NoDup (map fst l) -> (k, a) ∈ l -> (k, b) ∈ l -> a = b.
Proof.
  induction l as [|[k' c] l IH]; intros Hn Ha Hb; [inversion Ha|]. cbn in Hn. apply NoDup_cons in Hn as [Hk Hn].
  apply elem_of_cons in Ha as [Ha|Ha], Hb as [Hb|Hb]; [congruence| | |eauto].
  - injection Ha as -> ->. exfalso. apply Hk, elem_of_list_fmap. exists (k', b). auto.
  - injection Hb as -> ->. exfalso. apply Hk, elem_of_list_fmap. exists (k', a). auto.
Qed.

Lemma updated_self st t u st' t' p v : updated st t u st' t' -> p <> [] -> (p, v) ∈ u -> ~ below u p ->
  entry_at st' t' p = stored v.
Proof.
  intros H Hp Hv Hb. destruct (H p Hp) as [H1 _]. destruct (H1 Hb) as [H2 _].
  rewrite (H2 p [] v); [reflexivity|]. split; [symmetry; apply app_nil_r|]. split; [exact Hp|]. split; [exact Hv|].
  intros q' v' _ Hq. exact Hq.
Qed.
Lemma updated_other st t u st' t' p : updated st t u st' t' -> p <> [] -> ~ below u p -> ~ above u p ->
  entry_at st' t' p = entry_at st t p.
Proof. intros H Hp Hb Ha. destruct (H p Hp) as [H1 _]. exact (proj2 (H1 Hb) Ha). Qed.

Lemma below_dec u p : {below u p} + {~ below u p}.
Proof.
  destruct (decide (Exists (fun x => p `prefix_of` fst x /\ fst x <> p) u)) as [Hb|Hb]; [left|right].
  - apply Exists_exists in Hb as ([q v] & Hin & [w Hw] & Hne). cbn in *. subst q.
    destruct w as [|m w]; [rewrite app_nil_r in Hne; congruence|]. exists m, w, v. exact Hin.
  - intros (m & w & v & Hin). apply Hb, Exists_exists. exists (p ++ m :: w, v). split; [exact Hin|]. cbn.
    split; [exists (m :: w); reflexivity|].
    intros Heq. assert (Hlen : length (p ++ m :: w) = length p) by (rewrite Heq; reflexivity).
    rewrite app_length in Hlen. cbn in Hlen. lia.
Qed.
Lemma above_dec u p : {above u p} + {~ above u p}.
Proof.
  destruct (decide (Exists (fun x => fst x <> [] /\ fst x `prefix_of` p) u)) as [Ha|Ha]; [left|right].
  - apply Exists_exists in Ha as ([q v] & Hx & Hne & Hpre). exists q, v. auto.
  - intros (q & v & Hx & Hne & Hpre). apply Ha, Exists_exists. exists (q, v). auto.
Qed.

(** The last update on the way. *)
Lemma governing u p : above u p -> exists q r v, governs u q r p v.
Proof.
  intros (q & v & Hin & Hq & Hpre).
  assert (H : forall k q v, (length p - length q <= k)%nat -> (q, v) ∈ u -> q <> [] -> q `prefix_of` p ->
             exists q r v, governs u q r p v).
  { induction k as [|k IH]; intros q0 v0 Hk Hin0 Hq0 Hpre0.
    - exists q0. destruct Hpre0 as [r ->]. exists r, v0. split; [reflexivity|]. split; [exact Hq0|]. split; [exact Hin0|].
      intros q' v' _ Hpre'. rewrite app_length in Hk. destruct r; [|cbn in Hk; lia]. rewrite app_nil_r in Hpre'. exact Hpre'.
    - destruct (decide (Exists (fun x => fst x `prefix_of` p /\ (length q0 < length (fst x))%nat) u)) as [He|He].
      + apply Exists_exists in He as ([q1 v1] & Hin1 & Hpre1 & Hlen1). cbn in *.
        apply (IH q1 v1); [|exact Hin1| |exact Hpre1].
        * apply prefix_length in Hpre1. lia.
        * intros ->. cbn in Hlen1. lia.
      + exists q0. pose proof Hpre0 as Hpre00. destruct Hpre0 as [r ->]. exists r, v0. split; [reflexivity|]. split; [exact Hq0|].
        split; [exact Hin0|]. intros q' v' Hin' Hpre'.
        destruct (prefix_weak_total q' q0 (q0 ++ r) Hpre' Hpre00) as [Hx|Hx]; [exact Hx|].
        destruct (decide (length q0 < length q')%nat) as [Hl|Hl].
        * exfalso. apply He, Exists_exists. exists (q', v'). split; [exact Hin'|]. split; [exact Hpre'|exact Hl].
        * destruct Hx as [[|x s] ->]; [rewrite app_nil_r; reflexivity|]. rewrite app_length in Hl. cbn in Hl. lia. }
  exact (H _ q v (le_n _) Hin Hq Hpre).
Qed.

Lemma updated_empty st t u st' t' p : updated st t u st' t' -> p <> [] -> below u p ->
  (forall n, entry_at st' t' (p ++ [n]) = None) -> entry_at st' t' p = None.
Proof.
  intros H Hp Hb Hall. destruct (H p Hp) as [_ H2]. destruct (H2 Hb) as [H3|(o & t'' & H3 & H4 & H5)]; [exact H3|].
  exfalso. apply map_choose in H5 as (n & x & Hn). specialize (Hall n).
  rewrite entry_at_app in Hall by (exact Hp || discriminate). rewrite H3 in Hall. cbn in Hall.
  replace (is_tree (o, 16384)) with true in Hall by reflexivity. rewrite H4 in Hall. congruence.
Qed.
Lemma updated_below_file st t u st' t' p : updated st t u st' t' -> below u p -> file_at st' t' p = None.
Proof.
  intros H Hb. destruct p as [|n p]; [reflexivity|].
  destruct (H (n :: p) ltac:(discriminate)) as [_ H2]. unfold file_at.
  destruct (H2 Hb) as [H3|(o & t'' & H3 & _)]; rewrite H3; reflexivity.
Qed.

(** ** It succeeds *)
Lemma accepted_in e u n : accepted e u -> accepted e (updates_in n u).
Proof.
  intros [H1 H2]. split.
  - intros q k o m Hin. apply elem_of_updates_in in Hin as [_ Hin]. exact (H1 (n :: q) k o m Hin).
  - intros q k m r v o Hin. apply elem_of_updates_in in Hin as [_ Hin]. exact (H2 (n :: q) k m r v o Hin).
Qed.
Lemma deepest_le u k : (deepest u <= k)%nat <-> forall q v, (q, v) ∈ u -> (length q <= k)%nat.
Proof.
  induction u as [|[p w] u IH]; cbn.
  - split; [intros _ q v H; inversion H|lia].
  - rewrite Nat.max_lub_iff, IH. split.
    + intros [H1 H2] q v Hin. apply elem_of_cons in Hin as [Hin|Hin]; [injection Hin as -> ->; exact H1|eauto].
    + intros H. split; [apply (H p w), elem_of_cons; left; reflexivity|].
      intros q v Hin. apply (H q v), elem_of_cons. right. exact Hin.
Qed.
Lemma put_files_total e st l : forall b, (forall n o m, (n, Some (o, m)) ∈ l -> te_accepts e n (o, mode_number m) = true
     /\ (is_tree (o, mode_number m) = true -> is_Some (st !! o))) -> is_Some (put_files e st l b).
Proof.
  induction l as [|[n v] l IH]; intros b H; cbn; [eauto|].
  assert (Hl : forall b, is_Some (put_files e st l b)).
  { intros b'. apply IH. intros k o m Hin. apply H, elem_of_cons. right. exact Hin. }
  destruct v as [[o m]|]; [|apply Hl].
  destruct (H n o m) as [Ha Ht]; [apply elem_of_cons; left; reflexivity|].
  unfold builder_insert. rewrite Ha. cbn [andb].
  destruct (is_tree (o, mode_number m)) eqn:E; cbn [negb orb]; [|apply Hl].
  rewrite bool_decide_eq_true_2 by (apply Ht; reflexivity). apply Hl.
Qed.
Lemma hydrate_total e fuel : forall st t u, (deepest u < fuel)%nat -> accepted e u -> sound e st -> closed_tree st t ->
  NoDup (map fst u) -> trees_there st u -> is_Some (hydrate fuel e st t u).
Proof.
  induction fuel as [|fuel IH]; intros st t u Hd Ha Hs Ht Hnd Htt; [lia|].
  rewrite hydrate_S.
  destruct (put_files_total e st (file_updates u) t) as [b Hb].
  { intros n o m Hin. apply elem_of_file_updates in Hin. split; [exact (proj1 Ha [] n o m Hin)|exact (Htt _ _ _ Hin)]. }
  rewrite Hb.
  destruct (put_files_spec _ _ _ _ _ Hb (file_updates_nodup _ Hnd) Ht) as (Hcb & _).
  assert (Hfold : forall l b st, NoDup l -> (forall n, n ∈ l -> n ∈ dir_names u) -> sound e st -> closed_tree st b -> trees_there st u ->
     is_Some (fold_left (dir_step fuel e u) l (Some (b, st)))).
  { clear Hb Hcb b Ht Hs Htt st. induction l as [|k l IHl]; intros b st Hl Hin Hs Hb Htt; [cbn; eauto|].
    apply NoDup_cons in Hl as [_ Hl]. cbn [fold_left].
    assert (Hk : is_Some (dir_step fuel e u (Some (b, st)) k)).
    { unfold dir_step. pose proof Hs as (_ & _ & Hc).
      destruct (IH st (existing_dir st b k) (updates_in k u)) as [[o st2] Eh].
      - assert (Hk : k ∈ dir_names u) by (apply Hin, elem_of_cons; left; reflexivity).
        apply elem_of_dir_names in Hk as (m & r & v & Hk).
        assert (H1 : (deepest u <= fuel)%nat) by lia. rewrite deepest_le in H1.
        pose proof (H1 _ _ Hk) as H2. cbn in H2.
        assert (H3 : (deepest (updates_in k u) <= pred fuel)%nat); [|lia].
        apply deepest_le. intros q w Hq. apply elem_of_updates_in in Hq as [_ Hq]. specialize (H1 _ _ Hq). cbn in H1. lia.
      - apply accepted_in, Ha.
      - exact Hs.
      - apply existing_closed, Hc.
      - apply updates_in_nodup, Hnd.
      - apply trees_there_in, Htt.
      - rewrite Eh.
        destruct (hydrate_updated fuel e _ _ _ _ _ Eh Hs (existing_closed _ _ _ Hc) (updates_in_nodup _ _ Hnd) (trees_there_in _ _ _ Htt))
          as (Hsub & Hs2 & t' & Ho & _). rewrite Ho.
        destruct (decide (t' = ∅)); [eauto|]. unfold builder_insert.
        assert (Hk : k ∈ dir_names u) by (apply Hin, elem_of_cons; left; reflexivity).
        apply elem_of_dir_names in Hk as (m & r & v & Hk).
        rewrite (proj2 Ha [] k m r v o Hk). cbn [andb fst].
        rewrite (bool_decide_eq_true_2 (is_Some (st2 !! o))) by (rewrite Ho; eauto). rewrite orb_true_r. eauto. }
    destruct Hk as [[b1 st1] Hk]. rewrite Hk.
    destruct (dir_fold fuel e u (hydrate_updated fuel e) Hnd [k] b st b1 st1) as (Hsub & Hs1 & Hb1 & _).
    { apply NoDup_singleton. }
    { cbn [fold_left]. exact Hk. }
    { exact Hs. }
    { exact Hb. }
    { exact Htt. }
    apply IHl; [exact Hl| |exact Hs1|exact Hb1|exact (trees_there_mono _ _ _ Hsub Htt)].
    intros n Hn. apply Hin, elem_of_cons. right. exact Hn. }
  destruct (Hfold (dir_names u) b st (dir_names_nodup u) (fun _ H => H) Hs Hcb Htt) as [[b' st'] Hf].
  rewrite Hf. eauto.
Qed.
Lemma hydrate_tree_total e st t u : accepted e u -> sound e st -> closed_tree st t ->
  NoDup (map fst u) -> trees_there st u -> is_Some (hydrate_tree e st t u).
Proof. intros. apply hydrate_total; [lia|assumption..]. Qed.

(** ** Reducing a tree *)
Lemma normal_idem m : normal_mode (normal_mode m) = normal_mode m.
Proof.
  unfold normal_mode at 2 3. destruct (N.land m 61440 =? 16384); [reflexivity|].
  destruct (negb (N.land m 73 =? 0)); [reflexivity|]. destruct (N.land m 61440 =? 57344); [reflexivity|].
  destruct (N.land m 61440 =? 40960); reflexivity.
Qed.
Lemma normal_usual m : usual_mode (normal_mode m).
Proof.
  unfold normal_mode, usual_mode. destruct (N.land m 61440 =? 16384); [auto|].
  destruct (negb (N.land m 73 =? 0)); [auto|]. destruct (N.land m 61440 =? 57344); [auto 6|].
  destruct (N.land m 61440 =? 40960); auto.
Qed.
Lemma usual_normal m : usual_mode m -> normal_mode m = m.
Proof. intros [->|[->|[->|[->| ->]]]]; reflexivity. Qed.
Lemma usual_number m : usual_mode m -> mode_number (mode_of_number m) = m.
Proof. intros [->|[->|[->|[->| ->]]]]; reflexivity. Qed.
Lemma is_tree_normal o m : is_tree (o, normal_mode m) = is_tree (o, m).
Proof.
  unfold is_tree, normal_mode. cbn [snd]. destruct (N.land m 61440 =? 16384); [reflexivity|].
  destruct (negb (N.land m 73 =? 0)); [reflexivity|]. destruct (N.land m 61440 =? 57344); [reflexivity|].
  destruct (N.land m 61440 =? 40960); reflexivity.
Qed.
Lemma is_tree_seen x : is_tree (seen x) = is_tree x.
Proof. destruct x as [o m]. apply is_tree_normal. Qed.
Lemma stored_read st t p : stored (read_entry st t p) = option_map seen (entry_at st t p).
Proof.
  unfold read_entry. destruct (entry_at st t p) as [[o m]|]; [|reflexivity]. cbn. unfold seen, get_filemode. cbn.
  rewrite usual_number by apply normal_usual. reflexivity.
Qed.
Lemma seen_seen x : seen (seen x) = seen x.
Proof. destruct x as [o m]. unfold seen. cbn. rewrite normal_idem. reflexivity. Qed.

(** Reading the entry of a path and then below it. *)
Lemma within_seen st v r : r <> [] -> within st (option_map seen v) r = within st v r.
Proof.
  intros Hr. destruct r as [|n r]; [congruence|]. destruct v as [x|]; [|reflexivity]. cbn [within option_map].
  rewrite is_tree_seen. reflexivity.
Qed.
Lemma seen_within st t q r : q <> [] ->
  option_map seen (within st (option_map seen (entry_at st t q)) r) = option_map seen (entry_at st t (q ++ r)).
Proof.
  intros Hq. destruct r as [|n r].
  - rewrite app_nil_r. cbn [within]. destruct (entry_at st t q) as [x|]; [|reflexivity]. cbn. rewrite seen_seen. reflexivity.
  - rewrite within_seen by discriminate. rewrite <- entry_at_app by (exact Hq || discriminate). reflexivity.
Qed.

Lemma entry_closed st p : forall t x, (forall o t, st !! o = Some t -> closed_tree st t) -> closed_tree st t ->
  entry_at st t p = Some x -> is_tree x = true -> is_Some (st !! fst x).
Proof.
  induction p as [|n p IH]; intros t x Hc Ht H Hx; [discriminate H|].
  destruct p as [|m p]; [exact (Ht _ _ H Hx)|]. rewrite entry_at_cons in H.
  destruct (t !! n) as [y|] eqn:E; [|discriminate H]. destruct (is_tree y) eqn:Ey; [|discriminate H].
  destruct (st !! fst y) as [t1|] eqn:Et; [|discriminate H]. exact (IH t1 x Hc (Hc _ _ Et) H Hx).
Qed.
Lemma trees_there_read st t ps : (forall o t, st !! o = Some t -> closed_tree st t) -> closed_tree st t ->
  trees_there st (map (fun p => (p, read_entry st t p)) ps).
Proof.
  intros Hc Ht q o m Hin Hm. apply elem_of_list_fmap in Hin as (p & Heq & _). injection Heq as -> Hv.
  pose proof (stored_read st t p) as Hs. rewrite <- Hv in Hs. cbn in Hs.
  destruct (entry_at st t p) as [x|] eqn:E; [|discriminate Hs]. injection Hs as Ho Hm'.
  rewrite Ho. apply (entry_closed st p t x Hc Ht E). destruct x as [o' m']. unfold seen in *. cbn in *.
  rewrite <- is_tree_normal, <- Hm'. unfold is_tree in *. cbn in *. exact Hm.
Qed.
Lemma map_fst_pair {A B} (f : A -> B) l : map fst (map (fun p => (p, f p)) l) = l.
Proof. rewrite map_map. cbn. apply map_id. Qed.
Lemma below_map {v} ps p : below (map (fun p => (p, v p)) ps) p <-> exists n r, p ++ n :: r ∈ ps.
Proof.
  unfold below. split.
  - intros (n & r & w & H). apply elem_of_list_fmap in H as (q & Heq & Hin). injection Heq as <- _. eauto.
  - intros (n & r & H). exists n, r, (v (p ++ n :: r)). apply elem_of_list_fmap. eauto.
Qed.
Lemma above_map {v} ps p : above (map (fun p => (p, v p)) ps) p <-> exists q, q ∈ ps /\ q <> [] /\ q `prefix_of` p.
Proof.
  unfold above. split.
  - intros (q & w & H & Hq & Hp). apply elem_of_list_fmap in H as (q' & Heq & Hin). injection Heq as -> _. eauto.
  - intros (q & H & Hq & Hp). exists q, (v q). split; [apply elem_of_list_fmap; eauto|]. auto.
Qed.
Lemma in_map_value {v : path -> option (oid * file_mode)} ps p w : (p, w) ∈ map (fun p => (p, v p)) ps -> p ∈ ps /\ w = v p.
Proof. intros H. apply elem_of_list_fmap in H as (q & Heq & Hin). injection Heq as -> ->. auto. Qed.

Lemma dehydrate_spec e st t ps o st' : dehydrate_tree e st t ps = Some (o, st') -> sound e st -> closed_tree st t -> NoDup ps ->
  st ⊆ st' /\ sound e st' /\ exists t', st' !! o = Some t' /\ reduced st t ps st' t'.
Proof.
  intros H Hs Ht Hnd. unfold dehydrate_tree in H. pose proof Hs as (_ & _ & Hc).
  destruct (hydrate_tree_spec _ _ _ _ _ _ H Hs (closed_empty st)) as (Hsub & Hs' & t' & Ho & Hup).
  { rewrite map_fst_pair. exact Hnd. }
  { apply trees_there_read; assumption. }
  split; [exact Hsub|]. split; [exact Hs'|]. exists t'. split; [exact Ho|]. split; [|split; [|split]].
  - intros p q Hq Hne Hpre Hno.
    assert (Hb : ~ below (map (fun p => (p, read_entry st t p)) ps) p) by (rewrite below_map; intros (n & r & Hin); exact (Hno _ _ Hin)).
    assert (Hp : p <> []) by (destruct Hpre as [r ->]; destruct q; [congruence|discriminate]).
    destruct (governing (map (fun p => (p, read_entry st t p)) ps) p) as (q1 & r1 & v1 & Hg); [apply above_map; eauto|].
    destruct (Hup p Hp) as [H1 _]. rewrite (proj1 (H1 Hb) _ _ _ Hg).
    destruct Hg as (-> & Hq1 & Hin1 & _). apply in_map_value in Hin1 as [_ ->]. rewrite stored_read.
    apply seen_within. exact Hq1.
  - intros p Hno Hnb. destruct p as [|n p]; [reflexivity|].
    rewrite (updated_other _ _ _ _ _ _ Hup); [apply entry_at_empty|discriminate| |].
    + rewrite below_map. intros (m & r & Hin). exact (Hnb _ _ Hin).
    + rewrite above_map. intros (q & Hq & Hne & Hpre). exact (Hno _ Hq Hne Hpre).
  - intros p n r Hin. eapply updated_below_file; [exact Hup|]. apply below_map. eauto.
  - intros p Hin Hp Hno. rewrite <- stored_read. apply (updated_self _ _ _ _ _ _ _ Hup Hp).
    + apply elem_of_list_fmap. eauto.
    + rewrite below_map. intros (n & r & Hn). exact (Hno _ _ Hn).
Qed.
