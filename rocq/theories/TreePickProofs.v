(** Proofs about cherry-picking and amending in memory. *)
From Verif Require Import Base ModeModel TreeModel TreeSpec TreeProofs TreeDiffProofs TreeOpsProofs.
Local Open Scope N_scope.

(** ** No directory contains itself *)
Lemma bounded_rank (rank : oid -> nat) (t : tree) : exists k, forall n x, t !! n = Some x -> (rank (fst x) < k)%nat.
Proof.
  induction t as [|n x t Hn [k IH]] using map_ind.
  - exists 0%nat. intros n x H. rewrite lookup_empty in H. discriminate H.
  - exists (Nat.max (S (rank (fst x))) k). intros m y Hm. apply lookup_insert_Some in Hm as [[<- <-]|[_ Hm]]; [lia|].
    specialize (IH _ _ Hm). lia.
Qed.
Lemma write_tree_grounded e b st o st' : sound e st -> closed_tree st b -> grounded st -> write_tree e b st = (o, st') -> grounded st'.
Proof.
  intros (_ & _ & Hc) Hb [rank Hr] H. unfold write_tree in H. injection H as <- <-.
  destruct (st !! te_hash e b) as [t|] eqn:E; [exists rank; exact Hr|].
  destruct (bounded_rank rank b) as [k Hk].
  exists (fun o => if decide (o = te_hash e b) then k else rank o).
  assert (Hold : forall (t : tree) n x, closed_tree st t -> t !! n = Some x -> is_tree x = true -> fst x <> te_hash e b).
  { intros t n x Ht Hn Hx Heq. destruct (Ht _ _ Hn Hx) as [t' Ht']. congruence. }
  intros o t n x Ho Hn Hx. apply lookup_insert_Some in Ho as [[<- <-]|[Hne Ho]].
  - rewrite decide_False by exact (Hold _ _ _ Hb Hn Hx). rewrite decide_True by reflexivity. exact (Hk _ _ Hn).
  - rewrite decide_False by exact (Hold _ _ _ (Hc _ _ Ho) Hn Hx). rewrite decide_False by congruence.
    exact (Hr _ _ _ _ Ho Hn Hx).
Qed.
Lemma hydrate_grounded e fuel : forall st t u o st', hydrate fuel e st t u = Some (o, st') -> sound e st -> closed_tree st t ->
  NoDup (map fst u) -> trees_there st u -> grounded st -> grounded st'.
Proof.
  induction fuel as [|fuel IH]; intros st t u o st' H Hs Ht Hnd Htt Hg; [discriminate H|].
  rewrite hydrate_S in H.
  destruct (put_files e st (file_updates u) t) as [b|] eqn:Ef; [|discriminate H].
  destruct (fold_left (dir_step fuel e u) (dir_names u) (Some (b, st))) as [[b' st1]|] eqn:Ed; [|discriminate H].
  assert (H' : write_tree e b' st1 = (o, st')) by congruence. clear H.
  destruct (put_files_spec _ _ _ _ _ Ef (file_updates_nodup _ Hnd) Ht) as (Hb & _).
  destruct (dir_fold _ _ _ (hydrate_updated fuel e) Hnd _ _ _ _ _ (dir_names_nodup u) Ed Hs Hb Htt) as (_ & Hs1 & Hb' & _).
  eapply write_tree_grounded; [exact Hs1|exact Hb'| |exact H'].
  clear H' Ef. revert b st Ed Hs Ht Htt Hg Hb. generalize (dir_names_nodup u). generalize (dir_names u) as l.
  induction l as [|k l IHl]; intros Hl b st Ed Hs Ht Htt Hg Hb.
  - cbn in Ed. injection Ed as _ ->. exact Hg.
  - apply NoDup_cons in Hl as [_ Hl]. cbn [fold_left] in Ed.
    destruct (dir_step fuel e u (Some (b, st)) k) as [[b2 st2]|] eqn:E; [|rewrite dir_step_None in Ed; discriminate Ed].
    destruct (dir_fold fuel e u (hydrate_updated fuel e) Hnd [k] b st b2 st2) as (Hsub & Hs2 & Hb2 & _).
    { apply NoDup_singleton. }
    { cbn [fold_left]. exact E. }
    { exact Hs. }
    { exact Hb. }
    { exact Htt. }
    apply (IHl Hl _ _ Ed Hs2 (closed_tree_mono _ _ _ Hsub Ht) (trees_there_mono _ _ _ Hsub Htt)); [|exact Hb2].
    unfold dir_step in E. pose proof Hs as (_ & _ & Hc).
    destruct (hydrate fuel e st (existing_dir st b k) (updates_in k u)) as [[o3 st3]|] eqn:Eh; [|discriminate E].
    assert (st2 = st3) as ->.
    { destruct (st3 !! o3) as [t3|]; [|discriminate E]. destruct (decide (t3 = ∅)); [congruence|].
      destruct (builder_insert e st3 k (o3, mode_number TreeMode) b); congruence. }
    eapply IH; [exact Eh|exact Hs|apply existing_closed, Hc|apply updates_in_nodup, Hnd|apply trees_there_in, Htt|exact Hg].
Qed.

(** ** Trees with the same files *)
Lemma tidy_dir st t n x t' : tidy_at st t -> t !! n = Some x -> is_tree x = true -> st !! fst x = Some t' -> tidy_at st t'.
Proof.
  intros H Hn Hx Ht p y Hp Hy. destruct p as [|m p]; [discriminate Hp|].
  apply (H (n :: m :: p) y); [|exact Hy]. rewrite entry_at_cons, Hn, Hx, Ht. exact Hp.
Qed.
Lemma bounded_dirs (rank : oid -> nat) (t : tree) : exists k, forall n x, t !! n = Some x -> is_tree x = true -> (rank (fst x) < k)%nat.
Proof. destruct (bounded_rank rank t) as [k Hk]. exists k. intros n x H _. exact (Hk _ _ H). Qed.
Lemma tidy_has_file st : grounded st -> forall t, t <> ∅ -> tidy_at st t -> exists p, file_at st t p <> None.
Proof.
  intros [rank Hr] t. destruct (bounded_dirs rank t) as [k Hk]. revert t Hk.
  induction k as [k IH] using lt_wf_ind. intros t Hk Hne Ht.
  apply map_choose in Hne as (n & x & Hn). destruct (is_tree x) eqn:Ex.
  - destruct (Ht [n] x Hn Ex) as (_ & t' & Ht' & Hne').
    destruct (IH (rank (fst x)) (Hk _ _ Hn Ex) t') as [p Hp].
    + intros m y Hm Ey. exact (Hr _ _ _ _ Ht' Hm Ey).
    + exact Hne'.
    + exact (tidy_dir _ _ _ _ _ Ht Hn Ex Ht').
    + exists (n :: p). destruct p as [|m p]; [cbn in Hp; congruence|].
      rewrite file_at_cons, Hn, Ex, Ht' by discriminate. exact Hp.
  - exists [n]. rewrite file_at_one, Hn, Ex. discriminate.
Qed.
Lemma same_files e st : sound e st -> grounded st -> forall t1 t2, tidy_at st t1 -> tidy_at st t2 ->
  (forall p, file_at st t1 p = file_at st t2 p) -> t1 = t2.
Proof.
  intros (Hinj & Hname & Hc) Hg. pose proof Hg as [rank Hr].
  assert (H : forall k t1 t2, (forall n x, t1 !! n = Some x -> is_tree x = true -> (rank (fst x) < k)%nat) ->
            tidy_at st t1 -> tidy_at st t2 -> (forall p, file_at st t1 p = file_at st t2 p) -> t1 = t2).
  { induction k as [k IH] using lt_wf_ind. intros t1 t2 Hk H1 H2 Hf. apply map_eq. intros n.
    assert (Habs : forall (ta tb : tree) x, tidy_at st ta -> (forall p, file_at st ta p = file_at st tb p) -> ta !! n = Some x ->
              is_tree x = true -> (match tb !! n with Some y => is_tree y = false | None => True end) -> False).
    { intros ta tb x Hta Hff Hx Ex Hb. destruct (Hta [n] x Hx Ex) as (_ & t' & Ht' & Hne').
      destruct (tidy_has_file st Hg t' Hne' (tidy_dir _ _ _ _ _ Hta Hx Ex Ht')) as [p Hp].
      destruct p as [|m p]; [cbn in Hp; congruence|]. apply Hp. specialize (Hff (n :: m :: p)).
      rewrite !file_at_cons in Hff by discriminate. rewrite Hx, Ex, Ht' in Hff. rewrite Hff.
      destruct (tb !! n) as [y|]; [|reflexivity]. rewrite Hb. reflexivity. }
    pose proof (Hf [n]) as H0. rewrite !file_at_one in H0.
    destruct (t1 !! n) as [x|] eqn:E1, (t2 !! n) as [y|] eqn:E2; [| | |reflexivity].
    - destruct (is_tree x) eqn:Ex, (is_tree y) eqn:Ey.
      + destruct (H1 [n] x E1 Ex) as (Hmx & tx & Htx & Hnx). destruct (H2 [n] y E2 Ey) as (Hmy & ty & Hty & Hny).
        assert (tx = ty).
        { apply (IH (rank (fst x)) (Hk _ _ E1 Ex)).
          - intros m z Hm Ez. exact (Hr _ _ _ _ Htx Hm Ez).
          - exact (tidy_dir _ _ _ _ _ H1 E1 Ex Htx).
          - exact (tidy_dir _ _ _ _ _ H2 E2 Ey Hty).
          - intros p. destruct p as [|m p]; [reflexivity|]. specialize (Hf (n :: m :: p)).
            rewrite !file_at_cons in Hf by discriminate. rewrite E1, Ex, Htx, E2, Ey, Hty in Hf. exact Hf. }
        subst ty. f_equal. rewrite (surjective_pairing x), (surjective_pairing y), Hmx, Hmy.
        rewrite <- (Hname _ _ Htx), <- (Hname _ _ Hty). reflexivity.
      + exfalso. apply (Habs t1 t2 x H1 Hf E1 Ex). rewrite E2. exact Ey.
      + exfalso. apply (Habs t2 t1 y H2 (fun p => eq_sym (Hf p)) E2 Ey). rewrite E1. exact Ex.
      + exact H0.
    - destruct (is_tree x) eqn:Ex; [|discriminate H0]. exfalso. apply (Habs t1 t2 x H1 Hf E1 Ex). rewrite E2. exact I.
    - destruct (is_tree y) eqn:Ey; [|discriminate H0]. exfalso. apply (Habs t2 t1 y H2 (fun p => eq_sym (Hf p)) E2 Ey).
      rewrite E1. exact I. }
  intros t1 t2. destruct (bounded_dirs rank t1) as [k Hk]. exact (H k t1 t2 Hk).
Qed.

(** ** From one tree to another *)

Lemma file_at_mono st st' t p : st ⊆ st' -> (forall o t, st !! o = Some t -> closed_tree st t) -> closed_tree st t ->
  file_at st' t p = file_at st t p.
Proof. intros Hsub Hc Ht. unfold file_at. rewrite (entry_at_mono st st' p t Hsub Hc Ht). reflexivity. Qed.
Lemma file_below_dir st t q r x : r <> [] -> q <> [] -> file_at st t (q ++ r) = Some x -> file_at st t q = None
  /\ exists y, entry_at st t q = Some y /\ is_tree y = true.
Proof.
  intros Hr Hq H. unfold file_at in H. rewrite entry_at_app in H by assumption.
  destruct r as [|n r]; [congruence|]. unfold within in H. unfold file_at.
  destruct (entry_at st t q) as [y|]; [|discriminate H]. destruct (is_tree y) eqn:Ey; [|discriminate H]. eauto.
Qed.

Lemma applied_files e st l r u o st' : hydrate_tree e st l u = Some (o, st') -> sound e st -> closed_tree st l -> closed_tree st r ->
  usual_dirs st l -> usual_dirs st r ->
  NoDup (map fst u) ->
  (forall p, p ∈ map fst u <-> p <> [] /\ differs st l r p) ->
  (forall p v, (p, v) ∈ u -> leads_to st r p v) ->
  (forall p q, file_at st r p <> None -> q <> [] -> file_at st l (p ++ q) = None) ->
  exists t', st' !! o = Some t' /\ st ⊆ st' /\ sound e st' /\ updated st l u st' t'
    /\ forall p, file_at st' t' p = file_at st r p.
Proof.
  intros H Hs Hl Hr Hdl Hdr Hnd Hu Hv Hnoswap. pose proof Hs as (_ & _ & Hc).
  assert (Hdiff : forall p, differs st l r p -> file_at st l p <> file_at st r p).
  { intros p [Hd|(a & b & Ha & Hb & Ta & Tb & Hne)]; [exact Hd|]. exfalso. apply Hne.
    rewrite (Hdl _ _ Ha Ta), (Hdr _ _ Hb Tb). reflexivity. }
  assert (Htt : trees_there st u).
  { intros q w m Hin Hm. destruct (Hv _ _ Hin) as [Hx|[Hx _]]; [|discriminate Hx]. cbn in Hx.
    apply (entry_closed st q r (w, mode_number m) Hc Hr); [symmetry; exact Hx|exact Hm]. }
  destruct (hydrate_tree_spec _ _ _ _ _ _ H Hs Hl Hnd Htt) as (Hsub & Hs' & t' & Ho & Hup).
  exists t'. split; [exact Ho|]. split; [exact Hsub|]. split; [exact Hs'|]. split; [exact Hup|]. intros p.
  destruct p as [|n0 p0]; [reflexivity|]. set (p := n0 :: p0). assert (Hp : p <> []) by discriminate.
  destruct (below_dec u p) as [Hb|Hnb].
  { pose proof Hb as (m & w & vx & Hx).
    rewrite (updated_below_file _ _ _ _ _ _ Hup Hb).
    symmetry. destruct (file_at st r p) as [y|] eqn:Ey; [|reflexivity]. exfalso.
    assert (Hin : p ++ m :: w ∈ map fst u) by (apply elem_of_list_fmap; exists (p ++ m :: w, vx); auto).
    apply Hu in Hin as [_ Hd]. apply Hdiff in Hd. apply Hd.
    rewrite (Hnoswap p (m :: w)) by (congruence || discriminate).
    unfold file_at. rewrite (file_not_dir st r p (m :: w)) by (congruence || discriminate). reflexivity. }
  destruct (above_dec u p) as [Hab|Hna].
  - destruct (governing u p Hab) as (q & w & v & Hg). destruct (Hup p Hp) as [H1 _].
    assert (He : entry_at st' t' p = within st (stored v) w) by exact (proj1 (H1 Hnb) _ _ _ Hg).
    destruct Hg as (Hpq & Hq & Hin & Hmax). destruct (Hv _ _ Hin) as [Hval|[-> Hval]].
    + unfold file_at. rewrite He, Hval, Hpq. destruct w as [|m w]; [rewrite app_nil_r; reflexivity|].
      rewrite <- entry_at_app by (exact Hq || discriminate). reflexivity.
    + assert (Hres : file_at st' t' p = None).
      { unfold file_at. rewrite He. destruct w; reflexivity. }
      rewrite Hres. destruct (file_at st r p) as [y|] eqn:Ey; [|reflexivity]. exfalso.
      destruct w as [|m w]; [rewrite app_nil_r in Hpq; congruence|].
      assert (Hnp : p ∉ map fst u).
      { intros Hx. apply elem_of_list_fmap in Hx as ([p' v'] & Heq & Hx). cbn in Heq. subst p'.
        assert (Hbad : p `prefix_of` q) by (eapply Hmax; [exact Hx|reflexivity]).
        apply prefix_length in Hbad. rewrite Hpq, app_length in Hbad. cbn in Hbad. lia. }
      assert (Hlp : file_at st l p = Some y).
      { destruct (decide (file_at st l p = file_at st r p)) as [Heq|Hne]; [congruence|]. exfalso. apply Hnp, Hu.
        split; [exact Hp|]. left. exact Hne. }
      rewrite Hpq in Hlp, Ey.
      destruct (file_below_dir st l q (m :: w) y ltac:(discriminate) Hq Hlp) as [Hql _].
      destruct (file_below_dir st r q (m :: w) y ltac:(discriminate) Hq Ey) as [Hqr _].
      assert (Hqin : q ∈ map fst u) by (apply elem_of_list_fmap; exists (q, None); auto).
      apply Hu in Hqin as [_ Hd]. apply Hdiff in Hd. congruence.
  - assert (Hnp : p ∉ map fst u).
    { intros Hx. apply elem_of_list_fmap in Hx as ([p' v'] & Heq & Hx). cbn in Heq. subst p'.
      apply Hna. exists p, v'. split; [exact Hx|]. split; [exact Hp|reflexivity]. }
    unfold file_at at 1. rewrite (updated_other _ _ _ _ _ _ Hup Hp Hnb Hna). fold (file_at st l p).
    destruct (decide (file_at st l p = file_at st r p)) as [Heq|Hne]; [exact Heq|]. exfalso. apply Hnp, Hu.
    split; [exact Hp|]. left. exact Hne.
Qed.

(** Then it is the other tree. *)
Lemma updated_tidy st t u st' t' e : updated st t u st' t' -> st ⊆ st' -> sound e st -> closed_tree st t -> tidy_at st t ->
  (forall p v, (p, v) ∈ u -> forall o m, v = Some (o, m) -> is_tree (o, mode_number m) = true ->
     m = TreeMode /\ exists t0, st !! o = Some t0 /\ t0 <> ∅ /\ tidy_at st t0) ->
  tidy_at st' t'.
Proof.
  intros Hup Hsub (_ & _ & Hc) Ht Htidy Hv p x Hx Tx. destruct p as [|n0 p0]; [discriminate Hx|].
  set (p := n0 :: p0) in *. assert (Hp : p <> []) by discriminate. destruct (Hup p Hp) as [H1 H2].
  assert (Hup_there : forall o t0, st !! o = Some t0 -> st' !! o = Some t0).
  { intros o t0 H. eapply lookup_weaken; eassumption. }
  destruct (below_dec u p) as [Hbel|Hnb].
  - destruct (H2 Hbel) as [H3|(o & t'' & H3 & H4 & H5)]; [congruence|]. rewrite H3 in Hx. injection Hx as <-. cbn. eauto.
  - destruct (H1 Hnb) as [H3 H4].
    destruct (above_dec u p) as [Hab|Hna].
    + destruct (governing u p Hab) as (q & w & v & Hg). rewrite (H3 _ _ _ Hg) in Hx.
      destruct Hg as (_ & _ & Hin & _). destruct v as [[o m]|]; [|destruct w; discriminate Hx].
      destruct w as [|k w].
      * cbn in Hx. injection Hx as <-. destruct (Hv _ _ Hin o m eq_refl Tx) as (-> & t0 & Ht0 & Hne0 & _). cbn. eauto.
      * cbn [within stored option_map fst snd] in Hx. destruct (is_tree (o, mode_number m)) eqn:Tm; [|discriminate Hx].
        destruct (Hv _ _ Hin o m eq_refl Tm) as (-> & t0 & Ht0 & Hne0 & Htd). rewrite Ht0 in Hx.
        destruct (Htd _ _ Hx Tx) as (Hm & t1 & Ht1 & Hne1). eauto.
    + rewrite (H4 Hna) in Hx. destruct (Htidy _ _ Hx Tx) as (Hm & t1 & Ht1 & Hne1). eauto.
Qed.

Lemma mode_number_inj a b : mode_number a = mode_number b -> a = b.
Proof. destruct a, b; cbn; intros H; first [reflexivity|discriminate H]. Qed.
Lemma tidy_mono st st' t : st ⊆ st' -> (forall o t, st !! o = Some t -> closed_tree st t) -> closed_tree st t -> tidy_at st t -> tidy_at st' t.
Proof.
  intros Hsub Hc Ht H p x Hp Hx. rewrite (entry_at_mono st st' p t Hsub Hc Ht) in Hp.
  destruct (H p x Hp Hx) as (Hm & t1 & H1 & H2). split; [exact Hm|]. exists t1. split; [|exact H2].
  eapply lookup_weaken; eassumption.
Qed.
Lemma tidy_under st t p x t' : tidy_at st t -> p <> [] -> entry_at st t p = Some x -> is_tree x = true -> st !! fst x = Some t' -> tidy_at st t'.
Proof.
  intros H Hp Hx Tx Ht q y Hq Ty. destruct q as [|n q]; [discriminate Hq|].
  apply (H (p ++ n :: q) y); [|exact Ty]. rewrite entry_at_app by (exact Hp || discriminate). rewrite Hx. cbn [within].
  rewrite Tx, Ht. exact Hq.
Qed.
Lemma tidy_usual st t : tidy_at st t -> usual_dirs st t.
Proof. intros H p x Hp Hx. exact (proj1 (H p x Hp Hx)). Qed.

Lemma applied_tree e st l r u o st' : hydrate_tree e st l u = Some (o, st') -> sound e st -> grounded st ->
  closed_tree st l -> closed_tree st r -> tidy_at st l -> tidy_at st r ->
  NoDup (map fst u) ->
  (forall p, p ∈ map fst u <-> p <> [] /\ differs st l r p) ->
  (forall p v, (p, v) ∈ u -> leads_to st r p v) ->
  (forall p q, file_at st r p <> None -> q <> [] -> file_at st l (p ++ q) = None) ->
  o = te_hash e r.
Proof.
  intros H Hs Hg Hl Hr Hdl Hdr Hnd Hu Hv Hnoswap. pose proof Hs as (_ & _ & Hc).
  destruct (applied_files e st l r u o st' H Hs Hl Hr (tidy_usual _ _ Hdl) (tidy_usual _ _ Hdr) Hnd Hu Hv Hnoswap)
    as (t' & Ho & Hsub & Hs' & Hup & Hf).
  pose proof Hs' as (_ & Hname' & Hc').
  rewrite <- (Hname' _ _ Ho). f_equal.
  assert (Hval : forall p v, (p, v) ∈ u -> forall o m, v = Some (o, m) -> is_tree (o, mode_number m) = true ->
     m = TreeMode /\ exists t0, st !! o = Some t0 /\ t0 <> ∅ /\ tidy_at st t0).
  { intros p v Hin oo m -> Tm. destruct (Hv _ _ Hin) as [Hx|[Hx _]]; [|discriminate Hx]. cbn in Hx. symmetry in Hx.
    destruct (Hdr _ _ Hx Tm) as (Hm & t0 & Ht0 & Hne). cbn in Hm, Ht0. split; [apply mode_number_inj; exact Hm|].
    exists t0. split; [exact Ht0|]. split; [exact Hne|]. eapply tidy_under; [exact Hdr| |exact Hx|exact Tm|exact Ht0].
    intros ->. assert (Hp : [] ∈ map fst u) by (apply elem_of_list_fmap; eexists; split; [|exact Hin]; reflexivity).
    apply Hu in Hp as [Hp _]. congruence. }
  apply (same_files e st' Hs').
  - eapply hydrate_grounded; [exact H|exact Hs|exact Hl|exact Hnd| |exact Hg].
    intros q w m Hin Tm. destruct (Hval _ _ Hin w m eq_refl Tm) as (_ & t0 & Ht0 & _). eauto.
  - eapply updated_tidy; eassumption.
  - eapply tidy_mono; eassumption.
  - intros p. rewrite Hf. symmetry. apply file_at_mono; assumption.
Qed.

(** ** Touched paths *)
Lemma touched_paths_spec st c ps : touched_paths st c = Some ps -> NoDup ps /\ (forall p, p ∈ ps <-> touches st c p)
  /\ is_Some (st !! tc_tree c) /\ (forall o, o ∈ tc_parents c -> is_Some (st !! o)).
Proof.
  unfold touched_paths, touches. intros H. destruct (st !! tc_tree c) as [t|] eqn:Et; [|discriminate H].
  destruct (tc_parents c) as [|a l] eqn:Ep.
  - destruct (changed_paths_spec _ _ _ _ H) as [Hnd Hp]. split; [exact Hnd|]. split; [|split; [eauto|intros o Ho; inversion Ho]].
    intros p. rewrite Hp. split.
    + intros [Hne Hd]. split; [exact Hne|]. exists t. split; [reflexivity|]. left. auto.
    + intros (Hne & t' & Ht & [[_ Hd]|(o & q & Ho & _)]); [|inversion Ho]. injection Ht as <-. auto.
  - set (f := fun o : oid => match st !! o with Some q => changed_paths st q t | None => None end) in *.
    destruct (gather f (a :: l)) as [c0|] eqn:Eg; [|discriminate H]. cbn in H. injection H as <-.
    split; [apply NoDup_remove_dups|]. split; [|split; [eauto|]].
    + intros p. rewrite elem_of_remove_dups, (gather_spec _ _ _ Eg). split.
      * intros (o & ys & Ho & Hf & Hy). unfold f in Hf. destruct (st !! o) as [q|] eqn:Eq; [|discriminate Hf].
        apply (proj2 (changed_paths_spec _ _ _ _ Hf)) in Hy as [Hne Hd]. split; [exact Hne|]. exists t. split; [reflexivity|].
        right. exists o, q. auto.
      * intros (Hne & t' & Ht & [[Hx _]|(o & q & Ho & Hq & Hd)]); [discriminate Hx|]. injection Ht as <-.
        destruct (gather_each _ _ _ Eg o Ho) as [ys Hy]. exists o, ys. split; [exact Ho|]. split; [exact Hy|].
        unfold f in Hy. rewrite Hq in Hy. apply (proj2 (changed_paths_spec _ _ _ _ Hy)). auto.
    + intros o Ho. destruct (gather_each _ _ _ Eg o Ho) as [ys Hy]. unfold f in Hy.
      destruct (st !! o); [eauto|discriminate Hy].
Qed.
Lemma differs_mono e st st' l r p : sound e st -> st ⊆ st' -> closed_tree st l -> closed_tree st r ->
  differs st' l r p <-> differs st l r p.
Proof.
  intros (_ & _ & Hc) Hsub Hl Hr. unfold differs.
  rewrite (file_at_mono st st' l p Hsub Hc Hl), (file_at_mono st st' r p Hsub Hc Hr),
    (entry_at_mono st st' p l Hsub Hc Hl), (entry_at_mono st st' p r Hsub Hc Hr). reflexivity.
Qed.
Lemma touches_mono e st st' c p : sound e st -> st ⊆ st' -> is_Some (st !! tc_tree c) -> (forall o, o ∈ tc_parents c -> is_Some (st !! o)) ->
  touches st' c p <-> touches st c p.
Proof.
  intros Hs Hsub [t Ht] Hp. pose proof Hs as (_ & _ & Hc). unfold touches.
  assert (Ht' : st' !! tc_tree c = Some t) by (eapply lookup_weaken; eassumption).
  split; intros (Hne & t0 & Ht0 & Hor); (split; [exact Hne|]); exists t; (split; [assumption|]).
  - rewrite Ht' in Ht0. injection Ht0 as <-. destruct Hor as [[He Hd]|(o & q & Ho & Hq & Hd)].
    + left. split; [exact He|]. apply (differs_mono e st st' ∅ t p Hs Hsub); [apply closed_empty|eauto|exact Hd].
    + destruct (Hp o Ho) as [q' Hq']. rewrite (lookup_weaken _ _ _ _ Hq' Hsub) in Hq. injection Hq as <-.
      right. exists o, q'. split; [exact Ho|]. split; [exact Hq'|]. apply (differs_mono e st st' q' t p Hs Hsub); eauto.
  - rewrite Ht in Ht0. injection Ht0 as <-. destruct Hor as [[He Hd]|(o & q & Ho & Hq & Hd)].
    + left. split; [exact He|]. apply (differs_mono e st st' ∅ t p Hs Hsub); [apply closed_empty|eauto|exact Hd].
    + right. exists o, q. split; [exact Ho|]. split; [eapply lookup_weaken; eassumption|].
      apply (differs_mono e st st' q t p Hs Hsub); eauto.
Qed.

(** ** Cherry-picking *)
Lemma dehydrate_commit_spec e st o ps o' st' : dehydrate_commit e st o ps = Some (o', st') -> sound e st -> NoDup ps ->
  st ⊆ st' /\ sound e st' /\ exists t t', st !! o = Some t /\ st' !! o' = Some t' /\ reduced st t ps st' t'.
Proof.
  intros H Hs Hnd. unfold dehydrate_commit in H. destruct (st !! o) as [t|] eqn:E; [|discriminate H].
  pose proof Hs as (_ & _ & Hc). destruct (dehydrate_spec _ _ _ _ _ _ H Hs (Hc _ _ E) Hnd) as (Hsub & Hs' & t' & Ht' & Hr).
  split; [exact Hsub|]. split; [exact Hs'|]. eauto.
Qed.

Lemma reduced_mono e st st1 t ps st2 t' st3 : sound e st -> sound e st2 -> st ⊆ st1 -> st2 ⊆ st3 -> closed_tree st t -> closed_tree st2 t' ->
  reduced st1 t ps st2 t' -> reduced st t ps st3 t'.
Proof.
  intros (_ & _ & Hc) (_ & _ & Hc2) Hsub Hsub2 Ht Ht' (H1 & H2 & H3 & H4). split; [|split; [|split]].
  - intros p q Hq Hne Hpre Hno. rewrite (entry_at_mono st2 st3 p t' Hsub2 Hc2 Ht'), (H1 p q Hq Hne Hpre Hno).
    rewrite (entry_at_mono st st1 p t Hsub Hc Ht). reflexivity.
  - intros p Hno Hnb. rewrite (entry_at_mono st2 st3 p t' Hsub2 Hc2 Ht'). exact (H2 p Hno Hnb).
  - intros p n r Hin. rewrite (file_at_mono st2 st3 t' p Hsub2 Hc2 Ht'). exact (H3 p n r Hin).
  - intros p Hin Hp Hno. rewrite (entry_at_mono st2 st3 p t' Hsub2 Hc2 Ht'), (H4 p Hin Hp Hno).
    rewrite (entry_at_mono st st1 p t Hsub Hc Ht). reflexivity.
Qed.
Lemma index_no_tree i p o m : only_files i -> index_value i p = Some (o, m) -> is_tree (o, mode_number m) = false.
Proof.
  intros Hi H. unfold index_value, index_entry in H. destruct (i !! p) as [[[|w] k]|] eqn:E; try discriminate H.
  injection H as -> <-. specialize (Hi _ _ _ E o). unfold mode_of_number.
  destruct (k =? mode_number Blob); [reflexivity|]. destruct (k =? mode_number BlobExecutable); [reflexivity|].
  destruct (k =? mode_number CommitMode); [reflexivity|]. destruct (k =? mode_number Link); [reflexivity|].
  destruct (N.eqb_spec k (mode_number TreeMode)) as [->|]; [discriminate Hi|reflexivity].
Qed.
Lemma index_values_there i st ps : only_files i -> trees_there st (map (fun p => (p, index_value i p)) ps).
Proof.
  intros Hi q o m Hin Tm. apply in_map_value in Hin as [_ Hv]. rewrite (index_no_tree i q o m Hi) in Tm by congruence. discriminate Tm.
Qed.

(** What was reduced, merged and put into the target. *)
Definition pick_outcome (e : tree_env) (mg : merger) (st : tree_store) (patch : tcommit) (target o : oid) (st' : tree_store) : Prop :=
  exists ps i tt tp t' st3 base ours theirs to th,
    touched_paths st patch = Some ps /\ st !! target = Some tt /\ st !! tc_tree patch = Some tp
    /\ st ⊆ st3 /\ st3 ⊆ st' /\ sound e st3 /\ sound e st' /\ st' !! o = Some t'
    /\ updated st tt (map (fun p => (p, index_value i p)) ps) st' t'
    /\ mg st3 base ours theirs = MergedTo i
    /\ st3 !! ours = Some to /\ reduced st tt ps st3 to
    /\ st3 !! theirs = Some th /\ reduced st tp ps st3 th
    /\ match only_parent patch with
       | Some q => exists b tb tq, base = Some b /\ st3 !! b = Some tb /\ st !! q = Some tq /\ reduced st tq ps st3 tb
       | None => base = None
       end.

Lemma pick_merged_spec e mg st patch target o st' : pick_merged e mg st patch target = Picked o st' -> sound e st -> makes_files mg ->
  is_Some (st !! target) ->
  pick_outcome e mg st patch target o st'.
Proof.
  intros H Hs Hmg [tt Htt]. unfold pick_merged in H. pose proof Hs as (_ & _ & Hc).
  destruct (touched_paths st patch) as [ps|] eqn:Eps; [|discriminate H].
  destruct (touched_paths_spec _ _ _ Eps) as (Hnd & Htp & [tp Htree] & Hpar).
  destruct (dehydrate_commit e st (tc_tree patch) ps) as [[theirs st1]|] eqn:E1; [|discriminate H].
  destruct (dehydrate_commit_spec _ _ _ _ _ _ E1 Hs Hnd) as (Hsub1 & Hs1 & tp' & th & Htp' & Hth & Hred1).
  rewrite Htree in Htp'. injection Htp' as <-. pose proof Hs1 as (_ & _ & Hc1).
  match type of H with match ?x with _ => _ end = _ => destruct x as [[base st2]|] eqn:E2 end; [|discriminate H].
  assert (Hbase : st1 ⊆ st2 /\ sound e st2 /\
    match only_parent patch with
    | Some q => exists b tb tq, base = Some b /\ st2 !! b = Some tb /\ st !! q = Some tq /\ reduced st1 tq ps st2 tb
    | None => base = None
    end).
  { unfold only_parent in *. destruct (tc_parents patch) as [|q [|q' l]] eqn:Ep.
    - injection E2 as <- <-. split; [reflexivity|]. split; [exact Hs1|reflexivity].
    - destruct (dehydrate_commit e st1 q ps) as [[b st2']|] eqn:Eb; [|discriminate E2]. injection E2 as <- <-.
      destruct (dehydrate_commit_spec _ _ _ _ _ _ Eb Hs1 Hnd) as (Hsub2 & Hs2 & tq & tb & Htq & Htb & Hred).
      split; [exact Hsub2|]. split; [exact Hs2|]. exists b, tb, tq. split; [reflexivity|]. split; [exact Htb|].
      split; [|exact Hred]. destruct (Hpar q) as [tq' Hq']; [apply elem_of_list_here|].
      rewrite (lookup_weaken _ _ _ _ Hq' Hsub1) in Htq. congruence.
    - injection E2 as <- <-. split; [reflexivity|]. split; [exact Hs1|reflexivity]. }
  clear E2. destruct Hbase as (Hsub2 & Hs2 & Hbase). pose proof Hs2 as (_ & _ & Hc2).
  destruct (dehydrate_commit e st2 target ps) as [[ours st3]|] eqn:E3; [|discriminate H].
  destruct (dehydrate_commit_spec _ _ _ _ _ _ E3 Hs2 Hnd) as (Hsub3 & Hs3 & tt2 & to & Htt2 & Hto & Hred3).
  destruct (mg st3 base ours theirs) as [i| |] eqn:Em; [|discriminate H|discriminate H].
  assert (Hsub03 : st ⊆ st3) by (etransitivity; [exact Hsub1|]; etransitivity; eassumption).
  assert (Htt3 : st3 !! target = Some tt) by (eapply lookup_weaken; eassumption).
  rewrite Htt3 in H.
  assert (tt2 = tt) as -> by (rewrite (lookup_weaken _ _ _ _ Htt2 Hsub3) in Htt3; congruence).
  destruct (hydrate_tree e st3 tt (map (fun p => (p, index_value i p)) ps)) as [[o4 st4]|] eqn:Eh; [|discriminate H].
  injection H as -> ->. pose proof Hs3 as (_ & _ & Hc3).
  destruct (hydrate_tree_spec _ _ _ _ _ _ Eh Hs3 (Hc3 _ _ Htt3)) as (Hsub4 & Hs4 & t' & Ht' & Hup).
  { rewrite map_fst_pair. exact Hnd. }
  { apply index_values_there. exact (Hmg _ _ _ _ _ Em). }
  exists ps, i, tt, tp, t', st3, base, ours, theirs, to, th.
  split; [exact Eps|]. split; [exact Htt|]. split; [exact Htree|]. split; [exact Hsub03|]. split; [exact Hsub4|].
  split; [exact Hs3|]. split; [exact Hs4|]. split; [exact Ht'|]. split.
  { eapply updated_from; [exact Hup|exact Hsub03|exact Hc|exact (Hc _ _ Htt)|].
    intros q w m. apply (index_values_there i st ps (Hmg _ _ _ _ _ Em)). }
  split; [exact Em|]. split; [exact Hto|]. split.
  { eapply (reduced_mono e st st2 tt ps st3 to st3 Hs Hs3); [exact (transitivity Hsub1 Hsub2)|reflexivity|exact (Hc _ _ Htt)|exact (Hc3 _ _ Hto)|exact Hred3]. }
  split; [eapply lookup_weaken; [exact Hth|]; exact (transitivity Hsub2 Hsub3)|]. split.
  { eapply (reduced_mono e st st tp ps st1 th st3 Hs Hs1); [reflexivity|exact (transitivity Hsub2 Hsub3)|exact (Hc _ _ Htree)|exact (Hc1 _ _ Hth)|exact Hred1]. }
  destruct (only_parent patch) as [q|]; [|exact Hbase].
  destruct Hbase as (b & tb & tq & -> & Htb & Htq & Hred). exists b, tb, tq. split; [reflexivity|].
  split; [eapply lookup_weaken; eassumption|]. split; [exact Htq|].
  eapply (reduced_mono e st st1 tq ps st2 tb st3 Hs Hs2); [exact Hsub1|exact Hsub3|exact (Hc _ _ Htq)|exact (Hc2 _ _ Htb)|exact Hred].
Qed.

Lemma pick_fast_merged e mg st patch target : cherry_pick_fast e mg st false patch target = pick_merged e mg st patch target.
Proof. reflexivity. Qed.

(** Paths not concerned stay as they are. *)
Lemma pick_unrelated e mg st patch target o st' tt : pick_merged e mg st patch target = Picked o st' -> sound e st -> makes_files mg ->
  st !! target = Some tt ->
  exists t', st' !! o = Some t' /\ st ⊆ st' /\ sound e st' /\
    forall p, (forall q, touches st patch q -> ~ q `prefix_of` p /\ ~ p `prefix_of` q) ->
      entry_at st' t' p = entry_at st tt p.
Proof.
  intros H Hs Hmg Htt. destruct (pick_merged_spec _ _ _ _ _ _ _ H Hs Hmg (mk_is_Some _ _ Htt))
    as (ps & i & tt' & tp & t' & st3 & base & ours & theirs & to & th & Eps & Htt' & _ & Hsub3 & Hsub' & _ & Hs' & Ht' & Hup & _).
  rewrite Htt in Htt'. injection Htt' as <-. destruct (touched_paths_spec _ _ _ Eps) as (_ & Htouch & _).
  exists t'. split; [exact Ht'|]. split; [etransitivity; eassumption|]. split; [exact Hs'|].
  intros p Hno. destruct p as [|n p]; [reflexivity|].
  apply (updated_other _ _ _ _ _ _ Hup); [discriminate| |].
  - rewrite below_map. intros (m & r & Hin). apply Htouch in Hin. apply (proj2 (Hno _ Hin)). exists (m :: r). reflexivity.
  - rewrite above_map. intros (q & Hq & _ & Hpre). apply Htouch in Hq. exact (proj1 (Hno _ Hq) Hpre).
Qed.

Lemma reduced_file st t ps st' t' p : reduced st t ps st' t' -> usual_files st t -> p ∈ ps -> p <> [] ->
  (forall n r, p ++ n :: r ∉ ps) -> file_at st' t' p = file_at st t p.
Proof.
  intros (_ & _ & _ & H) Hu Hin Hp Hno. unfold file_at. rewrite (H p Hin Hp Hno).
  specialize (Hu p). unfold file_at in Hu. destruct (entry_at st t p) as [x|]; [|reflexivity]. cbn.
  rewrite is_tree_seen. destruct (is_tree x); [reflexivity|]. specialize (Hu x eq_refl).
  unfold seen. rewrite (usual_normal _ Hu). destruct x; reflexivity.
Qed.
Lemma stored_index i p : (forall o m, index_file i p = Some (o, m) -> usual_mode m) -> stored (index_value i p) = index_file i p.
Proof.
  intros H. unfold index_value, index_entry, index_file in *. destruct (i !! p) as [[[|o] m]|]; [reflexivity| |reflexivity].
  cbn. rewrite usual_number by exact (H _ _ eq_refl). reflexivity.
Qed.

(** The outcome is that of merging the whole trees. *)
Lemma pick_full e mg f st patch target q o st' tt tp tq : pick_merged e mg st patch target = Picked o st' -> sound e st ->
  makes_files mg -> merges_files mg f ->
  st !! target = Some tt -> st !! tc_tree patch = Some tp -> tc_parents patch = [q] -> st !! q = Some tq ->
  usual_files st tt -> usual_files st tp -> usual_files st tq ->
  (forall p r, touches st patch p -> touches st patch (p ++ r) -> r = []) ->
  (forall p r, touches st patch p -> r <> [] -> file_at st tt (p ++ r) = None) ->
  (forall p r, touches st patch (p ++ r) -> r <> [] -> file_at st tt p = None) ->
  exists t', st' !! o = Some t' /\
    forall p, file_at st' t' p = f (file_at st tq p) (file_at st tt p) (file_at st tp p).
Proof.
  intros H Hs Hmk (Hf1 & Hf2 & Hf3) Htt Htp Hq Htq Hut Hup Huq Hflat Hnodir Hnofile.
  destruct (pick_merged_spec _ _ _ _ _ _ _ H Hs Hmk (mk_is_Some _ _ Htt))
    as (ps & i & tt' & tp' & t' & st3 & base & ours & theirs & to & th & Eps & Htt' & Htp' & Hsub3 & Hsub' & Hs3 & Hs' & Ht' & Hupd
        & Em & Hours & Hro & Htheirs & Hrt & Hbase).
  rewrite Htt in Htt'. injection Htt' as <-. rewrite Htp in Htp'. injection Htp' as <-.
  unfold only_parent in Hbase. rewrite Hq in Hbase. destruct Hbase as (b & tb & tq' & -> & Htb & Htq' & Hrb).
  rewrite Htq in Htq'. injection Htq' as <-.
  destruct (touched_paths_spec _ _ _ Eps) as (_ & Htouch & _).
  exists t'. split; [exact Ht'|]. intros p. destruct p as [|n0 p0].
  { change (None = f None None None). symmetry. apply Hf1. intros z Hz. discriminate Hz. }
  set (p := n0 :: p0). assert (Hp : p <> []) by discriminate.
  pose proof (fun p => Hf3 _ _ _ _ _ _ _ _ Em Htb Hours Htheirs p) as Hi.
  set (u := map (fun p => (p, index_value i p)) ps) in *.
  destruct (decide (p ∈ ps)) as [Hin|Hnin].
  - assert (Hno : forall n r, p ++ n :: r ∉ ps).
    { intros n r Hn. apply Htouch in Hn. apply Htouch in Hin. specialize (Hflat p (n :: r) Hin Hn). discriminate Hflat. }
    assert (Hx : file_at st' t' p = index_file i p).
    { unfold file_at. rewrite (updated_self _ _ _ _ _ p (index_value i p) Hupd Hp).
      - rewrite stored_index.
        + destruct (index_file i p) as [[w m]|] eqn:E; [|reflexivity]. rewrite Hi in E. destruct (Hf2 _ _ _ _ _ E) as [_ ->]. reflexivity.
        + intros w m E. rewrite Hi in E. exact (proj1 (Hf2 _ _ _ _ _ E)).
      - apply elem_of_list_fmap. eauto.
      - unfold u. rewrite below_map. intros (n & r & Hn). exact (Hno _ _ Hn). }
    rewrite Hx, Hi. rewrite (reduced_file _ _ _ _ _ _ Hrb Huq Hin Hp Hno), (reduced_file _ _ _ _ _ _ Hro Hut Hin Hp Hno),
      (reduced_file _ _ _ _ _ _ Hrt Hup Hin Hp Hno). reflexivity.
  - assert (Heq : file_at st tq p = file_at st tp p).
    { destruct (decide (file_at st tq p = file_at st tp p)) as [|Hne]; [assumption|]. exfalso. apply Hnin, Htouch.
      split; [exact Hp|]. exists tp. split; [exact Htp|]. right. exists q, tq. rewrite Hq. split; [apply elem_of_list_here|].
      split; [exact Htq|]. left. exact Hne. }
    rewrite <- Heq, Hf1.
    2: { intros z Hz. split; [exact (Hut _ _ Hz)|]. unfold file_at in Hz. destruct (entry_at st tt p) as [y|]; [|discriminate Hz].
         destruct (is_tree y) eqn:Ey; [discriminate Hz|]. injection Hz as <-. exact Ey. }
    destruct (below_dec u p) as [Hb|Hnb].
    + rewrite (updated_below_file _ _ _ _ _ _ Hupd Hb). symmetry. unfold u in Hb. apply below_map in Hb as (n & r & Hn).
      apply (Hnofile p (n :: r)); [apply Htouch; exact Hn|discriminate].
    + destruct (above_dec u p) as [Ha|Hna].
      * destruct (governing u p Ha) as (q' & r & v & Hg). destruct (Hupd p Hp) as [H1 _].
        unfold file_at at 1. rewrite (proj1 (H1 Hnb) _ _ _ Hg). destruct Hg as (Hpq & Hq' & Hin' & _).
        unfold u in Hin'. apply in_map_value in Hin' as [Hq'in ->].
        destruct r as [|m r]; [rewrite app_nil_r in Hpq; congruence|].
        rewrite Hpq, (Hnodir q' (m :: r)) by first [apply Htouch; exact Hq'in|discriminate].
        cbn [within]. destruct (stored (index_value i q')) as [x|] eqn:Ex; [|reflexivity].
        destruct (index_value i q') as [[w k]|] eqn:Ev; [|discriminate Ex]. cbn in Ex. injection Ex as <-.
        rewrite (index_no_tree i q' w k (Hmk _ _ _ _ _ Em) Ev). reflexivity.
      * unfold file_at at 1. rewrite (updated_other _ _ _ _ _ _ Hupd Hp Hnb Hna). reflexivity.
Qed.

(** ** Picking fails only if merging does *)
Definition takes_all (e : tree_env) : Prop := forall n x, te_accepts e n x = true.
Lemma takes_all_accepted e u : takes_all e -> accepted e u.
Proof. intros H. split; intros; apply H. Qed.
Lemma gather_total {A B} (f : A -> option (list B)) l : (forall x, x ∈ l -> is_Some (f x)) -> is_Some (gather f l).
Proof.
  induction l as [|x l IH]; intros H; [eexists; reflexivity|]. cbn. destruct (H x) as [a ->]; [apply elem_of_list_here|].
  destruct IH as [b ->]; [intros y Hy; apply H, elem_of_list_further, Hy|]. eexists; reflexivity.
Qed.
Lemma touched_paths_total e st c : sound e st -> grounded st -> is_Some (st !! tc_tree c) -> (forall o, o ∈ tc_parents c -> is_Some (st !! o)) ->
  is_Some (touched_paths st c).
Proof.
  intros Hs Hg [t Ht] Hp. pose proof Hs as (_ & _ & Hc). unfold touched_paths. rewrite Ht.
  destruct (tc_parents c) as [|a l] eqn:E.
  - apply (changed_paths_total e); [exact Hs|exact Hg|apply closed_empty|exact (Hc _ _ Ht)].
  - rewrite <- E in *. destruct (gather_total (fun o => match st !! o with Some q => changed_paths st q t | None => None end) (tc_parents c)) as [r Hr].
    + intros o Ho. destruct (Hp o Ho) as [q Hq]. rewrite Hq. apply (changed_paths_total e); [exact Hs|exact Hg|exact (Hc _ _ Hq)|exact (Hc _ _ Ht)].
    + rewrite E in *. rewrite Hr. eexists; reflexivity.
Qed.
Lemma dehydrate_commit_total e st o ps : takes_all e -> sound e st -> is_Some (st !! o) -> NoDup ps -> is_Some (dehydrate_commit e st o ps).
Proof.
  intros Ha Hs [t Ht] Hnd. pose proof Hs as (_ & _ & Hc). unfold dehydrate_commit. rewrite Ht. unfold dehydrate_tree.
  apply hydrate_tree_total; [apply takes_all_accepted; exact Ha|exact Hs|apply closed_empty|rewrite map_fst_pair; exact Hnd|].
  apply trees_there_read; [exact Hc|exact (Hc _ _ Ht)].
Qed.
Lemma pick_total e mg st reuse patch target : takes_all e -> sound e st -> grounded st -> makes_files mg ->
  (forall st b o t, mg st b o t <> MergeFailed) ->
  is_Some (st !! tc_tree patch) -> (forall o, o ∈ tc_parents patch -> is_Some (st !! o)) -> is_Some (st !! target) ->
  cherry_pick_fast e mg st reuse patch target <> PickFailed.
Proof.
  intros Ha Hs Hg Hmk Hmf Ht Hp Htar. unfold cherry_pick_fast.
  destruct (reuse && bool_decide (only_parent patch = Some target))%bool.
  { destruct Ht as [t ->]. discriminate. }
  unfold pick_merged. destruct (touched_paths_total e st patch Hs Hg Ht Hp) as [ps Eps]. rewrite Eps.
  destruct (touched_paths_spec _ _ _ Eps) as (Hnd & _).
  destruct (dehydrate_commit_total e st (tc_tree patch) ps Ha Hs Ht Hnd) as [[o1 st1] E1]. rewrite E1.
  destruct (dehydrate_commit_spec _ _ _ _ _ _ E1 Hs Hnd) as (Hsub1 & Hs1 & _).
  assert (H2 : exists b st2, match only_parent patch with
                 | Some q => match dehydrate_commit e st1 q ps with Some (b, st2) => Some (Some b, st2) | None => None end
                 | None => Some (None, st1) end = Some (b, st2) /\ st1 ⊆ st2 /\ sound e st2).
  { unfold only_parent. destruct (tc_parents patch) as [|q [|]] eqn:Ep; [eexists _, _; split; [reflexivity|]; split; [reflexivity|exact Hs1]| |
      eexists _, _; split; [reflexivity|]; split; [reflexivity|exact Hs1]].
    destruct (Hp q) as [tq Hq]; [apply elem_of_list_here|].
    destruct (dehydrate_commit_total e st1 q ps Ha Hs1) as [[b st2] E2]; [exists tq; eapply lookup_weaken; eassumption|exact Hnd|].
    rewrite E2. destruct (dehydrate_commit_spec _ _ _ _ _ _ E2 Hs1 Hnd) as (Hsub2 & Hs2 & _). eauto. }
  destruct H2 as (b & st2 & -> & Hsub2 & Hs2). destruct Htar as [tt Htt].
  assert (Htt2 : st2 !! target = Some tt) by (eapply lookup_weaken; [exact Htt|]; exact (transitivity Hsub1 Hsub2)).
  destruct (dehydrate_commit_total e st2 target ps Ha Hs2 (mk_is_Some _ _ Htt2) Hnd) as [[o3 st3] E3]. rewrite E3.
  destruct (dehydrate_commit_spec _ _ _ _ _ _ E3 Hs2 Hnd) as (Hsub3 & Hs3 & _).
  destruct (mg st3 b o3 o1) as [i| |] eqn:Em; [|discriminate|exfalso; exact (Hmf _ _ _ _ Em)].
  assert (Htt3 : st3 !! target = Some tt) by (eapply lookup_weaken; eassumption). rewrite Htt3. pose proof Hs3 as (_ & _ & Hc3).
  destruct (hydrate_tree_total e st3 tt (map (fun p => (p, index_value i p)) ps)) as [[o4 st4] ->];
    [apply takes_all_accepted; exact Ha|exact Hs3|exact (Hc3 _ _ Htt3)|rewrite map_fst_pair; exact Hnd| |discriminate].
  apply index_values_there. exact (Hmk _ _ _ _ _ Em).
Qed.
