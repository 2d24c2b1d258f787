(** Proofs about trees. *)
From Verif Require Import Base ModeModel TreeModel TreeSpec.
Local Open Scope N_scope.

Lemma entry_at_cons st t n m r :
  entry_at st t (n :: m :: r) =
  match t !! n with
  | Some e => if is_tree e then match st !! fst e with Some t' => entry_at st t' (m :: r) | None => None end else None
  | None => None
  end.
Proof. reflexivity. Qed.

Lemma entry_at_empty st p : entry_at st ∅ p = None.
Proof. destruct p as [|n [|m r]]; cbn; rewrite ?lookup_empty; reflexivity. Qed.

Lemma entry_at_mono st st' p : forall t, st ⊆ st' -> (forall o t, st !! o = Some t -> closed_tree st t) ->
  closed_tree st t -> entry_at st' t p = entry_at st t p.
Proof.
  induction p as [|n p IH]; intros t Hsub Hc Ht; [reflexivity|].
  destruct p as [|m r]; [reflexivity|]. rewrite !entry_at_cons.
  destruct (t !! n) as [x|] eqn:E; [|reflexivity].
  destruct (is_tree x) eqn:Ex; [|reflexivity].
  destruct (Ht _ _ E Ex) as [t1 H1]. rewrite H1, (lookup_weaken _ _ _ _ H1 Hsub).
  apply IH; eauto.
Qed.

Lemma closed_tree_mono st st' t : st ⊆ st' -> closed_tree st t -> closed_tree st' t.
Proof.
  intros Hsub H n x Hn Hx. destruct (H n x Hn Hx) as [t1 H1]. exists t1. eapply lookup_weaken; eassumption.
Qed.
Lemma closed_empty st : closed_tree st ∅.
Proof. intros n x H. rewrite lookup_empty in H. discriminate H. Qed.

Lemma write_tree_spec e b st o st' : sound e st -> closed_tree st b -> write_tree e b st = (o, st') ->
  st ⊆ st' /\ st' !! o = Some b /\ sound e st' /\ o = te_hash e b.
Proof.
  intros (Hi & Hn & Hc) Hb H. unfold write_tree in H. injection H as <- <-.
  destruct (st !! te_hash e b) as [t|] eqn:E.
  - assert (t = b) as -> by (apply Hi, (Hn _ _ E)).
    split; [reflexivity|]. split; [exact E|]. split; [|reflexivity]. repeat split; assumption.
  - assert (st ⊆ <[te_hash e b:=b]> st) by (apply insert_subseteq; exact E).
    split; [assumption|]. split; [apply lookup_insert|]. split; [|reflexivity].
    split; [exact Hi|]. split.
    + intros o t Ho. destruct (decide (o = te_hash e b)) as [->|Hne].
      * rewrite lookup_insert in Ho. injection Ho as <-. reflexivity.
      * rewrite lookup_insert_ne in Ho by congruence. exact (Hn _ _ Ho).
    + intros o t Ho. destruct (decide (o = te_hash e b)) as [->|Hne].
      * rewrite lookup_insert in Ho. injection Ho as <-. eapply closed_tree_mono; eassumption.
      * rewrite lookup_insert_ne in Ho by congruence. eapply closed_tree_mono; [eassumption|]. exact (Hc _ _ Ho).
Qed.

Lemma builder_insert_spec e st n x b b' : builder_insert e st n x b = Some b' -> closed_tree st b ->
  b' = <[n := x]> b /\ closed_tree st b'.
Proof.
  intros H Hb. unfold builder_insert in H.
  destruct (te_accepts e n x && (negb (is_tree x) || bool_decide (is_Some (st !! fst x))))%bool eqn:E; [|discriminate H].
  injection H as <-. split; [reflexivity|].
  apply andb_prop in E as [_ E].
  intros m y Hm Hy. destruct (decide (m = n)) as [->|Hne].
  - rewrite lookup_insert in Hm. injection Hm as ->. rewrite Hy in E. cbn in E. apply bool_decide_eq_true_1 in E. exact E.
  - rewrite lookup_insert_ne in Hm by congruence. exact (Hb _ _ Hm Hy).
Qed.

Lemma put_files_spec e st l : forall b b', put_files e st l b = Some b' -> NoDup (map fst l) -> closed_tree st b ->
  closed_tree st b'
  /\ (forall n v, (n, v) ∈ l -> b' !! n = stored v)
  /\ (forall n, n ∉ map fst l -> b' !! n = b !! n).
Proof.
  induction l as [|[n v] l IH]; intros b b' H Hnd Hb; cbn in *.
  - injection H as <-. split; [exact Hb|]. split; [|reflexivity].
    intros n v Hin. inversion Hin.
  - apply NoDup_cons in Hnd as [Hnot Hnd].
    assert (exists b1, put_files e st l b1 = Some b' /\ closed_tree st b1 /\ b1 !! n = stored v
                       /\ forall m, m <> n -> b1 !! m = b !! m) as (b1 & H1 & Hb1 & Hn1 & Hm1).
    { destruct v as [[o m]|].
      - destruct (builder_insert e st n (o, mode_number m) b) as [b1|] eqn:E; [|discriminate H].
        destruct (builder_insert_spec _ _ _ _ _ _ E Hb) as [-> Hc]. eexists. split; [exact H|].
        split; [exact Hc|]. split; [apply lookup_insert|]. intros k Hk. apply lookup_insert_ne. congruence.
      - exists (delete n b). split; [exact H|]. split.
        + intros k x Hk Hx. destruct (decide (k = n)) as [->|Hne].
          * rewrite lookup_delete in Hk. discriminate Hk.
          * rewrite lookup_delete_ne in Hk by congruence. exact (Hb _ _ Hk Hx).
        + split; [apply lookup_delete|]. intros k Hk. apply lookup_delete_ne. congruence. }
    destruct (IH _ _ H1 Hnd Hb1) as (Hc & Hin & Hout). split; [exact Hc|]. split.
    + intros m w Hmw. apply elem_of_cons in Hmw as [Heq|Hmw]; [|exact (Hin _ _ Hmw)].
      injection Heq as -> ->. rewrite Hout by exact Hnot. exact Hn1.
    + intros m Hm. rewrite not_elem_of_cons in Hm. destruct Hm as [Hm1' Hm2].
      rewrite Hout by exact Hm2. apply Hm1. exact Hm1'.
Qed.

Lemma elem_of_file_updates u n v : (n, v) ∈ file_updates u <-> ([n], v) ∈ u.
Proof.
  unfold file_updates. rewrite elem_of_list_omap. split.
  - intros ([p w] & Hin & H). destruct p as [|k [|]]; cbn in H; try discriminate H. injection H as -> ->. exact Hin.
  - intros H. exists ([n], v). split; [exact H|reflexivity].
Qed.
Lemma file_updates_nodup u : NoDup (map fst u) -> NoDup (map fst (file_updates u)).
Proof.
  induction u as [|[p v] u IH]; intros H; cbn in *; [constructor|].
  apply NoDup_cons in H as [Hn H]. destruct p as [|k [|]]; cbn; try (apply IH; exact H).
  apply NoDup_cons. split; [|apply IH; exact H].
  intros Hin. apply elem_of_list_fmap in Hin as ([k' w] & -> & Hin). apply elem_of_file_updates in Hin.
  apply Hn. apply elem_of_list_fmap. exists ([k'], w). split; [reflexivity|exact Hin].
Qed.
Lemma elem_of_dir_names u n : n ∈ dir_names u <-> exists m r v, (n :: m :: r, v) ∈ u.
Proof.
  unfold dir_names. rewrite elem_of_remove_dups, elem_of_list_omap. split.
  - intros ([p w] & Hin & H). destruct p as [|k [|m r]]; cbn in H; try discriminate H. injection H as ->. eauto.
  - intros (m & r & v & H). eexists. split; [exact H|reflexivity].
Qed.
Lemma elem_of_updates_in n u q v : (q, v) ∈ updates_in n u <-> q <> [] /\ (n :: q, v) ∈ u.
Proof.
  unfold updates_in. rewrite elem_of_list_omap. split.
  - intros ([p w] & Hin & H). destruct p as [|k [|m r]]; cbn in H; try discriminate H.
    destruct (decide (k = n)) as [->|]; [|discriminate H]. injection H as <- <-. split; [discriminate|exact Hin].
  - intros [Hq H]. destruct q as [|m r]; [congruence|]. eexists. split; [exact H|]. cbn.
    rewrite decide_True by reflexivity. reflexivity.
Qed.
Lemma updates_in_nodup n u : NoDup (map fst u) -> NoDup (map fst (updates_in n u)).
Proof.
  induction u as [|[p v] u IH]; intros H; cbn in *; [constructor|].
  apply NoDup_cons in H as [Hn H]. destruct p as [|k [|m r]]; cbn; try (apply IH; exact H).
  destruct (decide (k = n)) as [->|]; [|apply IH; exact H].
  cbn. apply NoDup_cons. split; [|apply IH; exact H].
  intros Hin. apply elem_of_list_fmap in Hin as ([q w] & Heq & Hin). cbn in Heq. subst q.
  apply elem_of_updates_in in Hin as [_ Hin].
  apply Hn. apply elem_of_list_fmap. exists (n :: m :: r, w). split; [reflexivity|exact Hin].
Qed.
Lemma dir_names_nodup u : NoDup (dir_names u).
Proof. apply NoDup_remove_dups. Qed.
Global Opaque dir_names.

(** One directory after the other. *)
Definition dir_step (fuel : nat) (e : tree_env) (u : updates) (r : option (tree * tree_store)) (n : string) :=
  match r with
  | None => None
  | Some (b, st) =>
      match hydrate fuel e st (existing_dir st b n) (updates_in n u) with
      | None => None
      | Some (o, st') =>
          match st' !! o with
          | None => None
          | Some t' =>
              if decide (t' = ∅) then Some (delete n b, st')
              else match builder_insert e st' n (o, mode_number TreeMode) b with
                   | None => None
                   | Some b' => Some (b', st')
                   end
          end
      end
  end.
Lemma hydrate_S fuel e st t u :
  hydrate (S fuel) e st t u =
  match put_files e st (file_updates u) t with
  | None => None
  | Some b =>
      match fold_left (dir_step fuel e u) (dir_names u) (Some (b, st)) with
      | None => None
      | Some (b', st') => Some (write_tree e b' st')
      end
  end.
Proof. reflexivity. Qed.
Lemma dir_step_None fuel e u l : fold_left (dir_step fuel e u) l None = None.
Proof. induction l; cbn; auto. Qed.

Definition hydrated (e : tree_env) (u : updates) (st : tree_store) (t : tree) (o : oid) (st' : tree_store) : Prop :=
  st ⊆ st' /\ sound e st' /\ exists t', st' !! o = Some t' /\ updated st t u st' t'.

Lemma existing_closed st b n : (forall o t, st !! o = Some t -> closed_tree st t) -> closed_tree st (existing_dir st b n).
Proof.
  intros H. unfold existing_dir. destruct (b !! n) as [x|]; [|apply closed_empty].
  destruct (is_tree x); [|apply closed_empty]. destruct (st !! fst x) eqn:E; [|apply closed_empty]. eauto.
Qed.
Lemma existing_mono st st' b b' n : st ⊆ st' -> closed_tree st b -> b' !! n = b !! n ->
  existing_dir st' b' n = existing_dir st b n.
Proof.
  intros Hsub Hb Hn. unfold existing_dir. rewrite Hn. destruct (b !! n) as [x|] eqn:E; [|reflexivity].
  destruct (is_tree x) eqn:Ex; [|reflexivity]. destruct (Hb _ _ E Ex) as [t H]. rewrite H.
  rewrite (lookup_weaken _ _ _ _ H Hsub). reflexivity.
Qed.

Lemma updated_store st t u st' t' st1 : updated st t u st' t' -> st' ⊆ st1 ->
  (forall o x, st' !! o = Some x -> closed_tree st' x) -> closed_tree st' t' -> updated st t u st1 t'.
Proof.
  intros H Hsub Hc Ht p Hp. rewrite (entry_at_mono _ _ p _ Hsub Hc Ht).
  destruct (H p Hp) as [H1 H2]. split; [exact H1|].
  intros Hb. destruct (H2 Hb) as [H3|(o & t'' & H3 & H4 & H5)]; [left; exact H3|].
  right. exists o, t''. split; [exact H3|]. split; [|exact H5]. eapply lookup_weaken; eassumption.
Qed.
Lemma updated_from st0 st t u st' t' : updated st t u st' t' -> st0 ⊆ st ->
  (forall o x, st0 !! o = Some x -> closed_tree st0 x) -> closed_tree st0 t ->
  (forall q o m, (q, Some (o, m)) ∈ u -> is_tree (o, mode_number m) = true -> is_Some (st0 !! o)) ->
  updated st0 t u st' t'.
Proof.
  intros H Hsub Hc Ht Hu p Hp. destruct (H p Hp) as [H1 H2]. split; [|exact H2].
  intros Hb. destruct (H1 Hb) as [H3 H4]. split.
  - intros q r v Hg. rewrite (H3 _ _ _ Hg). destruct Hg as (_ & _ & Hin & _).
    unfold within. destruct r; [reflexivity|]. destruct v as [[o m]|]; [|reflexivity]. cbn [stored option_map fst snd].
    destruct (is_tree (o, mode_number m)) eqn:E; [|reflexivity].
    destruct (Hu _ _ _ Hin E) as [t1 Ht1]. rewrite Ht1, (lookup_weaken _ _ _ _ Ht1 Hsub).
    apply entry_at_mono; eauto.
  - intros Ha. rewrite (H4 Ha). apply entry_at_mono; assumption.
Qed.

Lemma trees_there_mono st st' u : st ⊆ st' -> trees_there st u -> trees_there st' u.
Proof. intros Hsub H q o m Hin Ht. destruct (H _ _ _ Hin Ht) as [x Hx]. exists x. eapply lookup_weaken; eassumption. Qed.
Lemma trees_there_in st u n : trees_there st u -> trees_there st (updates_in n u).
Proof. intros H q o m Hin. apply elem_of_updates_in in Hin as [_ Hin]. exact (H _ _ _ Hin). Qed.

Definition hydrate_ok (fuel : nat) (e : tree_env) : Prop :=
  forall st t u o st', hydrate fuel e st t u = Some (o, st') -> sound e st -> closed_tree st t ->
    NoDup (map fst u) -> trees_there st u ->
    st ⊆ st' /\ sound e st' /\ exists t', st' !! o = Some t' /\ updated st t u st' t'.

Lemma dir_fold fuel e u : hydrate_ok fuel e -> NoDup (map fst u) ->
  forall l b st b' st', NoDup l -> fold_left (dir_step fuel e u) l (Some (b, st)) = Some (b', st') ->
    sound e st -> closed_tree st b -> trees_there st u ->
    st ⊆ st' /\ sound e st' /\ closed_tree st' b'
    /\ (forall n, n ∉ l -> b' !! n = b !! n)
    /\ (forall n, n ∈ l -> exists t'', updated st (existing_dir st b n) (updates_in n u) st' t''
          /\ ((t'' = ∅ /\ b' !! n = None)
              \/ (t'' <> ∅ /\ exists o, st' !! o = Some t'' /\ b' !! n = Some (o, mode_number TreeMode)))).
Proof.
  intros IH Hnd l. induction l as [|k l IHl]; intros b st b' st' Hl H Hs Hb Ht.
  - cbn in H. injection H as <- <-. split; [reflexivity|]. split; [exact Hs|]. split; [exact Hb|].
    split; [reflexivity|]. intros n Hn. inversion Hn.
  - cbn [fold_left] in H. destruct (dir_step fuel e u (Some (b, st)) k) as [[b1 st1]|] eqn:E.
    2: { rewrite dir_step_None in H. discriminate H. }
    apply NoDup_cons in Hl as [Hk Hl].
    unfold dir_step in E.
    destruct (hydrate fuel e st (existing_dir st b k) (updates_in k u)) as [[o st2]|] eqn:Eh; [|discriminate E].
    destruct (st2 !! o) as [t2|] eqn:Eo; [|discriminate E].
    pose proof Hs as (Hi & Hnm & Hc).
    destruct (IH _ _ _ _ _ Eh Hs (existing_closed st b k Hc) (updates_in_nodup k u Hnd) (trees_there_in _ _ _ Ht))
      as (Hsub & Hs2 & t' & Ht' & Hup).
    rewrite Eo in Ht'. injection Ht' as <-.
    pose proof Hs2 as (_ & _ & Hc2).
    assert (st1 = st2 /\ closed_tree st2 b1 /\ (forall m, m <> k -> b1 !! m = b !! m)
            /\ ((t2 = ∅ /\ b1 !! k = None) \/ (t2 <> ∅ /\ b1 !! k = Some (o, mode_number TreeMode)))) as (-> & Hb1 & Hm & Hk1).
    { destruct (decide (t2 = ∅)) as [Ht2|Ht2].
      - injection E as <- <-. split; [reflexivity|]. split.
        + intros m x Hm Hx. destruct (decide (m = k)) as [->|Hne].
          * rewrite lookup_delete in Hm. discriminate Hm.
          * rewrite lookup_delete_ne in Hm by congruence. exact (closed_tree_mono _ _ _ Hsub Hb m x Hm Hx).
        + split; [intros m Hm; apply lookup_delete_ne; congruence|]. left. split; [exact Ht2|apply lookup_delete].
      - destruct (builder_insert e st2 k (o, mode_number TreeMode) b) as [b3|] eqn:Eb; [|discriminate E].
        injection E as <- <-. destruct (builder_insert_spec _ _ _ _ _ _ Eb (closed_tree_mono _ _ _ Hsub Hb)) as [-> Hc3].
        split; [reflexivity|]. split; [exact Hc3|]. split; [intros m Hm; apply lookup_insert_ne; congruence|].
        right. split; [exact Ht2|apply lookup_insert]. }
    destruct (IHl _ _ _ _ Hl H Hs2 Hb1 (trees_there_mono _ _ _ Hsub Ht)) as (Hsub' & Hs' & Hb' & Hout & Hin).
    pose proof Hs' as (_ & _ & Hc').
    split; [etransitivity; eassumption|]. split; [exact Hs'|]. split; [exact Hb'|]. split.
    + intros n Hn. apply not_elem_of_cons in Hn as [Hn1 Hn2]. rewrite Hout by exact Hn2. apply Hm. exact Hn1.
    + intros n Hn. apply elem_of_cons in Hn as [->|Hn].
      * exists t2. split.
        -- eapply updated_store; [exact Hup|exact Hsub'|exact Hc2|]. exact (Hc2 _ _ Eo).
        -- destruct Hk1 as [[-> Hk1]|[Hne Hk1]].
           ++ left. split; [reflexivity|]. rewrite Hout by exact Hk. exact Hk1.
           ++ right. split; [exact Hne|]. exists o. split; [eapply lookup_weaken; eassumption|].
              rewrite Hout by exact Hk. exact Hk1.
      * assert (n <> k) as Hne by congruence.
        destruct (Hin n Hn) as (t'' & Hu'' & Hc''). exists t''. split; [|exact Hc''].
        rewrite <- (existing_mono st st2 b b1 n Hsub Hb (Hm n Hne)).
        rewrite (existing_mono st st2 b b1 n Hsub Hb (Hm n Hne)).
        rewrite (existing_mono st st2 b b1 n Hsub Hb (Hm n Hne)) in Hu''.
        eapply updated_from; [exact Hu''|exact Hsub|exact Hc|exact (existing_closed st b n Hc)|].
        exact (trees_there_in _ _ _ Ht).
Qed.

Lemma below_nil_in u n : below u [n] <-> n ∈ dir_names u.
Proof.
  rewrite elem_of_dir_names. unfold below. cbn. split; intros (m & r & v & H); eauto.
Qed.
Lemma below_cons u n p : p <> [] -> below (updates_in n u) p <-> below u (n :: p).
Proof.
  intros Hp. unfold below. split; intros (m & r & v & H).
  - apply elem_of_updates_in in H as [_ H]. exists m, r, v. exact H.
  - exists m, r, v. apply elem_of_updates_in. split; [|exact H]. destruct p; discriminate.
Qed.
Lemma governs_sub u n q r p v : q <> [] -> p <> [] -> governs u (n :: q) r (n :: p) v -> governs (updates_in n u) q r p v.
Proof.
  intros Hq Hp (Hp' & _ & Hin & Hmax). injection Hp' as ->. split; [reflexivity|]. split; [exact Hq|].
  split; [apply elem_of_updates_in; split; assumption|].
  intros q' v' Hin' Hpre. apply elem_of_updates_in in Hin' as [Hq' Hin'].
  assert (H : n :: q' `prefix_of` n :: q) by (eapply Hmax; [exact Hin'|]; apply prefix_cons; exact Hpre).
  apply prefix_cons_inv_2 in H. exact H.
Qed.

Theorem hydrate_updated fuel e : hydrate_ok fuel e.
Proof.
  induction fuel as [|fuel IH]; intros st t u o st' H Hs Ht Hnd Htt; [discriminate H|].
  rewrite hydrate_S in H.
  destruct (put_files e st (file_updates u) t) as [b|] eqn:Ef; [|discriminate H].
  destruct (fold_left (dir_step fuel e u) (dir_names u) (Some (b, st))) as [[b' st1]|] eqn:Ed; [|discriminate H].
  assert (H' : write_tree e b' st1 = (o, st')) by congruence. clear H. rename H' into H.
  destruct (put_files_spec _ _ _ _ _ Ef (file_updates_nodup _ Hnd) Ht) as (Hb & Hfin & Hfout).
  destruct (dir_fold _ _ _ IH Hnd _ _ _ _ _ (dir_names_nodup u) Ed Hs Hb Htt) as (Hsub & Hs1 & Hb' & Hout & Hin).
  destruct (write_tree_spec _ _ _ _ _ Hs1 Hb' H) as (Hsub' & Ho & Hs' & _).
  split; [etransitivity; eassumption|]. split; [exact Hs'|]. exists b'. split; [exact Ho|].
  pose proof Hs as (_ & _ & Hc). pose proof Hs1 as (_ & _ & Hc1).
  eapply updated_store; [|exact Hsub'|exact Hc1|exact Hb'].
  intros p Hp. destruct p as [|n p]; [congruence|]. clear Hp.
  (* what is said of the name itself *)
  assert (Hfile : forall v, ([n], v) ∈ u -> b !! n = stored v).
  { intros v Hv. apply Hfin, elem_of_file_updates, Hv. }
  assert (Hnofile : (forall v, ([n], v) ∉ u) -> b !! n = t !! n).
  { intros Hno. apply Hfout. intros Hn. apply elem_of_list_fmap in Hn as ([n' v] & -> & Hn).
    apply elem_of_file_updates in Hn. exact (Hno _ Hn). }
  destruct (decide (n ∈ dir_names u)) as [Hdir|Hdir].
  - destruct (Hin n Hdir) as (t'' & Hup & Hcase).
    destruct p as [|m p].
    + split; [intros Hno; exfalso; apply Hno, below_nil_in, Hdir|].
      intros _. cbn. destruct Hcase as [[_ Hn]|(Hne & o1 & Ho1 & Hn)]; [left; exact Hn|].
      right. exists o1, t''. split; [exact Hn|]. split; [exact Ho1|exact Hne].
    + assert (Hent : entry_at st1 b' (n :: m :: p) = entry_at st1 t'' (m :: p)).
      { rewrite entry_at_cons. destruct Hcase as [[-> Hn]|(Hne & o1 & Ho1 & Hn)]; rewrite Hn.
        - rewrite entry_at_empty. reflexivity.
        - cbn [is_tree fst snd]. replace (is_tree (o1, mode_number TreeMode)) with true by reflexivity.
          rewrite Ho1. reflexivity. }
      rewrite Hent. destruct (Hup (m :: p) ltac:(discriminate)) as [H1 H2].
      split.
      * intros Hno. destruct H1 as [H1 H1']; [intros Hb2; apply Hno, below_cons, Hb2; discriminate|].
        split.
        -- intros q r v Hg. destruct q as [|n' q]; [destruct Hg as (_ & Hq & _); congruence|].
           assert (n' = n) as -> by (destruct Hg as (Hg & _); injection Hg; congruence).
           destruct q as [|k q].
           ++ (* the update of the directory itself *)
              destruct Hg as (Hg & _ & Hv & Hmax). cbn in Hg. injection Hg as <-.
              rewrite H1'.
              ** cbn [within]. rewrite <- (Hfile _ Hv). unfold existing_dir.
                 destruct (b !! n) as [x|]; [|apply entry_at_empty].
                 destruct (is_tree x); [|apply entry_at_empty].
                 destruct (st !! fst x); [reflexivity|apply entry_at_empty].
              ** intros (q' & v' & Hq' & Hne' & Hpre). apply elem_of_updates_in in Hq' as [_ Hq'].
                 assert (Hx : n :: q' `prefix_of` [n]) by (eapply Hmax; [exact Hq'|]; apply prefix_cons; exact Hpre).
                 apply prefix_cons_inv_2 in Hx. apply prefix_nil_inv in Hx. congruence.
           ++ apply (H1 (k :: q) r v). apply governs_sub; [discriminate|discriminate|exact Hg].
        -- intros Hna. rewrite H1'.
           ++ rewrite entry_at_cons. unfold existing_dir. rewrite Hnofile.
              ** destruct (t !! n) as [x|]; [|apply entry_at_empty].
                 destruct (is_tree x); [|apply entry_at_empty].
                 destruct (st !! fst x); [reflexivity|apply entry_at_empty].
              ** intros v Hv. apply Hna. exists [n], v. split; [exact Hv|]. split; [discriminate|].
                 exists (m :: p). reflexivity.
           ++ intros (q' & v' & Hq' & Hne' & Hpre). apply elem_of_updates_in in Hq' as [_ Hq'].
              apply Hna. exists (n :: q'), v'. split; [exact Hq'|]. split; [discriminate|]. apply prefix_cons, Hpre.
      * intros Hbel. apply H2. apply below_cons; [discriminate|exact Hbel].
  - assert (Hn : b' !! n = b !! n) by (apply Hout; exact Hdir).
    assert (Honly : forall q v, (q, v) ∈ u -> q <> [] -> q `prefix_of` (n :: p) -> q = [n]).
    { intros q v Hq Hne Hpre. destruct q as [|n' [|k q]]; [congruence| |].
      - apply prefix_cons_inv_1 in Hpre. congruence.
      - exfalso. apply Hdir. apply elem_of_dir_names. apply prefix_cons_inv_1 in Hpre as ->. eauto. }
    split.
    + intros _. split.
      * intros q r v (Hqr & Hne & Hin' & Hmax).
        assert (q = [n]) as -> by (apply (Honly q v Hin' Hne); exists r; exact Hqr).
        injection Hqr as <-. destruct p as [|m p]; cbn [within].
        -- cbn. rewrite Hn. exact (Hfile _ Hin').
        -- rewrite entry_at_cons, Hn, (Hfile _ Hin').
           destruct (stored v) as [x|] eqn:Ev; [|reflexivity].
           destruct (is_tree x) eqn:Ex; [|reflexivity].
           destruct v as [[o1 m1]|]; [|discriminate Ev]. cbn in Ev. injection Ev as <-.
           destruct (Htt _ _ _ Hin' Ex) as [t1 Ht1]. cbn [fst]. rewrite Ht1, (lookup_weaken _ _ _ _ Ht1 Hsub).
           apply entry_at_mono; eauto.
      * intros Hna. rewrite <- (entry_at_mono st st1 (n :: p) t Hsub Hc Ht).
        assert (Heq : b' !! n = t !! n).
        { rewrite Hn. apply Hnofile. intros v Hv. apply Hna. exists [n], v. split; [exact Hv|]. split; [discriminate|].
          exists p. reflexivity. }
        destruct p as [|m p]; [exact Heq|]. rewrite !entry_at_cons, Heq. reflexivity.
    + intros (m & r & v & Hb2). exfalso. apply Hdir. apply elem_of_dir_names.
      cbn in Hb2. destruct p as [|k p]; cbn in Hb2; eauto.
Qed.
