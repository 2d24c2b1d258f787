(** Proofs about amending in memory. *)
From Verif Require Import Base ModeModel TreeModel TreeSpec TreeProofs TreeDiffProofs TreeOpsProofs TreePickProofs.
Local Open Scope N_scope.

Lemma last_value_go {A} (l : list (path * A)) p : forall r,
  fold_left (fun r x => if decide (fst x = p) then Some (snd x) else r) l r
  = match last_value l p with Some v => Some v | None => r end.
Proof.
  unfold last_value. induction l as [|[q w] l IH]; intros r; cbn; [destruct r; reflexivity|].
  rewrite (IH (if decide (q = p) then Some w else r)), (IH (if decide (q = p) then Some w else None)).
  destruct (fold_left _ l None); [reflexivity|]. destruct (decide (q = p)); reflexivity.
Qed.
Lemma last_value_cons {A} q (w : A) l p :
  last_value ((q, w) :: l) p = match last_value l p with Some v => Some v | None => if decide (q = p) then Some w else None end.
Proof. unfold last_value at 1. cbn. apply last_value_go. Qed.
Lemma last_value_none {A} (l : list (path * A)) p : last_value l p = None <-> p ∉ map fst l.
Proof.
  induction l as [|[q w] l IH]; [split; [intros _ H; inversion H|reflexivity]|].
  rewrite last_value_cons. cbn. rewrite not_elem_of_cons, <- IH.
  destruct (last_value l p) as [v|]; [split; [discriminate|intros [_ H]; discriminate H]|].
  destruct (decide (q = p)) as [->|Hne]; split; try discriminate; try reflexivity; [intros [H _]; congruence|].
  intros _. split; [congruence|reflexivity].
Qed.
Lemma last_value_in {A} (l : list (path * A)) p v : last_value l p = Some v -> (p, v) ∈ l.
Proof.
  induction l as [|[q w] l IH]; [discriminate|]. rewrite last_value_cons.
  destruct (last_value l p) as [v'|]; [intros H; apply elem_of_cons; right; exact (IH H)|].
  destruct (decide (q = p)) as [->|]; [|discriminate]. intros [= ->]. apply elem_of_list_here.
Qed.

(** What the new tree is made of. *)
Definition amend_values (st : tree_store) (small : tree) (u : updates) (all : list path) : updates :=
  map (fun p => (p, match last_value u p with Some v => v | None => read_entry st small p end)) all.

Lemma amend_updated e st st3 t small all u o st' :
  hydrate_tree e st3 t (amend_values st3 small u all) = Some (o, st') -> sound e st -> sound e st3 -> st ⊆ st3 -> closed_tree st t ->
  closed_tree st3 small -> NoDup all -> trees_there st3 u -> reduced st t all st3 small ->
  exists t', st' !! o = Some t' /\ st3 ⊆ st' /\ sound e st' /\
    forall p, p <> [] -> (forall n r, p ++ n :: r ∉ all) ->
      (forall v, p ∈ all -> last_value u p = Some v -> entry_at st' t' p = stored v)
      /\ ((forall q, q ∈ all -> q `prefix_of` p -> last_value u q = None) ->
            option_map seen (entry_at st' t' p) = option_map seen (entry_at st t p)).
Proof.
  intros H Hs Hs3 Hsub Ht Hsm Hnd Htt Hred. pose proof Hs as (_ & _ & Hc). pose proof Hs3 as (_ & _ & Hc3).
  destruct (hydrate_tree_spec _ _ _ _ _ _ H Hs3 (closed_tree_mono _ _ _ Hsub Ht)) as (Hsub' & Hs' & t' & Ht' & Hup).
  { unfold amend_values. rewrite map_fst_pair. exact Hnd. }
  { intros q w m Hin Tm. unfold amend_values in Hin. apply in_map_value in Hin as [Hq Hv].
    destruct (last_value u q) as [v|] eqn:E.
    - subst v. exact (Htt _ _ _ (last_value_in _ _ _ E) Tm).
    - apply (trees_there_read st3 small all Hc3 Hsm q w m); [|exact Tm]. apply elem_of_list_fmap. exists q. split; [congruence|exact Hq]. }
  exists t'. split; [exact Ht'|]. split; [exact Hsub'|]. split; [exact Hs'|]. intros p Hp Hno.
  assert (Hnb : ~ below (amend_values st3 small u all) p).
  { unfold amend_values. rewrite below_map. intros (n & r & Hn). exact (Hno _ _ Hn). }
  split.
  - intros v Hin Hv. apply (updated_self _ _ _ _ _ _ _ Hup Hp); [|exact Hnb]. apply elem_of_list_fmap. exists p.
    rewrite Hv. auto.
  - intros Hkeep. destruct (above_dec (amend_values st3 small u all) p) as [Ha|Hna].
    + destruct (governing _ _ Ha) as (q & r & v & Hg). destruct (Hup p Hp) as [H1 _]. rewrite (proj1 (H1 Hnb) _ _ _ Hg).
      destruct Hg as (Hpq & Hq & Hin & _). unfold amend_values in Hin. apply in_map_value in Hin as [Hqin ->].
      assert (Hpre : q `prefix_of` p) by (exists r; exact Hpq).
      rewrite (Hkeep q Hqin Hpre), stored_read, (seen_within st3 small q r Hq), <- Hpq.
      exact (proj1 Hred p q Hqin Hq Hpre Hno).
    + rewrite (updated_other _ _ _ _ _ _ Hup Hp Hnb Hna). rewrite (entry_at_mono st st3 p t Hsub Hc Ht). reflexivity.
Qed.

(** The tree that is amended, the paths, and the new values. *)
Definition amend_outcome (e : tree_env) (mg : merger) (a : amend_env) (st : tree_store) (parent : tcommit) (from : amend_from)
  (t : tree) (o : oid) (st' : tree_store) (ps qs : list path) (u : updates) : Prop :=
  exists t', touched_paths st parent = Some ps /\ amend_paths st from = Some qs /\ st' !! o = Some t' /\ st ⊆ st' /\ sound e st'
    /\ (forall p, p <> [] -> (forall n r, p ++ n :: r ∉ ps /\ p ++ n :: r ∉ qs) ->
          (forall v, p ∈ qs -> last_value u p = Some v -> entry_at st' t' p = stored v)
          /\ ((forall q, q ∈ ps \/ q ∈ qs -> q `prefix_of` p -> last_value u q = None) ->
                option_map seen (entry_at st' t' p) = option_map seen (entry_at st t p))).

Lemma amend_spec e mg a st parent from t o st' : amend_fast e mg a st parent from = Picked o st' -> sound e st -> makes_files mg ->
  st !! tc_tree parent = Some t ->
  (forall st2 st3 u, st ⊆ st2 -> sound e st2 -> new_values e mg a st2 parent from = Values u st3 ->
     st2 ⊆ st3 /\ sound e st3 /\ trees_there st3 u) ->
  exists ps qs u st2 st3, st ⊆ st2 /\ sound e st2 /\ st3 ⊆ st' /\ new_values e mg a st2 parent from = Values u st3
    /\ amend_outcome e mg a st parent from t o st' ps qs u.
Proof.
  intros H Hs Hmk Ht Hval. unfold amend_fast in H. pose proof Hs as (_ & _ & Hc).
  destruct (touched_paths st parent) as [ps|] eqn:Eps; [|discriminate H].
  destruct (amend_paths st from) as [qs|] eqn:Eqs; [|discriminate H].
  assert (Hnd : NoDup (remove_dups (ps ++ qs))) by apply NoDup_remove_dups.
  assert (Hall : forall p, p ∈ remove_dups (ps ++ qs) <-> p ∈ ps \/ p ∈ qs) by (intros p; rewrite elem_of_remove_dups; apply elem_of_app).
  cbv zeta in H. set (all := remove_dups (ps ++ qs)) in *. clearbody all.
  destruct (dehydrate_commit e st (tc_tree parent) all) as [[o1 st1]|] eqn:E1; [|discriminate H].
  destruct (dehydrate_commit_spec _ _ _ _ _ _ E1 Hs Hnd) as (Hsub1 & Hs1 & t1 & small & Ht1 & Hsmall & Hred).
  rewrite Ht in Ht1. injection Ht1 as <-.
  match type of H with match ?x with _ => _ end = _ => destruct x as [[o2 st2]|] eqn:E2 end; [|discriminate H].
  assert (H2 : st1 ⊆ st2 /\ sound e st2).
  { destruct (only_parent parent) as [q|].
    - destruct (dehydrate_commit_spec _ _ _ _ _ _ E2 Hs1 Hnd) as (Hsub2 & Hs2 & _). auto.
    - injection E2 as <- <-. split; [reflexivity|exact Hs1]. }
  clear E2. destruct H2 as [Hsub2 Hs2].
  destruct (new_values e mg a st2 parent from) as [u st3| |] eqn:Ev; [|discriminate H|discriminate H].
  destruct (Hval _ _ _ (transitivity Hsub1 Hsub2) Hs2 Ev) as (Hsub3 & Hs3 & Htt). pose proof Hs3 as (_ & _ & Hc3).
  assert (Hsm3 : st3 !! o1 = Some small) by (eapply lookup_weaken; [exact Hsmall|]; exact (transitivity Hsub2 Hsub3)).
  assert (Hsub03 : st ⊆ st3) by exact (transitivity Hsub1 (transitivity Hsub2 Hsub3)).
  assert (Ht3 : st3 !! tc_tree parent = Some t) by (eapply lookup_weaken; eassumption).
  rewrite Hsm3, Ht3 in H.
  destruct (hydrate_tree e st3 t _) as [[o4 st4]|] eqn:Eh; [|discriminate H]. injection H as -> ->.
  pose proof Hs1 as (_ & _ & Hc1).
  destruct (amend_updated e st st3 t small all u o st' Eh Hs Hs3 Hsub03 (Hc _ _ Ht) (Hc3 _ _ Hsm3) Hnd Htt) as (t' & Ht' & Hsub' & Hs' & Hp).
  { eapply (reduced_mono e st st t all st1 small st3 Hs Hs1);
      [reflexivity|exact (transitivity Hsub2 Hsub3)|exact (Hc _ _ Ht)|exact (Hc1 _ _ Hsmall)|exact Hred]. }
  exists ps, qs, u, st2, st3. split; [exact (transitivity Hsub1 Hsub2)|]. split; [exact Hs2|]. split; [exact Hsub'|].
  split; [exact Ev|]. exists t'. split; [exact Eps|]. split; [exact Eqs|]. split; [exact Ht'|].
  split; [exact (transitivity Hsub03 Hsub')|]. split; [exact Hs'|].
  intros p Hne Hno. destruct (Hp p Hne) as [Hp1 Hp2].
  { intros n r Hin. apply Hall in Hin as [Hin|Hin]; [exact (proj1 (Hno n r) Hin)|exact (proj2 (Hno n r) Hin)]. }
  split.
  - intros v Hin. apply Hp1. apply Hall. right. exact Hin.
  - intros Hk. apply Hp2. intros q Hq. apply Hk. apply Hall. exact Hq.
Qed.

(** ** From the index *)
Lemma index_values i ps p : p ∈ ps ->
  last_value (omap (index_update i) ps) p
  = match i !! p with
    | Some (Zero, _) => None
    | _ => Some (index_value i p)
    end.
Proof.
  intros Hin. destruct (last_value (omap (index_update i) ps) p) as [v|] eqn:E.
  - apply last_value_in in E. apply elem_of_list_omap in E as (q & Hq & Hv). unfold index_update, index_value, index_entry in *.
    destruct (i !! q) as [[[|o] m]|] eqn:Eq; [discriminate Hv|injection Hv as -> <-; rewrite Eq; reflexivity|
      injection Hv as -> <-; rewrite Eq; reflexivity].
  - apply last_value_none in E. destruct (i !! p) as [[[|o] m]|] eqn:Ep; [reflexivity| |]; exfalso; apply E, elem_of_list_fmap.
    + exists (p, Some (o, mode_of_number m)). split; [reflexivity|]. apply elem_of_list_omap. exists p. split; [exact Hin|].
      unfold index_update, index_entry. rewrite Ep. reflexivity.
    + exists (p, None). split; [reflexivity|]. apply elem_of_list_omap. exists p. split; [exact Hin|].
      unfold index_update, index_entry. rewrite Ep. reflexivity.
Qed.
Lemma index_values_other i ps p : p ∉ ps -> last_value (omap (index_update i) ps) p = None.
Proof.
  intros Hn. apply last_value_none. intros H. apply elem_of_list_fmap in H as ([q v] & -> & H).
  apply elem_of_list_omap in H as (q' & Hq & Hv). unfold index_update in Hv. cbn in Hn.
  destruct (index_entry i q') as [[[|o] m]|]; [discriminate Hv|injection Hv as -> _; contradiction|injection Hv as -> _; contradiction].
Qed.

Lemma amend_index e mg a st parent l t o st' : amend_fast e mg a st parent (FromIndex l) = Picked o st' -> sound e st -> makes_files mg ->
  only_files (ae_index a) -> st !! tc_tree parent = Some t ->
  exists t', st' !! o = Some t' /\ st ⊆ st' /\ sound e st'
    /\ forall p, p <> [] -> (forall q n r, q ∈ l \/ touches st parent q -> q <> p ++ n :: r) ->
         (p ∈ l -> (forall m, ae_index a !! p <> Some (Zero, m)) -> entry_at st' t' p = stored (index_value (ae_index a) p))
         /\ ((forall q, q ∈ l -> ~ q `prefix_of` p) -> option_map seen (entry_at st' t' p) = option_map seen (entry_at st t p)).
Proof.
  intros H Hs Hmk Hi Ht.
  destruct (amend_spec e mg a st parent (FromIndex l) t o st' H Hs Hmk Ht) as (ps & qs & u & st2 & st3 & Hsub2 & Hs2 & Hsub3 & Ev & Hout).
  { intros st2 st3 u _ Hs2 Hv. cbn in Hv. injection Hv as <- <-. split; [reflexivity|]. split; [exact Hs2|].
    intros q w m Hin Tm. apply elem_of_list_omap in Hin as (q' & _ & Hv). unfold index_update in Hv.
    pose proof (index_no_tree (ae_index a) q' w m Hi) as Hn. unfold index_value in Hn.
    destruct (index_entry (ae_index a) q') as [[[|w'] m']|]; [discriminate Hv| |discriminate Hv].
    injection Hv as -> -> ->. rewrite Hn in Tm by reflexivity. discriminate Tm. }
  cbn in Ev. injection Ev as <- _. destruct Hout as (t' & Eps & Eqs & Ht' & Hsub & Hs' & Hp). cbn -[we_paths] in Eqs. injection Eqs as <-.
  exists t'. split; [exact Ht'|]. split; [exact Hsub|]. split; [exact Hs'|]. intros p Hne Hno.
  destruct (touched_paths_spec _ _ _ Eps) as (_ & Htouch & _).
  destruct (Hp p Hne) as [H1 H2].
  { intros n r. split; intros Hin; [apply Htouch in Hin; exact (Hno _ n r (or_intror Hin) eq_refl)|
      exact (Hno _ n r (or_introl Hin) eq_refl)]. }
  split.
  - intros Hin Hz. apply H1; [exact Hin|]. rewrite index_values by exact Hin.
    destruct (ae_index a !! p) as [[[|w] m]|] eqn:E; [exfalso; exact (Hz _ eq_refl)|reflexivity|reflexivity].
  - intros Hnl. apply H2. intros q _ Hpre. apply index_values_other. intros Hq. exact (Hnl _ Hq Hpre).
Qed.

(** ** From the working copy *)
Lemma wc_values_in b l : forall u, wc_values b l = Some u ->
  map fst u = map fst l
  /\ forall p v, (p, v) ∈ u -> exists m x, (p, m) ∈ l /\ b p = Some x /\ v = option_map (fun o => (o, m)) x.
Proof.
  induction l as [|[p m] l IH]; intros u H; cbn in H.
  - injection H as <-. split; [reflexivity|]. intros p v Hin. inversion Hin.
  - destruct (b p) as [x|] eqn:Ex; [|discriminate H]. destruct (wc_values b l) as [r|]; [|discriminate H]. injection H as <-.
    destruct (IH _ eq_refl) as [H1 H2]. split; [cbn; rewrite H1; reflexivity|].
    intros q v Hin. apply elem_of_cons in Hin as [Heq|Hin].
    + injection Heq as -> ->. exists m, x. split; [apply elem_of_list_here|]. auto.
    + destruct (H2 _ _ Hin) as (m' & x' & Hm & Hx & Hv). exists m', x'. split; [apply elem_of_list_further; exact Hm|]. auto.
Qed.
Lemma wc_list_in (l : list wc_entry) p m :
  (p, m) ∈ List.concat (map (fun x => map (fun p => (p, we_mode x)) (we_paths x)) l) <-> exists x, x ∈ l /\ p ∈ we_paths x /\ m = we_mode x.
Proof.
  rewrite elem_of_list_In, in_concat. split.
  - intros (y & Hy & Hin). apply in_map_iff in Hy as (x & <- & Hx). apply in_map_iff in Hin as (q & Heq & Hq). injection Heq as -> <-.
    exists x. rewrite !elem_of_list_In. auto.
  - intros (x & Hx & Hp & ->). rewrite !elem_of_list_In in *. exists (map (fun p => (p, we_mode x)) (we_paths x)).
    split; [apply in_map_iff; eauto|]. apply in_map_iff. eauto.
Qed.
Lemma wc_paths_in (l : list wc_entry) p : p ∈ List.concat (map we_paths l) <-> exists x, x ∈ l /\ p ∈ we_paths x.
Proof.
  rewrite elem_of_list_In, in_concat. split.
  - intros (y & Hy & Hin). apply in_map_iff in Hy as (x & <- & Hx). exists x. rewrite !elem_of_list_In. auto.
  - intros (x & Hx & Hp). rewrite !elem_of_list_In in *. exists (we_paths x). split; [apply in_map; exact Hx|exact Hp].
Qed.

Lemma amend_working_copy e mg a st parent l t o st' : amend_fast e mg a st parent (FromWorkingCopy l) = Picked o st' -> sound e st ->
  makes_files mg -> (forall x, x ∈ l -> we_mode x <> TreeMode) -> st !! tc_tree parent = Some t ->
  exists t', st' !! o = Some t' /\ st ⊆ st' /\ sound e st'
    /\ forall p, p <> [] -> (forall q n r, (exists y, y ∈ l /\ q ∈ we_paths y) \/ touches st parent q -> q <> p ++ n :: r) ->
         (forall x c, x ∈ l -> p ∈ we_paths x -> (forall y, y ∈ l -> p ∈ we_paths y -> we_mode y = we_mode x) ->
            create_blob (ae_disk a) p = Some c -> entry_at st' t' p = option_map (fun b => (b, mode_number (we_mode x))) c)
         /\ ((forall q y, y ∈ l -> q ∈ we_paths y -> ~ q `prefix_of` p) ->
               option_map seen (entry_at st' t' p) = option_map seen (entry_at st t p)).
Proof.
  intros H Hs Hmk Hl Ht.
  destruct (amend_spec e mg a st parent (FromWorkingCopy l) t o st' H Hs Hmk Ht) as (ps & qs & u & st2 & st3 & Hsub2 & Hs2 & Hsub3 & Ev & Hout).
  { intros st2 st3 u _ Hs2 Hv. cbn -[create_blob we_paths] in Hv. destruct (wc_values _ _) as [u'|] eqn:Eu; [|discriminate Hv]. injection Hv as <- <-.
    split; [reflexivity|]. split; [exact Hs2|]. intros q w m Hin Tm.
    destruct (proj2 (wc_values_in _ _ _ Eu) _ _ Hin) as (m' & x & Hm & _ & Hv). apply wc_list_in in Hm as (y & Hy & _ & ->).
    destruct x as [b|]; [|discriminate Hv]. cbn in Hv. injection Hv as -> ->. exfalso. specialize (Hl _ Hy).
    destruct (we_mode y); try discriminate Tm. contradiction. }
  cbn -[create_blob we_paths] in Ev. destruct (wc_values _ _) as [u'|] eqn:Eu; [|discriminate Ev]. injection Ev as -> _.
  destruct (wc_values_in _ _ _ Eu) as [Hu1 Hu2].
  destruct Hout as (t' & Eps & Eqs & Ht' & Hsub & Hs' & Hp). cbn -[we_paths] in Eqs. injection Eqs as <-.
  exists t'. split; [exact Ht'|]. split; [exact Hsub|]. split; [exact Hs'|]. intros p Hne Hno.
  destruct (touched_paths_spec _ _ _ Eps) as (_ & Htouch & _).
  destruct (Hp p Hne) as [H1 H2].
  { intros n r. split; intros Hin; [apply Htouch in Hin; exact (Hno _ n r (or_intror Hin) eq_refl)|].
    apply wc_paths_in in Hin. exact (Hno _ n r (or_introl Hin) eq_refl). }
  split.
  - intros x c Hx Hpx Hall Hc. assert (Hqs : p ∈ List.concat (map we_paths l)) by (apply wc_paths_in; eauto).
    destruct (last_value u p) as [v|] eqn:E.
    + rewrite (H1 v Hqs eq_refl). apply last_value_in in E. destruct (Hu2 _ _ E) as (m & x' & Hm & Hx' & ->).
      apply wc_list_in in Hm as (y & Hy & Hpy & ->). rewrite (Hall _ Hy Hpy). rewrite Hc in Hx'. injection Hx' as <-.
      destruct c; reflexivity.
    + exfalso. apply last_value_none in E. apply E. rewrite Hu1. apply elem_of_list_fmap. exists (p, we_mode x). split; [reflexivity|].
      apply wc_list_in. eauto.
  - intros Hnl. apply H2. intros q _ Hpre. apply last_value_none. rewrite Hu1. intros Hq.
    apply elem_of_list_fmap in Hq as ([q' m] & -> & Hq). apply wc_list_in in Hq as (y & Hy & Hqy & _). exact (Hnl _ _ Hy Hqy Hpre).
Qed.

(** ** From another commit *)
Lemma commit_values st t ps p v : p ∈ ps -> read_entry st t p = Some v -> last_value (omap (commit_update st t) ps) p = Some (Some v).
Proof.
  intros Hin Hv. destruct (last_value (omap (commit_update st t) ps) p) as [w|] eqn:E.
  - apply last_value_in in E. apply elem_of_list_omap in E as (q & Hq & Hw). unfold commit_update in Hw.
    destruct (read_entry st t q) as [x|] eqn:Eq; [|discriminate Hw]. injection Hw as -> <-. congruence.
  - exfalso. apply last_value_none in E. apply E, elem_of_list_fmap. exists (p, Some v). split; [reflexivity|].
    apply elem_of_list_omap. exists p. unfold commit_update. rewrite Hv. auto.
Qed.
Lemma commit_values_none st t ps p : p ∉ ps \/ read_entry st t p = None -> last_value (omap (commit_update st t) ps) p = None.
Proof.
  intros Hn. apply last_value_none. intros H. apply elem_of_list_fmap in H as ([q v] & -> & H). cbn in Hn.
  apply elem_of_list_omap in H as (q' & Hq & Hv). unfold commit_update in Hv.
  destruct (read_entry st t q') as [x|] eqn:E; [|discriminate Hv]. injection Hv as -> _. destruct Hn; congruence.
Qed.

Lemma amend_commit e mg a st parent c t o st' : amend_fast e mg a st parent (FromCommit c) = Picked o st' -> sound e st ->
  makes_files mg -> st !! tc_tree parent = Some t ->
  exists t' sta stb o2 t2, st' !! o = Some t' /\ st ⊆ sta /\ stb ⊆ st' /\ sound e st'
    /\ cherry_pick_fast e mg sta false c (tc_tree parent) = Picked o2 stb /\ stb !! o2 = Some t2
    /\ forall p, p <> [] -> (forall q n r, touches st c q \/ touches st parent q -> q <> p ++ n :: r) ->
         (touches st c p -> entry_at stb t2 p <> None -> entry_at st' t' p = option_map seen (entry_at stb t2 p))
         /\ ((forall q, q `prefix_of` p -> touches st c q -> entry_at stb t2 q = None) ->
               option_map seen (entry_at st' t' p) = option_map seen (entry_at st t p)).
Proof.
  intros H Hs Hmk Ht.
  assert (Hpick : forall st2 o2 stb, st ⊆ st2 -> sound e st2 -> cherry_pick_fast e mg st2 false c (tc_tree parent) = Picked o2 stb ->
            st2 ⊆ stb /\ sound e stb).
  { intros st2 o2 stb Hsub2 Hs2 Hpk. rewrite pick_fast_merged in Hpk.
    destruct (pick_unrelated _ _ _ _ _ _ _ t Hpk Hs2 Hmk (lookup_weaken _ _ _ _ Ht Hsub2)) as (_ & _ & Hsub & Hsb & _). auto. }
  destruct (amend_spec e mg a st parent (FromCommit c) t o st' H Hs Hmk Ht) as (ps & qs & u & st2 & st3 & Hsub2 & Hs2 & Hsub3 & Ev & Hout).
  { intros st2 st3 u Hsub2 Hs2 Hv. cbn -[cherry_pick_fast] in Hv.
    destruct (cherry_pick_fast e mg st2 false c (tc_tree parent)) as [o2 stb| |] eqn:Ep; [|discriminate Hv|discriminate Hv].
    destruct (stb !! o2) as [t2|] eqn:E2; [|discriminate Hv]. destruct (touched_paths stb c) as [ps'|]; [|discriminate Hv].
    injection Hv as <- <-. destruct (Hpick _ _ _ Hsub2 Hs2 Ep) as [Hsub3 Hs3]. split; [exact Hsub3|]. split; [exact Hs3|].
    pose proof Hs3 as (_ & _ & Hc3). intros q w m Hin Tm. apply elem_of_list_omap in Hin as (q' & Hq & Hv). unfold commit_update in Hv.
    destruct (read_entry stb t2 q') as [x|] eqn:E; [|discriminate Hv]. injection Hv as -> ->.
    apply (trees_there_read stb t2 [q] Hc3 (Hc3 _ _ E2) q w m); [|exact Tm]. cbn. rewrite E. apply elem_of_list_here. }
  cbn -[cherry_pick_fast] in Ev.
  destruct (cherry_pick_fast e mg st2 false c (tc_tree parent)) as [o2 stb| |] eqn:Ep; [|discriminate Ev|discriminate Ev].
  destruct (stb !! o2) as [t2|] eqn:E2; [|discriminate Ev]. destruct (touched_paths stb c) as [ps'|] eqn:Eps'; [|discriminate Ev].
  assert (Hu : u = omap (commit_update stb t2) ps') by congruence. assert (Hst : st3 = stb) by congruence. subst u st3. clear Ev.
  destruct (Hpick _ _ _ Hsub2 Hs2 Ep) as [Hsubb Hsb].
  destruct Hout as (t' & Eps & Eqs & Ht' & Hsub & Hs' & Hp). cbn in Eqs.
  exists t', st2, stb, o2, t2. split; [exact Ht'|]. split; [exact Hsub2|]. split; [exact Hsub3|]. split; [exact Hs'|].
  split; [exact Ep|]. split; [exact E2|]. intros p Hne Hno.
  destruct (touched_paths_spec _ _ _ Eps) as (_ & Htouch & _). destruct (touched_paths_spec _ _ _ Eqs) as (_ & Htouchc & Hthere & Hthere').
  destruct (touched_paths_spec _ _ _ Eps') as (_ & Htouchb & _).
  assert (Hsame : forall q, touches stb c q <-> touches st c q).
  { intros q. apply (touches_mono e st stb c q Hs); [exact (transitivity Hsub2 Hsubb)|exact Hthere|exact Hthere']. }
  destruct (Hp p Hne) as [H1 H2].
  { intros n r. split; intros Hin; [apply Htouch in Hin; exact (Hno _ n r (or_intror Hin) eq_refl)|].
    apply Htouchc in Hin. exact (Hno _ n r (or_introl Hin) eq_refl). }
  split.
  - intros Htc Hsome. destruct (read_entry stb t2 p) as [v|] eqn:Er.
    + rewrite (H1 (Some v)).
      * rewrite <- Er. apply stored_read.
      * apply Htouchc. exact Htc.
      * apply commit_values; [apply Htouchb, Hsame; exact Htc|exact Er].
    + exfalso. apply Hsome. unfold read_entry in Er. destruct (entry_at stb t2 p) as [[w m]|]; [discriminate Er|reflexivity].
  - intros Hnl. apply H2. intros q _ Hpre. apply commit_values_none.
    destruct (decide (q ∈ ps')) as [Hq|Hq]; [right|left; exact Hq]. unfold read_entry. rewrite Hnl; [reflexivity|exact Hpre|].
    apply Hsame, Htouchb. exact Hq.
Qed.

Lemma we_paths_lists x p : p ∈ we_paths x <-> lists x p.
Proof.
  unfold we_paths, lists. rewrite elem_of_cons. destruct (we_orig x) as [q|].
  - rewrite elem_of_list_singleton. split; (intros [H|H]; [left; exact H|right; congruence]).
  - split; (intros [H|H]; [left; exact H|]); [inversion H|discriminate H].
Qed.
