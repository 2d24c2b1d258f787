(** Concrete trees, stores and a merger for the examples about trees. *)
From Verif Require Import Base ModeModel TreeModel TreeSpec TreeProofs TreeDiffProofs TreeOpsProofs TreePickProofs.
Local Open Scope N_scope.

(** Trees named by an encoding of their contents; all names are taken. *)
Definition name_of (t : tree) : oid := N.pos (encode t).
Definition plain_env : tree_env := mk_te name_of (fun _ _ => true).
Definition store_of (ts : list tree) : tree_store := list_to_map (map (fun t => (name_of t, t)) ts).

Lemma name_inj a b : name_of a = name_of b -> a = b.
Proof. unfold name_of. intros H. injection H as H. exact (encode_inj _ _ H). Qed.
Lemma store_of_in ts o t : store_of ts !! o = Some t -> t ∈ ts /\ name_of t = o.
Proof.
  intros H. apply elem_of_list_to_map_2 in H. apply elem_of_list_fmap in H as (t' & Heq & Hin). injection Heq as -> ->. auto.
Qed.
Lemma store_of_there ts t : t ∈ ts -> store_of ts !! name_of t = Some t.
Proof.
  induction ts as [|a ts IH]; intros H; [inversion H|]. unfold store_of. cbn.
  destruct (decide (name_of a = name_of t)) as [E|E].
  - apply name_inj in E as ->. apply lookup_insert.
  - rewrite lookup_insert_ne by exact E. apply IH. apply elem_of_cons in H as [->|H]; [congruence|exact H].
Qed.

(** A list of trees in which directories come after what they contain. *)
Definition dirs_in (ts : list tree) (t : tree) : bool :=
  forallb (fun x => negb (is_tree (snd x)) || bool_decide (fst (snd x) ∈ map name_of ts))%bool (map_to_list t).
Fixpoint in_order (ts : list tree) : bool :=
  match ts with
  | [] => true
  | t :: ts' => (dirs_in ts' t && negb (bool_decide (t ∈ ts')) && in_order ts')%bool
  end.
Lemma dirs_in_spec ts t : dirs_in ts t = true -> forall n x, t !! n = Some x -> is_tree x = true -> exists t', t' ∈ ts /\ fst x = name_of t'.
Proof.
  unfold dirs_in. rewrite forallb_forall. intros H n x Hx Tx. specialize (H (n, x)). cbn in H. rewrite Tx in H. cbn in H.
  assert (E : bool_decide (fst x ∈ map name_of ts) = true) by (apply H; apply elem_of_list_In, elem_of_map_to_list; exact Hx).
  apply bool_decide_eq_true in E. apply elem_of_list_fmap in E as (t' & -> & Ht'). eauto.
Qed.
Lemma in_order_dirs ts : in_order ts = true -> forall t, t ∈ ts -> dirs_in ts t = true.
Proof.
  induction ts as [|a ts IH]; intros H t Ht; [inversion Ht|]. cbn in H. apply andb_true_iff in H as [H H2]. apply andb_true_iff in H as [H1 _].
  assert (Hd : dirs_in ts t = true) by (apply elem_of_cons in Ht as [->|Ht]; [exact H1|exact (IH H2 _ Ht)]).
  unfold dirs_in in *. rewrite forallb_forall in *. intros x Hx. specialize (Hd x Hx). apply orb_true_iff in Hd as [->|Hd]; [reflexivity|].
  apply orb_true_iff. right. apply bool_decide_eq_true in Hd. apply bool_decide_eq_true. cbn. apply elem_of_cons. auto.
Qed.
Lemma store_closed ts t : dirs_in ts t = true -> closed_tree (store_of ts) t.
Proof.
  intros H n x Hx Tx. destruct (dirs_in_spec _ _ H _ _ Hx Tx) as (t' & Ht' & ->). rewrite store_of_there by exact Ht'. eauto.
Qed.
Lemma store_sound ts : in_order ts = true -> sound plain_env (store_of ts).
Proof.
  intros H. split; [exact name_inj|]. split.
  - intros o t Ho. exact (proj2 (store_of_in _ _ _ Ho)).
  - intros o t Ho. apply store_closed. apply in_order_dirs; [exact H|]. exact (proj1 (store_of_in _ _ _ Ho)).
Qed.
Lemma store_grounded ts : in_order ts = true -> grounded (store_of ts).
Proof.
  induction ts as [|a ts IH]; intros H.
  - exists (fun _ => O). intros o t n x Ho. unfold store_of in Ho. cbn in Ho. rewrite lookup_empty in Ho. discriminate Ho.
  - pose proof H as H0. cbn in H. apply andb_true_iff in H as [H H2]. apply andb_true_iff in H as [H1 H3].
    apply negb_true_iff, bool_decide_eq_false in H3. destruct (IH H2) as [rank Hr].
    exists (fun o => if decide (o = name_of a) then S (fold_right (fun t k => Nat.max (rank (name_of t)) k) O ts) else rank o).
    assert (Hb : forall ts0 t, t ∈ ts0 -> (rank (name_of t) <= fold_right (fun t k => Nat.max (rank (name_of t)) k) O ts0)%nat).
    { induction ts0 as [|b ts0 IH']; intros t Ht; [inversion Ht|]. cbn. apply elem_of_cons in Ht as [->|Ht]; [lia|].
      specialize (IH' _ Ht). lia. }
    intros o t n x Ho Hx Tx. apply store_of_in in Ho as [Ht <-].
    assert (Hd : dirs_in ts t = true).
    { apply elem_of_cons in Ht as [->|Ht]; [exact H1|exact (in_order_dirs _ H2 _ Ht)]. }
    destruct (dirs_in_spec _ _ Hd _ _ Hx Tx) as (t' & Ht' & Ex). rewrite Ex.
    destruct (decide (name_of t' = name_of a)) as [E|_]; [apply name_inj in E; congruence|].
    destruct (decide (name_of t = name_of a)) as [E|E].
    + specialize (Hb ts t' Ht'). lia.
    + assert (Hin : t ∈ ts) by (apply elem_of_cons in Ht as [->|Ht]; [congruence|exact Ht]).
      specialize (Hr (name_of t) t n x (store_of_there _ _ Hin) Hx Tx). rewrite Ex in Hr. exact Hr.
Qed.

(** A merger taking the file of "theirs" where that differs from the base. *)
Definition clean (x : option tentry) : option tentry :=
  match x with
  | Some (o, m) =>
      if (bool_decide (m ∈ [mode_number Blob; mode_number BlobExecutable; mode_number Link; mode_number CommitMode])) then Some (o, m) else None
  | None => None
  end.
Definition three_way (b o t : option tentry) : option tentry := clean (if decide (t = b) then o else t).
Definition clashes (b o t : option tentry) : bool := bool_decide (b <> o /\ b <> t /\ o <> t).
Definition plain_merger : merger := fun st base ours theirs =>
  match base with
  | None => MergeFailed
  | Some b =>
      match st !! b, st !! ours, st !! theirs with
      | Some tb, Some to, Some th =>
          match changed_paths st ∅ tb, changed_paths st ∅ to, changed_paths st ∅ th with
          | Some pb, Some po, Some pt =>
              if existsb (fun p => clashes (file_at st tb p) (file_at st to p) (file_at st th p)) (pb ++ po ++ pt) then Conflicting
              else MergedTo (fold_right (fun p i => match three_way (file_at st tb p) (file_at st to p) (file_at st th p) with
                                                    | Some (o, m) => <[p := (NonZero o, m)]> i
                                                    | None => i
                                                    end) ∅ (pb ++ po ++ pt))
          | _, _, _ => MergeFailed
          end
      | _, _, _ => MergeFailed
      end
  end.

Lemma clean_spec x o m : clean x = Some (o, m) -> usual_mode m /\ is_tree (o, m) = false.
Proof.
  unfold clean. destruct x as [[a k]|]; [|discriminate]. case_bool_decide as H; [|discriminate]. intros [= -> ->].
  unfold usual_mode. repeat (apply elem_of_cons in H as [->|H]; [split; [tauto|reflexivity]|]). inversion H.
Qed.
Lemma clean_usual y : (forall z, y = Some z -> usual_mode (snd z) /\ is_tree z = false) -> clean y = y.
Proof.
  destruct y as [[o m]|]; [|reflexivity]. intros H. destruct (H _ eq_refl) as [Hu Ht]. cbn in Hu. unfold clean.
  rewrite bool_decide_true; [reflexivity|].
  destruct Hu as [->|[->|[->|[->| ->]]]]; [discriminate Ht|left|right; left|right; right; left|right; right; right; left].
Qed.
Lemma entries_lookup (g : path -> option tentry) ps p :
  fold_right (fun p i => match g p with Some (o, m) => <[p := (NonZero o, m)]> i | None => i end) (∅ : index) ps !! p
  = if decide (p ∈ ps) then match g p with Some (o, m) => Some (NonZero o, m) | None => None end else None.
Proof.
  induction ps as [|q ps IH]; [rewrite decide_False by (intros H; inversion H); apply lookup_empty|]. cbn [fold_right].
  destruct (decide (q = p)) as [->|Hne].
  - rewrite (decide_True (P := p ∈ p :: ps)) by apply elem_of_list_here.
    destruct (g p) as [[o m]|]; [apply lookup_insert|]. rewrite IH. destruct (decide (p ∈ ps)); reflexivity.
  - assert (Hx : fold_right (fun p i => match g p with Some (o, m) => <[p := (NonZero o, m)]> i | None => i end) (∅ : index) (q :: ps) !! p
            = fold_right (fun p i => match g p with Some (o, m) => <[p := (NonZero o, m)]> i | None => i end) (∅ : index) ps !! p).
    { cbn. destruct (g q) as [[o m]|]; [apply lookup_insert_ne; exact Hne|reflexivity]. }
    cbn in Hx. rewrite Hx, IH. destruct (decide (p ∈ ps)) as [H|H].
    + rewrite decide_True by (apply elem_of_list_further; exact H). reflexivity.
    + rewrite decide_False by (rewrite elem_of_cons; intros [->|H']; [congruence|contradiction]). reflexivity.
Qed.
Lemma no_path_no_file st t ps p : changed_paths st ∅ t = Some ps -> p ∉ ps -> file_at st t p = None.
Proof.
  intros H Hn. destruct p as [|n p]; [reflexivity|]. destruct (file_at st t (n :: p)) as [x|] eqn:E; [|reflexivity].
  exfalso. apply Hn. apply (proj2 (changed_paths_spec _ _ _ _ H)). split; [discriminate|]. left. rewrite E.
  unfold file_at. destruct p; cbn; rewrite lookup_empty; discriminate.
Qed.
Lemma plain_merger_files : merges_files plain_merger three_way.
Proof.
  split; [|split].
  - intros x y H. unfold three_way. rewrite decide_True by reflexivity. apply clean_usual, H.
  - intros x y z o m H. exact (clean_spec _ _ _ H).
  - intros st b ours theirs i tb to th H Hb Ho Ht p. unfold plain_merger in H. rewrite Hb, Ho, Ht in H.
    destruct (changed_paths st ∅ tb) as [pb|] eqn:Eb; [|discriminate H]. destruct (changed_paths st ∅ to) as [po|] eqn:Eo; [|discriminate H].
    destruct (changed_paths st ∅ th) as [pt|] eqn:Et; [|discriminate H]. cbv zeta in H.
    destruct (existsb _ _); [discriminate H|]. injection H as <-. unfold index_file.
    rewrite (entries_lookup (fun p => three_way (file_at st tb p) (file_at st to p) (file_at st th p))).
    destruct (decide (p ∈ pb ++ po ++ pt)) as [H|H].
    + destruct (three_way _ _ _) as [[o m]|]; reflexivity.
    + rewrite !not_elem_of_app in H. destruct H as (H1 & H2 & H3).
      rewrite (no_path_no_file _ _ _ _ Eb H1), (no_path_no_file _ _ _ _ Eo H2), (no_path_no_file _ _ _ _ Et H3). reflexivity.
Qed.
Lemma plain_merger_makes : makes_files plain_merger.
Proof.
  intros st b ours theirs i H p o m Hp w. unfold plain_merger in H. destruct b as [b|]; [|discriminate H].
  destruct (st !! b) as [tb|]; [|discriminate H]. destruct (st !! ours) as [to|]; [|discriminate H].
  destruct (st !! theirs) as [th|]; [|discriminate H].
  destruct (changed_paths st ∅ tb) as [pb|]; [|discriminate H]. destruct (changed_paths st ∅ to) as [po|]; [|discriminate H].
  destruct (changed_paths st ∅ th) as [pt|]; [|discriminate H]. cbv zeta in H.
  destruct (existsb _ _); [discriminate H|]. injection H as <-.
  rewrite (entries_lookup (fun p => three_way (file_at st tb p) (file_at st to p) (file_at st th p))) in Hp.
  destruct (decide _); [|discriminate Hp]. destruct (three_way _ _ _) as [[o' m']|] eqn:E; [|discriminate Hp]. injection Hp as <- <-.
  exact (proj2 (clean_spec _ _ _ E)).
Qed.

(** Entries for use in trees. *)
Definition file (o : oid) : tentry := (o, mode_number Blob).
Definition dir (t : tree) : tentry := (name_of t, mode_number TreeMode).

(** The outcome of a computation has a property. *)
Definition after (r : option (oid * tree_store)) (f : oid -> tree_store -> tree -> bool) : bool :=
  match r with
  | Some (o, st) => match st !! o with Some t => f o st t | None => false end
  | None => false
  end.
Lemma after_spec r f : after r f = true -> exists o st t, r = Some (o, st) /\ st !! o = Some t /\ f o st t = true.
Proof.
  unfold after. destruct r as [[o st]|]; [|discriminate]. destruct (st !! o) as [t|] eqn:E; [|discriminate]. intros H. exists o, st, t. auto.
Qed.
Definition after_pick (r : picked) (f : oid -> tree_store -> tree -> bool) : bool :=
  match r with
  | Picked o st => match st !! o with Some t => f o st t | None => false end
  | _ => false
  end.
Lemma after_pick_spec r f : after_pick r f = true -> exists o st t, r = Picked o st /\ st !! o = Some t /\ f o st t = true.
Proof.
  unfold after_pick. destruct r as [o st| |]; [|discriminate|discriminate]. destruct (st !! o) as [t|] eqn:E; [|discriminate].
  intros H. exists o, st, t. auto.
Qed.
Definition entries_are (l : list (path * option tentry)) (st : tree_store) (t : tree) : bool :=
  forallb (fun x => bool_decide (entry_at st t (fst x) = snd x)) l.
Lemma entries_are_spec l st t : entries_are l st t = true -> forall p v, (p, v) ∈ l -> entry_at st t p = v.
Proof.
  unfold entries_are. rewrite forallb_forall. intros H p v Hin. apply elem_of_list_In in Hin. apply H in Hin. cbn in Hin.
  exact (bool_decide_eq_true_1 _ Hin).
Qed.

(** Facts about the trees of a concrete store. *)
Definition modes_ok (t : tree) : bool :=
  forallb (fun x => bool_decide (snd (snd x) ∈ [mode_number TreeMode; mode_number Blob; mode_number BlobExecutable; mode_number Link; mode_number CommitMode])) (map_to_list t).
Lemma modes_usual ts : forallb modes_ok ts = true -> usual_modes (store_of ts).
Proof.
  intros H o t n x Ho Hx. apply store_of_in in Ho as [Hin _]. rewrite forallb_forall in H. apply elem_of_list_In in Hin.
  specialize (H _ Hin). unfold modes_ok in H. rewrite forallb_forall in H. specialize (H (n, x)). cbn in H.
  assert (E : bool_decide (snd x ∈ [mode_number TreeMode; mode_number Blob; mode_number BlobExecutable; mode_number Link; mode_number CommitMode]) = true)
    by (apply H; apply elem_of_list_In, elem_of_map_to_list; exact Hx).
  apply bool_decide_eq_true in E. unfold usual_mode. repeat (apply elem_of_cons in E as [->|E]; [tauto|]). inversion E.
Qed.
Lemma entry_stored st p : forall t x, (exists o, st !! o = Some t) -> entry_at st t p = Some x -> exists o t' n, st !! o = Some t' /\ t' !! n = Some x.
Proof.
  induction p as [|n p IH]; intros t x [o Ho] H; [discriminate H|]. destruct p as [|m p]; [exists o, t, n; auto|].
  change (entry_at st t (n :: m :: p)) with (match t !! n with Some e => if is_tree e then match st !! fst e with
     | Some t' => entry_at st t' (m :: p) | None => None end else None | None => None end) in H.
  destruct (t !! n) as [y|]; [|discriminate H]. destruct (is_tree y); [|discriminate H]. destruct (st !! fst y) as [t'|] eqn:E; [|discriminate H].
  exact (IH t' x (ex_intro _ _ E) H).
Qed.
Lemma usual_modes_files st o t : usual_modes st -> st !! o = Some t -> usual_files st t.
Proof.
  intros H Ho p x Hx. unfold file_at in Hx. destruct (entry_at st t p) as [y|] eqn:E; [|discriminate Hx].
  destruct (is_tree y); [discriminate Hx|]. injection Hx as <-. destruct (entry_stored _ _ _ _ (ex_intro _ _ Ho) E) as (o' & t' & n & H1 & H2).
  exact (H _ _ _ _ H1 H2).
Qed.
Lemma usual_modes_dirs st o t : usual_modes st -> st !! o = Some t -> usual_dirs st t.
Proof.
  intros H Ho p x Hx Tx. destruct (entry_stored _ _ _ _ (ex_intro _ _ Ho) Hx) as (o' & t' & n & H1 & H2).
  destruct (H _ _ _ _ H1 H2) as [E|[E|[E|[E|E]]]]; [exact E|..]; unfold is_tree in Tx; rewrite E in Tx; discriminate Tx.
Qed.
(** No directory is empty. *)
Definition no_empty_dirs (st : tree_store) : Prop :=
  forall o t n x t', st !! o = Some t -> t !! n = Some x -> is_tree x = true -> st !! fst x = Some t' -> t' <> ∅.
Definition full_dirs (ts : list tree) : bool :=
  forallb (fun t => forallb (fun x => negb (is_tree (snd x)) || negb (bool_decide (fst (snd x) = name_of ∅)))%bool (map_to_list t)) ts.
Lemma full_dirs_spec ts : full_dirs ts = true -> no_empty_dirs (store_of ts).
Proof.
  intros H o t n x t' Ho Hx Tx Ht' ->. apply store_of_in in Ho as [Hin _]. apply store_of_in in Ht' as [_ He].
  unfold full_dirs in H. rewrite forallb_forall in H. apply elem_of_list_In in Hin. specialize (H _ Hin). rewrite forallb_forall in H.
  specialize (H (n, x)). cbn in H. rewrite Tx in H. cbn in H.
  assert (E : negb (bool_decide (fst x = name_of ∅)) = true) by (apply H; apply elem_of_list_In, elem_of_map_to_list; exact Hx).
  apply negb_true_iff, bool_decide_eq_false in E. congruence.
Qed.
Lemma tidy_trees st o t e : sound e st -> usual_modes st -> no_empty_dirs st -> st !! o = Some t -> tidy_at st t.
Proof.
  intros (_ & _ & Hc) Hu Hn Ho p x Hx Tx. split; [exact (usual_modes_dirs _ _ _ Hu Ho _ _ Hx Tx)|].
  destruct (entry_stored _ _ _ _ (ex_intro _ _ Ho) Hx) as (o' & t' & n & H1 & H2). destruct (Hc _ _ H1 _ _ H2 Tx) as [t2 H3].
  exists t2. split; [exact H3|]. exact (Hn _ _ _ _ _ H1 H2 Tx H3).
Qed.
Ltac member := repeat first [apply elem_of_list_here|apply elem_of_list_further].
