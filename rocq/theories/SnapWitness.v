(** Restoring is possible, and concrete states for the examples about snapshots. *)
From Verif Require Import Base ModeModel TreeModel TreeSpec TreeProofs TreeDiffProofs TreePickProofs TreeWitness SnapModel SnapSpec SnapProofs.
Local Open Scope N_scope.
Local Open Scope list_scope.

Global Instance in_index_dec i p : Decision (in_index i p).
Proof.
  destruct (decide (i p Stage0 <> None \/ i p Stage1 <> None \/ i p Stage2 <> None \/ i p Stage3 <> None)) as [H|H].
  - left. destruct H as [H|[H|[H|H]]]; by eexists.
  - right. intros [[] Hs]; tauto.
Defined.

(** One way in which Git may restore. *)
Lemma restorable e tgt st h t i d l sn st1 : taken e tgt st h t i d l sn st1 ->
  forall t0 i0 d0, exists i' d', restored e st1 sn t0 i0 d0 i' d' st1.
Proof.
  intros (C & GH & GI & R & NC) t0 i0 d0. pose proof (create_grounded _ _ _ _ _ _ _ _ _ _ C GH GI R NC) as Hg.
  destruct (create_spec _ _ _ _ _ _ _ _ _ _ C GH GI R NC) as (Hh & S1 & Hs1 & CMf).
  destruct (CMf st1 (reflexivity _) Hs1) as [(u & U & Hu & HU & OU) HT]. pose proof GH as (_ & _ & _ & Hht & _).
  assert (SC : forall s, is_Some (stage_commands st1 (fun ps => ps) sn s)).
  { intros s. destruct (HT s) as (T & HT' & _). unfold stage_commands.
    destruct (touched_paths_total e st1 (stage_commit sn s) Hs1 Hg) as [ps ->].
    - cbn. by eexists.
    - intros o Ho. cbn in Ho. rewrite Hh in Ho. destruct h as [x|]; [|by apply elem_of_nil in Ho].
      apply elem_of_list_singleton in Ho as ->. cbn in Hht. exists t. by eapply lookup_weaken.
    - rewrite HT'. by eexists. }
  destruct (SC Stage0) as [c0 E0], (SC Stage1) as [c1 E1], (SC Stage2) as [c2 E2], (SC Stage3) as [c3 E3].
  assert (HB : exists tb, match sn_head sn with Some o => st1 !! o = Some tb | None => tb = U end).
  { rewrite Hh. destruct h as [x|]; [|by exists U]. cbn in Hht. exists t. by eapply lookup_weaken. }
  destruct HB as [tb HB].
  set (d1 := fun p => match entry_at st1 t0 p with Some x => node_of x | None => if decide (in_index i0 p) then WNothing else d0 p end).
  exists (fold_left run_command (c0 ++ c1 ++ c2 ++ c3) (index_of_tree st1 tb)).
  exists (fun p => match entry_at st1 U p with Some x => node_of x | None => match entry_at st1 t0 p with Some _ => WNothing | None => d1 p end end).
  split; [done|]. split; [done|]. exists (fun ps => ps). split; [done|]. exists d1, U, tb, (c0 ++ c1 ++ c2 ++ c3).
  split; [|split; [done|]; split; [|split; [done|]; split; [|done]]].
  - intros p. unfold d1. destruct (entry_at st1 t0 p); [done|]. destruct (decide (in_index i0 p)); [split; [by left|done]|]. split; [done|by left].
  - intros p. destruct (entry_at st1 U p); [done|]. by destruct (entry_at st1 t0 p).
  - unfold index_script. by rewrite E0, E1, E2, E3.
Qed.

(** States given by lists. *)
Definition index_of (l : list (path * stage * tentry)) : full_index := fun p s =>
  match List.find (fun x => bool_decide (fst x = (p, s))) l with
  | Some x => Some (NonZero (fst (snd x)), snd (snd x))
  | None => None
  end.
Definition disk_of (l : list (path * wnode)) : disk := fun p =>
  match List.find (fun x => bool_decide (fst x = p)) l with
  | Some x => snd x
  | None => if existsb (fun x => bool_decide (p `prefix_of` fst x)) l then WFolder else WNothing
  end.
Lemma index_of_in l p s o m : index_of l p s = Some (o, m) -> exists x, o = NonZero x /\ ((p, s), (x, m)) ∈ l.
Proof.
  unfold index_of. destruct (List.find _ l) as [[k [x y]]|] eqn:E; [|done]. intros [= <- <-]. apply find_some in E as [Hin Hb].
  apply bool_decide_eq_true in Hb. cbn in Hb. subst k. exists x. split; [done|]. by apply elem_of_list_In.
Qed.
Definition index_modes : list N := [mode_number Blob; mode_number BlobExecutable; mode_number Link; mode_number CommitMode].
Definition check_index (l : list (path * stage * tentry)) : bool :=
  forallb (fun x => bool_decide (fst (fst x) <> []) && bool_decide (snd (snd x) ∈ index_modes)
    && (bool_decide (snd (fst x) <> Stage0) || forallb (fun y => bool_decide (fst (fst y) <> fst (fst x) \/ snd (fst y) = Stage0)) l))%bool l.
Lemma check_index_spec l : check_index l = true -> good_index (index_of l).
Proof.
  intros H. unfold check_index in H. rewrite forallb_forall in H.
  assert (K : forall p s o m, index_of l p s = Some (o, m) -> p <> [] /\ m ∈ index_modes /\
    (s = Stage0 -> forall y, y ∈ l -> fst (fst y) = p -> snd (fst y) = Stage0) /\ exists x, o = NonZero x).
  { intros p s o m Hi. apply index_of_in in Hi as (x & -> & Hin). apply elem_of_list_In in Hin. specialize (H _ Hin). cbn in H.
    apply andb_true_iff in H as [[H1 H2]%andb_true_iff H3]. apply bool_decide_eq_true in H1, H2. split; [done|]. split; [done|].
    split; [|by exists x]. intros -> y Hy Ey. rewrite bool_decide_false in H3 by (by intros []). cbn in H3. rewrite forallb_forall in H3.
    apply elem_of_list_In in Hy. specialize (H3 _ Hy). apply bool_decide_eq_true in H3. by destruct H3. }
  split; [|split].
  - intros s. destruct (index_of l [] s) as [[o m]|] eqn:E; [|done]. by apply K in E as [? _].
  - intros p s o m Hi. apply K in Hi as (_ & Hm & _ & Ho). split; [|done]. unfold index_mode.
    repeat (apply elem_of_cons in Hm as [->|Hm]; [tauto|]). by apply elem_of_nil in Hm.
  - intros p Hp Hc. destruct (index_of l p Stage0) as [[o m]|] eqn:E; [|done]. apply K in E as (_ & _ & E & _). specialize (E eq_refl).
    assert (N : forall s, index_of l p s <> None -> s = Stage0).
    { intros s Hs. destruct (index_of l p s) as [[o' m']|] eqn:E'; [|done]. apply index_of_in in E' as (x & _ & Hin).
      exact (E _ Hin eq_refl). }
    destruct Hc as [Hc|[Hc|Hc]]; by apply N in Hc.
Qed.

Global Instance sn_entry_eq_dec : EqDecision sn_entry.
Proof. solve_decision. Defined.

(** The paths at which something can be. *)
Definition paths_of (st : tree_store) (t : tree) (li : list (path * stage * tentry)) : list path :=
  match changed_paths st ∅ t with Some a => a | None => [] end ++ map (fun x => fst (fst x)) li.
Definition check_entry (st : tree_store) (t : tree) (i : full_index) (d : disk) (x : sn_entry) : bool :=
  match sn_orig x with
  | None => bool_decide (status_at (file_at st t (sn_path x)) i d (sn_path x) = Some x)
  | Some o =>
    match status_at (file_at st t o) i d o with
    | Some (SnEntry Deleted a b o' None) =>
      bool_decide (o' = o)
      && bool_decide (status_at (file_at st t (sn_path x)) i d (sn_path x) = Some (SnEntry Added (sn_wc x) (sn_mode x) (sn_path x) None))
      && bool_decide (sn_index x = Renamed)
    | _ => false
    end
  end.
Definition check_status (ts : list tree) (t : tree) (li : list (path * stage * tentry)) (d : disk) (l : list sn_entry) : bool :=
  let st := store_of ts in
  let i := index_of li in
  let reported := List.concat (map sn_paths l) in
  (bool_decide (t ∈ ts) && in_order ts && forallb modes_ok ts && full_dirs ts && check_index li
   && match changed_paths st ∅ t with Some _ => true | None => false end
   && bool_decide (NoDup reported)
   && forallb (check_entry st t i d) l
   && forallb (fun p => bool_decide (status_at (file_at st t p) i d p = None \/ p ∈ reported)) (paths_of st t li)
   && forallb (fun p => forallb (fun q => bool_decide (~ clash p q)) (reported ++ paths_of st t li)) reported)%bool.

Lemma nowhere ts t li p : changed_paths (store_of ts) ∅ t <> None -> p ∉ paths_of (store_of ts) t li ->
  file_at (store_of ts) t p = None /\ forall s, index_of li p s = None.
Proof.
  intros H Hp. unfold paths_of in Hp. destruct (changed_paths _ ∅ t) as [a|] eqn:E; [|done]. apply not_elem_of_app in Hp as [H1 H2].
  split; [by eapply no_path_no_file|]. intros s. destruct (index_of li p s) as [[o m]|] eqn:Ei; [|done].
  apply index_of_in in Ei as (x & _ & Hin). exfalso. apply H2, elem_of_list_fmap. by exists ((p, s), (x, m)).
Qed.
Lemma check_status_spec ts t li d l : check_status ts t li d l = true ->
  good_head plain_env (store_of ts) (Some (name_of t)) t /\ good_index (index_of li)
  /\ reports (store_of ts) t (index_of li) d l /\ no_clash (store_of ts) t l.
Proof.
  unfold check_status. rewrite !andb_true_iff. intros [[[[[[[[[H1 H2] H3] H4] H5] H6] H7] H8] H9] H10].
  apply bool_decide_eq_true in H1, H7. rewrite forallb_forall in H8. rewrite forallb_forall in H9. rewrite forallb_forall in H10.
  pose proof (store_of_there ts t H1) as Ht. assert (H6' : changed_paths (store_of ts) ∅ t <> None) by (by destruct (changed_paths _ ∅ t)).
  assert (GI : good_index (index_of li)) by (by apply check_index_spec).
  split; [|split; [done|split]].
  - split; [by apply store_sound|]. split; [by apply store_grounded|]. split; [by apply modes_usual|]. split; [done|].
    eapply tidy_trees; [by apply store_sound|by apply modes_usual|by apply full_dirs_spec|done].
  - split; [done|]. split; [|split].
    + intros x Hx Eo. apply elem_of_list_In in Hx. specialize (H8 x Hx). unfold check_entry in H8. rewrite Eo in H8. by apply bool_decide_eq_true in H8.
    + intros x o Hx Eo. apply elem_of_list_In in Hx. specialize (H8 x Hx). unfold check_entry in H8. rewrite Eo in H8.
      destruct (status_at (file_at _ t o) _ d o) as [[f a b o' og]|] eqn:E; [|done]. destruct f; try done. destruct og; [done|].
      rewrite !andb_true_iff in H8. destruct H8 as [[A B] C]. apply bool_decide_eq_true in A, B, C. subst o'.
      exists (sn_wc x), a, b. done.
    + intros p a Hs. destruct (decide (p ∈ paths_of (store_of ts) t li)) as [Hp|Hp].
      * apply elem_of_list_In in Hp. specialize (H9 p Hp). apply bool_decide_eq_true in H9. destruct H9 as [H9|H9]; [congruence|].
        apply elem_of_concat in H9 as (ps & Hps & (x & -> & Hx)%elem_of_list_fmap). by exists x.
      * destruct (nowhere ts t li p H6' Hp) as [E1 E2]. exfalso.
        assert (Hc : ~ conflicted (index_of li) p) by (unfold conflicted; rewrite !E2; naive_solver).
        assert (Ei : indexed (index_of li) p = None) by (unfold indexed; by rewrite E2).
        apply status_some in Hs as [_ Hl]; [|done]. rewrite E1, Ei in Hl. by destruct Hl.
  - intros x p q Hx Hp Hq. assert (Hin : p ∈ List.concat (map sn_paths l)).
    { apply elem_of_concat. exists (sn_paths x). split; [done|]. apply elem_of_list_fmap. by exists x. }
    apply elem_of_list_In in Hin. specialize (H10 p Hin). rewrite forallb_forall in H10.
    assert (Hq' : q ∈ List.concat (map sn_paths l) ++ paths_of (store_of ts) t li).
    { destruct Hq as [(y & Hy & Hqy)|Hq].
      - apply elem_of_app. left. apply elem_of_concat. exists (sn_paths y). split; [done|]. apply elem_of_list_fmap. by exists y.
      - apply elem_of_app. right. destruct (decide (q ∈ paths_of (store_of ts) t li)) as [|Hn]; [done|].
        destruct (nowhere ts t li q H6' Hn) as [E _]. congruence. }
    apply elem_of_list_In in Hq'. specialize (H10 q Hq'). by apply bool_decide_eq_true in H10.
Qed.
Definition check_taken (ts : list tree) (t : tree) (li : list (path * stage * tentry)) (d : disk) (tgt : oid -> path) (l : list sn_entry) : bool :=
  (check_status ts t li d l
   && match create_snapshot plain_env (store_of ts) (Some (name_of t)) (index_of li) (seen_disk tgt d) l with Some _ => true | None => false end)%bool.
Lemma check_taken_spec ts t li d tgt l : check_taken ts t li d tgt l = true ->
  exists sn st1, taken plain_env tgt (store_of ts) (Some (name_of t)) t (index_of li) d l sn st1.
Proof.
  unfold check_taken. rewrite andb_true_iff. intros [H1 H2]. apply check_status_spec in H1 as (A & B & C & D).
  destruct (create_snapshot _ _ _ _ _ _) as [[sn st1]|] eqn:E; [|done]. by exists sn, st1.
Qed.
Lemma no_conflicts l : forallb (fun x => bool_decide (snd (fst x) = Stage0)) l = true -> forall p, ~ conflicted (index_of l) p.
Proof.
  intros H p. rewrite forallb_forall in H. assert (N : forall s, index_of l p s <> None -> s = Stage0).
  { intros s Hs. destruct (index_of l p s) as [[o m]|] eqn:E; [|done]. apply index_of_in in E as (x & _ & Hin). apply elem_of_list_In in Hin.
    specialize (H _ Hin). by apply bool_decide_eq_true in H. }
  intros [Hc|[Hc|Hc]]; by apply N in Hc.
Qed.
