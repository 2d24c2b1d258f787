(** Proofs about snapshots of the working copy. *)
From Verif Require Import Base ModeModel TreeModel TreeSpec TreeProofs TreeDiffProofs TreeOpsProofs TreePickProofs TreeAmendProofs SnapModel SnapSpec.
Local Open Scope N_scope.
Local Open Scope list_scope.

(** ** Trees with some paths replaced *)

Lemma clash_sym p q : clash p q -> clash q p.
Proof. intros [H [H'|H']]; split; auto. Qed.
Lemma clash_below p n r : clash p (p ++ n :: r).
Proof.
  split; [|left; by exists (n :: r)]. intros H. apply (f_equal length) in H. rewrite app_length in H. cbn in H. lia.
Qed.
Lemma prefix_comparable (a b p : path) : a `prefix_of` p -> b `prefix_of` p -> a = b \/ clash a b.
Proof.
  intros Ha Hb. destruct (decide (a = b)) as [->|Hn]; [by left|right]. split; [done|].
  by destruct (prefix_weak_total a b p Ha Hb) as [H|H]; [left|right].
Qed.
Lemma stored_file v : (forall o m, v = Some (o, m) -> m <> TreeMode) -> forall x, stored v = Some x -> is_tree x = false.
Proof.
  intros H x. destruct v as [[o m]|]; [|done]. intros [= <-]. cbn. specialize (H o m eq_refl). by destruct m.
Qed.

Definition flat_updates (st : tree_store) (t : tree) (u : updates) : Prop :=
  NoDup (map fst u) /\ (forall p v, (p, v) ∈ u -> p <> [])
  /\ (forall p o m, (p, Some (o, m)) ∈ u -> m <> TreeMode)
  /\ (forall p v q, (p, v) ∈ u -> (exists w, (q, w) ∈ u) \/ file_at st t q <> None -> ~ clash p q).

(** What the tree made by these updates is. *)
Definition overlaid (st : tree_store) (t : tree) (u : updates) (st' : tree_store) (t' : tree) : Prop :=
  tidy_at st' t'
  /\ (forall p v, (p, v) ∈ u -> entry_at st' t' p = stored v)
  /\ (forall p, p ∉ map fst u -> file_at st' t' p = file_at st t p).

Lemma hydrate_flat e st t u o st' :
  hydrate_tree e st t u = Some (o, st') -> sound e st -> closed_tree st t -> tidy_at st t -> flat_updates st t u ->
  st ⊆ st' /\ sound e st' /\ exists t', st' !! o = Some t' /\ overlaid st t u st' t'.
Proof.
  intros H Hs Hc Ht (Hnd & Hne & Hm & Hf).
  assert (Hth : trees_there st u).
  { intros q w m Hin Hx. exfalso. apply Hm in Hin. by destruct m. }
  destruct (hydrate_tree_spec _ _ _ _ _ _ H Hs Hc Hnd Hth) as (Hsub & Hs' & t' & Ht' & Hup).
  split; [done|]. split; [done|]. exists t'. split; [done|]. split; [|split].
  - eapply updated_tidy; try done. intros p v Hin w m -> Hx. apply Hm in Hin. by destruct m.
  - intros p v Hin. apply (updated_self _ _ _ _ _ _ _ Hup); [by eapply Hne|done|].
    intros (n & r & w & Hin'). apply (Hf _ _ (p ++ n :: r) Hin); [left; by eexists|apply clash_below].
  - intros p Hp. destruct p as [|n0 p0]; [done|]. set (p := n0 :: p0) in *. assert (Hpn : p <> []) by discriminate.
    destruct (below_dec u p) as [(n & r & w & Hb)|Hb].
    + assert (file_at st t p = None) as ->.
      { destruct (file_at st t p) eqn:E; [|done]. exfalso. apply (Hf _ _ p Hb); [right; congruence|]. apply clash_sym, clash_below. }
      destruct (proj2 (Hup p Hpn)) as [E|(w' & t'' & E & _)]; [by exists n, r, w|unfold file_at; by rewrite E|].
      unfold file_at. by rewrite E.
    + destruct (decide (Exists (fun x => fst x `prefix_of` p) u)) as [Ha|Ha].
      * apply Exists_exists in Ha as ([q v] & Hin & [r Hr]). cbn in Hr.
        assert (Hq : q <> []) by (by eapply Hne).
        assert (Hrn : r <> []). { intros ->. rewrite app_nil_r in Hr. apply Hp. rewrite Hr. apply elem_of_list_fmap. by exists (q, v). }
        assert (Hcl : clash q p). { rewrite Hr. destruct r; [done|]. apply clash_below. }
        assert (file_at st t p = None) as ->.
        { destruct (file_at st t p) eqn:E; [|done]. exfalso. apply (Hf _ _ p Hin); [right; congruence|done]. }
        destruct (proj1 (Hup p Hpn) Hb) as [H1 _]. unfold file_at. rewrite (H1 q r v).
        -- destruct r as [|k r]; [done|]. cbn. destruct (stored v) as [x|] eqn:Ev; [|done].
           rewrite (stored_file v) with (x := x); [done| |done]. intros w m ->. by eapply Hm.
        -- split; [done|]. split; [done|]. split; [done|]. intros q' v' Hin' Hpre.
           destruct (prefix_comparable q' q p Hpre) as [->|Hc']; [by exists r|done|].
           exfalso. apply (Hf _ _ q Hin'); [left; by eexists|done].
      * unfold file_at. rewrite (updated_other _ _ _ _ _ _ Hup Hpn Hb); [done|].
        intros (q & v & Hin & _ & Hpre). apply Ha, Exists_exists. by exists (q, v).
Qed.

Lemma file_entry st t p x : file_at st t p = Some x <-> entry_at st t p = Some x /\ is_tree x = false.
Proof.
  unfold file_at. destruct (entry_at st t p) as [y|]; [|split; [done|by intros [? _]]].
  destruct (is_tree y) eqn:E; split; try done; try (intros [[= <-] ?]; congruence). by intros [= <-].
Qed.
Lemma overlaid_file st t u st' t' p v : overlaid st t u st' t' -> flat_updates st t u -> (p, v) ∈ u -> file_at st' t' p = stored v.
Proof.
  intros (_ & H & _) (_ & _ & Hm & _) Hin. unfold file_at. rewrite (H p v Hin). destruct (stored v) as [x|] eqn:E; [|done].
  rewrite (stored_file v) with (x := x); [done| |done]. intros o m ->. by eapply Hm.
Qed.

(** ** The updates of a snapshot *)

Lemma elem_of_to_updates l p v : (p, v) ∈ to_updates l <-> last_value l p = Some v.
Proof.
  unfold to_updates. rewrite elem_of_list_fmap. split.
  - intros (q & [= -> ->] & Hin). rewrite elem_of_remove_dups in Hin.
    destruct (last_value l q) eqn:E; [done|]. by apply last_value_none in E.
  - intros H. exists p. rewrite H. split; [done|]. rewrite elem_of_remove_dups. apply last_value_in in H.
    apply elem_of_list_fmap. by exists (p, v).
Qed.
Lemma to_updates_keys l : map fst (to_updates l) = remove_dups (map fst l).
Proof. unfold to_updates. by rewrite map_map, map_id. Qed.
Lemma last_value_nodup {A} (l : list (path * A)) p v : NoDup (map fst l) -> last_value l p = Some v <-> (p, v) ∈ l.
Proof.
  intros Hnd. split; [apply last_value_in|]. induction l as [|[q w] l IH]; [by intros ?%elem_of_nil|].
  rewrite last_value_cons. cbn in Hnd. apply NoDup_cons in Hnd as [Hq Hnd]. intros [[= -> ->]|Hin]%elem_of_cons.
  - assert (last_value l q = None) as -> by (by apply last_value_none). by rewrite decide_True.
  - by rewrite (IH Hnd Hin).
Qed.

(** ** The script for the index *)

Definition command_path (c : command) : path := match c with CDelete p => p | CUpdate p _ _ _ => p end.
Lemma run_other c i p s : command_path c <> p -> (clash (command_path c) p -> i p s = None) -> run_command i c p s = i p s.
Proof.
  intros Hne Hc. destruct c as [q|q s' m o]; cbn in *.
  - unfold remove_path. by rewrite decide_False by done.
  - destruct (decide (m = Unreadable)).
    + unfold remove_path. by rewrite decide_False by done.
    + unfold set_entry. rewrite decide_False by done. destruct (decide (s = s' /\ clash q p)) as [[-> H]|]; [|done].
      symmetry. by apply Hc.
Qed.
Lemma runs_other cs : forall i p s, (forall c, c ∈ cs -> command_path c <> p) ->
  (forall c, c ∈ cs -> clash (command_path c) p -> i p s = None) -> fold_left run_command cs i p s = i p s.
Proof.
  induction cs as [|c cs IH]; intros i p s Hne Hc; [done|]. cbn. rewrite IH.
  - apply run_other; [apply Hne; by left|apply Hc; by left].
  - intros c' H. apply Hne. by right.
  - intros c' H H'. rewrite run_other; [|apply Hne; by left|apply Hc; by left]. apply (Hc c'); [by right|done].
Qed.

(** What one stage does to the entries of a path. *)
Definition effect (s : stage) (old new : option tentry) (f : stage -> option (moid * N)) : stage -> option (moid * N) :=
  if decide (old = new) then f
  else match new with
       | None => fun _ => None
       | Some (o, m) => fun s' => if decide (s' = s) then Some (NonZero o, m) else if decide (s = Stage0) then None else f s'
       end.

Definition flat_paths (ps : list path) : Prop := forall p q, p ∈ ps -> q ∈ ps -> ~ clash p q.

Lemma path_command_path st t s p : command_path (path_command st t s p) = p.
Proof. unfold path_command. by destruct (entry_at st t p) as [[]|]. Qed.

Lemma usual_file_mode m : usual_mode m -> get_filemode m <> Unreadable /\ mode_number (get_filemode m) = m.
Proof. by intros [->|[->|[->|[->| ->]]]]. Qed.

Lemma run_stage st t s ps i p s' :
  NoDup ps -> flat_paths ps ->
  (forall q, q ∈ ps -> clash q p -> forall s, i p s = None) ->
  (forall q x, q ∈ ps -> entry_at st t q = Some x -> usual_mode (snd x)) ->
  fold_left run_command (map (path_command st t s) ps) i p s' =
  if decide (p ∈ ps) then
    match entry_at st t p with
    | None => None
    | Some (o, m) => if decide (s' = s) then Some (NonZero o, m) else if decide (s = Stage0) then None else i p s'
    end
  else i p s'.
Proof.
  intros Hnd Hfl Hcl Hm. destruct (decide (p ∈ ps)) as [Hin|Hin].
  - apply elem_of_list_split in Hin as (a & b & ->). rewrite map_app, fold_left_app. cbn [map fold_left].
    apply NoDup_app in Hnd as (_ & Hda & [Hb _]%NoDup_cons).
    assert (Hpa : p ∉ a). { intros H. apply (Hda p H). by left. }
    assert (NC : forall q, q ∈ a ++ p :: b -> ~ clash q p). { intros q Hq. apply Hfl; [done|]. apply elem_of_app. right. by left. }
    assert (OA : forall s'', fold_left run_command (map (path_command st t s) a) i p s'' = i p s'').
    { intros s''. apply runs_other.
      - intros c (q & -> & Hq)%elem_of_list_fmap. rewrite path_command_path. by intros ->.
      - intros c (q & -> & Hq)%elem_of_list_fmap. rewrite path_command_path. intros H. exfalso. apply (NC q); [|done].
        apply elem_of_app. by left. }
    rewrite runs_other.
    + unfold path_command. destruct (entry_at st t p) as [[o m]|] eqn:E; cbn [run_command].
      * assert (Hu : usual_mode m). { apply (Hm p (o, m)); [|done]. apply elem_of_app. right. by left. }
        destruct (usual_file_mode m Hu) as [Hr ->]. rewrite decide_False by done. unfold set_entry. rewrite decide_True by done.
        destruct (decide (s' = s)); [done|]. destruct (decide (s = Stage0)); [done|]. apply OA.
      * unfold remove_path. by rewrite decide_True.
    + intros c (q & -> & Hq)%elem_of_list_fmap. rewrite path_command_path. by intros ->.
    + intros c (q & -> & Hq)%elem_of_list_fmap. rewrite path_command_path. intros H. exfalso. apply (NC q); [|done].
      apply elem_of_app. right. by right.
  - apply runs_other.
    + intros c (q & -> & Hq)%elem_of_list_fmap. rewrite path_command_path. by intros ->.
    + intros c (q & -> & Hq)%elem_of_list_fmap. rewrite path_command_path. intros H. by eapply Hcl.
Qed.

(** ** What is reported *)

Lemma elem_of_concat {A} (x : A) (ls : list (list A)) : x ∈ List.concat ls <-> exists l, x ∈ l /\ l ∈ ls.
Proof.
  induction ls as [|a ls IH]; cbn; [split; [by intros ?%elem_of_nil|by intros (? & _ & ?%elem_of_nil)]|].
  rewrite elem_of_app, IH. split.
  - intros [H|(l & H1 & H2)]; [exists a; split; [done|by left]|exists l; split; [done|by right]].
  - intros (l & H1 & [->|H2]%elem_of_cons); [by left|right; by exists l].
Qed.

Lemma status_path h i d p x : status_at h i d p = Some x -> sn_path x = p /\ sn_orig x = None /\ sn_mode x <> TreeMode.
Proof.
  unfold status_at. destruct (decide _).
  - intros [= <-]. split; [done|]. split; [done|]. cbn. unfold disk_mode. destruct (d p) as [|? []| |]; done.
  - destruct (_ && _)%bool; [done|]. intros [= <-]. split; [done|]. split; [done|]. cbn. unfold wc_mode.
    destruct (indexed i p); [|done]. destruct (d p) as [|? []| |]; try done. by destruct (decide _).
Qed.
Lemma status_root i d : (forall s, i [] s = None) -> status_at None i d [] = None.
Proof.
  intros H. assert (N : ~ conflicted i []) by (unfold conflicted; rewrite !H; by intros [|[]]).
  unfold status_at. rewrite decide_False by done. unfold indexed. by rewrite H.
Qed.

Section reported.
  Context (e : tree_env) (st : tree_store) (h : option oid) (t : tree) (i : full_index) (d : disk) (l : list sn_entry).
  Context (GH : good_head e st h t) (GI : good_index i) (R : reports st t i d l) (NC : no_clash st t l).

  Lemma reported_paths x p : x ∈ l -> p ∈ sn_paths x -> exists a, status_at (file_at st t p) i d p = Some a.
  Proof using R.
    destruct R as (_ & R1 & R2 & _). intros Hx Hp. unfold sn_paths in Hp. destruct (sn_orig x) as [o|] eqn:Eo.
    - destruct (R2 x o Hx Eo) as (y & a & b & H1 & H2 & _). rewrite !elem_of_cons in Hp.
      destruct Hp as [->|[->|Hp%elem_of_nil]]; by eauto.
    - apply elem_of_list_singleton in Hp as ->. by eauto.
  Qed.
  Lemma reported_nonempty x p : x ∈ l -> p ∈ sn_paths x -> p <> [].
  Proof using R GI.
    intros Hx Hp ->. destruct (reported_paths x [] Hx Hp) as [a Ha]. destruct GI as (H & _).
    change (file_at st t []) with (@None tentry) in Ha. by rewrite status_root in Ha.
  Qed.
  Lemma reported_mode x : x ∈ l -> sn_mode x <> TreeMode.
  Proof using R.
    destruct R as (_ & R1 & R2 & _). intros Hx. destruct (sn_orig x) as [o|] eqn:Eo.
    - destruct (R2 x o Hx Eo) as (y & a & b & H1 & _). by apply status_path in H1 as (_ & _ & ?).
    - specialize (R1 x Hx Eo). by apply status_path in R1 as (_ & _ & ?).
  Qed.
  Lemma paths_nodup : NoDup (map sn_path l).
  Proof using R.
    destruct R as (Hnd & _). clear - Hnd. induction l as [|x l' IH]; [constructor|]. cbn in *.
    apply NoDup_cons in Hnd as [Hx Hnd]. apply NoDup_cons. split.
    - intros (y & E & Hy)%elem_of_list_fmap. apply Hx. apply elem_of_app. right. apply elem_of_concat.
      exists (sn_paths y). split; [rewrite E; by left|]. apply elem_of_list_fmap. by exists y.
    - apply IH. by apply NoDup_app in Hnd as (_ & _ & ?).
  Qed.

  (** Stages. *)
  Definition stage_updates (s : stage) : updates := to_updates (omap (stage_value i s) l).
  Lemma stage_value_path s x p v : stage_value i s x = Some (p, v) -> p = sn_path x.
  Proof.
    unfold stage_value. destruct (get_entry_in_stage i (sn_path x) s) as [[[|o] m]|]; [by intros [= <- <-]..|].
    destruct s; [by intros [= <- <-]|destruct (sn_index x)..]; try done; by intros [= <- <-].
  Qed.
  Lemma stage_keys_nodup s : NoDup (map fst (omap (stage_value i s) l)).
  Proof using R.
    pose proof paths_nodup as Hnd. clear - Hnd. induction l as [|x l' IH]; [constructor|]. cbn in Hnd |- *.
    apply NoDup_cons in Hnd as [Hx Hnd]. destruct (stage_value i s x) as [[p v]|] eqn:E; [|by apply IH].
    apply stage_value_path in E as ->. cbn. apply NoDup_cons. split; [|by apply IH].
    intros ([p v'] & Ep & Hin)%elem_of_list_fmap. apply elem_of_list_omap in Hin as (y & Hy & E').
    apply stage_value_path in E'. cbn in Ep. apply Hx. apply elem_of_list_fmap. exists y. split; [congruence|done].
  Qed.
  Lemma elem_of_stage_updates s p v : (p, v) ∈ stage_updates s <-> exists x, x ∈ l /\ stage_value i s x = Some (p, v).
  Proof using R.
    unfold stage_updates. rewrite elem_of_to_updates, last_value_nodup by apply stage_keys_nodup. by rewrite elem_of_list_omap.
  Qed.
  Lemma index_mode_file m : index_mode m -> mode_of_number m <> TreeMode /\ mode_number (mode_of_number m) = m.
  Proof. by intros [->|[->|[->| ->]]]. Qed.
  Lemma stage_flat s : flat_updates st t (stage_updates s).
  Proof using R GI NC.
    split; [unfold stage_updates; rewrite to_updates_keys; apply NoDup_remove_dups|]. split; [|split].
    - intros p v (x & Hx & E)%elem_of_stage_updates. apply stage_value_path in E as ->. apply (reported_nonempty x); [done|by left].
    - intros p o m (x & Hx & E)%elem_of_stage_updates. unfold stage_value, get_entry_in_stage in E.
      destruct (i (sn_path x) s) as [[[|o'] m']|] eqn:Ei.
      + done.
      + injection E as <- <- <-. destruct GI as (_ & Gm & _). destruct (Gm _ _ _ _ Ei) as [Hm _]. by apply index_mode_file in Hm as [? _].
      + destruct s; [done|destruct (sn_index x)..]; done.
    - intros p v q (x & Hx & E)%elem_of_stage_updates Hq. apply stage_value_path in E as ->.
      apply (NC x); [done|by left|]. destruct Hq as [[w Hw]|Hq]; [left|by right].
      apply elem_of_stage_updates in Hw as (y & Hy & E'). apply stage_value_path in E' as ->. exists y. split; [done|by left].
  Qed.

  (** Changes that are not staged. *)
  Lemma unstaged_keys dd ps u : unstaged_values dd ps = Some u -> map fst u = map fst ps.
  Proof.
    revert u. induction ps as [|[p m] ps IH]; intros u; cbn; [by intros [= <-]|].
    destruct (unstaged_value dd p m) as [v|]; [|done]. destruct (unstaged_values dd ps) as [r|]; [|done].
    intros [= <-]. cbn. by rewrite (IH r).
  Qed.
  Lemma unstaged_in dd ps u p v : unstaged_values dd ps = Some u -> (p, v) ∈ u -> exists m, (p, m) ∈ ps /\ unstaged_value dd p m = Some v.
  Proof.
    revert u. induction ps as [|[q m] ps IH]; intros u; cbn; [by intros [= <-] ?%elem_of_nil|].
    destruct (unstaged_value dd q m) as [w|] eqn:E; [|done]. destruct (unstaged_values dd ps) as [r|]; [|done].
    intros [= <-] [[= -> ->]|Hin]%elem_of_cons.
    - exists m. split; [by left|done].
    - destruct (IH r eq_refl Hin) as (m' & H & H'). exists m'. split; [by right|done].
  Qed.
  Definition counted (x : sn_entry) : bool := (is_changed (sn_wc x) || is_changed (sn_index x))%bool.
  Lemma unstaged_paths_keys l' : map fst (unstaged_paths l') = List.concat (map sn_paths (List.filter counted l')).
  Proof.
    unfold unstaged_paths. change (fun x => (is_changed (sn_wc x) || is_changed (sn_index x))%bool) with counted.
    induction (List.filter counted l') as [|x r IH]; [done|]. cbn [map List.concat]. rewrite map_app, IH, map_map. cbn [fst]. by rewrite map_id.
  Qed.
  Lemma elem_of_unstaged_paths p m : (p, m) ∈ unstaged_paths l <-> exists x, x ∈ l /\ counted x = true /\ p ∈ sn_paths x /\ m = sn_mode x.
  Proof.
    unfold unstaged_paths. rewrite elem_of_concat. split.
    - intros (ps & Hp & (x & -> & Hx)%elem_of_list_fmap). apply elem_of_list_fmap in Hp as (q & [= -> ->] & Hq).
      apply elem_of_list_In, filter_In in Hx as [Hx Hc]. apply elem_of_list_In in Hx. by exists x.
    - intros (x & Hx & Hc & Hp & ->). exists (map (fun p => (p, sn_mode x)) (sn_paths x)). split.
      + apply elem_of_list_fmap. by exists p.
      + apply elem_of_list_fmap. exists x. split; [done|]. apply elem_of_list_In, filter_In. split; [by apply elem_of_list_In|done].
  Qed.
  Lemma unstaged_nodup dd u : unstaged_values dd (unstaged_paths l) = Some u -> NoDup (map fst u).
  Proof using R.
    intros H. rewrite (unstaged_keys _ _ _ H), unstaged_paths_keys. destruct R as (Hnd & _). clear - Hnd.
    induction l as [|x l' IH]; [constructor|]. cbn [map List.concat List.filter] in Hnd |- *. apply NoDup_app in Hnd as (H1 & H2 & H3).
    destruct (counted x); [|by apply IH]. cbn [map List.concat]. apply NoDup_app. split; [done|]. split; [|by apply IH].
    intros p Hp Hin. apply (H2 p Hp). apply elem_of_concat in Hin as (ps & Hps & (y & -> & Hy)%elem_of_list_fmap).
    apply elem_of_concat. exists (sn_paths y). split; [done|]. apply elem_of_list_fmap. exists y. split; [done|].
    apply elem_of_list_In, filter_In in Hy as [Hy _]. by apply elem_of_list_In.
  Qed.
  Lemma elem_of_unstaged_updates dd u p v : unstaged_values dd (unstaged_paths l) = Some u ->
    (p, v) ∈ to_updates u <-> exists x, x ∈ l /\ counted x = true /\ p ∈ sn_paths x /\ unstaged_value dd p (sn_mode x) = Some v.
  Proof using R.
    intros H. rewrite elem_of_to_updates, last_value_nodup by (by eapply unstaged_nodup). split.
    - intros Hin. destruct (unstaged_in _ _ _ _ _ H Hin) as (m & Hm & E). apply elem_of_unstaged_paths in Hm as (x & Hx & Hc & Hp & ->).
      by exists x.
    - intros (x & Hx & Hc & Hp & E).
      assert (Hk : p ∈ map fst u). { rewrite (unstaged_keys _ _ _ H). apply elem_of_list_fmap. exists (p, sn_mode x). split; [done|].
        apply elem_of_unstaged_paths. by exists x. }
      apply elem_of_list_fmap in Hk as ([p' v'] & -> & Hin). cbn in *. destruct (unstaged_in _ _ _ _ _ H Hin) as (m & Hm & E').
      assert (m = sn_mode x) as ->; [|congruence].
      apply elem_of_unstaged_paths in Hm as (y & Hy & Hcy & Hpy & ->). f_equal.
      destruct R as (Hnd & _). clear - Hnd Hx Hy Hp Hpy.
      induction l as [|z l' IH]; [by apply elem_of_nil in Hx|]. cbn [map List.concat] in Hnd. apply NoDup_app in Hnd as (H1 & H2 & H3).
      assert (J : forall a, a ∈ l' -> p' ∈ sn_paths a -> p' ∈ List.concat (map sn_paths l')).
      { intros a Ha Hpa. apply elem_of_concat. exists (sn_paths a). split; [done|]. apply elem_of_list_fmap. by exists a. }
      rewrite elem_of_cons in Hx. rewrite elem_of_cons in Hy. destruct Hx as [->|Hx], Hy as [->|Hy]; [done| | |by apply IH].
      + exfalso. by apply (H2 p' Hp), (J y).
      + exfalso. by apply (H2 p' Hpy), (J x).
  Qed.
  Lemma unstaged_flat dd u : unstaged_values dd (unstaged_paths l) = Some u -> flat_updates st t (to_updates u).
  Proof using R GI NC.
    intros H. split; [rewrite to_updates_keys; apply NoDup_remove_dups|]. split; [|split].
    - intros p v (x & Hx & _ & Hp & _)%(elem_of_unstaged_updates _ _ _ _ H). by apply (reported_nonempty x).
    - intros p o m (x & Hx & _ & Hp & E)%(elem_of_unstaged_updates _ _ _ _ H). unfold unstaged_value in E.
      destruct (decide _); [done|]. destruct (create_blob dd p) as [[b|]|]; [|done|done]. injection E as <- <-. by apply reported_mode.
    - intros p v q (x & Hx & _ & Hp & _)%(elem_of_unstaged_updates _ _ _ _ H) Hq.
      apply (NC x); [done|done|]. destruct Hq as [[w Hw]|Hq]; [left|by right].
      apply (elem_of_unstaged_updates _ _ _ _ H) in Hw as (y & Hy & _ & Hq & _). by exists y.
  Qed.
End reported.

(** ** The commits of a snapshot *)

Definition closed_store (st : tree_store) : Prop := forall o t, st !! o = Some t -> closed_tree st t.
Lemma sound_closed e st : sound e st -> closed_store st.
Proof. by intros (_ & _ & ?). Qed.
Lemma good_closed e st h t : good_head e st h t -> closed_tree st t.
Proof.
  intros (Hs & _ & _ & Ht & _). destruct h as [o|]; cbn in Ht; [by eapply (sound_closed e st Hs)|injection Ht as <-; apply closed_empty].
Qed.

Lemma flat_mono st st' t u : st ⊆ st' -> closed_store st -> closed_tree st t -> flat_updates st t u -> flat_updates st' t u.
Proof.
  intros Hsub Hc Ht (H1 & H2 & H3 & H4). split; [done|]. split; [done|]. split; [done|]. intros p v q Hin Hq. apply (H4 p v q Hin).
  by rewrite (file_at_mono st st' t q Hsub Hc Ht) in Hq.
Qed.
Lemma overlaid_mono st t u st1 t' st2 : overlaid st t u st1 t' -> st1 ⊆ st2 -> closed_store st1 -> closed_tree st1 t' ->
  overlaid st t u st2 t'.
Proof.
  intros (H1 & H2 & H3) Hsub Hc Ht. split; [by eapply tidy_mono|]. split.
  - intros p v Hin. rewrite (entry_at_mono st1 st2 p t' Hsub Hc Ht). by apply H2.
  - intros p Hp. rewrite (file_at_mono st1 st2 t' p Hsub Hc Ht). by apply H3.
Qed.
Lemma overlaid_base st st0 t u st1 t' : overlaid st0 t u st1 t' -> st ⊆ st0 -> closed_store st -> closed_tree st t ->
  overlaid st t u st1 t'.
Proof.
  intros (H1 & H2 & H3) Hsub Hc Ht. split; [done|]. split; [done|]. intros p Hp. rewrite <- (file_at_mono st st0 t p Hsub Hc Ht). by apply H3.
Qed.
Lemma hydrate_step e st st0 t u o st1 :
  st ⊆ st0 -> sound e st -> sound e st0 -> closed_tree st t -> tidy_at st t -> flat_updates st t u ->
  hydrate_tree e st0 t u = Some (o, st1) ->
  st ⊆ st1 /\ st0 ⊆ st1 /\ sound e st1 /\ exists t', st1 !! o = Some t' /\ overlaid st t u st1 t'.
Proof.
  intros Hsub Hs Hs0 Hc Ht Hf H. pose proof (sound_closed e st Hs) as Hcs.
  destruct (hydrate_flat e st0 t u o st1 H Hs0) as (Hsub1 & Hs1 & t' & Ht' & Ho).
  - by eapply closed_tree_mono.
  - by eapply tidy_mono.
  - by eapply flat_mono.
  - split; [by etransitivity|]. split; [done|]. split; [done|]. exists t'. split; [done|]. by eapply overlaid_base.
Qed.

(** The trees of the commits, in a store to which more may have been added. *)
Definition commits_made (st : tree_store) (t : tree) (i : full_index) (dd : path -> on_disk) (l : list sn_entry)
  (sn : snapshot) (st' : tree_store) : Prop :=
  (exists u U, unstaged_values dd (unstaged_paths l) = Some u /\ st' !! sn_unstaged sn = Some U /\ overlaid st t (to_updates u) st' U)
  /\ forall s, exists T, st' !! sn_stage sn s = Some T /\ overlaid st t (stage_updates i l s) st' T.

Lemma create_spec e st h t i d dd l sn st' :
  create_snapshot e st h i dd l = Some (sn, st') ->
  good_head e st h t -> good_index i -> reports st t i d l -> no_clash st t l ->
  sn_head sn = h /\ st ⊆ st' /\ sound e st' /\
  forall st2, st' ⊆ st2 -> sound e st2 -> commits_made st t i dd l sn st2.
Proof.
  intros C GH GI R NC. pose proof GH as (Hs & Hg & _ & Hh & Ht). pose proof (good_closed _ _ _ _ GH) as Hc.
  unfold create_snapshot, commit_unstaged, commit_stage in C. rewrite Hh in C.
  destruct (unstaged_values dd (unstaged_paths l)) as [u|] eqn:Eu; [|done].
  destruct (hydrate_tree e st t (to_updates u)) as [[ou st0]|] eqn:E; [|done].
  pose proof (unstaged_flat st t i d l GI R NC dd u Eu) as Fu.
  destruct (hydrate_step e st st t _ _ _ (reflexivity st) Hs Hs Hc Ht Fu E) as (S0 & _ & Hs0 & U & HU & OU).
  pose proof (fun s => stage_flat st t i d l GI R NC s) as Fs. unfold stage_updates in Fs.
  destruct (hydrate_tree e st0 t _) as [[o0 st1]|] eqn:E0 in C; [|done].
  destruct (hydrate_step e st st0 t _ _ _ S0 Hs Hs0 Hc Ht (Fs Stage0) E0) as (S1 & S01 & Hs1 & T0 & HT0 & OT0).
  destruct (hydrate_tree e st1 t _) as [[o1 st2]|] eqn:E1 in C; [|done].
  destruct (hydrate_step e st st1 t _ _ _ S1 Hs Hs1 Hc Ht (Fs Stage1) E1) as (S2 & S12 & Hs2 & T1 & HT1 & OT1).
  destruct (hydrate_tree e st2 t _) as [[o2 st3]|] eqn:E2 in C; [|done].
  destruct (hydrate_step e st st2 t _ _ _ S2 Hs Hs2 Hc Ht (Fs Stage2) E2) as (S3 & S23 & Hs3 & T2 & HT2 & OT2).
  destruct (hydrate_tree e st3 t _) as [[o3 st4]|] eqn:E3 in C; [|done].
  destruct (hydrate_step e st st3 t _ _ _ S3 Hs Hs3 Hc Ht (Fs Stage3) E3) as (S4 & S34 & Hs4 & T3 & HT3 & OT3).
  injection C as <- <-. split; [done|]. split; [done|]. split; [done|]. intros stR SR HsR.
  assert (K : forall st' o T u, st' ⊆ st4 -> sound e st' -> st' !! o = Some T -> overlaid st t u st' T ->
    stR !! o = Some T /\ overlaid st t u stR T).
  { intros st' o T u' Hsub Hs' HT O. assert (Hsub' : st' ⊆ stR) by (by etransitivity). split.
    - by eapply lookup_weaken.
    - pose proof (sound_closed e st' Hs') as Hc'. eapply overlaid_mono; [done|done|done|]. by eapply Hc'. }
  split.
  - exists u, U. split; [done|]. apply (K st0); [|done|done|done]. by do 3 (etransitivity; [eassumption|]).
  - intros []; cbn [sn_stage]; eexists.
    + eapply (K st1); [|done|done|done]. by do 2 (etransitivity; [eassumption|]).
    + eapply (K st2); [|done|done|done]. by do 1 (etransitivity; [eassumption|]).
    + eapply (K st3); [|done|done|done]. done.
    + eapply (K st4); [|done|done|done]. done.
Qed.

(** ** What one stage does *)

Section stages.
  Context (e : tree_env) (st : tree_store) (h : option oid) (t : tree) (i : full_index) (d : disk) (l : list sn_entry).
  Context (GH : good_head e st h t) (GI : good_index i) (R : reports st t i d l) (NC : no_clash st t l).
  Context (st2 : tree_store) (Hsub : st ⊆ st2) (Hs2 : sound e st2) (ord : list path -> list path) (Ho : forall ps, ord ps ≡ₚ ps).
  Context (sn : snapshot) (dd : path -> on_disk) (Hsn : sn_head sn = h) (CM : commits_made st t i dd l sn st2).

  Definition listed (p : path) : Prop := exists x, x ∈ l /\ p ∈ sn_paths x.

  Lemma head_file p : file_at st2 t p = file_at st t p.
  Proof using All. destruct GH as (Hs & _). eapply file_at_mono; [done|by eapply sound_closed|by eapply good_closed]. Qed.
  Lemma head_tidy : tidy_at st2 t.
  Proof using All.
    pose proof GH as (Hs & _ & _ & _ & Ht). eapply tidy_mono; [done|by eapply sound_closed|by eapply good_closed|done].
  Qed.

  Lemma touched_diff s T p : st2 !! sn_stage sn s = Some T -> tidy_at st2 T ->
    touches st2 (stage_commit sn s) p <-> file_at st t p <> file_at st2 T p.
  Proof using All.
    intros HT TT. rewrite <- head_file. pose proof head_tidy as TH. unfold touches, stage_commit. cbn [tc_tree tc_parents]. rewrite Hsn.
    assert (DF : forall p, p <> [] -> differs st2 t T p <-> file_at st2 t p <> file_at st2 T p).
    { intros q _. split; [|by left]. intros [D|(a & b & Ha & Hb & Xa & Xb & N)]; [done|].
      exfalso. apply N. destruct (TH q a Ha Xa) as [-> _], (TT q b Hb Xb) as [-> _]. done. }
    assert (P0 : file_at st2 t p <> file_at st2 T p -> p <> []) by (by intros Hne ->).
    pose proof GH as (_ & _ & _ & Hh & _). split.
    - intros (Hp & T' & HT' & H). assert (T' = T) as -> by congruence. apply (DF p Hp). destruct H as [[E D]|(o & q & Hin & Hq & D)].
      + destruct h; [done|]. cbn in Hh. by injection Hh as <-.
      + destruct h as [o'|]; [|by apply elem_of_nil in Hin]. apply elem_of_list_singleton in Hin as ->. cbn in Hh.
        assert (q = t) as ->; [|done]. pose proof (lookup_weaken _ _ _ _ Hh Hsub). congruence.
    - intros D. split; [by apply P0|]. exists T. split; [done|]. apply DF in D; [|by apply P0]. destruct h as [o|]; cbn in Hh.
      + right. exists o, t. split; [by left|]. split; [by eapply lookup_weaken|done].
      + left. injection Hh as <-. done.
  Qed.

  Lemma stage_untouched s T p : overlaid st t (stage_updates i l s) st2 T -> ~ (exists x, x ∈ l /\ sn_path x = p) -> file_at st2 T p = file_at st t p.
  Proof using All.
    intros (_ & _ & H3) Hp. apply H3. intros ([q v] & -> & Hin)%elem_of_list_fmap.
    apply (elem_of_stage_updates st t i d l R) in Hin as (x & Hx & E). apply stage_value_path in E. apply Hp. by exists x.
  Qed.


  (** Modes of files at HEAD. *)
  Lemma usual_at st0 : usual_modes st0 -> forall p t0 x, (exists o, st0 !! o = Some t0) -> entry_at st0 t0 p = Some x -> usual_mode (snd x).
  Proof.
    intros Hu. induction p as [|n p IH]; intros t0 x [o Ho0] H; [done|]. destruct p as [|m r].
    - by eapply Hu.
    - rewrite entry_at_cons in H. destruct (t0 !! n) as [y|]; [|done]. destruct (is_tree y); [|done].
      destruct (st0 !! fst y) as [t1|] eqn:E; [|done]. apply (IH t1); [by eexists|done].
  Qed.
  Lemma head_usual p x : entry_at st t p = Some x -> usual_mode (snd x).
  Proof using All.
    destruct GH as (_ & _ & Hu & Hh & _). destruct h as [o|]; cbn in Hh.
    - apply usual_at; [done|by eexists].
    - injection Hh as <-. by rewrite entry_at_empty.
  Qed.
  Lemma index_mode_usual m : index_mode m -> usual_mode m.
  Proof. intros [->|[->|[->| ->]]]; unfold usual_mode; tauto. Qed.
  Lemma stage_usual s T p x : overlaid st t (stage_updates i l s) st2 T -> file_at st2 T p = Some x -> usual_mode (snd x).
  Proof using All.
    intros O Hx. destruct (decide (p ∈ map fst (stage_updates i l s))) as [Hin|Hin].
    - apply elem_of_list_fmap in Hin as ([q v] & -> & Hin). cbn in Hx.
      rewrite (overlaid_file _ _ _ _ _ _ _ O (stage_flat st t i d l GI R NC s) Hin) in Hx.
      apply (elem_of_stage_updates st t i d l R) in Hin as (y & Hy & E). unfold stage_value, get_entry_in_stage in E.
      destruct (i (sn_path y) s) as [[[|o] m]|] eqn:Ei.
      + injection E as <- <-. done.
      + injection E as <- <-. injection Hx as <-. cbn. destruct GI as (_ & Gm & _). destruct (Gm _ _ _ _ Ei) as [Hm _].
        destruct (index_mode_file m Hm) as [_ ->]. by apply index_mode_usual.
      + destruct s; [injection E as <- <-; done|destruct (sn_index y)..]; try done; injection E as <- <-; done.
    - destruct O as (_ & _ & H3). rewrite (H3 p Hin) in Hx. apply file_entry in Hx as [Hx _]. by eapply head_usual.
  Qed.

  (** Entries of indexes that are run through the script. *)
  Definition supported (j : full_index) : Prop := forall p s, j p s <> None -> listed p \/ file_at st t p <> None.

  Lemma stage_run s cs j : stage_commands st2 ord sn s = Some cs -> supported j ->
    exists T, st2 !! sn_stage sn s = Some T /\ overlaid st t (stage_updates i l s) st2 T
      /\ supported (fold_left run_command cs j)
      /\ forall p s', fold_left run_command cs j p s' = effect s (file_at st t p) (file_at st2 T p) (j p) s'.
  Proof using All.
    intros E Sj. destruct CM as [_ CS]. destruct (CS s) as (T & HT & O). exists T. split; [done|]. split; [done|].
    unfold stage_commands in E. destruct (touched_paths st2 (stage_commit sn s)) as [ps|] eqn:Et; [|done]. rewrite HT in E. injection E as <-.
    apply touched_paths_spec in Et as (Hnd & Hps & _ & _).
    assert (TT : tidy_at st2 T) by (by destruct O).
    assert (D : forall p, p ∈ ord ps <-> file_at st t p <> file_at st2 T p).
    { intros p. rewrite (Ho ps), (Hps p). by apply touched_diff. }
    assert (L : forall p, p ∈ ord ps -> exists x, x ∈ l /\ sn_path x = p).
    { intros p Hp%D. destruct (decide (p ∈ map fst (stage_updates i l s))) as [Hin|Hin].
      - apply elem_of_list_fmap in Hin as ([q v] & -> & Hin). apply (elem_of_stage_updates st t i d l R) in Hin as (x & Hx & Ev).
        apply stage_value_path in Ev. by exists x.
      - destruct O as (_ & _ & H3). by rewrite (H3 p Hin) in Hp. }
    assert (EF : forall p, p ∈ ord ps -> file_at st2 T p = entry_at st2 T p).
    { intros p Hp. pose proof (proj1 (D p) Hp) as Hd. destruct (decide (p ∈ map fst (stage_updates i l s))) as [Hin|Hin].
      - apply elem_of_list_fmap in Hin as ([q v] & -> & Hin). cbn [fst] in *.
        rewrite (overlaid_file _ _ _ _ _ _ _ O (stage_flat st t i d l GI R NC s) Hin). destruct O as (_ & H2 & _). symmetry. by apply H2.
      - destruct O as (_ & _ & H3). by rewrite (H3 p Hin) in Hd. }
    assert (RS : forall p s', fold_left run_command (map (path_command st2 T s) (ord ps)) j p s' = effect s (file_at st t p) (file_at st2 T p) (j p) s').
    { intros p s'. rewrite run_stage.
      - unfold effect. destruct (decide (p ∈ ord ps)) as [Hp|Hp].
        + rewrite <- (EF p Hp). destruct (decide (file_at st t p = file_at st2 T p)) as [N|_]; [by apply D in Hp|].
          by destruct (file_at st2 T p) as [[]|].
        + destruct (decide (file_at st t p = file_at st2 T p)) as [|N]; [done|]. by apply D in N.
      - by rewrite (Ho ps).
      - intros p1 p2 H1 H2. destruct (L p1 H1) as (x1 & Hx1 & <-), (L p2 H2) as (x2 & Hx2 & <-).
        apply (NC x1); [done|by left|]. left. exists x2. split; [done|by left].
      - intros q Hq Hcl s0. destruct (j p s0) eqn:Ej; [|done]. exfalso. destruct (L q Hq) as (x & Hx & <-).
        apply (NC x (sn_path x) p Hx); [by left| |done]. apply (Sj p s0). congruence.
      - intros q x Hq Hx. rewrite <- (EF q Hq) in Hx. by eapply stage_usual. }
    split; [|done]. intros p s' Hne. rewrite RS in Hne. unfold effect in Hne. destruct (decide (file_at st t p = file_at st2 T p)) as [|Nd]; [by eapply Sj|].
    left. apply D in Nd. destruct (L p Nd) as (x & Hx & <-). exists x. split; [done|by left].
  Qed.

  (** The whole script. *)
  Lemma script_run cs j : index_script st2 ord sn = Some cs -> supported j ->
    exists T0 T1 T2 T3, overlaid st t (stage_updates i l Stage0) st2 T0 /\ overlaid st t (stage_updates i l Stage1) st2 T1
      /\ overlaid st t (stage_updates i l Stage2) st2 T2 /\ overlaid st t (stage_updates i l Stage3) st2 T3
      /\ forall p s', fold_left run_command cs j p s' =
           effect Stage3 (file_at st t p) (file_at st2 T3 p)
             (effect Stage2 (file_at st t p) (file_at st2 T2 p)
               (effect Stage1 (file_at st t p) (file_at st2 T1 p)
                 (effect Stage0 (file_at st t p) (file_at st2 T0 p) (j p)))) s'.
  Proof using All.
    unfold index_script. intros E Sj.
    destruct (stage_commands st2 ord sn Stage0) as [c0|] eqn:E0; [|done].
    destruct (stage_commands st2 ord sn Stage1) as [c1|] eqn:E1; [|done].
    destruct (stage_commands st2 ord sn Stage2) as [c2|] eqn:E2; [|done].
    destruct (stage_commands st2 ord sn Stage3) as [c3|] eqn:E3; [|done]. injection E as <-.
    destruct (stage_run Stage0 c0 j E0 Sj) as (T0 & _ & O0 & Sj0 & R0).
    destruct (stage_run Stage1 c1 _ E1 Sj0) as (T1 & _ & O1 & Sj1 & R1).
    destruct (stage_run Stage2 c2 _ E2 Sj1) as (T2 & _ & O2 & Sj2 & R2).
    destruct (stage_run Stage3 c3 _ E3 Sj2) as (T3 & _ & O3 & Sj3 & R3).
    exists T0, T1, T2, T3. do 4 (split; [done|]). intros p s'. rewrite !fold_left_app, R3.
    assert (EX : forall s old new f g, (forall s', f s' = g s') -> forall s', effect s old new f s' = effect s old new g s').
    { intros s old new f g Hfg s''. unfold effect. destruct (decide _); [done|]. destruct new as [[o m]|]; [|done].
      destruct (decide _); [done|]. destruct (decide _); [done|]. apply Hfg. }
    apply EX. intros s2. rewrite R2. apply EX. intros s1. rewrite R1. apply EX. intros s0. by rewrite R0.
  Qed.
End stages.

(** ** The restored index *)

Lemma effect_same s x f : effect s x x f = f.
Proof. unfold effect. by rewrite decide_True. Qed.

Lemma letter_dot h x : index_letter h x = "."%char -> h = x.
Proof.
  unfold index_letter. destruct h as [a|], x as [b|]; try done. destruct (decide (a = b)) as [->|]; [done|]. by destruct (decide _).
Qed.
Lemma index_status_not_unmerged h x : status_of (index_letter h x) <> Unmerged.
Proof. unfold index_letter. destruct h as [a|], x as [b|]; try done. destruct (decide _); [done|]. by destruct (decide _). Qed.

Lemma status_none h i d p : status_at h i d p = None -> ~ conflicted i p /\ h = indexed i p /\ wc_letter (indexed i p) (d p) = "."%char.
Proof.
  unfold status_at. destruct (decide (conflicted i p)) as [|Hc]; [done|].
  destruct (Ascii.eqb (index_letter h (indexed i p)) ".") eqn:E1; [|done].
  destruct (Ascii.eqb (wc_letter (indexed i p) (d p)) ".") eqn:E2; [|done]. intros _.
  split; [done|]. split; [by apply letter_dot, Ascii.eqb_eq|by apply Ascii.eqb_eq].
Qed.
Lemma status_some h i d p x : status_at h i d p = Some x -> ~ conflicted i p ->
  x = SnEntry (status_of (index_letter h (indexed i p))) (status_of (wc_letter (indexed i p) (d p))) (wc_mode (indexed i p) (d p)) p None
  /\ (index_letter h (indexed i p) <> "."%char \/ wc_letter (indexed i p) (d p) <> "."%char).
Proof.
  intros H Hc. unfold status_at in H. rewrite decide_False in H by done.
  destruct (Ascii.eqb (index_letter h (indexed i p)) ".") eqn:E1.
  - destruct (Ascii.eqb (wc_letter (indexed i p) (d p)) ".") eqn:E2; [done|]. injection H as <-. split; [done|]. right.
    intros E. by rewrite E in E2.
  - injection H as <-. split; [done|]. left. intros E. by rewrite E in E1.
Qed.
Lemma status_conflict h i d p x : status_at h i d p = Some x -> conflicted i p -> sn_index x = Unmerged.
Proof. intros H Hc. unfold status_at in H. rewrite decide_True in H by done. by injection H as <-. Qed.
Lemma indexed_good i p : good_index i -> i p Stage0 = match indexed i p with Some (o, m) => Some (NonZero o, m) | None => None end.
Proof.
  intros (_ & G & _). unfold indexed. destruct (i p Stage0) as [[o m]|] eqn:E; [|done]. destruct (G _ _ _ _ E) as [_ [x ->]]. done.
Qed.
Lemma staged_good i p s : good_index i -> i p s = match staged i s p with Some (o, m) => Some (NonZero o, m) | None => None end.
Proof.
  intros (_ & G & _). unfold staged. destruct (i p s) as [[o m]|] eqn:E; [|done]. destruct (G _ _ _ _ E) as [_ [x ->]]. done.
Qed.
Lemma not_conflicted_stage i p s : ~ conflicted i p -> s <> Stage0 -> i p s = None.
Proof.
  intros H Hs. unfold conflicted in H. destruct (i p s) eqn:E; [|done]. exfalso. apply H.
  destruct s; [done|left|right; left|right; right]; congruence.
Qed.

Section index.
  Context (e : tree_env) (tgt : oid -> path) (st : tree_store) (h : option oid) (t : tree) (i : full_index) (d : disk) (l : list sn_entry)
    (sn : snapshot) (st1 : tree_store) (t0 : tree) (i0 : full_index) (d0 : disk) (i' : full_index) (d' : disk) (st2 : tree_store).
  Context (TK : taken e tgt st h t i d l sn st1) (RS : restored e st1 sn t0 i0 d0 i' d' st2).

  (** The entry for a path. *)
  Lemma entry_of_path p : status_at (file_at st t p) i d p <> None -> ~ renamed_from l p ->
    exists x, x ∈ l /\ sn_path x = p /\ sn_index x = (match status_at (file_at st t p) i d p with Some a =>
      match sn_orig x with Some _ => Renamed | None => sn_index a end | None => Unmodified end).
  Proof using TK.
    destruct TK as (_ & _ & _ & (_ & R1 & R2 & R3) & _). intros H Hr. destruct (status_at _ i d p) as [a|] eqn:E; [|done].
    destruct (R3 p a E) as (x & Hx & Hp). unfold sn_paths in Hp. destruct (sn_orig x) as [o|] eqn:Eo.
    - rewrite !elem_of_cons in Hp. destruct Hp as [->|[->|Hp%elem_of_nil]]; [|exfalso; apply Hr; by exists x|done].
      exists x. split; [done|]. split; [done|]. rewrite Eo. by destruct (R2 x o Hx Eo) as (y & a' & b & _ & _ & ? & _).
    - apply elem_of_list_singleton in Hp as ->. exists x. split; [done|]. split; [done|]. rewrite Eo.
      rewrite (R1 x Hx Eo) in E. by injection E as <-.
  Qed.


  (** What the commit of a stage has at the path of an entry. *)
  Lemma stage_at s T x : overlaid st t (stage_updates i l s) st2 T -> x ∈ l ->
    file_at st2 T (sn_path x) =
    (match staged i s (sn_path x) with
     | Some a => Some a
     | None => match s, sn_index x with
               | Stage0, _ => None
               | _, Unmerged => None
               | _, _ => file_at st t (sn_path x)
               end
     end).
  Proof using TK.
    destruct TK as (_ & GH & GI & R & NC). intros O Hx. pose proof (stage_flat st t i d l GI R NC s) as F.
    assert (V : forall v, stage_value i s x = Some (sn_path x, v) -> file_at st2 T (sn_path x) = stored v).
    { intros v E. eapply overlaid_file; [done|done|]. apply (elem_of_stage_updates st t i d l R). by exists x. }
    assert (N : stage_value i s x = None -> file_at st2 T (sn_path x) = file_at st t (sn_path x)).
    { intros E. destruct O as (_ & _ & O3). apply O3. intros ([q v] & Eq & Hin)%elem_of_list_fmap. cbn in Eq.
      apply (elem_of_stage_updates st t i d l R) in Hin as (y & Hy & Ev). pose proof (stage_value_path i s y q v Ev) as Hq.
      assert (y = x) as ->; [|congruence]. pose proof (paths_nodup st t i d l R) as Hnd. clear - Hx Hy Eq Hq Hnd.
      assert (E : sn_path y = sn_path x) by congruence. clear Eq Hq q.
      induction l as [|z l' IH]; [by apply elem_of_nil in Hx|]. cbn in Hnd. apply NoDup_cons in Hnd as [Hz Hnd].
      rewrite elem_of_cons in Hx. rewrite elem_of_cons in Hy. destruct Hx as [->|Hx], Hy as [->|Hy]; [done| | |by apply IH].
      - exfalso. apply Hz. rewrite <- E. apply elem_of_list_fmap. by exists y.
      - exfalso. apply Hz. rewrite E. apply elem_of_list_fmap. by exists x. }
    unfold stage_value, get_entry_in_stage in V, N. unfold staged.
    destruct (i (sn_path x) s) as [[[|o] m]|] eqn:Ei.
    - destruct GI as (_ & G & _). destruct (G _ _ _ _ Ei) as [_ [? ?]]. done.
    - rewrite (V (Some (o, mode_of_number m)) eq_refl). cbn. destruct GI as (_ & G & _). destruct (G _ _ _ _ Ei) as [Hm _].
      by destruct (index_mode_file m Hm) as [_ ->].
    - destruct s; [by rewrite (V None eq_refl)|..]; destruct (sn_index x); try (by rewrite N); by rewrite (V None eq_refl).
  Qed.
  Lemma stage_else s T p : overlaid st t (stage_updates i l s) st2 T -> (forall x, x ∈ l -> sn_path x <> p) -> file_at st2 T p = file_at st t p.
  Proof using TK.
    destruct TK as (_ & GH & GI & R & NC). intros (_ & _ & O3) Hp. apply O3. intros ([q v] & -> & Hin)%elem_of_list_fmap.
    apply (elem_of_stage_updates st t i d l R) in Hin as (y & Hy & Ev). apply stage_value_path in Ev. by apply (Hp y).
  Qed.

  (** The index before the script is run. *)
  Definition base_index (j : full_index) : Prop :=
    (forall p s, j p s <> None -> s = Stage0)
    /\ match h with
       | Some _ => forall p, j p Stage0 = match file_at st t p with Some (o, m) => Some (NonZero o, m) | None => None end
       | None => forall p, ~ (exists x, x ∈ l /\ p ∈ sn_paths x) -> j p Stage0 = None
       end.

  Lemma index_run : exists j T0 T1 T2 T3, base_index j
      /\ overlaid st t (stage_updates i l Stage0) st2 T0 /\ overlaid st t (stage_updates i l Stage1) st2 T1
      /\ overlaid st t (stage_updates i l Stage2) st2 T2 /\ overlaid st t (stage_updates i l Stage3) st2 T3
      /\ forall p s', i' p s' =
           effect Stage3 (file_at st t p) (file_at st2 T3 p)
             (effect Stage2 (file_at st t p) (file_at st2 T2 p)
               (effect Stage1 (file_at st t p) (file_at st2 T1 p)
                 (effect Stage0 (file_at st t p) (file_at st2 T0 p) (j p)))) s'.
  Proof using TK RS.
    destruct TK as (C & GH & GI & R & NC). destruct RS as (S12 & Hs2 & ord & Ho & d1 & U & tb & cs & HR & HU & HC & Hb & Hcs & Hi).
    destruct (create_spec _ _ _ _ _ _ _ _ _ _ C GH GI R NC) as (Hh & S1 & Hs1 & CMf). pose proof (CMf st2 S12 Hs2) as CM. clear CMf.
    assert (Hsub : st ⊆ st2) by (by etransitivity).
    pose proof (good_closed _ _ _ _ GH) as Hct. pose proof GH as (Hs & _ & _ & Hht & _).
    assert (HF : forall p, file_at st2 t p = file_at st t p).
    { intros p. eapply file_at_mono; [done|by eapply sound_closed|done]. }
    assert (IT : forall T p s, index_of_tree st2 T p s = match s with Stage0 => match file_at st2 T p with Some (o, m) => Some (NonZero o, m) | None => None end | _ => None end).
    { intros T p s. unfold index_of_tree, file_at. destruct s; try done. destruct (entry_at st2 T p) as [[o m]|]; [|done]. by destruct (is_tree (o, m)). }
    assert (BI : base_index (index_of_tree st2 tb)).
    { split.
      - intros p s Hne. rewrite IT in Hne. by destruct s.
      - rewrite Hh in Hb. destruct h as [o|].
        + intros p. assert (tb = t) as ->. { cbn in Hht. pose proof (lookup_weaken _ _ _ _ Hht Hsub). congruence. } by rewrite IT, HF.
        + subst tb. intros p Hp. rewrite IT. destruct CM as [(u & U' & Hu & HU' & OU) _]. assert (U' = U) as -> by congruence.
          destruct OU as (_ & _ & O3). rewrite O3.
          * cbn in Hht. injection Hht as <-. unfold file_at. by rewrite entry_at_empty.
          * intros ([q v] & -> & Hin)%elem_of_list_fmap. apply (elem_of_unstaged_updates st t i d l R _ _ _ _ Hu) in Hin as (x & Hx & _ & Hq & _).
            apply Hp. by exists x. }
    assert (SJ : supported st t l (index_of_tree st2 tb)).
    { intros p s Hne. destruct (decide (Exists (fun x => p ∈ sn_paths x) l)) as [Hin|Hin].
      - left. apply Exists_exists in Hin as (x & Hx & Hp). by exists x.
      - right. destruct BI as [B1 B2]. pose proof (B1 p s Hne) as ->. destruct h as [o|].
        + rewrite B2 in Hne. destruct (file_at st t p); [done|done].
        + exfalso. apply Hne, B2. intros (x & Hx & Hp). apply Hin, Exists_exists. by exists x. }
    destruct (script_run e st h t i d l GH GI R NC st2 Hsub Hs2 ord Ho sn (seen_disk tgt d) Hh CM cs _ Hcs SJ) as (T0 & T1 & T2 & T3 & O0 & O1 & O2 & O3 & E).
    exists (index_of_tree st2 tb), T0, T1, T2, T3. split; [exact BI|]. do 4 (split; [done|]). intros p s'. by rewrite Hi, E.
  Qed.

  (** Paths not in conflict. *)
  Lemma index_restored p : ~ conflicted i p -> ~ renamed_from l p -> forall s, i' p s = i p s.
  Proof using TK RS.
    intros Hc Hr s. pose proof TK as (_ & GH & GI & R & NC).
    destruct index_run as (j & T0 & T1 & T2 & T3 & [BJ1 BJ2] & O0 & O1 & O2 & O3 & E). rewrite E. clear E.
    assert (J0 : forall s', s' <> Stage0 -> j p s' = None).
    { intros s' Hs'. destruct (j p s') eqn:Ej; [|done]. exfalso. apply Hs', (BJ1 p). congruence. }
    destruct (status_at (file_at st t p) i d p) as [a|] eqn:Ea.
    - destruct (entry_of_path p) as (x & Hx & Hp & Hix); [congruence|done|].
      assert (HU : sn_index x <> Unmerged).
      { rewrite Hix, Ea. destruct (sn_orig x); [done|]. apply status_some in Ea as [-> _]; [|done]. apply index_status_not_unmerged. }
      assert (K : forall s T, s <> Stage0 -> overlaid st t (stage_updates i l s) st2 T -> file_at st2 T p = file_at st t p).
      { intros s' T Hs' O. rewrite <- Hp, (stage_at s' T x O Hx), Hp. unfold staged. rewrite (not_conflicted_stage i p s' Hc Hs').
        destruct s'; [done|..]; by destruct (sn_index x). }
      rewrite (K Stage3 T3), (K Stage2 T2), (K Stage1 T1) by done. rewrite !effect_same.
      assert (file_at st2 T0 p = indexed i p) as ->.
      { rewrite <- Hp, (stage_at Stage0 T0 x O0 Hx), Hp. unfold staged, indexed. by destruct (i p Stage0) as [[[] ?]|]. }
      unfold effect. destruct (decide (file_at st t p = indexed i p)) as [Eq|Ne].
      + destruct (decide (s = Stage0)) as [->|Hs]; [|rewrite J0, (not_conflicted_stage i p s Hc Hs) by done; done].
        rewrite (indexed_good i p GI), <- Eq. destruct h as [o|].
        * by rewrite BJ2.
        * destruct GH as (_ & _ & _ & Hht & _). cbn in Hht. injection Hht as Hht.
          assert (EN : file_at st t p = None) by (rewrite <- Hht; unfold file_at; by rewrite entry_at_empty).
          apply status_some in Ea as [_ Hl]; [|done]. rewrite <- Eq, EN in Hl. by destruct Hl.
      + destruct (indexed i p) as [[o m]|] eqn:Ei.
        * destruct (decide (s = Stage0)) as [->|Hs]; [by rewrite (indexed_good i p GI), Ei|].
          rewrite decide_True by done. by rewrite (not_conflicted_stage i p s Hc Hs).
        * destruct (decide (s = Stage0)) as [->|Hs]; [by rewrite (indexed_good i p GI), Ei|by rewrite (not_conflicted_stage i p s Hc Hs)].
    - pose proof (status_none _ _ _ _ Ea) as (_ & Eq & _).
      assert (NP : forall x, x ∈ l -> sn_path x <> p).
      { intros x Hx <-. destruct (reported_paths st t i d l R x (sn_path x) Hx) as [a Ha]; [by left|]. congruence. }
      rewrite (stage_else Stage3 T3), (stage_else Stage2 T2), (stage_else Stage1 T1), (stage_else Stage0 T0) by done. rewrite !effect_same.
      destruct (decide (s = Stage0)) as [->|Hs]; [|rewrite J0, (not_conflicted_stage i p s Hc Hs) by done; done].
      rewrite (indexed_good i p GI), <- Eq. destruct h as [o|].
      + by rewrite BJ2.
      + destruct GH as (_ & _ & _ & Hht & _). cbn in Hht. injection Hht as Hht.
        assert (EN : file_at st t p = None) by (rewrite <- Hht; unfold file_at; by rewrite entry_at_empty). rewrite EN.
        apply BJ2. intros (x & Hx & Hp). unfold sn_paths in Hp. rewrite elem_of_cons in Hp. destruct Hp as [->|Hp]; [by apply (NP x)|].
        destruct (sn_orig x) as [o|] eqn:Eo; [|by apply elem_of_nil in Hp]. apply elem_of_list_singleton in Hp as ->. apply Hr. by exists x.
  Qed.

  (** The former path of a renamed file. *)
  Lemma index_renamed p : renamed_from l p -> i p Stage0 = None /\ file_at st t p <> None /\
    i' p Stage0 = match file_at st t p with Some (o, m) => Some (NonZero o, m) | None => None end.
  Proof using TK RS.
    intros (x & Hx & Eo). pose proof TK as (_ & GH & GI & R & NC). pose proof R as (Hnd & R1 & R2 & R3).
    destruct (R2 x p Hx Eo) as (y & a & b & _ & Es & _).
    assert (NC' : ~ conflicted i p). { intros Hc. apply status_conflict in Es; done. }
    apply status_some in Es as [Es _]; [|done]. injection Es as Es _ _.
    assert (Ei : indexed i p = None /\ file_at st t p <> None).
    { unfold index_letter in Es. destruct (file_at st t p) as [u|], (indexed i p) as [v|]; try done.
      destruct (decide (u = v)); [done|]. by destruct (decide _). }
    destruct Ei as [Ei Hf]. split; [by rewrite (indexed_good i p GI), Ei|]. split; [done|].
    destruct index_run as (j & T0 & T1 & T2 & T3 & [BJ1 BJ2] & O0 & O1 & O2 & O3 & E). rewrite E. clear E.
    assert (NP : forall z, z ∈ l -> sn_path z <> p).
    { intros z Hz Ez. clear - Hnd Hx Hz Eo Ez. induction l as [|w l' IH]; [by apply elem_of_nil in Hx|]. cbn [map List.concat] in Hnd.
      apply NoDup_app in Hnd as (N1 & N2 & N3). rewrite elem_of_cons in Hx. rewrite elem_of_cons in Hz.
      assert (Px : p ∈ sn_paths x) by (unfold sn_paths; rewrite Eo; right; by left).
      assert (Pz : p ∈ sn_paths z) by (rewrite <- Ez; by left).
      assert (J : forall w, w ∈ l' -> p ∈ sn_paths w -> p ∈ List.concat (map sn_paths l')).
      { intros v Hv Hp. apply elem_of_concat. exists (sn_paths v). split; [done|]. apply elem_of_list_fmap. by exists v. }
      destruct Hx as [->|Hx], Hz as [->|Hz].
      - unfold sn_paths in N1. rewrite Eo, Ez in N1. apply NoDup_cons in N1 as [N1 _]. apply N1. by left.
      - by apply (N2 p Px), (J z).
      - by apply (N2 p Pz), (J x).
      - by apply IH. }
    rewrite (stage_else Stage3 T3), (stage_else Stage2 T2), (stage_else Stage1 T1), (stage_else Stage0 T0) by done. rewrite !effect_same.
    destruct h as [o|]; [by rewrite BJ2|]. destruct GH as (_ & _ & _ & Hht & _). cbn in Hht. injection Hht as Hht.
    exfalso. apply Hf. rewrite <- Hht. unfold file_at. by rewrite entry_at_empty.
  Qed.

  (** Conflicts. *)
  Lemma conflict_run p : conflicted i p -> h <> None ->
    forall s, i' p s =
      effect Stage3 (file_at st t p) (staged i Stage3 p)
        (effect Stage2 (file_at st t p) (staged i Stage2 p)
          (effect Stage1 (file_at st t p) (staged i Stage1 p) (fun _ => None))) s.
  Proof using TK RS.
    intros Hc Hh s. pose proof TK as (_ & GH & GI & R & NC). pose proof R as (Hnd & R1 & R2 & R3).
    destruct index_run as (j & T0 & T1 & T2 & T3 & [BJ1 BJ2] & O0 & O1 & O2 & O3 & E). rewrite E. clear E.
    destruct (status_at (file_at st t p) i d p) as [a|] eqn:Ea; [|by apply status_none in Ea as [? _]].
    pose proof (status_conflict _ _ _ _ _ Ea Hc) as Ha.
    assert (NR : ~ renamed_from l p).
    { intros (x & Hx & Eo). destruct (R2 x p Hx Eo) as (y & a' & b & _ & Es & _). rewrite Ea in Es. injection Es as ->. done. }
    destruct (entry_of_path p) as (x & Hx & Hp & Hix); [congruence|done|]. rewrite Ea in Hix.
    assert (Eo : sn_orig x = None).
    { destruct (sn_orig x) as [o|] eqn:Eo; [|done]. destruct (R2 x o Hx Eo) as (y & a' & b & Es & _). rewrite Hp, Ea in Es. injection Es as ->. done. }
    rewrite Eo, Ha in Hix.
    assert (K : forall s T, overlaid st t (stage_updates i l s) st2 T -> file_at st2 T p = staged i s p).
    { intros s' T O. rewrite <- Hp, (stage_at s' T x O Hx), Hp, Hix. destruct (staged i s' p) as [[]|]; [done|]. by destruct s'. }
    rewrite (K Stage3 T3), (K Stage2 T2), (K Stage1 T1), (K Stage0 T0) by done.
    assert (i p Stage0 = None) as E0.
    { destruct (i p Stage0) eqn:E0; [|done]. destruct GI as (_ & _ & G). exfalso. apply (G p); [congruence|done]. }
    assert (staged i Stage0 p = None) as -> by (unfold staged; by rewrite E0).
    assert (EX : forall s old new f g, (forall s', f s' = g s') -> forall s', effect s old new f s' = effect s old new g s').
    { intros s0 old new f g Hfg s''. unfold effect. destruct (decide _); [done|]. destruct new as [[o m]|]; [|done].
      destruct (decide _); [done|]. destruct (decide _); [done|]. apply Hfg. }
    apply EX. intros s2. apply EX. intros s1. apply EX. intros s0. unfold effect. destruct (decide (file_at st t p = None)) as [EH|]; [|done].
    destruct h as [o|]; [|done]. destruct (decide (s0 = Stage0)) as [->|Hs0]; [by rewrite BJ2, EH|].
    destruct (j p s0) eqn:Ej; [|done]. exfalso. apply Hs0, (BJ1 p). congruence.
  Qed.
End index.

(** ** The restored working copy *)

Lemma stored_mode (b : oid) m : stored (Some (b, m)) = Some (b, mode_number m).
Proof. done. Qed.
Lemma clean_node a w : wc_letter (Some a) w = "."%char -> w = node_of a.
Proof.
  unfold wc_letter. destruct w as [|b x|k|]; [done| | |].
  - destruct (decide (WFile b x = node_of a)) as [->|]; [done|]. by destruct (decide _).
  - destruct (decide (WLink k = node_of a)) as [->|]; [done|]. by destruct (decide _).
  - destruct (decide _) as [E|]; [|done]. intros _. unfold kind_of in E. unfold node_of. by destruct (get_filemode (snd a)).
Qed.
Lemma plain_kind a : plain_file (Some a) -> kind_of (snd a) = KFile.
Proof. unfold plain_file, kind_of. by intros [-> | ->]. Qed.
Lemma plain_counted h a w : plain_file h -> plain_file (Some a) -> plain_node w ->
  index_letter h (Some a) <> "."%char \/ wc_letter (Some a) w <> "."%char ->
  (is_changed (status_of (wc_letter (Some a) w)) || is_changed (status_of (index_letter h (Some a))))%bool = true.
Proof.
  intros Hh Ha Hw. unfold index_letter, wc_letter. rewrite (plain_kind a Ha).
  destruct h as [b|].
  - rewrite (plain_kind b Hh). destruct w; cbn [plain_node] in Hw; try done;
      repeat (destruct (decide _); try done); by intros [].
  - intros _. by rewrite orb_true_r.
Qed.

Section on_disk.
  Context (e : tree_env) (tgt : oid -> path) (st : tree_store) (h : option oid) (t : tree) (i : full_index) (d : disk) (l : list sn_entry)
    (sn : snapshot) (st1 : tree_store) (t0 : tree) (i0 : full_index) (d0 : disk) (i' : full_index) (d' : disk) (st2 : tree_store).
  Context (TK : taken e tgt st h t i d l sn st1) (RS : restored e st1 sn t0 i0 d0 i' d' st2).

  Lemma disk_run : exists U d1, hard_reset st2 t0 i0 d0 d1 /\ checked_out st2 t0 U d1 d'
    /\ (forall x p, x ∈ l -> counted x = true -> p ∈ sn_paths x ->
          exists v, unstaged_value (seen_disk tgt d) p (sn_mode x) = Some v /\ entry_at st2 U p = stored v)
    /\ (forall p, (forall x, x ∈ l -> counted x = true -> p ∉ sn_paths x) -> file_at st2 U p = file_at st t p).
  Proof using TK RS.
    destruct TK as (C & GH & GI & R & NC). destruct RS as (S12 & Hs2 & ord & Ho & d1 & U & tb & cs & HR & HU & HC & Hb & Hcs & Hi).
    destruct (create_spec _ _ _ _ _ _ _ _ _ _ C GH GI R NC) as (Hh & S1 & Hs1 & CMf). destruct (CMf st2 S12 Hs2) as [(u & U' & Hu & HU' & OU) _].
    assert (U' = U) as -> by congruence. exists U, d1. split; [done|]. split; [done|]. destruct OU as (_ & O2 & O3). split.
    - intros x p Hx Hcx Hp.
      assert (Hk : p ∈ map fst (to_updates u)).
      { rewrite to_updates_keys, elem_of_remove_dups, (unstaged_keys _ _ _ Hu). apply elem_of_list_fmap. exists (p, sn_mode x). split; [done|].
        apply (elem_of_unstaged_paths l). by exists x. }
      apply elem_of_list_fmap in Hk as ([p' v] & Ep & Hin). cbn in Ep. subst p'.
      pose proof Hin as (y & Hy & Hcy & Hpy & Ev)%(elem_of_unstaged_updates st t i d l R _ _ _ _ Hu).
      assert (sn_mode y = sn_mode x) as Em.
      { assert (y = x) as ->; [|done]. destruct R as (Hnd & _). clear - Hnd Hx Hy Hp Hpy.
        induction l as [|z l' IH]; [by apply elem_of_nil in Hx|]. cbn [map List.concat] in Hnd. apply NoDup_app in Hnd as (N1 & N2 & N3).
        assert (J : forall v, v ∈ l' -> p ∈ sn_paths v -> p ∈ List.concat (map sn_paths l')).
        { intros v Hv Hpv. apply elem_of_concat. exists (sn_paths v). split; [done|]. apply elem_of_list_fmap. by exists v. }
        rewrite elem_of_cons in Hx. rewrite elem_of_cons in Hy. destruct Hx as [->|Hx], Hy as [->|Hy]; [done| | |by apply IH].
        - exfalso. by apply (N2 p Hp), (J y).
        - exfalso. by apply (N2 p Hpy), (J x). }
      exists v. split; [by rewrite <- Em|by apply O2].
    - intros p Hp. apply O3. intros ([q v] & -> & Hin)%elem_of_list_fmap.
      apply (elem_of_unstaged_updates st t i d l R _ _ _ _ Hu) in Hin as (y & Hy & Hcy & Hpy & Ev). by apply (Hp y).
  Qed.

  Lemma checked_file U d1 p a : checked_out st2 t0 U d1 d' -> file_at st2 U p = Some a -> d' p = node_of a.
  Proof using Type.
    intros HC Hf. specialize (HC p). unfold file_at in Hf. destruct (entry_at st2 U p) as [x|]; [|done].
    destruct (is_tree x); [done|]. by injection Hf as ->.
  Qed.
  Lemma checked_missing U d1 p : hard_reset st2 t0 i0 d0 d1 -> checked_out st2 t0 U d1 d' -> entry_at st2 U p = None ->
    still_missing st2 t0 i0 d0 p -> d' p = WNothing.
  Proof using Type.
    intros HR HC Hf Hm. specialize (HC p). rewrite Hf in HC. destruct HC as [HC1 HC2]. destruct Hm as [Hm|(H1 & H2 & H3)].
    - unfold file_at in Hm. destruct (entry_at st2 t0 p) as [x|] eqn:E; [|done]. apply (HC1 x); [done|]. by destruct (is_tree x).
    - specialize (HR p). rewrite H1 in HR. destruct HR as [_ HR]. assert (E : d1 p = WNothing).
      { destruct (HR H2) as [E|[_ E]]; [congruence|congruence|done]. }
      rewrite HC2; [done|done|congruence].
  Qed.

  (** What is saved for a plain node. *)
  Lemma plain_saved U d1 p x m : hard_reset st2 t0 i0 d0 d1 -> checked_out st2 t0 U d1 d' -> plain_node (d p) -> m = disk_mode (d p) ->
    (exists v, unstaged_value (seen_disk tgt d) p m = Some v /\ entry_at st2 U p = stored v) -> x = d p ->
    (d p = WNothing -> still_missing st2 t0 i0 d0 p) -> d' p = x.
  Proof using Type.
    intros HR HC Hw -> (v & Ev & Ee) -> Hm. unfold unstaged_value in Ev. destruct (d p) as [|b y|k|] eqn:Ed; cbn [plain_node] in Hw; try done.
    - cbn in Ev. injection Ev as <-. eapply checked_missing; [done|done|done|by apply Hm].
    - assert (create_blob (seen_disk tgt d) p = Some (Some b)) as Eb.
      { unfold create_blob, read_file, seen_disk. by rewrite Ed. }
      cbn [disk_mode] in Ev. rewrite Eb in Ev. specialize (HC p). rewrite Ee in HC.
      destruct y; cbn in Ev; injection Ev as <-; by rewrite HC.
  Qed.

  Lemma disk_restored p : i p Stage0 <> None ->
    (status_at (file_at st t p) i d p <> None -> plain_file (file_at st t p) /\ plain_file (indexed i p) /\ plain_node (d p)) ->
    (d p = WNothing -> still_missing st2 t0 i0 d0 p) -> d' p = d p.
  Proof using TK RS.
    intros Hp0 Hpl Hm. pose proof TK as (_ & GH & GI & R & NC). pose proof GI as (_ & _ & G3). pose proof (G3 p Hp0) as Hc.
    destruct disk_run as (U & d1 & HR & HC & HU1 & HU2).
    destruct (indexed i p) as [a|] eqn:Ea; [|rewrite (indexed_good i p GI), Ea in Hp0; done].
    destruct (status_at (file_at st t p) i d p) as [z|] eqn:Es.
    - destruct Hpl as (P1 & P2 & P3); [done|].
      pose proof (status_some _ _ _ _ _ Es Hc) as [-> Hl]. rewrite Ea in Hl, Es.
      assert (NR : ~ renamed_from l p).
      { intros (x & Hx & Eo). destruct R as (_ & _ & R2 & _). destruct (R2 x p Hx Eo) as (y & a' & b & _ & E & _).
        rewrite Es in E. injection E as E _ _. unfold index_letter in E. destruct (file_at st t p) as [u|]; [|done].
        destruct (decide _); [done|]. by destruct (decide _). }
      pose proof R as (_ & R1 & R2 & R3). destruct (R3 p _ Es) as (x & Hx & Hpx).
      assert (Ep : sn_path x = p).
      { unfold sn_paths in Hpx. rewrite elem_of_cons in Hpx. destruct Hpx as [->|Hpx]; [done|]. destruct (sn_orig x) as [o|] eqn:Eo.
        - apply elem_of_list_singleton in Hpx as ->. exfalso. apply NR. by exists x.
        - by apply elem_of_nil in Hpx. }
      assert (K : counted x = true /\ sn_mode x = wc_mode (Some a) (d p)).
      { destruct (sn_orig x) as [o|] eqn:Eo.
        - destruct (R2 x o Hx Eo) as (y & a' & b & E & _ & E2 & _). rewrite Ep, Es in E. injection E as _ _ E.
          split; [unfold counted; rewrite E2; apply orb_true_r|done].
        - pose proof (R1 x Hx Eo) as E. rewrite Ep, Es in E. injection E as <-. split; [|done]. unfold counted. cbn [sn_wc sn_index].
          by apply plain_counted. }
      destruct K as [Kc Km]. eapply plain_saved; [exact HR|exact HC|exact P3| |by apply (HU1 x)|done|done].
      rewrite Km. unfold wc_mode, disk_mode. by destruct (d p).
    - pose proof (status_none _ _ _ _ Es) as (_ & E1 & E2). rewrite Ea in E1, E2. rewrite (clean_node _ _ E2).
      eapply checked_file; [exact HC|]. rewrite HU2; [done|]. intros x Hx _ Hpx.
      destruct (reported_paths st t i d l R x p Hx Hpx) as [b Hb]. congruence.
  Qed.

  (** A file in conflict. *)
  Lemma conflict_entry p : conflicted i p -> exists x, x ∈ l /\ status_at (file_at st t p) i d p = Some x /\
    (forall y, y ∈ l -> p ∈ sn_paths y -> y = x) /\ sn_paths x = [p].
  Proof using TK.
    intros Hc. pose proof TK as (_ & GH & GI & R & NC). pose proof R as (Hnd & R1 & R2 & R3).
    destruct (status_at (file_at st t p) i d p) as [z|] eqn:Es; [|by apply status_none in Es as [? _]].
    pose proof (status_conflict _ _ _ _ _ Es Hc) as Hz. destruct (R3 p z Es) as (x & Hx & Hpx).
    assert (L : forall y, y ∈ l -> p ∈ sn_paths y -> sn_orig y = None /\ y = z).
    { intros y Hy Hpy. unfold sn_paths in Hpy. rewrite elem_of_cons in Hpy. destruct (sn_orig y) as [o|] eqn:Eo.
      - destruct (R2 y o Hy Eo) as (u & a & b & E1 & E2 & _). exfalso. destruct Hpy as [->|Hpy%elem_of_list_singleton].
        + rewrite Es in E1. injection E1 as ->. done.
        + subst o. rewrite Es in E2. injection E2 as ->. done.
      - destruct Hpy as [->|Hpy%elem_of_nil]; [|done]. split; [done|]. pose proof (R1 y Hy Eo) as E. congruence. }
    destruct (L x Hx Hpx) as [Eo ->]. exists z. split; [done|]. split; [done|]. split; [intros y Hy Hpy; by apply L|].
    unfold sn_paths. rewrite Eo. unfold sn_paths in Hpx. rewrite Eo in Hpx. by apply elem_of_list_singleton in Hpx as ->.
  Qed.

  Lemma conflict_lost p a : conflicted i p -> (i p Stage1 = None <-> i p Stage3 = None) -> file_at st t p = Some a -> d' p = node_of a.
  Proof using TK RS.
    intros Hc Hs Ha. destruct disk_run as (U & d1 & HR & HC & HU1 & HU2). destruct (conflict_entry p Hc) as (x & Hx & Es & Hu & Hpx).
    eapply checked_file; [exact HC|]. rewrite HU2; [done|]. intros y Hy Hcy Hpy. rewrite (Hu y Hy Hpy) in Hcy.
    unfold status_at in Es. rewrite decide_True in Es by done. injection Es as <-. revert Hcy. unfold counted. cbn [sn_wc sn_index].
    unfold conflicted in Hc. repeat case_bool_decide; cbn; try done; exfalso; naive_solver.
  Qed.
  Lemma conflict_kept p : conflicted i p -> ~ (i p Stage1 = None <-> i p Stage3 = None) -> plain_node (d p) ->
    (d p = WNothing -> still_missing st2 t0 i0 d0 p) -> d' p = d p.
  Proof using TK RS.
    intros Hc Hs Hw Hm. destruct disk_run as (U & d1 & HR & HC & HU1 & HU2). destruct (conflict_entry p Hc) as (x & Hx & Es & Hu & Hpx).
    unfold status_at in Es. rewrite decide_True in Es by done. injection Es as <-.
    eapply plain_saved; [exact HR|exact HC|done|reflexivity| |done|done].
    apply (HU1 _ p Hx); [|by left]. unfold counted. cbn [sn_wc sn_index].
    destruct (i p Stage1), (i p Stage2), (i p Stage3); repeat case_bool_decide; cbn; try done; exfalso; naive_solver.
  Qed.

  (** A file no longer in the index. *)
  Lemma removed_lost p : file_at st t p <> None -> (forall s, i p s = None) -> ~ renamed_from l p -> file_at st2 t0 p <> None -> d' p = WNothing.
  Proof using TK RS.
    intros Hf Hi NR Ht0. pose proof TK as (_ & GH & GI & R & NC). pose proof R as (Hnd & R1 & R2 & R3).
    destruct disk_run as (U & d1 & HR & HC & HU1 & HU2).
    assert (Hc : ~ conflicted i p) by (unfold conflicted; rewrite !Hi; naive_solver).
    assert (Ei : indexed i p = None) by (unfold indexed; by rewrite Hi).
    destruct (status_at (file_at st t p) i d p) as [z|] eqn:Es; [|apply status_none in Es as (_ & E & _); congruence].
    pose proof (status_some _ _ _ _ _ Es Hc) as [-> _]. rewrite Ei in Es. destruct (R3 p _ Es) as (x & Hx & Hpx).
    destruct (file_at st t p) as [a|] eqn:Ea; [|done]. cbn in Es.
    assert (Ep : sn_path x = p /\ sn_orig x = None).
    { unfold sn_paths in Hpx. rewrite elem_of_cons in Hpx. destruct (sn_orig x) as [o|] eqn:Eo.
      - exfalso. destruct Hpx as [->|Hpx%elem_of_list_singleton]; [|apply NR; exists x; by rewrite Eo, Hpx].
        destruct (R2 x o Hx Eo) as (u & a' & b & E1 & _). rewrite Ea, Es in E1. done.
      - by destruct Hpx as [->|Hpx%elem_of_nil]. }
    destruct Ep as [Ep Eo]. pose proof (R1 x Hx Eo) as E. rewrite Ep, Ea, Es in E. injection E as <-. cbn in Hx.
    destruct (HU1 _ p Hx eq_refl Hpx) as (v & Ev & Ee). cbn in Ev. injection Ev as <-.
    eapply checked_missing; [exact HR|exact HC|exact Ee|by left].
  Qed.
End on_disk.

(** ** Kinds of changes *)

Lemma flat_trees st t u st' : flat_updates st t u -> trees_there st' u.
Proof. intros (_ & _ & Hm & _) q w m Hin Hx. exfalso. apply Hm in Hin. by destruct m. Qed.
Lemma create_grounded e st h t i d dd l sn st' :
  create_snapshot e st h i dd l = Some (sn, st') ->
  good_head e st h t -> good_index i -> reports st t i d l -> no_clash st t l -> grounded st'.
Proof.
  intros C GH GI R NC. pose proof GH as (Hs & Hg & _ & Hh & Ht). pose proof (good_closed _ _ _ _ GH) as Hc.
  pose proof (sound_closed e st Hs) as Hcs.
  assert (K : forall st0 u o st1, st ⊆ st0 -> sound e st0 -> grounded st0 -> flat_updates st t u -> hydrate_tree e st0 t u = Some (o, st1) ->
    st ⊆ st1 /\ sound e st1 /\ grounded st1).
  { intros st0 u o st1 Hsub Hs0 Hg0 Fu E. destruct (hydrate_step e st st0 t _ _ _ Hsub Hs Hs0 Hc Ht Fu E) as (S0 & _ & Hs1 & _).
    split; [done|]. split; [done|]. eapply hydrate_grounded; [exact E|done|by eapply closed_tree_mono| |by eapply flat_trees|done]. apply Fu. }
  unfold create_snapshot, commit_unstaged, commit_stage in C. rewrite Hh in C.
  destruct (unstaged_values dd (unstaged_paths l)) as [u|] eqn:Eu; [|done].
  destruct (hydrate_tree e st t (to_updates u)) as [[ou st0]|] eqn:E; [|done].
  pose proof (unstaged_flat st t i d l GI R NC dd u Eu) as Fu.
  destruct (K st _ _ _ (reflexivity st) Hs Hg Fu E) as (S0 & Hs0 & Hg0).
  pose proof (fun s => stage_flat st t i d l GI R NC s) as Fs. unfold stage_updates in Fs.
  destruct (hydrate_tree e st0 t _) as [[o0 st1]|] eqn:E0 in C; [|done].
  destruct (K st0 _ _ _ S0 Hs0 Hg0 (Fs Stage0) E0) as (S1 & Hs1 & Hg1).
  destruct (hydrate_tree e st1 t _) as [[o1 st2]|] eqn:E1 in C; [|done].
  destruct (K st1 _ _ _ S1 Hs1 Hg1 (Fs Stage1) E1) as (S2 & Hs2 & Hg2).
  destruct (hydrate_tree e st2 t _) as [[o2 st3]|] eqn:E2 in C; [|done].
  destruct (K st2 _ _ _ S2 Hs2 Hg2 (Fs Stage2) E2) as (S3 & Hs3 & Hg3).
  destruct (hydrate_tree e st3 t _) as [[o3 st4]|] eqn:E3 in C; [|done].
  destruct (K st3 _ _ _ S3 Hs3 Hg3 (Fs Stage3) E3) as (S4 & Hs4 & Hg4).
  injection C as <- <-. done.
Qed.

Section kinds.
  Context (e : tree_env) (tgt : oid -> path) (st : tree_store) (h : option oid) (t : tree) (i : full_index) (d : disk) (l : list sn_entry)
    (sn : snapshot) (st1 : tree_store).
  Context (TK : taken e tgt st h t i d l sn st1).

  Lemma kinds_run : exists u U (T : stage -> tree),
    unstaged_values (seen_disk tgt d) (unstaged_paths l) = Some u
    /\ overlaid st t (to_updates u) st1 U /\ (forall s, overlaid st t (stage_updates i l s) st1 (T s))
    /\ (base_tree e sn = sn_unstaged sn <-> forall p, file_at st1 U p = file_at st t p)
    /\ (forall s, base_tree e sn = sn_stage sn s <-> forall p, file_at st1 (T s) p = file_at st t p).
  Proof using TK.
    destruct TK as (C & GH & GI & R & NC). pose proof (create_grounded _ _ _ _ _ _ _ _ _ _ C GH GI R NC) as Hg.
    destruct (create_spec _ _ _ _ _ _ _ _ _ _ C GH GI R NC) as (Hh & S1 & Hs1 & CMf).
    destruct (CMf st1 (reflexivity _) Hs1) as [(u & U & Hu & HU & OU) HT].
    pose proof (good_closed _ _ _ _ GH) as Hct. pose proof GH as (Hs & _ & _ & Hht & Htidy).
    assert (HF : forall p, file_at st1 t p = file_at st t p).
    { intros p. eapply file_at_mono; [done|by eapply sound_closed|done]. }
    assert (HB : base_tree e sn = te_hash e t).
    { unfold base_tree. rewrite Hh. destruct h as [o|]; cbn in Hht; [|by injection Hht as <-]. destruct Hs as (_ & Hn & _). symmetry. by apply Hn. }
    assert (K : forall v o T, st1 !! o = Some T -> overlaid st t v st1 T -> (base_tree e sn = o <-> forall p, file_at st1 T p = file_at st t p)).
    { intros v o T Ho (Ht & _). rewrite HB. pose proof Hs1 as (Hinj & Hn & _). rewrite <- (Hn _ _ Ho). split.
      - intros E p. apply Hinj in E as ->. apply HF.
      - intros E. f_equal. symmetry. apply (same_files e st1 Hs1 Hg); [done| |intros p; by rewrite E, HF].
        eapply tidy_mono; [done|by eapply sound_closed|done|done]. }
    destruct (HT Stage0) as (T0 & A0 & B0). destruct (HT Stage1) as (T1 & A1 & B1).
    destruct (HT Stage2) as (T2 & A2 & B2). destruct (HT Stage3) as (T3 & A3 & B3).
    exists u, U, (fun s => match s with Stage0 => T0 | Stage1 => T1 | Stage2 => T2 | Stage3 => T3 end).
    split; [done|]. split; [done|]. split; [by intros []|]. split; [by eapply K|]. intros []; by eapply K.
  Qed.

  (** Some stage of a conflict is not as in HEAD. *)
  Definition real_conflict : Prop := exists p s, conflicted i p /\ s <> Stage0 /\ staged i s p <> file_at st t p.

  Lemma conflict_kind : get_working_copy_changes_type e sn = Conflicts <-> real_conflict.
  Proof using TK.
    destruct kinds_run as (u & U & T & Hu & OU & OT & KU & KT). unfold get_working_copy_changes_type.
    assert (D : (base_tree e sn <> sn_stage sn Stage1 \/ base_tree e sn <> sn_stage sn Stage2 \/ base_tree e sn <> sn_stage sn Stage3) <-> real_conflict).
    { assert (ST : forall s, s <> Stage0 -> base_tree e sn <> sn_stage sn s <-> exists p, conflicted i p /\ staged i s p <> file_at st t p).
      { intros s Hs0. rewrite KT. split.
        - intros Hne. destruct (decide (Exists (fun x => conflicted i (sn_path x) /\ staged i s (sn_path x) <> file_at st t (sn_path x)) l)) as [(x & _ & Hx)%Exists_exists|Hn];
            [by exists (sn_path x)|]. exfalso. apply Hne. intros p.
          destruct (decide (Exists (fun x => sn_path x = p) l)) as [(x & Hx & <-)%Exists_exists|Hno].
          + rewrite (stage_at e tgt st h t i d l sn st1 st1 TK s (T s) x (OT s) Hx).
            destruct (decide (conflicted i (sn_path x))) as [Hc|Hc].
            * assert (E : staged i s (sn_path x) = file_at st t (sn_path x)).
              { destruct (decide (staged i s (sn_path x) = file_at st t (sn_path x))); [done|]. exfalso. apply Hn, Exists_exists. by exists x. }
              rewrite <- E. destruct (staged i s (sn_path x)); [done|]. destruct s; [done|..]; by destruct (sn_index x).
            * assert (E : staged i s (sn_path x) = None) by (unfold staged; by rewrite not_conflicted_stage). rewrite E.
              assert (HU : sn_index x <> Unmerged).
              { pose proof TK as (_ & _ & GI & (_ & R1 & R2 & _) & _). destruct (sn_orig x) as [o|] eqn:Eo.
                - destruct (R2 x o Hx Eo) as (y & a & b & _ & _ & -> & _). done.
                - pose proof (R1 x Hx Eo) as Es. apply status_some in Es as [-> _]; [|done]. apply index_status_not_unmerged. }
              destruct s; [done|..]; by destruct (sn_index x).
          + apply (stage_else e tgt st h t i d l sn st1 st1 TK s (T s) p (OT s)). intros x Hx Ex. apply Hno, Exists_exists. by exists x.
        - intros (p & Hc & Hne) E. destruct (conflict_entry e tgt st h t i d l sn st1 TK p Hc) as (x & Hx & Es & _ & Hp).
          pose proof (status_conflict _ _ _ _ _ Es Hc) as Hm. apply Hne. rewrite <- (E p).
          assert (sn_path x = p) as <- by (unfold sn_paths in Hp; congruence).
          rewrite (stage_at e tgt st h t i d l sn st1 st1 TK s (T s) x (OT s) Hx), Hm.
          destruct (staged i s (sn_path x)); [done|]. by destruct s. }
      rewrite !ST by done. unfold real_conflict. split.
      - intros [(p & ? & ?)|[(p & ? & ?)|(p & ? & ?)]]; exists p; [exists Stage1|exists Stage2|exists Stage3]; done.
      - intros (p & [] & ? & ? & ?); [done|left|right; left|right; right]; by exists p. }
    destruct (decide _) as [Hd|Hd]; [tauto|]. split; [|tauto]. repeat destruct (decide _); done.
  Qed.

  (** Without conflicts. *)
  Lemma index_same : (forall p, ~ conflicted i p) -> base_tree e sn = sn_stage sn Stage0 <-> forall p, indexed i p = file_at st t p.
  Proof using TK.
    intros NCf. destruct kinds_run as (u & U & T & Hu & OU & OT & KU & KT). rewrite KT.
    pose proof TK as (_ & GH & GI & R & NC). pose proof R as (Hnd & R1 & R2 & R3).
    assert (A : forall x, x ∈ l -> file_at st1 (T Stage0) (sn_path x) = indexed i (sn_path x)).
    { intros x Hx. rewrite (stage_at e tgt st h t i d l sn st1 st1 TK Stage0 (T Stage0) x (OT Stage0) Hx). unfold staged, indexed.
      by destruct (i (sn_path x) Stage0) as [[[] ?]|]. }
    assert (B : forall x, x ∈ l -> status_at (file_at st t (sn_path x)) i d (sn_path x) <> None).
    { intros x Hx. destruct (reported_paths st t i d l R x (sn_path x) Hx) as [? ->]; [by left|done]. }
    split.
    - intros E p. destruct (status_at (file_at st t p) i d p) as [a|] eqn:Es.
      + destruct (R3 p a Es) as (x & Hx & Hp). unfold sn_paths in Hp. rewrite elem_of_cons in Hp. destruct Hp as [->|Hp]; [by rewrite <- A, E|].
        destruct (sn_orig x) as [o|] eqn:Eo; [|by apply elem_of_nil in Hp]. apply elem_of_list_singleton in Hp as ->.
        destruct (R2 x o Hx Eo) as (y & a' & b & E1 & _). exfalso. apply status_some in E1 as [E1 _]; [|done]. injection E1 as E1 _ _.
        rewrite <- A, E in E1 by done. unfold index_letter in E1. destruct (file_at st t (sn_path x)); [|done]. by destruct (decide _).
      + by apply status_none in Es as (_ & ? & _).
    - intros E p. destruct (decide (Exists (fun x => sn_path x = p) l)) as [(x & Hx & <-)%Exists_exists|Hno].
      + by rewrite A, E.
      + apply (stage_else e tgt st h t i d l sn st1 st1 TK Stage0 _ p (OT Stage0)). intros x Hx Ex. apply Hno, Exists_exists. by exists x.
  Qed.

  Lemma wc_same : (forall p, ~ conflicted i p) -> (forall p, indexed i p = file_at st t p) ->
    (forall p a, indexed i p = Some a -> status_at (file_at st t p) i d p <> None -> plain_file (Some a) /\ plain_node (d p)) ->
    base_tree e sn = sn_unstaged sn <-> forall p a, indexed i p = Some a -> d p = node_of a.
  Proof using TK.
    intros NCf HI HP. destruct kinds_run as (u & U & T & Hu & OU & OT & KU & KT). rewrite KU.
    pose proof TK as (_ & GH & GI & R & NC). pose proof R as (Hnd & R1 & R2 & R3).
    pose proof (unstaged_flat st t i d l GI R NC _ u Hu) as Fu.
    assert (NO : forall x, x ∈ l -> sn_orig x = None).
    { intros x Hx. destruct (sn_orig x) as [o|] eqn:Eo; [|done]. destruct (R2 x o Hx Eo) as (y & a' & b & E1 & _).
      apply status_some in E1 as [E1 _]; [|done]. injection E1 as E1 _ _. rewrite HI in E1. unfold index_letter in E1.
      destruct (file_at st t (sn_path x)); [|done]. by rewrite decide_True in E1. }
    split.
    - intros E p a Ea. destruct (status_at (file_at st t p) i d p) as [z|] eqn:Es.
      + destruct (R3 p z Es) as (x & Hx & Hp). pose proof (NO x Hx) as Eo. unfold sn_paths in Hp. rewrite Eo in Hp.
        apply elem_of_list_singleton in Hp as ->. pose proof (R1 x Hx Eo) as E1.
        destruct (HP (sn_path x) a Ea) as [P1 P2]; [congruence|].
        pose proof (status_some _ _ _ _ _ Es (NCf _)) as [Ez Hl]. rewrite Ea in Ez, Hl.
        assert (x = z) as <- by congruence. clear E1.
        assert (Hcx : counted x = true).
        { unfold counted. rewrite Ez. cbn [sn_wc sn_index]. apply plain_counted; [rewrite <- HI, Ea; done|done|done|done]. }
        assert (Hin : forall v, unstaged_value (seen_disk tgt d) (sn_path x) (sn_mode x) = Some v -> file_at st1 U (sn_path x) = stored v).
        { intros v Ev. eapply overlaid_file; [done|done|]. apply (elem_of_unstaged_updates st t i d l R _ _ _ _ Hu). exists x.
          split; [done|]. split; [done|]. split; [by left|done]. }
        assert (Em : sn_mode x = disk_mode (d (sn_path x))).
        { rewrite Ez at 1. cbn [sn_mode]. unfold wc_mode, disk_mode. by destruct (d (sn_path x)). }
        rewrite Em in Hin. specialize (E (sn_path x)). rewrite <- HI, Ea in E.
        unfold unstaged_value, create_blob, read_file, seen_disk in Hin. destruct (d (sn_path x)) as [|b y|k|]; cbn [plain_node] in P2; try done.
        * by rewrite (Hin None) in E.
        * destruct y; cbn [disk_mode] in Hin; rewrite (Hin _ eq_refl) in E; cbn in E; injection E as <-; done.
      + apply status_none in Es as (_ & _ & E2). rewrite Ea in E2. by apply clean_node.
    - intros E p. destruct OU as (_ & O2 & O3). apply O3. intros ([q v] & -> & Hin)%elem_of_list_fmap. cbn [fst] in *.
      apply (elem_of_unstaged_updates st t i d l R _ _ _ _ Hu) in Hin as (x & Hx & Hcx & Hp & _).
      pose proof (NO x Hx) as Eo. unfold sn_paths in Hp. rewrite Eo in Hp. apply elem_of_list_singleton in Hp as ->.
      pose proof (R1 x Hx Eo) as E1. apply status_some in E1 as [_ Hl]; [|apply NCf]. destruct Hl as [Hl|Hl].
      + apply Hl. rewrite HI. unfold index_letter. destruct (file_at st t (sn_path x)); [|done]. by rewrite decide_True.
      + apply Hl. destruct (indexed i (sn_path x)) as [a|] eqn:Ea; [|done]. rewrite (E _ a Ea). clear - HP Ea.
        unfold wc_letter. destruct (node_of a) as [|b y|k|] eqn:En.
        * exfalso. unfold node_of in En. by destruct (get_filemode (snd a)).
        * by rewrite decide_True.
        * by rewrite decide_True.
        * unfold node_of in En. rewrite decide_True; [done|]. unfold kind_of. by destruct (get_filemode (snd a)).
  Qed.
End kinds.

(** ** More about conflicts, links and directories *)

Section more.
  Context (e : tree_env) (tgt : oid -> path) (st : tree_store) (h : option oid) (t : tree) (i : full_index) (d : disk) (l : list sn_entry)
    (sn : snapshot) (st1 : tree_store) (t0 : tree) (i0 : full_index) (d0 : disk) (i' : full_index) (d' : disk) (st2 : tree_store).
  Context (TK : taken e tgt st h t i d l sn st1) (RS : restored e st1 sn t0 i0 d0 i' d' st2).

  Lemma conflict_stages p : conflicted i p -> h <> None ->
    (forall s, i' p s = i p s) <->
    (file_at st t p = None \/
     (forall s, s <> Stage0 -> staged i s p <> file_at st t p) /\ i p Stage3 <> None /\ (i p Stage2 = None -> i p Stage1 = None)).
  Proof using TK RS.
    intros Hc Hh. pose proof TK as (_ & GH & GI & R & NC).
    pose proof (conflict_run e tgt st h t i d l sn st1 t0 i0 d0 i' d' st2 TK RS p Hc Hh) as E.
    assert (E0 : i p Stage0 = None).
    { destruct (i p Stage0) eqn:E0; [|done]. destruct GI as (_ & _ & G). exfalso. apply (G p); [congruence|done]. }
    pose proof (staged_good i p Stage1 GI) as G1. pose proof (staged_good i p Stage2 GI) as G2. pose proof (staged_good i p Stage3 GI) as G3.
    assert (A : (forall s, i' p s = i p s) <-> (i' p Stage0 = i p Stage0 /\ i' p Stage1 = i p Stage1 /\ i' p Stage2 = i p Stage2 /\ i' p Stage3 = i p Stage3)).
    { split; [intros A; by rewrite !A|]. intros (A0 & A1 & A2 & A3) []; done. }
    assert (B : (forall s, s <> Stage0 -> staged i s p <> file_at st t p) <->
      (staged i Stage1 p <> file_at st t p /\ staged i Stage2 p <> file_at st t p /\ staged i Stage3 p <> file_at st t p)).
    { split; [intros B; repeat split; by apply B|]. intros (B1 & B2 & B3) [] Hs; done. }
    rewrite A, B, !E, E0. clear A B E. unfold conflicted in Hc. rewrite G1, G2, G3 in *. clear G1 G2 G3 E0.
    generalize dependent (staged i Stage1 p). generalize dependent (staged i Stage2 p). generalize dependent (staged i Stage3 p).
    intros e3 e2 e1 Hc. generalize (file_at st t p). intros x. unfold effect.
    destruct x as [[xo xm]|], e1 as [[o1 m1]|], e2 as [[o2 m2]|], e3 as [[o3 m3]|];
      repeat (destruct (decide _); simplify_eq/=); try done; naive_solver congruence.
  Qed.

  (** The second stage of an ordinary conflict. *)
  Lemma ours_lost p : conflicted i p -> h <> None -> staged i Stage2 p = file_at st t p -> i' p Stage2 = None.
  Proof using TK RS.
    intros Hc Hh H2. rewrite (conflict_run e tgt st h t i d l sn st1 t0 i0 d0 i' d' st2 TK RS p Hc Hh), H2, effect_same.
    unfold effect. destruct (decide (file_at st t p = staged i Stage3 p)), (decide (file_at st t p = staged i Stage1 p)); try done;
      destruct (staged i Stage1 p) as [[]|]; try done; destruct (staged i Stage3 p) as [[]|]; done.
  Qed.
  (** All stages of a file removed by the other side. *)
  Lemma theirs_removed p : conflicted i p -> h <> None -> i p Stage3 = None -> file_at st t p <> None -> forall s, i' p s = None.
  Proof using TK RS.
    intros Hc Hh H3 Hf s. rewrite (conflict_run e tgt st h t i d l sn st1 t0 i0 d0 i' d' st2 TK RS p Hc Hh).
    assert (staged i Stage3 p = None) as -> by (unfold staged; by rewrite H3). unfold effect at 1. by rewrite decide_False.
  Qed.

  (** The entry for a file of the index. *)
  Lemma indexed_entry p a : indexed i p = Some a -> status_at (file_at st t p) i d p <> None ->
    exists x, x ∈ l /\ p ∈ sn_paths x /\ sn_mode x = wc_mode (Some a) (d p)
      /\ sn_wc x = status_of (wc_letter (Some a) (d p))
      /\ (forall y, y ∈ l -> p ∈ sn_paths y -> y = x)
      /\ (sn_index x = status_of (index_letter (file_at st t p) (Some a)) \/ sn_index x = Renamed /\ file_at st t p = None).
  Proof using TK.
    intros Ea Hs. pose proof TK as (_ & GH & GI & R & NC). pose proof GI as (_ & _ & G3).
    assert (Hc : ~ conflicted i p). { apply G3. rewrite (indexed_good i p GI), Ea. by destruct a. }
    pose proof R as (Hnd & R1 & R2 & R3). destruct (status_at (file_at st t p) i d p) as [z|] eqn:Es; [|done].
    pose proof (status_some _ _ _ _ _ Es Hc) as [Ez _]. rewrite Ea in Ez. destruct (R3 p z Es) as (x & Hx & Hp).
    assert (L : forall y, y ∈ l -> p ∈ sn_paths y -> y = x).
    { intros y Hy Hpy. clear - Hnd Hx Hy Hp Hpy. induction l as [|w l' IH]; [by apply elem_of_nil in Hx|]. cbn [map List.concat] in Hnd.
      apply NoDup_app in Hnd as (N1 & N2 & N3).
      assert (J : forall v, v ∈ l' -> p ∈ sn_paths v -> p ∈ List.concat (map sn_paths l')).
      { intros v Hv Hpv. apply elem_of_concat. exists (sn_paths v). split; [done|]. apply elem_of_list_fmap. by exists v. }
      rewrite elem_of_cons in Hx. rewrite elem_of_cons in Hy. destruct Hx as [->|Hx], Hy as [->|Hy]; [done| | |by apply IH].
      - exfalso. by apply (N2 p Hp), (J y).
      - exfalso. by apply (N2 p Hpy), (J x). }
    exists x. split; [done|]. split; [done|]. unfold sn_paths in Hp. rewrite elem_of_cons in Hp. destruct (sn_orig x) as [o|] eqn:Eo.
    - destruct (R2 x o Hx Eo) as (y & a' & b & E1 & E2 & E3 & E4). destruct Hp as [->|Hp%elem_of_list_singleton].
      + rewrite Es, Ez in E1. injection E1 as E1 E5 E6. split; [by rewrite <- E6|]. split; [by rewrite E4, <- E5|]. split; [done|]. right. split; [done|].
        unfold index_letter in E1. destruct (file_at st t (sn_path x)); [|done]. destruct (decide _); [done|]. by destruct (decide _).
      + subst o. rewrite Es, Ez in E2. injection E2 as E2 _ _. unfold index_letter in E2. destruct (file_at st t p); [|done].
        destruct (decide _); [done|]. by destruct (decide _).
    - destruct Hp as [->|Hp%elem_of_nil]; [|done]. pose proof (R1 x Hx Eo) as E. rewrite Es in E. injection E as <-.
      split; [exact (f_equal sn_mode Ez)|]. split; [exact (f_equal sn_wc Ez)|]. split; [done|]. left. exact (f_equal sn_index Ez).
  Qed.

  (** Links are replaced by others, whose text is what the first pointed at. *)
  Lemma link_followed p a k b x : indexed i p = Some a -> kind_of (snd a) = KLink -> (forall c, file_at st t p = Some c -> kind_of (snd c) = KLink) ->
    status_at (file_at st t p) i d p <> None -> d p = WLink k -> d (tgt k) = WFile b x -> d' p = WLink b.
  Proof using TK RS.
    intros Ea Ka Kh Hs Hd Ht. destruct (indexed_entry p a Ea Hs) as (y & Hy & Hp & Hm & Hw & _ & Hi).
    destruct (disk_run e tgt st h t i d l sn st1 t0 i0 d0 i' d' st2 TK RS) as (U & d1 & HR & HC & HU1 & HU2).
    assert (Hcy : counted y = true).
    { unfold counted. rewrite Hw, Hd. destruct Hi as [->|[-> _]]; [|apply orb_true_r].
      pose proof TK as (_ & GH & GI & _). pose proof GI as (_ & _ & G3).
      assert (Hc : ~ conflicted i p). { apply G3. rewrite (indexed_good i p GI), Ea. by destruct a. }
      destruct (status_at (file_at st t p) i d p) as [z|] eqn:Es; [|done]. apply status_some in Es as [_ Hl]; [|done].
      rewrite Ea, Hd in Hl. unfold wc_letter, index_letter in *. rewrite Ka in *.
      destruct (file_at st t p) as [c|].
      - rewrite (Kh c eq_refl) in *. repeat (destruct (decide _); try done); by destruct Hl.
      - by rewrite orb_true_r. }
    destruct (HU1 y p Hy Hcy Hp) as (v & Ev & Ee). unfold unstaged_value in Ev. rewrite Hm, Hd in Ev. cbn [wc_mode] in Ev.
    assert (Eb : create_blob (seen_disk tgt d) p = Some (Some b)).
    { unfold create_blob. cbn [read_file]. unfold seen_disk at 1. rewrite Hd. unfold seen_disk at 1. by rewrite Ht. }
    rewrite Eb in Ev. cbn in Ev. injection Ev as <-. specialize (HC p). rewrite Ee in HC. exact HC.
  Qed.

  (** A file replaced by a link. *)
  Lemma type_change_lost p a : indexed i p = Some a -> file_at st t p = Some a -> wc_letter (Some a) (d p) = "T"%char -> d' p = node_of a.
  Proof using TK RS.
    intros Ea Eh HT. destruct (disk_run e tgt st h t i d l sn st1 t0 i0 d0 i' d' st2 TK RS) as (U & d1 & HR & HC & HU1 & HU2).
    eapply checked_file; [exact HC|]. rewrite HU2; [done|]. intros y Hy Hcy Hp.
    assert (Hs : status_at (file_at st t p) i d p <> None).
    { intros Es. apply status_none in Es as (_ & _ & E). rewrite Ea, HT in E. done. }
    destruct (indexed_entry p a Ea Hs) as (z & Hz & _ & _ & Hw & Hu & Hi). rewrite (Hu y Hy Hp) in Hcy. revert Hcy. unfold counted. rewrite Hw, HT.
    destruct Hi as [->|[_ Hn]]; [|congruence]. rewrite Eh. unfold index_letter. by rewrite decide_True.
  Qed.
End more.

(** A directory where a file is expected. *)
Lemma folder_fails e tgt st h i d l x p : x ∈ l -> (is_changed (sn_wc x) || is_changed (sn_index x))%bool = true -> p ∈ sn_paths x ->
  sn_mode x <> Unreadable -> d p = WFolder -> create_snapshot e st h i (seen_disk tgt d) l = None.
Proof.
  intros Hx Hc Hp Hm Hd. unfold create_snapshot. destruct (head_tree st h) as [t|]; [|done]. unfold commit_unstaged.
  assert (unstaged_values (seen_disk tgt d) (unstaged_paths l) = None) as ->; [|done].
  assert (Hin : (p, sn_mode x) ∈ unstaged_paths l) by (apply elem_of_unstaged_paths; by exists x).
  induction (unstaged_paths l) as [|[q m] r IH]; [by apply elem_of_nil in Hin|]. cbn. apply elem_of_cons in Hin as [[= <- <-]|Hin].
  - unfold unstaged_value. rewrite decide_False by done. unfold create_blob. cbn [read_file]. unfold seen_disk at 1. by rewrite Hd.
  - rewrite (IH Hin). by destruct (unstaged_value _ q m).
Qed.
