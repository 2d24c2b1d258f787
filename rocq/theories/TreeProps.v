(** Theorems about trees: C33, C34, C35, C36, C37, C38 and C62. *)
From Verif Require Import Base ModeModel TreeModel TreeSpec TreeProofs TreeDiffProofs TreeOpsProofs TreePickProofs TreeAmendProofs TreeWitness.
Local Open Scope N_scope.
Local Open Scope string_scope.
Local Open Scope list_scope.

(** ** C33: updating a tree *)

(** What is at every path of the new tree. *)
Theorem c33_exact : forall e st t u o st', hydrate_tree e st t u = Some (o, st') -> sound e st -> closed_tree st t ->
  NoDup (map fst u) -> trees_there st u ->
  st ⊆ st' /\ sound e st' /\ exists t', st' !! o = Some t' /\ updated st t u st' t'.
Proof. exact hydrate_tree_spec. Qed.

(** An updated path has its new entry.  Missing: paths below which there are
    updates too (false, see [c33_replaced_directory_refuted]). *)
Theorem c33_requested_partial : forall e st t u o st', hydrate_tree e st t u = Some (o, st') -> sound e st -> closed_tree st t ->
  NoDup (map fst u) -> trees_there st u ->
  exists t', st' !! o = Some t' /\
    forall p v, p <> [] -> (p, v) ∈ u -> ~ below u p -> entry_at st' t' p = stored v.
Proof.
  intros e st t u o st' H Hs Ht Hnd Hth. destruct (hydrate_tree_spec _ _ _ _ _ _ H Hs Ht Hnd Hth) as (_ & _ & t' & Ht' & Hup).
  exists t'. split; [exact Ht'|]. intros p v Hp Hin Hb. exact (updated_self _ _ _ _ _ _ _ Hup Hp Hin Hb).
Qed.

(** Paths not related to an update are as before. *)
Theorem c33_unrelated : forall e st t u o st', hydrate_tree e st t u = Some (o, st') -> sound e st -> closed_tree st t ->
  NoDup (map fst u) -> trees_there st u ->
  exists t', st' !! o = Some t' /\
    forall p, (forall q v, (q, v) ∈ u -> ~ q `prefix_of` p /\ ~ p `prefix_of` q) -> entry_at st' t' p = entry_at st t p.
Proof.
  intros e st t u o st' H Hs Ht Hnd Hth. destruct (hydrate_tree_spec _ _ _ _ _ _ H Hs Ht Hnd Hth) as (_ & _ & t' & Ht' & Hup).
  exists t'. split; [exact Ht'|]. intros p Hno. destruct p as [|n p]; [reflexivity|].
  apply (updated_other _ _ _ _ _ _ Hup); [discriminate| |].
  - intros (m & r & v & Hin). apply (proj2 (Hno _ _ Hin)). exists (m :: r). reflexivity.
  - intros (q & v & Hin & _ & Hpre). exact (proj1 (Hno _ _ Hin) Hpre).
Qed.

(** A directory in which something was updated is not empty, if it is there. *)
Theorem c33_empty_dirs : forall e st t u o st', hydrate_tree e st t u = Some (o, st') -> sound e st -> closed_tree st t ->
  NoDup (map fst u) -> trees_there st u ->
  exists t', st' !! o = Some t' /\
    forall p x, p <> [] -> below u p -> entry_at st' t' p = Some x ->
      is_tree x = true /\ exists n y, entry_at st' t' (p ++ [n]) = Some y.
Proof.
  intros e st t u o st' H Hs Ht Hnd Hth. destruct (hydrate_tree_spec _ _ _ _ _ _ H Hs Ht Hnd Hth) as (_ & _ & t' & Ht' & Hup).
  exists t'. split; [exact Ht'|]. intros p x Hp Hb Hx. destruct (proj2 (Hup p Hp) Hb) as [E|(w & t'' & E & Ht'' & Hne)]; [congruence|].
  assert (Hxx : x = (w, mode_number TreeMode)) by congruence. subst x. split; [reflexivity|].
  destruct (map_choose t'' Hne) as (n & y & Hn). exists n, y. rewrite entry_at_app by first [exact Hp|discriminate]. rewrite E. cbn.
  rewrite Ht''. exact Hn.
Qed.

(** It succeeds if the tree builder takes the entries. *)
Theorem c33_total : forall e st t u, accepted e u -> sound e st -> closed_tree st t ->
  NoDup (map fst u) -> trees_there st u -> is_Some (hydrate_tree e st t u).
Proof. exact hydrate_tree_total. Qed.

(** The contents of directory "a" (file "b") and of its replacement. *)
Definition just_b : tree := {["b" := file 7]}.
Definition dir_a : tree := {["a" := dir just_b]}.
Definition file_a : tree := {["a" := file 9]}.
Definition swap_store : tree_store := store_of [dir_a; file_a; just_b; ∅].
Lemma swap_sound : sound plain_env swap_store.
Proof. apply store_sound. vm_compute. reflexivity. Qed.
Lemma swap_grounded : grounded swap_store.
Proof. apply store_grounded. vm_compute. reflexivity. Qed.
Lemma swap_closed t : t ∈ [dir_a; file_a; just_b; ∅] -> closed_tree swap_store t.
Proof.
  intros H. apply store_closed. apply in_order_dirs; [vm_compute; reflexivity|exact H].
Qed.

(** When a directory is replaced by a file, the file is lost. *)
Theorem c33_replaced_directory_refuted : exists e st t u r o st' t' p v,
  hydrate_tree e st t u = Some (o, st') /\ sound e st /\ closed_tree st t /\ NoDup (map fst u) /\ trees_there st u
  /\ (forall q w, (q, w) ∈ u -> stored w = entry_at st r q)
  /\ st' !! o = Some t' /\ (p, Some v) ∈ u /\ entry_at st' t' p = None.
Proof.
  assert (H : after (hydrate_tree plain_env swap_store dir_a [(["a"], Some (9, Blob)); (["a"; "b"], None)])
                (fun _ => entries_are [(["a"], None)]) = true) by (vm_compute; reflexivity).
  apply after_spec in H as (o & st' & t' & Hr & Ht' & Hf). pose proof (entries_are_spec _ _ _ Hf) as He.
  exists plain_env, swap_store, dir_a, [(["a"], Some (9, Blob)); (["a"; "b"], None)], file_a, o, st', t', ["a"], (9, Blob).
  split; [exact Hr|]. split; [exact swap_sound|]. split; [apply swap_closed; member|].
  split; [apply (bool_decide_unpack _); vm_compute; exact I|]. split.
  { intros q w m Hin. apply elem_of_cons in Hin as [Heq|Hin]; [injection Heq as -> -> ->; intros H; discriminate H|].
    apply elem_of_list_singleton in Hin. discriminate Hin. }
  split.
  { intros q w Hin. apply elem_of_cons in Hin as [Heq|Hin]; [injection Heq as -> ->; reflexivity|].
    apply elem_of_list_singleton in Hin. injection Hin as -> ->. reflexivity. }
  split; [exact Ht'|]. split; [member|]. apply He. member.
Qed.

(** Removing a path below a file removes the file. *)
Theorem c33_below_file_refuted : exists e st t p n o st' t',
  hydrate_tree e st t [(p ++ [n], None)] = Some (o, st') /\ sound e st /\ closed_tree st t /\ st' !! o = Some t'
  /\ entry_at st t (p ++ [n]) = None /\ file_at st t p <> None /\ entry_at st' t' p = None.
Proof.
  assert (H : after (hydrate_tree plain_env swap_store file_a [(["a"] ++ ["b"], None)]) (fun _ => entries_are [(["a"], None)]) = true)
    by (vm_compute; reflexivity).
  apply after_spec in H as (o & st' & t' & Hr & Ht' & Hf). pose proof (entries_are_spec _ _ _ Hf) as He.
  exists plain_env, swap_store, file_a, ["a"], "b", o, st', t'. split; [exact Hr|]. split; [exact swap_sound|].
  split; [apply swap_closed; member|]. split; [exact Ht'|]. split; [reflexivity|]. split; [discriminate|]. apply He. member.
Qed.

(** A nested removal, a replacement and a new file in a new directory. *)
Definition deep : tree := {["x" := file 1; "y" := file 2]}.
Definition top : tree := {["d" := dir deep; "e" := dir just_b; "f" := file 3]}.
Definition top_store : tree_store := store_of [top; dir_a; deep; just_b; ∅].
Lemma top_sound : sound plain_env top_store.
Proof. apply store_sound. vm_compute. reflexivity. Qed.
Lemma top_grounded : grounded top_store.
Proof. apply store_grounded. vm_compute. reflexivity. Qed.
Lemma top_closed t : t ∈ [top; dir_a; deep; just_b; ∅] -> closed_tree top_store t.
Proof. intros H. apply store_closed. apply in_order_dirs; [vm_compute; reflexivity|exact H]. Qed.
Definition top_updates : updates :=
  [(["d"; "x"], Some (11, BlobExecutable)); (["e"; "b"], None); (["n"; "m"; "k"], Some (12, Blob))].
Example c33_example : accepted plain_env top_updates /\ NoDup (map fst top_updates) /\ trees_there top_store top_updates /\
  exists o st' t',
  hydrate_tree plain_env top_store top top_updates = Some (o, st') /\ st' !! o = Some t'
  /\ entry_at st' t' ["d"; "x"] = Some (11, mode_number BlobExecutable) /\ entry_at st' t' ["d"; "y"] = Some (file 2)
  /\ entry_at st' t' ["e"] = None /\ entry_at st' t' ["f"] = Some (file 3) /\ entry_at st' t' ["n"; "m"; "k"] = Some (file 12).
Proof.
  split; [split; reflexivity|]. split; [apply (bool_decide_unpack _); vm_compute; exact I|]. split.
  { intros q w m Hin. repeat (apply elem_of_cons in Hin as [Heq|Hin]; [try discriminate Heq; injection Heq as -> -> ->; discriminate|]).
    inversion Hin. }
  assert (H : after (hydrate_tree plain_env top_store top top_updates)
    (fun _ => entries_are [(["d"; "x"], Some (11, mode_number BlobExecutable)); (["d"; "y"], Some (file 2)); (["e"], None);
                           (["f"], Some (file 3)); (["n"; "m"; "k"], Some (file 12))]) = true) by (vm_compute; reflexivity).
  apply after_spec in H as (o & st' & t' & Hr & Ht' & Hf). pose proof (entries_are_spec _ _ _ Hf) as He.
  exists o, st', t'. split; [exact Hr|]. split; [exact Ht'|]. repeat split; apply He; member.
Qed.

(** ** C34: restricting a tree *)

(** The files of the reduced tree are those at or below chosen paths.  Missing:
    a chosen path below another (false, see [c34_refuted]). *)
Theorem c34_partial : forall e st t ps o st', dehydrate_tree e st t ps = Some (o, st') -> sound e st -> closed_tree st t ->
  NoDup ps -> (forall p, p ∈ ps -> p <> []) -> (forall p r, p ∈ ps -> p ++ r ∈ ps -> r = []) ->
  exists t', st' !! o = Some t' /\
    forall p, ((exists q, q ∈ ps /\ q `prefix_of` p) -> option_map seen (file_at st' t' p) = option_map seen (file_at st t p))
              /\ (~ (exists q, q ∈ ps /\ q `prefix_of` p) -> file_at st' t' p = None).
Proof.
  intros e st t ps o st' H Hs Ht Hnd Hne Hflat.
  destruct (dehydrate_spec _ _ _ _ _ _ H Hs Ht Hnd) as (_ & _ & t' & Ht' & H1 & H2 & H3 & _).
  exists t'. split; [exact Ht'|]. intros p. split.
  - intros (q & Hq & Hpre). assert (Hno : forall n r, p ++ n :: r ∉ ps).
    { intros n r Hin. destruct Hpre as [s ->]. rewrite <- app_assoc in Hin. specialize (Hflat _ _ Hq Hin). destruct s; discriminate Hflat. }
    specialize (H1 p q Hq (Hne _ Hq) Hpre Hno). unfold file_at.
    destruct (entry_at st' t' p) as [x|], (entry_at st t p) as [y|]; try discriminate H1; [|reflexivity].
    assert (E : seen x = seen y) by (cbn in H1; congruence). clear H1.
    assert (Et : is_tree x = is_tree y) by (rewrite <- (is_tree_seen x), <- (is_tree_seen y), E; reflexivity).
    rewrite Et. destruct (is_tree y); [reflexivity|]. cbn. rewrite E. reflexivity.
  - intros Hn. destruct (below_dec (map (fun p => (p, None)) ps) p) as [Hb|Hnb].
    + apply (below_map (v := fun _ => None)) in Hb as (n & r & Hin). exact (H3 p n r Hin).
    + unfold file_at. rewrite H2; [reflexivity| |].
      * intros q Hq _ Hpre. apply Hn. eauto.
      * intros n r Hin. apply Hnb, (below_map (v := fun _ => None)). eauto.
Qed.

(** Every chosen path has its entry, if none of the other paths is below it. *)
Theorem c34_chosen : forall e st t ps o st', dehydrate_tree e st t ps = Some (o, st') -> sound e st -> closed_tree st t -> NoDup ps ->
  exists t', st' !! o = Some t' /\
    forall p, p ∈ ps -> p <> [] -> (forall n r, p ++ n :: r ∉ ps) -> entry_at st' t' p = option_map seen (entry_at st t p).
Proof.
  intros e st t ps o st' H Hs Ht Hnd.
  destruct (dehydrate_spec _ _ _ _ _ _ H Hs Ht Hnd) as (_ & _ & t' & Ht' & _ & _ & _ & H4). eauto.
Qed.

(** A chosen file is lost if a path below it is chosen too, as it is when a commit
    replaces a directory by a file. *)
Theorem c34_refuted : exists e st t ps o st' t' p,
  dehydrate_tree e st t ps = Some (o, st') /\ sound e st /\ closed_tree st t /\ NoDup ps
  /\ changed_paths st dir_a t = Some ps /\ closed_tree st dir_a
  /\ st' !! o = Some t' /\ p ∈ ps /\ file_at st t p <> None /\ entry_at st' t' p = None.
Proof.
  assert (H : after (dehydrate_tree plain_env swap_store file_a [["a"; "b"]; ["a"]]) (fun _ => entries_are [(["a"], None)]) = true)
    by (vm_compute; reflexivity).
  apply after_spec in H as (o & st' & t' & Hr & Ht' & Hf). pose proof (entries_are_spec _ _ _ Hf) as He.
  exists plain_env, swap_store, file_a, [["a"; "b"]; ["a"]], o, st', t', ["a"]. split; [exact Hr|]. split; [exact swap_sound|].
  split; [apply swap_closed; member|]. split; [apply (bool_decide_unpack _); vm_compute; exact I|]. split; [vm_compute; reflexivity|].
  split; [apply swap_closed; member|]. split; [exact Ht'|]. split; [member|]. split; [discriminate|]. apply He. member.
Qed.

Example c34_example : (forall p r, p ∈ [["d"; "x"]; ["f"]; ["e"]] -> p ++ r ∈ [["d"; "x"]; ["f"]; ["e"]] -> r = []) /\
  exists o st' t', dehydrate_tree plain_env top_store top [["d"; "x"]; ["f"]; ["e"]] = Some (o, st') /\ st' !! o = Some t'
  /\ entry_at st' t' ["d"; "x"] = Some (file 1) /\ entry_at st' t' ["d"; "y"] = None /\ entry_at st' t' ["f"] = Some (file 3)
  /\ entry_at st' t' ["e"; "b"] = Some (file 7).
Proof.
  split.
  { intros p r Hp Hr. repeat (apply elem_of_cons in Hp as [->|Hp];
      [cbn in Hr; repeat (apply elem_of_cons in Hr as [Hr|Hr]; [first [discriminate Hr|injection Hr as Hr; first [exact Hr|destruct r; discriminate Hr]]|]); inversion Hr|]).
    inversion Hp. }
  assert (H : after (dehydrate_tree plain_env top_store top [["d"; "x"]; ["f"]; ["e"]])
    (fun _ => entries_are [(["d"; "x"], Some (file 1)); (["d"; "y"], None); (["f"], Some (file 3)); (["e"; "b"], Some (file 7))]) = true)
    by (vm_compute; reflexivity).
  apply after_spec in H as (o & st' & t' & Hr & Ht' & Hf). pose proof (entries_are_spec _ _ _ Hf) as He.
  exists o, st', t'. split; [exact Hr|]. split; [exact Ht'|]. repeat split; apply He; member.
Qed.

(** ** C35: changed paths *)

(** Exactly the paths at which files differ, besides directories with different modes. *)
Theorem c35_exact : forall st l r ps, changed_paths st l r = Some ps ->
  NoDup ps /\ forall p, p ∈ ps <-> p <> [] /\ differs st l r p.
Proof. exact changed_paths_spec. Qed.
(** Directories as Git makes them all have the same mode. *)
Theorem c35_files : forall st l r ps, changed_paths st l r = Some ps -> usual_dirs st l -> usual_dirs st r ->
  NoDup ps /\ forall p, p ∈ ps <-> file_at st l p <> file_at st r p.
Proof.
  intros st l r ps H Hl Hr. destruct (changed_paths_spec _ _ _ _ H) as [Hnd Hp]. split; [exact Hnd|]. intros p. rewrite Hp. split.
  - intros [_ [Hd|(a & b & Ha & Hb & Ta & Tb & Hd)]]; [exact Hd|]. rewrite (Hl _ _ Ha Ta), (Hr _ _ Hb Tb) in Hd. congruence.
  - intros Hd. split; [|left; exact Hd]. intros ->. apply Hd. reflexivity.
Qed.
Theorem c35_total : forall e st l r, sound e st -> grounded st -> closed_tree st l -> closed_tree st r -> is_Some (changed_paths st l r).
Proof. exact changed_paths_total. Qed.

Example c35_example : changed_paths swap_store dir_a file_a = Some [["a"; "b"]; ["a"]]
  /\ (exists ps, changed_paths top_store top dir_a = Some ps /\ ["a"; "b"] ∈ ps /\ ["d"; "x"] ∈ ps /\ ["d"] ∉ ps /\ length ps = 5%nat).
Proof.
  split; [vm_compute; reflexivity|]. eexists. split; [vm_compute; reflexivity|].
  split; [member|]. split; [member|]. split; [|reflexivity].
  intros H. repeat (apply elem_of_cons in H as [H|H]; [discriminate H|]). inversion H.
Qed.

(** ** C36: turning one tree into another *)

(** The changed paths with their entries in another tree turn a tree into that
    tree.  Missing: directories replaced by files (false, see [c36_refuted]). *)
Theorem c36_partial : forall e st l r ol or ps o st', sound e st -> grounded st -> usual_modes st ->
  st !! ol = Some l -> st !! or = Some r -> tidy_at st l -> tidy_at st r ->
  changed_paths st l r = Some ps ->
  hydrate_tree e st l (map (fun p => (p, read_entry st r p)) ps) = Some (o, st') ->
  (forall p q, file_at st r p <> None -> q <> [] -> file_at st l (p ++ q) = None) ->
  o = or.
Proof.
  intros e st l r ol or ps o st' Hs Hg Hu Hl Hr Hdl Hdr Hc H Hno. pose proof Hs as (_ & Hn & Hcl).
  destruct (changed_paths_spec _ _ _ _ Hc) as [Hnd Hp].
  rewrite <- (Hn _ _ Hr). apply (applied_tree e st l r _ o st' H Hs Hg (Hcl _ _ Hl) (Hcl _ _ Hr) Hdl Hdr).
  - rewrite map_fst_pair. exact Hnd.
  - intros p. rewrite map_fst_pair. apply Hp.
  - intros p v Hin. apply in_map_value in Hin as [_ ->]. left. rewrite stored_read.
    destruct (entry_at st r p) as [x|] eqn:E; [|reflexivity]. cbn. f_equal. unfold seen. rewrite usual_normal; [destruct x; reflexivity|].
    destruct (entry_stored _ _ _ _ (ex_intro _ _ Hr) E) as (o1 & t1 & n1 & H1 & H2). exact (Hu _ _ _ _ H1 H2).
  - exact Hno.
Qed.

(** Replacing a directory by a file yields the empty tree. *)
Theorem c36_refuted : exists e st l r ol or ps o st' t', sound e st /\ grounded st /\ usual_modes st
  /\ st !! ol = Some l /\ st !! or = Some r /\ tidy_at st l /\ tidy_at st r
  /\ changed_paths st l r = Some ps
  /\ hydrate_tree e st l (map (fun p => (p, read_entry st r p)) ps) = Some (o, st')
  /\ o <> or /\ st' !! o = Some t' /\ t' = ∅ /\ r <> ∅.
Proof.
  assert (H : after (hydrate_tree plain_env swap_store dir_a (map (fun p => (p, read_entry swap_store file_a p)) [["a"; "b"]; ["a"]]))
    (fun o _ t => negb (bool_decide (o = name_of file_a)) && bool_decide (t = ∅))%bool = true) by (vm_compute; reflexivity).
  apply after_spec in H as (o & st' & t' & Hr & Ht' & Hf). apply andb_true_iff in Hf as [Hf1 Hf2].
  apply negb_true_iff, bool_decide_eq_false in Hf1. apply bool_decide_eq_true in Hf2.
  assert (Hu : usual_modes swap_store) by (apply modes_usual; vm_compute; reflexivity).
  assert (Hd : no_empty_dirs swap_store) by (apply full_dirs_spec; vm_compute; reflexivity).
  exists plain_env, swap_store, dir_a, file_a, (name_of dir_a), (name_of file_a), [["a"; "b"]; ["a"]], o, st', t'.
  split; [exact swap_sound|]. split; [exact swap_grounded|]. split; [exact Hu|].
  split; [apply store_of_there; member|]. split; [apply store_of_there; member|].
  split; [apply (tidy_trees _ (name_of dir_a) _ _ swap_sound Hu Hd), store_of_there; member|].
  split; [apply (tidy_trees _ (name_of file_a) _ _ swap_sound Hu Hd), store_of_there; member|].
  split; [vm_compute; reflexivity|]. split; [exact Hr|]. split; [exact Hf1|]. split; [exact Ht'|]. split; [exact Hf2|].
  intros E. assert (Hx : file_a !! "a" = None) by (rewrite E; apply lookup_empty). discriminate Hx.
Qed.

(** The other way, a file replaced by a directory, it works. *)
Example c36_example : changed_paths swap_store file_a dir_a = Some [["a"; "b"]; ["a"]]
  /\ exists st', hydrate_tree plain_env swap_store file_a (map (fun p => (p, read_entry swap_store dir_a p)) [["a"; "b"]; ["a"]])
       = Some (name_of dir_a, st').
Proof.
  split; [vm_compute; reflexivity|].
  assert (H : after (hydrate_tree plain_env swap_store file_a (map (fun p => (p, read_entry swap_store dir_a p)) [["a"; "b"]; ["a"]]))
    (fun o _ _ => bool_decide (o = name_of dir_a)) = true) by (vm_compute; reflexivity).
  apply after_spec in H as (o & st' & t' & Hr & _ & Hf). apply bool_decide_eq_true in Hf. subst o. eauto.
Qed.

(** ** C37: folding a commit into another *)

(** A path changed by the folded commit has the entry it has after that commit is
    applied to the amended one, and the others are as they were.  Missing: paths not
    there after applying it (false, see [c37_refuted]) and paths below which there
    are other changed paths. *)
Theorem c37_partial : forall e mg a st parent c t o st',
  amend_fast e mg a st parent (FromCommit c) = Picked o st' -> sound e st -> makes_files mg -> st !! tc_tree parent = Some t ->
  exists t' sta stb o2 t2, st' !! o = Some t' /\ st ⊆ sta /\ stb ⊆ st' /\ sound e st'
    /\ cherry_pick_fast e mg sta false c (tc_tree parent) = Picked o2 stb /\ stb !! o2 = Some t2
    /\ forall p, p <> [] -> (forall q n r, touches st c q \/ touches st parent q -> q <> p ++ n :: r) ->
         (touches st c p -> entry_at stb t2 p <> None -> entry_at st' t' p = option_map seen (entry_at stb t2 p))
         /\ ((forall q, q `prefix_of` p -> touches st c q -> entry_at stb t2 q = None) ->
               option_map seen (entry_at st' t' p) = option_map seen (entry_at st t p)).
Proof. exact amend_commit. Qed.

(** Two files; the second commit changes the first and removes the second. *)
Definition both : tree := {["f" := file 1; "g" := file 2]}.
Definition only_f : tree := {["f" := file 3]}.
Definition none : tree := ∅.
Definition fold_trees : list tree := [both; only_f; none].
Definition fold_store : tree_store := store_of fold_trees.
Lemma fold_sound : sound plain_env fold_store.
Proof. apply store_sound. vm_compute. reflexivity. Qed.
Definition adds_both : tcommit := mk_tcommit [name_of none] (name_of both).
Definition drops_g : tcommit := mk_tcommit [name_of both] (name_of only_f).
Definition no_files : amend_env := mk_ae ∅ (fun _ => NoFile).

(** Removals by the folded commit are forgotten. *)
Theorem c37_refuted : exists e mg a st parent c t o st' t' o2 st2 t2 p, amend_fast e mg a st parent (FromCommit c) = Picked o st'
  /\ sound e st /\ makes_files mg /\ st !! tc_tree parent = Some t /\ tc_parents c = [tc_tree parent] /\ st' !! o = Some t'
  /\ cherry_pick_fast e mg st false c (tc_tree parent) = Picked o2 st2 /\ st2 !! o2 = Some t2
  /\ touches st c p /\ (forall n r, ~ touches st c (p ++ n :: r) /\ ~ touches st parent (p ++ n :: r))
  /\ entry_at st2 t2 p = None /\ entry_at st' t' p = Some (file 2).
Proof.
  assert (H : after_pick (amend_fast plain_env plain_merger no_files fold_store adds_both (FromCommit drops_g))
    (fun _ => entries_are [(["f"], Some (file 3)); (["g"], Some (file 2))]) = true) by (vm_compute; reflexivity).
  apply after_pick_spec in H as (o & st' & t' & Hr & Ht' & Hf). pose proof (entries_are_spec _ _ _ Hf) as He.
  assert (H : after_pick (cherry_pick_fast plain_env plain_merger fold_store false drops_g (tc_tree adds_both))
    (fun _ => entries_are [(["g"], None)]) = true) by (vm_compute; reflexivity).
  apply after_pick_spec in H as (o2 & st2 & t2 & Hr2 & Ht2 & Hf2). pose proof (entries_are_spec _ _ _ Hf2) as He2.
  assert (Hb : fold_store !! name_of both = Some both) by (apply store_of_there; member).
  assert (E1 : touched_paths fold_store drops_g = Some [["f"]; ["g"]]) by (vm_compute; reflexivity).
  assert (E2 : touched_paths fold_store adds_both = Some [["f"]; ["g"]]) by (vm_compute; reflexivity).
  destruct (touched_paths_spec _ _ _ E1) as (_ & Ht1 & _). destruct (touched_paths_spec _ _ _ E2) as (_ & Ht3 & _).
  assert (Hno : forall n r, ["g"] ++ n :: r ∉ [["f"]; ["g"]]).
  { intros n r Hin. apply elem_of_cons in Hin as [Hin|Hin]; [discriminate Hin|]. apply elem_of_list_singleton in Hin. discriminate Hin. }
  exists plain_env, plain_merger, no_files, fold_store, adds_both, drops_g, both, o, st', t', o2, st2, t2, ["g"].
  split; [exact Hr|]. split; [exact fold_sound|]. split; [exact plain_merger_makes|]. split; [exact Hb|]. split; [reflexivity|].
  split; [exact Ht'|]. split; [exact Hr2|]. split; [exact Ht2|]. split; [apply Ht1; member|].
  split; [intros n r; split; intros Hx; [apply Ht1 in Hx|apply Ht3 in Hx]; exact (Hno _ _ Hx)|].
  split; [apply He2; member|apply He; member].
Qed.

Example c37_example : exists o st' t', amend_fast plain_env plain_merger no_files fold_store adds_both (FromCommit drops_g) = Picked o st'
  /\ st' !! o = Some t' /\ entry_at st' t' ["f"] = Some (file 3).
Proof.
  assert (H : after_pick (amend_fast plain_env plain_merger no_files fold_store adds_both (FromCommit drops_g))
    (fun _ => entries_are [(["f"], Some (file 3))]) = true) by (vm_compute; reflexivity).
  apply after_pick_spec in H as (o & st' & t' & Hr & Ht' & Hf). pose proof (entries_are_spec _ _ _ Hf) as He.
  exists o, st', t'. split; [exact Hr|]. split; [exact Ht'|]. apply He. member.
Qed.

(** ** C38: amending from the index or the working copy *)

(** Listed paths have what the index has for them (nothing if it has nothing), and
    paths not below a listed one are as they were.  Missing: paths below which there
    are others that are listed or changed by the commit (false, see
    [c38_replaced_directory_refuted]), and index entries without object. *)
Theorem c38_index_partial : forall e mg a st parent l t o st',
  amend_fast e mg a st parent (FromIndex l) = Picked o st' -> sound e st -> makes_files mg ->
  only_files (ae_index a) -> st !! tc_tree parent = Some t ->
  exists t', st' !! o = Some t' /\ st ⊆ st' /\ sound e st'
    /\ forall p, p <> [] -> (forall q n r, q ∈ l \/ touches st parent q -> q <> p ++ n :: r) ->
         (p ∈ l -> (forall m, ae_index a !! p <> Some (Zero, m)) -> (forall b m, index_file (ae_index a) p = Some (b, m) -> usual_mode m) ->
            entry_at st' t' p = index_file (ae_index a) p)
         /\ ((forall q, q ∈ l -> ~ q `prefix_of` p) -> option_map seen (entry_at st' t' p) = option_map seen (entry_at st t p)).
Proof.
  intros e mg a st parent l t o st' H Hs Hmk Hi Ht. destruct (amend_index _ _ _ _ _ _ _ _ _ H Hs Hmk Hi Ht) as (t' & Ht' & Hsub & Hs' & Hp).
  exists t'. split; [exact Ht'|]. split; [exact Hsub|]. split; [exact Hs'|]. intros p Hne Hno. destruct (Hp p Hne Hno) as [H1 H2].
  split; [|exact H2]. intros Hin Hz Hu. rewrite (H1 Hin Hz). apply stored_index. exact Hu.
Qed.

(** Listed paths have what the working copy has, with the mode of the status entry.
    Missing: links (false, see [c38_link_refuted]), paths listed with different
    modes, and paths as above. *)
Theorem c38_working_copy_partial : forall e mg a st parent l t o st',
  amend_fast e mg a st parent (FromWorkingCopy l) = Picked o st' -> sound e st ->
  makes_files mg -> (forall x, x ∈ l -> we_mode x <> TreeMode) -> st !! tc_tree parent = Some t ->
  exists t', st' !! o = Some t' /\ st ⊆ st' /\ sound e st'
    /\ forall p, p <> [] -> (forall q n r, (exists y, y ∈ l /\ lists y q) \/ touches st parent q -> q <> p ++ n :: r) ->
         (forall x c, x ∈ l -> lists x p -> (forall y, y ∈ l -> lists y p -> we_mode y = we_mode x) ->
            plain_contents (ae_disk a) p c -> entry_at st' t' p = option_map (fun b => (b, mode_number (we_mode x))) c)
         /\ ((forall q y, y ∈ l -> lists y q -> ~ q `prefix_of` p) ->
               option_map seen (entry_at st' t' p) = option_map seen (entry_at st t p)).
Proof.
  intros e mg a st parent l t o st' H Hs Hmk Hl Ht.
  destruct (amend_working_copy _ _ _ _ _ _ _ _ _ H Hs Hmk Hl Ht) as (t' & Ht' & Hsub & Hs' & Hp).
  exists t'. split; [exact Ht'|]. split; [exact Hsub|]. split; [exact Hs'|]. intros p Hne Hno. destruct (Hp p Hne) as [H1 H2].
  { intros q n r [(y & Hy & Hq)|Hq]; [|apply Hno; right; exact Hq]. apply Hno. left. exists y. rewrite <- we_paths_lists. auto. }
  split.
  - intros x c Hx Hpx Hall Hc. apply (H1 x c Hx); [apply we_paths_lists; exact Hpx| |].
    + intros y Hy Hpy. apply Hall; [exact Hy|]. apply we_paths_lists. exact Hpy.
    + unfold create_blob. destruct c; cbn in Hc; cbn; rewrite Hc; reflexivity.
  - intros Hnl. apply H2. intros q y Hy Hq. apply (Hnl q y Hy). apply we_paths_lists. exact Hq.
Qed.

(** A commit replacing a directory by a file loses the file when anything is amended. *)
Definition swaps : tcommit := mk_tcommit [name_of dir_a] (name_of file_a).
Definition z_staged : amend_env := mk_ae {[["z"] := (NonZero 5, mode_number Blob)]} (fun _ => NoFile).
Theorem c38_replaced_directory_refuted : exists e mg a st parent l t o st' t' p,
  amend_fast e mg a st parent (FromIndex l) = Picked o st' /\ sound e st /\ makes_files mg
  /\ only_files (ae_index a) /\ st !! tc_tree parent = Some t /\ st' !! o = Some t'
  /\ (forall q, q ∈ l -> ~ q `prefix_of` p /\ ~ p `prefix_of` q)
  /\ file_at st t p = Some (file 9) /\ entry_at st' t' p = None.
Proof.
  assert (H : after_pick (amend_fast plain_env plain_merger z_staged swap_store swaps (FromIndex [["z"]]))
    (fun _ => entries_are [(["z"], Some (file 5)); (["a"], None)]) = true) by (vm_compute; reflexivity).
  apply after_pick_spec in H as (o & st' & t' & Hr & Ht' & Hf). pose proof (entries_are_spec _ _ _ Hf) as He.
  exists plain_env, plain_merger, z_staged, swap_store, swaps, [["z"]], file_a, o, st', t', ["a"].
  split; [exact Hr|]. split; [exact swap_sound|]. split; [exact plain_merger_makes|]. split.
  { intros p w m Hp v. cbn in Hp. apply lookup_singleton_Some in Hp as [_ Hp]. injection Hp as _ <-. reflexivity. }
  split; [apply store_of_there; member|]. split; [exact Ht'|]. split.
  { intros q Hq. apply elem_of_list_singleton in Hq as ->. split; intros [r Hx]; discriminate Hx. }
  split; [reflexivity|]. apply He. member.
Qed.

(** A link is amended with the contents of the file it leads to. *)
Definition link_on_disk : amend_env :=
  mk_ae ∅ (fun p => if decide (p = ["l"]) then SymLink 20 ["g"] else if decide (p = ["g"]) then Contents 2 else NoFile).
Theorem c38_link_refuted : exists e mg a st parent p m o st' t' text target,
  amend_fast e mg a st parent (FromWorkingCopy [mk_we p None m]) = Picked o st' /\ sound e st /\ makes_files mg /\ m = Link
  /\ is_Some (st !! tc_tree parent) /\ st' !! o = Some t'
  /\ ae_disk a p = SymLink text target /\ exists b, entry_at st' t' p = Some (b, mode_number Link) /\ b <> text.
Proof.
  assert (H : after_pick (amend_fast plain_env plain_merger link_on_disk fold_store adds_both (FromWorkingCopy [mk_we ["l"] None Link]))
    (fun _ => entries_are [(["l"], Some (2, mode_number Link))]) = true) by (vm_compute; reflexivity).
  apply after_pick_spec in H as (o & st' & t' & Hr & Ht' & Hf). pose proof (entries_are_spec _ _ _ Hf) as He.
  exists plain_env, plain_merger, link_on_disk, fold_store, adds_both, ["l"], Link, o, st', t', 20, ["g"].
  split; [exact Hr|]. split; [exact fold_sound|]. split; [exact plain_merger_makes|]. split; [reflexivity|].
  split; [exists both; apply store_of_there; member|]. split; [exact Ht'|]. split; [reflexivity|].
  exists 2. split; [apply He; member|discriminate].
Qed.

(** "f" is staged with new contents and "g" removed; on disk "g" is new. *)
Definition f_staged : amend_env :=
  mk_ae {[["f"] := (NonZero 5, mode_number BlobExecutable)]} (fun p => if decide (p = ["g"]) then Contents 6 else NoFile).
Example c38_example : only_files (ae_index f_staged)
  /\ (exists o st' t', amend_fast plain_env plain_merger f_staged fold_store adds_both (FromIndex [["f"]; ["g"]]) = Picked o st'
       /\ st' !! o = Some t' /\ entry_at st' t' ["f"] = Some (5, mode_number BlobExecutable) /\ entry_at st' t' ["g"] = None)
  /\ (exists o st' t', amend_fast plain_env plain_merger f_staged fold_store adds_both (FromWorkingCopy [mk_we ["g"] None Blob]) = Picked o st'
       /\ st' !! o = Some t' /\ entry_at st' t' ["f"] = Some (file 1) /\ entry_at st' t' ["g"] = Some (file 6)).
Proof.
  split.
  { intros p w m Hp v. cbn in Hp. apply lookup_singleton_Some in Hp as [_ Hp]. injection Hp as _ <-. reflexivity. }
  split.
  - assert (H : after_pick (amend_fast plain_env plain_merger f_staged fold_store adds_both (FromIndex [["f"]; ["g"]]))
      (fun _ => entries_are [(["f"], Some (5, mode_number BlobExecutable)); (["g"], None)]) = true) by (vm_compute; reflexivity).
    apply after_pick_spec in H as (o & st' & t' & Hr & Ht' & Hf). pose proof (entries_are_spec _ _ _ Hf) as He.
    exists o, st', t'. split; [exact Hr|]. split; [exact Ht'|]. split; apply He; member.
  - assert (H : after_pick (amend_fast plain_env plain_merger f_staged fold_store adds_both (FromWorkingCopy [mk_we ["g"] None Blob]))
      (fun _ => entries_are [(["f"], Some (file 1)); (["g"], Some (file 6))]) = true) by (vm_compute; reflexivity).
    apply after_pick_spec in H as (o & st' & t' & Hr & Ht' & Hf). pose proof (entries_are_spec _ _ _ Hf) as He.
    exists o, st', t'. split; [exact Hr|]. split; [exact Ht'|]. split; apply He; member.
Qed.

(** ** C62: cherry-picking in memory *)

(** Paths not related to what the commit changes are as in the target. *)
Theorem c62_unrelated : forall e mg st patch target o st' tt,
  cherry_pick_fast e mg st false patch target = Picked o st' -> sound e st -> makes_files mg -> st !! target = Some tt ->
  exists t', st' !! o = Some t' /\ st ⊆ st' /\ sound e st' /\
    forall p, (forall q, touches st patch q -> ~ q `prefix_of` p /\ ~ p `prefix_of` q) -> entry_at st' t' p = entry_at st tt p.
Proof. intros *. rewrite pick_fast_merged. exact (pick_unrelated e mg st patch target o st' tt). Qed.

(** Picking a commit onto a commit with the tree of its parent. *)
Theorem c62_reuse : forall e mg st patch target t, tc_parents patch = [target] -> st !! tc_tree patch = Some t ->
  cherry_pick_fast e mg st true patch target = Picked (tc_tree patch) st.
Proof. intros e mg st patch target t H Ht. unfold cherry_pick_fast, only_parent. rewrite H, bool_decide_true by reflexivity. cbn. rewrite Ht. reflexivity. Qed.

(** The tree is reused in no other case. *)
Theorem c62_reuse_only : forall e mg st reuse patch target, tc_parents patch <> [target] ->
  cherry_pick_fast e mg st reuse patch target = cherry_pick_fast e mg st false patch target.
Proof. intros e mg st reuse patch target H. unfold cherry_pick_fast. rewrite bool_decide_false; [destruct reuse; reflexivity|].
  unfold only_parent. destruct (tc_parents patch) as [|q [|]]; try discriminate. congruence. Qed.

(** The files are those got by merging all files of the whole trees, if merging goes
    file by file.  Missing: touched paths below each other, and target trees with a
    file instead of a directory or the other way round (false, see [c62_refuted]). *)
Theorem c62_full_partial : forall e mg f st patch target q o st' tt tp tq,
  cherry_pick_fast e mg st false patch target = Picked o st' -> sound e st ->
  makes_files mg -> merges_files mg f ->
  st !! target = Some tt -> st !! tc_tree patch = Some tp -> tc_parents patch = [q] -> st !! q = Some tq ->
  usual_files st tt -> usual_files st tp -> usual_files st tq ->
  (forall p r, touches st patch p -> touches st patch (p ++ r) -> r = []) ->
  (forall p r, touches st patch p -> r <> [] -> file_at st tt (p ++ r) = None) ->
  (forall p r, touches st patch (p ++ r) -> r <> [] -> file_at st tt p = None) ->
  exists t', st' !! o = Some t' /\
    forall p, file_at st' t' p = f (file_at st tq p) (file_at st tt p) (file_at st tp p).
Proof. intros *. rewrite pick_fast_merged. apply pick_full. Qed.

(** It fails only if merging does. *)
Theorem c62_total : forall e mg st reuse patch target, (forall n x, te_accepts e n x = true) -> sound e st -> grounded st -> makes_files mg ->
  (forall st b o t, mg st b o t <> MergeFailed) ->
  is_Some (st !! tc_tree patch) -> (forall o, o ∈ tc_parents patch -> is_Some (st !! o)) -> is_Some (st !! target) ->
  cherry_pick_fast e mg st reuse patch target <> PickFailed.
Proof. exact pick_total. Qed.

Definition steady_merger : merger := fun st b o t => match plain_merger st b o t with MergeFailed => Conflicting | r => r end.
Example c62_total_example : makes_files steady_merger /\ (forall st b o t, steady_merger st b o t <> MergeFailed)
  /\ cherry_pick_fast plain_env steady_merger fold_store false drops_g (name_of both) <> PickFailed.
Proof.
  assert (H1 : makes_files steady_merger).
  { intros st b o t i H. unfold steady_merger in H. destruct (plain_merger st b o t) eqn:E; try discriminate H. injection H as ->.
    exact (plain_merger_makes _ _ _ _ _ E). }
  assert (H2 : forall st b o t, steady_merger st b o t <> MergeFailed).
  { intros st b o t. unfold steady_merger. destruct (plain_merger st b o t); discriminate. }
  split; [exact H1|]. split; [exact H2|]. apply c62_total; [reflexivity|exact fold_sound| |exact H1|exact H2|..].
  - apply store_grounded. vm_compute. reflexivity.
  - exists only_f. apply store_of_there. member.
  - intros o Ho. apply elem_of_list_singleton in Ho as ->. exists both. apply store_of_there. member.
  - exists both. apply store_of_there. member.
Qed.

(** The commit removes file "q"; in the target "q" is a directory. *)
Definition file_q : tree := {["k" := file 1; "q" := file 2]}.
Definition without_q : tree := {["k" := file 1]}.
Definition dir_q : tree := {["k" := file 1; "q" := dir just_b]}.
Definition q_store : tree_store := store_of [dir_q; file_q; without_q; just_b].
Lemma q_sound : sound plain_env q_store.
Proof. apply store_sound. vm_compute. reflexivity. Qed.
Theorem c62_refuted : exists e mg f st patch target q o st' t' tt tp tq p,
  cherry_pick_fast e mg st false patch target = Picked o st' /\ sound e st
  /\ makes_files mg /\ merges_files mg f
  /\ st !! target = Some tt /\ st !! tc_tree patch = Some tp /\ tc_parents patch = [q] /\ st !! q = Some tq
  /\ usual_modes st /\ st' !! o = Some t'
  /\ file_at st tq p = None /\ file_at st tp p = None /\ file_at st tt p = Some (file 7)
  /\ f (file_at st tq p) (file_at st tt p) (file_at st tp p) = Some (file 7) /\ file_at st' t' p = None.
Proof.
  assert (H : after_pick (cherry_pick_fast plain_env plain_merger q_store false (mk_tcommit [name_of file_q] (name_of without_q)) (name_of dir_q))
    (fun _ => entries_are [(["q"; "b"], None)]) = true) by (vm_compute; reflexivity).
  apply after_pick_spec in H as (o & st' & t' & Hr & Ht' & Hf). pose proof (entries_are_spec _ _ _ Hf) as He.
  exists plain_env, plain_merger, three_way, q_store, (mk_tcommit [name_of file_q] (name_of without_q)), (name_of dir_q), (name_of file_q),
    o, st', t', dir_q, without_q, file_q, ["q"; "b"].
  split; [exact Hr|]. split; [exact q_sound|]. split; [exact plain_merger_makes|]. split; [exact plain_merger_files|].
  split; [apply store_of_there; member|]. split; [apply store_of_there; member|]. split; [reflexivity|].
  split; [apply store_of_there; member|]. split; [apply modes_usual; vm_compute; reflexivity|]. split; [exact Ht'|].
  split; [vm_compute; reflexivity|]. split; [vm_compute; reflexivity|]. split; [vm_compute; reflexivity|]. split; [vm_compute; reflexivity|].
  unfold file_at. rewrite (He ["q"; "b"] None) by member. reflexivity.
Qed.

(** Picking the commit that changes "f" and removes "g" onto one that has more files. *)
Definition more : tree := {["d" := dir just_b; "f" := file 1; "g" := file 2]}.
Definition more_store : tree_store := store_of [more; both; only_f; just_b; none].
Lemma more_sound : sound plain_env more_store.
Proof. apply store_sound. vm_compute. reflexivity. Qed.
Example c62_example :
  touched_paths more_store drops_g = Some [["f"]; ["g"]] /\
  exists o st' t', cherry_pick_fast plain_env plain_merger more_store false drops_g (name_of more) = Picked o st' /\ st' !! o = Some t'
  /\ entry_at st' t' ["f"] = Some (file 3) /\ entry_at st' t' ["g"] = None /\ entry_at st' t' ["d"; "b"] = Some (file 7).
Proof.
  split; [vm_compute; reflexivity|].
  assert (H : after_pick (cherry_pick_fast plain_env plain_merger more_store false drops_g (name_of more))
    (fun _ => entries_are [(["f"], Some (file 3)); (["g"], None); (["d"; "b"], Some (file 7))]) = true) by (vm_compute; reflexivity).
  apply after_pick_spec in H as (o & st' & t' & Hr & Ht' & Hf). pose proof (entries_are_spec _ _ _ Hf) as He.
  exists o, st', t'. split; [exact Hr|]. split; [exact Ht'|]. repeat split; apply He; member.
Qed.
(** Such a commit and target meet the conditions of [c62_full_partial]. *)
Example c62_example_conditions :
  (forall p r, touches more_store drops_g p -> touches more_store drops_g (p ++ r) -> r = [])
  /\ (forall p r, touches more_store drops_g p -> r <> [] -> file_at more_store more (p ++ r) = None)
  /\ (forall p r, touches more_store drops_g (p ++ r) -> r <> [] -> file_at more_store more p = None)
  /\ usual_files more_store more.
Proof.
  assert (E : touched_paths more_store drops_g = Some [["f"]; ["g"]]) by (vm_compute; reflexivity).
  destruct (touched_paths_spec _ _ _ E) as (_ & Ht & _). split; [|split; [|split]].
  - intros p r Hp Hr. apply Ht in Hp, Hr. apply elem_of_cons in Hp as [->|Hp]; [|apply elem_of_list_singleton in Hp as ->];
      (apply elem_of_cons in Hr as [Hr|Hr]; [|apply elem_of_list_singleton in Hr]); first [discriminate Hr|injection Hr as Hr; exact Hr].
  - intros p r Hp Hr. apply Ht in Hp. destruct r as [|n r]; [contradiction|].
    apply elem_of_cons in Hp as [->|Hp]; [|apply elem_of_list_singleton in Hp as ->]; vm_compute; reflexivity.
  - intros p r Hp Hr. apply Ht in Hp. destruct p as [|n p]; [reflexivity|]. destruct r as [|m r]; [contradiction|].
    apply elem_of_cons in Hp as [Hp|Hp]; [|apply elem_of_list_singleton in Hp]; destruct p; discriminate Hp.
  - apply (usual_modes_files _ (name_of more)); [apply modes_usual; vm_compute; reflexivity|apply store_of_there; member].
Qed.

Print Assumptions c33_exact.
Print Assumptions c33_requested_partial.
Print Assumptions c33_unrelated.
Print Assumptions c33_empty_dirs.
Print Assumptions c33_total.
Print Assumptions c33_replaced_directory_refuted.
Print Assumptions c33_below_file_refuted.
Print Assumptions c34_partial.
Print Assumptions c34_chosen.
Print Assumptions c34_refuted.
Print Assumptions c35_exact.
Print Assumptions c35_files.
Print Assumptions c35_total.
Print Assumptions c36_partial.
Print Assumptions c36_refuted.
Print Assumptions c37_partial.
Print Assumptions c37_refuted.
Print Assumptions c38_index_partial.
Print Assumptions c38_working_copy_partial.
Print Assumptions c38_replaced_directory_refuted.
Print Assumptions c38_link_refuted.
Print Assumptions c62_unrelated.
Print Assumptions c62_reuse.
Print Assumptions c62_reuse_only.
Print Assumptions c62_full_partial.
Print Assumptions c62_total.
Print Assumptions c62_refuted.
