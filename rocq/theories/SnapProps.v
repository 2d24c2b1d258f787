(** C40 and C64: snapshots of the working copy, which undo and the tests of commits
    take and restore.  [taken] says that a snapshot was made of a repository with
    HEAD's tree [t], index [i] and working copy [d]; [restored] that it was restored
    later, over any other state, giving the index [i'] and the working copy [d']. *)
From Verif Require Import Base ModeModel TreeModel TreeSpec TreeWitness SnapModel SnapSpec SnapProofs SnapWitness.
Local Open Scope N_scope.
Local Open Scope list_scope.
Local Open Scope string_scope.

(** ** Concrete states *)

Definition dir_d : tree := list_to_map [("x", file 3)].
Definition head : tree := list_to_map [("a", file 1); ("b", file 2); ("d", dir dir_d); ("e", file 4); ("u", file 7); ("v", file 9)].
Definition trees : list tree := [head; dir_d].
Definition exec (o : oid) : tentry := (o, mode_number BlobExecutable).
Definition s0 (n : list string) (x : tentry) : path * stage * tentry := (n, Stage0, x).
Definition on (n : string) (b : oid) : path * wnode := ([n], WFile b false).
Definition no_link (_ : oid) : path := [].

(** Staged and unstaged changes, also of the same file; files added and removed. *)
Definition mixed_index : list (path * stage * tentry) :=
  [s0 ["a"] (file 1); s0 ["b"] (file 12); s0 ["e"] (file 4); s0 ["n"] (exec 5); s0 ["u"] (file 7); s0 ["v"] (file 9)].
Definition mixed_disk : disk := disk_of [on "a" 11; (["b"], WFile 13 true); (["n"], WFile 5 true); on "u" 7; on "v" 9; on "other" 77].
Definition mixed : list sn_entry :=
  [SnEntry Unmodified Modified Blob ["a"] None; SnEntry Modified Modified BlobExecutable ["b"] None;
   SnEntry Deleted Unmodified Unreadable ["d"; "x"] None; SnEntry Unmodified Deleted Unreadable ["e"] None;
   SnEntry Added Unmodified BlobExecutable ["n"] None].
Lemma mixed_taken : exists sn st1, taken plain_env no_link (store_of trees) (Some (name_of head)) head (index_of mixed_index) mixed_disk mixed sn st1.
Proof. apply check_taken_spec. vm_compute. reflexivity. Qed.

(** Conflicts: [u] changed on both sides, [v] removed by the other side, [w] added
    by it. *)
Definition merging_index : list (path * stage * tentry) :=
  [s0 ["a"] (file 1); s0 ["b"] (file 2); s0 ["d"; "x"] (file 3); s0 ["e"] (file 4);
   (["u"], Stage1, file 6); (["u"], Stage2, file 7); (["u"], Stage3, file 8);
   (["v"], Stage1, file 10); (["v"], Stage2, file 9); (["w"], Stage3, file 14)].
Definition merging_disk : disk := disk_of [on "a" 1; on "b" 2; (["d"; "x"], WFile 3 false); on "e" 4; on "u" 99; on "v" 98; on "w" 14].
Definition merging : list sn_entry :=
  [SnEntry Unmerged Unmerged Blob ["u"] None; SnEntry Unmerged Deleted Blob ["v"] None; SnEntry Unmerged Added Blob ["w"] None].
Lemma merging_taken : exists sn st1,
  taken plain_env no_link (store_of trees) (Some (name_of head)) head (index_of merging_index) merging_disk merging sn st1.
Proof. apply check_taken_spec. vm_compute. reflexivity. Qed.

Definition rest_index : list (path * stage * tentry) :=
  [s0 ["b"] (file 2); s0 ["d"; "x"] (file 3); s0 ["e"] (file 4); s0 ["u"] (file 7); s0 ["v"] (file 9)].
Definition rest_disk : list (path * wnode) := [on "b" 2; (["d"; "x"], WFile 3 false); on "e" 4; on "u" 7; on "v" 9].

(** [git mv a r]; [git rm --cached a]; a new link [k] to [a]; [a] made a link; a new
    submodule. *)
Definition moved : list sn_entry := [SnEntry Renamed Unmodified Blob ["r"] (Some ["a"])].
Lemma moved_taken : exists sn st1, taken plain_env no_link (store_of trees) (Some (name_of head)) head
  (index_of (s0 ["r"] (file 1) :: rest_index)) (disk_of (on "r" 1 :: rest_disk)) moved sn st1.
Proof. apply check_taken_spec. vm_compute. reflexivity. Qed.
Definition forgotten : list sn_entry := [SnEntry Deleted Unmodified Unreadable ["a"] None].
Lemma forgotten_taken : exists sn st1, taken plain_env no_link (store_of trees) (Some (name_of head)) head
  (index_of rest_index) (disk_of (on "a" 1 :: rest_disk)) forgotten sn st1.
Proof. apply check_taken_spec. vm_compute. reflexivity. Qed.
Definition to_a (_ : oid) : path := ["a"].
Definition linked : list sn_entry := [SnEntry Added Unmodified Link ["k"] None].
Lemma linked_taken : exists sn st1, taken plain_env to_a (store_of trees) (Some (name_of head)) head
  (index_of (s0 ["k"] (20, mode_number Link) :: s0 ["a"] (file 1) :: rest_index)) (disk_of ((["k"], WLink 20) :: on "a" 1 :: rest_disk)) linked sn st1.
Proof. apply check_taken_spec. vm_compute. reflexivity. Qed.
Definition retyped : list sn_entry := [SnEntry Unmodified Untracked Link ["a"] None].
Lemma retyped_taken : exists sn st1, taken plain_env no_link (store_of trees) (Some (name_of head)) head
  (index_of (s0 ["a"] (file 1) :: rest_index)) (disk_of ((["a"], WLink 21) :: rest_disk)) retyped sn st1.
Proof. apply check_taken_spec. vm_compute. reflexivity. Qed.
Definition module_index : list (path * stage * tentry) := s0 ["m"] (30, mode_number CommitMode) :: s0 ["a"] (file 1) :: rest_index.
Definition module_disk : disk := disk_of ((["m"], WFolder) :: on "a" 1 :: rest_disk).
Definition module : list sn_entry := [SnEntry Added Unmodified CommitMode ["m"] None].
Definition clean_taken_index : list (path * stage * tentry) := s0 ["a"] (file 1) :: rest_index.
Lemma clean_taken : exists sn st1, taken plain_env no_link (store_of trees) (Some (name_of head)) head
  (index_of clean_taken_index) (disk_of (on "a" 1 :: rest_disk)) [] sn st1.
Proof. apply check_taken_spec. vm_compute. reflexivity. Qed.

(** ** C40: restoring *)

(** It can always be restored, over any state. *)
Theorem c40_restorable : forall e tgt st h t i d l sn st1, taken e tgt st h t i d l sn st1 ->
  forall t0 i0 d0, exists i' d', restored e st1 sn t0 i0 d0 i' d' st1.
Proof. exact restorable. Qed.

(** The index is restored at every path, in all stages, also in a repository
    without commits.  Missing: paths in conflict (see [c40_conflict]), former paths
    of renamed files (false, see [c40_renamed_refuted]), and reported paths above or
    below others ([no_clash]). *)
Theorem c40_index_partial : forall e tgt st h t i d l sn st1 t0 i0 d0 i' d' st2,
  taken e tgt st h t i d l sn st1 -> restored e st1 sn t0 i0 d0 i' d' st2 ->
  forall p, ~ conflicted i p -> ~ renamed_from l p -> forall s, i' p s = i p s.
Proof. intros e tgt st h t i d l sn st1 t0 i0 d0 i' d' st2 TK RS. exact (index_restored e tgt st h t i d l sn st1 t0 i0 d0 i' d' st2 TK RS). Qed.
Example c40_index_example : exists sn st1, taken plain_env no_link (store_of trees) (Some (name_of head)) head (index_of mixed_index) mixed_disk mixed sn st1 /\
  exists i' d', restored plain_env st1 sn head (index_of []) (disk_of [on "e" 55]) i' d' st1 /\
  i' ["b"] Stage0 = Some (NonZero 12, mode_number Blob) /\ i' ["d"; "x"] Stage0 = None /\ i' ["n"] Stage0 = Some (NonZero 5, mode_number BlobExecutable).
Proof.
  destruct mixed_taken as (sn & st1 & TK). exists sn, st1. split; [exact TK|].
  destruct (c40_restorable _ _ _ _ _ _ _ _ _ _ TK head (index_of []) (disk_of [on "e" 55])) as (i' & d' & RS).
  exists i', d'. split; [exact RS|].
  assert (K : forall p, ~ conflicted (index_of mixed_index) p -> forall s, i' p s = index_of mixed_index p s).
  { intros p Hc. apply (c40_index_partial _ _ _ _ _ _ _ _ _ _ _ _ _ _ _ _ TK RS p Hc). intros (x & Hx & Eo).
    repeat (apply elem_of_cons in Hx as [->|Hx]; [discriminate Eo|]). inversion Hx. }
  rewrite !K; [split; [|split]; reflexivity|..]; apply (bool_decide_unpack _); vm_compute; exact I.
Qed.

(** A conflict is restored exactly when HEAD has no such file, or when no stage is
    as in HEAD, the other side's stage is there, and ours if there is a base. *)
Theorem c40_conflict : forall e tgt st h t i d l sn st1 t0 i0 d0 i' d' st2,
  taken e tgt st h t i d l sn st1 -> restored e st1 sn t0 i0 d0 i' d' st2 ->
  forall p, conflicted i p -> h <> None ->
  (forall s, i' p s = i p s) <->
  (file_at st t p = None \/
   (forall s, s <> Stage0 -> staged i s p <> file_at st t p) /\ i p Stage3 <> None /\ (i p Stage2 = None -> i p Stage1 = None)).
Proof. intros e tgt st h t i d l sn st1 t0 i0 d0 i' d' st2 TK RS. exact (conflict_stages e tgt st h t i d l sn st1 t0 i0 d0 i' d' st2 TK RS). Qed.
(** Our side of a conflict is, during a merge, that of HEAD: its stage is lost. *)
Theorem c40_ours_lost : forall e tgt st h t i d l sn st1 t0 i0 d0 i' d' st2,
  taken e tgt st h t i d l sn st1 -> restored e st1 sn t0 i0 d0 i' d' st2 ->
  forall p, conflicted i p -> h <> None -> staged i Stage2 p = file_at st t p -> i' p Stage2 = None.
Proof. intros e tgt st h t i d l sn st1 t0 i0 d0 i' d' st2 TK RS. exact (ours_lost e tgt st h t i d l sn st1 t0 i0 d0 i' d' st2 TK RS). Qed.
(** If the other side removed the file, the path leaves the index. *)
Theorem c40_theirs_removed : forall e tgt st h t i d l sn st1 t0 i0 d0 i' d' st2,
  taken e tgt st h t i d l sn st1 -> restored e st1 sn t0 i0 d0 i' d' st2 ->
  forall p, conflicted i p -> h <> None -> i p Stage3 = None -> file_at st t p <> None -> forall s, i' p s = None.
Proof. intros e tgt st h t i d l sn st1 t0 i0 d0 i' d' st2 TK RS. exact (theirs_removed e tgt st h t i d l sn st1 t0 i0 d0 i' d' st2 TK RS). Qed.
(** Of the three conflicts, the first loses our stage, the second all stages, and
    the third is restored. *)
Theorem c40_conflict_refuted : exists e tgt st h t i d l sn st1 i' d',
  taken e tgt st h t i d l sn st1 /\ restored e st1 sn t i d i' d' st1 /\
  i ["u"] Stage2 <> None /\ i' ["u"] Stage2 = None /\ i ["v"] Stage1 <> None /\ i ["v"] Stage2 <> None /\ (forall s, i' ["v"] s = None)
  /\ i ["w"] Stage3 <> None /\ forall s, i' ["w"] s = i ["w"] s.
Proof.
  destruct merging_taken as (sn & st1 & TK).
  destruct (c40_restorable _ _ _ _ _ _ _ _ _ _ TK head (index_of merging_index) merging_disk) as (i' & d' & RS).
  exists plain_env, no_link, (store_of trees), (Some (name_of head)), head, (index_of merging_index), merging_disk, merging, sn, st1, i', d'.
  split; [exact TK|]. split; [exact RS|]. split; [discriminate|]. split.
  { apply (c40_ours_lost _ _ _ _ _ _ _ _ _ _ _ _ _ _ _ _ TK RS); [left; discriminate|discriminate|vm_compute; reflexivity]. }
  split; [discriminate|]. split; [discriminate|]. split.
  { apply (c40_theirs_removed _ _ _ _ _ _ _ _ _ _ _ _ _ _ _ _ TK RS); [left; discriminate|discriminate|reflexivity|].
    apply (bool_decide_unpack _). vm_compute. exact I. }
  split; [discriminate|].
  apply (c40_conflict _ _ _ _ _ _ _ _ _ _ _ _ _ _ _ _ TK RS); [right; right; discriminate|discriminate|left; vm_compute; reflexivity].
Qed.

(** The removal of a file's former name is never restored. *)
Theorem c40_renamed : forall e tgt st h t i d l sn st1 t0 i0 d0 i' d' st2,
  taken e tgt st h t i d l sn st1 -> restored e st1 sn t0 i0 d0 i' d' st2 ->
  forall p, renamed_from l p -> i p Stage0 = None /\ file_at st t p <> None /\
    i' p Stage0 = match file_at st t p with Some (o, m) => Some (NonZero o, m) | None => None end.
Proof. intros e tgt st h t i d l sn st1 t0 i0 d0 i' d' st2 TK RS. exact (index_renamed e tgt st h t i d l sn st1 t0 i0 d0 i' d' st2 TK RS). Qed.
Theorem c40_renamed_refuted : exists e tgt st h t i d l sn st1 i' d' p,
  taken e tgt st h t i d l sn st1 /\ restored e st1 sn t i d i' d' st1 /\ ~ conflicted i p /\ i p Stage0 = None /\ i' p Stage0 <> None.
Proof.
  destruct moved_taken as (sn & st1 & TK). destruct (c40_restorable _ _ _ _ _ _ _ _ _ _ TK head
    (index_of (s0 ["r"] (file 1) :: rest_index)) (disk_of (on "r" 1 :: rest_disk))) as (i' & d' & RS).
  exists plain_env, no_link, (store_of trees), (Some (name_of head)), head, (index_of (s0 ["r"] (file 1) :: rest_index)), (disk_of (on "r" 1 :: rest_disk)),
    moved, sn, st1, i', d', ["a"]. split; [exact TK|]. split; [exact RS|].
  destruct (c40_renamed _ _ _ _ _ _ _ _ _ _ _ _ _ _ _ _ TK RS ["a"]) as (H1 & H2 & H3).
  { exists (SnEntry Renamed Unmodified Blob ["r"] (Some ["a"])). split; [left|reflexivity]. }
  split; [apply (bool_decide_unpack _); vm_compute; exact I|]. split; [exact H1|]. rewrite H3. destruct (file_at _ _ _) as [[]|]; [discriminate|contradiction].
Qed.

(** Files of the index have again what was on disk, with the same mode; removed
    ones are removed again.  Missing: files in conflict (see [c40_conflict_files]),
    links, submodules and changes between kinds of files (false, see
    [c40_link_refuted], [c40_submodule_refuted] and [c40_type_change_refuted]), and
    files no longer in the index (false, see [c40_untracked_refuted]). *)
Theorem c40_files_partial : forall e tgt st h t i d l sn st1 t0 i0 d0 i' d' st2,
  taken e tgt st h t i d l sn st1 -> restored e st1 sn t0 i0 d0 i' d' st2 ->
  forall p, i p Stage0 <> None ->
  (status_at (file_at st t p) i d p <> None -> plain_file (file_at st t p) /\ plain_file (indexed i p) /\ plain_node (d p)) ->
  (d p = WNothing -> still_missing st2 t0 i0 d0 p) -> d' p = d p.
Proof. intros e tgt st h t i d l sn st1 t0 i0 d0 i' d' st2 TK RS. exact (disk_restored e tgt st h t i d l sn st1 t0 i0 d0 i' d' st2 TK RS). Qed.
Example c40_files_example : exists sn st1, taken plain_env no_link (store_of trees) (Some (name_of head)) head (index_of mixed_index) mixed_disk mixed sn st1 /\
  exists i' d', restored plain_env st1 sn ∅ (index_of []) (disk_of [on "b" 55]) i' d' st1 /\
  d' ["a"] = WFile 11 false /\ d' ["b"] = WFile 13 true /\ d' ["e"] = WNothing /\ d' ["n"] = WFile 5 true /\ d' ["u"] = WFile 7 false.
Proof.
  destruct mixed_taken as (sn & st1 & TK). exists sn, st1. split; [exact TK|].
  destruct (c40_restorable _ _ _ _ _ _ _ _ _ _ TK ∅ (index_of []) (disk_of [on "b" 55])) as (i' & d' & RS).
  exists i', d'. split; [exact RS|].
  assert (K : forall p, index_of mixed_index p Stage0 <> None -> plain_file (file_at (store_of trees) head p) -> plain_file (indexed (index_of mixed_index) p) ->
    plain_node (mixed_disk p) -> (mixed_disk p = WNothing -> disk_of [on "b" 55] p = WNothing /\ p = ["e"]) -> d' p = mixed_disk p).
  { intros p H1 H2 H3 H4 H5. apply (c40_files_partial _ _ _ _ _ _ _ _ _ _ _ _ _ _ _ _ TK RS p H1); [auto|].
    intros H6. destruct (H5 H6) as [H7 ->]. right. split; [reflexivity|]. split; [|exact H7]. intros [s Hs]. apply Hs. reflexivity. }
  rewrite !K; try discriminate; try (vm_compute; tauto).
Qed.

(** A file in conflict is restored if just one of the base and the other side's
    version is in the index. *)
Theorem c40_conflict_files : forall e tgt st h t i d l sn st1 t0 i0 d0 i' d' st2,
  taken e tgt st h t i d l sn st1 -> restored e st1 sn t0 i0 d0 i' d' st2 ->
  forall p, conflicted i p -> ~ (i p Stage1 = None <-> i p Stage3 = None) -> plain_node (d p) ->
  (d p = WNothing -> still_missing st2 t0 i0 d0 p) -> d' p = d p.
Proof. intros e tgt st h t i d l sn st1 t0 i0 d0 i' d' st2 TK RS. exact (conflict_kept e tgt st h t i d l sn st1 t0 i0 d0 i' d' st2 TK RS). Qed.
(** Otherwise it has what HEAD has, whatever was on disk. *)
Theorem c40_conflict_files_lost : forall e tgt st h t i d l sn st1 t0 i0 d0 i' d' st2,
  taken e tgt st h t i d l sn st1 -> restored e st1 sn t0 i0 d0 i' d' st2 ->
  forall p a, conflicted i p -> (i p Stage1 = None <-> i p Stage3 = None) -> file_at st t p = Some a -> d' p = node_of a.
Proof. intros e tgt st h t i d l sn st1 t0 i0 d0 i' d' st2 TK RS. exact (conflict_lost e tgt st h t i d l sn st1 t0 i0 d0 i' d' st2 TK RS). Qed.
Theorem c40_conflict_files_refuted : exists e tgt st h t i d l sn st1 i' d',
  taken e tgt st h t i d l sn st1 /\ restored e st1 sn t i d i' d' st1 /\
  d ["u"] = WFile 99 false /\ d' ["u"] = WFile 7 false /\ d' ["v"] = d ["v"] /\ d' ["w"] = d ["w"].
Proof.
  destruct merging_taken as (sn & st1 & TK).
  destruct (c40_restorable _ _ _ _ _ _ _ _ _ _ TK head (index_of merging_index) merging_disk) as (i' & d' & RS).
  exists plain_env, no_link, (store_of trees), (Some (name_of head)), head, (index_of merging_index), merging_disk, merging, sn, st1, i', d'.
  split; [exact TK|]. split; [exact RS|]. split; [vm_compute; reflexivity|]. split.
  { apply (c40_conflict_files_lost _ _ _ _ _ _ _ _ _ _ _ _ _ _ _ _ TK RS ["u"] (file 7)); [left; discriminate| |vm_compute; reflexivity].
    vm_compute. split; discriminate. }
  split; apply (c40_conflict_files _ _ _ _ _ _ _ _ _ _ _ _ _ _ _ _ TK RS); try (vm_compute; tauto); try (left; discriminate);
    try (right; right; discriminate); try (vm_compute; discriminate); intros [A B].
  - discriminate (B eq_refl).
  - discriminate (A eq_refl).
Qed.

(** A file taken out of the index but kept on disk is lost. *)
Theorem c40_untracked_lost : forall e tgt st h t i d l sn st1 t0 i0 d0 i' d' st2,
  taken e tgt st h t i d l sn st1 -> restored e st1 sn t0 i0 d0 i' d' st2 ->
  forall p, file_at st t p <> None -> (forall s, i p s = None) -> ~ renamed_from l p -> file_at st2 t0 p <> None -> d' p = WNothing.
Proof. intros e tgt st h t i d l sn st1 t0 i0 d0 i' d' st2 TK RS. exact (removed_lost e tgt st h t i d l sn st1 t0 i0 d0 i' d' st2 TK RS). Qed.
Theorem c40_untracked_refuted : exists e tgt st h t i d l sn st1 i' d' p b x,
  taken e tgt st h t i d l sn st1 /\ restored e st1 sn t i d i' d' st1 /\ d p = WFile b x /\ d' p = WNothing.
Proof.
  destruct forgotten_taken as (sn & st1 & TK).
  destruct (c40_restorable _ _ _ _ _ _ _ _ _ _ TK head (index_of rest_index) (disk_of (on "a" 1 :: rest_disk))) as (i' & d' & RS).
  exists plain_env, no_link, (store_of trees), (Some (name_of head)), head, (index_of rest_index), (disk_of (on "a" 1 :: rest_disk)), forgotten, sn, st1, i', d',
    ["a"], 1, false. split; [exact TK|]. split; [exact RS|]. split; [reflexivity|].
  apply (c40_untracked_lost _ _ _ _ _ _ _ _ _ _ _ _ _ _ _ _ TK RS).
  - apply (bool_decide_unpack _). vm_compute. exact I.
  - intros []; reflexivity.
  - intros (x & Hx & Eo). apply elem_of_list_singleton in Hx as ->. discriminate Eo.
  - assert (E : entry_at st1 head ["a"] = Some (file 1)) by (vm_compute; reflexivity). unfold file_at. rewrite E. discriminate.
Qed.

(** A changed or added link gets as its text the contents of the file it points at. *)
Theorem c40_link : forall e tgt st h t i d l sn st1 t0 i0 d0 i' d' st2,
  taken e tgt st h t i d l sn st1 -> restored e st1 sn t0 i0 d0 i' d' st2 ->
  forall p a k b x, indexed i p = Some a -> kind_of (snd a) = KLink -> (forall c, file_at st t p = Some c -> kind_of (snd c) = KLink) ->
  status_at (file_at st t p) i d p <> None -> d p = WLink k -> d (tgt k) = WFile b x -> d' p = WLink b.
Proof. intros e tgt st h t i d l sn st1 t0 i0 d0 i' d' st2 TK RS. exact (link_followed e tgt st h t i d l sn st1 t0 i0 d0 i' d' st2 TK RS). Qed.
Theorem c40_link_refuted : exists e tgt st h t i d l sn st1 i' d' p,
  taken e tgt st h t i d l sn st1 /\ restored e st1 sn t i d i' d' st1 /\ i p Stage0 <> None /\ d p = WLink 20 /\ d' p = WLink 1.
Proof.
  destruct linked_taken as (sn & st1 & TK). set (i := index_of _) in TK. set (d := disk_of _) in TK.
  destruct (c40_restorable _ _ _ _ _ _ _ _ _ _ TK head i d) as (i' & d' & RS).
  exists plain_env, to_a, (store_of trees), (Some (name_of head)), head, i, d, linked, sn, st1, i', d', ["k"].
  split; [exact TK|]. split; [exact RS|]. split; [discriminate|]. split; [reflexivity|].
  apply (c40_link _ _ _ _ _ _ _ _ _ _ _ _ _ _ _ _ TK RS ["k"] (20, mode_number Link) 20 1 false); try reflexivity.
  - intros c Hc. vm_compute in Hc. discriminate Hc.
  - apply (bool_decide_unpack _). vm_compute. exact I.
Qed.

(** A file replaced by a link (or the reverse) on disk is as in HEAD again. *)
Theorem c40_type_change : forall e tgt st h t i d l sn st1 t0 i0 d0 i' d' st2,
  taken e tgt st h t i d l sn st1 -> restored e st1 sn t0 i0 d0 i' d' st2 ->
  forall p a, indexed i p = Some a -> file_at st t p = Some a -> wc_letter (Some a) (d p) = "T"%char -> d' p = node_of a.
Proof. intros e tgt st h t i d l sn st1 t0 i0 d0 i' d' st2 TK RS. exact (type_change_lost e tgt st h t i d l sn st1 t0 i0 d0 i' d' st2 TK RS). Qed.
Theorem c40_type_change_refuted : exists e tgt st h t i d l sn st1 i' d' p,
  taken e tgt st h t i d l sn st1 /\ restored e st1 sn t i d i' d' st1 /\ i p Stage0 <> None /\ d p = WLink 21 /\ d' p = WFile 1 false.
Proof.
  destruct retyped_taken as (sn & st1 & TK). set (i := index_of _) in TK. set (d := disk_of _) in TK.
  destruct (c40_restorable _ _ _ _ _ _ _ _ _ _ TK head i d) as (i' & d' & RS).
  exists plain_env, no_link, (store_of trees), (Some (name_of head)), head, i, d, retyped, sn, st1, i', d', ["a"].
  split; [exact TK|]. split; [exact RS|]. split; [discriminate|]. split; [reflexivity|].
  apply (c40_type_change _ _ _ _ _ _ _ _ _ _ _ _ _ _ _ _ TK RS ["a"] (file 1)); [reflexivity|vm_compute; reflexivity|reflexivity].
Qed.

(** Where there is a directory instead of a changed file, no snapshot can be taken. *)
Theorem c40_directory : forall e tgt st h i d l x p, x ∈ l -> (is_changed (sn_wc x) || is_changed (sn_index x))%bool = true -> p ∈ sn_paths x ->
  sn_mode x <> Unreadable -> d p = WFolder -> create_snapshot e st h i (seen_disk tgt d) l = None.
Proof. exact folder_fails. Qed.
(** So it is with a new submodule. *)
Theorem c40_submodule_refuted : exists e tgt st h t i d l, good_head e st h t /\ good_index i /\ reports st t i d l /\ no_clash st t l /\
  create_snapshot e st h i (seen_disk tgt d) l = None.
Proof.
  exists plain_env, no_link, (store_of trees), (Some (name_of head)), head, (index_of module_index), module_disk, module.
  assert (H : check_status trees head module_index module_disk module = true) by (vm_compute; reflexivity).
  apply check_status_spec in H as (H1 & H2 & H3 & H4). split; [exact H1|]. split; [exact H2|]. split; [exact H3|]. split; [exact H4|].
  apply (c40_directory _ _ _ _ _ _ _ (SnEntry Added Unmodified CommitMode ["m"] None) ["m"]); [left|reflexivity|left|discriminate|reflexivity].
Qed.

(** ** C64: the kind of changes *)

(** There are conflicts exactly if a path in conflict has a stage that is not as in
    HEAD. *)
Theorem c64_conflicts : forall e tgt st h t i d l sn st1, taken e tgt st h t i d l sn st1 ->
  get_working_copy_changes_type e sn = Conflicts <-> exists p s, conflicted i p /\ s <> Stage0 /\ staged i s p <> file_at st t p.
Proof. exact conflict_kind. Qed.
(** Without conflicts, there are staged changes exactly if the index is not as
    HEAD. *)
Theorem c64_staged : forall e tgt st h t i d l sn st1, taken e tgt st h t i d l sn st1 -> (forall p, ~ conflicted i p) ->
  get_working_copy_changes_type e sn = Staged <-> ~ forall p, indexed i p = file_at st t p.
Proof.
  intros e tgt st h t i d l sn st1 TK NC. rewrite <- (index_same e tgt st h t i d l sn st1 TK NC).
  pose proof (conflict_kind e tgt st h t i d l sn st1 TK) as HC.
  assert (N : get_working_copy_changes_type e sn <> Conflicts) by (intros (p & s & Hp & _)%HC; exact (NC p Hp)).
  unfold get_working_copy_changes_type in *. destruct (decide _); [congruence|]. destruct (decide _) as [H|H]; [tauto|].
  destruct (decide _); split; intros H'; try discriminate H'; contradiction.
Qed.
(** Otherwise there are unstaged changes exactly if a file of the index is not so on
    disk.  Missing: links, submodules and changes between kinds of files (false, see
    [c64_type_change_refuted]). *)
Theorem c64_unstaged_partial : forall e tgt st h t i d l sn st1, taken e tgt st h t i d l sn st1 -> (forall p, ~ conflicted i p) ->
  (forall p, indexed i p = file_at st t p) ->
  (forall p a, indexed i p = Some a -> status_at (file_at st t p) i d p <> None -> plain_file (Some a) /\ plain_node (d p)) ->
  (get_working_copy_changes_type e sn = Unstaged <-> ~ forall p a, indexed i p = Some a -> d p = node_of a)
  /\ (get_working_copy_changes_type e sn = NoChanges <-> forall p a, indexed i p = Some a -> d p = node_of a).
Proof.
  intros e tgt st h t i d l sn st1 TK NC HI HP. rewrite <- (wc_same e tgt st h t i d l sn st1 TK NC HI HP).
  pose proof (conflict_kind e tgt st h t i d l sn st1 TK) as HC. pose proof (proj2 (index_same e tgt st h t i d l sn st1 TK NC) HI) as HS.
  assert (N : get_working_copy_changes_type e sn <> Conflicts) by (intros (p & s & Hp & _)%HC; exact (NC p Hp)).
  unfold get_working_copy_changes_type in *. destruct (decide _); [congruence|]. destruct (decide _) as [H|H]; [contradiction|].
  destruct (decide _) as [H'|H']; split; split; intros E; try discriminate E; try reflexivity; try assumption; try contradiction.
  destruct (decide (base_tree e sn = sn_unstaged sn)); [assumption|contradiction].
Qed.
Example c64_example :
  (exists sn st1, taken plain_env no_link (store_of trees) (Some (name_of head)) head (index_of merging_index) merging_disk merging sn st1
     /\ get_working_copy_changes_type plain_env sn = Conflicts)
  /\ (exists sn st1, taken plain_env no_link (store_of trees) (Some (name_of head)) head (index_of mixed_index) mixed_disk mixed sn st1
     /\ get_working_copy_changes_type plain_env sn = Staged)
  /\ (exists sn st1, taken plain_env no_link (store_of trees) (Some (name_of head)) head (index_of clean_taken_index) (disk_of (on "a" 1 :: rest_disk)) [] sn st1
     /\ get_working_copy_changes_type plain_env sn = NoChanges).
Proof.
  split; [|split].
  - destruct merging_taken as (sn & st1 & TK). exists sn, st1. split; [exact TK|]. apply (c64_conflicts _ _ _ _ _ _ _ _ _ _ TK).
    exists ["u"], Stage1. split; [left; discriminate|]. split; [discriminate|]. apply (bool_decide_unpack _). vm_compute. exact I.
  - destruct mixed_taken as (sn & st1 & TK). exists sn, st1. split; [exact TK|]. apply (c64_staged _ _ _ _ _ _ _ _ _ _ TK).
    + apply no_conflicts. reflexivity.
    + intros H. specialize (H ["b"]). vm_compute in H. discriminate H.
  - destruct clean_taken as (sn & st1 & TK). exists sn, st1. split; [exact TK|].
    assert (NC : forall p, ~ conflicted (index_of clean_taken_index) p).
    { apply no_conflicts. reflexivity. }
    assert (HN : forall p, status_at (file_at (store_of trees) head p) (index_of clean_taken_index) (disk_of (on "a" 1 :: rest_disk)) p = None).
    { intros p. destruct (status_at _ _ _ p) as [a|] eqn:E; [|reflexivity]. destruct TK as (_ & _ & _ & (_ & _ & _ & R3) & _).
      destruct (R3 _ _ E) as (x & Hx & _). inversion Hx. }
    apply (proj2 (c64_unstaged_partial _ _ _ _ _ _ _ _ _ _ TK NC
      (fun p => eq_sym (proj1 (proj2 (status_none _ _ _ _ (HN p))))) (fun p a _ H => False_ind _ (H (HN p))))).
    intros p a Ha. destruct (status_none _ _ _ _ (HN p)) as (_ & _ & H). rewrite Ha in H. exact (clean_node _ _ H).
Qed.
(** A file replaced by a link on disk counts as no change. *)
Theorem c64_type_change_refuted : exists e tgt st h t i d l sn st1 p a, taken e tgt st h t i d l sn st1 /\ (forall p, ~ conflicted i p) /\
  indexed i p = Some a /\ d p <> node_of a /\ get_working_copy_changes_type e sn = NoChanges.
Proof.
  destruct retyped_taken as (sn & st1 & TK). set (i := index_of _) in TK. set (d := disk_of _) in TK.
  exists plain_env, no_link, (store_of trees), (Some (name_of head)), head, i, d, retyped, sn, st1, ["a"], (file 1).
  split; [exact TK|]. split.
  { apply no_conflicts. reflexivity. }
  split; [reflexivity|]. split; [discriminate|]. destruct TK as (C & _).
  assert (E : match create_snapshot plain_env (store_of trees) (Some (name_of head)) i (seen_disk no_link d) retyped with
              | Some (x, _) => bool_decide (get_working_copy_changes_type plain_env x = NoChanges) | None => false end = true) by (vm_compute; reflexivity).
  rewrite C in E. apply bool_decide_eq_true in E. exact E.
Qed.

Print Assumptions c40_restorable.
Print Assumptions c40_index_partial.
Print Assumptions c40_conflict.
Print Assumptions c40_ours_lost.
Print Assumptions c40_theirs_removed.
Print Assumptions c40_conflict_refuted.
Print Assumptions c40_renamed.
Print Assumptions c40_renamed_refuted.
Print Assumptions c40_files_partial.
Print Assumptions c40_conflict_files.
Print Assumptions c40_conflict_files_lost.
Print Assumptions c40_conflict_files_refuted.
Print Assumptions c40_untracked_lost.
Print Assumptions c40_untracked_refuted.
Print Assumptions c40_link.
Print Assumptions c40_link_refuted.
Print Assumptions c40_type_change.
Print Assumptions c40_type_change_refuted.
Print Assumptions c40_directory.
Print Assumptions c40_submodule_refuted.
Print Assumptions c64_conflicts.
Print Assumptions c64_staged.
Print Assumptions c64_unstaged_partial.
Print Assumptions c64_type_change_refuted.
