(** Property C121: putting the working copy aside with [snapshot create] and taking it up
    again with [snapshot restore]. *)
From Verif Require Import Base ModeModel TreeModel TreeSpec TreeWitness SnapModel SnapSpec SnapProofs SnapWitness SnapProps SnapCmdModel SnapCmdSpec SnapCmdProofs.
Local Open Scope N_scope.
Local Open Scope list_scope.
Local Open Scope string_scope.

(** After [snapshot create] the index is that of HEAD, files of HEAD are as in HEAD,
    others that were in the index are gone, and files apart from both stay. *)
Theorem c121_clean : forall e tgt st h t i d l works sn st1 i0 d0,
  taken e tgt st h t i d l sn st1 -> snapshot_create e tgt st h t i d l works sn st1 i0 d0 true ->
  (forall p s, i0 p s = index_of_tree st t p s) /\
  (forall p x, entry_at st t p = Some x -> d0 p = node_of x) /\
  (forall p, entry_at st t p = None -> in_index i p -> d0 p = WNothing \/ d0 p = WFolder) /\
  (forall p, apart st t i p -> d p <> WFolder -> d0 p = d p).
Proof.
  intros e tgt st h t i d l works sn st1 i0 d0 TK (_ & Ok_ & D). rewrite <- Ok_ in D.
  pose proof TK as (C & GH & GI & R & NC). destruct (create_spec _ _ _ _ _ _ _ _ _ _ C GH GI R NC) as (_ & S1 & _ & _).
  pose proof (fun p => head_entry _ _ _ _ _ _ _ _ _ _ TK st1 p S1) as HE. destruct D as (D1 & D2 & D3). split_and!.
  - intros p s. rewrite D3. unfold index_of_tree. by rewrite HE.
  - intros p x Hx. specialize (D1 p). by rewrite HE, Hx in D1.
  - intros p Hx Hi. specialize (D1 p). rewrite HE, Hx in D1. by apply D1.
  - intros p A Hd. pose proof (apart_no_entry _ _ _ _ _ _ _ _ _ _ TK p A) as E. specialize (D1 p). rewrite HE, E in D1. destruct D1 as [_ D1].
    destruct (D1 (proj1 A) Hd) as [X|[X _]]; [exact X|]. destruct (below_apart_in _ _ _ _ _ _ _ _ _ _ TK st1 p S1 A X).
Qed.

(** [snapshot restore] then gives back the index, the files in it and untracked files.
    Missing, as in C40: paths in conflict and former paths of renamed files in the index;
    of the files, links, submodules and changes between kinds, and files taken out of the
    index (false, see [c121_forgotten_refuted]); reported paths above or below others. *)
Theorem c121_back_partial : forall e tgt st h t i d l works sn st1 i0 d0 i' d' st2,
  taken e tgt st h t i d l sn st1 -> snapshot_create e tgt st h t i d l works sn st1 i0 d0 true ->
  restored e st1 sn t i0 d0 i' d' st2 ->
  (forall p s, ~ conflicted i p -> ~ renamed_from l p -> i' p s = i p s) /\
  (forall p, i p Stage0 <> None ->
     (status_at (file_at st t p) i d p <> None -> plain_file (file_at st t p) /\ plain_file (indexed i p) /\ plain_node (d p)) -> d' p = d p) /\
  (forall p, conflicted i p -> ~ (i p Stage1 = None <-> i p Stage3 = None) -> plain_node (d p) -> d' p = d p) /\
  (forall p, apart st t i p -> d p <> WFolder -> d' p = d p).
Proof.
  intros e tgt st h t i d l works sn st1 i0 d0 i' d' st2 TK (_ & Ok_ & D) RS. rewrite <- Ok_ in D. split_and!.
  - intros p s Hc Hr. exact (c40_index_partial _ _ _ _ _ _ _ _ _ _ _ _ _ _ _ _ TK RS p Hc Hr s).
  - intros p Hp Hk. apply (c40_files_partial _ _ _ _ _ _ _ _ _ _ _ _ _ _ _ _ TK RS p Hp Hk). intros Hd.
    apply (gone_stays _ _ _ _ _ _ _ _ _ _ _ _ _ _ _ TK D RS); [|exact Hd]. by exists Stage0.
  - intros p Hc Hs Hk. apply (c40_conflict_files _ _ _ _ _ _ _ _ _ _ _ _ _ _ _ _ TK RS p Hc Hs Hk). intros Hd.
    apply (gone_stays _ _ _ _ _ _ _ _ _ _ _ _ _ _ _ TK D RS); [|exact Hd]. destruct Hc as [Hc|[Hc|Hc]]; eexists; exact Hc.
  - intros p A Hd. exact (proj2 (untracked_stays _ _ _ _ _ _ _ _ _ _ _ _ _ _ _ TK D RS p A Hd)).
Qed.

(** If Git cannot discard the changes, as when there is no commit yet, the command fails
    and they are still there. *)
Theorem c121_failed : forall e tgt st h t i d l works sn st1 i0 d0,
  snapshot_create e tgt st h t i d l works sn st1 i0 d0 false -> (forall p s, i0 p s = i p s) /\ forall p, d0 p = d p.
Proof. intros e tgt st h t i d l works sn st1 i0 d0 (_ & Ok_ & D). by rewrite <- Ok_ in D. Qed.
Theorem c121_unborn : forall e tgt st t i d l works sn st1 i0 d0 ok,
  snapshot_create e tgt st None t i d l works sn st1 i0 d0 ok -> ok = false.
Proof. by intros e tgt st t i d l works sn st1 i0 d0 ok (_ & -> & _). Qed.

(** If the changes cannot be discarded, that is what the command says, and nothing was
    changed. *)
Theorem c121_not_discarded : forall e tgt st h t i d l sn st1 i0 d0 ok,
  snapshot_create e tgt st h t i d l false sn st1 i0 d0 ok ->
  ok = false /\ (forall p s, i0 p s = i p s) /\ forall p, d0 p = d p.
Proof.
  intros e tgt st h t i d l sn st1 i0 d0 ok (_ & Ok_ & D). destruct h; cbn [reset_done] in Ok_, D; by split.
Qed.

(** ** Concrete cases *)

(** The changes can always be discarded. *)
Global Instance in_index_dec i p : Decision (in_index i p).
Proof.
  destruct (decide (i p Stage0 <> None \/ i p Stage1 <> None \/ i p Stage2 <> None \/ i p Stage3 <> None)) as [K|K].
  - left. destruct K as [K|[K|[K|K]]]; eexists; exact K.
  - right. intros [s Hs]. apply K. destruct s; tauto.
Defined.
Lemma discardable st t i d : exists i0 d0, discarded st t i d i0 d0.
Proof.
  exists (index_of_tree st t), (fun p => match entry_at st t p with Some x => node_of x | None => if decide (in_index i p) then WNothing else d p end).
  split; [|split; [|reflexivity]].
  - intros p. destruct (entry_at st t p); [reflexivity|]. destruct (decide (in_index i p)); split; try tauto; auto.
  - intros p Hp Hd. rewrite Hp. by destruct (decide _).
Qed.

(** Staged and unstaged changes are put aside and taken up again; [other] is not in the
    index. *)
Example c121_example : exists sn st1 i0 d0 i' d',
  taken plain_env no_link (store_of trees) (Some (name_of head)) head (index_of mixed_index) mixed_disk mixed sn st1 /\
  snapshot_create plain_env no_link (store_of trees) (Some (name_of head)) head (index_of mixed_index) mixed_disk mixed true sn st1 i0 d0 true /\
  restored plain_env st1 sn head i0 d0 i' d' st1 /\ apart (store_of trees) head (index_of mixed_index) ["other"] /\
  d0 ["a"] = WFile 1 false /\ d' ["a"] = WFile 11 false /\ d0 ["other"] = WFile 77 false /\ d' ["other"] = WFile 77 false /\
  d' ["e"] = WNothing /\ i' ["b"] Stage0 = Some (NonZero 12, mode_number Blob).
Proof.
  destruct mixed_taken as (sn & st1 & TK). destruct (discardable st1 head (index_of mixed_index) mixed_disk) as (i0 & d0 & D).
  destruct (c40_restorable _ _ _ _ _ _ _ _ _ _ TK head i0 d0) as (i' & d' & RS).
  assert (SC : snapshot_create plain_env no_link (store_of trees) (Some (name_of head)) head (index_of mixed_index) mixed_disk mixed true sn st1 i0 d0 true).
  { split; [exact (proj1 TK)|]. split; [reflexivity|exact D]. }
  assert (A : apart (store_of trees) head (index_of mixed_index) ["other"]).
  { split; [by intros [[] Hs]|]. split; [vm_compute; reflexivity|]. split; [discriminate|]. intros q Hq.
    destruct Hq as [Ne [[r ->]|[r E]]].
    - destruct r as [|n r]; [by destruct Ne|]. split; [|vm_compute; by destruct r]. intros [s Hs]. apply Hs. by destruct s.
    - destruct q as [|n q]; [split; [by intros [[] Hs]|reflexivity]|]. destruct q as [|m q]; [|discriminate E].
      injection E as <- _. by destruct Ne. }
  exists sn, st1, i0, d0, i', d'. split; [exact TK|]. split; [exact SC|]. split; [exact RS|]. split; [exact A|].
  destruct (c121_clean _ _ _ _ _ _ _ _ _ _ _ _ _ TK SC) as (_ & C2 & _ & C4).
  destruct (c121_back_partial _ _ _ _ _ _ _ _ _ _ _ _ _ _ _ _ TK SC RS) as (B1 & B2 & _ & B4).
  split_and!.
  - apply (C2 ["a"] (file 1)). vm_compute. reflexivity.
  - rewrite B2; [reflexivity|discriminate|]. intros _. vm_compute. tauto.
  - rewrite C4; [reflexivity|exact A|discriminate].
  - rewrite B4; [reflexivity|exact A|discriminate].
  - rewrite B2; [reflexivity|discriminate|]. intros _. vm_compute. tauto.
  - rewrite B1; [reflexivity|apply (bool_decide_unpack _); vm_compute; exact I|]. intros (x & Hx & Eo).
    repeat (apply elem_of_cons in Hx as [->|Hx]; [discriminate Eo|]). inversion Hx.
Qed.

(** After [git rm --cached a], with [a] edited, the file is overwritten by what HEAD has
    and then removed; its contents are lost. *)
Lemma edited_taken : exists sn st1, taken plain_env no_link (store_of trees) (Some (name_of head)) head
  (index_of rest_index) (disk_of (on "a" 99 :: rest_disk)) forgotten sn st1.
Proof. apply check_taken_spec. vm_compute. reflexivity. Qed.
Theorem c121_forgotten_refuted : exists e tgt st h t i d l sn st1 i0 d0 i' d' p b x,
  taken e tgt st h t i d l sn st1 /\ snapshot_create e tgt st h t i d l true sn st1 i0 d0 true /\ restored e st1 sn t i0 d0 i' d' st1 /\
  d p = WFile b x /\ d0 p <> d p /\ d' p = WNothing.
Proof.
  destruct edited_taken as (sn & st1 & TK). destruct (discardable st1 head (index_of rest_index) (disk_of (on "a" 99 :: rest_disk))) as (i0 & d0 & D).
  destruct (c40_restorable _ _ _ _ _ _ _ _ _ _ TK head i0 d0) as (i' & d' & RS).
  assert (SC : snapshot_create plain_env no_link (store_of trees) (Some (name_of head)) head (index_of rest_index) (disk_of (on "a" 99 :: rest_disk)) forgotten true sn st1 i0 d0 true).
  { split; [exact (proj1 TK)|]. split; [reflexivity|exact D]. }
  exists plain_env, no_link, (store_of trees), (Some (name_of head)), head, (index_of rest_index), (disk_of (on "a" 99 :: rest_disk)), forgotten,
    sn, st1, i0, d0, i', d', ["a"], 99, false. split; [exact TK|]. split; [exact SC|]. split; [exact RS|]. split; [reflexivity|].
  destruct (c121_clean _ _ _ _ _ _ _ _ _ _ _ _ _ TK SC) as (_ & C2 & _ & _). split.
  - rewrite (C2 ["a"] (file 1)); [discriminate|vm_compute; reflexivity].
  - apply (c40_untracked_lost _ _ _ _ _ _ _ _ _ _ _ _ _ _ _ _ TK RS).
    + apply (bool_decide_unpack _). vm_compute. exact I.
    + intros []; reflexivity.
    + intros (x & Hx & Eo). apply elem_of_list_singleton in Hx as ->. discriminate Eo.
    + pose proof TK as (C & GH & GI & R & NC). destruct (create_spec _ _ _ _ _ _ _ _ _ _ C GH GI R NC) as (_ & S1 & _ & _).
      unfold file_at. rewrite (head_entry _ _ _ _ _ _ _ _ _ _ TK st1 _ S1). apply (bool_decide_unpack _). vm_compute. exact I.
Qed.

Print Assumptions c121_clean.
Print Assumptions c121_back_partial.
Print Assumptions c121_failed.
Print Assumptions c121_unborn.
Print Assumptions c121_not_discarded.
Print Assumptions c121_forgotten_refuted.
