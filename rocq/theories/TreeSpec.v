(** What is said about trees: files at paths. *)
From Verif Require Import Base ModeModel TreeModel.
Local Open Scope N_scope.

(** The file at a path: an entry that is not a directory. *)
Definition file_at (st : tree_store) (t : tree) (p : path) : option tentry :=
  match entry_at st t p with
  | Some x => if is_tree x then None else Some x
  | None => None
  end.

(** Names stand for contents, and the directories of trees are there. *)
Definition closed_tree (st : tree_store) (t : tree) : Prop :=
  forall n x, t !! n = Some x -> is_tree x = true -> is_Some (st !! fst x).
Definition sound (e : tree_env) (st : tree_store) : Prop :=
  (forall a b, te_hash e a = te_hash e b -> a = b)
  /\ (forall o t, st !! o = Some t -> te_hash e t = o)
  /\ (forall o t, st !! o = Some t -> closed_tree st t).

(** No directory contains itself. *)
Definition grounded (st : tree_store) : Prop :=
  exists rank : oid -> nat, forall o t n x, st !! o = Some t -> t !! n = Some x -> is_tree x = true ->
    (rank (fst x) < rank o)%nat.

(** The entry made by an update. *)
Definition stored (v : option (oid * file_mode)) : option tentry :=
  option_map (fun x => (fst x, mode_number (snd x))) v.

(** Some update concerns a path strictly below [p]. *)
Definition below (u : updates) (p : path) : Prop :=
  exists n r v, (p ++ n :: r, v) ∈ u.
(** Some update concerns [p] or a directory on the way to it. *)
Definition above (u : updates) (p : path) : Prop :=
  exists q v, (q, v) ∈ u /\ q <> [] /\ q `prefix_of` p.
(** The update of [q] is the last one on the way to [p], which is [r] below [q]. *)
Definition governs (u : updates) (q r p : path) (v : option (oid * file_mode)) : Prop :=
  p = q ++ r /\ q <> [] /\ (q, v) ∈ u /\ forall q' v', (q', v') ∈ u -> q' `prefix_of` p -> q' `prefix_of` q.

(** What an update puts at a path below it. *)
Definition within (st : tree_store) (v : option tentry) (r : path) : option tentry :=
  match r with
  | [] => v
  | _ :: _ =>
      match v with
      | Some x => if is_tree x then match st !! fst x with Some t => entry_at st t r | None => None end else None
      | None => None
      end
  end.

(** [t'] is [t] with these updates: a path without updates below it has what its
    governing update says, or what it had; other paths are non-empty directories
    or absent. *)
Definition updated (st : tree_store) (t : tree) (u : updates) (st' : tree_store) (t' : tree) : Prop :=
  forall p, p <> [] ->
    (~ below u p ->
       (forall q r v, governs u q r p v -> entry_at st' t' p = within st (stored v) r)
       /\ (~ above u p -> entry_at st' t' p = entry_at st t p))
    /\ (below u p ->
          entry_at st' t' p = None
          \/ exists o t'', entry_at st' t' p = Some (o, mode_number TreeMode) /\ st' !! o = Some t'' /\ t'' <> ∅).

(** The modes libgit2 gives to callers. *)
Definition usual_mode (m : N) : Prop :=
  m = mode_number TreeMode \/ m = mode_number Blob \/ m = mode_number BlobExecutable
  \/ m = mode_number Link \/ m = mode_number CommitMode.
Definition usual_modes (st : tree_store) : Prop :=
  forall o t n x, st !! o = Some t -> t !! n = Some x -> usual_mode (snd x).

(** The files at a path differ, or it is a directory of different mode. *)
Definition differs (st : tree_store) (l r : tree) (p : path) : Prop :=
  file_at st l p <> file_at st r p
  \/ exists a b, entry_at st l p = Some a /\ entry_at st r p = Some b
       /\ is_tree a = true /\ is_tree b = true /\ snd a <> snd b.

(** Directories have the usual mode. *)
Definition usual_dirs (st : tree_store) (t : tree) : Prop :=
  forall p x, entry_at st t p = Some x -> is_tree x = true -> snd x = mode_number TreeMode.

(** An entry as callers see it. *)
Definition seen (x : tentry) : tentry := (fst x, normal_mode (snd x)).

(** Trees as Git makes them: every directory has the usual mode and something in it. *)
Definition tidy_at (st : tree_store) (t : tree) : Prop :=
  forall p x, entry_at st t p = Some x -> is_tree x = true ->
    snd x = mode_number TreeMode /\ exists t', st !! fst x = Some t' /\ t' <> ∅.

(** The commit changes this path relative to a parent, or adds it if it has none. *)
Definition touches (st : tree_store) (c : tcommit) (p : path) : Prop :=
  p <> [] /\ exists t, st !! tc_tree c = Some t
    /\ ((tc_parents c = [] /\ differs st ∅ t p)
        \/ exists o q, o ∈ tc_parents c /\ st !! o = Some q /\ differs st q t p).

(** The file an index has at a path. *)
Definition index_file (i : index) (p : path) : option tentry :=
  match i !! p with
  | Some (NonZero o, m) => Some (o, m)
  | _ => None
  end.

(** Merging file by file: the outcome at a path is given by the three files there,
    it is a file, and a path not changed by "theirs" is left as it is in "ours". *)
Definition merges_files (mg : merger) (f : option tentry -> option tentry -> option tentry -> option tentry) : Prop :=
  (forall x y, (forall z, y = Some z -> usual_mode (snd z) /\ is_tree z = false) -> f x y x = y)
  /\ (forall x y z o m, f x y z = Some (o, m) -> usual_mode m /\ is_tree (o, m) = false)
  /\ forall st b ours theirs i tb to tt, mg st (Some b) ours theirs = MergedTo i ->
       st !! b = Some tb -> st !! ours = Some to -> st !! theirs = Some tt ->
       forall p, index_file i p = f (file_at st tb p) (file_at st to p) (file_at st tt p).

(** Indexes contain files. *)
Definition only_files (i : index) : Prop := forall p o m, i !! p = Some (o, m) -> forall w, is_tree (w, m) = false.
Definition makes_files (mg : merger) : Prop := forall st b o t i, mg st b o t = MergedTo i -> only_files i.

(** Directories put into a tree are there. *)
Definition trees_there (st : tree_store) (u : updates) : Prop :=
  forall q o m, (q, Some (o, m)) ∈ u -> is_tree (o, mode_number m) = true -> is_Some (st !! o).
(** The tree builder takes the entries of these updates, and the directories made
    for them. *)
Definition accepted (e : tree_env) (u : updates) : Prop :=
  (forall q n o m, (q ++ [n], Some (o, m)) ∈ u -> te_accepts e n (o, mode_number m) = true)
  /\ (forall q n m r v o, (q ++ n :: m :: r, v) ∈ u -> te_accepts e n (o, mode_number TreeMode) = true).

(** What a reduced tree contains. *)
Definition reduced (st : tree_store) (t : tree) (ps : list path) (st' : tree_store) (t' : tree) : Prop :=
  (forall p q, q ∈ ps -> q <> [] -> q `prefix_of` p -> (forall n r, p ++ n :: r ∉ ps) ->
     option_map seen (entry_at st' t' p) = option_map seen (entry_at st t p))
  /\ (forall p, (forall q, q ∈ ps -> q <> [] -> ~ q `prefix_of` p) -> (forall n r, p ++ n :: r ∉ ps) -> entry_at st' t' p = None)
  /\ (forall p n r, p ++ n :: r ∈ ps -> file_at st' t' p = None)
  /\ (forall p, p ∈ ps -> p <> [] -> (forall n r, p ++ n :: r ∉ ps) -> entry_at st' t' p = option_map seen (entry_at st t p)).

(** The value of a changed path: its entry in the other tree, or nothing if it is a
    directory there. *)
Definition leads_to (st : tree_store) (r : tree) (p : path) (v : option (oid * file_mode)) : Prop :=
  stored v = entry_at st r p \/ (v = None /\ file_at st r p = None).

(** Files with the modes callers see. *)
Definition usual_files (st : tree_store) (t : tree) : Prop := forall p x, file_at st t p = Some x -> usual_mode (snd x).

(** The file on disk at a path, links not followed. *)
Definition plain_contents (d : path -> on_disk) (p : path) (c : option oid) : Prop :=
  match c with
  | Some b => d p = Contents b
  | None => d p = NoFile
  end.

(** The paths a status entry is about: its path, and the one it had before. *)
Definition lists (x : wc_entry) (p : path) : Prop := p = we_path x \/ we_orig x = Some p.
