(** What Git reports about a working copy, and what a snapshot should keep. *)
From Verif Require Import Base ModeModel TreeModel TreeSpec SnapModel.
Local Open Scope N_scope.
Local Open Scope list_scope.

(** The kinds of entries between which Git reports a change of type. *)
Inductive kind := KFile | KLink | KModule.
Global Instance kind_eq_dec : EqDecision kind.
Proof. solve_decision. Defined.
Definition kind_of (m : N) : kind :=
  match get_filemode m with
  | Link => KLink
  | CommitMode | TreeMode => KModule
  | _ => KFile
  end.

(** First letter: from HEAD to the index. *)
Definition index_letter (h i : option tentry) : ascii :=
  match h, i with
  | None, None => "."
  | None, Some _ => "A"
  | Some _, None => "D"
  | Some a, Some b =>
    if decide (a = b) then "." else if decide (kind_of (snd a) = kind_of (snd b)) then "M" else "T"
  end%char.
(** Second letter: from the index to the working copy; and the mode there. *)
Definition wc_letter (i : option tentry) (w : wnode) : ascii :=
  match i with
  | None => "."
  | Some a =>
    match w with
    | WNothing => "D"
    | WFolder => if decide (kind_of (snd a) = KModule) then "." else "D"
    | WFile _ _ => if decide (w = node_of a) then "." else if decide (kind_of (snd a) = KFile) then "M" else "T"
    | WLink _ => if decide (w = node_of a) then "." else if decide (kind_of (snd a) = KLink) then "M" else "T"
    end
  end%char.
Definition wc_mode (i : option tentry) (w : wnode) : file_mode :=
  match i with
  | None => Unreadable
  | Some a =>
    match w with
    | WNothing => Unreadable
    | WFolder => if decide (kind_of (snd a) = KModule) then CommitMode else Unreadable
    | WFile _ x => if x then BlobExecutable else Blob
    | WLink _ => Link
    end
  end.
(** The mode of a conflicted file: whatever is on disk. *)
Definition disk_mode (w : wnode) : file_mode :=
  match w with
  | WNothing | WFolder => Unreadable
  | WFile _ x => if x then BlobExecutable else Blob
  | WLink _ => Link
  end.
(** Second letter for a conflict, given the stages that are there. *)
Definition conflict_letter (s1 s2 s3 : bool) : ascii :=
  match s1, s2, s3 with
  | true, true, true => "U"     (* UU: both modified *)
  | true, true, false => "D"    (* UD: deleted by them *)
  | true, false, true => "U"    (* DU: deleted by us *)
  | true, false, false => "D"   (* DD: both deleted *)
  | false, true, true => "A"    (* AA: both added *)
  | false, true, false => "U"   (* AU: added by us *)
  | false, false, true => "A"   (* UA: added by them *)
  | false, false, false => "."
  end%char.

(** The entry of the index that is not in conflict. *)
Definition indexed (i : full_index) (p : path) : option tentry :=
  match i p Stage0 with Some (NonZero o, m) => Some (o, m) | _ => None end.
Definition conflicted (i : full_index) (p : path) : Prop := i p Stage1 <> None \/ i p Stage2 <> None \/ i p Stage3 <> None.
Global Instance conflicted_dec i p : Decision (conflicted i p).
Proof. unfold conflicted. apply _. Defined.

(** What `git status` says about a path, without detection of renames. *)
Definition status_at (h : option tentry) (i : full_index) (d : disk) (p : path) : option sn_entry :=
  if decide (conflicted i p) then
    Some (SnEntry Unmerged
      (status_of (conflict_letter (bool_decide (i p Stage1 <> None)) (bool_decide (i p Stage2 <> None)) (bool_decide (i p Stage3 <> None))))
      (disk_mode (d p)) p None)
  else
    let x := index_letter h (indexed i p) in
    let y := wc_letter (indexed i p) (d p) in
    if (Ascii.eqb x "." && Ascii.eqb y ".")%bool then None
    else Some (SnEntry (status_of x) (status_of y) (wc_mode (indexed i p) (d p)) p None).

(** `git status` lists each path once, in some order; a removed and an added file
    may be listed together, as a renaming. *)
Definition reports (st : tree_store) (t : tree) (i : full_index) (d : disk) (l : list sn_entry) : Prop :=
  NoDup (List.concat (map sn_paths l))
  /\ (forall x, x ∈ l -> sn_orig x = None -> status_at (file_at st t (sn_path x)) i d (sn_path x) = Some x)
  /\ (forall x o, x ∈ l -> sn_orig x = Some o -> exists y a b,
        status_at (file_at st t (sn_path x)) i d (sn_path x) = Some (SnEntry Added y (sn_mode x) (sn_path x) None)
        /\ status_at (file_at st t o) i d o = Some (SnEntry Deleted a b o None)
        /\ sn_index x = Renamed /\ sn_wc x = y)
  /\ (forall p a, status_at (file_at st t p) i d p = Some a -> exists x, x ∈ l /\ p ∈ sn_paths x).

(** Nothing is above or below a reported path. *)
Definition no_clash (st : tree_store) (t : tree) (l : list sn_entry) : Prop := forall x p q,
  x ∈ l -> p ∈ sn_paths x -> (exists y, y ∈ l /\ q ∈ sn_paths y) \/ file_at st t q <> None -> ~ clash p q.

(** An index as Git keeps it: paths are not empty, ids are not zero, modes are those
    of files, links and submodules, and no path is both in conflict and not. *)
Definition index_mode (m : N) : Prop :=
  m = mode_number Blob \/ m = mode_number BlobExecutable \/ m = mode_number Link \/ m = mode_number CommitMode.
Definition good_index (i : full_index) : Prop :=
  (forall s, i [] s = None)
  /\ (forall p s o m, i p s = Some (o, m) -> index_mode m /\ exists x, o = NonZero x)
  /\ (forall p, i p Stage0 <> None -> ~ conflicted i p).

(** A repository in which the tree at HEAD is as Git makes it. *)
Definition good_head (e : tree_env) (st : tree_store) (h : option oid) (t : tree) : Prop :=
  sound e st /\ grounded st /\ usual_modes st /\ head_tree st h = Some t /\ tidy_at st t.

(** The entry is about ordinary files, not links or submodules. *)
Definition plain_file (x : option tentry) : Prop :=
  match x with Some a => snd a = mode_number Blob \/ snd a = mode_number BlobExecutable | None => True end.
Definition plain_node (w : wnode) : Prop :=
  match w with WNothing | WFile _ _ => True | WLink _ | WFolder => False end.

(** A snapshot was taken of a repository in this state; [tgt] gives the targets of
    links. *)
Definition taken (e : tree_env) (tgt : oid -> path) (st : tree_store) (h : option oid) (t : tree) (i : full_index) (d : disk)
  (l : list sn_entry) (sn : snapshot) (st1 : tree_store) : Prop :=
  create_snapshot e st h i (seen_disk tgt d) l = Some (sn, st1)
  /\ good_head e st h t /\ good_index i /\ reports st t i d l /\ no_clash st t l.

(** Later, with more objects and whatever HEAD, index and working copy, it was
    restored. *)
Definition restored (e : tree_env) (st1 : tree_store) (sn : snapshot) (t0 : tree) (i0 : full_index) (d0 : disk)
  (i' : full_index) (d' : disk) (st2 : tree_store) : Prop :=
  st1 ⊆ st2 /\ sound e st2
  /\ exists ord, (forall ps, ord ps ≡ₚ ps) /\ restore_snapshot st2 ord sn t0 i0 d0 i' d'.

(** The entry of the index in a stage, as one of a tree. *)
Definition staged (i : full_index) (s : stage) (p : path) : option tentry :=
  match i p s with Some (NonZero o, m) => Some (o, m) | _ => None end.

(** The path is the former one of a renamed file. *)
Definition renamed_from (l : list sn_entry) (p : path) : Prop := exists x, x ∈ l /\ sn_orig x = Some p.

(** No untracked file takes the place of one that was missing. *)
Definition still_missing (st : tree_store) (t0 : tree) (i0 : full_index) (d0 : disk) (p : path) : Prop :=
  file_at st t0 p <> None \/ (entry_at st t0 p = None /\ ~ in_index i0 p /\ d0 p = WNothing).
