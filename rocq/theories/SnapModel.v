(** Model of snapshots of the working copy (git-branchless-lib/src/git/snapshot.rs,
    git-branchless-lib/src/git/index.rs and git-branchless-lib/src/core/check_out.rs).

    Commits are represented by their trees and those of their parents
    ([tcommit]); their ids and the message that lists them are the matter of
    TrailerModel.v.  Paths are lists of names.  What Git itself does (status,
    reset, checkout, update-index) is described below, by functions or, where
    Git is free to choose, by relations. *)
From Verif Require Import Base ModeModel TreeModel.
Local Open Scope N_scope.
Local Open Scope list_scope.

(** [Stage] (git/index.rs:12-24). *)
Inductive stage := Stage0 | Stage1 | Stage2 | Stage3.
Global Instance stage_eq_dec : EqDecision stage.
Proof. solve_decision. Defined.

(** The index: what [git2::Index::get_path] finds, and [get_entry_in_stage]
    (git/index.rs:78-90). *)
Notation full_index := (path -> stage -> option (moid * N)).
Definition get_entry_in_stage (i : full_index) (p : path) (s : stage) : option (moid * file_mode) :=
  match i p s with Some (o, m) => Some (o, mode_of_number m) | None => None end.

(** [StatusEntry] and its [paths] (git/status.rs:166-187). *)
Record sn_entry := SnEntry {
  sn_index : file_status;
  sn_wc : file_status;
  sn_mode : file_mode;
  sn_path : path;
  sn_orig : option path }.
Definition sn_paths (x : sn_entry) : list path :=
  sn_path x :: match sn_orig x with Some p => [p] | None => [] end.

(** Insertion into a [HashMap], one after the other. *)
Definition to_updates (l : updates) : updates :=
  map (fun p => (p, match last_value l p with Some v => v | None => None end)) (remove_dups (map fst l)).

(** [create_commit_for_unstaged_changes] (git/snapshot.rs:300-375): the changed
    paths (305-331), their contents (335-353) and the tree (354-357).  [None]
    for an error. *)
Definition unstaged_paths (l : list sn_entry) : list (path * file_mode) :=
  List.concat (map (fun x => map (fun p => (p, sn_mode x)) (sn_paths x))
    (List.filter (fun x => (is_changed (sn_wc x) || is_changed (sn_index x))%bool) l)).
Definition unstaged_value (d : path -> on_disk) (p : path) (m : file_mode) : option (option (oid * file_mode)) :=
  if decide (m = Unreadable) then Some None
  else match create_blob d p with
       | Some b => Some (option_map (fun o => (o, m)) b)
       | None => None
       end.
Fixpoint unstaged_values (d : path -> on_disk) (l : list (path * file_mode)) : option updates :=
  match l with
  | [] => Some []
  | (p, m) :: l' =>
    match unstaged_value d p m, unstaged_values d l' with
    | Some v, Some r => Some ((p, v) :: r)
    | _, _ => None
    end
  end.
Definition commit_unstaged (e : tree_env) (st : tree_store) (head : tree) (d : path -> on_disk) (l : list sn_entry)
  : option (oid * tree_store) :=
  match unstaged_values d (unstaged_paths l) with
  | Some u => hydrate_tree e st head (to_updates u)
  | None => None
  end.

(** [create_commit_for_stage] (git/snapshot.rs:378-465): the entries (386-432)
    and the tree (435-440). *)
Definition stage_value (i : full_index) (s : stage) (x : sn_entry) : option (path * option (oid * file_mode)) :=
  match get_entry_in_stage i (sn_path x) s with
  | None =>
    match s, sn_index x with
    | Stage0, _ => Some (sn_path x, None)
    | _, Unmerged => Some (sn_path x, None)
    | _, _ => None
    end
  | Some (Zero, _) => Some (sn_path x, None)
  | Some (NonZero o, m) => Some (sn_path x, Some (o, m))
  end.
Definition commit_stage (e : tree_env) (st : tree_store) (head : tree) (i : full_index) (l : list sn_entry) (s : stage)
  : option (oid * tree_store) :=
  hydrate_tree e st head (to_updates (omap (stage_value i s) l)).

(** [WorkingCopySnapshot] (git/snapshot.rs:48-86): the tree of the commit at HEAD,
    if there is one, and those of the other commits. *)
Record snapshot := Snapshot {
  sn_head : option oid;
  sn_unstaged : oid;
  sn_stage : stage -> oid }.

(** [WorkingCopySnapshot::create] (git/snapshot.rs:107-228), without the message.
    The tree of the snapshot itself is that of HEAD, or the empty tree (192-195). *)
Definition head_tree (st : tree_store) (h : option oid) : option tree :=
  match h with Some o => st !! o | None => Some ∅ end.
Definition create_snapshot (e : tree_env) (st : tree_store) (h : option oid) (i : full_index) (d : path -> on_disk)
  (l : list sn_entry) : option (snapshot * tree_store) :=
  match head_tree st h with
  | None => None
  | Some t =>
    match commit_unstaged e st t d l with
    | None => None
    | Some (u, st0) =>
      match commit_stage e st0 t i l Stage0 with
      | None => None
      | Some (c0, st1) =>
        match commit_stage e st1 t i l Stage1 with
        | None => None
        | Some (c1, st2) =>
          match commit_stage e st2 t i l Stage2 with
          | None => None
          | Some (c2, st3) =>
            match commit_stage e st3 t i l Stage3 with
            | None => None
            | Some (c3, st4) =>
              Some (Snapshot h u (fun s => match s with Stage0 => c0 | Stage1 => c1 | Stage2 => c2 | Stage3 => c3 end), st4)
            end
          end
        end
      end
    end
  end.

(** [get_working_copy_changes_type] (git/snapshot.rs:469-489); the tree of the base
    commit (192-195). *)
Inductive changes_type := NoChanges | Unstaged | Staged | Conflicts.
Definition base_tree (e : tree_env) (sn : snapshot) : oid :=
  match sn_head sn with Some o => o | None => te_hash e ∅ end.
Global Instance changes_type_eq_dec : EqDecision changes_type.
Proof. solve_decision. Defined.
Definition get_working_copy_changes_type (e : tree_env) (sn : snapshot) : changes_type :=
  let b := base_tree e sn in
  if decide (b <> sn_stage sn Stage1 \/ b <> sn_stage sn Stage2 \/ b <> sn_stage sn Stage3) then Conflicts
  else if decide (b <> sn_stage sn Stage0) then Staged
  else if decide (b <> sn_unstaged sn) then Unstaged
  else NoChanges.

(** [UpdateIndexCommand] (git/index.rs:96-106). *)
Inductive command := CDelete (p : path) | CUpdate (p : path) (s : stage) (m : file_mode) (o : oid).

(** The commands for one stage (core/check_out.rs:292-318); the changed paths come
    from a [HashSet], in the order [ord]. *)
Definition stage_commit (sn : snapshot) (s : stage) : tcommit :=
  mk_tcommit (match sn_head sn with Some o => [o] | None => [] end) (sn_stage sn s).
Definition path_command (st : tree_store) (t : tree) (s : stage) (p : path) : command :=
  match entry_at st t p with
  | None => CDelete p
  | Some (o, m) => CUpdate p s (get_filemode m) o
  end.
Definition stage_commands (st : tree_store) (ord : list path -> list path) (sn : snapshot) (s : stage) : option (list command) :=
  match touched_paths st (stage_commit sn s), st !! sn_stage sn s with
  | Some ps, Some t => Some (map (path_command st t s) (ord ps))
  | _, _ => None
  end.
Definition index_script (st : tree_store) (ord : list path -> list path) (sn : snapshot) : option (list command) :=
  match stage_commands st ord sn Stage0, stage_commands st ord sn Stage1,
        stage_commands st ord sn Stage2, stage_commands st ord sn Stage3 with
  | Some a, Some b, Some c, Some d => Some (a ++ b ++ c ++ d)
  | _, _, _, _ => None
  end.

(** ** What Git does *)

(** `git update-index --index-info`, as run by [update_index] (git/index.rs:113-166):
    a line with mode 0 removes the path from all stages; another line sets the
    entry of its stage, removes the path from the other stages if that is stage 0,
    and removes entries of that stage that would be above or below the path. *)
Definition clash (p q : path) : Prop := p <> q /\ (p `prefix_of` q \/ q `prefix_of` p).
Global Instance clash_dec p q : Decision (clash p q).
Proof. unfold clash. apply _. Defined.
Definition set_entry (p : path) (s : stage) (m : N) (o : oid) (i : full_index) : full_index := fun q s' =>
  if decide (q = p) then
    if decide (s' = s) then Some (NonZero o, m)
    else if decide (s = Stage0) then None
    else i q s'
  else if decide (s' = s /\ clash p q) then None
  else i q s'.
Definition remove_path (p : path) (i : full_index) : full_index := fun q s => if decide (q = p) then None else i q s.
Definition run_command (i : full_index) (c : command) : full_index :=
  match c with
  | CDelete p => remove_path p i
  | CUpdate p s m o => if decide (m = Unreadable) then remove_path p i else set_entry p s (mode_number m) o i
  end.

(** The index after `git reset <commit>`. *)
Definition index_of_tree (st : tree_store) (t : tree) : full_index := fun p s =>
  match s with
  | Stage0 =>
    match entry_at st t p with
    | Some (o, m) => if is_tree (o, m) then None else Some (NonZero o, m)
    | None => None
    end
  | _ => None
  end.

(** What is at a path of the working copy.  A link is given by the blob of its
    text; [WFolder] stands for any directory. *)
Inductive wnode := WNothing | WFile (b : oid) (executable : bool) | WLink (text : oid) | WFolder.
Global Instance wnode_eq_dec : EqDecision wnode.
Proof. solve_decision. Defined.
Notation disk := (path -> wnode).
(** How the code sees it; [tgt] gives the targets of links. *)
Definition seen_disk (tgt : oid -> path) (d : disk) : path -> on_disk := fun p =>
  match d p with
  | WNothing => NoFile
  | WFile b _ => Contents b
  | WLink t => SymLink t (tgt t)
  | WFolder => Folder
  end.
(** What Git writes for an entry of a tree.  Submodules are directories. *)
Definition node_of (x : tentry) : wnode :=
  match get_filemode (snd x) with
  | Blob | BlobGroupWritable | Unreadable => WFile (fst x) false
  | BlobExecutable => WFile (fst x) true
  | Link => WLink (fst x)
  | TreeMode | CommitMode => WFolder
  end.

(** A path on the way to which there is a file. *)
Definition below_file (st : tree_store) (t : tree) (p : path) : Prop :=
  exists q x, q `prefix_of` p /\ q <> p /\ entry_at st t q = Some x /\ is_tree x = false.
Definition in_index (i : full_index) (p : path) : Prop := exists s, i p s <> None.

(** `git reset --hard HEAD`: files of HEAD are written, whatever was there; other
    files that were in the index are removed; the rest stays, unless it is in the
    way. *)
Definition hard_reset (st : tree_store) (t : tree) (i : full_index) (d d' : disk) : Prop := forall p,
  match entry_at st t p with
  | Some x => d' p = node_of x
  | None => (in_index i p -> d' p = WNothing \/ d' p = WFolder)
            /\ (~ in_index i p -> d p <> WFolder -> d' p = d p \/ (below_file st t p /\ d' p = WNothing))
  end.
(** `git checkout <commit>` when nothing differs from HEAD: files of the new tree
    are written, others of the old tree removed, and the rest stays (or Git
    fails). *)
Definition checked_out (st : tree_store) (t0 t : tree) (d d' : disk) : Prop := forall p,
  match entry_at st t p with
  | Some x => d' p = node_of x
  | None => (forall x, entry_at st t0 p = Some x -> is_tree x = false -> d' p = WNothing)
            /\ (entry_at st t0 p = None -> d p <> WFolder -> d' p = d p)
  end.

(** [restore_snapshot] (core/check_out.rs:241-355), when the commands succeed:
    from a working copy at another tree, with another index, to the new index and
    working copy.  Without a commit at HEAD there is no `git reset`, and the index
    is the one left by the checkout (277-288).  HEAD and branches are in
    TrailerModel.v. *)
Definition restore_snapshot (st : tree_store) (ord : list path -> list path) (sn : snapshot)
  (t0 : tree) (i0 : full_index) (d0 : disk) (i' : full_index) (d' : disk) : Prop :=
  exists d1 u t cs, hard_reset st t0 i0 d0 d1 /\ st !! sn_unstaged sn = Some u /\ checked_out st t0 u d1 d'
    /\ match sn_head sn with Some o => st !! o = Some t | None => t = u end /\ index_script st ord sn = Some cs
    /\ forall p s, i' p s = fold_left run_command cs (index_of_tree st t) p s.
