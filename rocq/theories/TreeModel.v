(** Model of operations on trees (git-branchless-lib/src/git/tree.rs and the
    in-memory operations of git/repo.rs).

    Tree objects live in a store and are named by a parameter (their hash).
    Paths are lists of names.  Hash maps are lists in the order of iteration.
    Not modelled: names that cannot be decoded. *)
From Verif Require Import Base ModeModel.
Local Open Scope N_scope.

(** An entry of a tree: object and mode, as stored. *)
Notation tentry := (oid * N)%type.
Notation tree := (gmap string (oid * N)).
Notation tree_store := (gmap oid tree).
Notation path := (list string).

(** libgit2's [git_tree_entry_type]: entries whose mode has the directory bits
    are trees. *)
Definition is_tree (e : tentry) : bool := N.land (snd e) 61440 =? 16384.

(** libgit2's [git_tree_entry_filemode]: the mode as given to callers. *)
Definition normal_mode (m : N) : N :=
  if N.land m 61440 =? 16384 then mode_number TreeMode
  else if negb (N.land m 73 =? 0) then mode_number BlobExecutable
  else if N.land m 61440 =? 57344 then mode_number CommitMode
  else if N.land m 61440 =? 40960 then mode_number Link
  else mode_number Blob.
(** [TreeEntry::get_filemode] (git/tree.rs:67-70). *)
Definition get_filemode (m : N) : file_mode := mode_of_number (normal_mode m).

(** What the code sees of libgit2: names of trees, and whether the tree builder
    takes a name with an entry. *)
Record tree_env := mk_te {
  te_hash : tree -> oid;
  te_accepts : string -> tentry -> bool }.

(** [Tree::get_path] (git/tree.rs:97-106); a file on the way, or a missing tree,
    is "not found". *)
Fixpoint entry_at (st : tree_store) (t : tree) (p : path) : option tentry :=
  match p with
  | [] => None
  | n :: p' =>
      match p' with
      | [] => t !! n
      | _ :: _ =>
          match t !! n with
          | Some e => if is_tree e then match st !! fst e with
                                        | Some t' => entry_at st t' p'
                                        | None => None
                                        end
                      else None
          | None => None
          end
      end
  end.

(** New contents of paths: an object with its mode, or nothing. *)
Notation updates := (list (path * option (oid * file_mode))).

(** The updates of entries of this directory, and those below one of its
    directories (git/tree.rs:375-396). *)
Definition file_updates (u : updates) : list (string * option (oid * file_mode)) :=
  omap (fun x => match fst x with [n] => Some (n, snd x) | _ => None end) u.
Definition dir_names (u : updates) : list string :=
  remove_dups (omap (fun x => match fst x with n :: _ :: _ => Some n | _ => None end) u).
Definition updates_in (n : string) (u : updates) : updates :=
  omap (fun x => match fst x with
                 | m :: ((_ :: _) as rest) => if decide (m = n) then Some (rest, snd x) else None
                 | _ => None
                 end) u.

(** [git2::TreeBuilder::insert]: the object must be there (known here for
    trees) and the name be allowed. *)
Definition builder_insert (e : tree_env) (st : tree_store) (n : string) (x : tentry) (b : tree) : option tree :=
  if (te_accepts e n x && (negb (is_tree x) || bool_decide (is_Some (st !! fst x))))%bool
  then Some (<[n := x]> b) else None.

(** The loop over the entries of this directory (git/tree.rs:403-416);
    [remove_entry_if_exists] (git/tree.rs:469-487) is [delete]. *)
Fixpoint put_files (e : tree_env) (st : tree_store) (l : list (string * option (oid * file_mode))) (b : tree)
  : option tree :=
  match l with
  | [] => Some b
  | (n, Some (o, m)) :: l' =>
      match builder_insert e st n (o, mode_number m) b with
      | Some b' => put_files e st l' b'
      | None => None
      end
  | (n, None) :: l' => put_files e st l' (delete n b)
  end.

(** [git2::TreeBuilder::write]: a tree already there is left alone. *)
Definition write_tree (e : tree_env) (b : tree) (st : tree_store) : oid * tree_store :=
  (te_hash e b, match st !! te_hash e b with Some _ => st | None => <[te_hash e b := b]> st end).

(** The directory to update (git/tree.rs:419-435). *)
Definition existing_dir (st : tree_store) (b : tree) (n : string) : tree :=
  match b !! n with
  | Some x => if is_tree x then match st !! fst x with Some t => t | None => ∅ end else ∅
  | None => ∅
  end.

(** [hydrate_tree] (git/tree.rs:370-457), for a tree or the empty tree; [None]
    for an error.  [fuel] bounds the length of paths. *)
Fixpoint hydrate (fuel : nat) (e : tree_env) (st : tree_store) (t : tree) (u : updates) : option (oid * tree_store) :=
  match fuel with
  | O => None
  | S fuel' =>
      match put_files e st (file_updates u) t with
      | None => None
      | Some b =>
          match fold_left (fun r n =>
                  match r with
                  | None => None
                  | Some (b, st) =>
                      match hydrate fuel' e st (existing_dir st b n) (updates_in n u) with
                      | None => None
                      | Some (o, st') =>
                          match st' !! o with
                          | None => None
                          | Some t' =>
                              if decide (t' = ∅) then Some (delete n b, st')
                              else match builder_insert e st' n (o, mode_number TreeMode) b with
                                   | None => None
                                   | Some b' => Some (b', st')
                                   end
                          end
                      end
                  end) (dir_names u) (Some (b, st)) with
          | None => None
          | Some (b', st') => Some (write_tree e b' st')
          end
      end
  end.
Definition deepest (u : updates) : nat := fold_right (fun x a => Nat.max (length (fst x)) a) 0%nat u.
Definition hydrate_tree (e : tree_env) (st : tree_store) (t : tree) (u : updates) : option (oid * tree_store) :=
  hydrate (S (deepest u)) e st t u.

(** [dehydrate_tree] (git/tree.rs:492-515). *)
Definition read_entry (st : tree_store) (t : tree) (p : path) : option (oid * file_mode) :=
  match entry_at st t p with
  | Some (o, m) => Some (o, get_filemode m)
  | None => None
  end.
Definition dehydrate_tree (e : tree_env) (st : tree_store) (t : tree) (ps : list path) : option (oid * tree_store) :=
  hydrate_tree e st ∅ (map (fun p => (p, read_entry st t p)) ps).

(** What is pushed for one after the other, unless there is an error. *)
Fixpoint gather {A B} (f : A -> option (list B)) (l : list A) : option (list B) :=
  match l with
  | [] => Some []
  | x :: l' =>
      match f x, gather f l' with
      | Some a, Some b => Some (a ++ b)
      | _, _ => None
      end
  end.

(** [get_changed_paths_between_trees_internal] (git/tree.rs:138-335); [None] for
    a missing tree or when [fuel] (the depth of trees) runs out. *)
Definition all_names (l r : tree) : list string := elements (dom l ∪ dom r : gset string).
Fixpoint changed (fuel : nat) (st : tree_store) (pre : path) (l r : tree) : option (list path) :=
  match fuel with
  | O => None
  | S fuel' =>
      gather (fun n =>
        let p := pre ++ [n] in
        let and_p := option_map (fun ps : list path => ps ++ [p]) in
        match l !! n, r !! n with
        | None, None => Some []
        | Some a, Some b =>
            match is_tree a, is_tree b with
            | false, false => if decide (a = b) then Some [] else Some [p]
            | false, true =>
                match st !! fst b with
                | None => None
                | Some t => and_p (changed fuel' st p t ∅)
                end
            | true, false =>
                match st !! fst a with
                | None => None
                | Some t => and_p (changed fuel' st p t ∅)
                end
            | true, true =>
                if decide (fst a = fst b)
                then if decide (snd a = snd b) then Some [] else Some [p]
                else match st !! fst a, st !! fst b with
                     | Some ta, Some tb =>
                         if decide (snd a = snd b) then changed fuel' st p ta tb
                         else and_p (changed fuel' st p ta tb)
                     | _, _ => None
                     end
            end
        | Some a, None | None, Some a =>
            if is_tree a then
              match st !! fst a with
              | None => None
              | Some t => changed fuel' st p t ∅
              end
            else Some [p]
        end) (all_names l r)
  end.

(** [get_changed_paths_between_trees] (git/tree.rs:340-354).  No chain of
    directories is longer than the number of trees. *)
Definition changed_paths (st : tree_store) (l r : tree) : option (list path) :=
  option_map remove_dups (changed (S (S (size st))) st [] l r).

(** ** In-memory operations on commits *)

(** A commit: its tree and the trees of its parents. *)
Record tcommit := mk_tcommit { tc_parents : list oid; tc_tree : oid }.

(** [Repo::get_paths_touched_by_commit] (git/repo.rs:899-917). *)
Definition touched_paths (st : tree_store) (c : tcommit) : option (list path) :=
  match st !! tc_tree c with
  | None => None
  | Some t =>
      match tc_parents c with
      | [] => changed_paths st ∅ t
      | ps => option_map remove_dups (gather (fun o => match st !! o with
                                                          | Some q => changed_paths st q t
                                                          | None => None
                                                          end) ps)
      end
  end.

(** [Repo::dehydrate_commit] (git/repo.rs:1432-1477): the reduced tree.  The
    commits made for libgit2 are left out. *)
Definition dehydrate_commit (e : tree_env) (st : tree_store) (o : oid) (ps : list path) : option (oid * tree_store) :=
  match st !! o with
  | Some t => dehydrate_tree e st t ps
  | None => None
  end.

(** The index made by [git2::Repository::cherrypick_commit]: conflicts, or
    entries in stage 0 (with the object id possibly zero). *)
Notation index := (gmap path (moid * N)).
Inductive merged := MergedTo (i : index) | Conflicting | MergeFailed.
(** [mg] merges: base tree (if the commit has one parent), ours, theirs. *)
Definition merger := tree_store -> option oid -> oid -> oid -> merged.

(** [Index::get_entry] (git/index.rs:73-92), and what is made of it
    (git/repo.rs:1394-1420). *)
Definition index_entry (i : index) (p : path) : option (moid * file_mode) :=
  match i !! p with
  | Some (o, m) => Some (o, mode_of_number m)
  | None => None
  end.
Definition index_value (i : index) (p : path) : option (oid * file_mode) :=
  match index_entry i p with
  | Some (NonZero o, m) => Some (o, m)
  | Some (Zero, _) | None => None
  end.

(** [Repo::cherry_pick_fast] (git/repo.rs:1313-1430): the new tree. *)
Inductive picked := Picked (o : oid) (st : tree_store) | PickConflict | PickFailed.
Definition only_parent (c : tcommit) : option oid :=
  match tc_parents c with [q] => Some q | _ => None end.
Definition pick_merged (e : tree_env) (mg : merger) (st : tree_store) (patch : tcommit) (target : oid) : picked :=
  match touched_paths st patch with
  | None => PickFailed
  | Some ps =>
      match dehydrate_commit e st (tc_tree patch) ps with
      | None => PickFailed
      | Some (theirs, st1) =>
          match (match only_parent patch with
                 | Some q => match dehydrate_commit e st1 q ps with
                             | Some (b, st2) => Some (Some b, st2)
                             | None => None
                             end
                 | None => Some (None, st1)
                 end) with
          | None => PickFailed
          | Some (base, st2) =>
              match dehydrate_commit e st2 target ps with
              | None => PickFailed
              | Some (ours, st3) =>
                  match mg st3 base ours theirs with
                  | MergeFailed => PickFailed
                  | Conflicting => PickConflict
                  | MergedTo i =>
                      match st3 !! target with
                      | None => PickFailed
                      | Some t =>
                          match hydrate_tree e st3 t (map (fun p => (p, index_value i p)) ps) with
                          | Some (o, st4) => Picked o st4
                          | None => PickFailed
                          end
                      end
                  end
              end
          end
      end
  end.
Definition cherry_pick_fast (e : tree_env) (mg : merger) (st : tree_store) (reuse : bool) (patch : tcommit) (target : oid)
  : picked :=
  if (reuse && bool_decide (only_parent patch = Some target))%bool
  then match st !! tc_tree patch with Some _ => Picked (tc_tree patch) st | None => PickFailed end
  else pick_merged e mg st patch target.

(** A status entry, as far as needed here: [StatusEntry] and [StatusEntry::paths]
    (git/status.rs:165-188). *)
Record wc_entry := mk_we { we_path : path; we_orig : option path; we_mode : file_mode }.
Definition we_paths (x : wc_entry) : list path :=
  we_path x :: match we_orig x with Some p => [p] | None => [] end.

(** [AmendFastOptions] (git/repo.rs:434-450). *)
Inductive amend_from :=
| FromWorkingCopy (l : list wc_entry)
| FromIndex (ps : list path)
| FromCommit (c : tcommit).

(** What amending sees: the index and the working copy.  Contents are given by
    the blobs they make; links have the blob of their own text. *)
Inductive on_disk := NoFile | Contents (b : oid) | SymLink (text : oid) (target : path) | Folder.
Record amend_env := mk_ae { ae_index : index; ae_disk : path -> on_disk }.

(** [Repo::create_blob_from_path] (git/repo.rs:1222-1247): [std::fs::read]
    follows links; [None] for an error. *)
Fixpoint read_file (links : nat) (d : path -> on_disk) (p : path) : option (option oid) :=
  match d p with
  | NoFile => Some None
  | Contents b => Some (Some b)
  | Folder => None
  | SymLink _ q => match links with O => None | S k => read_file k d q end
  end.
Definition create_blob (d : path -> on_disk) (p : path) : option (option oid) := read_file 40 d p.

(** Later values for a path replace earlier ones. *)
Definition last_value {A} (l : list (path * A)) (p : path) : option A :=
  fold_left (fun r x => if decide (fst x = p) then Some (snd x) else r) l None.

(** The new contents (git/repo.rs:1545-1608), in the order of the [HashMap]'s
    construction. *)
Fixpoint wc_values (b : path -> option (option oid)) (l : list (path * file_mode)) : option updates :=
  match l with
  | [] => Some []
  | (p, m) :: l' =>
      match b p, wc_values b l' with
      | Some x, Some r => Some ((p, option_map (fun o => (o, m)) x) :: r)
      | _, _ => None
      end
  end.
Definition index_update (i : index) (p : path) : option (path * option (oid * file_mode)) :=
  match index_entry i p with
  | Some (Zero, _) => None
  | Some (NonZero o, m) => Some (p, Some (o, m))
  | None => Some (p, None)
  end.
Definition commit_update (st : tree_store) (t : tree) (p : path) : option (path * option (oid * file_mode)) :=
  match read_entry st t p with
  | Some x => Some (p, Some x)
  | None => None
  end.
Inductive values := Values (u : updates) (st : tree_store) | ValuesConflict | ValuesFailed.
Definition new_values (e : tree_env) (mg : merger) (a : amend_env) (st : tree_store) (parent : tcommit) (from : amend_from)
  : values :=
  match from with
  | FromWorkingCopy l =>
      match wc_values (create_blob (ae_disk a)) (List.concat (map (fun x => map (fun p => (p, we_mode x)) (we_paths x)) l)) with
      | Some u => Values u st
      | None => ValuesFailed
      end
  | FromIndex ps => Values (omap (index_update (ae_index a)) ps) st
  | FromCommit c =>
      match cherry_pick_fast e mg st false c (tc_tree parent) with
      | PickConflict => ValuesConflict
      | PickFailed => ValuesFailed
      | Picked o st' =>
          match st' !! o, touched_paths st' c with
          | Some t, Some ps => Values (omap (commit_update st' t) ps) st'
          | _, _ => ValuesFailed
          end
      end
  end.

(** The paths to amend from (git/repo.rs:1517-1532). *)
Definition amend_paths (st : tree_store) (from : amend_from) : option (list path) :=
  match from with
  | FromIndex ps => Some ps
  | FromWorkingCopy l => Some (List.concat (map we_paths l))
  | FromCommit c => touched_paths st c
  end.

(** [Repo::amend_fast] (git/repo.rs:1509-1633): the new tree.  The repository has
    a working copy. *)
Definition amend_fast (e : tree_env) (mg : merger) (a : amend_env) (st : tree_store) (parent : tcommit) (from : amend_from)
  : picked :=
  match touched_paths st parent, amend_paths st from with
  | Some ps, Some qs =>
      let all := remove_dups (ps ++ qs) in
      match dehydrate_commit e st (tc_tree parent) all with
      | None => PickFailed
      | Some (o, st1) =>
          match (match only_parent parent with
                 | Some q => dehydrate_commit e st1 q all
                 | None => Some (o, st1)
                 end) with
          | None => PickFailed
          | Some (_, st2) =>
              match new_values e mg a st2 parent from with
              | ValuesConflict => PickConflict
              | ValuesFailed => PickFailed
              | Values u st3 =>
                  match st3 !! o, st3 !! tc_tree parent with
                  | Some small, Some t =>
                      match hydrate_tree e st3 t
                              (map (fun p => (p, match last_value u p with
                                                 | Some v => v
                                                 | None => read_entry st3 small p
                                                 end)) all) with
                      | Some (o', st4) => Picked o' st4
                      | None => PickFailed
                      end
                  | _, _ => PickFailed
                  end
              end
          end
      end
  | _, _ => PickFailed
  end.
