(** Model of the Git hooks (git-branchless-hook/src/lib.rs) and of the files they
    keep during a rebase (core/rewrite/rewrite_hooks.rs).

    Not modelled: messages printed for the user, the check for abandoned commits
    (an instance of [find_abandoned_children], see DagModel), marking commits for
    the garbage collector, and the movement of branches at the end of a rebase.
    Text is a string of bytes; which byte strings are UTF-8 is a parameter. *)
From Verif Require Import Base TextModel EventLogModel StrModel.
Local Open Scope string_scope.
Local Open Scope list_scope.

(** ** The reference-transaction hook *)

(** [ReferenceTarget] (lib.rs:201-208). *)
Inductive target := Direct (m : moid) | Symbolic (n : refname).
Global Instance target_eq_dec : EqDecision target.
Proof. solve_decision. Defined.

(** [FromStr for ReferenceTarget] (lib.rs:229-248). *)
Definition target_from_string (s : string) : option target :=
  match strip_prefix "ref:" s with
  | Some name => Some (Symbolic name)
  | None => match moid_from_string s with Some m => Some (Direct m) | None => None end
  end.

(** [ReferenceTarget::as_oid] (lib.rs:210-227); [resolve] is
    [Repo::reference_name_to_oid] (git/repo.rs:703-711), [None] when the reference
    does not exist. *)
Definition target_as_oid (resolve : refname -> option moid) (t : target) : option moid :=
  match t with
  | Direct m => Some m
  | Symbolic n => resolve n
  end.

(** [parse_packed_refs_line] (lib.rs:250-292). *)
Definition is_hex (c : ascii) : bool := match unhex c with Some _ => true | None => false end.
Fixpoint split_first (c : ascii) (s : string) : option (string * string) :=
  match s with
  | EmptyString => None
  | String a s' =>
      if Ascii.eqb a c then Some ("", s')
      else match split_first c s' with
           | Some (x, y) => Some (String a x, y)
           | None => None
           end
  end.
Definition parse_packed_refs_line (line : string) : option (refname * moid) :=
  match line with
  | EmptyString => None
  | String c _ =>
      if (Ascii.eqb c "#" || Ascii.eqb c "^" || negb (is_hex c))%bool then None
      else match split_first " " line with
           | Some (o, name) =>
               if (String.eqb o "" || String.eqb name "")%bool then None
               else match moid_from_string o with
                    | Some m => Some (name, m)
                    | None => None
                    end
           | None => None
           end
  end.

(** [read_packed_refs_file] (lib.rs:306-328): [None] when the file cannot be read
    as text; a missing file has no references. *)
Definition read_packed_refs (utf8 : string -> bool) (file : option string)
  : option (gmap refname moid) :=
  match file with
  | None => Some ∅
  | Some text =>
      if forallb utf8 (lines text) then
        Some (fold_left (fun m line => match parse_packed_refs_line line with
                                       | Some (n, o) => <[n := o]> m
                                       | None => m
                                       end) (lines text) ∅)
      else None
  end.

(** [ParsedReferenceTransactionLine] (lib.rs:331-336). *)
Record tx_line := mk_line { line_name : refname; line_old : target; line_new : target }.

(** [parse_reference_transaction_line] (lib.rs:337-357). *)
Definition parse_line (line : string) : option tx_line :=
  match split_on " " line with
  | [old; new; name] =>
      match target_from_string old, target_from_string new with
      | Some o, Some n => Some (mk_line name o n)
      | _, _ => None
      end
  | _ => None
  end.

(** [reftarget_matches_refname] (lib.rs:418-427). *)
Definition target_matches (t : target) (n : refname) (packed : gmap refname moid) : bool :=
  match t with
  | Direct m => match packed !! n with Some m' => bool_decide (m' = m) | None => false end
  | Symbolic n' => String.eqb n' n
  end.

(** [fix_packed_reference_oid] (lib.rs:452-497). *)
Definition is_zero (t : target) : bool := match t with Direct Zero => true | _ => false end.
Definition fix_packed (packed : gmap refname moid) (l : tx_line) : tx_line :=
  if (is_zero (line_old l) && target_matches (line_new l) (line_name l) packed)%bool then
    mk_line (line_name l) (line_new l) (line_new l)
  else if (is_zero (line_new l) && target_matches (line_old l) (line_name l) packed)%bool then
    mk_line (line_name l) (line_old l) (line_old l)
  else l.

(** All values or none: collecting into a [Result]. *)
Fixpoint all_some {A} (l : list (option A)) : option (list A) :=
  match l with
  | [] => Some []
  | Some a :: l' => match all_some l' with Some r => Some (a :: r) | None => None end
  | None :: _ => None
  end.

(** [hook_reference_transaction] (lib.rs:503-610): the events added to the log, or
    [None] for an error, in which case none is added. *)
Definition hook_reference_transaction (utf8 : string -> bool) (resolve : refname -> option moid)
  (packed_file : option string) (ts : timestamp) (tx : txid) (state stdin : string) : option (list event) :=
  if String.eqb state "committed" then
    match read_packed_refs utf8 packed_file with
    | None => None
    | Some packed =>
        let parsed := flat_map (fun line =>
          if utf8 line then match parse_line line with Some l => [l] | None => [] end else [])
          (buf_split LF stdin) in
        let kept := List.filter (fun l => negb (should_ignore_ref_updates (line_name l))) parsed in
        all_some (map (fun l =>
          match target_as_oid resolve (line_old l), target_as_oid resolve (line_new l) with
          | Some old, Some new => Some (RefUpdateEvent ts tx (line_name l) old new None)
          | _, _ => None
          end) (map (fix_packed packed) kept))
    end
  else Some [].

(** [hook_post_checkout] (lib.rs:48-82). *)
Definition hook_post_checkout (ts : timestamp) (tx : txid) (previous current : string) (is_branch : Z)
  : option (list event) :=
  if Z.eqb is_branch 0 then Some []
  else match moid_from_string previous, moid_from_string current with
       | Some old, Some new => Some [RefUpdateEvent ts tx "HEAD" old new None]
       | _, _ => None
       end.

(** ** The list of rewritten commits *)

(** [read_rewritten_list_entries] (rewrite_hooks.rs:61-80), for text that is
    UTF-8. *)
Definition read_entry (line : string) : option (oid * moid) :=
  match split_on " " (trim line) with
  | old :: new :: _ =>
      match oid_from_string old, moid_from_string new with
      | Some o, Some n => Some (o, n)
      | _, _ => None
      end
  | _ => None
  end.
Definition read_rewritten_list (text : string) : option (list (oid * moid)) :=
  all_some (map read_entry (lines text)).

(** [write_rewritten_list] (rewrite_hooks.rs:82-100): the contents of the file. *)
Definition write_rewritten_list (l : list (oid * moid)) : string :=
  unlines (map (fun e => oid_to_string (fst e) +:+ " " +:+ moid_to_string (snd e)) l).

(** [add_rewritten_list_entries] (rewrite_hooks.rs:102-127).  [iter] lists what is
    left in the hash map, in an order that is not specified. *)
Definition collect_map (l : list (oid * moid)) : gmap oid moid :=
  fold_left (fun m e => <[fst e := snd e]> m) l ∅.
Fixpoint replace_entries (cur : list (oid * moid)) (add : gmap oid moid)
  : list (oid * moid) * gmap oid moid :=
  match cur with
  | [] => ([], add)
  | (o, n) :: cur' =>
      let '(n', add') := match add !! o with
                         | Some m => (m, delete o add)
                         | None => (n, add)
                         end in
      let '(rest, remaining) := replace_entries cur' add' in
      ((o, n') :: rest, remaining)
  end.
Definition add_rewritten_list_entries (iter : gmap oid moid -> list (oid * moid))
  (file : option string) (entries : list (oid * moid)) : option string :=
  match (match file with Some text => read_rewritten_list text | None => Some [] end) with
  | None => None
  | Some cur =>
      let '(new, remaining) := replace_entries cur (collect_map entries) in
      Some (write_rewritten_list (new ++ iter remaining))
  end.

(** ** Hooks during a rebase *)

(** What the hooks read and write: the event log, and the files in the directory
    Git keeps while a rebase is underway. *)
Record hook_state := mk_hooks {
  hs_log : list event;
  hs_rebase : bool;
  hs_deferred : option string;
  hs_rewritten : option string;
  hs_head : option oid;
  hs_orig_head : option oid;
  hs_updated_head : option string }.
Definition set_log (s : hook_state) (l : list event) : hook_state :=
  mk_hooks l (hs_rebase s) (hs_deferred s) (hs_rewritten s) (hs_head s) (hs_orig_head s) (hs_updated_head s).

(** [hook_post_commit_common] (lib.rs:84-158). *)
Definition hook_post_commit (ts : timestamp) (tx : txid) (s : hook_state) : hook_state :=
  match hs_head s with
  | None => s
  | Some o =>
      if hs_rebase s then
        let text := match hs_deferred s with Some t => t | None => "" end in
        mk_hooks (hs_log s) (hs_rebase s) (Some (text +:+ oid_to_string o +:+ String LF "")) (hs_rewritten s)
          (hs_head s) (hs_orig_head s) (hs_updated_head s)
      else set_log s (hs_log s ++ [CommitEvent ts tx o])
  end.

(** [read_deferred_commits] (rewrite_hooks.rs:47-59). *)
Definition read_deferred (file : option string) : option (list oid) :=
  match file with
  | None => Some []
  | Some text => all_some (map oid_from_string (lines text))
  end.

(** [hook_post_rewrite] up to the recording of events (rewrite_hooks.rs:133-191);
    the second component tells whether it succeeded. *)
Definition hook_post_rewrite (ts : timestamp) (tx : txid) (rewrite_type stdin : string) (s : hook_state)
  : hook_state * bool :=
  if (String.eqb rewrite_type "amend" && hs_rebase s)%bool then (s, true)
  else match read_deferred (hs_deferred s) with
       | None => (s, false)
       | Some commits =>
           let s' := set_log s (hs_log s ++ map (CommitEvent ts tx) commits) in
           match read_rewritten_list stdin with
           | None => (s', false)
           | Some l =>
               (set_log s' (hs_log s' ++ map (fun e => RewriteEvent ts tx (NonZero (fst e)) (snd e)) l), true)
           end
       end.

(** A commit: its parents and its tree. *)
Record commit := mk_commit { commit_parents : list oid; commit_tree : oid }.
(** [Commit::is_empty] (git/object.rs:261-267). *)
Definition commit_is_empty (find : oid -> option commit) (c : commit) : bool :=
  match commit_parents c with
  | [p] => match find p with Some pc => N.eqb (commit_tree c) (commit_tree pc) | None => false end
  | _ => false
  end.

(** [hook_drop_commit_if_empty] (rewrite_hooks.rs:468-519); [None] for an error. *)
Definition hook_drop_commit_if_empty (iter : gmap oid moid -> list (oid * moid)) (find : oid -> option commit)
  (old : oid) (s : hook_state) : option hook_state :=
  match hs_head s with
  | None => Some s
  | Some h =>
      match find h with
      | None => Some s
      | Some c =>
          if negb (commit_is_empty find c) then Some s
          else match commit_parents c with
               | [p] =>
                   let updated := match hs_orig_head s with
                                  | Some oh => if N.eqb oh old then Some (oid_to_string p) else hs_updated_head s
                                  | None => hs_updated_head s
                                  end in
                   match add_rewritten_list_entries iter (hs_rewritten s) [(old, Zero); (h, Zero)] with
                   | Some text => Some (mk_hooks (hs_log s) (hs_rebase s) (hs_deferred s) (Some text) (Some p)
                                          (hs_orig_head s) updated)
                   | None => None
                   end
               | _ => Some s
               end
      end
  end.

(** [hook_skip_upstream_applied_commit] (rewrite_hooks.rs:523-555). *)
Definition hook_skip_upstream_applied_commit (iter : gmap oid moid -> list (oid * moid)) (o : oid)
  (s : hook_state) : option hook_state :=
  let updated := match hs_orig_head s, hs_head s with
                 | Some oh, Some h => if N.eqb oh o then Some (oid_to_string h) else hs_updated_head s
                 | _, _ => hs_updated_head s
                 end in
  match add_rewritten_list_entries iter (hs_rewritten s) [(o, Zero)] with
  | Some text => Some (mk_hooks (hs_log s) (hs_rebase s) (hs_deferred s) (Some text) (hs_head s)
                         (hs_orig_head s) updated)
  | None => None
  end.

(** Git starting a rebase, and removing its directory at the end. *)
Definition start_rebase (s : hook_state) : hook_state :=
  mk_hooks (hs_log s) true None None (hs_head s) (hs_head s) None.
Definition end_rebase (s : hook_state) : hook_state :=
  mk_hooks (hs_log s) false None None (hs_head s) (hs_orig_head s) None.
