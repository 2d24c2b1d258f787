(** Model of hiding and unhiding commits ([git hide], [git unhide],
    git-branchless/src/commands/hide.rs) and of [git branchless repair]
    (git-branchless/src/commands/repair.rs).

    Not modelled: resolving revsets (see RevsetModel), which give the set [chosen]; the
    description of a commit, a parameter; progress meters.  Writing the event log and
    detaching HEAD do not fail. *)
From stdpp Require Import sorting pretty.
From Verif Require Import Base TextModel EventLogModel DagModel StrModel HookModel ExecModel.
From Verif Require NavModel.
Local Open Scope string_scope.
Local Open Scope list_scope.

(** The repository: its references, HEAD and the event log. *)
Record hrepo := mk_hrepo {
  hr_refs : gmap refname oid;
  hr_head : head_info;
  hr_log : list event }.

(** The surroundings: the commit graph, which commits can be read, their descriptions,
    how references are written, the table of branches in the order of iteration, and
    what the hook needs: which bytes are text, the meaning of symbolic references and
    the file of packed references as it is when the hook runs. *)
Record hide_env := mk_he {
  he_graph : graph;
  he_found : oid -> bool;
  he_describe : oid -> string;
  he_branch : branch_env;
  he_groups : gmap refname oid -> list (oid * list refname);
  he_utf8 : string -> bool;
  he_resolve : refname -> option moid;
  he_packed : option string }.

(** The name of the main branch. *)
Definition he_main (e : hide_env) : refname := be_main (he_branch e).

(** [Pluralize] (core/formatting.rs:42-70). *)
Definition pluralize (determiner : option (string * string)) (n : nat) (one many : string) : string :=
  match determiner with
  | None => pretty (N.of_nat n) +:+ " " +:+ (if Nat.eqb n 1 then one else many)
  | Some (d, ds) =>
      (if Nat.eqb n 1 then d else ds) +:+ " " +:+ pretty (N.of_nat n) +:+ " " +:+ (if Nat.eqb n 1 then one else many)
  end.

(** The graph as opened by the commands (hide.rs:34-46, 195-207) with
    [get_references_snapshot] (core/repo_ext.rs:116-126); [None] if there is no main
    branch. *)
Definition local_branches (refs : gmap refname oid) : list (refname * oid) :=
  List.filter (fun p => is_local (fst p)) (map_to_list refs).
Definition open_repo (e : hide_env) (r : hrepo) : option dag :=
  match hr_refs r !! he_main e with
  | None => None
  | Some m =>
      let rp := replay (he_main e) (hr_log r) in
      Some (open_dag (he_graph e) rp (default_cursor rp) (hi_oid (hr_head r)) m
              (List.map snd (local_branches (hr_refs r))))
  end.

(** The commits to hide (hide.rs:58-64). *)
Definition hide_commits (d : dag) (recursive : bool) (chosen : commit_set) : list oid :=
  dag_sort (dag_graph d)
    (if recursive then filter_visible d (descendants (dag_graph d) chosen) else chosen).

(** The commits to unhide (hide.rs:218-225). *)
Definition unhide_commits (d : dag) (recursive : bool) (chosen : commit_set) : list oid :=
  dag_sort (dag_graph d)
    (if recursive then descendants (dag_graph d) chosen ∩ obsolete_commits d else chosen).

(** [add_events] (core/eventlog.rs:530-577) on the list of events: those of a
    suppressed transaction are not stored. *)
Definition stored (tx : txid) (es : list event) : list event :=
  match tx with TxSuppressed => [] | TxId _ => es end.

(** The status of a commit when the command started (hide.rs:82-92, 243-253). *)
Definition status_before (e : hide_env) (r : hrepo) (o : oid) : activity :=
  let rp := replay (he_main e) (hr_log r) in commit_status rp (default_cursor rp) o.

(** The lines about the commits (hide.rs:84-98, 245-259). *)
Definition hide_line (e : hide_env) (r : hrepo) (o : oid) : list string :=
  ("Hid commit: " +:+ he_describe e o) ::
  match status_before e r o with
  | Obsolete => ["(It was already hidden, so this operation had no effect.)"]
  | _ => []
  end.
Definition unhide_line (e : hide_env) (r : hrepo) (o : oid) : list string :=
  ("Unhid commit: " +:+ he_describe e o) ::
  match status_before e r o with
  | Active => ["(It was not hidden, so this operation had no effect.)"]
  | _ => []
  end.

(** The lines given to the reference-transaction hook (core/rewrite/execute.rs:146-161)
    and the events the hook adds in a process of its own; its failure is ignored
    (git/run.rs:387-465). *)
Definition update_line (u : oid * moid * refname) : string :=
  match u with (old, new, n) => oid_to_string old +:+ " " +:+ moid_to_string new +:+ " " +:+ n end.
Definition hook_events (e : hide_env) (ts : timestamp) (tx : txid) (ls : list (oid * moid * refname)) : list event :=
  match hook_reference_transaction (he_utf8 e) (he_resolve e) (he_packed e) ts tx "committed"
          (unlines (List.map update_line ls)) with
  | Some es => stored tx es
  | None => []
  end.

(** Branches are deleted (hide.rs:100-122): HEAD is detached if it is at one of the
    commits.  [false] for an error. *)
Definition detached (h : head_info) : head_info :=
  match hi_oid h with Some o => mk_head (Some o) None | None => h end.
Definition detach_if (cs : list oid) (h : head_info) : head_info :=
  match hi_oid h with
  | Some o => if decide (o ∈ cs) then detached h else h
  | None => h
  end.
Definition drop_map (cs : list oid) : gmap oid moid := list_to_map (List.map (fun o => (o, Zero)) cs).
Definition delete_branches (e : hide_env) (ts : timestamp) (tx : txid) (cs : list oid) (r : hrepo) : hrepo * bool :=
  let m := move_branches (he_branch e) (drop_map cs) (he_groups e (hr_refs r)) (hr_refs r) in
  let es := match mr_lines m with Some ls => hook_events e ts tx ls | None => [] end in
  (mk_hrepo (mr_refs m) (detach_if cs (hr_head r)) (hr_log r ++ es), mr_ok m).

(** The names of the branches (hide.rs:124-135). *)
Definition abandoned_names (cs : list oid) (refs : gmap refname oid) : list string :=
  sorted_names (List.map NavModel.render_suffix (flat_map (branches_at refs) cs)).

(** The last lines (hide.rs:134-180). *)
Definition hide_summary (delete : bool) (n : nat) (names : list string) : list string :=
  let k := pluralize None (length names) "branch" "branches" in
  (match names with
   | [] => []
   | _ => [(if delete then "Deleted" else "Abandoned") +:+ " " +:+ k +:+ ": " +:+ join ", " names]
   end) ++
  ["To unhide " +:+ pluralize (Some ("this", "these")) n "commit" "commits" +:+
   (if delete then match names with [] => "" | _ => " and restore " +:+ k end else "") +:+ ", run: git undo"].

(** The repository afterwards, what was printed, and whether there was no error. *)
Record hide_result := mk_hr { hs_repo : hrepo; hs_out : list string; hs_ok : bool }.

(** [hide] (hide.rs:24-183); [ts] and [ts'] are the times at the beginning and when the
    hook runs. *)
Definition hide (e : hide_env) (ts ts' : timestamp) (tx : txid) (no_delete_branches recursive : bool)
  (chosen : commit_set) (r : hrepo) : hide_result :=
  match open_repo e r with
  | None => mk_hr r [] false
  | Some d =>
      let cs := hide_commits d recursive chosen in
      if forallb (he_found e) cs then
        let r1 := mk_hrepo (hr_refs r) (hr_head r)
                    (hr_log r ++ stored tx (List.map (ObsoleteEvent ts tx) cs)) in
        let out := flat_map (hide_line e r) cs in
        let rest := hide_summary (negb no_delete_branches) (length cs) (abandoned_names cs (hr_refs r)) in
        if no_delete_branches then mk_hr r1 (out ++ rest) true
        else match delete_branches e ts' tx cs r1 with
             | (r2, true) => mk_hr r2 (out ++ rest) true
             | (r2, false) => mk_hr r2 out false
             end
      else mk_hr r [] false
  end.

(** [unhide] (hide.rs:187-272). *)
Definition unhide (e : hide_env) (ts : timestamp) (tx : txid) (recursive : bool)
  (chosen : commit_set) (r : hrepo) : hide_result :=
  match open_repo e r with
  | None => mk_hr r [] false
  | Some d =>
      let cs := unhide_commits d recursive chosen in
      if forallb (he_found e) cs then
        mk_hr (mk_hrepo (hr_refs r) (hr_head r)
                 (hr_log r ++ stored tx (List.map (UnobsoleteEvent ts tx) cs)))
          (flat_map (unhide_line e r) cs ++
           ["To hide " +:+ pluralize (Some ("this", "these")) (length cs) "commit" "commits" +:+ ", run: git undo"])
          true
      else mk_hr r [] false
  end.

(** ** Repair *)

(** The broken commits and branches (repair.rs:24-57). *)
Definition broken_commits (e : hide_env) (r : hrepo) : list oid :=
  let rp := replay (he_main e) (hr_log r) in
  List.filter (fun o => negb (he_found e o)) (cursor_oids rp (default_cursor rp)).
Definition broken_branches (e : hide_env) (r : hrepo) : option (list (oid * refname)) :=
  match hr_refs r !! he_main e with
  | None => None
  | Some m =>
      let rp := replay (he_main e) (hr_log r) in
      match cursor_branches rp (default_cursor rp) (he_main e) m with
      | None => None
      | Some bs => Some (remove_dups (List.filter (fun p => negb (bool_decide (is_Some (hr_refs r !! snd p)))) bs))
      end
  end.

(** The messages (repair.rs:90-127); the ids are sorted as numbers. *)
Definition sorted_oids (l : list oid) : list oid := merge_sort N.le l.
Definition repair_lines (dry_run : bool) (cs : list oid) (bs : list (oid * refname)) : list string :=
  (match cs with
   | [] => []
   | _ => ["Found and repaired " +:+ pluralize None (length cs) "broken commit" "broken commits" +:+ ": " +:+
           join ", " (List.map oid_to_string (sorted_oids cs))]
   end) ++
  (match bs with
   | [] => []
   | _ => ["Found and repaired " +:+ pluralize None (length bs) "broken branch" "broken branches" +:+ ": " +:+
           join ", " (sorted_names (List.map (fun p => NavModel.render_suffix (snd p)) bs))]
   end) ++
  (if dry_run then ["(This was a dry-run; run with --no-dry-run to apply changes.)"] else []).

(** [repair] (repair.rs:17-130); [iter] and [biter] give the order of iteration of the
    sets. *)
Definition repair (e : hide_env) (iter : list oid -> list oid) (biter : list (oid * refname) -> list (oid * refname))
  (ts : timestamp) (tx : txid) (dry_run : bool) (r : hrepo) : hide_result :=
  match broken_branches e r with
  | None => mk_hr r [] false
  | Some bs =>
      let cs := broken_commits e r in
      let es := List.map (ObsoleteEvent ts tx) (iter cs) ++
                List.map (fun p => RefUpdateEvent ts tx (snd p) (NonZero (fst p)) Zero None) (biter bs) in
      mk_hr (if dry_run then r else mk_hrepo (hr_refs r) (hr_head r) (hr_log r ++ stored tx es))
        (repair_lines dry_run cs bs) true
  end.
