(** Model of the commit graph (git-branchless-lib/src/core/dag.rs).

    The graph library (eden_dag) is not part of the repository.  It is modelled
    by its contract: a finite graph, listed parents first, and the set
    operations on it, written here as simple total functions.  Lookups of
    commits missing from the graph, which are errors there, give empty
    results. *)
From Verif Require Import Base TextModel EventLogModel EvolveModel.

(** The commits known to the graph, oldest first, each with its parents in
    order (what [GitParentsBlocking::parent_names], core/dag.rs:88-116, gives
    for each commit reachable from the synced heads). *)
Definition graph := list (oid * list oid).

(** [CommitSet] (core/dag.rs:54). *)
Notation commit_set := (gset oid).

(** [query_all] (core/dag.rs:557-562). *)
Definition vertices (g : graph) : commit_set := list_to_set (List.map fst g).

(** [query_parent_names] (core/dag.rs:571-579): the ordered parents. *)
Fixpoint parents_of (g : graph) (o : oid) : list oid :=
  match g with
  | [] => []
  | (o', ps) :: g' => if N.eqb o' o then ps else parents_of g' o
  end.

(** [query_parents] (core/dag.rs:564-569). *)
Definition parents (g : graph) (s : commit_set) : commit_set :=
  list_to_set (flat_map (fun p => if decide (fst p ∈ s) then snd p else []) g).

(** [query_children] (core/dag.rs:599-604). *)
Definition has_parent_in (s : commit_set) (p : oid * list oid) : bool :=
  existsb (fun x => bool_decide (x ∈ s)) (snd p).
Definition children (g : graph) (s : commit_set) : commit_set :=
  list_to_set (List.map fst (List.filter (has_parent_in s) g)).

(** [query_ancestors] (core/dag.rs:581-586): one pass from the newest commit to
    the oldest. *)
Definition ancestors (g : graph) (s : commit_set) : commit_set :=
  fold_right (fun p acc => if decide (fst p ∈ acc) then acc ∪ list_to_set (snd p) else acc) s g.

(** [query_descendants] (core/dag.rs:606-611): one pass from the oldest commit
    to the newest. *)
Definition descendants (g : graph) (s : commit_set) : commit_set :=
  fold_left (fun acc p => if has_parent_in acc p then {[fst p]} ∪ acc else acc) g s.

(** [query_is_ancestor] (core/dag.rs:420-428). *)
Definition is_ancestor (g : graph) (a d : oid) : bool := bool_decide (a ∈ ancestors g {[d]}).

(** [query_roots] (core/dag.rs:613-618), [query_heads] (620-625): commits of the
    set without a parent (child) in the set. *)
Definition roots (g : graph) (s : commit_set) : commit_set := s ∖ children g s.
Definition heads (g : graph) (s : commit_set) : commit_set := s ∖ parents g s.

(** [query_heads_ancestors] (core/dag.rs:627-632): commits of the set that are
    no proper ancestors of others. *)
Definition heads_ancestors (g : graph) (s : commit_set) : commit_set :=
  s ∖ ancestors g (parents g s).

(** [query_only] (core/dag.rs:634-643), [query_range] (645-650). *)
Definition only (g : graph) (a b : commit_set) : commit_set := ancestors g a ∖ ancestors g b.
Definition range (g : graph) (r h : commit_set) : commit_set := descendants g r ∩ ancestors g h.

(** [query_common_ancestors] (core/dag.rs:652-657), [query_gca_all]
    (666-671). *)
Definition common_ancestors (g : graph) (s : commit_set) : commit_set :=
  match elements s with
  | [] => ∅
  | x :: xs => fold_left (fun acc y => acc ∩ ancestors g {[y]}) xs (ancestors g {[x]})
  end.
Definition gca_all (g : graph) (s : commit_set) : commit_set := heads g (common_ancestors g s).

(** [query_first_ancestor_nth] (core/dag.rs:588-597). *)
Fixpoint first_ancestor_nth (g : graph) (o : oid) (n : nat) : option oid :=
  match n with
  | O => Some o
  | S n' => match parents_of g o with
            | [] => None
            | p :: _ => first_ancestor_nth g p n'
            end
  end.

(** [sort] (core/dag.rs:356-365): parents first. *)
Definition dag_sort (g : graph) (s : commit_set) : list oid :=
  List.filter (fun o => bool_decide (o ∈ s)) (List.map fst g).

(** [Dag] (core/dag.rs:131-159) without its caches. *)
Record dag := mk_dag {
  dag_graph : graph;
  head_commit : commit_set;
  main_branch_commit : commit_set;
  branch_commits : commit_set;
  observed_commits : commit_set;
  obsolete_commits : commit_set }.

(** [Dag::open_without_syncing] (core/dag.rs:199-253); the graph is given. *)
Definition open_dag (g : graph) (r : replayer) (c : cursor) (head : option oid) (main : oid)
  (branches : list oid) : dag :=
  let observed := cursor_oids r c in
  mk_dag g
    (match head with Some h => {[h]} | None => ∅ end)
    {[main]}
    (list_to_set branches)
    (list_to_set observed)
    (list_to_set (List.filter (fun o => match commit_status r c o with
                                        | Active | Inactive => false
                                        | Obsolete => true
                                        end) observed)).

(** [clear_obsolete_commits] (core/dag.rs:338-354). *)
Definition clear_obsolete (d : dag) : dag :=
  mk_dag (dag_graph d) (head_commit d) (main_branch_commit d) (branch_commits d) (observed_commits d) ∅.

(** [is_public_commit] (core/dag.rs:402-416). *)
Definition is_public_commit (d : dag) (o : oid) : bool :=
  existsb (is_ancestor (dag_graph d) o) (elements (main_branch_commit d)).

(** [query_public_commits_slow] (core/dag.rs:462-472). *)
Definition public_commits (d : dag) : commit_set :=
  ancestors (dag_graph d) (main_branch_commit d).

(** [query_visible_heads] (core/dag.rs:474-488). *)
Definition visible_heads (d : dag) : commit_set :=
  heads (dag_graph d)
    (∅ ∪ (observed_commits d ∖ obsolete_commits d) ∪ head_commit d ∪ main_branch_commit d
       ∪ branch_commits d).

(** [query_visible_commits_slow] (core/dag.rs:490-500). *)
Definition visible_commits (d : dag) : commit_set :=
  ancestors (dag_graph d) (visible_heads d).

(** [filter_visible_commits] (core/dag.rs:502-510). *)
Definition filter_visible (d : dag) (s : commit_set) : commit_set :=
  s ∩ range (dag_graph d) s (visible_heads d).

(** [query_draft_commits] (core/dag.rs:519-531). *)
Definition draft_commits (d : dag) : commit_set :=
  only (dag_graph d) (visible_heads d) (main_branch_commit d).

(** [query_stack_commits] (core/dag.rs:533-555). *)
Definition stack_commits (d : dag) (s : commit_set) : commit_set :=
  let draft := draft_commits d in
  let stack_roots := roots (dag_graph d) draft in
  let stack_ancestors := range (dag_graph d) stack_roots s in
  range (dag_graph d) stack_ancestors draft.

(** The inner loop of [get_connected_components] (core/dag.rs:696-704); [None]
    is exhausted fuel. *)
Fixpoint grow_component (fuel : nat) (g : graph) (commits component to_connect : commit_set)
  : option (commit_set * commit_set) :=
  match fuel with
  | O => None
  | S fuel' =>
      if decide (commits = ∅) then Some (component, to_connect)
      else
        let component := component ∪ commits in
        let to_connect := to_connect ∖ commits in
        let commits := (parents g commits ∪ children g commits) ∩ to_connect in
        grow_component fuel' g commits component to_connect
  end.

(** The outer loop (core/dag.rs:687-708), over the commits in any order. *)
Fixpoint components_loop (fuel : nat) (g : graph) (todo : list oid) (to_connect : commit_set)
  (components : list commit_set) : option (list commit_set) :=
  match todo with
  | [] => Some components
  | o :: todo' =>
      if decide (to_connect = ∅) then Some components
      else if decide (o ∈ to_connect) then
        match grow_component fuel g {[o]} ∅ to_connect with
        | None => None
        | Some (component, to_connect) =>
            components_loop fuel g todo' to_connect (components ++ [component])
        end
      else components_loop fuel g todo' to_connect components
  end.

(** [get_connected_components] (core/dag.rs:673-722).  [order] is the iteration
    order of the set.  The two assertions at the end are kept: [None]. *)
Definition connected_components (g : graph) (order : list oid) (s : commit_set)
  : option (list commit_set) :=
  match components_loop (S (S (size s))) g order s [] with
  | None => None
  | Some comps =>
      let connected := ⋃ comps in
      if Nat.eqb (size s) (size connected) && Nat.eqb (size s) (size (s ∩ connected))
      then Some comps else None
  end.

(** [find_abandoned_children] (core/rewrite/evolve.rs:64-82).  Outer option:
    exhausted fuel of the rewrite lookup. *)
Definition find_abandoned_children (d : dag) (r : replayer) (c : cursor) (o : oid)
  : option (option (oid * commit_set)) :=
  match find_rewrite_target r c o with
  | None => None
  | Some None => Some None
  | Some (Some m) =>
      let target := match m with NonZero x => x | Zero => o end in
      let kids := filter_visible d (children (dag_graph d) {[o]}) in
      Some (Some (target, kids ∖ obsolete_commits d))
  end.

(** The comparison of [sorted_commit_set] (core/dag.rs:766-797); [time] gives the
    commit times. *)
Definition commit_cmp (g : graph) (time : oid -> Z) (a b : oid) : comparison :=
  if is_ancestor g a b then Lt
  else if is_ancestor g b a then Gt
  else match (time a ?= time b)%Z with
       | Eq => N.compare a b
       | c => c
       end.
