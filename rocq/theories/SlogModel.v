(** Model of the smartlog: which commits it shows, how they are linked, and which lines
    are written (git-branchless-smartlog/src/lib.rs).

    Simplified: glyphs, columns and the description of a commit are left out, so that a
    line is what it tells; commits are kept in lists instead of hash maps, whose order of
    iteration is given from outside. *)
From Verif Require Import Base TextModel EventLogModel EvolveModel DagModel NavModel.

(** What the smartlog looks at: the graph, the committer times, which commits can still be
    read, the answers of the graph library when it has to choose one of several greatest
    common ancestors (core/dag.rs:661-664), the order in which hash maps are listed, and
    HEAD. *)
Record slog_env := SlogEnv {
  sl_dag : dag;
  sl_time : oid -> Z;
  sl_found : oid -> bool;
  sl_gca_one : commit_set -> option oid;
  sl_order : commit_set -> list oid;
  sl_head : option oid }.

(** The commits shown (git-branchless-smartlog/src/lib.rs:165-178): those asked for and
    common ancestors. *)
Definition merge_bases (d : dag) (commits : commit_set) (v : oid) : commit_set :=
  if decide (main_branch_commit d ∩ commits = ∅)
  then gca_all (dag_graph d) (commits ∪ {[v]})
  else gca_all (dag_graph d) (main_branch_commit d ∪ {[v]}).
Definition shown (d : dag) (commits : commit_set) : commit_set :=
  ⋃ (List.map (fun v => {[v]} ∪ merge_bases d commits v) (elements commits)).

(** The links between commits shown and their parents
    (git-branchless-smartlog/src/lib.rs:217-233): child, parent, whether it is a further
    parent. *)
Definition immediate_of (d : dag) (vs : commit_set) (c : oid) : list (oid * oid * bool) :=
  match parents_of (dag_graph d) c with
  | [] => []
  | p :: ps =>
    (if decide (p ∈ vs) then [(c, p, false)] else [])
    ++ flat_map (fun q => if decide (q ∈ vs) then [(c, q, true)] else []) ps
  end.

(** The nearest commits shown below a parent that is not shown
    (git-branchless-smartlog/src/lib.rs:235-258): ancestor, child. *)
Definition nearest_of (e : slog_env) (vs : commit_set) (p : oid) : list oid :=
  let d := sl_dag e in
  let g := dag_graph d in
  let path := match sl_gca_one e (main_branch_commit d ∪ {[p]}) with
              | Some m => range g {[m]} {[p]}
              | None => ∅
              end in
  sl_order e (heads_ancestors g (path ∩ vs)).
Definition non_immediate_of (e : slog_env) (vs : commit_set) (c : oid) : list (oid * oid) :=
  flat_map (fun p => if decide (p ∈ vs) then [] else List.map (fun a => (a, c)) (nearest_of e vs p))
    (parents_of (dag_graph (sl_dag e)) c).

(** All links, of commits that are not public (git-branchless-smartlog/src/lib.rs:205-214). *)
Definition link_children (e : slog_env) (vs : commit_set) : list oid :=
  List.filter (fun c => negb (is_public_commit (sl_dag e) c)) (sl_order e vs).
Definition immediate_links (e : slog_env) (vs : commit_set) : list (oid * oid * bool) :=
  flat_map (immediate_of (sl_dag e) vs) (link_children e vs).
Definition non_immediate_links (e : slog_env) (vs : commit_set) : list (oid * oid) :=
  flat_map (non_immediate_of e vs) (link_children e vs).

(** The parts of a [Node] (git-branchless-smartlog/src/lib.rs:70-120) that the links fill
    in (261-289): parents, children (with the mark for merges), the nearest ancestor with
    the number of commits in between, and descendants. *)
Definition node_parents (e : slog_env) (vs : commit_set) (o : oid) : list oid :=
  flat_map (fun l => if N.eqb (fst (fst l)) o then [snd (fst l)] else []) (immediate_links e vs).
Definition raw_children (e : slog_env) (vs : commit_set) (o : oid) : list (oid * bool) :=
  flat_map (fun l => if N.eqb (snd (fst l)) o then [(fst (fst l), snd l)] else []) (immediate_links e vs).
Definition node_descendants (e : slog_env) (vs : commit_set) (o : oid) : list oid :=
  flat_map (fun l => if N.eqb (fst l) o then [snd l] else []) (non_immediate_links e vs).
Definition between (g : graph) (a c : oid) : nat := size (range g {[a]} {[c]} ∖ {[a; c]}).
Definition node_ancestor (e : slog_env) (vs : commit_set) (o : oid) : option (oid * nat) :=
  fold_left (fun acc l => if N.eqb (snd l) o
                          then Some (fst l, between (dag_graph (sl_dag e)) (fst l) o) else acc)
    (non_immediate_links e vs) None.

(** [num_omitted_descendants] (git-branchless-smartlog/src/lib.rs:291-309). *)
Definition node_omitted (e : slog_env) (vs : commit_set) (o : oid) : nat :=
  let d := sl_dag e in
  let g := dag_graph d in
  let is_main_head := negb (bool_decide (main_branch_commit d ∩ {[o]} = ∅)) in
  let ancestor_of_main := is_public_commit d o && negb is_main_head in
  let has_descendants := match raw_children e vs o, node_descendants e vs o with [], [] => false | _, _ => true end in
  if ancestor_of_main || has_descendants then 0%nat
  else size (filter_visible d (descendants g {[o]} ∖ {[o]})).

(** [sort_children] (git-branchless-smartlog/src/lib.rs:314-338): by time, commits that
    cannot be read first, then by the mark for merges, then by the id. *)
Definition child_cmp (e : slog_env) (a b : oid * bool) : comparison :=
  let time o := if sl_found e o then Some (sl_time e o) else None in
  let by_time := match time (fst a), time (fst b) with
                 | None, None => Eq
                 | None, Some _ => Lt
                 | Some _, None => Gt
                 | Some x, Some y => Z.compare x y
                 end in
  match by_time with
  | Eq => match snd a, snd b with
          | false, true => Lt
          | true, false => Gt
          | _, _ => N.compare (fst a) (fst b)
          end
  | c => c
  end.
Fixpoint insert_child (e : slog_env) (x : oid * bool) (l : list (oid * bool)) : list (oid * bool) :=
  match l with
  | [] => [x]
  | y :: l' => match child_cmp e x y with Gt => y :: insert_child e x l' | _ => x :: l end
  end.
Definition node_children (e : slog_env) (vs : commit_set) (o : oid) : list (oid * bool) :=
  fold_right (insert_child e) [] (raw_children e vs o).

(** [make_smartlog_graph] (git-branchless-smartlog/src/lib.rs:340-373): HEAD and the main
    branch are added unless told otherwise (356-363). *)
Definition selected (d : dag) (exact : bool) (commits : commit_set) : commit_set :=
  if exact then commits else commits ∪ head_commit d ∪ main_branch_commit d.

(** [split_commit_graph_by_roots] (git-branchless-smartlog/src/lib.rs:402-449). *)
Definition root_cmp (e : slog_env) (a b : oid) : comparison :=
  if sl_found e a && sl_found e b then
    let by_time := match Z.compare (sl_time e a) (sl_time e b) with Eq => N.compare a b | c => c end in
    match sl_gca_one e {[a; b]} with
    | Some m => if N.eqb m a then Lt else if N.eqb m b then Gt else by_time
    | None => by_time
    end
  else N.compare a b.
Definition roots_of (e : slog_env) (vs : commit_set) : list oid :=
  sort_by (root_cmp e)
    (List.filter (fun o => match node_parents e vs o, node_ancestor e vs o with [], None => true | _, _ => false end)
       (sl_order e vs)).

(** What a line tells: the number of commits left out before a commit, a further parent of
    the next commit, a commit (public, obsolete, HEAD), the number of commits left out
    above it, or a child of which it is a further parent. *)
Inductive line :=
| OmittedBefore (n : nat)
| MergeParent (o : oid)
| Commit (o : oid) (public obsolete head : bool)
| OmittedAfter (n : nat)
| MergeChild (o : oid).

(** [get_child_output] (git-branchless-smartlog/src/lib.rs:451-648); [None] when the fuel
    is exhausted.  Descendants form a set (566-576). *)
Fixpoint child_output (fuel : nat) (e : slog_env) (vs : commit_set) (roots : list oid) (o : oid) : option (list line) :=
  match fuel with
  | O => None
  | S fuel' =>
    let before :=
      match node_ancestor e vs o with Some (_, n) => [OmittedBefore n] | None => [] end
      ++ match node_parents e vs o with [] => [] | _ :: ps => List.map MergeParent ps end
      ++ [Commit o (is_public_commit (sl_dag e) o) (bool_decide (o ∈ obsolete_commits (sl_dag e)))
            (bool_decide (sl_head e = Some o))]
      ++ (if Nat.ltb 0 (node_omitted e vs o) then [OmittedAfter (node_omitted e vs o)] else []) in
    let fix go (l : list (oid * bool)) : option (list line) :=
      match l with
      | [] => Some []
      | (c, merge) :: l' =>
        let here :=
          if bool_decide (c ∈ roots) then Some []
          else if merge then Some [MergeChild c]
          else child_output fuel' e vs roots c in
        match here, go l' with
        | Some x, Some y => Some (x ++ y)
        | _, _ => None
        end
      end in
    match go (node_children e vs o
              ++ List.map (fun c => (c, false)) (sl_order e (list_to_set (node_descendants e vs o)))) with
    | Some above => Some (before ++ above)
    | None => None
    end
  end.

(** [get_output] (git-branchless-smartlog/src/lib.rs:650-710), without the lines drawn
    between the roots. *)
Fixpoint roots_output (e : slog_env) (vs : commit_set) (roots todo : list oid) : option (list line) :=
  match todo with
  | [] => Some []
  | r :: todo' =>
    match child_output (S (length (dag_graph (sl_dag e)))) e vs roots r, roots_output e vs roots todo' with
    | Some x, Some y => Some (x ++ y)
    | _, _ => None
    end
  end.

(** [render_graph] (git-branchless-smartlog/src/lib.rs:712-733) of the graph of
    [make_smartlog_graph]. *)
Definition smartlog (e : slog_env) (exact : bool) (commits : commit_set) : option (list line) :=
  let vs := shown (sl_dag e) (selected (sl_dag e) exact commits) in
  let roots := roots_of e vs in
  roots_output e vs roots roots.
