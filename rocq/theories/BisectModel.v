(** Model of the search for the boundary between good and bad commits
    (scm-bisect/src/search.rs, scm-bisect/src/basic.rs) as used by the test
    command (git-branchless-test/src/lib.rs).

    The graph is the concrete one of the test command; its queries cannot fail
    here, so the graph and strategy errors are left out.  Hash sets are finite
    sets: the order of the checks in a loop over one only selects which commit
    an error names.  The iterator of proposals is run until enough of them have
    been found, with fuel for its inner loop; running out of fuel is a separate
    outcome, which the theorems exclude. *)
From Verif Require Import Base TextModel EventLogModel EvolveModel DagModel.

(** [Status] (search.rs:63-80). *)
Inductive bstatus := Untested | Good | Bad | Indeterminate.
Global Instance bstatus_eq_dec : EqDecision bstatus.
Proof. solve_decision. Defined.

(** [SearchGraph] (git-branchless-test/src/lib.rs:1161-1165): the commit graph
    and the commits being tested. *)
Record search_graph := SearchGraph { sg_graph : graph; sg_commits : commit_set }.

(** [SearchGraph::ancestors], [SearchGraph::descendants]
    (git-branchless-test/src/lib.rs:1171-1177, 1179-1185). *)
Definition sg_ancestors (sg : search_graph) (o : oid) : commit_set :=
  ancestors (sg_graph sg) {[o]} ∩ sg_commits sg.
Definition sg_descendants (sg : search_graph) (o : oid) : commit_set :=
  descendants (sg_graph sg) {[o]} ∩ sg_commits sg.

(** [Graph::is_ancestor] (basic.rs:121-128). *)
Definition sg_is_ancestor (sg : search_graph) (a d : oid) : bool :=
  bool_decide (a ∈ sg_ancestors sg d).

(** [ancestors_all], [descendants_all] (basic.rs:30-41, 103-114). *)
Definition ancestors_all (sg : search_graph) (s : commit_set) : commit_set :=
  ⋃ (List.map (sg_ancestors sg) (elements s)).
Definition descendants_all (sg : search_graph) (s : commit_set) : commit_set :=
  ⋃ (List.map (sg_descendants sg) (elements s)).

(** [ancestor_heads], [descendant_roots] (basic.rs:43-69, 75-101): keep the
    commits that are not an ancestor (descendant) of another one. *)
Definition ancestor_heads (sg : search_graph) (s : commit_set) : commit_set :=
  filter (fun o => forallb (fun other => N.eqb o other || negb (bool_decide (o ∈ sg_ancestors sg other)))
                           (elements s) = true) s.
Definition descendant_roots (sg : search_graph) (s : commit_set) : commit_set :=
  filter (fun o => forallb (fun other => N.eqb o other || negb (bool_decide (o ∈ sg_descendants sg other)))
                           (elements s) = true) s.

(** The [IndexMap] of statuses (search.rs:204-207): entries in the order of
    their first insertion, [get] and [insert]. *)
Definition statuses := list (oid * bstatus).
Fixpoint st_get (m : statuses) (o : oid) : option bstatus :=
  match m with
  | [] => None
  | (o', s) :: m' => if N.eqb o' o then Some s else st_get m' o
  end.
Fixpoint st_insert (m : statuses) (o : oid) (s : bstatus) : statuses :=
  match m with
  | [] => [(o, s)]
  | (o', s') :: m' => if N.eqb o' o then (o', s) :: m' else (o', s') :: st_insert m' o s
  end.

(** [Bounds] (search.rs:84-92). *)
Record bounds := Bounds { bd_success : commit_set; bd_failure : commit_set }.

(** [Search] (search.rs:204-207). *)
Record search := Search { se_graph : search_graph; se_nodes : statuses }.

(** [Search::new] (search.rs:218-224). *)
Definition search_new (sg : search_graph) (nodes : list oid) : search :=
  Search sg (fold_left (fun m o => st_insert m o Untested) nodes []).

Definition with_status (s : bstatus) (m : statuses) : commit_set :=
  list_to_set (List.map fst (List.filter (fun p => bool_decide (snd p = s)) m)).

(** [Search::success_bounds], [Search::failure_bounds] (search.rs:230-241,
    247-258). *)
Definition success_bounds (se : search) : commit_set :=
  ancestor_heads (se_graph se) (with_status Good (se_nodes se)).
Definition failure_bounds (se : search) : commit_set :=
  descendant_roots (se_graph se) (with_status Bad (se_nodes se)).

(** [BasicStrategyKind] (basic.rs:147-183). *)
Inductive strategy := Linear | LinearReverse | Binary.

(** [BasicStrategy::midpoint] (basic.rs:201-240). *)
Definition nodes_to_search (sg : search_graph) (b : bounds) (m : statuses) : list oid :=
  let implied_success := ancestors_all sg (bd_success b) in
  let implied_failure := descendants_all sg (bd_failure b) in
  List.filter (fun o => negb (bool_decide (o ∈ implied_success)) && negb (bool_decide (o ∈ implied_failure)))
    (List.map fst (List.filter (fun p => bool_decide (snd p = Untested)) m)).
Definition midpoint (sg : search_graph) (st : strategy) (b : bounds) (m : statuses) : option oid :=
  let l := nodes_to_search sg b m in
  match st with
  | Linear => head l
  | LinearReverse => last l
  | Binary => nth_error l (Nat.div2 (length l))
  end.

(** [SearchError] (search.rs:168-177), without the errors of graph and
    strategy, and the fuel of the model. *)
Inductive search_result :=
| Proposed (l : list oid)
| AlreadySearchedMidpoint (o : oid) (s : bstatus)
| OutOfFuel.

(** The checks on a midpoint (search.rs:302-325). *)
Definition already_searched (sg : search_graph) (b : bounds) (o : oid) : option bstatus :=
  if existsb (fun s => sg_is_ancestor sg o s) (elements (bd_success b)) then Some Good
  else if existsb (fun f => sg_is_ancestor sg f o) (elements (bd_failure b)) then Some Bad
  else None.

(** The speculative states (search.rs:328-345, 348-365). *)
Definition if_failure (sg : search_graph) (b : bounds) (o : oid) : bounds :=
  Bounds (bd_success b) (descendant_roots sg ({[o]} ∪ bd_failure b)).
Definition if_success (sg : search_graph) (b : bounds) (o : oid) : bounds :=
  Bounds (ancestor_heads sg ({[o]} ∪ bd_success b)) (bd_failure b).

(** The iterator (search.rs:287-373), consumed through a filter and up to a
    number of elements, as in git-branchless-test/src/lib.rs:1557-1584: [skip]
    are the commits filtered out and [want] the number of elements still to be
    found. *)
Fixpoint proposals (fuel : nat) (sg : search_graph) (st : strategy) (skip : oid -> bool)
    (want : nat) (seen : commit_set) (queue : list (bounds * statuses)) : search_result :=
  match want with
  | O => Proposed []
  | S want' =>
    match queue with
    | [] => Proposed []
    | (b, m) :: queue' =>
      match fuel with
      | O => OutOfFuel
      | S fuel' =>
        match midpoint sg st b m with
        | None => proposals fuel' sg st skip want seen queue'
        | Some o =>
          match already_searched sg b o with
          | Some s => AlreadySearchedMidpoint o s
          | None =>
            let queue'' := (queue' ++ [(if_failure sg b o, st_insert m o Bad)])
                             ++ [(if_success sg b o, st_insert m o Good)] in
            if bool_decide (o ∈ seen) then proposals fuel' sg st skip want seen queue''
            else if skip o then proposals fuel' sg st skip want ({[o]} ∪ seen) queue''
            else match proposals fuel' sg st skip want' ({[o]} ∪ seen) queue'' with
                 | Proposed l => Proposed (o :: l)
                 | e => e
                 end
          end
        end
      end
    end
  end.

(** [Search::search] (search.rs:264-396): the bounds and the proposals. *)
Definition search_bounds (se : search) : bounds := Bounds (success_bounds se) (failure_bounds se).
Definition search_next (fuel : nat) (se : search) (st : strategy) (skip : oid -> bool) (want : nat) :
    search_result :=
  proposals fuel (se_graph se) st skip want ∅ [(search_bounds se, se_nodes se)].

(** [NotifyError] (search.rs:182-200), without the graph's errors. *)
Inductive notify_error :=
| InconsistentStateTransition (ancestor_node : oid) (ancestor_status : bstatus)
    (descendant_node : oid) (descendant_status : bstatus)
| IllegalStateTransition (node : oid) (from to : bstatus).

(** [Search::notify] (search.rs:400-458). *)
Definition search_notify (se : search) (o : oid) (s : bstatus) : search + notify_error :=
  let illegal :=
    match st_get (se_nodes se) o with
    | Some Good => if bool_decide (s = Good) then None else Some Good
    | Some Bad => if bool_decide (s = Bad) then None else Some Bad
    | _ => None
    end in
  match illegal with
  | Some from => inr (IllegalStateTransition o from s)
  | None =>
    let inconsistent :=
      match s with
      | Untested | Indeterminate => None
      | Good =>
        match List.find (fun f => sg_is_ancestor (se_graph se) f o) (elements (failure_bounds se)) with
        | Some f => Some (InconsistentStateTransition f Bad o Good)
        | None => None
        end
      | Bad =>
        match List.find (fun x => sg_is_ancestor (se_graph se) o x) (elements (success_bounds se)) with
        | Some x => Some (InconsistentStateTransition o Bad x Good)
        | None => None
        end
      end in
    match inconsistent with
    | Some e => inr e
    | None => inl (Search (se_graph se) (st_insert (se_nodes se) o s))
    end
  end.

(** The test command with one job at a time (git-branchless-test/src/lib.rs:
    1382-1386, 1542-1696): ask for a commit, test it, report the result, until
    nothing is proposed.  [verdict] is the outcome of testing a commit; the
    commits tested are returned in order.  Commits already tested are filtered
    out of the proposals. *)
Definition search_commits (g : graph) (nodes : list oid) : search :=
  search_new (SearchGraph g (list_to_set nodes)) nodes.
Inductive bisect_result :=
| Bisected (se : search) (tests : list oid)
| BisectNotifyError (e : notify_error)
| BisectSearchError (o : oid) (s : bstatus)
| BisectFuel.
Fixpoint bisect (fuel search_fuel : nat) (st : strategy) (verdict : oid -> bstatus)
    (done : list oid) (se : search) : bisect_result :=
  match fuel with
  | O => BisectFuel
  | S fuel' =>
    match search_next search_fuel se st (fun o => bool_decide (o ∈ done)) 1 with
    | Proposed [] => Bisected se done
    | Proposed (o :: _) =>
      match search_notify se o (verdict o) with
      | inl se' => bisect fuel' search_fuel st verdict (done ++ [o]) se'
      | inr e => BisectNotifyError e
      end
    | AlreadySearchedMidpoint o s => BisectSearchError o s
    | OutOfFuel => BisectFuel
    end
  end.
