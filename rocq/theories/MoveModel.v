(** Model of [git move] (git-branchless-move/src/lib.rs).

    Not modelled: resolving revsets (see RevsetModel), which give the sets of commits; the
    hints (lib.rs:226-254); the descriptions of errors, of which the kind is kept.  The rest
    is as for [git restack].  [re_order] is the order in which the graph library goes
    through a set, [re_sort] that of [sorted_commit_set]. *)
From Verif Require Import Base TextModel EventLogModel DagModel StrModel HookModel PlanModel ExecModel HideModel RestackModel SyncModel.
Local Open Scope list_scope.

(** [Dag::set_first] (core/dag.rs:457-460); the graph library's [gca_one] picks any of the
    greatest common ancestors (core/dag.rs:661-664). *)
Definition set_first (e : restack_env) (s : commit_set) : option oid := head (re_order e s).
Definition gca_one (e : restack_env) (d : dag) (s : commit_set) : option oid := set_first e (gca_all (dag_graph d) s).

(** [resolve_base_commit] (lib.rs:40-62). *)
Definition resolve_base (e : restack_env) (d : dag) (merge_base : option oid) (o : oid) : oid :=
  let g := dag_graph d in
  let bases := match merge_base with
               | Some b => let between := range g {[b]} {[o]} in children g (roots g between) ∩ between
               | None => roots g (ancestors g {[o]})
               end in
  match set_first e bases with Some b => b | None => o end.

(** The arguments (lib.rs:66-77), with revsets resolved. *)
Record move_args := mk_ma {
  ma_sources : list commit_set;
  ma_dest : option commit_set;
  ma_bases : list commit_set;
  ma_exacts : list commit_set;
  ma_fixup : bool;
  ma_insert : bool }.

(** Why nothing is done. *)
Inductive move_stop :=
| NoHead
| ExactRoots (n : nat)
| ExactParents (n : nat)
| NotOneDest (n : nat)
| WouldRewritePublic
| ManyPlaces (c : oid)
| NotOneLineage (a b : oid)
| ManyHeads
| PlanCycle (l : list oid)
| PlanIllegal
| MoveFailed.
Inductive or_stop (A : Type) := Go (a : A) | Stop (s : move_stop).
Arguments Go {A} a. Arguments Stop {A} s.
Definition and_then {A B} (x : or_stop A) (f : A -> or_stop B) : or_stop B :=
  match x with Go a => f a | Stop s => Stop s end.

(** The ranges of commits given with [--exact], each with its first commit (lib.rs:127-175). *)
Fixpoint exact_components (e : restack_env) (d : dag) (comps : list commit_set) : or_stop (list (oid * commit_set)) :=
  match comps with
  | [] => Go []
  | comp :: comps' =>
      match re_order e (roots (dag_graph d) comp) with
      | [root] =>
          let ps := parents (dag_graph d) {[root]} in
          if Nat.eqb (size ps) 1
          then and_then (exact_components e d comps') (fun l => Go ((root, comp) :: l))
          else Stop (ExactParents (size ps))
      | l => Stop (ExactRoots (length l))
      end
  end.
Definition component_of (comps : list (oid * commit_set)) (root : oid) : commit_set :=
  match List.find (fun x => bool_decide (fst x = root)) comps with Some x => snd x | None => ∅ end.

(** The commits given with [--base], each replaced by the first commit of its branch
    (lib.rs:203-224). *)
Definition base_commits (e : restack_env) (d : dag) (dest : oid) (bases : commit_set) : commit_set :=
  ⋃ (List.map (fun b => {[resolve_base e d (gca_one e d {[b; dest]}) b]}) (re_order e bases)).

(** The place a range goes to (lib.rs:319-380). *)
Definition possible_destinations (d : dag) (comps : list (oid * commit_set)) (roots : list oid) (root : oid) : list oid :=
  List.filter (fun r => (negb (bool_decide (root ∈ component_of comps r)) && is_ancestor (dag_graph d) r root)%bool) roots.
Fixpoint one_after_another (d : dag) (l : list oid) : option (oid * oid) :=
  match l with
  | a :: ((b :: _) as l') => if is_ancestor (dag_graph d) a b then one_after_another d l' else Some (a, b)
  | _ => None
  end.
Definition component_dest (e : restack_env) (d : dag) (comps : list (oid * commit_set)) (roots : list oid) (dest root : oid)
  : or_stop oid :=
  let l := possible_destinations d comps roots root in
  match last l with
  | None => Go dest
  | Some nearest =>
      match one_after_another d l with
      | Some _ => Stop (ManyPlaces root)
      | None =>
          match set_first e (heads (dag_graph d) (ancestors (dag_graph d) {[root]} ∩ component_of comps nearest)) with
          | Some h => Go h
          | None => Go dest
          end
      end
  end.

(** The requests for one range (lib.rs:382-412).  [move_range] is plan.rs:1047-1062. *)
Definition move_range (source end_ dest : oid) : list constraint := [MoveSubtree [dest] source; MoveChildren source end_].
Definition component_requests (e : restack_env) (d : dag) (fixup insert : bool) (dest : oid) (comps : list (oid * commit_set))
  (roots : list oid) (root : oid) : or_stop (list constraint) :=
  let comp := component_of comps root in
  and_then (component_dest e d comps roots dest root) (fun cdest =>
    match set_first e (parents (dag_graph d) {[root]}) with
    | None => Stop MoveFailed
    | Some p =>
        let kids := filter_visible d (children (dag_graph d) comp ∖ comp) in
        Go (flat_map (fun k => if (insert && is_ancestor (dag_graph d) k cdest)%bool
                               then move_range k cdest p else [MoveSubtree [p] k]) (re_order e kids)
            ++ if fixup then List.map (FixUpCommit dest) (re_order e comp) else [MoveSubtree [cdest] root])
    end).
Fixpoint all_component_requests (e : restack_env) (d : dag) (fixup insert : bool) (dest : oid) (comps : list (oid * commit_set))
  (roots todo : list oid) : or_stop (list constraint) :=
  match todo with
  | [] => Go []
  | root :: todo' =>
      and_then (component_requests e d fixup insert dest comps roots root) (fun cs =>
        and_then (all_component_requests e d fixup insert dest comps roots todo') (fun cs' => Go (cs ++ cs')))
  end.

(** The requests for the subtrees given with [--source] and [--base] (lib.rs:298-309). *)
Definition source_requests (e : restack_env) (d : dag) (fixup : bool) (dest : oid) (sources : commit_set) : list constraint :=
  flat_map (fun s => if fixup then List.map (FixUpCommit dest) (re_order e (descendants (dag_graph d) {[s]}))
                     else [MoveSubtree [dest] s])
    (re_order e (roots (dag_graph d) sources)).

(** The requests for the children of the destination (lib.rs:415-472). *)
Definition insert_requests (e : restack_env) (d : dag) (dest : oid) (sources : commit_set) (comps : list (oid * commit_set))
  (roots : list oid) : or_stop (list constraint) :=
  let g := dag_graph d in
  match one_after_another d roots with
  | Some (a, b) => Stop (NotOneLineage a b)
  | None =>
      let exact_head := match last roots with Some r => heads g (component_of comps r) | None => ∅ end in
      match re_order e (heads g (descendants g sources) ∪ exact_head) with
      | [h] =>
          let kids := filter_visible d ((children g {[dest]} ∖ sources) ∖ ⋃ (List.map snd comps)) in
          Go (List.map (MoveSubtree [h]) (re_order e kids))
      | _ => Stop ManyHeads
      end
  end.

(** What is asked of the builder, and the commits it may rewrite (lib.rs:78-474). *)
Definition move_requests (e : restack_env) (d : dag) (head : option oid) (a : move_args) : or_stop (commit_set * list constraint) :=
  let g := dag_graph d in
  let default_to_head := match ma_sources a, ma_bases a, ma_exacts a with [], [], [] => true | _, _, _ => false end in
  and_then (match ma_dest a, head with
            | Some s, _ => Go s
            | None, Some h => Go {[h]}
            | None, None => Stop NoHead
            end) (fun dests =>
  let exact := ⋃ (ma_exacts a) in
  and_then (match connected_components g (re_order e exact) exact with
            | None => Stop MoveFailed
            | Some comps => exact_components e d comps
            end) (fun comps =>
  match re_order e dests with
  | [dest] =>
      and_then (if default_to_head then match head with Some h => Go {[h]} | None => Stop NoHead end
                else Go (⋃ (ma_bases a))) (fun bases =>
      let sources := ⋃ (ma_sources a) ∪ base_commits e d dest bases in
      let to_move := sources ∪ ⋃ (List.map snd comps) ∪
                     (if (ma_insert a || ma_fixup a)%bool then children g {[dest]} else ∅) in
      match verify_rewrite_set d (re_force e) to_move with
      | None => Stop WouldRewritePublic
      | Some allowed =>
          let comp_roots := re_sort e (list_to_set (List.map fst comps)) in
          and_then (all_component_requests e d (ma_fixup a) (ma_insert a) dest comps comp_roots comp_roots) (fun of_exact =>
          and_then (if ma_insert a then insert_requests e d dest sources comps comp_roots else Go []) (fun of_insert =>
          Go (allowed, source_requests e d (ma_fixup a) dest sources ++ of_exact ++ of_insert)))
      end)
  | l => Stop (NotOneDest (length l))
  end)).

(** What was done: the repository, what became of the commits if that is known, and how the
    command ended. *)
Inductive move_end :=
| NothingToDo
| Moved
| NotMoved (why : move_stop)
| Declined (at_ : oid)
| RebaseFailed.
Record move_result := mk_mr { mv_repo : rrepo; mv_rewritten : option (gmap oid moid); mv_end : move_end }.

(** [move] (lib.rs:64-515); an exit code of zero is that of [NothingToDo] and [Moved]. *)
Definition move (e : restack_env) (ts : timestamp) (tx : txid) (a : move_args) (r : rrepo) : move_result :=
  match open_repo (re_hide e) (rr_repo r) with
  | None => mk_mr r None (NotMoved MoveFailed)
  | Some d =>
      match move_requests e d (hi_oid (hr_head (rr_repo r))) a with
      | Stop s => mk_mr r None (NotMoved s)
      | Go (allowed, cs) =>
          match build d (planner e (rr_store r)) allowed cs with
          | Done BuiltNothing => mk_mr r None NothingToDo
          | Done (BuiltPlan dest cmds) =>
              let (r', res) := run_plan e ts tx dest cmds r in
              match res with
              | Succeeded rw => mk_mr r' rw Moved
              | DeclinedToMerge c => mk_mr r' None (Declined c)
              | FailedExit | InternalError => mk_mr r' None RebaseFailed
              end
          | Done (BuiltCycle l) => mk_mr r None (NotMoved (PlanCycle l))
          | Done (BuiltIllegal _) => mk_mr r None (NotMoved PlanIllegal)
          | _ => mk_mr r None (NotMoved MoveFailed)
          end
      end
  end.
