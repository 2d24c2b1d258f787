(** Model of rebase plans (git-branchless-lib/src/core/rewrite/plan.rs).

    Not modelled: progress and debugging output, and the search for commits
    applied upstream ([get_upstream_patch_ids], plan.rs:1269-1339), whose answer
    is a parameter. *)
From stdpp Require Import sorting.
From Verif Require Import Base TextModel DagModel StrModel HookModel.
Local Open Scope string_scope.
Local Open Scope list_scope.

(** [OidOrLabel] (plan.rs:22-28). *)
Inductive oid_or_label := AtOid (o : oid) | AtLabel (l : string).
Global Instance oid_or_label_eq_dec : EqDecision oid_or_label.
Proof. solve_decision. Defined.

(** [RebaseCommand] (plan.rs:39-126). *)
Inductive command :=
| CreateLabel (l : string)
| Reset_ (t : oid_or_label)
| Pick (original : oid) (to_apply : list oid)
| Merge (c : oid) (to_merge : list oid_or_label)
| Replace (c replacement : oid) (ps : list oid_or_label)
| Break_
| RegisterExtra
| DetectEmpty (c : oid)
| SkipUpstream (c : oid).
Global Instance command_eq_dec : EqDecision command.
Proof. solve_decision. Defined.

(** [Constraint] (plan.rs:576-598). *)
Inductive constraint :=
| MoveChildren (parent_of children_of : oid)
| MoveSubtree (ps : list oid) (child : oid)
| FixUpCommit (target fixup : oid).
Global Instance constraint_eq_dec : EqDecision constraint.
Proof. solve_decision. Defined.

(** Results: [Failed] is an internal error, [NoFuel] exhausted fuel. *)
Inductive outcome (A : Type) := Done (a : A) | Failed | NoFuel.
Arguments Done {A} a. Arguments Failed {A}. Arguments NoFuel {A}.
Definition bind {A B} (x : outcome A) (f : A -> outcome B) : outcome B :=
  match x with Done a => f a | Failed => Failed | NoFuel => NoFuel end.

(** Sets of ids in order ([itertools::sorted] and [sort_unstable]). *)
Definition sorted_oids (s : gset oid) : list oid := merge_sort N.le (elements s).

(** ** Permissions *)

(** [RebasePlanPermissions::verify_rewrite_set] (plan.rs:209-232): the commits
    allowed to be rewritten, or [None] when public commits would be. *)
Definition verify_rewrite_set (d : dag) (force : bool) (s : gset oid) : option (gset oid) :=
  let s := descendants (dag_graph d) s in
  if (negb force && negb (bool_decide (public_commits d ∩ s = ∅)))%bool then None else Some s.

(** ** The constraint graph *)

(** [ConstraintGraph] (plan.rs:235-246): which commits go on top of a commit, and
    which are to be squashed into it. *)
Record constraint_graph := mk_cg { cg_inner : gmap oid (gset oid); cg_fixups : gmap oid (gset oid) }.
Definition empty_cg : constraint_graph := mk_cg ∅ ∅.

Definition edges_from (m : gmap oid (gset oid)) (p : oid) : gset oid :=
  match m !! p with Some s => s | None => ∅ end.

(** [commits_to_move] (plan.rs:505-507), [commits_to_fixup] (517-519),
    [fixup_commits] (523-525), [parents] (499-501). *)
Definition all_values (m : gmap oid (gset oid)) : gset oid := ⋃ (List.map snd (map_to_list m)).
Definition commits_to_move (cg : constraint_graph) : gset oid := all_values (cg_inner cg).
Definition commits_to_fixup (cg : constraint_graph) : gset oid := dom (cg_fixups cg).
Definition fixup_commits (cg : constraint_graph) : gset oid := all_values (cg_fixups cg).
Definition cg_parents (cg : constraint_graph) : gset oid := dom (cg_inner cg).

Definition add_edge (p c : oid) (m : gmap oid (gset oid)) : gmap oid (gset oid) :=
  <[p := {[c]} ∪ edges_from m p]> m.
Definition remove_child (c : oid) (m : gmap oid (gset oid)) : gmap oid (gset oid) :=
  (fun s => s ∖ {[c]}) <$> m.

(** The first pass of [add_constraints] (plan.rs:258-294). *)
Definition first_pass (cs : list constraint) (cg : constraint_graph) : constraint_graph :=
  fold_left (fun cg c =>
    match c with
    | MoveChildren _ _ => cg
    | MoveSubtree ps child =>
        mk_cg (fold_left (fun m p => add_edge p child m) ps (remove_child child (cg_inner cg))) (cg_fixups cg)
    | FixUpCommit target fixup =>
        mk_cg (remove_child fixup (cg_inner cg)) (add_edge target fixup (cg_fixups cg))
    end) cs cg.

(** The ranges taken out of their place: where they begin and where they end.
    [range_heads] (plan.rs:296-310) are the ends. *)
Definition range_of (c : constraint) : list (oid * oid) :=
  match c with
  | MoveChildren a b => [(a, b)]
  | MoveSubtree _ _ => []
  | FixUpCommit _ f => [(f, f)]
  end.
Definition ranges_of (cs : list constraint) : list (oid * oid) := flat_map range_of cs.

(** [Dag::get_only_parent_oid] (core/dag.rs:388-395). *)
Definition get_only_parent (g : graph) (o : oid) : option oid :=
  match elements (parents g {[o]}) with [p] => Some p | _ => None end.

(** The loop looking for an unconstrained ancestor (plan.rs:316-323). *)
Fixpoint climb (fuel : nat) (g : graph) (stop : oid -> bool) (o : oid) : outcome oid :=
  match fuel with
  | O => NoFuel
  | S fuel' =>
      if stop o then Done o
      else match get_only_parent g o with
           | Some p => climb fuel' g stop p
           | None => Failed
           end
  end.

(** The closure [move_children] (plan.rs:312-337). *)
Definition move_children (d : dag) (heads : gset oid) (cg : constraint_graph) (r : oid * oid)
  : outcome constraint_graph :=
  let g := dag_graph d in
  match get_only_parent g (fst r) with
  | None => Failed
  | Some p0 =>
      let moving := commits_to_move cg in
      bind (climb (S (length g)) g (fun p => negb (bool_decide (p ∈ heads) && bool_decide (p ∈ moving))) p0)
        (fun p =>
          let kids := filter_visible d (children g {[snd r]} ∖ moving) in
          Done (mk_cg (fold_left (fun m c => add_edge p c m) (elements kids) (cg_inner cg)) (cg_fixups cg)))
  end.

(** [add_constraints] (plan.rs:258-358). *)
Definition add_constraints (d : dag) (cs : list constraint) (cg : constraint_graph)
  : outcome constraint_graph :=
  let heads : gset oid := list_to_set (List.map snd (ranges_of cs)) in
  fold_left (fun r range => bind r (fun cg => move_children d heads cg range)) (ranges_of cs)
    (Done (first_pass cs cg)).

(** [add_descendant_constraints] (plan.rs:360-396). *)
Definition add_descendant_constraints (d : dag) (cg : constraint_graph) : outcome constraint_graph :=
  let g := dag_graph d in
  let touched := commits_to_move cg ∪ commits_to_fixup cg in
  let below := filter_visible d (descendants g touched ∖ touched) in
  add_constraints d (List.map (fun o => MoveSubtree (parents_of g o) o) (elements below)) cg.

(** [check_for_cycles_helper] (plan.rs:398-419): [None], or the path with the
    repeated commit at its end. *)
Fixpoint check_from (fuel : nat) (m : gmap oid (gset oid)) (path : list oid) (o : oid)
  : outcome (option (list oid)) :=
  match fuel with
  | O => NoFuel
  | S fuel' =>
      if decide (o ∈ path) then Done (Some (path ++ [o]))
      else fold_left (fun r c => bind r (fun x => match x with
                                                   | Some l => Done (Some l)
                                                   | None => check_from fuel' m (path ++ [o]) c
                                                   end))
             (sorted_oids (edges_from m o)) (Done None)
  end.

(** [check_for_cycles] (plan.rs:421-430). *)
Definition cg_nodes (m : gmap oid (gset oid)) : gset oid := dom m ∪ all_values m.
Definition check_for_cycles (m : gmap oid (gset oid)) : outcome (option (list oid)) :=
  fold_left (fun r o => bind r (fun x => match x with
                                         | Some l => Done (Some l)
                                         | None => check_from (S (S (size (cg_nodes m)))) m [] o
                                         end))
    (sorted_oids (dom m)) (Done None).

(** [check_permissions] (plan.rs:431-445): the commits that may not be moved. *)
Definition check_permissions (cg : constraint_graph) (allowed : gset oid) : gset oid :=
  commits_to_move cg ∖ allowed.

(** [find_roots] (plan.rs:447-480).  The derived order of constraints puts moves
    before fixups, and moves in the order of their destination. *)
Inductive root := RootMove (p c : oid) | RootFixup (t : oid).
Definition find_roots (cg : constraint_graph) : list root :=
  let free_fixups := commits_to_fixup cg ∖ commits_to_move cg in
  let free := (cg_parents cg ∖ commits_to_move cg) ∖ free_fixups in
  flat_map (fun p => List.map (RootMove p) (sorted_oids (edges_from (cg_inner cg) p))) (sorted_oids free)
  ++ List.map RootFixup (sorted_oids free_fixups).

(** ** The commands *)

(** [make_label_name] (plan.rs:738-750). *)
Fixpoint make_label (fuel : nat) (used : gset string) (name : string) : outcome (string * gset string) :=
  match fuel with
  | O => NoFuel
  | S fuel' =>
      if decide (name ∈ used) then make_label fuel' used (name +:+ "'")
      else Done (name, {[name]} ∪ used)
  end.

(** [BuildState] (plan.rs:530-554) with the commands so far. *)
Record build_state := mk_bs {
  bs_used : gset string;
  bs_labels : gmap oid string;
  bs_acc : list command }.
Definition push (cmds : list command) (s : build_state) : build_state :=
  mk_bs (bs_used s) (bs_labels s) (bs_acc s ++ cmds).

(** What the planner is given: the repository, the commits to be replaced, the
    commits already applied upstream (the patch comparison never matches merge
    commits, git/repo.rs:806-827), and the order of [sorted_commit_set]. *)
Record plan_env := mk_pe {
  pe_find : oid -> option commit;
  pe_replace : gmap oid oid;
  pe_upstream : root -> oid -> bool;
  pe_sort : gset oid -> list oid }.

Definition is_merge (c : commit) : bool := Nat.ltb 1 (length (commit_parents c)).

(** [commits_to_merge] (plan.rs:786-812). *)
Definition merge_parents (moving : gset oid) (labels : gmap oid string) (ps : list oid)
  : option (list oid_or_label) :=
  all_some (List.map (fun p => if decide (p ∈ moving)
                               then match labels !! p with Some l => Some (AtLabel l) | None => None end
                               else Some (AtOid p)) ps).

(** [commit_already_applied] (plan.rs:825-836). *)
Definition already_applied (c : oid) (acc : list command) : bool :=
  existsb (fun cmd => match cmd with
                      | Merge c' _ | Replace c' _ _ => N.eqb c' c
                      | _ => false
                      end) acc.

(** The commands for one commit (plan.rs:761-944): [None] to come back later. *)
Definition apply_commit (e : plan_env) (cg : constraint_graph) (root : root) (c : oid) (cm : commit)
  (s : build_state) : outcome (option build_state) :=
  if (negb (is_merge cm) && pe_upstream e root c)%bool then Done (Some (push [SkipUpstream c] s))
  else if is_merge cm then
    match merge_parents (commits_to_move cg) (bs_labels s) (commit_parents cm) with
    | None => Done None
    | Some ps =>
        if already_applied c (bs_acc s) then Done None
        else match ps with
             | [] => Failed
             | first :: rest =>
                 Done (Some (push [Reset_ first;
                   match pe_replace e !! c with
                   | None => Merge c rest
                   | Some r => Replace c r ps
                   end] s))
             end
    end
  else if decide (c ∈ fixup_commits cg) then Done (Some s)
  else match pe_replace e !! c with
       | Some r =>
           match pe_find e r with
           | None => Failed
           | Some rc =>
               Done (Some (push [Replace c r (List.map (fun p => match bs_labels s !! p with
                                                                 | None => AtOid p
                                                                 | Some l => AtLabel l
                                                                 end) (commit_parents rc))] s))
           end
       | None =>
           let to_apply := match cg_fixups cg !! c with
                           | None => [c]
                           | Some fs => pe_sort e ({[c]} ∪ fs)
                           end in
           Done (Some (push [Pick c to_apply; DetectEmpty c] s))
       end.

(** A fresh label for the current place (plan.rs:967-974 and 995-1000). *)
Definition create_label (prefix : string) (s : build_state) : outcome (string * build_state) :=
  bind (make_label (S (size (bs_used s))) (bs_used s)
         (prefix +:+ isize_to_string (Z.of_nat (length (bs_acc s)))))
    (fun r => Done (fst r, mk_bs (snd r) (bs_labels s) (bs_acc s ++ [CreateLabel (fst r)]))).

(** [make_rebase_plan_for_current_commit] (plan.rs:752-1016). *)
Definition needs_label (e : plan_env) (kids : list (oid * commit)) : bool :=
  existsb (fun k => (is_merge (snd k) || bool_decide (is_Some (pe_replace e !! fst k)))%bool) kids.
Definition find_all (find : oid -> option commit) (l : list oid) : option (list (oid * commit)) :=
  all_some (List.map (fun o => match find o with Some c => Some (o, c) | None => None end) l).
Fixpoint visit (fuel : nat) (e : plan_env) (cg : constraint_graph) (root : root) (c : oid) (cm : commit)
  (s : build_state) : outcome build_state :=
  match fuel with
  | O => NoFuel
  | S fuel' =>
      bind (apply_commit e cg root c cm s) (fun o =>
        match o with
        | None => Done s
        | Some s =>
            match find_all (pe_find e) (sorted_oids (edges_from (cg_inner cg) c)) with
            | None => Failed
            | Some kids =>
                bind (if needs_label e kids
                      then bind (create_label "parent-" s) (fun r =>
                             Done (mk_bs (bs_used (snd r)) (<[c := fst r]> (bs_labels (snd r))) (bs_acc (snd r))))
                      else Done s) (fun s =>
                  match kids with
                  | [] => Done s
                  | [k] => visit fuel' e cg root (fst k) (snd k) s
                  | _ =>
                      bind (create_label "label-" s) (fun r =>
                        fold_left (fun acc k => bind acc (fun s =>
                            bind (visit fuel' e cg root (fst k) (snd k) s) (fun s =>
                              Done (push [Reset_ (AtLabel (fst r))] s))))
                          kids (Done (snd r)))
                  end)
            end
        end)
  end.

(** One root of the traversal (plan.rs:1150-1202).  The commit and the place it
    goes to; a fixup target without parents is a panic. *)
Definition root_commit (r : root) : oid := match r with RootMove _ c => c | RootFixup t => t end.
Definition root_dest (e : plan_env) (r : root) : option oid :=
  match r with
  | RootMove p _ => Some p
  | RootFixup t => match pe_find e t with
                   | Some cm => match commit_parents cm with p :: _ => Some p | [] => None end
                   | None => None
                   end
  end.
Definition plan_fuel (cg : constraint_graph) : nat :=
  S (S (size (cg_nodes (cg_inner cg) ∪ commits_to_fixup cg))).
Definition plan_root (e : plan_env) (cg : constraint_graph) (r : root) (s : build_state) : outcome build_state :=
  match root_dest e r, pe_find e (root_commit r) with
  | Some p, Some cm => visit (plan_fuel cg) e cg r (root_commit r) cm (push [Reset_ (AtOid p)] s)
  | _, _ => Failed
  end.

(** The outcomes of [RebasePlanBuilder::build] (plan.rs:1099-1218). *)
Inductive build_result :=
| BuiltPlan (first_dest : oid) (cmds : list command)
| BuiltNothing
| BuiltCycle (l : list oid)
| BuiltIllegal (s : gset oid).

Definition build_constraints (d : dag) (cs : list constraint) : outcome constraint_graph :=
  bind (add_constraints d cs empty_cg) (add_descendant_constraints d).

Definition build_commands (e : plan_env) (cg : constraint_graph) : outcome build_state :=
  fold_left (fun acc r => bind acc (plan_root e cg r)) (find_roots cg) (Done (mk_bs ∅ ∅ [])).

Definition build (d : dag) (e : plan_env) (allowed : gset oid) (cs : list constraint) : outcome build_result :=
  bind (build_constraints d cs) (fun cg =>
    bind (check_for_cycles (cg_inner cg)) (fun cycle =>
      match cycle with
      | Some l => Done (BuiltCycle l)
      | None =>
          if decide (check_permissions cg allowed = ∅) then
            bind (build_commands e cg) (fun s =>
              match find_roots cg with
              | [] => Done BuiltNothing
              | r :: _ =>
                  match root_dest e r with
                  | Some p => Done (BuiltPlan p (bs_acc s ++ [RegisterExtra]))
                  | None => Failed
                  end
              end)
          else Done (BuiltIllegal (check_permissions cg allowed))
      end)).
