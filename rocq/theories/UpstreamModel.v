(** Model of finding commits that were applied upstream already, when a plan is made (git-branchless-lib/src/core/rewrite/plan.rs).

    What a commit touches and the identifier of its patch are functions of the commit: both are
    computed by libgit2 from its tree and those of its parents.  Errors of libgit2 are not
    modelled.  The threads used have no effect on the result. *)
From Verif Require Import Base TextModel DagModel StrModel HookModel PlanModel.
Local Open Scope list_scope.

(** What is looked up: whether a commit is in the repository, the paths it touches ([get_paths_touched_by_commit],
    git/repo.rs:890-917) and its patch, which merges have none of ([get_patch_id], git/repo.rs:919-931 with
    :801-827). *)
Record upstream_env := mk_ue {
  ue_there : oid -> bool;
  ue_paths : oid -> gset string;
  ue_patch : oid -> option N }.
(** [touched_paths_cache] (plan.rs:570-573), shared by the plans made from one builder and its clones. *)
Definition path_cache := gmap oid (gset string).

(** [should_check_patch_id] (plan.rs:1440-1450). *)
Definition should_check (upstream : gset string) (local : list (gset string)) : bool := bool_decide (upstream ∈ local).

(** [filter_path_to_merge_base_commits] (plan.rs:1341-1438): commits that are not there are left out unless the cache knows
    them; then it fails ([None]). *)
Definition local_paths (ue : upstream_env) (moving : commit_set) : list (gset string) :=
  List.map (ue_paths ue) (List.filter (ue_there ue) (elements moving)).
Definition cached_paths (ue : upstream_env) (cache : path_cache) (c : oid) : option (gset string) :=
  match cache !! c with
  | Some ps => Some ps
  | None => if ue_there ue c then Some (ue_paths ue c) else None
  end.
Definition filter_path (ue : upstream_env) (cache : path_cache) (local : list (gset string)) (path : list oid) : option (list oid) :=
  let l := List.filter (fun c => match cached_paths ue cache c with Some ps => should_check ps local | None => false end) path in
  if forallb (ue_there ue) l then Some l else None.
Definition fill_cache (ue : upstream_env) (cache : path_cache) (path : list oid) : path_cache :=
  fold_right (fun c acc => match cached_paths ue cache c with Some ps => <[c := ps]> acc | None => acc end) cache path.

(** [get_upstream_patch_ids] (plan.rs:1266-1339). *)
Definition upstream_path (g : graph) (current : oid) (dests : list oid) : commit_set :=
  range g (⋃ (List.map (fun p => gca_all g {[current; p]}) dests)) (list_to_set dests).
Definition upstream_patch_ids (ue : upstream_env) (g : graph) (cache : path_cache) (moving : commit_set) (current : oid) (dests : list oid)
  : option (gset N) * path_cache :=
  let path := elements (upstream_path g current dests) in
  match filter_path ue cache (local_paths ue moving) path with
  | Some l => (Some (list_to_set (omap (ue_patch ue) l)), fill_cache ue cache path)
  | None => (None, fill_cache ue cache path)
  end.

(** [patch_already_applied_upstream] (plan.rs:761-773). *)
Definition applied_upstream (ue : upstream_env) (ids : gset N) (c : oid) : bool :=
  match ue_patch ue c with Some i => bool_decide (i ∈ ids) | None => false end.
Definition with_upstream (e : plan_env) (f : root -> oid -> bool) : plan_env := mk_pe (pe_find e) (pe_replace e) f (pe_sort e).

(** The loop of [build] (plan.rs:1150-1202), with what it looks up for each root. *)
Definition root_dests (e : plan_env) (r : root) : list oid :=
  match r with
  | RootMove p _ => [p]
  | RootFixup t => match pe_find e t with Some cm => commit_parents cm | None => [] end
  end.
Fixpoint plan_roots (ue : upstream_env) (g : graph) (detect : bool) (e : plan_env) (cg : constraint_graph) (rs : list root)
  (cache : path_cache) (s : build_state) : outcome build_state * path_cache :=
  match rs with
  | [] => (Done s, cache)
  | r :: rs' =>
      match root_dest e r with
      | None => (Failed, cache)
      | Some _ =>
          match (if detect then upstream_patch_ids ue g cache (commits_to_move cg) (root_commit r) (root_dests e r) else (Some ∅, cache)) with
          | (None, cache) => (Failed, cache)
          | (Some ids, cache) =>
              match plan_root (with_upstream e (fun _ => applied_upstream ue ids)) cg r s with
              | Done s' => plan_roots ue g detect e cg rs' cache s'
              | x => (x, cache)
              end
          end
      end
  end.
(** [build] (plan.rs:1099-1218), as in PlanModel. *)
Definition build_detecting (d : dag) (ue : upstream_env) (detect : bool) (cache : path_cache) (e : plan_env) (allowed : commit_set) (cs : list constraint)
  : outcome build_result * path_cache :=
  match build_constraints d cs with
  | Done cg =>
      match check_for_cycles (cg_inner cg) with
      | Done (Some l) => (Done (BuiltCycle l), cache)
      | Done None =>
          if decide (check_permissions cg allowed = ∅) then
            match plan_roots ue (dag_graph d) detect e cg (find_roots cg) cache (mk_bs ∅ ∅ []) with
            | (Done s, cache) =>
                (match find_roots cg with
                 | [] => Done BuiltNothing
                 | r :: _ => match root_dest e r with Some p => Done (BuiltPlan p (bs_acc s ++ [RegisterExtra])) | None => Failed end
                 end, cache)
            | (Failed, cache) => (Failed, cache)
            | (NoFuel, cache) => (NoFuel, cache)
            end
          else (Done (BuiltIllegal (check_permissions cg allowed)), cache)
      | Failed => (Failed, cache)
      | NoFuel => (NoFuel, cache)
      end
  | Failed => (Failed, cache)
  | NoFuel => (NoFuel, cache)
  end.
