(** Model of the check that a plan has all commits to be moved
    (git-branchless-lib/src/core/rewrite/plan.rs:1220-1264). *)
From Verif Require Import Base DagModel PlanModel.

(** The commits a command includes (plan.rs:1224-1248). *)
Definition included (x : command) : list oid :=
  match x with
  | CreateLabel _ | Reset_ _ | Break_ | RegisterExtra | DetectEmpty _ => []
  | Pick original to_apply => original :: to_apply
  | Merge c _ | Replace c _ _ | SkipUpstream c => [c]
  end.
(** [check_all_commits_included_in_rebase_plan] (plan.rs:1220-1264): the commits in the
    warning, which goes to the log of the program; there is none if they are none. *)
Definition missing_commits (cg : constraint_graph) (cmds : list command) : gset oid :=
  commits_to_move cg ∖ list_to_set (flat_map included cmds).
(** The warning when a plan was built (plan.rs:1204-1206). *)
Definition build_warning (d : dag) (e : plan_env) (allowed : gset oid) (cs : list constraint) : gset oid :=
  match build_constraints d cs, build d e allowed cs with
  | Done cg, Done (BuiltPlan _ cmds) => missing_commits cg cmds
  | _, _ => ∅
  end.
