(** Commits whose change is upstream already. *)
From Verif Require Import Base TextModel DagModel DagSpec StrModel HookModel PlanModel PlanSpec SlogModel SlogSpec UpstreamModel.

(** Both make the same change. *)
Definition same_patch (ue : upstream_env) (c u : oid) : Prop := exists i, ue_patch ue c = Some i /\ ue_patch ue u = Some i.

(** [u] lies between the place where histories of [c] and of the destinations part, this place included, and a
    destination. *)
Definition upstream (g : graph) (c : oid) (dests : list oid) (u : oid) : Prop :=
  (exists p, p ∈ dests /\ ancestor g u p) /\
  (exists p m, p ∈ dests /\ greatest_common g {[c; p]} m /\ ancestor g m u).

(** [c] is the first of the commits put onto [dests], which stay. *)
Definition starts (d : dag) (cs : list constraint) (c : oid) (dests : list oid) : Prop :=
  (exists p, new_parent d cs p c /\ ~ rebuilt d cs p /\ dests = [p]) \/
  (fixup_target cs c /\ ~ moves d cs c /\ dests = parents_of (dag_graph d) c).

(** [u] touches the paths that one of the commits moved does. *)
Definition touches_alike (d : dag) (cs : list constraint) (ue : upstream_env) (u : oid) : Prop :=
  exists c, moves d cs c /\ ue_there ue c = true /\ ue_paths ue u = ue_paths ue c.

(** A change says what paths it touches. *)
Definition paths_told (ue : upstream_env) : Prop := forall c u, same_patch ue c u -> ue_paths ue c = ue_paths ue u.
Definition all_there (d : dag) (ue : upstream_env) : Prop := forall c, c ∈ vertices (dag_graph d) -> ue_there ue c = true.

(** What is cached is what would be found. *)
Definition cache_right (ue : upstream_env) (cache : path_cache) : Prop :=
  forall c ps, cache !! c = Some ps -> ue_there ue c = true /\ ps = ue_paths ue c.
