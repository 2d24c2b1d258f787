(** What the smartlog is to show. *)
From Verif Require Import Base TextModel EventLogModel EvolveModel DagModel DagSpec NavModel SlogModel.

(** [m] is a greatest common ancestor of a set. *)
Definition common_ancestor (g : graph) (s : commit_set) (m : oid) : Prop :=
  forall x, x ∈ s -> ancestor g m x.
Definition greatest_common (g : graph) (s : commit_set) (m : oid) : Prop :=
  common_ancestor g s m /\ forall m', common_ancestor g s m' -> ~ proper_ancestor g m m'.

(** The surroundings fit together: one main branch, lists of all members of a set, and a
    graph library that answers with a greatest common ancestor when there is one. *)
Definition slog_ok (e : slog_env) (main : oid) : Prop :=
  let g := dag_graph (sl_dag e) in
  wf_graph g /\ main_branch_commit (sl_dag e) = {[main]} /\
  (forall s, sl_order e s ≡ₚ elements s) /\
  (forall s, s <> ∅ -> match sl_gca_one e s with
             | Some m => greatest_common g s m
             | None => forall m, ~ common_ancestor g s m
             end).

(** No merge is below the commits [vs], other than on the main branch. *)
Definition no_merges (d : dag) (vs : commit_set) : Prop :=
  forall v o p p', v ∈ vs -> ancestor (dag_graph d) o v -> ~ public d o ->
    parents_of (dag_graph d) o = p :: p' -> p' = [].

(** The commit lines of an output. *)
Definition commits_in (ls : list line) : list oid :=
  flat_map (fun l => match l with Commit o _ _ _ => [o] | _ => [] end) ls.

(** [a] is the nearest of the commits shown below [x]. *)
Definition nearest_shown (g : graph) (vs : commit_set) (a x : oid) : Prop :=
  a ∈ vs /\ proper_ancestor g a x /\ forall b, b ∈ vs -> proper_ancestor g b x -> ancestor g b a.

(** [x] belongs to the block of [a]: it is above [a], and no shown commit of the main
    branch is nearer to it. *)
Definition belongs (d : dag) (vs : commit_set) (a x : oid) : Prop :=
  x ∈ vs /\ ~ public d x /\ proper_ancestor (dag_graph d) a x /\
  forall b, b ∈ vs -> public d b -> ancestor (dag_graph d) b x -> ancestor (dag_graph d) b a.

(** What precedes the line of a commit: nothing for public commits and for those whose
    parent is shown, otherwise the number of commits down to the nearest shown one. *)
Definition right_before (d : dag) (vs : commit_set) (o : oid) (ls : list line) : Prop :=
  let g := dag_graph d in
  (ls = [] /\ (public d o \/ exists a, nearest_shown g vs a o /\ parent g a o)) \/
  (exists a s, ls = [OmittedBefore (size s)] /\ ~ public d o /\ nearest_shown g vs a o /\ ~ parent g a o /\
     forall x, x ∈ (s : commit_set) <-> proper_ancestor g a x /\ proper_ancestor g x o).

(** What follows it: the number of visible commits above, when there are some and none of
    them is shown; nothing for the main branch below its tip. *)
Definition right_after (d : dag) (main : oid) (vs : commit_set) (o : oid) (ls : list line) : Prop :=
  exists s : commit_set, (forall x, x ∈ s <-> visible d x /\ proper_ancestor (dag_graph d) o x) /\
  ((ls = [] /\ ((public d o /\ o <> main) \/ (exists x, belongs d vs o x) \/ s = ∅)) \/
   (ls = [OmittedAfter (size s)] /\ s <> ∅ /\ (public d o -> o = main) /\ forall x, ~ belongs d vs o x)).

(** The line itself. *)
Definition right_line (e : slog_env) (o : oid) (l : line) : Prop :=
  exists p b h, l = Commit o p b h /\
    (p = true <-> public (sl_dag e) o) /\ (b = true <-> o ∈ obsolete_commits (sl_dag e)) /\
    (h = true <-> sl_head e = Some o).

(** The lines of [o] are followed by those of all commits belonging to it, and by no
    others before these are complete. *)
Definition right_block (e : slog_env) (main : oid) (vs : commit_set) (ls : list line) (o : oid) : Prop :=
  exists l1 before l after l2 l3, ls = l1 ++ (before ++ [l] ++ after ++ l2) ++ l3 /\
    right_before (sl_dag e) vs o before /\ right_line e o l /\ right_after (sl_dag e) main vs o after /\
    forall x, (x ∈ commits_in l2 <-> belongs (sl_dag e) vs o x) /\
              (x ∈ commits_in (l1 ++ l3) -> ~ belongs (sl_dag e) vs o x).

(** The commits asked for: the given ones, and HEAD and the main branch unless told
    otherwise. *)
Definition asked (d : dag) (main : oid) (exact : bool) (commits : commit_set) (s : commit_set) : Prop :=
  forall x, x ∈ s <-> x ∈ commits \/ (exact = false /\ (x ∈ head_commit d \/ x = main)).

(** The commits to show: those, and where each of them leaves the main branch; without the
    main branch, where they part. *)
Definition displayed (d : dag) (main : oid) (exact : bool) (commits vs : commit_set) : Prop :=
  exists s, asked d main exact commits s /\
  forall x, x ∈ vs <-> x ∈ s \/
    (main ∈ s /\ exists c, c ∈ s /\ greatest_common (dag_graph d) {[main; c]} x) \/
    (main ∉ s /\ s <> ∅ /\ greatest_common (dag_graph d) s x).

(** The main branch is asked for, and every commit to show has a part of it below. *)
Definition on_main (d : dag) (main : oid) (exact : bool) (commits vs : commit_set) : Prop :=
  (exact = false \/ main ∈ commits) /\
  forall x, x ∈ vs -> exists q, public d q /\ ancestor (dag_graph d) q x.

(** Surroundings that fit together, for the examples. *)
Definition plain_env (d : dag) (time : oid -> Z) (h : option oid) : slog_env :=
  SlogEnv d time (fun _ => true) (fun s => List.hd_error (elements (gca_all (dag_graph d) s))) elements h.
