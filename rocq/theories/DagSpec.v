(** The commit graph as a relation. *)
From Verif Require Import Base TextModel EventLogModel DagModel.

(** [p] is a parent of [c]. *)
Definition parent (g : graph) (p c : oid) : Prop := exists ps, (c, ps) ∈ g /\ p ∈ ps.

(** [a] is an ancestor of [d] or [d] itself. *)
Definition ancestor (g : graph) : oid -> oid -> Prop := rtc (parent g).
(** ... and different from it by at least one step. *)
Definition proper_ancestor (g : graph) : oid -> oid -> Prop := tc (parent g).

(** Every commit occurs once, after all its parents. *)
Fixpoint well_ordered (seen : commit_set) (g : graph) : Prop :=
  match g with
  | [] => True
  | (o, ps) :: g' => o ∉ seen /\ (forall p, p ∈ ps -> p ∈ seen) /\ well_ordered ({[o]} ∪ seen) g'
  end.
Definition wf_graph (g : graph) : Prop := well_ordered ∅ g.

(** Commits that are visible by themselves: not hidden, or pointed to by HEAD, a
    branch or the main branch. *)
Definition kept (d : dag) (o : oid) : Prop :=
  (o ∈ observed_commits d /\ o ∉ obsolete_commits d) \/ o ∈ head_commit d \/
  o ∈ main_branch_commit d \/ o ∈ branch_commits d.
Definition visible (d : dag) (o : oid) : Prop := exists v, kept d v /\ ancestor (dag_graph d) o v.
Definition public (d : dag) (o : oid) : Prop :=
  exists m, m ∈ main_branch_commit d /\ ancestor (dag_graph d) o m.

(** Linked within a set of commits. *)
Definition link (g : graph) (s : commit_set) (a b : oid) : Prop :=
  a ∈ s /\ b ∈ s /\ (parent g a b \/ parent g b a).
Definition connected (g : graph) (s : commit_set) : oid -> oid -> Prop := rtc (link g s).
