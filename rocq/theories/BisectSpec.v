(** What is known about commits from the reports made so far, in terms of the
    commit graph alone. *)
From Verif Require Import Base TextModel EventLogModel EvolveModel DagModel DagSpec BisectModel.

(** Reports about commits, oldest first. *)
Notation history := (list (oid * bstatus)).

(** A commit is known good when it, or a commit built on it, was reported good;
    known bad when it, or a commit it is built on, was reported bad. *)
Definition known_good (g : graph) (h : history) (o : oid) : Prop :=
  exists x, (x, Good) ∈ h /\ ancestor g o x.
Definition known_bad (g : graph) (h : history) (o : oid) : Prop :=
  exists x, (x, Bad) ∈ h /\ ancestor g x o.
Definition tested (h : history) (o : oid) : Prop := exists s, (o, s) ∈ h.
Definition undecided (g : graph) (h : history) (o : oid) : Prop :=
  ~ tested h o /\ ~ known_good g h o /\ ~ known_bad g h o.

(** What a report must satisfy not to contradict what is known. *)
Definition compatible (g : graph) (h : history) (o : oid) (s : bstatus) : Prop :=
  match s with
  | Good => ~ known_bad g h o
  | Bad => ~ known_good g h o
  | Untested | Indeterminate => (o, Good) ∉ h /\ (o, Bad) ∉ h
  end.

(** The search after accepted reports of results about the given commits. *)
Inductive searching (g : graph) (nodes : list oid) : history -> search -> Prop :=
| searching_start : searching g nodes [] (search_commits g nodes)
| searching_report h se o s se' :
    searching g nodes h se -> o ∈ nodes -> s <> Untested ->
    search_notify se o s = inl se' -> searching g nodes (h ++ [(o, s)]) se'.

(** Every report in the history is the outcome of testing that commit. *)
Definition honest (verdict : oid -> bstatus) (h : history) : Prop :=
  forall o s, (o, s) ∈ h -> s = verdict o.

(** Once bad, always bad; a test always has an outcome. *)
Definition monotone (g : graph) (verdict : oid -> bstatus) : Prop :=
  (forall o, verdict o <> Untested) /\
  forall a d, ancestor g a d -> verdict a = Bad -> verdict d <> Good.

(** Commits stacked on each other, oldest first. *)
Inductive stacked (g : graph) : list oid -> Prop :=
| stacked_nil : stacked g []
| stacked_cons o l : (forall x, x ∈ l -> proper_ancestor g o x) -> stacked g l -> stacked g (o :: l).
