(** When [git move] should refuse, since it is not clear what is to go where. *)
From Verif Require Import Base TextModel EventLogModel EventLogSpec EvolveSpec DagModel DagSpec StrModel HookModel PlanModel PlanSpec
  ExecModel ExecSpec HideModel HideSpec RestackModel RestackSpec SyncModel SyncSpec MoveModel MoveSpec.
Local Open Scope list_scope.

Section refuse.
Context (g : graph) (a : move_args).

(** The commits given with [--exact] fall into ranges of connected commits.  The first
    commits of ranges are those without a parent in the range. *)
Definition range_first (x : oid) : Prop := given_exact a x /\ forall p, parent g p x -> ~ given_exact a p.
Inductive same_range : oid -> oid -> Prop :=
| sr_here x : given_exact a x -> same_range x x
| sr_up x y z : same_range x y -> parent g y z -> given_exact a z -> same_range x z
| sr_down x y z : same_range x y -> parent g z y -> given_exact a z -> same_range x z.

(** A range has several first commits, or a first commit not exactly one parent. *)
Definition two_starts : Prop := exists x y, x <> y /\ range_first x /\ range_first y /\ same_range x y.
Definition odd_start : Prop := exists x, range_first x /\ ~ exists p, forall q, parent g q x <-> q = p.
(** Below the range of [x] there are two others, none of them above the other. *)
Definition range_below (s x : oid) : Prop := range_first s /\ ancestor g s x /\ ~ same_range s x.
Definition two_places : Prop := exists x s s', range_first x /\ range_below s x /\ range_below s' x /\
  ~ ancestor g s s' /\ ~ ancestor g s' s.
(** Some ranges are not above one another. *)
Definition two_lines : Prop := exists s s', range_first s /\ range_first s' /\ ~ ancestor g s s' /\ ~ ancestor g s' s.
(** The last commits of what is moved to [d]; of several ranges it is the last that counts. *)
Definition last_moved (r : rrepo) (d x : oid) : Prop :=
  ((exists c, subtree_given g a r d c /\ ancestor g c x) /\ forall y, ~ parent g x y) \/
  (given_exact a x /\ (forall y, parent g x y -> ~ given_exact a y) /\
   exists s, range_first s /\ same_range s x /\ forall s', range_first s' -> ancestor g s' s).
Definition not_one_last (r : rrepo) (d : oid) : Prop := ~ exists x, forall y, last_moved r d y <-> y = x.
(** There are no merges between the destination and the commits given with [--base]. *)
Definition plain_bases (r : rrepo) (d : oid) : Prop := forall b x, given_base a r b -> ahead g b d x -> ~ merge_commit g x.

Definition unclear (r : rrepo) : Prop :=
  (forall d, ~ meant_dest a r d) \/ two_starts \/ odd_start \/ two_places \/
  (ma_insert a = true /\ (two_lines \/ exists d, meant_dest a r d /\ plain_bases r d /\ not_one_last r d)).
End refuse.
