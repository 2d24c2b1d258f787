(** Model of the lookup of rewritten commits
    (git-branchless-lib/src/core/rewrite/evolve.rs). *)
From Verif Require Import Base TextModel EventLogModel.
Local Open Scope Z_scope.

(** [find_rewrite_target] (core/rewrite/evolve.rs:15-57).  The outer option is
    [None] when the fuel runs out. *)
Fixpoint find_rewrite_target_fuel (fuel : nat) (r : replayer) (c : cursor) (o : oid)
  : option (option moid) :=
  match fuel with
  | O => None
  | S fuel' =>
      match latest_event r c o with
      | None => Some None
      | Some (RewriteEvent _ _ (NonZero old) new) =>
          if N.eqb old o && negb (bool_decide (new = NonZero o)) then
            match new with
            | Zero => Some (Some Zero)
            | NonZero new' =>
                match find_rewrite_target_fuel fuel' r c new' with
                | None => None
                | Some (Some newer) => Some (Some newer)
                | Some None => Some (Some (NonZero new'))
                end
            end
          else Some None
      | Some _ => Some None
      end
  end.

(** With one unit of fuel per event and one more. *)
Definition find_rewrite_target (r : replayer) (c : cursor) (o : oid) : option (option moid) :=
  find_rewrite_target_fuel (S (length (events r))) r c o.
