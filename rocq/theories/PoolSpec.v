(** Users of a pool: what each of them holds, and what was constructed. *)
From Verif Require Import Base PoolModel.

(** A user acquires with a constructor that would do as given, or releases. *)
Inductive pool_call := Acquire (user : nat) (c : construction) | Release (user : nat).

(** The pool, the users holding a resource, and the resources constructed so far,
    in order. *)
Record users := Users { us_pool : pool; us_held : list (nat * nat); us_made : list nat }.

Definition holds (held : list (nat * nat)) (u : nat) : option nat :=
  snd <$> List.find (fun p => Nat.eqb (fst p) u) held.
Definition without (held : list (nat * nat)) (u : nat) : list (nat * nat) :=
  List.filter (fun p => negb (Nat.eqb (fst p) u)) held.

(** A call by a user that is able to make it: acquiring while holding nothing,
    releasing what is held.  A resource the constructor makes is new. *)
Inductive pool_step : users -> pool_call -> users -> Prop :=
| step_acquire p held made u c r p' :
    holds held u = None -> pool_acquire p c = (Handle r, p') -> (forall x, c = Made x -> x ∉ made) ->
    pool_step (Users p held made) (Acquire u c)
      (Users p' ((u, r) :: held) (if bool_decide (r ∈ made) then made else made ++ [r]))
| step_error p held made u c p' :
    holds held u = None -> pool_acquire p c = (CreateError, p') ->
    pool_step (Users p held made) (Acquire u c) (Users p' held made)
| step_release p held made u r p' :
    holds held u = Some r -> pool_release p r = Some p' ->
    pool_step (Users p held made) (Release u) (Users p' (without held u) made).

Inductive pool_run : list users -> users -> Prop :=
| run_start : pool_run [] (Users pool_new [] [])
| run_step past s c s' : pool_run past s -> pool_step s c s' -> pool_run (past ++ [s]) s'.
