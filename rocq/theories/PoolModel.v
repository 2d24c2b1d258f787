(** Model of the pool of resources shared by threads
    (git-branchless-lib/src/core/task.rs).

    Every call locks the pool's mutex for its whole effect, so calls take effect
    one after the other, in any order.  Resources are named by numbers.  What the
    constructor of resources does is part of the call: it gives a resource, an
    error, or panics; in the last case the lock is held and gets poisoned. *)
From Verif Require Import Base.

(** [ResourcePool] (task.rs:61-64): the resources available and whether the
    mutex is poisoned. *)
Record pool := Pool { pl_resources : list nat; pl_poisoned : bool }.

(** [ResourcePool::new] (task.rs:110-115). *)
Definition pool_new : pool := Pool [] false.

(** [Resource::try_create] (task.rs:15), called if there is nothing available. *)
Inductive construction := Made (r : nat) | Failed | Panics.

(** The results of a call; [Panicked] is a panic. *)
Inductive acquired := Handle (r : nat) | CreateError | Panicked.

(** [ResourcePool::try_create] (task.rs:120-136): [Vec::pop] takes the last one. *)
Definition pool_acquire (p : pool) (c : construction) : acquired * pool :=
  if pl_poisoned p then (Panicked, p)
  else match rev (pl_resources p) with
       | r :: rest => (Handle r, Pool (rev rest) false)
       | [] =>
         match c with
         | Made r => (Handle r, p)
         | Failed => (CreateError, p)
         | Panics => (Panicked, Pool (pl_resources p) true)
         end
       end.

(** [ResourceHandle::drop] (task.rs:89-98): [None] is a panic. *)
Definition pool_release (p : pool) (r : nat) : option pool :=
  if pl_poisoned p then None else Some (Pool (pl_resources p ++ [r]) false).
