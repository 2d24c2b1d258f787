(** What [git query] is asked for. *)
From Verif Require Import Base TextModel EventLogModel DagModel DagSpec RevsetSyntaxModel RevsetModel RevsetSpec.

(** The commits a text stands for: what Git knows by it, or its meaning as a
    revset; with [--hidden] as if no commit were hidden. *)
Definition asked (v : env) (hidden : bool) (text : string) (s : commit_set) : Prop :=
  (exists o, env_revparse v text = Some o /\ s = {[o]}) \/
  (env_revparse v text = None /\ exists e, parse text = Some e /\ means (if hidden then nothing_hidden v else v) e s).

(** Ancestors before descendants. *)
Definition ancestors_first (g : graph) (l : list oid) : Prop :=
  forall l1 a l2 b l3, l = l1 ++ a :: l2 ++ b :: l3 -> ~ proper_ancestor g b a.

(** A local branch is called by its name without the prefix. *)
Definition called (n : refname) (short : string) : Prop := n = "refs/heads/" +:+ short.

(** A list of names in order. *)
Definition in_order (l : list string) : Prop := forall l1 a l2 b l3, l = l1 ++ a :: l2 ++ b :: l3 -> String.leb a b = true.
