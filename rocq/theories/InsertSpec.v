(** What inserting commits should do ([git move --insert]). *)
From Verif Require Import Base TextModel EventLogModel EventLogSpec EvolveSpec DagModel DagSpec StrModel HookModel PlanModel PlanSpec
  ExecModel ExecSpec HideModel HideSpec RestackModel RestackSpec SyncModel SyncSpec MoveModel MoveSpec.
Local Open Scope list_scope.

(** The same command without [--insert]. *)
Definition just_moving (a : move_args) : move_args :=
  mk_ma (ma_sources a) (ma_dest a) (ma_bases a) (ma_exacts a) (ma_fixup a) false.

(** The commits on the destination that make way: those shown that are not themselves given. *)
Definition makes_way (e : restack_env) (r : rrepo) (a : move_args) (d c : oid) : Prop :=
  shown (he_graph (re_hide e)) (rr_repo r) c /\ parent (he_graph (re_hide e)) d c /\
  ~ subtree_given (he_graph (re_hide e)) a r d c.
(** [h] is above what is given and nothing is above it. *)
Definition top_of (g : graph) (given : oid -> Prop) (h : oid) : Prop :=
  (exists c, given c /\ ancestor g c h) /\ forall y, ~ parent g h y.
(** The first commits given go onto the destination, what was there goes onto the top, and
    other commits go onto their parents. *)
Definition inserted_onto (g : graph) (first kid : oid -> Prop) (d h p c : oid) : Prop :=
  (first c /\ p = d) \/ (kid c /\ p = h) \/ (~ first c /\ ~ kid c /\ parent g p c).
(** What is asked for. *)
Definition to_insert (e : restack_env) (r : rrepo) (a : move_args) (d c : oid) : Prop :=
  to_move e r a d c \/ makes_way e r a d c.

(** It makes sense: moving the commits does, there is one top, and there are no merges
    shown above the commits asked for. *)
Record insertable (e : restack_env) (r : rrepo) (a : move_args) (d h : oid) : Prop := {
  ib_movable : movable e r (just_moving a) d;
  ib_insert : ma_insert a = true;
  ib_top : forall x, top_of (he_graph (re_hide e)) (subtree_given (he_graph (re_hide e)) a r d) x <-> x = h;
  ib_merge : forall c x, to_insert e r a d c -> ancestor (he_graph (re_hide e)) c x -> shown (he_graph (re_hide e)) (rr_repo r) x ->
    ~ merge_commit (he_graph (re_hide e)) x }.
(** Everything on the destination counts, whether shown or not. *)
Definition insert_public (e : restack_env) (r : rrepo) (a : move_args) (d : oid) : Prop :=
  re_force e = false /\ exists c o, (to_move e r a d c \/ parent (he_graph (re_hide e)) d c) /\
    ancestor (he_graph (re_hide e)) c o /\ is_public e r o.
