(** What syncing should do, said on commits, references and the events of the log. *)
From Verif Require Import Base TextModel EventLogModel EventLogSpec DagModel DagSpec StrModel HookModel PlanModel PlanSpec
  ExecModel ExecSpec HideModel HideSpec RestackModel RestackSpec SyncModel.
Local Open Scope string_scope.
Local Open Scope list_scope.

(** With the main branch at [m]: commits that are shown and not on it, and those of them
    directly above it (or above nothing). *)
Definition unmerged (g : graph) (r : hrepo) (m o : oid) : Prop := shown g r o /\ ~ ancestor g o m.
Definition stack_root (g : graph) (r : hrepo) (m c : oid) : Prop :=
  unmerged g r m c /\ forall p, parent g p c -> ancestor g p m.
(** The stacks meant by the arguments: all, or those of the commits given. *)
Definition meant_to_sync (g : graph) (sets : list commit_set) (c : oid) : Prop :=
  sets = [] \/ exists s x, s ∈ sets /\ x ∈ s /\ ancestor g c x.
(** The commits of a stack. *)
Definition in_stack (g : graph) (r : hrepo) (c o : oid) : Prop := ancestor g c o /\ shown g r o.

(** Where a commit goes when these stacks are put on top of [m]: the first commits onto
    [m], the others onto their parents. *)
Definition onto (g : graph) (m : oid) (l : list oid) (p c : oid) : Prop :=
  (c ∈ l /\ p = m) \/ (c ∉ l /\ parent g p c).
(** [q] stands for [p] afterwards: [p] itself, its new version, or what stands for the
    commit it was to go onto when nothing was left of it. *)
Inductive becomes (goes : oid -> oid -> Prop) (rw : gmap oid moid) : oid -> oid -> Prop :=
| becomes_kept p : rw !! p = None -> becomes goes rw p p
| becomes_new p q : rw !! p = Some (NonZero q) -> becomes goes rw p q
| becomes_dropped p p' q : rw !! p = Some Zero -> goes p' p -> becomes goes rw p' q -> becomes goes rw p q.

(** What became of the commits when the stacks [l] were put on top of [m]: all commits of
    these stacks were made again with their changes on top of where they go and otherwise
    as before, or dropped because they are upstream already or change nothing there. *)
Record stacks_moved (e : restack_env) (r : rrepo) (m : oid) (l : list oid) (rw : gmap oid moid) (st' : store) : Prop := {
  sm_which : forall o, is_Some (rw !! o) <-> exists c, c ∈ l /\ in_stack (he_graph (re_hide e)) (rr_repo r) c o;
  sm_made : forall o n, rw !! o = Some (NonZero n) -> exists p q orig tree,
    onto (he_graph (re_hide e)) m l p o /\ becomes (onto (he_graph (re_hide e)) m l) rw p q /\
    rr_store r !! o = Some orig /\ ee_pick (re_exec e) o q = MadeTree tree /\
    st' !! n = Some (remade (re_exec e) orig [q] tree);
  sm_dropped : forall o, rw !! o = Some Zero -> exists p q,
    onto (he_graph (re_hide e)) m l p o /\ becomes (onto (he_graph (re_hide e)) m l) rw p q /\
    ((exists t, re_upstream e t o = true) \/
     exists tree qx, ee_pick (re_exec e) o q = MadeTree tree /\ st' !! q = Some qx /\ commit_tree (ob_commit qx) = tree) }.

(** What became of all commits, taken together. *)
Definition became (l : list (oid * option (gmap oid moid))) : gmap oid moid :=
  foldr (fun x m => match snd x with Some rw => rw ∪ m | None => m end) ∅ l.

(** The stacks the command has something to say about. *)
Definition handled (s : sync_result) : list oid := List.map fst (sy_done s) ++ List.map fst (sy_failed s) ++ sy_skipped s.
(** What keeps a stack from being moved: a merge or a conflict. *)
Definition stopped_at (e : restack_env) (r : rrepo) (c x : oid) : Prop :=
  in_stack (he_graph (re_hide e)) (rr_repo r) c x /\
  (merge_commit (he_graph (re_hide e)) x \/ exists q, ee_pick (re_exec e) x q = Conflict).

(** Rebases are done in memory only. *)
Definition in_memory (e : restack_env) : Prop := re_on_disk e = false /\ (re_resolve e = false \/ re_in_memory e = true).

(** Commits can be read, applied and written, as can branches. *)
Record workable (e : restack_env) (r : rrepo) : Prop := {
  wk_read : forall c, c ∈ vertices (he_graph (re_hide e)) -> readable (re_exec e) (rr_store r) c;
  wk_pick : forall c q, ee_pick (re_exec e) c q <> Broken;
  wk_amend : forall c q, ee_amend (re_exec e) c q <> Broken;
  wk_exists : forall o, be_exists (he_branch (re_hide e)) o = true;
  wk_write : forall n, be_writes (he_branch (re_hide e)) n = true }.

(** Everything around the command works as it should, and no stack starts with a merge. *)
Record syncable (e : restack_env) (r : rrepo) (m : oid) : Prop := {
  sc_order : restackable e r;
  sc_memory : in_memory e;
  sc_main : hr_refs (rr_repo r) !! he_main (re_hide e) = Some m;
  sc_merge : forall c, stack_root (he_graph (re_hide e)) (rr_repo r) m c -> ~ merge_commit (he_graph (re_hide e)) c }.

(** The commits a branch at [b] has that [up] does not have, and the first ones. *)
Definition ahead (g : graph) (b up o : oid) : Prop := ancestor g o b /\ ~ ancestor g o up.
Definition first_ahead (g : graph) (b up c : oid) : Prop := ahead g b up c /\ forall p, parent g p c -> ancestor g p up.

(** Everything around the command works as it should, with the main branch at [m] and its
    upstream at [up]. *)
Record pullable (e : restack_env) (r : rrepo) (m up : oid) : Prop := {
  pu_order : restackable e r;
  pu_memory : in_memory e;
  pu_main : hr_refs (rr_repo r) !! he_main (re_hide e) = Some m;
  pu_up : be_upstream (he_branch (re_hide e)) = Some (Some up);
  pu_known : up ∈ vertices (he_graph (re_hide e)) }.
