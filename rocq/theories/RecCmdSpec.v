(** What [git record] should do, said on commits, HEAD and references. *)
From Verif Require Import Base TextModel EventLogModel EventLogSpec EvolveSpec DagModel DagSpec StrModel HookModel PlanModel PlanSpec
  ExecModel ExecSpec HideModel HideSpec RestackModel RestackSpec SyncModel SyncSpec MoveModel MoveSpec TrailerModel RecCmdModel.
From Verif Require SnapModel.
Local Open Scope string_scope.
Local Open Scope list_scope.

(** What is to be taken: the changes chosen if asked for, or else what is staged if anything
    is, or else all changes. *)
Inductive takes : SnapModel.changes_type -> bool -> commit_kind -> Prop :=
| takes_chosen : takes SnapModel.Unstaged true TakeChosen
| takes_all : takes SnapModel.Unstaged false TakeAll
| takes_staged : takes SnapModel.Staged false TakeIndex.
Definition can_commit (v : record_setting) (a : record_args) (c : contents) : Prop :=
  exists k, takes (rv_changes v) (rg_interactive a) k /\ rv_contents v k = Some c.

(** The repository is in a usual state: if HEAD is on a branch that is a local one, and it is
    where HEAD is; names of commits stand for their contents. *)
Record usual (v : record_setting) (r : rrepo) : Prop := {
  us_branch : forall b, hi_branch (hr_head (rr_repo r)) = Some b ->
    hr_refs (rr_repo r) !! b = hi_oid (hr_head (rr_repo r)) /\ exists s, b = "refs/heads/" +:+ s;
  us_head : hi_branch (hr_head (rr_repo r)) = None -> is_Some (hi_oid (hr_head (rr_repo r)));
  us_faithful : faithful_names (re_exec (rv_restack v));
  us_named : named (re_exec (rv_restack v)) (rr_store r) }.

(** [n] was made from these contents, on top of HEAD and the commits being merged; all other
    commits are still there, and no others were added. *)
Record committed (v : record_setting) (r : rrepo) (c : contents) (n : oid) (r' : rrepo) : Prop := {
  cm_parents : exists x, rr_store r' !! n = Some x /\
    commit_parents (ob_commit x) = (match hi_oid (hr_head (rr_repo r)) with Some h => [h] | None => [] end ++ rv_merging v) /\
    commit_tree (ob_commit x) = ct_tree c /\ ob_author x = ct_author c /\ ob_committer x = ct_committer c /\ ob_message x = ct_message c;
  cm_store : forall o, o <> n -> rr_store r' !! o = rr_store r !! o;
  cm_kept : rr_store r ⊆ rr_store r' }.

(** Where HEAD is and what the references are. *)
Definition heads_at (r : rrepo) (o : option oid) (b : option refname) : Prop := hr_head (rr_repo r) = mk_head o b.
Definition only_ref (r r' : rrepo) (b : refname) (o : option oid) : Prop :=
  hr_refs (rr_repo r') !! b = o /\ forall n, n <> b -> hr_refs (rr_repo r') !! n = hr_refs (rr_repo r) !! n.
Definition same_refs (r r' : rrepo) : Prop := hr_refs (rr_repo r') = hr_refs (rr_repo r).

(** The siblings of HEAD: the other commits shown that have a parent in common with it. *)
Definition sibling (e : restack_env) (r : rrepo) (c : oid) : Prop :=
  shown (he_graph (re_hide e)) (rr_repo r) c /\
  exists h p, hi_oid (hr_head (rr_repo r)) = Some h /\ c <> h /\ parent (he_graph (re_hide e)) p h /\ parent (he_graph (re_hide e)) p c.

(** After the commit was made in [r], all is in order; there are no merges among the siblings
    of HEAD, and none of them is below it. *)
Record insertable (e : restack_env) (r : rrepo) : Prop := {
  it_order : restackable e r;
  it_merge : forall c, sibling e r c -> ~ merge_commit (he_graph (re_hide e)) c;
  it_below : forall c h, sibling e r c -> hi_oid (hr_head (rr_repo r)) = Some h -> ~ ancestor (he_graph (re_hide e)) c h }.

Definition without_insert (a : record_args) : record_args := mk_ra (rg_interactive a) (rg_create a) (rg_detach a) false (rg_stash a).

(** Inserting: the siblings go onto HEAD with all that is above them, or nothing is
    different. *)
Definition inserting (e : restack_env) (r : rrepo) (h : oid) (m : record_result) : Prop :=
  match rc_end m with
  | RecordedAndInserted Inserted =>
      exists rw, rc_rewritten m = Some rw /\
        move_done e r (sibling e r) (subtrees_onto (he_graph (re_hide e)) (sibling e r) h) rw (rc_repo m)
  | RecordedAndInserted (ConflictAbove _) => left_alone r (rc_repo m)
  | RecordedAndInserted InsertFails => True
  | RecordedAndInserted _ => rc_repo m = r
  | _ => False
  end.
(** Public commits are among what is above the siblings. *)
Definition siblings_public (e : restack_env) (r : rrepo) : Prop :=
  exists c o, sibling e r c /\ ancestor (he_graph (re_hide e)) c o /\ is_public e r o.
