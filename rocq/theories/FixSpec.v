(** What [git test fix] should do, said on commits, references and the events of the log. *)
From Verif Require Import Base TextModel EventLogModel EventLogSpec EvolveSpec DagModel DagSpec StrModel HookModel PlanModel PlanSpec
  ExecModel ExecSpec HideModel HideSpec RestackModel RestackSpec SyncModel SyncSpec MoveModel MoveSpec ModeModel TreeModel SnapModel AmendModel AmendSpec
  TestCacheModel FixModel.
From Verif Require NavModel.
Local Open Scope string_scope.
Local Open Scope list_scope.

(** The command left the contents [t] for [c], and they are not those [c] has. *)
Definition leaves (outs : list (oid * outcome)) (c t : oid) : Prop :=
  exists cached f i, (c, OPassed cached f i) ∈ outs /\ fi_tree f = Some t.
Definition changes (st : store) (outs : list (oid * outcome)) (c t : oid) : Prop :=
  leaves outs c t /\ exists x, st !! c = Some x /\ commit_tree (ob_commit x) <> t.
Definition to_fix (st : store) (outs : list (oid * outcome)) (c : oid) : Prop := exists t, changes st outs c t.

(** The contents [c] is to have afterwards. *)
Definition contents_after (st : store) (outs : list (oid * outcome)) (c t : oid) : Prop :=
  changes st outs c t \/ (~ to_fix st outs c /\ exists x, st !! c = Some x /\ commit_tree (ob_commit x) = t).

(** A test that did not pass. *)
Definition not_passed (x : outcome) : Prop := forall cached f i, x <> OPassed cached f i.

(** Fixed commits get the contents the command left, and the commits above keep theirs; each
    is put on what its parents became and is otherwise as before.  Branches and HEAD go
    along, the log tells what was rewritten, and everything else stays. *)
Record fixes_done (e : restack_env) (r : rrepo) (outs : list (oid * outcome)) (rw : gmap oid moid) (r' : rrepo) : Prop := {
  fd_store : rr_store r ⊆ rr_store r';
  fd_which : forall c, is_Some (rw !! c) <->
    to_fix (rr_store r) outs c \/ exists o, to_fix (rr_store r) outs o /\ above (he_graph (re_hide e)) (rr_repo r) o c;
  fd_made : forall c y, rw !! c = Some (NonZero y) -> exists x qs t, rr_store r !! c = Some x /\ contents_after (rr_store r) outs c t /\
    rr_store r' !! y = Some (remade (re_exec e) x qs t) /\
    Forall2 (becomes (parent (he_graph (re_hide e))) rw) (parents_of (he_graph (re_hide e)) c) qs;
  fd_dropped : forall c, rw !! c = Some Zero -> ~ merge_commit (he_graph (re_hide e)) c /\ exists t, re_upstream e t c = true;
  fd_branches : forall n, is_local n = true ->
    hr_refs (rr_repo r') !! n = branch_after (he_branch (re_hide e)) rw (hr_refs (rr_repo r)) n;
  fd_others : forall n, is_local n = false -> (forall o, n <> "refs/branchless/" +:+ oid_to_string o) ->
    hr_refs (rr_repo r') !! n = hr_refs (rr_repo r) !! n;
  fd_head : forall h, hi_oid (hr_head (rr_repo r)) = Some h -> exists q, hi_oid (hr_head (rr_repo r')) = Some q /\
    (becomes (parent (he_graph (re_hide e))) rw h q \/
     (hi_branch (hr_head (rr_repo r)) = Some (he_main (re_hide e)) /\ rw !! h = Some Zero /\
      be_upstream (he_branch (re_hide e)) = Some (Some q)));
  fd_branch : forall n, hi_branch (hr_head (rr_repo r')) = Some n <->
    hi_branch (hr_head (rr_repo r)) = Some n /\ is_Some (hr_refs (rr_repo r') !! n);
  fd_old : fresh (he_graph (re_hide e)) (hr_log (rr_repo r)) rw -> forall o new, rw !! o = Some new ->
    rewritten (hr_log (rr_repo r')) o new /\ visibility (hr_log (rr_repo r')) o Obsolete;
  fd_new : fresh (he_graph (re_hide e)) (hr_log (rr_repo r)) rw -> forall n, made rw n -> visibility (hr_log (rr_repo r')) n Active;
  fd_rest : fresh (he_graph (re_hide e)) (hr_log (rr_repo r)) rw -> forall o v, rw !! o = None -> ~ made rw o ->
    visibility (hr_log (rr_repo r')) o v <-> visibility (hr_log (rr_repo r)) o v }.

(** Only commits were added to the repository. *)
Definition only_commits (r r' : rrepo) : Prop := rr_repo r' = rr_repo r /\ rr_store r ⊆ rr_store r'.

(** Everything around the command works as it should: the tests are about known commits,
    and there is one result for each. *)
Record fixable (s : fix_setting) (r : rrepo) (tested : commit_set) (outs : list (oid * outcome)) : Prop := {
  fa_order : restackable (fs_restack s) r;
  fa_tested : forall c, c ∈ tested -> c ∈ vertices (he_graph (re_hide (fs_restack s)));
  fa_outs : forall c x, (c, x) ∈ outs -> c ∈ tested;
  fa_once : NoDup (List.map fst outs) }.
(** The contents left are in the repository. *)
Definition trees_there (s : fix_setting) (outs : list (oid * outcome)) : Prop := forall c t, leaves outs c t -> fs_tree s t = true.
