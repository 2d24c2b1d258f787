(** What hiding, unhiding and repairing should do, said on references, HEAD and the
    events of the log. *)
From Verif Require Import Base TextModel EventLogModel EventLogSpec DagModel DagSpec StrModel StrProofs HookModel HookSpec
  ExecModel ExecSpec HideModel.
Local Open Scope string_scope.
Local Open Scope list_scope.

(** A local branch points at the commit. *)
Definition branch_at (refs : gmap refname oid) (o : oid) : Prop :=
  exists s, refs !! ("refs/heads/" +:+ s : refname) = Some o.

(** The commit is shown: it is, or is an ancestor of, one that is active according to
    the log, checked out, or the place of a branch. *)
Definition shown (g : graph) (r : hrepo) (o : oid) : Prop :=
  exists v, ancestor g o v /\
    (visibility (hr_log r) v Active \/ hi_oid (hr_head r) = Some v \/ branch_at (hr_refs r) v).

(** The commits meant by the arguments of [git hide] and [git unhide]. *)
Definition meant_to_hide (g : graph) (r : hrepo) (recursive : bool) (chosen : commit_set) (o : oid) : Prop :=
  if recursive then (exists c, c ∈ chosen /\ ancestor g c o) /\ shown g r o else o ∈ chosen.
Definition meant_to_unhide (g : graph) (r : hrepo) (recursive : bool) (chosen : commit_set) (o : oid) : Prop :=
  if recursive then (exists c, c ∈ chosen /\ ancestor g c o) /\ visibility (hr_log r) o Obsolete else o ∈ chosen.

(** The repository is in order: the graph has no cycles and has the commits of all
    references, the main branch is a local branch that exists, the branch checked out
    is where HEAD is. *)
Record in_order (e : hide_env) (r : hrepo) : Prop := {
  io_graph : wf_graph (he_graph e);
  io_main : exists s, he_main e = "refs/heads/" +:+ s;
  io_exists : is_Some (hr_refs r !! he_main e);
  io_table : branch_table (he_groups e (hr_refs r)) (hr_refs r);
  io_known : forall n o, hr_refs r !! n = Some o -> o ∈ vertices (he_graph e);
  io_active : forall o, visibility (hr_log r) o Active -> o ∈ vertices (he_graph e);
  io_head : forall o, hi_oid (hr_head r) = Some o -> o ∈ vertices (he_graph e);
  io_branch : forall n, hi_branch (hr_head r) = Some n -> hr_refs r !! n = hi_oid (hr_head r) }.

(** The hook is told about the branches in a form it can read, and references no longer
    in the repository are not in the file of packed references either. *)
Record hook_ready (e : hide_env) (refs refs' : gmap refname oid) : Prop := {
  hk_file : HookSpec.readable (he_utf8 e) (he_packed e);
  hk_name : forall n o, refs !! n = Some o -> oid_ok o /\ lacks " " n /\ lacks LF n;
  hk_text : forall n o x, refs !! n = Some o -> he_utf8 e (update_line (o, x, n)) = true;
  hk_upstream : forall t, be_upstream (he_branch e) = Some (Some t) -> oid_ok t;
  hk_packed : forall n m, packed_at (he_packed e) n m -> is_Some (refs' !! n) }.
