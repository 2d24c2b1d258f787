(** What [git reword] should do, said on commits, references and the events of the log. *)
From Verif Require Import Base TextModel EventLogModel EventLogSpec EvolveSpec DagModel DagSpec StrModel HookModel PlanModel PlanSpec
  ExecModel ExecSpec HideModel HideSpec RestackModel RestackSpec SyncModel SyncSpec MoveModel MoveSpec ModeModel TreeModel SnapModel AmendModel AmendSpec
  RewordCmdModel.
From Verif Require NavModel.
Local Open Scope string_scope.
Local Open Scope list_scope.

(** Applying a commit to one that has the contents of its parent gives its own contents. *)
Definition plain_picks (ee : exec_env) (st : store) : Prop := forall c x p px qx,
  st !! c = Some x -> commit_parents (ob_commit x) = [p] -> st !! p = Some px -> commit_tree (ob_commit qx) = commit_tree (ob_commit px) ->
  ee_pick ee c (ee_hash ee qx) = MadeTree (commit_tree (ob_commit x)).

(** The commit has the contents of its parent. *)
Definition empty_commit (st : store) (c : oid) : Prop := exists x p px,
  st !! c = Some x /\ commit_parents (ob_commit x) = [p] /\ st !! p = Some px /\ commit_tree (ob_commit x) = commit_tree (ob_commit px).

(** The commits that follow those given. *)
Definition is_above (e : restack_env) (r : rrepo) (given : commit_set) (c : oid) : Prop :=
  c ∉ given /\ exists o, o ∈ given /\ above (he_graph (re_hide e)) (rr_repo r) o c.

(** Branches and HEAD go along with the commits, the log tells what was rewritten, and
    everything else stays. *)
Record goes_along (e : restack_env) (r : rrepo) (rw : gmap oid moid) (r' : rrepo) : Prop := {
  ga_store : rr_store r ⊆ rr_store r';
  ga_branches : forall n, is_local n = true ->
    hr_refs (rr_repo r') !! n = branch_after (he_branch (re_hide e)) rw (hr_refs (rr_repo r)) n;
  ga_others : forall n, is_local n = false -> (forall o, n <> "refs/branchless/" +:+ oid_to_string o) ->
    hr_refs (rr_repo r') !! n = hr_refs (rr_repo r) !! n;
  ga_head : forall h, hi_oid (hr_head (rr_repo r)) = Some h -> exists q, hi_oid (hr_head (rr_repo r')) = Some q /\
    (becomes (parent (he_graph (re_hide e))) rw h q \/
     (hi_branch (hr_head (rr_repo r)) = Some (he_main (re_hide e)) /\ rw !! h = Some Zero /\
      be_upstream (he_branch (re_hide e)) = Some (Some q)));
  ga_branch : forall n, hi_branch (hr_head (rr_repo r')) = Some n <->
    hi_branch (hr_head (rr_repo r)) = Some n /\ is_Some (hr_refs (rr_repo r') !! n);
  ga_old : fresh (he_graph (re_hide e)) (hr_log (rr_repo r)) rw -> forall o new, rw !! o = Some new ->
    rewritten (hr_log (rr_repo r')) o new /\ visibility (hr_log (rr_repo r')) o Obsolete;
  ga_new : fresh (he_graph (re_hide e)) (hr_log (rr_repo r)) rw -> forall n, made rw n -> visibility (hr_log (rr_repo r')) n Active;
  ga_rest : fresh (he_graph (re_hide e)) (hr_log (rr_repo r)) rw -> forall o v, rw !! o = None -> ~ made rw o ->
    visibility (hr_log (rr_repo r')) o v <-> visibility (hr_log (rr_repo r)) o v }.

(** What became of the commits: those given have the new message, those above the old one;
    contents and authors stay, and each is on what its parents became.  Commits above that
    change nothing are left out. *)
Record only_messages (e : restack_env) (r : rrepo) (given : commit_set) (messages : gmap oid N) (rw : gmap oid moid) (st' : store) : Prop := {
  om_which : forall c, is_Some (rw !! c) <-> c ∈ given \/ is_above e r given c;
  om_given : forall c, c ∈ given -> exists y x m qs, rw !! c = Some (NonZero y) /\ rr_store r !! c = Some x /\ messages !! c = Some m /\
    st' !! y = Some (mk_object (mk_commit qs (commit_tree (ob_commit x))) (ob_author x) (ee_stamp (re_exec e) (ob_committer x)) m) /\
    Forall2 (becomes (parent (he_graph (re_hide e))) rw) (parents_of (he_graph (re_hide e)) c) qs;
  om_above : forall c, is_above e r given c -> ~ empty_commit (rr_store r) c -> exists y x qs, rw !! c = Some (NonZero y) /\ rr_store r !! c = Some x /\
    st' !! y = Some (mk_object (mk_commit qs (commit_tree (ob_commit x))) (ob_author x) (ee_stamp (re_exec e) (ob_committer x)) (ob_message x)) /\
    Forall2 (becomes (parent (he_graph (re_hide e))) rw) (parents_of (he_graph (re_hide e)) c) qs;
  om_empty : forall c, is_above e r given c -> empty_commit (rr_store r) c -> rw !! c = Some Zero }.

(** Everything around the command works as it should, and the commits given are known. *)
Record rewordable (e : restack_env) (r : rrepo) (given : commit_set) : Prop := {
  rb_order : restackable e r;
  rb_given : forall c, c ∈ given -> c ∈ vertices (he_graph (re_hide e)) }.

(** The messages to be used: what was asked for, or with --fixup the same for all. *)
Definition new_messages (given : commit_set) (src : message_source) (messages : gmap oid N) : Prop :=
  match src with
  | Asked a => a = Some messages
  | FixUpOf commits message => exists c, commits = {[c]} /\ forall o, o ∈ given -> messages !! o = Some (message c)
  end.
(** There is a message for every commit, and it is text. *)
Definition good_messages (ee : exec_env) (given : commit_set) (src : message_source) : Prop :=
  match src with
  | Asked None => True
  | Asked (Some messages) => forall c, c ∈ given -> exists m, messages !! c = Some m /\ ee_decodes ee m = true
  | FixUpOf _ message => forall c, ee_decodes ee (message c) = true
  end.
