(** What amending should do, said on commits, references and the events of the log. *)
From Verif Require Import Base TextModel EventLogModel EventLogSpec EvolveSpec DagModel DagSpec StrModel HookModel PlanModel PlanSpec
  ExecModel ExecSpec HideModel HideSpec RestackModel RestackSpec SyncModel SyncSpec MoveModel MoveSpec ModeModel TreeModel SnapModel AmendModel.
From Verif Require NavModel.
Local Open Scope string_scope.
Local Open Scope list_scope.

(** The commits above [h], and where they go when [n] takes its place. *)
Definition above (g : graph) (r : hrepo) (h c : oid) : Prop := shown g r c /\ proper_ancestor g h c.
Definition goes_above (g : graph) (h n p c : oid) : Prop := (parent g h c /\ p = n) \/ (p <> h /\ parent g p c).

(** The new commit differs from the old one in its contents and times only. *)
Definition same_but_tree (s : amend_setting) (x new : object) : Prop :=
  commit_parents (ob_commit new) = commit_parents (ob_commit x) /\
  ob_message new = ob_message x /\ ob_author new = as_author s (ob_author x) /\
  ob_committer new = ee_stamp (re_exec (as_restack s)) (ob_committer x).

(** [n] has a proper name and is not known yet. *)
Definition unknown (e : restack_env) (r : rrepo) (n : oid) : Prop :=
  oid_ok n /\ n ∉ vertices (he_graph (re_hide e)) /\ forall x, x ∈ hr_log (rr_repo r) -> ~ concerns x n.

(** What became of the commits: those above [h] were made again with their changes on top of
    where they go and otherwise as before, or dropped because they are upstream already or
    change nothing there. *)
Record restacked_above (e : restack_env) (r : rrepo) (h n : oid) (rw : gmap oid moid) (st' : store) : Prop := {
  sa_which : forall c, is_Some (rw !! c) <-> above (he_graph (re_hide e)) (rr_repo r) h c;
  sa_made : forall c x, rw !! c = Some (NonZero x) -> exists p q orig tree,
    goes_above (he_graph (re_hide e)) h n p c /\ becomes (goes_above (he_graph (re_hide e)) h n) rw p q /\
    rr_store r !! c = Some orig /\ ee_pick (re_exec e) c q = MadeTree tree /\
    st' !! x = Some (remade (re_exec e) orig [q] tree);
  sa_dropped : forall c, rw !! c = Some Zero -> exists p q,
    goes_above (he_graph (re_hide e)) h n p c /\ becomes (goes_above (he_graph (re_hide e)) h n) rw p q /\
    ((exists t, re_upstream e t c = true) \/
     exists tree qx, ee_pick (re_exec e) c q = MadeTree tree /\ st' !! q = Some qx /\ commit_tree (ob_commit qx) = tree) }.
(** With [--reparent] they were made again with their contents, on top of what their parents
    became, where [n] takes the place of [h]; none is dropped unless it is upstream already. Merges of [h] are
    left out. *)
Definition put_on (g : graph) (h n c : oid) : list oid := List.map (fun p => if decide (p = h) then n else p) (parents_of g c).
Definition merges (g : graph) (h c : oid) : Prop := merge_commit g c /\ parent g h c.
Record reparented_above (e : restack_env) (r : rrepo) (h n : oid) (rw : gmap oid moid) (st' : store) : Prop := {
  pa_which : forall c, is_Some (rw !! c) <-> above (he_graph (re_hide e)) (rr_repo r) h c;
  pa_made : forall c x, rw !! c = Some (NonZero x) -> ~ merges (he_graph (re_hide e)) h c -> exists orig qs,
    rr_store r !! c = Some orig /\ st' !! x = Some (remade (re_exec e) orig qs (commit_tree (ob_commit orig))) /\
    Forall2 (becomes (goes_above (he_graph (re_hide e)) h n) rw) (put_on (he_graph (re_hide e)) h n c) qs;
  pa_dropped : forall c, rw !! c = Some Zero -> exists t, re_upstream e t c = true }.

(** The effect on everything else: no commit is lost, branches at the old commit or above go
    along with their commits, HEAD is at the new commit with the branch it had, other
    references stay, and the log tells what was rewritten. *)
Definition with_amended (h n : oid) (rw : gmap oid moid) : gmap oid moid := <[h := NonZero n]> rw.
Record amend_done (s : amend_setting) (r : rrepo) (h n : oid) (rw : gmap oid moid) (r' : rrepo) : Prop := {
  ad_store : rr_store r ⊆ rr_store r';
  ad_new : exists x y, rr_store r !! h = Some x /\ rr_store r' !! n = Some y /\ same_but_tree s x y;
  ad_branches : forall b, is_local b = true ->
    hr_refs (rr_repo r') !! b = branch_after (he_branch (re_hide (as_restack s))) (with_amended h n rw) (hr_refs (rr_repo r)) b;
  ad_others : forall b, is_local b = false -> (forall o, b <> "refs/branchless/" +:+ oid_to_string o) ->
    hr_refs (rr_repo r') !! b = hr_refs (rr_repo r) !! b;
  ad_head : hr_head (rr_repo r') = mk_head (Some n) (hi_branch (hr_head (rr_repo r)));
  ad_marked : fresh (he_graph (re_hide (as_restack s))) (hr_log (rr_repo r)) rw -> ~ made rw n -> forall o, made (with_amended h n rw) o ->
    hr_refs (rr_repo r') !! ("refs/branchless/" +:+ oid_to_string o) = Some o;
  ad_old : fresh (he_graph (re_hide (as_restack s))) (hr_log (rr_repo r)) rw -> ~ made rw n -> forall o new, with_amended h n rw !! o = Some new ->
    rewritten (hr_log (rr_repo r')) o new /\ visibility (hr_log (rr_repo r')) o Obsolete;
  ad_made : fresh (he_graph (re_hide (as_restack s))) (hr_log (rr_repo r)) rw -> ~ made rw n -> forall o, made (with_amended h n rw) o ->
    visibility (hr_log (rr_repo r')) o Active;
  ad_rest : fresh (he_graph (re_hide (as_restack s))) (hr_log (rr_repo r)) rw -> ~ made rw n -> forall o v,
    with_amended h n rw !! o = None -> ~ made (with_amended h n rw) o ->
    visibility (hr_log (rr_repo r')) o v <-> visibility (hr_log (rr_repo r)) o v }.

(** Git takes the short name of the branch for the branch: it is no id, and no other
    reference with this name comes first. *)
Definition clear_name (refs : gmap refname oid) (s : string) : Prop :=
  (String.length s = 40%nat -> oid_from_string s = None) /\
  forall n : refname, n ∈ [s; "refs/" +:+ s; "refs/tags/" +:+ s] ->
    refs !! n = None /\ forall o, n <> "refs/branchless/" +:+ oid_to_string o.

(** Everything around the command works as it should, with HEAD at [h]. *)
Record amendable (s : amend_setting) (r : rrepo) (h : oid) : Prop := {
  am_order : restackable (as_restack s) r;
  am_memory : in_memory (as_restack s);
  am_head : hi_oid (hr_head (rr_repo r)) = Some h;
  am_name : forall b, hi_branch (hr_head (rr_repo r)) = Some ("refs/heads/" +:+ b) -> clear_name (hr_refs (rr_repo r)) b;
  am_quiet : forall r' x o, x ∈ as_reset s r' -> ~ concerns x o }.

(** The event recorded about the working copy. *)
Definition noted (s : amend_setting) (ts : timestamp) (i : Z) (h : oid) (r : rrepo) : rrepo :=
  mk_rrepo (rr_store r) (mk_hrepo (hr_refs (rr_repo r)) (hr_head (rr_repo r))
    (hr_log (rr_repo r) ++ [SnapshotEvent ts (TxId i) (NonZero h) (as_snapshot s) (hi_branch (hr_head (rr_repo r)))])).

(** What can be staged or changed. *)
Definition some_staged (l : list sn_entry) : Prop := exists x, x ∈ l /\ is_changed (sn_index x) = true.
Definition some_changed (l : list sn_entry) : Prop := exists x, x ∈ l /\ is_changed (sn_wc x) = true.

(** The changes taken: those of the index if there are any, or else those of the working
    copy. *)
Definition takes (l : list sn_entry) (f : amend_from) : Prop :=
  match f with
  | FromIndex ps => some_staged l /\ forall p, p ∈ ps <->
      exists x, x ∈ l /\ is_changed (sn_index x) = true /\ (p = sn_path x \/ sn_orig x = Some p)
  | FromWorkingCopy es => ~ some_staged l /\ forall y, y ∈ es <->
      exists x, x ∈ l /\ is_changed (sn_wc x) = true /\ y = mk_we (sn_path x) (sn_orig x) (sn_mode x)
  | FromCommit _ => False
  end.
