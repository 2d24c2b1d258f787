(** What restacking should do, said on commits, references and the events of the log. *)
From Verif Require Import Base TextModel EventLogModel EventLogSpec EvolveSpec DagModel DagSpec StrModel HookModel PlanModel PlanSpec
  ExecModel ExecSpec HideModel HideSpec RestackModel.
Local Open Scope string_scope.
Local Open Scope list_scope.

(** [k] is abandoned on [o]: it is shown and was not hidden or rewritten itself, but its
    parent [o] was rewritten. *)
Definition abandoned_on (g : graph) (r : hrepo) (o k : oid) : Prop :=
  parent g o k /\ (exists new, rewritten (hr_log r) o new) /\ shown g r k /\ ~ visibility (hr_log r) k Obsolete.
Definition abandoned (g : graph) (r : hrepo) (k : oid) : Prop := exists o, abandoned_on g r o k.

(** The commits made. *)
Definition made (rw : gmap oid moid) (n : oid) : Prop := exists old, rw !! old = Some (NonZero n).

(** The graph [g'] is [g] with the commits made, on top of the parents they have in
    the repository. *)
Record grown (g : graph) (st : store) (rw : gmap oid moid) (g' : graph) : Prop := {
  gr_graph : wf_graph g';
  gr_vertices : forall c, c ∈ vertices g' -> c ∈ vertices g \/ made rw c;
  gr_old : forall p c, c ∈ vertices g -> parent g' p c <-> parent g p c;
  gr_new : forall p n x, made rw n -> st !! n = Some x -> parent g' p n <-> p ∈ commit_parents (ob_commit x) }.

(** Commits made have proper names and are not among those already known. *)
Definition fresh (g : graph) (log : list event) (rw : gmap oid moid) : Prop :=
  forall n, made rw n -> oid_ok n /\ n ∉ vertices g /\ forall x, x ∈ log -> ~ concerns x n.

(** Everything around the command works as it should: the repository is in order, HEAD
    is at a commit and its branch is a local one, the commits can be read and are those
    of the graph, names stand for contents, sets are gone through in full, checking out
    records nothing about commits. *)
Record restackable (e : restack_env) (r : rrepo) : Prop := {
  ra_order : in_order (re_hide e) (rr_repo r);
  ra_tables : forall refs, branch_table (he_groups (re_hide e) refs) refs;
  ra_head : exists h, hi_oid (hr_head (rr_repo r)) = Some h;
  ra_local : forall n, hi_branch (hr_head (rr_repo r)) = Some n -> is_local n = true;
  ra_upstream : exists up, be_upstream (he_branch (re_hide e)) = Some up;
  ra_store : forall c, c ∈ vertices (he_graph (re_hide e)) -> exists x,
    rr_store r !! c = Some x /\ commit_parents (ob_commit x) = parents_of (he_graph (re_hide e)) c;
  ra_faithful : faithful_names (re_exec e);
  ra_named : named (re_exec e) (rr_store r);
  ra_oids : forall c, c ∈ vertices (he_graph (re_hide e)) -> oid_ok c;
  ra_sets : forall s, Permutation (re_order e s) (elements s);
  ra_sort : forall fs, Permutation (re_sort e fs) (elements fs);
  ra_iter : forall m, Permutation (re_iter e m) (map_to_list m);
  ra_quiet : forall r' x o, x ∈ re_checked_out e r' -> ~ concerns x o }.

(** An on-disk rebase does not tell what became of the commits. *)
Definition disk_silent (e : restack_env) : Prop := forall r r' rw, re_disk e r <> (r', Succeeded (Some rw)).

(** The main branch is left alone: public commits may not be rewritten, and its commit
    was not rewritten before. *)
Definition main_stays (e : restack_env) (r : rrepo) : Prop :=
  re_force e = false /\
  forall m new, hr_refs (rr_repo r) !! he_main (re_hide e) = Some m -> ~ rewritten (hr_log (rr_repo r)) m new.

(** Restacking knows where to go: commits abandoned are no merges, what they were on was
    not dropped, and the newest version of it is shown, as are the newest versions of
    commits that branches are at. *)
Record sorted_out (g : graph) (r : hrepo) : Prop := {
  so_merge : forall k, abandoned g r k -> ~ merge_commit g k;
  so_kept : forall o k, abandoned_on g r o k -> ~ chain_end (hr_log r) o Zero;
  so_shown : forall o x, (exists k, abandoned_on g r o k) \/ branch_at (hr_refs r) o ->
    chain_end (hr_log r) o (NonZero x) -> shown g r x }.

(** The commits whose children are moved: all of them, or those chosen. *)
Definition considered (chosen : option commit_set) (o : oid) : Prop :=
  match chosen with Some s => o ∈ s | None => True end.

(** Where a commit goes: onto the newest version of what it was abandoned on, or else
    onto its parent. *)
Definition goes_on (g : graph) (r : hrepo) (chosen : option commit_set) (p c : oid) : Prop :=
  (exists o, considered chosen o /\ abandoned_on g r o c /\ chain_end (hr_log r) o (NonZero p)) \/
  ((forall o, considered chosen o -> ~ abandoned_on g r o c) /\ parent g p c).

(** [q] stands for [p] afterwards: [p] itself, its new version, or what stands for the
    commit it was to go onto when nothing was left of it. *)
Inductive stands (g : graph) (r : hrepo) (chosen : option commit_set) (rw : gmap oid moid) : oid -> oid -> Prop :=
| stands_kept p : rw !! p = None -> stands g r chosen rw p p
| stands_new p q : rw !! p = Some (NonZero q) -> stands g r chosen rw p q
| stands_dropped p p' q : rw !! p = Some Zero -> goes_on g r chosen p' p -> stands g r chosen rw p' q -> stands g r chosen rw p q.

(** What became of the commits: those shown at or above an abandoned commit were made
    again on top of where they go, with the changes applied and otherwise as before, or
    dropped because they are upstream already or change nothing there. *)
Record restacked (e : restack_env) (r : rrepo) (chosen : option commit_set) (rw : gmap oid moid) (st' : store) : Prop := {
  rk_which : forall c, is_Some (rw !! c) <-> shown (he_graph (re_hide e)) (rr_repo r) c /\
    exists o k, considered chosen o /\ abandoned_on (he_graph (re_hide e)) (rr_repo r) o k /\ ancestor (he_graph (re_hide e)) k c;
  rk_made : forall c n, rw !! c = Some (NonZero n) -> exists p q orig tree,
    goes_on (he_graph (re_hide e)) (rr_repo r) chosen p c /\ stands (he_graph (re_hide e)) (rr_repo r) chosen rw p q /\
    rr_store r !! c = Some orig /\ ee_pick (re_exec e) c q = MadeTree tree /\
    st' !! n = Some (remade (re_exec e) orig [q] tree);
  rk_dropped : forall c, rw !! c = Some Zero -> exists p q,
    goes_on (he_graph (re_hide e)) (rr_repo r) chosen p c /\ stands (he_graph (re_hide e)) (rr_repo r) chosen rw p q /\
    ((exists t, re_upstream e t c = true) \/
     exists tree qx, ee_pick (re_exec e) c q = MadeTree tree /\ st' !! q = Some qx /\ commit_tree (ob_commit qx) = tree) }.

(** Where a branch is after branches were moved along with rewritten commits. *)
Definition branch_moved (log : list event) (b : branch_env) (n : refname) (o : oid) (to : option oid) : Prop :=
  ((forall new, ~ rewritten log o new) /\ to = Some o) \/
  (exists x, chain_end log o (NonZero x) /\ to = Some x) \/
  (chain_end log o Zero /\ (n <> be_main b -> to = None) /\ (n = be_main b -> be_upstream b = Some to)).
