(** What moving commits should do, said on commits, references and the events of the log. *)
From Verif Require Import Base TextModel EventLogModel EventLogSpec EvolveSpec DagModel DagSpec StrModel HookModel PlanModel PlanSpec
  ExecModel ExecSpec HideModel HideSpec RestackModel RestackSpec SyncModel SyncSpec MoveModel.
Local Open Scope string_scope.
Local Open Scope list_scope.

(** What became of the commits when some were asked for, and [goes p c] says that [c] goes
    onto [p]: the commits asked for and all that is shown above them were made again with
    their changes on top of where they go and otherwise as before, or dropped because they
    are upstream already or change nothing there. *)
Record moved_as (e : restack_env) (r : rrepo) (asked : oid -> Prop) (goes : oid -> oid -> Prop) (rw : gmap oid moid) (st' : store)
  : Prop := {
  ma_which : forall o, is_Some (rw !! o) <-> shown (he_graph (re_hide e)) (rr_repo r) o /\
    exists c, asked c /\ ancestor (he_graph (re_hide e)) c o;
  ma_made : forall o n, rw !! o = Some (NonZero n) -> exists p q orig tree,
    goes p o /\ becomes goes rw p q /\
    rr_store r !! o = Some orig /\ ee_pick (re_exec e) o q = MadeTree tree /\
    st' !! n = Some (remade (re_exec e) orig [q] tree);
  ma_dropped : forall o, rw !! o = Some Zero -> exists p q,
    goes p o /\ becomes goes rw p q /\
    ((exists t, re_upstream e t o = true) \/
     exists tree qx, ee_pick (re_exec e) o q = MadeTree tree /\ st' !! q = Some qx /\ commit_tree (ob_commit qx) = tree) }.

(** The whole effect: no commit is lost, branches and HEAD go along with their commits, other
    references stay, and the log tells that the old commits were rewritten. *)
Record move_done (e : restack_env) (r : rrepo) (asked : oid -> Prop) (goes : oid -> oid -> Prop) (rw : gmap oid moid) (r' : rrepo)
  : Prop := {
  md_store : rr_store r ⊆ rr_store r';
  md_commits : moved_as e r asked goes rw (rr_store r');
  md_branches : forall n, is_local n = true ->
    hr_refs (rr_repo r') !! n = branch_after (he_branch (re_hide e)) rw (hr_refs (rr_repo r)) n;
  md_others : forall n, is_local n = false -> (forall o, n <> "refs/branchless/" +:+ oid_to_string o) ->
    hr_refs (rr_repo r') !! n = hr_refs (rr_repo r) !! n;
  md_head : exists h q, hi_oid (hr_head (rr_repo r)) = Some h /\ hi_oid (hr_head (rr_repo r')) = Some q /\
    (becomes goes rw h q \/
     (hi_branch (hr_head (rr_repo r)) = Some (he_main (re_hide e)) /\ rw !! h = Some Zero /\
      be_upstream (he_branch (re_hide e)) = Some (Some q)));
  md_branch : forall n, hi_branch (hr_head (rr_repo r')) = Some n <->
    hi_branch (hr_head (rr_repo r)) = Some n /\ is_Some (hr_refs (rr_repo r') !! n);
  md_old : fresh (he_graph (re_hide e)) (hr_log (rr_repo r)) rw -> forall o new, rw !! o = Some new ->
    rewritten (hr_log (rr_repo r')) o new /\ visibility (hr_log (rr_repo r')) o Obsolete;
  md_new : fresh (he_graph (re_hide e)) (hr_log (rr_repo r)) rw -> forall n, made rw n -> visibility (hr_log (rr_repo r')) n Active;
  md_rest : fresh (he_graph (re_hide e)) (hr_log (rr_repo r)) rw -> forall o v, rw !! o = None -> ~ made rw o ->
    visibility (hr_log (rr_repo r')) o v <-> visibility (hr_log (rr_repo r)) o v }.

(** Nothing is different for the user. *)
Record left_alone (r r' : rrepo) : Prop := {
  la_store : rr_store r ⊆ rr_store r';
  la_refs : hr_refs (rr_repo r') = hr_refs (rr_repo r);
  la_head : hr_head (rr_repo r') = hr_head (rr_repo r);
  la_log : forall o v, visibility (hr_log (rr_repo r')) o v <-> visibility (hr_log (rr_repo r)) o v;
  la_rewrites : forall o new, rewritten (hr_log (rr_repo r')) o new <-> rewritten (hr_log (rr_repo r)) o new }.

(** What comes of a run: success, or nothing is different. *)
Definition comes_to (e : restack_env) (r : rrepo) (asked : oid -> Prop) (goes : oid -> oid -> Prop) (m : move_result) : Prop :=
  match mv_end m with
  | Moved => exists rw, mv_rewritten m = Some rw /\ move_done e r asked goes rw (mv_repo m)
  | Declined _ => left_alone r (mv_repo m)
  | NothingToDo | NotMoved _ => mv_repo m = r
  | RebaseFailed => True
  end.
(** It is carried out, or stops at a merge or a conflict among the commits to be moved. *)
Definition goes_through (e : restack_env) (r : rrepo) (asked : oid -> Prop) (m : move_result) : Prop :=
  match mv_end m with
  | Moved => True
  | Declined x => shown (he_graph (re_hide e)) (rr_repo r) x /\ (exists c, asked c /\ ancestor (he_graph (re_hide e)) c x) /\
      (merge_commit (he_graph (re_hide e)) x \/ exists q, ee_pick (re_exec e) x q = Conflict)
  | _ => False
  end.

(** The place meant: the one given, or else HEAD. *)
Definition meant_dest (a : move_args) (r : rrepo) (d : oid) : Prop :=
  match ma_dest a with Some s => s = {[d]} | None => hi_oid (hr_head (rr_repo r)) = Some d end.

(** Public commits are those of the main branch. *)
Definition is_public (e : restack_env) (r : rrepo) (o : oid) : Prop :=
  exists m, hr_refs (rr_repo r) !! he_main (re_hide e) = Some m /\ ancestor (he_graph (re_hide e)) o m.

(** *** Subtrees *)

(** The commits given with [--source] and [--base]; without any arguments HEAD is the base. *)
Definition given_source (a : move_args) (c : oid) : Prop := exists s, s ∈ ma_sources a /\ c ∈ s.
Definition given_base (a : move_args) (r : rrepo) (b : oid) : Prop :=
  (exists s, s ∈ ma_bases a /\ b ∈ s) \/
  (ma_sources a = [] /\ ma_bases a = [] /\ ma_exacts a = [] /\ hi_oid (hr_head (rr_repo r)) = Some b).
(** The first commit of the branch of [b], seen from [d]. *)
Definition branch_start (g : graph) (b d c : oid) : Prop :=
  first_ahead g b d c \/ (ancestor g b d /\ c = b).
Definition subtree_given (g : graph) (a : move_args) (r : rrepo) (d c : oid) : Prop :=
  given_source a c \/ exists b, given_base a r b /\ branch_start g b d c.
(** The first commits: those with no parent among them. *)
Definition first_of (g : graph) (P : oid -> Prop) (c : oid) : Prop := P c /\ forall p, parent g p c -> ~ P p.
(** These go onto [d], the others onto their parents. *)
Definition subtrees_onto (g : graph) (first : oid -> Prop) (d p c : oid) : Prop :=
  (first c /\ p = d) \/ (~ first c /\ parent g p c).

(** Only subtrees are asked for, to be put somewhere. *)
Definition subtrees_only (a : move_args) : Prop := ma_exacts a = [] /\ ma_fixup a = false /\ ma_insert a = false.
(** What is asked for: the first commits of all that is given. *)
Definition to_move (e : restack_env) (r : rrepo) (a : move_args) (d : oid) : oid -> Prop :=
  first_of (he_graph (re_hide e)) (subtree_given (he_graph (re_hide e)) a r d).
(** It makes sense: the commits are shown, and there are no merges among them or in the
    branches given. *)
Record movable (e : restack_env) (r : rrepo) (a : move_args) (d : oid) : Prop := {
  mb_order : restackable e r;
  mb_memory : in_memory e;
  mb_dest : meant_dest a r d;
  mb_only : subtrees_only a;
  mb_branch : forall b x, given_base a r b -> ahead (he_graph (re_hide e)) b d x -> ~ merge_commit (he_graph (re_hide e)) x;
  mb_shown : forall c, to_move e r a d c -> shown (he_graph (re_hide e)) (rr_repo r) c;
  mb_merge : forall c, to_move e r a d c -> ~ merge_commit (he_graph (re_hide e)) c }.
(** Why moving subtrees can be refused. *)
Definition above_itself (e : restack_env) (r : rrepo) (a : move_args) (d : oid) : Prop :=
  exists c, to_move e r a d c /\ ancestor (he_graph (re_hide e)) c d.
Definition would_rewrite_public (e : restack_env) (r : rrepo) (a : move_args) (d : oid) : Prop :=
  re_force e = false /\ exists c o, to_move e r a d c /\ ancestor (he_graph (re_hide e)) c o /\ is_public e r o.

(** *** Single commits *)

(** The commits given with [--exact]. *)
Definition given_exact (a : move_args) (c : oid) : Prop := exists s, s ∈ ma_exacts a /\ c ∈ s.
(** [p] is the nearest commit below [c] with a property. *)
Inductive nearest (g : graph) (P : oid -> Prop) : oid -> oid -> Prop :=
| nearest_here p c : parent g p c -> P p -> nearest g P p c
| nearest_below p q c : parent g q c -> ~ P q -> nearest g P p q -> nearest g P p c.
(** Commits given go onto the nearest one given below them, or else to [d]; others go onto
    the nearest one not given below them. *)
Definition picked_onto (g : graph) (given : oid -> Prop) (d p c : oid) : Prop :=
  (given c /\ (nearest g given p c \/ ((forall q, ~ nearest g given q c) /\ p = d))) \/
  (~ given c /\ nearest g (fun x => ~ given x) p c).

(** Only single commits are asked for, to be put somewhere.  They are shown and have a
    parent, and there are no merges shown among or above them. *)
Record pickable (e : restack_env) (r : rrepo) (a : move_args) (d : oid) : Prop := {
  pk_order : restackable e r;
  pk_memory : in_memory e;
  pk_dest : meant_dest a r d;
  pk_only : ma_sources a = [] /\ ma_bases a = [] /\ ma_exacts a <> [] /\ ma_fixup a = false /\ ma_insert a = false;
  pk_shown : forall c, given_exact a c -> shown (he_graph (re_hide e)) (rr_repo r) c;
  pk_parent : forall c, given_exact a c -> exists p, parent (he_graph (re_hide e)) p c;
  pk_merge : forall c x, given_exact a c -> ancestor (he_graph (re_hide e)) c x -> shown (he_graph (re_hide e)) (rr_repo r) x ->
    ~ merge_commit (he_graph (re_hide e)) x }.
(** Commits are sorted with descendants after their ancestors. *)
Definition sorts_up (e : restack_env) : Prop :=
  forall s l1 x l2 y l3, re_sort e s = l1 ++ x :: l2 ++ y :: l3 -> ~ ancestor (he_graph (re_hide e)) y x.
Definition exact_public (e : restack_env) (r : rrepo) (a : move_args) : Prop :=
  re_force e = false /\ exists c o, given_exact a c /\ ancestor (he_graph (re_hide e)) c o /\ is_public e r o.
