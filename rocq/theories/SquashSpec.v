(** What squashing commits into another should do ([git move --fixup]). *)
From Verif Require Import Base TextModel EventLogModel EventLogSpec EvolveSpec DagModel DagSpec StrModel HookModel PlanModel PlanSpec
  ExecModel ExecSpec HideModel HideSpec RestackModel RestackSpec SyncModel SyncSpec MoveModel MoveSpec.
Local Open Scope string_scope.
Local Open Scope list_scope.

(** Commits that are not squashed go onto the nearest such commit below them. *)
Definition closes_up (g : graph) (given : oid -> Prop) (p c : oid) : Prop := ~ given c /\ nearest g (fun x => ~ given x) p c.

(** Each commit is there once, and after those it is built upon. *)
Definition old_to_new (e : restack_env) (l : list oid) : Prop :=
  NoDup l /\ (sorts_up e -> forall l1 x l2 y l3, l = l1 ++ x :: l2 ++ y :: l3 -> ~ ancestor (he_graph (re_hide e)) y x).

(** The commits [given] are squashed into [t]: the new version of [t] is on its parent and
    has the changes of [t] and of those given, one after the other, and is otherwise like
    [t]; all that is shown above [t] or above a commit given is made again, the gaps being
    closed; those given are replaced by the new version of [t]. *)
Record squashed_as (e : restack_env) (r : rrepo) (given : oid -> Prop) (t : oid) (rw : gmap oid moid) (st' : store) : Prop := {
  sq_which : forall o, ~ given o -> is_Some (rw !! o) <-> shown (he_graph (re_hide e)) (rr_repo r) o /\
    exists c, (given c \/ c = t) /\ ancestor (he_graph (re_hide e)) c o;
  sq_given : forall f n, given f -> (forall u, re_upstream e u f = false) ->
    rw !! f = Some (NonZero n) <-> rw !! t = Some (NonZero n);
  sq_rest : forall f n, given f -> rw !! f = Some (NonZero n) -> rw !! t = Some (NonZero n);
  sq_target : forall n, rw !! t = Some (NonZero n) -> exists p orig l x,
    parent (he_graph (re_hide e)) p t /\ rr_store r !! t = Some orig /\
    (forall f, f ∈ l <-> f = t \/ given f) /\ old_to_new e l /\ squashes (re_exec e) p orig l x /\ st' !! n = Some x;
  sq_target_dropped : rw !! t = Some Zero -> (exists u, re_upstream e u t = true) \/
    exists p orig l x y, parent (he_graph (re_hide e)) p t /\ rr_store r !! t = Some orig /\
      (forall f, f ∈ l <-> f = t \/ given f) /\ old_to_new e l /\ squashes (re_exec e) p orig l x /\
      rr_store r !! p = Some y /\ commit_tree (ob_commit x) = commit_tree (ob_commit y);
  sq_made : forall o n, o <> t -> ~ given o -> rw !! o = Some (NonZero n) -> exists p q orig tree,
    closes_up (he_graph (re_hide e)) given p o /\ becomes (closes_up (he_graph (re_hide e)) given) rw p q /\
    rr_store r !! o = Some orig /\ ee_pick (re_exec e) o q = MadeTree tree /\
    st' !! n = Some (remade (re_exec e) orig [q] tree);
  sq_dropped : forall o, o <> t -> ~ given o -> rw !! o = Some Zero -> exists p q,
    closes_up (he_graph (re_hide e)) given p o /\ becomes (closes_up (he_graph (re_hide e)) given) rw p q /\
    ((exists u, re_upstream e u o = true) \/
     exists tree qx, ee_pick (re_exec e) o q = MadeTree tree /\ st' !! q = Some qx /\ commit_tree (ob_commit qx) = tree) }.

(** The whole effect. *)
Record squash_done (e : restack_env) (r : rrepo) (given : oid -> Prop) (t : oid) (rw : gmap oid moid) (r' : rrepo) : Prop := {
  sd_store : rr_store r ⊆ rr_store r';
  sd_commits : squashed_as e r given t rw (rr_store r');
  sd_branches : forall n, is_local n = true ->
    hr_refs (rr_repo r') !! n = branch_after (he_branch (re_hide e)) rw (hr_refs (rr_repo r)) n;
  sd_others : forall n, is_local n = false -> (forall o, n <> "refs/branchless/" +:+ oid_to_string o) ->
    hr_refs (rr_repo r') !! n = hr_refs (rr_repo r) !! n;
  sd_head : forall h, hi_oid (hr_head (rr_repo r)) = Some h -> ~ given h -> exists q, hi_oid (hr_head (rr_repo r')) = Some q /\
    (becomes (closes_up (he_graph (re_hide e)) given) rw h q \/
     (hi_branch (hr_head (rr_repo r)) = Some (he_main (re_hide e)) /\ rw !! h = Some Zero /\
      be_upstream (he_branch (re_hide e)) = Some (Some q)));
  sd_head_new : forall h n, hi_oid (hr_head (rr_repo r)) = Some h -> rw !! h = Some (NonZero n) -> hi_oid (hr_head (rr_repo r')) = Some n;
  sd_branch : forall n, hi_branch (hr_head (rr_repo r')) = Some n <->
    hi_branch (hr_head (rr_repo r)) = Some n /\ is_Some (hr_refs (rr_repo r') !! n);
  sd_old : fresh (he_graph (re_hide e)) (hr_log (rr_repo r)) rw -> forall o new, rw !! o = Some new ->
    rewritten (hr_log (rr_repo r')) o new /\ visibility (hr_log (rr_repo r')) o Obsolete;
  sd_new : fresh (he_graph (re_hide e)) (hr_log (rr_repo r)) rw -> forall n, made rw n -> visibility (hr_log (rr_repo r')) n Active;
  sd_unseen : fresh (he_graph (re_hide e)) (hr_log (rr_repo r)) rw -> forall o v, rw !! o = None -> ~ made rw o ->
    visibility (hr_log (rr_repo r')) o v <-> visibility (hr_log (rr_repo r)) o v }.

(** What comes of a run: success, or nothing is different. *)
Definition squash_comes_to (e : restack_env) (r : rrepo) (given : oid -> Prop) (t : oid) (m : move_result) : Prop :=
  match mv_end m with
  | Moved => exists rw, mv_rewritten m = Some rw /\ squash_done e r given t rw (mv_repo m)
  | Declined _ => left_alone r (mv_repo m)
  | NothingToDo | NotMoved _ => mv_repo m = r
  | RebaseFailed => True
  end.
(** It is carried out, or stops at a conflict. *)
Definition squash_goes_through (e : restack_env) (r : rrepo) (given : oid -> Prop) (t : oid) (m : move_result) : Prop :=
  match mv_end m with
  | Moved => True
  | Declined x => (given x \/ (shown (he_graph (re_hide e)) (rr_repo r) x /\
        exists c, (given c \/ c = t) /\ ancestor (he_graph (re_hide e)) c x)) /\
      ((exists q, ee_pick (re_exec e) x q = Conflict) \/ exists q, ee_amend (re_exec e) q x = Conflict)
  | _ => False
  end.

(** The same command without [--fixup]. *)
Definition without_fixup (a : move_args) : move_args :=
  mk_ma (ma_sources a) (ma_dest a) (ma_bases a) (ma_exacts a) false (ma_insert a).

(** The commits to be squashed: those given with [--exact], or all above those given with
    [--source] or [--base]. *)
Definition to_squash (e : restack_env) (r : rrepo) (a : move_args) (t f : oid) : Prop :=
  given_exact a f \/
  (ma_exacts a = [] /\ exists c, subtree_given (he_graph (re_hide e)) a r t c /\ ancestor (he_graph (re_hide e)) c f).

(** It makes sense: the commit to squash into is shown and has a parent, and none of those to
    be squashed is below it; these have one parent each, and no merge is shown above any of
    them. *)
Record squashable (e : restack_env) (r : rrepo) (a : move_args) (t : oid) : Prop := {
  sb_fixup : ma_fixup a = true;
  sb_args : pickable e r (without_fixup a) t \/ movable e r (without_fixup a) t;
  sb_shown : shown (he_graph (re_hide e)) (rr_repo r) t;
  sb_parent : exists p, parent (he_graph (re_hide e)) p t;
  sb_below : forall f, to_squash e r a t f -> ~ ancestor (he_graph (re_hide e)) f t;
  sb_given : forall f, to_squash e r a t f -> (exists p, parent (he_graph (re_hide e)) p f) /\ ~ merge_commit (he_graph (re_hide e)) f;
  sb_merge : forall c x, to_squash e r a t c \/ c = t -> ancestor (he_graph (re_hide e)) c x ->
    shown (he_graph (re_hide e)) (rr_repo r) x -> ~ merge_commit (he_graph (re_hide e)) x }.
(** Public commits would be rewritten. *)
Definition squash_public (e : restack_env) (r : rrepo) (a : move_args) (t : oid) : Prop :=
  re_force e = false /\ exists c o, (to_squash e r a t c \/ parent (he_graph (re_hide e)) t c) /\
    ancestor (he_graph (re_hide e)) c o /\ is_public e r o.
