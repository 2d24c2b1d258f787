(** What submitting to Phabricator should do, said on texts, commits and revisions. *)
From stdpp Require Import relations.
From Verif Require Import Base TextModel EventLogModel EventLogSpec EvolveSpec DagModel DagSpec StrModel HookModel PlanModel PlanSpec
  ExecModel ExecSpec HideModel HideSpec RestackModel RestackSpec SyncModel SyncSpec MoveModel MoveSpec TestCacheModel RewordCmdModel RewordCmdSpec SubmitModel PhabModel.
From Coq Require Import Ascii.
Local Open Scope string_scope.
Local Open Scope list_scope.

(** ** Texts *)
Definition newline : string := String "010" "".
Fixpoint no_newline (s : string) : Prop := match s with EmptyString => True | String c s' => c <> "010"%char /\ no_newline s' end.
Fixpoint joined (ls : list string) : string :=
  match ls with [] => "" | [l] => l | l :: ls' => l +:+ newline +:+ joined ls' end.
Definition lines_are (text : string) (ls : list string) : Prop := ls <> [] /\ Forall no_newline ls /\ text = joined ls.
Definition digit (c : ascii) : Prop := exists n, n < 10 /\ c = ascii_of_nat (48 + n).
Fixpoint digits (s : string) : Prop := match s with EmptyString => True | String c s' => digit c /\ digits s' end.
(** A line that links to the revision with the number [i]: [Differential Revision: ], something that ends in a slash or nothing,
    [D] and the number. *)
Definition links (line i : string) : Prop := i <> "" /\ digits i /\
  exists pre, line = "Differential Revision: " +:+ pre +:+ "D" +:+ i /\ (pre = "" \/ exists q, q <> "" /\ pre = q +:+ "/").
(** The first such line counts. *)
Definition text_links (text i : string) : Prop := exists before line after, lines_are text (before ++ line :: after) /\ links line i /\
  forall l j, l ∈ before -> ~ links l j.
(** The commit is that of the revision [i]. *)
Definition has_revision (e : phab_env) (st : store) (c : oid) (i : string) : Prop :=
  exists x, st !! c = Some x /\ text_links (ph_text e (ob_message x)) i.

(** ** The server *)
(** The commit that a revision is for: the last hash of a Git commit. *)
Definition is_for (r : revision) (c : oid) : Prop := exists before after, rv_hashes r = before ++ ("gtcm", Some c) :: after /\ forall h, ("gtcm", h) ∉ after.
Definition depends_on (sv : server) (i j : string) : Prop := exists r q, sv !! i = Some r /\ sv !! j = Some q /\ rv_phid q ∈ rv_depends r.
Definition no_cycle (sv : server) : Prop := forall i, ~ tc (depends_on sv) i i.
Definition told_apart (sv : server) : Prop := forall i j r q, sv !! i = Some r -> sv !! j = Some q -> rv_phid r = rv_phid q -> i = j.
Definition same_but_depends (r r' : revision) : Prop := rv_phid r' = rv_phid r /\ rv_hashes r' = rv_hashes r.

(** ** The repository *)
Definition is_draft (e : phab_env) (r : rrepo) (c : oid) : Prop :=
  shown (he_graph (re_hide (ph_restack e))) (rr_repo r) c /\ ~ is_public (ph_restack e) r c.
Definition store_parent (st : store) (p c : oid) : Prop := exists x, st !! c = Some x /\ p ∈ commit_parents (ob_commit x).
(** Sorting keeps the commits; parents come first (see C56). *)
Definition sorts (e : phab_env) : Prop := forall st s, NoDup (ph_sort e st s) /\ forall c, c ∈ ph_sort e st s <-> c ∈ s.
Definition parents_first (e : phab_env) (st : store) (s : commit_set) : Prop :=
  forall l1 a l2 b l3, ph_sort e st s = l1 ++ a :: l2 ++ b :: l3 -> ~ store_parent st b a.
Definition own_revisions (e : phab_env) (st : store) (given : commit_set) : Prop :=
  forall c c' i, c ∈ given -> c' ∈ given -> has_revision e st c i -> has_revision e st c' i -> c = c'.
Definition it_passed (o : outcome) : Prop := exists a f b, o = OPassed a f b.

(** ** What [arc diff] is expected to do *)
(** When it updates: no commit is lost, revisions keep what they depend on, those of the commits are for them then,
    others stay, and there is a result for each commit. *)
Record arc_updates (e : phab_env) (l : list oid) (st : store) (sv : server) (run : arc_run) : Prop := {
  au_store : st ⊆ ar_store run;
  au_outs : List.map fst (ar_outs run) ≡ₚ l;
  au_others : forall i, (forall c, c ∈ l -> ~ has_revision e st c i) -> ar_server run !! i = sv !! i;
  au_same : forall i r, sv !! i = Some r -> exists r', ar_server run !! i = Some r' /\ rv_phid r' = rv_phid r /\ rv_depends r' = rv_depends r;
  au_none : forall i, sv !! i = None -> ar_server run !! i = None;
  au_for : forall c o i r, (c, o) ∈ ar_outs run -> it_passed o -> has_revision e st c i -> ar_server run !! i = Some r -> is_for r c }.
(** When it creates: it makes a new revision for each commit, and a commit that differs only in its message, which links
    to it. *)
Record arc_creates (e : phab_env) (l : list oid) (st : store) (sv : server) (run : arc_run) : Prop := {
  ac_store : st ⊆ ar_store run;
  ac_named : ExecSpec.named (re_exec (ph_restack e)) (ar_store run);
  ac_outs : List.map fst (ar_outs run) ≡ₚ l;
  ac_passed : forall c a f b, (c, OPassed a f b) ∈ ar_outs run -> exists h x y i, fi_head f = Some h /\ st !! c = Some x /\ ar_store run !! h = Some y /\
    commit_parents (ob_commit y) = commit_parents (ob_commit x) /\ commit_tree (ob_commit y) = commit_tree (ob_commit x) /\ ob_author y = ob_author x /\
    text_links (ph_text e (ob_message y)) i /\ sv !! i = None /\ is_Some (ar_server run !! i);
  ac_apart : forall c c' a a' f f' b b' h h' i, (c, OPassed a f b) ∈ ar_outs run -> (c', OPassed a' f' b') ∈ ar_outs run ->
    fi_head f = Some h -> fi_head f' = Some h' -> has_revision e (ar_store run) h i -> has_revision e (ar_store run) h' i -> c = c';
  ac_others : sv ⊆ ar_server run;
  ac_phids : told_apart (ar_server run) }.
(** The messages it makes are text. *)
Definition arc_text (e : phab_env) (run : arc_run) : Prop := forall c a f b h y, (c, OPassed a f b) ∈ ar_outs run -> fi_head f = Some h ->
  ar_store run !! h = Some y -> ee_decodes (re_exec (ph_restack e)) (ob_message y) = true.

(** What becomes of the commits: those given have a message with a link to a new revision, those above keep theirs. *)
Record only_links (e : phab_env) (r : rrepo) (given : commit_set) (sv : server) (statuses : list (oid * (oid * string))) (rw : gmap oid moid) (st' : store) : Prop := {
  ol_which : forall c, is_Some (rw !! c) <-> c ∈ given \/ is_above (ph_restack e) r given c;
  ol_given : forall c, c ∈ given -> exists y x i qs t m, rw !! c = Some (NonZero y) /\ rr_store r !! c = Some x /\ (c, (y, i)) ∈ statuses /\
    st' !! y = Some (mk_object (mk_commit qs (commit_tree (ob_commit x))) (ob_author x) t m) /\ text_links (ph_text e m) i /\ sv !! i = None /\
    Forall2 (becomes (parent (he_graph (re_hide (ph_restack e)))) rw) (parents_of (he_graph (re_hide (ph_restack e))) c) qs;
  ol_above : forall c, is_above (ph_restack e) r given c -> ~ empty_commit (rr_store r) c -> exists y x qs t, rw !! c = Some (NonZero y) /\ rr_store r !! c = Some x /\
    st' !! y = Some (mk_object (mk_commit qs (commit_tree (ob_commit x))) (ob_author x) t (ob_message x)) /\
    Forall2 (becomes (parent (he_graph (re_hide (ph_restack e)))) rw) (parents_of (he_graph (re_hide (ph_restack e))) c) qs }.

(** The server sets what a revision depends on whenever that gives no cycle. *)
Definition accepts (e : phab_env) : Prop := forall sv i ids, told_apart sv ->
  no_cycle (alter (fun r => mk_rev (rv_phid r) (rv_hashes r) ids) i sv) -> ph_edit e sv i ids = EditDone.
(** What a revision should depend on after an update: on the revisions of the parents that are drafts, as far as the server knows them. *)
Definition should_depend (e : phab_env) (r : rrepo) (sv : server) (c : oid) (j : string) : Prop :=
  is_Some (sv !! j) /\ exists q, parent (he_graph (re_hide (ph_restack e))) q c /\ is_draft e r q /\ has_revision e (rr_store r) q j.
(** The revisions of the commits given are for them and depend on those of their parents; others stay. *)
Record brought_up (e : phab_env) (r : rrepo) (given : commit_set) (sv sv' : server) : Prop := {
  bu_given : forall c i, c ∈ given -> has_revision e (rr_store r) c i -> is_Some (sv !! i) -> exists r', sv' !! i = Some r' /\ is_for r' c /\
    forall j, depends_on sv' i j <-> should_depend e r sv c j;
  bu_rest : forall i, (forall c, c ∈ given -> ~ has_revision e (rr_store r) c i) -> sv' !! i = sv !! i;
  bu_known : forall i, is_Some (sv' !! i) <-> is_Some (sv !! i) }.

(** What creating does: the commits and all that refers to them go along, only links are added to messages, each commit has a
    revision of its own that is new, and other revisions stay. *)
Record made_revisions (e : phab_env) (r : rrepo) (given : commit_set) (sv : server) (c : created) : Prop := {
  mr_along : goes_along (ph_restack e) r (cd_rewritten c) (pb_repo (cd_phab c));
  mr_links : plain_picks (re_exec (ph_restack e)) (rr_store r) ->
    only_links e r given sv (cd_statuses c) (cd_rewritten c) (rr_store (pb_repo (cd_phab c)));
  mr_each : forall o, o ∈ given -> exists y i, (o, (y, i)) ∈ cd_statuses c;
  mr_new : forall (o y : oid) (i : string), (o, (y, i)) ∈ cd_statuses c -> o ∈ given /\ cd_rewritten c !! o = Some (NonZero y) /\
    has_revision e (rr_store (pb_repo (cd_phab c))) y i /\ sv !! i = None /\ is_Some (pb_server (cd_phab c) !! i);
  mr_own : forall (o o' y y' : oid) (i : string), (o, (y, i)) ∈ cd_statuses c -> (o', (y', i)) ∈ cd_statuses c -> o = o';
  mr_rest : sv ⊆ pb_server (cd_phab c);
  mr_depends : fresh (he_graph (re_hide (ph_restack e))) (hr_log (rr_repo r)) (cd_rewritten c) ->
    (forall o q, o ∈ given -> parent (he_graph (re_hide (ph_restack e))) q o -> ~ is_above (ph_restack e) r given q) ->
    forall o y i j, (o, (y, i)) ∈ cd_statuses c -> depends_on (pb_server (cd_phab c)) i j <->
      exists q, parent (he_graph (re_hide (ph_restack e))) q o /\
        ((exists z, (q, (z, j)) ∈ cd_statuses c) \/
         (q ∉ given /\ is_draft e r q /\ has_revision e (rr_store r) q j /\ is_Some (pb_server (cd_phab c) !! j))) }.

(** Commits that have no revision, and commits whose revision is for another one or unknown. *)
Definition is_unlinked (e : phab_env) (r : rrepo) (commits : commit_set) (c : oid) : Prop := c ∈ commits /\ forall i, ~ has_revision e (rr_store r) c i.
Definition out_of_date (e : phab_env) (r : rrepo) (sv : server) (commits : commit_set) (c : oid) : Prop :=
  c ∈ commits /\ exists i, has_revision e (rr_store r) c i /\ forall q, sv !! i = Some q -> ~ is_for q c.
