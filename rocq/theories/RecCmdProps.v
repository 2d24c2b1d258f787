(** Properties C89 and C90: recording a commit. *)
From stdpp Require Import sorting relations countable.
From Verif Require Import Base TextModel EventLogModel EventLogSpec EventLogProofs EvolveModel EvolveSpec
  DagModel DagSpec DagProofs DagCompProofs StrModel StrProofs HookModel HookSpec PlanModel PlanSpec PlanProofs PlanBuildProofs PlanProps ExecModel ExecSpec ExecAfterProofs ExecProps
  HideModel HideSpec HideProofs HideProps RestackModel RestackSpec RestackProofs RestackProps TrailerModel NavModel SyncModel SyncSpec SyncProofs SyncProps
  MoveModel MoveSpec MoveProofs MoveReqProofs MoveProps AmendModel RecCmdModel RecCmdSpec RecCmdProofs.
From Verif Require SnapModel.
Local Open Scope string_scope.
Local Open Scope list_scope.

(** ** C89: the commit, HEAD and branches *)

(** Without options, a commit is made on top of HEAD; HEAD goes to it with its branch, and
    other references stay. *)
Theorem c89_here : forall v ts tx a r c, usual v r -> can_commit v a c ->
  rg_create a = None -> rg_detach a = false -> rg_stash a = false -> rg_insert a = false ->
  exists n r', record v ts tx a r = mk_rr r' (Some n) None Recorded /\ committed v r c n r' /\
    heads_at r' (Some n) (hi_branch (hr_head (rr_repo r))) /\
    match hi_branch (hr_head (rr_repo r)) with Some b => only_ref r r' b (Some n) | None => same_refs r r' end.
Proof.
  intros v ts tx a r c U C E1 E2 E3 E4. destruct (record_here v ts tx a r c U C E1 E2 E3 E4) as (n & r' & E & Cm & Hd & Rf).
  exists n, r'. split; [exact E|]. split; [exact Cm|]. split; [exact Hd|]. destruct (hi_branch _) as [b|]; [|exact Rf].
  split; rewrite Rf; [apply lookup_insert|]. intros m Hm. apply lookup_insert_ne. congruence.
Qed.

(** With a new branch, HEAD is on that afterwards, and all others stay. *)
Theorem c89_create : forall v ts tx a r c b, usual v r -> can_commit v a c ->
  rg_create a = Some b -> rg_detach a = false -> rg_stash a = false -> rg_insert a = false ->
  hr_refs (rr_repo r) !! ("refs/heads/" +:+ b : refname) = None ->
  exists n r', record v ts tx a r = mk_rr r' (Some n) None Recorded /\ committed v r c n r' /\
    heads_at r' (Some n) (Some ("refs/heads/" +:+ b)) /\ only_ref r r' ("refs/heads/" +:+ b) (Some n).
Proof. exact record_create. Qed.

(** With [--detach] no reference changes and HEAD is at the new commit, on no branch.  Not
    covered: the first commit of all, and finishing a merge. *)
Theorem c89_detach_partial : forall v ts tx a r c p, usual v r -> can_commit v a c ->
  rg_create a = None -> rg_detach a = true -> rg_stash a = false -> rg_insert a = false ->
  hi_oid (hr_head (rr_repo r)) = Some p -> rv_merging v = [] ->
  exists n r', record v ts tx a r = mk_rr r' (Some n) None Recorded /\ committed v r c n r' /\ heads_at r' (Some n) None /\ same_refs r r'.
Proof. exact record_detach. Qed.

(** With [--stash] no reference changes, nor does HEAD.  Not covered: the same, and when HEAD
    is on no branch. *)
Theorem c89_stash_partial : forall v ts tx a r c p b, usual v r -> can_commit v a c ->
  rg_create a = None -> rg_detach a = false -> rg_stash a = true -> rg_insert a = false ->
  hr_head (rr_repo r) = mk_head (Some p) (Some b) -> rv_merging v = [] ->
  exists n r', record v ts tx a r = mk_rr r' (Some n) None Recorded /\ committed v r c n r' /\
    hr_head (rr_repo r') = hr_head (rr_repo r) /\ same_refs r r'.
Proof. exact record_stash. Qed.

(** When there is nothing to commit, or there are conflicts, or changes are to be chosen while
    some are staged, or the branch is there already, or committing fails, nothing is done;
    other than in the first case this is an error. *)
Theorem c89_refused : forall v ts tx a r,
  let m := record v ts tx a r in
  (rv_changes v = SnapModel.NoChanges -> m = mk_rr r None None NothingToRecord) /\
  (rv_changes v = SnapModel.Conflicts -> m = mk_rr r None None StillConflicts) /\
  (rv_changes v = SnapModel.Staged -> rg_interactive a = true -> rg_create a = None -> m = mk_rr r None None AlreadyStaged) /\
  (forall b, rv_changes v = SnapModel.Unstaged \/ rv_changes v = SnapModel.Staged -> rg_create a = Some b ->
     is_Some (hr_refs (rr_repo r) !! ("refs/heads/" +:+ b : refname)) -> m = mk_rr r None None CreateFails) /\
  (forall k, takes (rv_changes v) (rg_interactive a) k -> rv_contents v k = None -> rg_create a = None -> m = mk_rr r None None CommitFails) /\
  (rc_new m = None -> exits_well (rc_end m) = true -> rv_changes v = SnapModel.NoChanges).
Proof.
  intros v ts tx a r m. split; [|split; [|split; [|split; [|split]]]].
  - intros E. unfold m, record. now rewrite E.
  - intros E. unfold m, record. now rewrite E.
  - intros E1 E2 E3. unfold m, record. now rewrite E1, E2, E3.
  - intros b E1 E2 [o Ho]. unfold m, record. rewrite E2, (create_fails v b r o Ho). destruct E1 as [-> | ->]; reflexivity.
  - intros k T Hk E. pose proof (kind_takes v a k T) as Ek. unfold m, record, git_commit. rewrite E, Ek, Hk.
    inversion T; rewrite ?andb_false_r; reflexivity.
  - unfold m. clear m. unfold record. intros Hn He. destruct (rv_changes v) eqn:Ev; [reflexivity| | |cbn in He; discriminate]; exfalso; revert Hn He.
    all: destruct (match rg_create a with Some _ => _ | None => _ end) as [r1|]; [|cbn; discriminate].
    all: destruct (rg_interactive a && _)%bool; [cbn; discriminate|].
    all: destruct (git_commit _ _ _) as [[n r2]|]; [|cbn; discriminate].
    all: repeat (match goal with |- context [match ?x with _ => _ end] => destruct x end); cbn [rc_new]; discriminate.
Qed.

(** Whatever is asked for, if no commit is made none is lost or added; and if no branch is to
    be made, nothing is different. *)
Theorem c89_no_commit : forall v ts tx a r, rc_new (record v ts tx a r) = None ->
  rr_store (rc_repo (record v ts tx a r)) = rr_store r /\ (rg_create a = None -> rc_repo (record v ts tx a r) = r).
Proof.
  intros v ts tx a r. unfold record. destruct (rv_changes v) eqn:Ev; try (intros _; split; reflexivity).
  all: assert (G : forall r1, match rg_create a with Some b => go_to v AfterCreate None (CheckoutArgs (Some b) false) r | None => Some r end = Some r1 ->
         rr_store r1 = rr_store r /\ (rg_create a = None -> r1 = r)).
  1,3: intros r1; destruct (rg_create a) as [b|]; [|intros [= <-]; auto]; intros E; split; [|discriminate]; revert E; unfold go_to;
         destruct (head_state _) as [s|]; [|discriminate];
         repeat (match goal with |- context [match ?x with _ => _ end] => destruct x end); try discriminate; intros [= <-]; unfold put_state; destruct (get_head_info _); reflexivity.
  all: destruct (match rg_create a with Some _ => _ | None => _ end) as [r1|]; [|intros _; split; reflexivity]; specialize (G r1 eq_refl).
  all: destruct (rg_interactive a && _)%bool; [intros _; exact G|].
  all: destruct (git_commit _ _ _) as [[n r2]|]; [|intros _; exact G].
  all: cbn zeta; repeat (match goal with |- rc_new (match ?x with _ => _ end) = None -> _ => destruct x end); cbn [rc_new]; discriminate.
Qed.

(** ** C90: inserting *)

(** Asking to insert changes nothing up to when the commit was made. *)
Theorem c90_before : forall v ts tx a r, rg_insert a = true -> rc_end (record v ts tx (without_insert a) r) <> Recorded ->
  record v ts tx a r = record v ts tx (without_insert a) r.
Proof. intros v ts tx a r E N. rewrite record_insert by exact E. cbn zeta. destruct (rc_end _); congruence. Qed.

(** After that the siblings of HEAD are put on top of it, with all that is shown above them
    and branches following; or nothing is different.  Not covered: siblings that are
    merges. *)
Theorem c90_inserted_partial : forall v ts i a r h, rg_insert a = true ->
  let m0 := record v ts (TxId i) (without_insert a) r in
  rc_end m0 = Recorded -> insertable (rv_restack v) (rc_repo m0) -> hi_oid (hr_head (rr_repo (rc_repo m0))) = Some h ->
  let m := record v ts (TxId i) a r in
  rc_new m = rc_new m0 /\ inserting (rv_restack v) (rc_repo m0) h m.
Proof.
  intros v ts i a r h Ei m0 E0 I Hh m. unfold m. rewrite record_insert by exact Ei. fold m0. cbn zeta. rewrite E0.
  destruct (io_exists _ _ (ra_order _ _ (it_order _ _ I))) as [mn Hm].
  assert (Op : exists d, open_repo (re_hide (rv_restack v)) (rr_repo (rc_repo m0)) = Some d) by (unfold open_repo; rewrite Hm; eauto).
  destruct Op as [d Op]. pose proof (insert_comes (rv_restack v) (rc_repo m0) h I Hh d Op ts i) as H.
  destruct (insert_before_siblings _ _ _ _) as [[r' rw] x]. cbn [fst snd] in H. split; [reflexivity|]. unfold inserting. cbn [rc_end rc_rewritten rc_repo].
  destruct x; auto. destruct H as (rw' & [= ->] & H). eauto.
Qed.

(** It is done, unless there are no siblings, public commits are above them, or there is a
    merge or a conflict; none of these is an error. *)
Theorem c90_ends_partial : forall v ts i a r h, rg_insert a = true ->
  let m0 := record v ts (TxId i) (without_insert a) r in
  rc_end m0 = Recorded -> insertable (rv_restack v) (rc_repo m0) -> hi_oid (hr_head (rr_repo (rc_repo m0))) = Some h ->
  workable (rv_restack v) (rc_repo m0) ->
  let e := rv_restack v in
  let m := record v ts (TxId i) a r in
  exits_well (rc_end m) = true /\
  (siblings_public e (rc_repo m0) -> rc_end m = RecordedAndInserted PublicAbove) /\
  match rc_end m with
  | RecordedAndInserted NothingAbove => forall c, ~ sibling e (rc_repo m0) c
  | RecordedAndInserted PublicAbove => siblings_public e (rc_repo m0)
  | RecordedAndInserted (ConflictAbove x) => shown (he_graph (re_hide e)) (rr_repo (rc_repo m0)) x /\
      (exists c, sibling e (rc_repo m0) c /\ ancestor (he_graph (re_hide e)) c x) /\
      (merge_commit (he_graph (re_hide e)) x \/ exists q, ee_pick (re_exec e) x q = Conflict)
  | x => x = RecordedAndInserted Inserted
  end.
Proof.
  intros v ts i a r h Ei m0 E0 I Hh Wk e m. unfold m, e. rewrite record_insert by exact Ei. fold m0. cbn zeta. rewrite E0.
  destruct (io_exists _ _ (ra_order _ _ (it_order _ _ I))) as [mn Hm].
  assert (Op : exists d, open_repo (re_hide (rv_restack v)) (rr_repo (rc_repo m0)) = Some d) by (unfold open_repo; rewrite Hm; eauto).
  destruct Op as [d Op]. pose proof (insert_ends (rv_restack v) (rc_repo m0) h I Hh d Op ts i Wk) as H.
  pose proof (insert_public (rv_restack v) (rc_repo m0) h I Hh d Op ts (TxId i)) as Pb.
  destruct (insert_before_siblings _ _ _ _) as [[r' rw] x]. cbn [snd] in H. cbn [rc_end]. split; [|split].
  - destruct x; try contradiction; reflexivity.
  - intros P. specialize (Pb P). now injection Pb as _ _ ->.
  - destruct x; auto; contradiction.
Qed.

(** Siblings of a commit that is no merge are not below it. *)
Theorem c90_not_below : forall e r h, restackable e r -> hi_oid (hr_head (rr_repo r)) = Some h -> ~ merge_commit (he_graph (re_hide e)) h ->
  (forall c, sibling e r c -> ~ merge_commit (he_graph (re_hide e)) c) -> insertable e r.
Proof.
  intros e r h R Hh NM N. constructor; [exact R|exact N|]. intros c h' Hc Eh. rewrite Hh in Eh. injection Eh as <-.
  now apply (siblings_not_below e r h).
Qed.

(** ** Demonstrations *)
Local Open Scope Z_scope.

(** HEAD is at 2, on the branch [a]; above it is 3, and next to it 6.  The new commit is 4. *)
Definition contents_of (x : object) : contents := mk_contents (commit_tree (ob_commit x)) (ob_author x) (ob_committer x) (ob_message x).
Definition kdemo_before : graph := [(1%N, []); (2%N, [1%N]); (3%N, [2%N]); (6%N, [1%N])].
Definition kdemo_graph : graph := kdemo_before ++ [(4%N, [2%N])].
Definition kdemo_objects : list (oid * object) := objects_in kdemo_graph ++ [again 7 3 4; again 8 6 2].
Definition kdemo_hooks (n : oid) (m : moment) (_ : rrepo) : list event := match m with AfterCommit => [CommitEvent 5 (TxId 5) n] | _ => [] end.
Definition kdemo_env (bad : list (oid * oid)) : restack_env := mdemo_env kdemo_graph kdemo_objects (picks bad) (fun _ _ => Conflict).
Definition kdemo_setting (ch : SnapModel.changes_type) : record_setting :=
  mk_rv (kdemo_env []) ch [] (fun k => match k with TakeIndex => None | _ => Some (contents_of (object_in kdemo_graph 4)) end) true (kdemo_hooks 4).
Definition kdemo_log : list event := List.map (CommitEvent 1 (TxId 1)) [2%N; 3%N; 6%N].
Definition kdemo_refs : list (refname * oid) := [("refs/heads/main", 1%N); ("refs/heads/a", 2%N); ("refs/heads/b", 3%N)].
Definition kdemo (h : head_info) : rrepo := rdemo_repo kdemo_before kdemo_refs h kdemo_log.
Definition on_a : head_info := mk_head (Some 2%N) (Some "refs/heads/a").
Definition plain : record_args := mk_ra false None false false false.

Lemma kdemo_named objs pick amend g r : restackable (mdemo_env g objs pick amend) r -> faithful_names (re_exec (mdemo_env g objs pick amend)).
Proof. intros R. exact (ra_faithful _ _ R). Qed.
Lemma kdemo_after_order bad : restackable (kdemo_env bad) (rdemo_repo kdemo_graph kdemo_refs on_a kdemo_log).
Proof. apply mdemo_restackable; vm_compute; reflexivity. Qed.
Lemma kdemo_usual ch h : h = on_a \/ h = mk_head (Some 2%N) None -> usual (kdemo_setting ch) (kdemo h).
Proof.
  intros H. constructor.
  - intros b Hb. destruct H as [-> | ->]; [|discriminate]. injection Hb as <-. split; [vm_compute; reflexivity|]. exists "a". reflexivity.
  - destruct H as [-> | ->]; [discriminate|]. intros _. exists 2%N. reflexivity.
  - exact (ra_faithful _ _ (kdemo_after_order [])).
  - intros o x Hx. apply (ra_named _ _ (kdemo_after_order [])). cbn [kdemo rdemo_repo rr_store] in *.
    assert (S : store_of kdemo_before ⊆ store_of kdemo_graph) by (apply (bool_decide_unpack _); vm_compute; exact Logic.I). exact (lookup_weaken _ _ _ _ Hx S).
Qed.

(** A plain one, one with a new branch, one with [--detach] and one with [--stash]. *)
Example c89_example :
  let v := kdemo_setting SnapModel.Unstaged in
  let result a := let m := record v 5 (TxId 5) a (kdemo on_a) in
    (rc_end m, rc_new m, hr_head (rr_repo (rc_repo m)), List.map (fun n : refname => hr_refs (rr_repo (rc_repo m)) !! n) ["refs/heads/main"; "refs/heads/a"; "refs/heads/b"; "refs/heads/c"]) in
  usual v (kdemo on_a) /\ can_commit v plain (contents_of (object_in kdemo_graph 4)) /\
  result plain = (Recorded, Some 4%N, mk_head (Some 4%N) (Some "refs/heads/a"), [Some 1%N; Some 4%N; Some 3%N; None]) /\
  result (mk_ra false (Some "c") false false false) = (Recorded, Some 4%N, mk_head (Some 4%N) (Some "refs/heads/c"), [Some 1%N; Some 2%N; Some 3%N; Some 4%N]) /\
  result (mk_ra false (Some "b") false false false) = (CreateFails, None, on_a, [Some 1%N; Some 2%N; Some 3%N; None]) /\
  result (mk_ra false None true false false) = (Recorded, Some 4%N, mk_head (Some 4%N) None, [Some 1%N; Some 2%N; Some 3%N; None]) /\
  result (mk_ra false None false false true) = (Recorded, Some 4%N, on_a, [Some 1%N; Some 2%N; Some 3%N; None]).
Proof.
  split; [apply kdemo_usual; now left|]. split; [exists TakeAll; split; [constructor|reflexivity]|].
  repeat simple refine (conj _ _); vm_compute; reflexivity.
Qed.

(** Choosing changes while some are staged is refused, but only after the new branch was made
    and switched to. *)
Theorem c89_created_refuted : exists v ts tx a r,
  usual v r /\ accepted a = true /\ rc_end (record v ts tx a r) = AlreadyStaged /\
  hr_head (rr_repo (rc_repo (record v ts tx a r))) <> hr_head (rr_repo r) /\ ~ same_refs r (rc_repo (record v ts tx a r)).
Proof.
  exists (kdemo_setting SnapModel.Staged), 5, (TxId 5), (mk_ra true (Some "c") false false false), (kdemo on_a).
  split; [apply kdemo_usual; now left|]. split; [reflexivity|]. split; [vm_compute; reflexivity|]. split; [vm_compute; discriminate|].
  intros E. assert (X : hr_refs (rr_repo (rc_repo (record (kdemo_setting SnapModel.Staged) 5 (TxId 5) (mk_ra true (Some "c") false false false) (kdemo on_a)))) !! ("refs/heads/c" : refname) = Some 2%N) by (vm_compute; reflexivity).
  rewrite E in X. vm_compute in X. discriminate.
Qed.

(** With [--stash], HEAD does not go back if it is on no branch. *)
Theorem c89_stash_refuted : exists v ts tx a r c p n,
  usual v r /\ can_commit v a c /\ accepted a = true /\ rg_stash a = true /\ hr_head (rr_repo r) = mk_head (Some p) None /\ rv_merging v = [] /\
  rc_end (record v ts tx a r) = Recorded /\ rc_new (record v ts tx a r) = Some n /\ n <> p /\
  hr_head (rr_repo (rc_repo (record v ts tx a r))) = mk_head (Some n) None.
Proof.
  exists (kdemo_setting SnapModel.Unstaged), 5, (TxId 5), (mk_ra false None false false true), (kdemo (mk_head (Some 2%N) None)), (contents_of (object_in kdemo_graph 4)), 2%N, 4%N.
  split; [apply kdemo_usual; now right|]. split; [exists TakeAll; split; [constructor|reflexivity]|].
  repeat simple refine (conj _ _); try (vm_compute; reflexivity). discriminate.
Qed.

(** With [--detach], after the first commit of all HEAD is not at it, nor is any branch. *)
Definition kdemo_first : record_setting :=
  mk_rv (kdemo_env []) SnapModel.Staged [] (fun _ => Some (contents_of (object_in kdemo_graph 1))) true (kdemo_hooks 1).
Definition kdemo_empty : rrepo := mk_rrepo ∅ (mk_hrepo ∅ (mk_head None (Some "refs/heads/main")) []).
Theorem c89_first_refuted : exists v ts tx a r c n,
  usual v r /\ can_commit v a c /\ accepted a = true /\ rg_detach a = true /\ rv_merging v = [] /\
  rc_end (record v ts tx a r) = Recorded /\ rc_new (record v ts tx a r) = Some n /\
  hi_oid (hr_head (rr_repo (rc_repo (record v ts tx a r)))) = None /\ forall b, hr_refs (rr_repo (rc_repo (record v ts tx a r))) !! b = None.
Proof.
  exists kdemo_first, 5, (TxId 5), (mk_ra false None true false false), kdemo_empty, (contents_of (object_in kdemo_graph 1)), 1%N.
  split.
  { constructor; [|discriminate|exact (ra_faithful _ _ (kdemo_after_order []))|].
    - intros b [= <-]. split; [reflexivity|]. exists "main". reflexivity.
    - intros o x H. cbn in H. now rewrite lookup_empty in H. }
  split; [exists TakeIndex; split; [constructor|reflexivity]|]. repeat simple refine (conj _ _); try (vm_compute; reflexivity).
Qed.

(** Finishing a merge with [--detach] ends with an error after the commit was made, and the
    branch stays on it. *)
Definition kdemo_merged : graph := kdemo_before ++ [(4%N, [2%N; 6%N])].
Definition kdemo_merging : record_setting :=
  mk_rv (mdemo_env kdemo_merged (objects_in kdemo_merged) (picks []) (fun _ _ => Conflict)) SnapModel.Staged [6%N]
    (fun _ => Some (contents_of (object_in kdemo_merged 4))) true (kdemo_hooks 4).
Lemma kdemo_merged_order : restackable (rv_restack kdemo_merging) (rdemo_repo kdemo_merged kdemo_refs on_a kdemo_log).
Proof. apply mdemo_restackable; vm_compute; reflexivity. Qed.
Theorem c89_merge_refuted : exists v ts tx a r c b n,
  usual v r /\ can_commit v a c /\ accepted a = true /\ rg_detach a = true /\
  rc_end (record v ts tx a r) = PutBackFails /\ rc_new (record v ts tx a r) = Some n /\
  hr_head (rr_repo (rc_repo (record v ts tx a r))) = mk_head (Some n) (Some b) /\
  hr_refs (rr_repo (rc_repo (record v ts tx a r))) !! b = Some n /\ hr_refs (rr_repo r) !! b <> Some n.
Proof.
  exists kdemo_merging, 5, (TxId 5), (mk_ra false None true false false), (kdemo on_a), (contents_of (object_in kdemo_merged 4)), "refs/heads/a", 4%N.
  split.
  { constructor.
    - intros b Hb. injection Hb as <-. split; [vm_compute; reflexivity|]. exists "a". reflexivity.
    - discriminate.
    - exact (ra_faithful _ _ kdemo_merged_order).
    - intros o x Hx. apply (ra_named _ _ kdemo_merged_order). cbn [kdemo rdemo_repo rr_store] in *.
      assert (S : store_of kdemo_before ⊆ store_of kdemo_merged) by (apply (bool_decide_unpack _); vm_compute; exact Logic.I). exact (lookup_weaken _ _ _ _ Hx S). }
  split; [exists TakeIndex; split; [constructor|reflexivity]|].
  repeat simple refine (conj _ _); try (vm_compute; reflexivity). vm_compute. discriminate.
Qed.

(** Inserting 4 after 2: 3 is made again on top of 4 as 7, and its branch follows. *)
Definition insert_too : record_args := mk_ra false None false true false.
Definition kdemo_done (bad : list (oid * oid)) : rrepo :=
  rc_repo (record (mk_rv (kdemo_env bad) SnapModel.Unstaged [] (fun _ => Some (contents_of (object_in kdemo_graph 4))) true (kdemo_hooks 4)) 5 (TxId 5) plain (kdemo on_a)).
Lemma kdemo_done_order bad : restackable (kdemo_env bad) (kdemo_done bad).
Proof. apply mdemo_restackable; vm_compute; reflexivity. Qed.
Lemma kdemo_sibling bad c : sibling (kdemo_env bad) (kdemo_done bad) c <-> c = 3%N.
Proof.
  pose proof (kdemo_done_order bad) as R. pose proof (graph_wf _ _ R) as W. change (he_graph (re_hide (kdemo_env bad))) with kdemo_graph in W.
  unfold sibling. change (he_graph (re_hide (kdemo_env bad))) with kdemo_graph. split.
  - intros (_ & h & p & Hh & Ne & P1 & P2). change (hi_oid (hr_head (rr_repo (kdemo_done bad)))) with (Some 4%N) in Hh. injection Hh as <-.
    apply parent_parents_of in P1; [|exact W]. vm_compute in P1. apply elem_of_list_singleton in P1. subst p.
    assert (X : c ∈ children kdemo_graph {[2%N : oid]}) by (apply children_spec; exists 2%N; split; [now apply elem_of_singleton|exact P2]).
    assert (E : children kdemo_graph {[2%N : oid]} = ({[3%N : oid; 4%N : oid]} : commit_set)) by (apply (bool_decide_unpack _); vm_compute; exact Logic.I).
    rewrite E in X. apply elem_of_union in X. destruct X as [X|X]; apply elem_of_singleton in X; congruence.
  - intros ->. split.
    + exists 3%N. split; [constructor|]. left. apply status_in_spec. vm_compute. reflexivity.
    + exists 4%N, 2%N. split; [reflexivity|]. split; [discriminate|]. split; exists [2%N]; split; decide_it.
Qed.
Lemma kdemo_insertable bad : insertable (kdemo_env bad) (kdemo_done bad).
Proof.
  apply (c90_not_below _ _ 4%N); [exact (kdemo_done_order bad)|reflexivity|apply no_merges_spec; reflexivity|]. intros c _. apply no_merges_spec. reflexivity.
Qed.
Example c90_example :
  let v := kdemo_setting SnapModel.Unstaged in
  let m0 := record v 5 (TxId 5) (without_insert insert_too) (kdemo on_a) in
  let m := record v 5 (TxId 5) insert_too (kdemo on_a) in
  rc_end m0 = Recorded /\ insertable (rv_restack v) (rc_repo m0) /\ hi_oid (hr_head (rr_repo (rc_repo m0))) = Some 4%N /\ workable (rv_restack v) (rc_repo m0) /\
  (forall c, sibling (rv_restack v) (rc_repo m0) c <-> c = 3%N) /\
  rc_end m = RecordedAndInserted Inserted /\ (exists rw, rc_rewritten m = Some rw /\ map_to_list rw = [(3%N, NonZero 7)]) /\
  hr_head (rr_repo (rc_repo m)) = mk_head (Some 4%N) (Some "refs/heads/a") /\
  hr_refs (rr_repo (rc_repo m)) !! ("refs/heads/b" : refname) = Some 7%N.
Proof.
  intros v m0 m. split; [vm_compute; reflexivity|]. split; [exact (kdemo_insertable [])|]. split; [vm_compute; reflexivity|].
  split; [apply mdemo_workable; [exact (kdemo_done_order [])|apply picks_fine|discriminate]|]. split; [exact (kdemo_sibling [])|].
  split; [vm_compute; reflexivity|]. split; [exists (default ∅ (rc_rewritten m)); split; vm_compute; reflexivity|]. split; vm_compute; reflexivity.
Qed.

(** With [--stash], what is moved is not what is above HEAD but what is next to it, and it is
    moved onto HEAD, not onto the new commit. *)
Theorem c90_stash_refuted : exists v ts i a r c h n k rw k',
  usual v r /\ can_commit v a c /\ accepted a = true /\ rg_insert a = true /\ rg_stash a = true /\ hi_oid (hr_head (rr_repo r)) = Some h /\
  restackable (rv_restack v) (rc_repo (record v ts (TxId i) (without_insert a) r)) /\
  let m := record v ts (TxId i) a r in
  rc_end m = RecordedAndInserted Inserted /\ rc_new m = Some n /\ rc_rewritten m = Some rw /\
  parent (he_graph (re_hide (rv_restack v))) h n /\
  (* above HEAD, not moved *)
  (parent (he_graph (re_hide (rv_restack v))) h 3 /\ shown (he_graph (re_hide (rv_restack v))) (rr_repo r) 3 /\ rw !! 3%N = None) /\
  (* not above HEAD, moved *)
  (~ ancestor (he_graph (re_hide (rv_restack v))) h k /\ rw !! k = Some (NonZero k') /\
   exists x, rr_store (rc_repo m) !! k' = Some x /\ commit_parents (ob_commit x) = [h]).
Proof.
  set (v := kdemo_setting SnapModel.Unstaged). set (a := mk_ra false None false true true).
  exists v, 5, 5, a, (kdemo on_a), (contents_of (object_in kdemo_graph 4)), 2%N, 4%N, 6%N,
    (default ∅ (rc_rewritten (record v 5 (TxId 5) a (kdemo on_a)))), 8%N.
  split; [apply kdemo_usual; now left|]. split; [exists TakeAll; split; [constructor|reflexivity]|].
  split; [reflexivity|]. split; [reflexivity|]. split; [reflexivity|]. split; [reflexivity|].
  split; [apply mdemo_restackable; vm_compute; reflexivity|]. intros m. subst m.
  split; [vm_compute; reflexivity|]. split; [vm_compute; reflexivity|]. split; [vm_compute; reflexivity|].
  split; [exists [2%N]; split; decide_it|]. split; [|split].
  - split; [exists [2%N]; split; decide_it|]. split; [|vm_compute; reflexivity].
    exists 3%N. split; [constructor|]. left. apply status_in_spec. vm_compute. reflexivity.
  - apply not_ancestor; vm_compute; reflexivity.
  - split; [vm_compute; reflexivity|]. eexists. split; [vm_compute; reflexivity|reflexivity].
Qed.

(** Finishing a merge of a branch above HEAD with [--insert] finds a cycle, which is reported
    as a bug. *)
Definition cdemo_before : graph := [(1%N, []); (2%N, [1%N]); (3%N, [2%N]); (6%N, [3%N])].
Definition cdemo_graph : graph := cdemo_before ++ [(4%N, [2%N; 6%N])].
Definition cdemo_setting : record_setting :=
  mk_rv (mdemo_env cdemo_graph (objects_in cdemo_graph) (picks []) (fun _ _ => Conflict)) SnapModel.Staged [6%N]
    (fun _ => Some (contents_of (object_in cdemo_graph 4))) true (kdemo_hooks 4).
Theorem c90_cycle_refuted : exists v ts i a r c,
  usual v r /\ can_commit v a c /\ accepted a = true /\ rg_insert a = true /\
  restackable (rv_restack v) (rc_repo (record v ts (TxId i) (without_insert a) r)) /\
  workable (rv_restack v) (rc_repo (record v ts (TxId i) (without_insert a) r)) /\
  rc_end (record v ts (TxId i) a r) = RecordedAndInserted CycleAbove /\ exits_well (rc_end (record v ts (TxId i) a r)) = false.
Proof.
  set (r := rdemo_repo cdemo_before kdemo_refs on_a kdemo_log).
  assert (R : restackable (rv_restack cdemo_setting) (rc_repo (record cdemo_setting 5 (TxId 5) plain r))) by (apply mdemo_restackable; vm_compute; reflexivity).
  exists cdemo_setting, 5, 5, insert_too, r, (contents_of (object_in cdemo_graph 4)).
  split.
  { constructor.
    - intros b Hb. injection Hb as <-. split; [vm_compute; reflexivity|]. exists "a". reflexivity.
    - discriminate.
    - exact (ra_faithful _ _ R).
    - intros o x Hx. apply (ra_named _ _ R).
      assert (S : store_of cdemo_before ⊆ rr_store (rc_repo (record cdemo_setting 5 (TxId 5) plain r))) by (apply (bool_decide_unpack _); vm_compute; exact Logic.I). exact (lookup_weaken _ _ _ _ Hx S). }
  split; [exists TakeIndex; split; [constructor|reflexivity]|]. split; [reflexivity|]. split; [reflexivity|]. split; [exact R|].
  split; [apply mdemo_workable; [exact R|apply picks_fine|discriminate]|]. split; vm_compute; reflexivity.
Qed.

Print Assumptions c89_here.
Print Assumptions c89_create.
Print Assumptions c89_detach_partial.
Print Assumptions c89_stash_partial.
Print Assumptions c89_refused.
Print Assumptions c89_no_commit.
Print Assumptions c89_created_refuted.
Print Assumptions c89_stash_refuted.
Print Assumptions c89_first_refuted.
Print Assumptions c89_merge_refuted.
Print Assumptions c90_before.
Print Assumptions c90_inserted_partial.
Print Assumptions c90_ends_partial.
Print Assumptions c90_not_below.
Print Assumptions c90_stash_refuted.
Print Assumptions c90_cycle_refuted.
