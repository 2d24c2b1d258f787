(** Properties C100 to C102: [git reword]. *)
From stdpp Require Import sorting relations countable.
From Verif Require Import Base TextModel EventLogModel EventLogSpec EventLogProofs EvolveModel EvolveSpec
  DagModel DagSpec DagProofs DagCompProofs StrModel StrProofs HookModel HookSpec PlanModel PlanSpec PlanProofs PlanBuildProofs PlanProps ExecModel ExecSpec ExecAfterProofs ExecProps
  HideModel HideSpec HideProofs HideProps RestackModel RestackSpec RestackProofs RestackProps SyncModel SyncSpec SyncProofs SyncProps
  MoveModel MoveSpec MoveProofs MoveProps ModeModel TreeModel SnapModel AmendModel AmendSpec AmendProofs RecCmdModel TestCacheModel FixModel FixSpec
  RewordCmdModel RewordCmdSpec SwapProofs SwapRunProofs RewordCmdProofs.
From Verif Require TreeOpsProofs.
Local Open Scope string_scope.
Local Open Scope list_scope.
Local Open Scope N_scope.

(** ** C100 *)

(** When it ends well, the commits given have the new messages and those above the old ones;
    contents and authors stay, all are on what their parents became, and branches and HEAD
    go along. *)
Theorem c100_reworded : forall e r given src ts i, rewordable e r given -> let res := reword e ts (TxId i) given src r in
  rwr_end res = Reworded -> exists rw messages, rwr_rewritten res = Some rw /\ new_messages given src messages /\
    goes_along e r rw (rwr_repo res) /\
    (plain_picks (re_exec e) (rr_store r) -> only_messages e r given messages rw (rr_store (rwr_repo res))).
Proof.
  intros e r given src ts i A res. unfold res. pose proof (rc_ends e r given ts i A src) as E. destruct (reword _ _ _ _ _ _) as [r' rwo en].
  cbn [rwr_end rwr_rewritten rwr_repo]. intros ->. destruct E as [(rw & m & -> & Nw & _ & _ & _ & Ga & Om & _) _]. exists rw, m. auto.
Qed.

(** ** C101 *)

(** It is never stopped by a conflict: where it stops is a merge above the commits given. *)
Theorem c101_no_conflict : forall e r given src ts i c, rewordable e r given -> workable e r -> good_messages (re_exec e) given src ->
  plain_picks (re_exec e) (rr_store r) -> rwr_end (reword e ts (TxId i) given src r) = RewordStopped c ->
  is_above e r given c /\ merge_commit (he_graph (re_hide e)) c.
Proof.
  intros e r given src ts i c A Wk Gm Pp. pose proof (rc_ends e r given ts i A src) as E. destruct (reword _ _ _ _ _ _) as [r' rwo en].
  cbn [rwr_end]. intros ->. destruct E as [(_ & _ & E) _]. auto.
Qed.
(** It goes through if there is no such merge, no commit given is a root or public, and there
    are messages. *)
Theorem c101_through : forall e r given src ts i, rewordable e r given -> workable e r -> good_messages (re_exec e) given src ->
  plain_picks (re_exec e) (rr_store r) -> given <> ∅ -> src <> Asked None ->
  (forall commits f, src = FixUpOf commits f -> exists c, commits = {[c]} /\ forall o, o ∈ given -> ancestor (he_graph (re_hide e)) c o) ->
  (re_force e = true \/ forall c, c ∈ given -> ~ is_public e r c) ->
  (forall c, c ∈ given -> parents_of (he_graph (re_hide e)) c <> []) ->
  (forall c, is_above e r given c -> ~ merge_commit (he_graph (re_hide e)) c) ->
  rwr_end (reword e ts (TxId i) given src r) = Reworded.
Proof.
  intros e r given src ts i A Wk Gm Pp Ne Ns Fx Pu Ro Nm. pose proof (rc_ends e r given ts i A src) as E. destruct (reword _ _ _ _ _ _) as [r' rwo en].
  cbn [rwr_end]. destruct E as [E _]. destruct en; try contradiction; try reflexivity; exfalso.
  - destruct E as [(F & c & Hc & P) _]. destruct Pu as [Pu|Pu]; [congruence|exact (Pu c Hc P)].
  - destruct E as [(commits & f & Es & -> & N) _]. destruct (Fx _ _ Es) as (c & -> & _). apply N. apply size_singleton.
  - destruct E as [(c & f & Es & N) _]. destruct (Fx _ _ Es) as (c' & Ec & An). apply N. split; [exact Ne|]. assert (X : c' ∈ ({[c]} : commit_set)) by (rewrite Ec; set_solver).
    apply elem_of_singleton in X. subst c'. exact An.
  - destruct E as [E _]. contradiction.
  - destruct E as [[(c & Hc & P)|H] _]; [exact (Ro c Hc P)|contradiction].
  - destruct E as [_ [[E _]|E]]; [contradiction|]. apply E. auto.
  - destruct E as (_ & _ & E). destruct (E Wk Gm Pp) as [H1 H2]. exact (Nm _ H1 H2).
  - destruct E as [_ E]. apply E. auto.
Qed.
(** With such a merge it never ends well. *)
Theorem c101_merge : forall e r given src ts i c, rewordable e r given -> is_above e r given c -> merge_commit (he_graph (re_hide e)) c ->
  rwr_end (reword e ts (TxId i) given src r) <> Reworded.
Proof.
  intros e r given src ts i c A Ab M. pose proof (rc_ends e r given ts i A src) as E. destruct (reword _ _ _ _ _ _) as [r' rwo en].
  cbn [rwr_end]. intros ->. destruct E as [(rw & m & _ & _ & _ & _ & Nm & _) _]. exact (Nm c Ab M).
Qed.

(** ** C102 *)

(** Otherwise no reference, no event about a commit and not HEAD changes, and it tells why. *)
Theorem c102_otherwise : forall e r given src ts i, rewordable e r given -> workable e r -> good_messages (re_exec e) given src ->
  let res := reword e ts (TxId i) given src r in rwr_end res <> Reworded ->
  rwr_rewritten res = None /\ left_alone r (rwr_repo res) /\
  match rwr_end res with
  | RewordsPublic => re_force e = false /\ exists c, c ∈ given /\ is_public e r c
  | FixupNotOne n => exists commits f, src = FixUpOf commits f /\ n = size commits /\ n <> 1%nat
  | FixupNotAncestor => exists c f, src = FixUpOf {[c]} f /\ ~ (given <> ∅ /\ forall o, o ∈ given -> ancestor (he_graph (re_hide e)) c o)
  | RewordAborted => src = Asked None
  | RewordPanics => exists c, c ∈ given /\ parents_of (he_graph (re_hide e)) c = []
  | RewordStopped c => plain_picks (re_exec e) (rr_store r) -> is_above e r given c /\ merge_commit (he_graph (re_hide e)) c
  | RewordFails => given = ∅
  | _ => False
  end.
Proof.
  intros e r given src ts i A Wk Gm res. unfold res. pose proof (rc_ends e r given ts i A src) as E. destruct (reword _ _ _ _ _ _) as [r' rwo en].
  cbn [rwr_end rwr_rewritten rwr_repo]. intros N. destruct E as [E _].
  assert (S : left_alone r r) by (constructor; reflexivity).
  assert (O : only_commits r r' -> left_alone r r'). { intros [Er Es]. constructor; [exact Es|now rewrite Er..]. }
  destruct en; try contradiction.
  - destruct E as (E & -> & ->). auto.
  - destruct E as (E & -> & ->). auto.
  - destruct E as (E & -> & ->). auto.
  - destruct E as (E & -> & ->). auto.
  - destruct E as ([E|E] & -> & Oc); [|contradiction]. auto.
  - destruct E as (-> & [[E ->]|E]); [auto|]. destruct (E (conj Wk Gm)).
  - destruct E as (-> & La & E). auto.
  - destruct E as (-> & E). destruct (E (conj Wk Gm)).
Qed.
(** Before anything is planned, nothing at all changes. *)
Theorem c102_refused : forall e r given src ts i, rewordable e r given -> let res := reword e ts (TxId i) given src r in
  match rwr_end res with RewordsPublic | FixupNotOne _ | FixupNotAncestor | RewordAborted => rwr_repo res = r | _ => True end.
Proof.
  intros e r given src ts i A res. unfold res. pose proof (rc_ends e r given ts i A src) as E. destruct (reword _ _ _ _ _ _) as [r' rwo en].
  cbn [rwr_end rwr_repo]. destruct E as [E _]. destruct en; auto; apply E.
Qed.
(** No public commit is rewritten unless that is allowed. *)
Theorem c102_public : forall e r given src ts i rw c, rewordable e r given -> re_force e = false -> plain_picks (re_exec e) (rr_store r) ->
  rwr_rewritten (reword e ts (TxId i) given src r) = Some rw -> is_Some (rw !! c) -> ~ is_public e r c.
Proof.
  intros e r given src ts i rw c A F Pp. pose proof (rc_ends e r given ts i A src) as E. destruct (reword _ _ _ _ _ _) as [r' rwo en].
  cbn [rwr_rewritten]. destruct E as [E NP]. intros -> Sc (m & Hm & P). destruct en.
  all: try (destruct E as (_ & E & _); discriminate E). all: try (destruct E as (E & _); discriminate E). all: try contradiction.
  destruct E as (rw' & ms & [= <-] & _ & _ & _ & _ & _ & Om & _). destruct (Om Pp) as [Ow _ _ _]. apply Ow in Sc. destruct Sc as [Hc|(_ & o & Ho & _ & Pa)].
  - apply (NP F c Hc). exists m. auto.
  - apply (NP F o Ho). exists m. split; [exact Hm|]. etransitivity; [apply tc_rtc; exact Pa|exact P].
Qed.

(** ** Demonstrations *)

(** The main branch is at 1; on it is 2, and on that 3, where HEAD is, and 4. *)
Definition rwd_graph : graph := [(1, []); (2, [1]); (3, [2]); (4, [2])].
Definition rwd_more : list (oid * object) :=
  [(6, mk_object (mk_commit [1] 12) 22 32 77); (7, mk_object (mk_commit [1] 12) 22 33 77);
   (8, mk_object (mk_commit [7] 13) 23 34 43); (9, mk_object (mk_commit [7] 14) 24 35 44)].
(** Applying a commit gives its contents on what has those of its parent, and conflicts otherwise. *)
Definition rwd_pick (names : list (oid * object)) (st : store) (c q : oid) : attempt :=
  match st !! c with
  | Some x => match commit_parents (ob_commit x), List.find (fun v => N.eqb (fst v) q) names with
              | [p], Some v => match st !! p with
                               | Some px => if N.eqb (commit_tree (ob_commit (snd v))) (commit_tree (ob_commit px)) then MadeTree (commit_tree (ob_commit x)) else Conflict
                               | None => Conflict
                               end
              | _, _ => MadeTree (commit_tree (ob_commit x))
              end
  | None => Conflict
  end.
Definition rwd_env (g : graph) (st : store) (names : list (oid * object)) : restack_env := mdemo_env g names (rwd_pick names st) (fun _ _ => Conflict).
Definition rwd_log (l : list oid) : list event := List.map (CommitEvent 1%Z (TxId 1%Z)) l.
Definition rwd (g : graph) (st : store) (a : oid) (l : list oid) : rrepo :=
  mk_rrepo st (mk_hrepo (list_to_map [("refs/heads/main" : refname, 1); ("refs/heads/a" : refname, a)]) (mk_head (Some a) (Some "refs/heads/a")) (rwd_log l)).
Lemma rwd_plain g names st : Forall (fun v => (fst v < 100)%N) names -> NoDup (List.map fst names) -> plain_picks (re_exec (rwd_env g st names)) st.
Proof.
  intros B Nd c x p px qx H1 H2 H3 H4. cbn [rwd_env mdemo_env re_exec ee_pick ee_hash]. unfold rwd_pick. rewrite H1, H2, H3.
  destruct (List.find (fun v => N.eqb (fst v) (named_as names qx)) names) as [v|] eqn:F; [|reflexivity].
  apply find_some in F. destruct F as [Hv F]. apply N.eqb_eq in F.
  assert (E : snd v = qx).
  { unfold named_as in F. match type of F with _ = match ?t with _ => _ end => destruct t as [w|] eqn:Fw end.
    - apply find_some in Fw. destruct Fw as [Hw Ew]. apply bool_decide_eq_true in Ew. apply elem_of_list_In in Hv, Hw.
      destruct v as [a y], w as [b z]. cbn in *. subst a z. exact (TreeOpsProofs.nodup_value _ _ _ _ Nd Hv Hw).
    - rewrite Forall_forall in B. apply elem_of_list_In in Hv. specialize (B v Hv). cbn beta in B. rewrite F in B. exfalso. clear -B. unfold oid in *. lia. }
  rewrite E, H4, N.eqb_refl. reflexivity.
Qed.
Lemma rwd_rewordable g st names a l (given : commit_set) : ordered_from ∅ g = true -> rdemo_good g names (rwd g st a l) = true ->
  bool_decide (given ⊆ list_to_set (List.map fst g)) = true -> rewordable (rwd_env g st names) (rwd g st a l) given.
Proof.
  intros W H T. apply bool_decide_eq_true in T. constructor; [now apply mdemo_restackable|].
  intros c Hc. apply T, elem_of_list_to_set, elem_of_list_In, in_map_iff in Hc. destruct Hc as ([c' ps] & <- & Hc). apply vertices_spec. exists ps. now apply elem_of_list_In.
Qed.
Lemma rwd_fine names st c q : rwd_pick names st c q <> Broken.
Proof. unfold rwd_pick. repeat case_match; discriminate. Qed.
Example c100_example :
  let names := objects_in rwd_graph ++ rwd_more in let e := rwd_env rwd_graph (store_of rwd_graph) names in let r := rwd rwd_graph (store_of rwd_graph) 3 [2; 3; 4] in
  let src := Asked (Some {[2 := 77]}) in let res := reword e 9%Z (TxId 9%Z) {[2]} src r in
  rewordable e r {[2]} /\ workable e r /\ good_messages (re_exec e) {[2]} src /\ plain_picks (re_exec e) (rr_store r) /\
  rwr_end res = Reworded /\
  (exists rw, rwr_rewritten res = Some rw /\ fresh rwd_graph (rwd_log [2; 3; 4]) rw /\ rw !! 2 = Some (NonZero 7) /\ rw !! 3 = Some (NonZero 8) /\ rw !! 4 = Some (NonZero 9)) /\
  rr_store (rwr_repo res) !! 7 = Some (mk_object (mk_commit [1] 12) 22 33 77) /\ rr_store (rwr_repo res) !! 8 = Some (mk_object (mk_commit [7] 13) 23 34 43) /\
  hr_head (rr_repo (rwr_repo res)) = mk_head (Some 8) (Some "refs/heads/a").
Proof.
  intros names e r src res. assert (A : rewordable e r {[2]}) by (apply rwd_rewordable; vm_compute; reflexivity).
  split; [exact A|]. split; [apply mdemo_workable; [apply A|apply rwd_fine|discriminate]|]. split.
  { intros c Hc. apply elem_of_singleton in Hc. subst c. exists 77. split; reflexivity. }
  split; [apply rwd_plain; [repeat constructor|apply (bool_decide_eq_true (NoDup _)); vm_compute; reflexivity]|].
  split; [vm_compute; reflexivity|]. split.
  - exists (default ∅ (rwr_rewritten res)). split; [vm_compute; reflexivity|]. split; [apply all_fresh_spec; vm_compute; reflexivity|].
    split; [vm_compute; reflexivity|]. split; vm_compute; reflexivity.
  - split; [vm_compute; reflexivity|]. split; vm_compute; reflexivity.
Qed.
(** A commit above that has the contents of its parent is lost. *)
Definition rwd_empty : list (oid * object) :=
  [(1, mk_object (mk_commit [] 11) 21 31 41); (2, mk_object (mk_commit [1] 12) 22 32 42); (3, mk_object (mk_commit [2] 12) 23 33 43)].
Theorem c100_empty_refuted : exists e r given src c, rewordable e r given /\ workable e r /\ good_messages (re_exec e) given src /\ plain_picks (re_exec e) (rr_store r) /\
  let res := reword e 9%Z (TxId 9%Z) given src r in rwr_end res = Reworded /\ hi_oid (hr_head (rr_repo r)) = Some c /\ c ∉ given /\
  rwr_rewritten res ≫= (.!! c) = Some Zero /\ visibility (hr_log (rr_repo (rwr_repo res))) c Obsolete /\ hi_oid (hr_head (rr_repo (rwr_repo res))) = Some 7.
Proof.
  exists (rwd_env [(1, []); (2, [1]); (3, [2])] (list_to_map rwd_empty) (rwd_empty ++ take 2 rwd_more)), (rwd [(1, []); (2, [1]); (3, [2])] (list_to_map rwd_empty) 3 [2; 3]), {[2]}, (Asked (Some {[2 := 77]})), 3.
  match goal with |- rewordable ?e ?r ?g /\ _ => assert (A : rewordable e r g) by (apply rwd_rewordable; vm_compute; reflexivity) end.
  split; [exact A|]. split; [apply mdemo_workable; [apply A|apply rwd_fine|discriminate]|]. split.
  { intros c Hc. apply elem_of_singleton in Hc. subst c. exists 77. split; reflexivity. }
  split; [apply rwd_plain; [repeat constructor|apply (bool_decide_eq_true (NoDup _)); vm_compute; reflexivity]|].
  cbn zeta. split; [vm_compute; reflexivity|]. split; [reflexivity|]. split; [decide_it|]. split; [vm_compute; reflexivity|].
  split; [|vm_compute; reflexivity].
  edestruct (c100_reworded _ _ _ (Asked (Some {[2 := 77]})) 9%Z 9%Z A) as (rw & ms & Er & _ & Ga & _); [vm_compute; reflexivity|].
  eapply (ga_old _ _ _ _ Ga) with (new := Zero).
  - assert (X : rw = default ∅ (Some rw)) by reflexivity. rewrite X, <- Er. apply all_fresh_spec. vm_compute. reflexivity.
  - assert (X : rw = default ∅ (Some rw)) by reflexivity. rewrite X, <- Er. vm_compute. reflexivity.
Qed.
(** With a merge above, rewording is given up where only messages change. *)
Definition rwd_merge : graph := [(1, []); (2, [1]); (3, [1]); (4, [2; 3])].
Theorem c101_merge_refuted : exists e r given src c, rewordable e r given /\ workable e r /\ good_messages (re_exec e) given src /\ plain_picks (re_exec e) (rr_store r) /\
  (forall c, c ∈ given -> ~ is_public e r c) /\ rwr_end (reword e 9%Z (TxId 9%Z) given src r) = RewordStopped c.
Proof.
  exists (rwd_env rwd_merge (store_of rwd_merge) (objects_in rwd_merge ++ take 2 rwd_more)), (rwd rwd_merge (store_of rwd_merge) 4 [2; 3; 4]), {[2]}, (Asked (Some {[2 := 77]})), 4.
  match goal with |- rewordable ?e ?r ?g /\ _ => assert (A : rewordable e r g) by (apply rwd_rewordable; vm_compute; reflexivity) end.
  split; [exact A|]. split; [apply mdemo_workable; [apply A|apply rwd_fine|discriminate]|]. split.
  { intros c Hc. apply elem_of_singleton in Hc. subst c. exists 77. split; reflexivity. }
  split; [apply rwd_plain; [repeat constructor|apply (bool_decide_eq_true (NoDup _)); vm_compute; reflexivity]|].
  split; [|vm_compute; reflexivity].
  intros c Hc (m & Hm & P). apply elem_of_singleton in Hc. subst c. change (Some (1 : oid) = Some m) in Hm. injection Hm as <-.
  assert (N : forall q c, ~ parent rwd_merge q c \/ c <> 1).
  { intros q c. destruct (decide (c = 1)) as [-> |]; [left|now right]. intros (ps & P' & Hq). unfold rwd_merge in P'.
    apply elem_of_cons in P'. destruct P' as [[= ->]|P']; [now apply elem_of_nil in Hq|].
    repeat (apply elem_of_cons in P'; destruct P' as [P'|P']; [discriminate P'|]). now apply elem_of_nil in P'. }
  apply rtc_inv_r in P. destruct P as [X|(q & _ & P)]; [discriminate|]. destruct (N q 1) as [H|H]; [exact (H P)|now apply H].
Qed.
(** Without one it goes through: the setting of the example of C100 meets all that is asked for. *)
Example c101_example :
  let names := objects_in rwd_graph ++ rwd_more in let e := rwd_env rwd_graph (store_of rwd_graph) names in let r := rwd rwd_graph (store_of rwd_graph) 3 [2; 3; 4] in
  ({[2]} : commit_set) <> ∅ /\ (forall c, c ∈ ({[2]} : commit_set) -> ~ is_public e r c) /\
  (forall c, c ∈ ({[2]} : commit_set) -> parents_of (he_graph (re_hide e)) c <> []) /\
  (forall c, is_above e r {[2]} c -> ~ merge_commit (he_graph (re_hide e)) c).
Proof.
  intros names e r. split; [decide_it|]. split; [|split].
  - intros c Hc (m & Hm & P). apply elem_of_singleton in Hc. subst c. change (Some (1 : oid) = Some m) in Hm. injection Hm as <-.
    assert (N : forall q, ~ parent rwd_graph q 1).
    { intros q (ps & P' & Hq). unfold rwd_graph in P'.
      apply elem_of_cons in P'. destruct P' as [[= ->]|P']; [now apply elem_of_nil in Hq|].
      repeat (apply elem_of_cons in P'; destruct P' as [P'|P']; [discriminate P'|]). now apply elem_of_nil in P'. }
    apply rtc_inv_r in P. destruct P as [X|(q & _ & P)]; [discriminate|exact (N q P)].
  - intros c Hc. apply elem_of_singleton in Hc. subst c. discriminate.
  - intros c _ (ps & P & L). change ((c, ps) ∈ rwd_graph) in P. unfold rwd_graph in P.
    repeat (apply elem_of_cons in P; destruct P as [[= -> ->]|P]; [cbn in L; lia|]). now apply elem_of_nil in P.
Qed.
(** Rewording a root commit panics; the commit with the new message has been made by then. *)
Definition rwd_roots : graph := [(1, []); (2, [])].
Theorem c102_root_refuted : exists e r given src (c : oid), rewordable e r given /\ workable e r /\ good_messages (re_exec e) given src /\ c ∈ given /\
  parents_of (he_graph (re_hide e)) c = [] /\ ~ is_public e r c /\ let res := reword e 9%Z (TxId 9%Z) given src r in
  rwr_end res = RewordPanics /\ rr_store r !! 6 = None /\ is_Some (rr_store (rwr_repo res) !! 6).
Proof.
  exists (rwd_env rwd_roots (store_of rwd_roots) (objects_in rwd_roots ++ [(6, mk_object (mk_commit [] 12) 22 32 77)])), (rwd rwd_roots (store_of rwd_roots) 2 [2]), {[2]}, (Asked (Some {[2 := 77]})), 2.
  match goal with |- rewordable ?e ?r ?g /\ _ => assert (A : rewordable e r g) by (apply rwd_rewordable; vm_compute; reflexivity) end.
  split; [exact A|]. split; [apply mdemo_workable; [apply A|apply rwd_fine|discriminate]|]. split.
  { intros c Hc. apply elem_of_singleton in Hc. subst c. exists 77. split; reflexivity. }
  split; [decide_it|]. split; [reflexivity|]. split.
  - intros (m & Hm & P). change (Some (1 : oid) = Some m) in Hm. injection Hm as <-.
    apply rtc_inv in P. destruct P as [X|(q & (ps & P & Hq) & _)]; [discriminate|].
    cbn [rwd_env mdemo_env re_hide he_graph rwd_roots] in P. repeat (apply elem_of_cons in P; destruct P as [[= -> ->]|P]; [now apply elem_of_nil in Hq|]).
    now apply elem_of_nil in P.
  - cbn zeta. split; [vm_compute; reflexivity|]. split; [vm_compute; reflexivity|]. eexists. vm_compute. reflexivity.
Qed.
(** With --fixup the commit must be an ancestor of those reworded, one of them counting as its own. *)
Example c102_example :
  let names := objects_in rwd_graph ++ rwd_more in let e := rwd_env rwd_graph (store_of rwd_graph) names in let r := rwd rwd_graph (store_of rwd_graph) 3 [2; 3; 4] in
  let run given src := reword e 9%Z (TxId 9%Z) given src r in
  rewordable e r {[3; 4]} /\ workable e r /\
  rwr_end (run {[3; 4]} (FixUpOf {[3]} (fun _ => 77))) = FixupNotAncestor /\ rwr_end (run {[3; 4]} (FixUpOf {[3; 4]} (fun _ => 77))) = FixupNotOne 2 /\
  rwr_end (run {[3; 4]} (FixUpOf {[2]} (fun _ => 77))) = Reworded /\ rwr_end (run {[1]} (Asked (Some {[1 := 77]}))) = RewordsPublic /\
  rwr_end (run {[3]} (Asked None)) = RewordAborted /\ rwr_end (run ∅ (Asked (Some ∅))) = RewordFails.
Proof.
  intros names e r run. assert (A : rewordable e r {[3; 4]}) by (apply rwd_rewordable; vm_compute; reflexivity).
  split; [exact A|]. split; [apply mdemo_workable; [apply A|apply rwd_fine|discriminate]|].
  repeat (split; [vm_compute; reflexivity|]). vm_compute. reflexivity.
Qed.

Print Assumptions c100_reworded.
Print Assumptions c100_empty_refuted.
Print Assumptions c101_no_conflict.
Print Assumptions c101_through.
Print Assumptions c101_merge.
Print Assumptions c101_merge_refuted.
Print Assumptions c102_otherwise.
Print Assumptions c102_refused.
Print Assumptions c102_public.
Print Assumptions c102_root_refuted.
