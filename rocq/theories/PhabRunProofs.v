(** Proofs about submitting to Phabricator: updating and creating revisions. *)
From stdpp Require Import relations.
From Verif Require Import Base TextModel TextProofs EventLogModel EventLogSpec EventLogProofs EvolveSpec
  DagModel DagSpec DagProofs DagCompProofs StrModel StrProofs HookModel PlanModel PlanSpec PlanProofs PlanBuildProofs PlanProps
  ExecModel ExecSpec ExecProofs ExecBuildProofs ExecAfterProofs ExecProps HideModel HideSpec HideProofs RestackModel RestackSpec RestackProofs
  SyncModel SyncSpec SyncProofs MoveModel MoveSpec MoveProofs MovePublicProofs PlanRunProofs ModeModel TreeModel SnapModel AmendModel AmendSpec AmendProofs
  RecCmdModel TestCacheModel FixModel FixSpec RewordCmdModel RewordCmdSpec SwapProofs SwapRunProofs RewordCmdProofs SubmitModel PhabModel PhabSpec PhabProofs.
Local Open Scope string_scope.
Local Open Scope list_scope.

Lemma all_present st l : forallb (fun c => bool_decide (is_Some (st !! c))) l = true <-> forall c : oid, c ∈ l -> is_Some ((st : store) !! c).
Proof.
  rewrite forallb_forall. split; intros H c Hc.
  - specialize (H c). rewrite <- elem_of_list_In in H. apply H in Hc. now apply bool_decide_eq_true in Hc.
  - apply bool_decide_eq_true. apply H. now apply elem_of_list_In.
Qed.

Section update.
Context (e : phab_env) (r : rrepo) (d : dag) (given : commit_set) (sv : server).
Let re := ph_restack e.
Let g := he_graph (re_hide re).
Let st := rr_store r.
Let l := ph_sort e st given.
Let run := ph_arc_update e l st sv.
Hypothesis A : rewordable re r given.
Hypothesis Op : open_repo (re_hide re) (rr_repo r) = Some d.
Hypothesis So : sorts e.
Hypothesis Ow : own_revisions e st given.
Hypothesis Ta : told_apart sv.
Hypothesis Au : arc_updates e l st sv run.
Let R : restackable re r := rb_order _ _ _ A.
Let W : wf_graph g := io_graph _ _ (ra_order _ _ R).
Let st1 := ar_store run.
Let sv1 := ar_server run.
Let l1 := ph_sort e st1 given.

Lemma up_present : forallb (fun c => bool_decide (is_Some (st !! c))) l = true.
Proof. apply all_present. intros c Hc. apply (proj2 (So st given) c) in Hc. destruct (ra_store _ _ R c (rb_given _ _ _ A c Hc)) as (x & Hx & _). unfold st. eauto. Qed.
Lemma up_draft c : c ∈ draft_commits d <-> is_draft e r c.
Proof.
  pose proof (dag_is re r d R Op) as G. rewrite draft_spec by (rewrite G; exact W). unfold is_draft. rewrite (shown_is re r d R Op).
  destruct (io_exists _ _ (ra_order _ _ R)) as [m Hm]. destruct (unmerged_draft re r d m (ra_order _ _ R) Op Hm) as [Pu _]. rewrite Pu. fold re. unfold is_public. split; intros [H1 H2]; (split; [exact H1|]).
  - intros (m' & Hm' & H). rewrite Hm in Hm'. injection Hm' as <-. exact (H2 H).
  - intros H. apply H2. eauto.
Qed.
Lemma up_public : verify_rewrite_set d false given = None <-> exists c, c ∈ given /\ is_public re r c.
Proof.
  pose proof (dag_is re r d R Op) as G. assert (Wd : wf_graph (dag_graph d)) by (rewrite G; exact W).
  destruct (io_exists _ _ (ra_order _ _ R)) as [m Hm]. destruct (unmerged_draft re r d m (ra_order _ _ R) Op Hm) as [Pu _].
  rewrite verify_rewrite_set_none by exact Wd. unfold is_public. split.
  - intros [_ (a & c & Ha & An & P)]. exists a. split; [exact Ha|]. exists m. split; [exact Hm|]. apply Pu in P. rewrite G in An. etransitivity; eauto.
  - intros (c & Hc & m' & Hm' & Am). rewrite Hm in Hm'. injection Hm' as <-. split; [reflexivity|]. exists c, c. split; [exact Hc|]. split; [constructor|now apply Pu].
Qed.
Lemma up_outs : (list_to_set (List.map fst (ar_outs run)) : commit_set) = given.
Proof. apply set_eq. intros c. rewrite elem_of_list_to_set, (au_outs _ _ _ _ _ Au). apply (So st given). Qed.
Lemma up_in1 c : c ∈ l1 <-> c ∈ given. Proof. apply (So st1 given). Qed.
Lemma up_in c : c ∈ l <-> c ∈ given. Proof. apply (So st given). Qed.
Lemma up_has c i : c ∈ vertices g -> has_revision e st1 c i <-> has_revision e st c i.
Proof.
  intros Hc. split; [|apply has_revision_more, (au_store _ _ _ _ _ Au)]. apply has_revision_back; [apply (au_store _ _ _ _ _ Au)|]. destruct (ra_store _ _ R c Hc) as (x & Hx & _). unfold st. eauto.
Qed.
Lemma up_obj c : c ∈ vertices g -> exists x, st1 !! c = Some x /\ commit_parents (ob_commit x) = parents_of g c.
Proof. intros Hc. destruct (ra_store _ _ R c Hc) as (x & Hx & P). exists x. split; [|exact P]. eapply lookup_weaken; [exact Hx|apply (au_store _ _ _ _ _ Au)]. Qed.
Lemma up_known c : is_draft e r c -> c ∈ vertices g.
Proof. intros [H _]. exact (shown_known re r R c H). Qed.
Lemma up_wants c : c ∈ given -> exists ids, wants e st1 (draft_commits d ∪ ∅) c ids /\ forall j, j ∈ ids <-> exists q, parent g q c /\ is_draft e r q /\ has_revision e st q j.
Proof.
  intros Hc. destruct (up_obj c (rb_given _ _ _ A c Hc)) as (x & Hx & P).
  destruct (parent_revisions_spec e st1 (draft_commits d ∪ ∅) (commit_parents (ob_commit x))) as (ids & E & I).
  { intros q _ Hq. apply elem_of_union in Hq. destruct Hq as [Hq|Hq]; [|set_solver]. apply up_draft in Hq. destruct (up_obj q (up_known q Hq)) as (y & Hy & _). eauto. }
  exists ids. split; [exists x; auto|]. intros j. rewrite I. split; intros (q & H1 & H2 & H3); exists q.
  - apply elem_of_union in H2. destruct H2 as [H2|H2]; [|set_solver]. apply up_draft in H2. split_and!; [apply parent_parents_of; [exact W|now rewrite <- P]|exact H2|]. now apply (up_has q j (up_known q H2)).
  - split_and!; [rewrite P; now apply parent_parents_of|apply elem_of_union; left; now apply up_draft|]. now apply (up_has q j (up_known q H2)).
Qed.
Lemma up_wants_spec c ids : c ∈ given -> wants e st1 (draft_commits d ∪ ∅) c ids -> forall j, j ∈ ids <-> exists q, parent g q c /\ is_draft e r q /\ has_revision e st q j.
Proof.
  intros Hc (x & Hx & E). destruct (up_wants c Hc) as (ids' & (x' & Hx' & E') & I). rewrite Hx in Hx'. injection Hx' as <-. rewrite E in E'. injection E' as <-. exact I.
Qed.
Lemma up_readable k : (forall c, c ∈ k -> c ∈ given) -> all_readable e st1 (draft_commits d ∪ ∅) k.
Proof. intros H c Hc. destruct (up_wants c (H c Hc)) as (ids & X & _). eauto. Qed.
Lemma up_own k : (forall c, c ∈ k -> c ∈ given) -> own_in e st1 k.
Proof. intros H c c' i Hc Hc' H1 H2. apply (Ow c c' i); auto; (apply up_has; [|assumption]); apply (rb_given _ _ _ A); auto. Qed.
Lemma up_apart : told_apart sv1.
Proof.
  intros i j a b Ha Hb E. destruct (sv !! i) as [a0|] eqn:Ea; [|rewrite (au_none _ _ _ _ _ Au i Ea : sv1 !! i = None) in Ha; discriminate].
  destruct (sv !! j) as [b0|] eqn:Eb; [|rewrite (au_none _ _ _ _ _ Au j Eb : sv1 !! j = None) in Hb; discriminate].
  destruct (au_same _ _ _ _ _ Au i a0 Ea) as (a' & Ha' & P1 & _). destruct (au_same _ _ _ _ _ Au j b0 Eb) as (b' & Hb' & P2 & _). unfold sv1 in *. rewrite Ha in Ha'. injection Ha' as <-. rewrite Hb in Hb'. injection Hb' as <-.
  apply (Ta i j a0 b0 Ea Eb). congruence.
Qed.
Lemma up_some i : is_Some (sv1 !! i) <-> is_Some (sv !! i).
Proof.
  split.
  - intros [a Ha]. destruct (sv !! i) as [a0|] eqn:Ea; [eauto|]. rewrite (au_none _ _ _ _ _ Au i Ea : sv1 !! i = None) in Ha. discriminate.
  - intros [a Ha]. destruct (au_same _ _ _ _ _ Au i a Ha) as (a' & Ha' & _). unfold sv1. eauto.
Qed.
Lemma up_depends i j : depends_on sv1 i j -> depends_on sv i j.
Proof.
  intros (a & b & Ha & Hb & In). destruct (proj1 (up_some i) ltac:(eauto)) as [a0 Ea]. destruct (proj1 (up_some j) ltac:(eauto)) as [b0 Eb].
  destruct (au_same _ _ _ _ _ Au i a0 Ea) as (a' & Ha' & P1 & Q1). destruct (au_same _ _ _ _ _ Au j b0 Eb) as (b' & Hb' & P2 & _). unfold sv1 in *. rewrite Ha in Ha'. injection Ha' as <-. rewrite Hb in Hb'. injection Hb' as <-.
  exists a0, b0. split_and!; [exact Ea|exact Eb|]. now rewrite <- Q1, <- P2.
Qed.
Lemma up_acyclic : no_cycle sv -> no_cycle sv1.
Proof.
  intros N i T. apply (N i). revert T. generalize i at 2 4 as j. intros j T. clear N. induction T as [a b D|a b c D T IH]; [apply tc_once; now apply up_depends|apply (tc_l _ a b c); [now apply up_depends|exact IH]].
Qed.

(** What it means that all are set. *)
Lemma up_final sv' : (forall x, x ∈ ar_outs run -> it_passed (snd x)) -> set_for e st1 (draft_commits d ∪ ∅) sv1 l1 sv' -> brought_up e r given sv sv'.
Proof.
  intros Ps S. assert (Rd := up_readable l1 (fun c Hc => proj1 (up_in1 c) Hc)). assert (Lv : forall c, c ∈ given -> c ∈ vertices g) by exact (rb_given _ _ _ A).
  assert (Ph := sf_phid e st1 (draft_commits d ∪ ∅) sv1 l1 sv' Rd S).
  constructor.
  - intros c i Hc Hi Si. destruct (up_wants c Hc) as (ids & Wt & I). assert (Hi1 : has_revision e st1 c i) by (now apply up_has, Hi; apply Lv). assert (Hl : c ∈ l1) by now apply up_in1.
    destruct (proj2 (up_some i) Si) as [a Ha]. pose proof (sf_done _ _ _ _ _ _ S c i ids Hl Hi1 Wt) as E. rewrite Ha in E. cbn in E. eexists. split; [exact E|]. split.
    + assert (Ho : exists o, (c, o) ∈ ar_outs run). { assert (X : c ∈ List.map fst (ar_outs run)) by (rewrite (au_outs _ _ _ _ _ Au); now apply up_in). apply elem_of_list_In, in_map_iff in X. destruct X as ([c' o] & E' & X). cbn in E'. subst c'. exists o. now apply elem_of_list_In. }
      destruct Ho as [o Ho]. pose proof (au_for _ _ _ _ _ Au c o i a Ho (Ps _ Ho) Hi Ha) as (b & f & Eh & Nh). exists b, f. split; [exact Eh|exact Nh].
    + intros j. rewrite (sf_depends e st1 (draft_commits d ∪ ∅) sv1 up_apart l1 sv' c i ids j Rd S Hl Hi1 Wt ltac:(eauto)). unfold should_depend. rewrite up_some, I. fold re g st. tauto.
  - intros i N. rewrite (sf_rest _ _ _ _ _ _ S i); [apply (au_others _ _ _ _ _ Au)|].
    + intros c Hc. apply N. now apply up_in.
    + intros c Hc H. apply up_in1 in Hc. apply (N c Hc). apply up_has; [now apply Lv|exact H].
  - intros i. rewrite <- up_some. specialize (Ph i). destruct (sv' !! i), (sv1 !! i); try discriminate; split; intros [? ?]; eauto; discriminate.
Qed.
Lemma up_passed : forallb passed (ar_outs run) = true <-> forall x, x ∈ ar_outs run -> it_passed (snd x).
Proof.
  rewrite forallb_forall. split; intros H x Hx.
  - specialize (H x). rewrite <- elem_of_list_In in H. specialize (H Hx). unfold passed in H. destruct (snd x) as [| | | | | | | |a f b] eqn:Eo; try discriminate. exists a, f, b. reflexivity.
  - destruct (H x ltac:(now apply elem_of_list_In)) as (a & f & b & E). unfold passed. now rewrite E.
Qed.

Lemma up_done p' : (forall v i ids, ph_edit e v i ids <> EditIgnored) -> update_revisions e d given (mk_phab r sv) = (p', ForgeDone) ->
  (forall c, c ∈ given -> ~ is_public re r c) /\ rr_repo (pb_repo p') = rr_repo r /\ st ⊆ rr_store (pb_repo p') /\ brought_up e r given sv (pb_server p').
Proof.
  intros Ed. unfold update_revisions. cbn [pb_repo pb_server]. fold st. fold l. rewrite up_present. cbn [negb]. fold run. destruct (verify_rewrite_set d false given) as [al|] eqn:Ev; [|discriminate].
  destruct (ar_aborted run); [discriminate|]. destruct (forallb passed (ar_outs run)) eqn:Ep; [|discriminate]. rewrite up_outs. unfold update_dependencies. fold st1 l1 sv1.
  destruct (update_each_revision _ _ _ _ _) as [sv' []] eqn:Eu; [|discriminate]. intros [= <-]. cbn. split; [|split; [reflexivity|split; [apply (au_store _ _ _ _ _ Au)|]]].
  - intros c Hc P. assert (X : verify_rewrite_set d false given = None) by (apply up_public; eauto). congruence.
  - apply up_final; [now apply up_passed|]. assert (In : forall c, c ∈ l1 -> c ∈ given) by (intros c Hc; now apply up_in1).
    exact (update_each_set e st1 (draft_commits d ∪ ∅) sv1 l1 [] sv1 sv' Ed (up_readable l1 In) (up_own l1 In) (proj1 (So st1 given)) (sf_nil _ _ _ _) Eu).
Qed.

Lemma up_through : accepts e -> parents_first e st1 given -> no_cycle sv -> (forall c, c ∈ given -> ~ is_public re r c) -> ar_aborted run = false -> (forall x, x ∈ ar_outs run -> it_passed (snd x)) ->
  (forall c q j, c ∈ given -> parent g q c -> is_draft e r q -> has_revision e st q j -> is_Some (sv !! j) -> q ∈ given) ->
  exists p', update_revisions e d given (mk_phab r sv) = (p', ForgeDone) /\ rr_repo (pb_repo p') = rr_repo r /\ st ⊆ rr_store (pb_repo p') /\
    brought_up e r given sv (pb_server p') /\ no_cycle (pb_server p').
Proof.
  intros Ed Sd Nc Np Na Ps Cl. unfold update_revisions. red in Sd. cbn [pb_repo pb_server]. fold st. fold l. rewrite up_present. cbn [negb]. fold run.
  destruct (verify_rewrite_set d false given) as [al|] eqn:Ev.
  2: { apply up_public in Ev. destruct Ev as (c & Hc & P). destruct (Np c Hc P). }
  rewrite Na. rewrite (proj2 up_passed Ps). rewrite up_outs. unfold update_dependencies. fold st1 l1 sv1.
  assert (In : forall c, c ∈ l1 -> c ∈ given) by (intros c Hc; now apply up_in1).
  assert (Sp : forall q c, c ∈ given -> store_parent st1 q c <-> parent g q c).
  { intros q c Hc. destruct (up_obj c (rb_given _ _ _ A c Hc)) as (x & Hx & P). rewrite (parent_parents_of g q c W). unfold store_parent. split.
    - intros (x' & Hx' & H). rewrite Hx in Hx'. injection Hx' as <-. now rewrite <- P.
    - intros H. exists x. split; [exact Hx|now rewrite P]. }
  assert (Any : forall k1 k2 v, l1 = k1 ++ k2 -> set_for e st1 (draft_commits d ∪ ∅) sv1 k1 v -> no_cycle v /\ told_apart v).
  { intros k1 k2 v Ek S. assert (In1 : forall c, c ∈ k1 -> c ∈ given) by (intros c Hc; apply In; rewrite Ek; apply elem_of_app; now left).
    destruct (So st1 given) as (Nd & _). fold l1 in Nd, Sd. split; [|exact (sf_apart e st1 _ sv1 up_apart k1 v (up_readable k1 In1) S)].
    apply (sf_no_cycle e st1 (draft_commits d ∪ ∅) sv1 up_apart k1 v (up_readable k1 In1) (up_own k1 In1)); [|exact S|now apply up_acyclic| | |].
    - rewrite Ek in Nd. now apply NoDup_app in Nd.
    - intros a1 a a2 b a3 E. apply (Sd a1 a a2 b (a3 ++ k2)). rewrite Ek, E. now rewrite <- !app_assoc, app_comm_cons, <- !app_assoc.
    - intros c Hc H. apply (Sp c c (In1 c Hc)) in H. apply (wf_acyclic g c W). constructor. exact H.
    - intros c ids j Hc Wt Hj Sj. apply (up_wants_spec c ids (In1 c Hc) Wt) in Hj. destruct Hj as (q & P & Dq & Hq).
      pose proof (Cl c q j (In1 c Hc) P Dq Hq (proj1 (up_some j) Sj)) as Hg. exists q. split_and!.
      + apply up_in1 in Hg. rewrite Ek in Hg. apply elem_of_app in Hg. destruct Hg as [Hg|Hg]; [exact Hg|]. exfalso.
        apply elem_of_list_split in Hc. destruct Hc as (b1 & b2 & E1). apply elem_of_list_split in Hg. destruct Hg as (b3 & b4 & E2).
        apply (Sd b1 c (b2 ++ b3) q b4); [rewrite Ek, E1, E2; now rewrite <- !app_assoc|]. apply Sp; [|exact P]. apply In1. rewrite E1. apply elem_of_app. right. left.
      + now apply Sp; [apply In1|].
      + apply up_has; [exact (up_known q Dq)|exact Hq]. }
  destruct (update_each_through e st1 (draft_commits d ∪ ∅) sv1 l1 [] sv1 Ed) as (v' & Eu & Sv); [intros k1 k2 v Ek; apply (Any k1 k2 v Ek)|exact (up_readable l1 In)|exact (up_own l1 In)|exact (proj1 (So st1 given))|apply sf_nil|].
  rewrite Eu. eexists. split; [reflexivity|]. cbn. split; [reflexivity|]. split; [apply (au_store _ _ _ _ _ Au)|]. split; [now apply up_final|].
  apply (Any l1 [] v'); [now rewrite app_nil_r|exact Sv].
Qed.
End update.

(** ** Creating *)
Lemma request_uploads_spec st outs : NoDup (List.map fst outs) -> forall cs m, (forall c, c ∈ List.map fst outs -> is_Some ((st : store) !! c)) -> (forall c, c ∈ List.map fst outs -> m !! c = None) ->
  match request_uploads st outs (Requests cs m) with
  | Uploads (Requests cs' m') =>
      (forall c o, (c, o) ∈ outs -> exists a f b, o = OPassed a f b /\ m' !! c = Some (default c (fi_head f)) /\ forall x, st !! c = Some x -> commit_parents (ob_commit x) <> []) /\
      (forall c, c ∉ List.map fst outs -> m' !! c = m !! c) /\
      (forall f, (forall c x, c ∈ List.map fst outs -> st !! c = Some x -> f c = commit_parents (ob_commit x)) -> cs' = cs ++ List.map (fun c => MoveSubtree (f c) c) (List.map fst outs))
  | Uploads RequestPanics => exists c x, c ∈ List.map fst outs /\ st !! c = Some x /\ commit_parents (ob_commit x) = []
  | Uploads RequestFails => False
  | UploadFailed => exists c o, (c, o) ∈ outs /\ ~ it_passed o
  end.
Proof.
  induction outs as [|[c o] outs IH]; intros Nd cs m Th Em.
  - cbn. split; [intros c o H; now apply elem_of_nil in H|]. split; [reflexivity|]. intros f _. now rewrite app_nil_r.
  - cbn [List.map fst] in *. apply NoDup_cons in Nd. destruct Nd as [Nc Nd]. destruct (Th c ltac:(left)) as [x Hx]. cbn [request_uploads].
    destruct o as [| | | | | | | |a f b];
      try (exists c; eexists; split; [left|]; intros (a' & f' & b' & E); discriminate).
    rewrite Hx. destruct (commit_parents (ob_commit x)) as [|p ps] eqn:Ep; [exists c, x; split; [left|auto]|].
    cbn [request]. rewrite bool_decide_eq_false_2 by (rewrite (Em c ltac:(left)); intros [z Z]; discriminate).
    assert (Em1 : forall c', c' ∈ List.map fst outs -> <[c:=default c (fi_head f)]> m !! c' = None).
    { intros c' Hc'. rewrite lookup_insert_ne; [apply Em; now right|]. intros ->. contradiction. }
    specialize (IH Nd (cs ++ [MoveSubtree (p :: ps) c]) (<[c:=default c (fi_head f)]> m) (fun c' Hc' => Th c' ltac:(now right)) Em1).
    destruct (request_uploads st outs _) as [[cs' m'| |]|].
    + destruct IH as (I1 & I2 & I3). split; [|split].
      * intros c' o' H. apply elem_of_cons in H. destruct H as [H|H]; [injection H as -> ->|exact (I1 c' o' H)]. exists a, f, b. split; [reflexivity|]. split; [rewrite (I2 c Nc); apply lookup_insert|].
        intros y Hy. rewrite Hx in Hy. injection Hy as <-. now rewrite Ep.
      * intros c' Hc'. apply not_elem_of_cons in Hc'. destruct Hc' as [Hn Hc']. rewrite (I2 c' Hc'), lookup_insert_ne by congruence. reflexivity.
      * intros h Hh. rewrite (I3 h) by (intros c' y Hc' Hy; apply Hh; [now right|exact Hy]). rewrite <- app_assoc. cbn [app List.map]. rewrite (Hh c x ltac:(left) Hx), Ep. reflexivity.
    + exact IH.
    + destruct IH as (c' & y & H & R). exists c', y. split; [now right|exact R].
    + destruct IH as (c' & o' & H & R). exists c', o'. split; [now right|exact R].
Qed.
Lemma create_statuses_spec e st rw l : match create_statuses e st rw l with
  | inl m => List.map fst m = l /\ forall c y i, (c, (y, i)) ∈ m -> y = final_oid rw c /\ has_revision e st y i
  | inr ForgeError => exists c, c ∈ l /\ st !! final_oid rw c = None
  | inr (ForgeNoLink y) => exists c, c ∈ l /\ y = final_oid rw c /\ is_Some (st !! y) /\ forall i, ~ has_revision e st y i
  | inr _ => False
  end.
Proof.
  induction l as [|c l IH]; cbn [create_statuses].
  - split; [reflexivity|]. intros c y i H. now apply elem_of_nil in H.
  - destruct (get_revision_id e st (final_oid rw c)) as [[i|]|] eqn:E.
    + destruct (create_statuses e st rw l) as [m|x].
      * destruct IH as [I1 I2]. split; [cbn; now rewrite I1|]. intros c' y j H. apply elem_of_cons in H. destruct H as [H|H]; [injection H as -> -> ->|exact (I2 c' y j H)]. split; [reflexivity|now apply has_revision_get].
      * destruct x; try exact IH.
        -- destruct IH as (c' & H & R). exists c'. split; [now right|exact R].
        -- destruct IH as (c' & H & R). exists c'. split; [now right|exact R].
    + exists c. split; [left|]. split; [reflexivity|]. unfold get_revision_id in E. destruct (st !! final_oid rw c) as [x|] eqn:Ex; [|discriminate]. split; [eauto|]. intros i H. apply has_revision_get in H. unfold get_revision_id in H. rewrite Ex in H. congruence.
    + exists c. split; [left|]. unfold get_revision_id in E. destruct (st !! final_oid rw c); [discriminate|reflexivity].
Qed.

Section create.
Context (e : phab_env) (r : rrepo) (d : dag) (given : commit_set) (sv : server) (ts : timestamp) (i0 : Z).
Let re := ph_restack e.
Let e1 := in_memory_only re.
Let g := he_graph (re_hide re).
Let st := rr_store r.
Let l := ph_sort e st given.
Let run := ph_arc_create e l st sv.
Hypothesis A : rewordable re r given.
Hypothesis Op : open_repo (re_hide re) (rr_repo r) = Some d.
Hypothesis So : sorts e.
Hypothesis Ac : arc_creates e l st sv run.
Let R : restackable re r := rb_order _ _ _ A.
Let W : wf_graph g := io_graph _ _ (ra_order _ _ R).
Let st1 := ar_store run.
Let sv1 := ar_server run.

Lemma cr_in c : c ∈ l <-> c ∈ given. Proof. apply (So st given). Qed.
Lemma cr_out c : c ∈ List.map fst (ar_outs run) <-> c ∈ given.
Proof. rewrite (ac_outs _ _ _ _ _ Ac). apply cr_in. Qed.
Lemma cr_raised st' c : raised e1 (mk_rrepo st' (rr_repo r)) (List.map fst (ar_outs run)) c <-> c ∈ given \/ is_above re r given c.
Proof.
  unfold raised, is_above. setoid_rewrite cr_out. cbn [rr_repo]. split.
  - intros [H|H]; [now left|]. destruct (decide (c ∈ given)) as [Hc|Hc]; [now left|right]. split; assumption.
  - intros [H|[_ H]]; [now left|now right].
Qed.

(** After rewriting: the statuses and the dependencies. *)
Section after.
Context (rw : gmap oid moid) (r2 : rrepo) (m : list (oid * (oid * string))).
Hypothesis Grow : st1 ⊆ rr_store r2.
Hypothesis Gv : forall c h y0, (exists a f b, (c, OPassed a f b) ∈ ar_outs run /\ fi_head f = Some h) -> st1 !! h = Some y0 -> exists y qs, rw !! c = Some (NonZero y) /\
  rr_store r2 !! y = Some (remade (re_exec re) y0 qs (commit_tree (ob_commit y0))) /\ Forall2 (becomes (parent g) rw) (parents_of g c) qs.
Hypothesis Wh : forall c, is_Some (rw !! c) <-> c ∈ given \/ is_above re r given c.
Hypothesis Pass : forall c o, (c, o) ∈ ar_outs run -> it_passed o.

Lemma cr_given c : c ∈ given -> exists x h y0 y qs i, st !! c = Some x /\ st1 !! h = Some y0 /\ rw !! c = Some (NonZero y) /\
  rr_store r2 !! y = Some (remade (re_exec re) y0 qs (commit_tree (ob_commit x))) /\ Forall2 (becomes (parent g) rw) (parents_of g c) qs /\
  ob_author y0 = ob_author x /\ text_links (ph_text e (ob_message y0)) i /\ sv !! i = None /\ is_Some (sv1 !! i) /\ (exists a f b, (c, OPassed a f b) ∈ ar_outs run /\ fi_head f = Some h).
Proof.
  intros Hc. apply cr_out in Hc. apply elem_of_list_In, in_map_iff in Hc. destruct Hc as ([c' o] & E & Ho). cbn in E. subst c'. apply elem_of_list_In in Ho.
  destruct (Pass c o Ho) as (a & f & b & ->). destruct (ac_passed _ _ _ _ _ Ac c a f b Ho) as (h & x & y0 & i & Eh & Hx & Hy & P & T & Au & L & Ni & Si).
  destruct (Gv c h y0) as (y & qs & H1 & H2 & H3); [eauto|exact Hy|]. rewrite T in H2. exists x, h, y0, y, qs, i. split_and!; eauto.
Qed.
Lemma cr_final c : c ∈ given -> exists y, final_oid rw c = y /\ rw !! c = Some (NonZero y).
Proof. intros Hc. destruct (cr_given c Hc) as (x & h & y0 & y & qs & i & _ & _ & H & _). exists y. unfold final_oid. now rewrite H. Qed.
Lemma cr_linked c : c ∈ given -> exists i, has_revision e (rr_store r2) (final_oid rw c) i /\ sv !! i = None /\ is_Some (sv1 !! i).
Proof.
  intros Hc. destruct (cr_given c Hc) as (x & h & y0 & y & qs & i & _ & _ & H & Sy & _ & _ & L & Ni & Si & _). exists i. unfold final_oid. rewrite H. split; [|auto]. eexists. split; [exact Sy|exact L].
Qed.
Lemma cr_statuses : exists m, create_statuses e (rr_store r2) rw l = inl m.
Proof.
  pose proof (create_statuses_spec e (rr_store r2) rw l) as S. destruct (create_statuses _ _ _ _) as [m'|[]]; try destruct S; [eauto| |].
  - destruct H as [Hc N]. destruct (cr_linked x (proj1 (cr_in x) Hc)) as (i & (z & Hz & _) & _). congruence.
  - destruct H as (Hc & -> & _ & N). destruct (cr_linked x (proj1 (cr_in x) Hc)) as (i & Hi & _). destruct (N i Hi).
Qed.
Hypothesis Em : create_statuses e (rr_store r2) rw l = inl m.
Let finals : commit_set := list_to_set (List.map (fun x => fst (snd x)) m).
Lemma cr_m c y i : (c, (y, i)) ∈ m -> c ∈ given /\ rw !! c = Some (NonZero y) /\ has_revision e (rr_store r2) y i /\ sv !! i = None /\ is_Some (sv1 !! i).
Proof.
  intros H. pose proof (create_statuses_spec e (rr_store r2) rw l) as S. rewrite Em in S. destruct S as [S1 S2]. assert (Hc : c ∈ given). { apply cr_in. rewrite <- S1. apply elem_of_list_In, in_map_iff. exists (c, (y, i)). split; [reflexivity|now apply elem_of_list_In]. }
  destruct (S2 c y i H) as [-> Hi]. destruct (cr_final c Hc) as (y & Ey & Hy). destruct (cr_linked c Hc) as (j & Hj & Nj & Sj). rewrite (has_revision_unique _ _ _ _ _ Hi Hj). rewrite Ey in *. split_and!; auto.
Qed.
Lemma cr_each c : c ∈ given -> exists y i, (c, (y, i)) ∈ m.
Proof.
  intros Hc. pose proof (create_statuses_spec e (rr_store r2) rw l) as S. rewrite Em in S. destruct S as [S1 _]. apply cr_in in Hc. rewrite <- S1 in Hc. apply elem_of_list_In, in_map_iff in Hc. destruct Hc as ((c' & y & i) & E & H). cbn in E. subst c'. exists y, i. now apply elem_of_list_In.
Qed.
Lemma cr_finals y : y ∈ finals <-> exists c i, (c, (y, i)) ∈ m.
Proof.
  unfold finals. rewrite elem_of_list_to_set. split.
  - intros H. apply elem_of_list_In, in_map_iff in H. destruct H as ((c & z & i) & E & H). cbn in E. subst z. exists c, i. now apply elem_of_list_In.
  - intros (c & i & H). apply elem_of_list_In, in_map_iff. exists (c, (y, i)). split; [reflexivity|now apply elem_of_list_In].
Qed.
Lemma cr_own c c' y y' i : (c, (y, i)) ∈ m -> (c', (y', i)) ∈ m -> c = c'.
Proof.
  intros H H'. destruct (cr_m c y i H) as (Hc & Ey & Hi & _). destruct (cr_m c' y' i H') as (Hc' & Ey' & Hi' & _).
  destruct (cr_given c Hc) as (x & h & y0 & z & qs & k & _ & Hh & Ez & Sz & _ & _ & _ & _ & _ & (a & f & b & O & Fh)). rewrite Ey in Ez. injection Ez as <-.
  destruct (cr_given c' Hc') as (x' & h' & y0' & z' & qs' & k' & _ & Hh' & Ez' & Sz' & _ & _ & _ & _ & _ & (a' & f' & b' & O' & Fh')). rewrite Ey' in Ez'. injection Ez' as <-.
  assert (J : has_revision e st1 h i). { destruct Hi as (w & Hw & L). rewrite Sz in Hw. injection Hw as <-. exists y0. split; [exact Hh|exact L]. }
  assert (J' : has_revision e st1 h' i). { destruct Hi' as (w & Hw & L). rewrite Sz' in Hw. injection Hw as <-. exists y0'. split; [exact Hh'|exact L]. }
  exact (ac_apart _ _ _ _ _ Ac c c' a a' f f' b b' h h' i O O' Fh Fh' J J').
Qed.
Let l2 := ph_sort e (rr_store r2) finals.
Lemma cr_in2 y : y ∈ l2 <-> y ∈ finals. Proof. apply (So (rr_store r2) finals). Qed.
Lemma cr_wants c y i : (c, (y, i)) ∈ m -> exists ids qs, wants e (rr_store r2) (draft_commits d ∪ finals) y ids /\ Forall2 (becomes (parent g) rw) (parents_of g c) qs /\
  forall j, j ∈ ids <-> exists q, q ∈ qs /\ q ∈ draft_commits d ∪ finals /\ has_revision e (rr_store r2) q j.
Proof.
  intros H. destruct (cr_m c y i H) as (Hc & Ey & _). destruct (cr_given c Hc) as (x & h & y0 & z & qs & k & _ & _ & Ez & Sz & F & _). rewrite Ey in Ez. injection Ez as <-.
  destruct (parent_revisions_spec e (rr_store r2) (draft_commits d ∪ finals) qs) as (ids & E & I).
  { intros q _ Hq. apply elem_of_union in Hq. destruct Hq as [Hq|Hq].
    - apply (up_draft e r d given A Op) in Hq. destruct (ra_store _ _ R q (up_known e r given A q Hq)) as (w & Hw & _). exists w. eapply lookup_weaken; [|exact Grow]. eapply lookup_weaken; [exact Hw|apply (ac_store _ _ _ _ _ Ac)].
    - apply cr_finals in Hq. destruct Hq as (c' & i' & H'). destruct (cr_m c' q i' H') as (_ & _ & (w & Hw & _) & _). eauto. }
  exists ids, qs. split; [exists (remade (re_exec re) y0 qs (commit_tree (ob_commit x))); split; [exact Sz|exact E]|]. split; [exact F|exact I].
Qed.
Lemma cr_readable : all_readable e (rr_store r2) (draft_commits d ∪ finals) l2.
Proof. intros y Hy. apply cr_in2, cr_finals in Hy. destruct Hy as (c & i & H). destruct (cr_wants c y i H) as (ids & _ & Wt & _). eauto. Qed.
Lemma cr_own_in : own_in e (rr_store r2) l2.
Proof.
  intros y y' i Hy Hy' H H'. apply cr_in2, cr_finals in Hy, Hy'. destruct Hy as (c & k & M), Hy' as (c' & k' & M'). destruct (cr_m c y k M) as (_ & E & Hk & _). destruct (cr_m c' y' k' M') as (_ & E' & Hk' & _).
  rewrite (has_revision_unique _ _ _ _ _ Hk H) in M. rewrite (has_revision_unique _ _ _ _ _ Hk' H') in M'. rewrite (cr_own c c' y y' i M M') in E. congruence.
Qed.
Lemma cr_depends sv2 : set_for e (rr_store r2) (draft_commits d ∪ finals) sv1 l2 sv2 ->
  (forall k, is_Some (sv2 !! k) <-> is_Some (sv1 !! k)) /\ sv ⊆ sv2 /\
  (fresh g (hr_log (rr_repo r)) rw -> (forall o q, o ∈ given -> parent g q o -> ~ is_above re r given q) -> forall o y i j, (o, (y, i)) ∈ m -> depends_on sv2 i j <->
    exists q, parent g q o /\ ((exists z, (q, (z, j)) ∈ m) \/ (q ∉ given /\ is_draft e r q /\ has_revision e st q j /\ is_Some (sv2 !! j)))).
Proof.
  intros S. assert (Kn : forall k, is_Some (sv2 !! k) <-> is_Some (sv1 !! k)).
  { intros k. pose proof (sf_phid _ _ _ _ _ _ cr_readable S k) as Ph. destruct (sv2 !! k), (sv1 !! k); try discriminate; split; intros [? ?]; eauto; discriminate. }
  split; [exact Kn|]. split.
  - apply map_subseteq_spec. intros k w Hk. etransitivity; [apply (sf_rest _ _ _ _ _ _ S k)|eapply lookup_weaken; [exact Hk|apply (ac_others _ _ _ _ _ Ac)]].
    intros y Hy H. apply cr_in2, cr_finals in Hy. destruct Hy as (c & i & M). destruct (cr_m c y i M) as (_ & _ & Hi & Ni & _). rewrite (has_revision_unique _ _ _ _ _ H Hi) in Hk. pose proof (eq_trans (eq_sym Hk) Ni). discriminate.
  - intros Fr Gap o y i j M. destruct (cr_m o y i M) as (Ho & Ey & Hi & _ & Si). destruct (cr_wants o y i M) as (ids & qs & Wt & F & I).
    assert (Hl : y ∈ l2) by (apply cr_in2, cr_finals; eauto).
    rewrite (sf_depends e (rr_store r2) _ sv1 (ac_phids _ _ _ _ _ Ac) l2 sv2 y i ids j cr_readable S Hl Hi Wt Si). rewrite I. rewrite Forall2_lookup in F.
    assert (Back : forall q, q ∈ vertices g -> has_revision e (rr_store r2) q j -> has_revision e st q j).
    { intros q Hq H. apply (has_revision_back e st (rr_store r2) q j); [etransitivity; [apply (ac_store _ _ _ _ _ Ac)|exact Grow]| |exact H]. destruct (ra_store _ _ R q Hq) as (w & Hw & _). unfold st. eauto. }
    split.
    + intros [(q' & Hq & Dq & Hj) Sj]. apply elem_of_list_lookup in Hq. destruct Hq as [n Hn]. specialize (F n). rewrite Hn in F. inversion F as [q q'' B E1 E2|]; subst. symmetry in E1.
      assert (P : parent g q o) by (apply parent_parents_of; [exact W|eapply elem_of_list_lookup_2; eauto]). exists q. split; [exact P|].
      destruct (decide (q ∈ given)) as [Gq|Gq].
      * left. destruct (cr_each q Gq) as (z & k & Mq). destruct (cr_m q z k Mq) as (_ & Ez & Hk & _). inversion B as [? N|? ? Y|? ? ? Z]; subst; rewrite Ez in *; try discriminate. injection Y as <-. exists z. now rewrite (has_revision_unique _ _ _ _ _ Hj Hk).
      * right. assert (N : rw !! q = None). { destruct (rw !! q) eqn:Eq; [|reflexivity]. exfalso. destruct (proj1 (Wh q) ltac:(eauto)) as [X|X]; [contradiction|exact (Gap o q Ho P X)]. }
        inversion B as [? N'|? ? Y|? ? ? Z]; subst; try congruence. assert (Vq : q' ∈ vertices g) by (apply (parent_vertices g q' o W P)).
        split; [exact Gq|]. split; [|split; [exact (Back q' Vq Hj)|now apply Kn]].
        apply elem_of_union in Dq. destruct Dq as [Dq|Dq]; [now apply (up_draft e r d given A Op)|]. apply cr_finals in Dq. destruct Dq as (c' & i' & M'). destruct (cr_m c' q' i' M') as (_ & E' & _). exfalso.
        destruct (Fr q') as (_ & X & _); [exists c'; exact E'|contradiction].
    + intros (q & P & H). pose proof P as Pp. apply (parent_parents_of g q o W) in Pp. apply elem_of_list_lookup in Pp. destruct Pp as [n Hn]. specialize (F n). rewrite Hn in F. inversion F as [? q' B E1 E2|]; subst. symmetry in E2.
      assert (Hq : q' ∈ qs) by (eapply elem_of_list_lookup_2; eauto). destruct H as [(z & Mz)|(Gq & Dq & Hj & Sj)].
      * destruct (cr_m q z j Mz) as (_ & Ez & Hj & _ & Sj). inversion B as [? N|? ? Y|? ? ? Z]; subst; rewrite Ez in *; try discriminate. injection Y as <-.
        split; [|exact Sj]. exists z. split_and!; [exact Hq|apply elem_of_union; right; apply cr_finals; eauto|exact Hj].
      * assert (N : rw !! q = None). { destruct (rw !! q) eqn:Eq; [|reflexivity]. exfalso. destruct (proj1 (Wh q) ltac:(eauto)) as [X|X]; [contradiction|exact (Gap o q Ho P X)]. }
        inversion B as [? N'|? ? Y|? ? ? Z]; subst; try congruence. split; [|now apply Kn]. exists q'. split_and!; [exact Hq|apply elem_of_union; left; now apply (up_draft e r d given A Op)|].
        apply (has_revision_more e st); [etransitivity; [apply (ac_store _ _ _ _ _ Ac)|exact Grow]|exact Hj].
Qed.
End after.

Lemma cr_spec : (forall v i ids, ph_edit e v i ids <> EditIgnored) -> match create_revisions e ts (TxId i0) d given (mk_phab r sv) with mk_created p' rw statuses en =>
  match en with
  | ForgeDone => told_apart (pb_server p') /\ named (re_exec re) (rr_store (pb_repo p')) /\ ((given = ∅ /\ only_commits r (pb_repo p') /\ pb_server p' = sv1) \/
      ((forall c, c ∈ given -> ~ is_public re r c /\ parents_of g c <> []) /\ (forall c, is_above re r given c -> ~ merge_commit g c) /\
       made_revisions e r given sv (mk_created p' rw statuses en)))
  | ForgePublic => (exists c, c ∈ given /\ is_public re r c) /\ p' = mk_phab r sv
  | ForgePanics => (exists c, c ∈ given /\ parents_of g c = []) /\ only_commits r (pb_repo p') /\ pb_server p' = sv1
  | ForgeAborted => ar_aborted run = true /\ only_commits r (pb_repo p') /\ pb_server p' = sv1
  | ForgeUploadFailed => (exists c o, (c, o) ∈ ar_outs run /\ ~ it_passed o) /\ only_commits r (pb_repo p') /\ pb_server p' = sv1
  | ForgeMerge c => left_alone r (pb_repo p') /\ pb_server p' = sv1 /\ (workable re r -> arc_text e run -> plain_picks (re_exec re) st -> is_above re r given c /\ merge_commit g c)
  | ForgeExit | ForgeError => ~ (workable re r /\ arc_text e run)
  | ForgeEdit => goes_along re r rw (pb_repo p')
  | ForgeNotPlanned | ForgeNoLink _ => False
  end end.
Proof.
  intros Ed. unfold create_revisions. cbn [pb_repo pb_server]. rewrite (up_present e r given A So). cbn [negb]. fold st l run.
  destruct (verify_rewrite_set d false given) as [al|] eqn:Ev; [|split; [now apply (up_public e r d given A Op)|reflexivity]].
  assert (Np : forall c, c ∈ given -> ~ is_public re r c).
  { intros c Hc P. assert (X : verify_rewrite_set d false given = None) by (apply (up_public e r d given A Op); eauto). congruence. }
  assert (Oc : only_commits r (mk_rrepo st1 (rr_repo r))) by (split; [reflexivity|apply (ac_store _ _ _ _ _ Ac)]).
  destruct (ar_aborted run) eqn:Ea; [split; [reflexivity|split; [exact Oc|reflexivity]]|].
  pose proof (dag_is re r d R Op) as G. fold g in G.
  assert (In0 : forall c, c ∈ vertices g -> exists x, st !! c = Some x /\ commit_parents (ob_commit x) = parents_of g c) by exact (ra_store _ _ R).
  assert (Gr : st ⊆ st1) by apply (ac_store _ _ _ _ _ Ac).
  set (k := List.map fst (ar_outs run)).
  assert (Nl : NoDup k) by (unfold k; rewrite (ac_outs _ _ _ _ _ Ac); apply (So st given)).
  assert (Kg : forall c, c ∈ k <-> c ∈ given) by exact cr_out.
  assert (Lv : forall c, c ∈ k -> c ∈ vertices g) by (intros c Hc; apply (rb_given _ _ _ A), Kg, Hc).
  assert (In1 : forall c, c ∈ k -> exists x, st1 !! c = Some x /\ st !! c = Some x /\ commit_parents (ob_commit x) = parents_of g c).
  { intros c Hc. destruct (In0 c (Lv c Hc)) as (x & Hx & P). exists x. split_and!; [eapply lookup_weaken; eauto|exact Hx|exact P]. }
  pose proof (request_uploads_spec st1 (ar_outs run) Nl [] ∅ ltac:(intros c Hc; destruct (In1 c Hc) as (x & Hx & _); eauto) ltac:(intros; apply lookup_empty)) as Rq.
  fold st1. destruct (request_uploads st1 (ar_outs run) (Requests [] ∅)) as [[cs m| |]|] eqn:Er; [|destruct Rq| |].
  2: { split; [|split; [exact Oc|reflexivity]]. destruct Rq as (c & x & Hc & Hx & P). exists c. split; [now apply Kg|]. destruct (In1 c Hc) as (y & Hy & _ & Py). rewrite Hx in Hy. injection Hy as <-. now rewrite <- Py. }
  2: { split; [exact Rq|split; [exact Oc|reflexivity]]. }
  destruct Rq as (I1 & I2 & I3). fold k in I2, I3.
  specialize (I3 (parents_of g) ltac:(intros c x Hc Hx; destruct (In1 c Hc) as (y & Hy & _ & Py); rewrite Hx in Hy; injection Hy as <-; now rewrite Py)). cbn [app] in I3. subst cs.
  set (r2 := mk_rrepo st1 (rr_repo r)).
  assert (R2 : restackable e1 r2) by (apply (rc_order re r given A); [exact Gr|apply (ac_named _ _ _ _ _ Ac)]).
  assert (Mem : in_memory e1) by (split; [reflexivity|right; reflexivity] || (split; [reflexivity|left; reflexivity])).
  assert (Ok : forall c, c ∈ k -> exists o, (c, o) ∈ ar_outs run).
  { intros c Hc. unfold k in Hc. apply elem_of_list_In, in_map_iff in Hc. destruct Hc as ([c' o] & E & H). cbn in E. subst c'. exists o. now apply elem_of_list_In. }
  assert (Pass : forall c o, (c, o) ∈ ar_outs run -> it_passed o) by (intros c o H; destruct (I1 c o H) as (a & f & b & -> & _); exists a, f, b; reflexivity).
  assert (Lp : forall c, c ∈ k -> parents_of g c <> []).
  { intros c Hc. destruct (Ok c Hc) as [o Ho]. destruct (I1 c o Ho) as (a & f & b & _ & _ & P). destruct (In1 c Hc) as (x & Hx & _ & Px). rewrite <- Px. exact (P x Hx). }
  assert (Al : forall c, c ∈ k \/ (exists a, a ∈ k /\ above g (rr_repo r2) a c) -> c ∈ al).
  { intros c H. destruct (verify_rewrite_set_spec d false given al ltac:(rewrite G; exact W) Ev) as [Aw _]. apply Aw. rewrite G.
    destruct H as [H|(a & Ha & _ & P)]; [exists c; split; [now apply Kg|constructor]|]. exists a. split; [now apply Kg|now apply tc_rtc]. }
  assert (Rl : forall c y, m !! c = Some y -> c ∈ k).
  { intros c y H. destruct (decide (c ∈ k)) as [D|D]; [exact D|]. rewrite (I2 c D), lookup_empty in H. discriminate. }
  assert (Rp : forall c, c ∈ k -> exists a f b h x y, (c, OPassed a f b) ∈ ar_outs run /\ fi_head f = Some h /\ m !! c = Some h /\ st !! c = Some x /\ st1 !! h = Some y /\
    commit_parents (ob_commit y) = commit_parents (ob_commit x) /\ commit_tree (ob_commit y) = commit_tree (ob_commit x)).
  { intros c Hc. destruct (Ok c Hc) as [o Ho]. destruct (I1 c o Ho) as (a & f & b & -> & Em & _). destruct (ac_passed _ _ _ _ _ Ac c a f b Ho) as (h & x & y & i & Eh & Hx & Hy & P & T & _).
    rewrite Eh in Em. cbn in Em. exists a, f, b, h, x, y. split_and!; auto. }
  assert (Rx : forall c, c ∈ k -> exists y x orig, m !! c = Some y /\ st !! c = Some x /\ rr_store r2 !! y = Some orig /\
    commit_parents (ob_commit orig) = commit_parents (ob_commit x) /\ commit_tree (ob_commit orig) = commit_tree (ob_commit x)).
  { intros c Hc. destruct (Rp c Hc) as (a & f & b & h & x & y & H1 & H2 & H3 & H4 & H5 & H6 & H7). exists h, x, y. split_and!; auto. }
  assert (Dc : arc_text e run -> forall c z, m !! c = Some z -> readable (re_exec e1) (rr_store r2) z).
  { intros H c z Hz. destruct (Rp c (Rl c z Hz)) as (a & f & b & h & x & y & H1 & H2 & H3 & H4 & H5 & _). rewrite Hz in H3. injection H3 as <-. exists y. split; [exact H5|]. exact (H c a f b z y H1 H2 H5). }
  destruct (put_built e1 r2 d k m st al R2 Op Nl Lv Lp Al Gr In0 Rl Rx) as [[El Eb]|[Ne (dest & cmds & Eb)]].
  - cbn in Eb. cbn [in_memory_only re_sort]. change (build d (mk_pe (find_object st1) m (fun _ _ => false) (re_sort re)) al (List.map (fun c => MoveSubtree (parents_of g c) c) k) = Done BuiltNothing) in Eb.
    fold re. rewrite Eb. split; [apply (ac_phids _ _ _ _ _ Ac)|]. split; [apply (ac_named _ _ _ _ _ Ac)|]. left. split; [|split; [exact Oc|reflexivity]]. apply set_eq. intros c. rewrite <- Kg, El. split; [intros H; now apply elem_of_nil in H|set_solver].
  - cbn [in_memory_only re_sort]. change (build d (mk_pe (find_object st1) m (fun _ _ => false) (re_sort re)) al (List.map (fun c => MoveSubtree (parents_of g c) c) k) = Done (BuiltPlan dest cmds)) in Eb.
    fold re. rewrite Eb. fold e1. fold r2. destruct (run_plan e1 ts (TxId i0) dest cmds r2) as [r' res] eqn:Ern.
    pose proof (put_run e1 r2 d k m st al R2 Mem Op Nl Lv Lp Gr In0 Rl Rx ts i0 dest cmds r' res Eb Ern) as Pt.
    destruct res as [rwo|c| |].
    + destruct Pt as (rw & -> & [P1 P2 P3 P4 P5]). cbn [default].
      assert (Ga : goes_along re r rw r'). { destruct P5 as [Q1 Q2 Q3 Q4 Q5 Q6 Q7 Q8]. constructor; auto. etransitivity; [exact Gr|exact Q1]. }
      assert (Grow : st1 ⊆ rr_store r') by apply (ga_store _ _ _ _ P5).
      assert (Wh : forall c, is_Some (rw !! c) <-> c ∈ given \/ is_above re r given c) by (intros c; rewrite P1; apply cr_raised).
      assert (Gv : forall c h y0, (exists a f b, (c, OPassed a f b) ∈ ar_outs run /\ fi_head f = Some h) -> st1 !! h = Some y0 -> exists y qs, rw !! c = Some (NonZero y) /\
        rr_store r' !! y = Some (remade (re_exec re) y0 qs (commit_tree (ob_commit y0))) /\ Forall2 (becomes (parent g) rw) (parents_of g c) qs).
      { intros c h y0 (a & f & b & Ho & Eh) Hh. destruct (I1 c _ Ho) as (a' & f' & b' & E & Em & _). injection E as <- <- <-. rewrite Eh in Em. cbn in Em. exact (P2 c h y0 Em Hh). }
      destruct (cr_statuses rw r' Gv Pass) as [ms Ems]. change (id rw) with rw. rewrite Ems.
      set (finals := list_to_set (List.map (fun x => fst (snd x)) ms) : commit_set).
      destruct (update_dependencies e d (rr_store r') finals finals sv1) as [sv2 []] eqn:Eu; fold sv1; rewrite Eu; [|exact Ga].
      pose proof (cr_own_in rw r' ms Gv Pass Ems) as Oi. pose proof (cr_readable rw r' ms Grow Gv Pass Ems) as Rd.
      assert (S : set_for e (rr_store r') (draft_commits d ∪ finals) sv1 (ph_sort e (rr_store r') finals) sv2).
      { exact (update_each_set e (rr_store r') (draft_commits d ∪ finals) sv1 _ [] sv1 sv2 Ed Rd Oi (proj1 (So (rr_store r') finals)) (sf_nil _ _ _ _) Eu). }
      split; [exact (sf_apart e (rr_store r') _ sv1 (ac_phids _ _ _ _ _ Ac) _ _ Rd S)|].
      split; [exact (run_named e1 ts (TxId i0) dest cmds r2 r' (Some rw) Mem (ac_named _ _ _ _ _ Ac) Ern)|].
      right. split; [|split].
      * intros c Hc. split; [now apply Np|]. apply Lp. now apply Kg.
      * intros c Hc. apply P3; [apply cr_raised; now right|]. rewrite Kg. apply Hc.
      * destruct (cr_depends rw r' ms Grow Gv Wh Pass Ems sv2 S) as (Kn & Sub & Dep).
        constructor; cbn [cd_rewritten cd_phab cd_statuses pb_repo pb_server].
        -- exact Ga.
        -- intros Pp. constructor.
           ++ exact Wh.
           ++ intros c Hc. destruct (cr_given rw r' Gv Pass c Hc) as (x & h & y0 & y & qs & i & Hx & Hh & Ey & Sy & F & Aut & L & Ni & _).
              destruct (cr_each rw r' ms Ems c Hc) as (y' & i' & M). destruct (cr_m rw r' ms Gv Pass Ems c y' i' M) as (_ & Ey' & Hi' & _). rewrite Ey in Ey'. injection Ey' as <-.
              assert (i' = i) as ->. { apply (has_revision_unique e (rr_store r') y i' i Hi'). eexists. split; [exact Sy|exact L]. }
              exists y, x, i, qs, (ee_stamp (re_exec re) (ob_committer y0)), (ob_message y0). split_and!; auto. unfold remade in Sy. now rewrite Aut in Sy.
           ++ intros c Hc Nem. destruct (In0 c) as (x & Hx & _); [apply (shown_known re r R); destruct Hc as (_ & o & _ & H); apply H|].
              destruct (P4 Pp c x) as [(y & qs & Hy & Sy & F & _)|[_ H]]; [apply cr_raised; now right|rewrite Kg; apply Hc|exact Hx| |contradiction].
              exists y, x, qs, (ee_stamp (re_exec re) (ob_committer x)). split_and!; auto.
        -- intros o Ho. exact (cr_each rw r' ms Ems o Ho).
        -- intros o y i M. destruct (cr_m rw r' ms Gv Pass Ems o y i M) as (H1 & H2 & H3 & H4 & H5). split_and!; auto. now apply Kn.
        -- intros o o' y y' i M M'. exact (cr_own rw r' ms Gv Pass Ems o o' y y' i M M').
        -- exact Sub.
        -- exact Dep.
    + destruct Pt as [La Stp]. split; [destruct La as [L1 L2 L3 L4 L5]; constructor; auto; etransitivity; [exact Gr|exact L1]|]. split; [reflexivity|].
      intros Wk At Pp. destruct (Stp (rc_workable re r st1 Gr Wk) (Dc At) Pp) as (H1 & H2 & H3). split; [|exact H3]. apply cr_raised in H1. rewrite Kg in H2. destruct H1; [contradiction|assumption].
    + intros [Wk At]. apply Pt. split; [now apply rc_workable|now apply Dc].
    + intros [Wk At]. apply Pt. split; [now apply rc_workable|now apply Dc].
Qed.
End create.

(** ** The command *)
Lemma update_repo e d given st rp rp' sv p' en : update_revisions e d given (mk_phab (mk_rrepo st rp) sv) = (p', en) ->
  update_revisions e d given (mk_phab (mk_rrepo st rp') sv) = (mk_phab (mk_rrepo (rr_store (pb_repo p')) rp') (pb_server p'), en).
Proof.
  unfold update_revisions. cbn [pb_repo pb_server rr_store rr_repo]. destruct (negb _); [intros [= <- <-]; reflexivity|]. destruct (verify_rewrite_set _ _ _); [|intros [= <- <-]; reflexivity].
  destruct (ar_aborted _); [intros [= <- <-]; reflexivity|]. destruct (forallb _ _); [|intros [= <- <-]; reflexivity]. destruct (update_dependencies _ _ _ _ _ _) as [v []]; intros [= <- <-]; reflexivity.
Qed.
Lemma rewordable_less re r (s s' : commit_set) : rewordable re r s -> (forall c, c ∈ s' -> c ∈ s) -> rewordable re r s'.
Proof. intros [A B] H. constructor; [exact A|]. intros c Hc. apply B, H, Hc. Qed.

Section submit.
Context (e : phab_env) (r : rrepo) (commits : commit_set) (sv : server) (ts : timestamp) (i0 : Z).
Let re := ph_restack e.
Let g := he_graph (re_hide re).
Let st := rr_store r.
Hypothesis A : rewordable re r commits.
Context (new changed : commit_set).
Hypothesis New : forall c, c ∈ new <-> is_unlinked e r commits c.
Hypothesis Changed : forall c, c ∈ changed <-> out_of_date e r sv commits c.
Let R : restackable re r := rb_order _ _ _ A.

Lemma sb_present c : c ∈ commits -> is_Some (st !! c).
Proof. intros Hc. destruct (ra_store _ _ R c (rb_given _ _ _ A c Hc)) as (x & Hx & _). unfold st. eauto. Qed.
Lemma sb_statuses : exists m, phab_statuses e st sv (elements commits) = Some m /\
  (list_to_set (List.map fst (of_status Unsubmitted m)) : commit_set) = new /\ (list_to_set (List.map fst (of_status NeedsUpdate m)) : commit_set) = changed /\
  forall s, names_of (List.map snd (of_status s m)) = [].
Proof.
  pose proof (phab_statuses_spec e st sv (elements commits)) as S. destruct (phab_statuses e st sv (elements commits)) as [m|].
  2: { destruct S as (c & Hc & N). apply elem_of_elements in Hc. destruct (sb_present c Hc). congruence. }
  destruct S as [_ ->]. exists (List.map (fun c => (c, mk_cs (status_here e st sv c) None None)) (elements commits)). split; [reflexivity|].
  assert (In : forall s c, c ∈ List.map fst (of_status s (List.map (fun c => (c, mk_cs (status_here e st sv c) None None)) (elements commits))) <-> c ∈ commits /\ status_here e st sv c = s).
  { intros s c. unfold of_status. rewrite elem_of_list_In, in_map_iff. split.
    - intros ([c' x] & E & H). cbn in E. subst c'. apply filter_In in H. destruct H as [H B]. apply bool_decide_eq_true in B. apply in_map_iff in H. destruct H as (c' & E & H). injection E as -> <-. cbn in B.
      split; [|exact B]. apply elem_of_elements. now apply elem_of_list_In.
    - intros [Hc Es]. exists (c, mk_cs (status_here e st sv c) None None). split; [reflexivity|]. apply filter_In. split; [|now apply bool_decide_eq_true]. apply in_map_iff. exists c. split; [reflexivity|]. apply elem_of_list_In. now apply elem_of_elements. }
  split_and!.
  - apply set_eq. intros c. rewrite elem_of_list_to_set, In, New. unfold is_unlinked. split; intros [Hc H]; (split; [exact Hc|]); now apply (status_unsubmitted e st sv c (sb_present c Hc)).
  - apply set_eq. intros c. rewrite elem_of_list_to_set, In, Changed. unfold out_of_date. split; intros [Hc H]; (split; [exact Hc|]); now apply (status_needs e st sv c (sb_present c Hc)).
  - clear In. intros s. unfold names_of, of_status. induction (elements commits) as [|c l IH]; [reflexivity|]. cbn. destruct (bool_decide _); cbn; exact IH.
Qed.
Lemma sb_open : exists d, open_repo (re_hide re) (rr_repo r) = Some d.
Proof. destruct (io_exists _ _ (ra_order _ _ R)) as [m Hm]. unfold open_repo. rewrite Hm. eauto. Qed.
(** The command is creating and then updating. *)
Lemma sb_eq (create_ : bool) d : open_repo (re_hide re) (rr_repo r) = Some d ->
  let c := if create_ then create_revisions e ts (TxId i0) d new (mk_phab r sv) else mk_created (mk_phab r sv) ∅ [] ForgeDone in
  let u := update_revisions e d changed (cd_phab c) in
  submit_phab e ts (TxId i0) create_ false commits (mk_phab r sv) =
  match cd_end c with
  | ForgeDone => match u with
                 | (p2, ForgeDone) => mk_pr p2 ForgeDone (if create_ then sorted_names (List.map (fun x => "D" +:+ snd (snd x)) (cd_statuses c)) else []) [] [] []
                 | (p2, x) => mk_pr p2 x [] [] [] []
                 end
  | x => mk_pr (cd_phab c) x [] [] [] []
  end.
Proof.
  intros Op c u. unfold submit_phab. cbn [pb_repo pb_server]. fold re st. rewrite Op. destruct sb_statuses as (m & -> & E1 & E2 & E3). rewrite E1, E2. rewrite !E3. cbn [negb andb]. change (sorted_names []) with (@nil string). rewrite Bool.andb_true_r.
  fold c. fold u. destruct (cd_end c); try reflexivity. destruct u as [p2 x]. destruct x, create_; reflexivity.
Qed.
Lemma sb_new_in c : c ∈ new -> c ∈ commits. Proof. intros H. apply New in H. apply H. Qed.
Lemma sb_changed_in c : c ∈ changed -> c ∈ commits. Proof. intros H. apply Changed in H. apply H. Qed.
End submit.

Lemma cr_statuses_empty e ts tx d given p : let c := create_revisions e ts tx d given p in cd_end c = ForgeDone -> (forall o, o ∈ ph_sort e (rr_store (pb_repo p)) given -> False) -> cd_statuses c = [].
Proof.
  intros c Hd He. unfold c in *. clear c. unfold create_revisions in *. destruct (ph_sort e (rr_store (pb_repo p)) given) as [|a l] eqn:El; [|destruct (He a ltac:(left))].
  cbn [forallb negb] in *. destruct (verify_rewrite_set d false given); [|discriminate]. destruct (ar_aborted _); [discriminate|].
  destruct (request_uploads _ _ _) as [[cs m| |]|]; try discriminate. destruct (build _ _ _ _) as [[]| |]; try discriminate; try reflexivity.
  destruct (run_plan _ _ _ _ _ _) as [r' []]; try discriminate. cbn [create_statuses] in *. destruct (update_dependencies _ _ _ _ _ _) as [v []]; [reflexivity|discriminate].
Qed.
