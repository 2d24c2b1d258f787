(** Properties C73 and C74: restacking abandoned commits and branches. *)
From stdpp Require Import sorting relations countable.
From Verif Require Import Base TextModel EventLogModel EventLogSpec EventLogProofs EvolveModel EvolveSpec EvolveProofs
  DagModel DagSpec DagProofs StrModel StrProofs HookModel HookSpec PlanModel PlanSpec PlanProps ExecModel ExecSpec ExecAfterProofs ExecProps
  HideModel HideSpec HideProofs HideProps RestackModel RestackSpec RestackProofs.
Local Open Scope string_scope.
Local Open Scope list_scope.

(** The two parts of a restack that went well. *)
Lemma restack_parts e ts tx chosen r rw : rs_ok (restack e ts tx chosen r) = true -> rs_rewritten (restack e ts tx chosen r) = Some rw ->
  exists d, open_repo (re_hide e) (rr_repo r) = Some d /\
    rs_ok (restack_commits e ts tx d chosen r) = true /\ rs_rewritten (restack_commits e ts tx d chosen r) = Some rw /\
    rs_ok (restack_branches e ts tx (rs_repo (restack_commits e ts tx d chosen r))) = true /\
    rs_repo (restack e ts tx chosen r) = rs_repo (restack_branches e ts tx (rs_repo (restack_commits e ts tx d chosen r))).
Proof.
  unfold restack. destruct (open_repo _ _) as [d|]; [|discriminate]. cbv zeta.
  destruct (rs_ok (restack_commits e ts tx d chosen r)) eqn:E; [|congruence]. cbn. intros A B. exists d. auto.
Qed.

(** ** C73: abandoned commits *)

(** What is moved is exactly what is shown at or above an abandoned commit; each of these
    is made again on top of the newest version of what it was abandoned on, or of its
    parent, or is dropped when nothing is left of it. *)
Theorem c73_moved : forall e ts i chosen r rw,
  restackable e r -> disk_silent e -> sorted_out (he_graph (re_hide e)) (rr_repo r) ->
  rs_ok (restack e ts (TxId i) chosen r) = true -> rs_rewritten (restack e ts (TxId i) chosen r) = Some rw ->
  (forall n, made rw n -> oid_ok n) ->
  restacked e r chosen rw (rr_store (rs_repo (restack e ts (TxId i) chosen r))).
Proof.
  intros e ts i chosen r rw R DS SO Ok_ Rw On. destruct (restack_parts _ _ _ _ _ _ Ok_ Rw) as (d & Op & Ck & Cr & Bk & ->).
  destruct (restack_run e ts i r d chosen rw R DS (so_merge _ _ SO) Op On Ck Cr) as [cs Rn].
  destruct (restack_branches_spec e ts (TxId i) _ (ra_tables _ _ R _) Bk) as (_ & _ & _ & _ & _ & -> & _).
  exact (restacked_ran e r d chosen rw _ cs R Op Rn SO).
Qed.

(** The commits that were moved are then obsolete, their new versions active; nothing
    changes about any other commit. *)
Theorem c73_recorded : forall e ts i chosen r rw,
  restackable e r -> disk_silent e -> sorted_out (he_graph (re_hide e)) (rr_repo r) ->
  rs_ok (restack e ts (TxId i) chosen r) = true -> rs_rewritten (restack e ts (TxId i) chosen r) = Some rw ->
  fresh (he_graph (re_hide e)) (hr_log (rr_repo r)) rw ->
  let log' := hr_log (rr_repo (rs_repo (restack e ts (TxId i) chosen r))) in
  (forall c new, rw !! c = Some new -> rewritten log' c new /\ visibility log' c Obsolete) /\
  (forall n, made rw n -> visibility log' n Active) /\
  (forall o v, rw !! o = None -> ~ made rw o -> visibility log' o v <-> visibility (hr_log (rr_repo r)) o v).
Proof.
  intros e ts i chosen r rw R DS SO Ok_ Rw F. destruct (restack_parts _ _ _ _ _ _ Ok_ Rw) as (d & Op & Ck & Cr & Bk & E).
  destruct (restack_run e ts i r d chosen rw R DS (so_merge _ _ SO) Op (fun n H => proj1 (F n H)) Ck Cr) as [cs Rn].
  cbv zeta. rewrite E. destruct (log_after e r d chosen rw _ cs R Rn ts (TxId i) Bk) as (es & El & T). rewrite El.
  pose proof (rw_known e r d chosen rw _ cs R Op Rn SO) as K. split_and!.
  - intros c new H. split; [eapply told_dom; eauto|eapply told_dom_obsolete; eauto].
  - intros n M. eapply told_made_active; eauto.
  - intros o v N M. apply (told_outside_status _ es rw T). now split.
Qed.

(** HEAD stays on its branch while there is one, wherever that went; when it is on none,
    it is at what stands for its commit. *)
Theorem c73_head : forall e ts i chosen r rw o,
  restackable e r -> disk_silent e -> sorted_out (he_graph (re_hide e)) (rr_repo r) -> main_stays e r ->
  rs_ok (restack e ts (TxId i) chosen r) = true -> rs_rewritten (restack e ts (TxId i) chosen r) = Some rw ->
  fresh (he_graph (re_hide e)) (hr_log (rr_repo r)) rw -> hi_oid (hr_head (rr_repo r)) = Some o ->
  let r' := rr_repo (rs_repo (restack e ts (TxId i) chosen r)) in
  (forall n, hi_branch (hr_head (rr_repo r)) = Some n -> is_Some (hr_refs r' !! n) -> hr_head r' = mk_head (hr_refs r' !! n) (Some n)) /\
  (hi_branch (hr_head (rr_repo r)) = None -> exists q,
     hr_head r' = mk_head (Some q) None /\ stands (he_graph (re_hide e)) (rr_repo r) chosen rw o q).
Proof.
  intros e ts i chosen r rw o R DS SO MS Ok_ Rw F Ho. destruct (restack_parts _ _ _ _ _ _ Ok_ Rw) as (d & Op & Ck & Cr & Bk & E).
  destruct (restack_run e ts i r d chosen rw R DS (so_merge _ _ SO) Op (fun n H => proj1 (F n H)) Ck Cr) as [cs Rn].
  cbv zeta. rewrite E. set (r1 := rs_repo (restack_commits e ts (TxId i) d chosen r)) in *.
  destruct (restack_branches_head e ts (TxId i) r1) as [Hb Hh].
  set (r2 := rs_repo (restack_branches e ts (TxId i) r1)) in *. split.
  - intros n Hn Hs.
    assert (L : is_local n = true) by now apply (ra_local _ _ R).
    assert (S1 : is_Some (hr_refs (rr_repo r1) !! n)).
    { destruct (restack_branches_spec e ts (TxId i) r1 (ra_tables _ _ R _) Bk) as (rw2 & _ & _ & C & _). fold r2 in C.
      rewrite C in Hs. unfold branch_after in Hs. destruct (hr_refs (rr_repo r1) !! n); [eauto|destruct Hs as [? [=]]]. }
    pose proof (rn_stays _ _ _ _ _ _ _ Rn n Hn S1) as B1. destruct (rn_branch _ _ _ _ _ _ _ Rn n B1) as (_ & _ & O1).
    destruct (hr_head (rr_repo r2)) as [a b]. cbn in Hb, Hh |- *. subst b. rewrite B1 in Hh |- *. f_equal.
    destruct Hh as [[-> ->]| ->]; [exact O1|reflexivity].
  - intros Hn. destruct (rn_head _ _ _ _ _ _ _ Rn) as (h & Hh' & X). rewrite Ho in Hh'. injection Hh' as <-.
    assert (B1 : hi_branch (hr_head (rr_repo r1)) = None).
    { destruct (hi_branch (hr_head (rr_repo r1))) as [n|] eqn:B; [|reflexivity].
      destruct (rn_branch _ _ _ _ _ _ _ Rn n B) as (_ & X1 & _). congruence. }
    rewrite B1 in Hb, Hh. assert (H2 : hi_oid (hr_head (rr_repo r2)) = hi_oid (hr_head (rr_repo r1))) by (destruct Hh as [[Hh _]|Hh]; exact Hh).
    destruct X as [(q & Hq & La)|[Hm Hz]].
    + exists q. split; [|now apply (lands_stands e r d chosen rw r1 cs R Op Rn SO)]. destruct (hr_head (rr_repo r2)). cbn in *. congruence.
    + rewrite (main_kept e r d chosen rw r1 cs R Op Rn SO F MS o Hm) in Hz. discriminate.
Qed.

(** Afterwards no commit is abandoned. *)
Theorem c73_none_left : forall e ts i r rw g',
  restackable e r -> disk_silent e -> sorted_out (he_graph (re_hide e)) (rr_repo r) -> main_stays e r ->
  rs_ok (restack e ts (TxId i) None r) = true -> rs_rewritten (restack e ts (TxId i) None r) = Some rw ->
  fresh (he_graph (re_hide e)) (hr_log (rr_repo r)) rw ->
  grown (he_graph (re_hide e)) (rr_store (rs_repo (restack e ts (TxId i) None r))) rw g' ->
  forall k, ~ abandoned g' (rr_repo (rs_repo (restack e ts (TxId i) None r))) k.
Proof.
  intros e ts i r rw g' R DS SO MS Ok_ Rw F Gr k. destruct (restack_parts _ _ _ _ _ _ Ok_ Rw) as (d & Op & Ck & Cr & Bk & E).
  destruct (restack_run e ts i r d None rw R DS (so_merge _ _ SO) Op (fun n H => proj1 (F n H)) Ck Cr) as [cs Rn].
  rewrite E in Gr |- *. eapply nothing_abandoned; eauto.
Qed.

(** [git restack] says that there are no abandoned commits exactly when none was found,
    and then changes nothing about commits. *)
Theorem c73_nothing : forall e ts tx chosen r d,
  restackable e r -> open_repo (re_hide e) (rr_repo r) = Some d ->
  (forall k, abandoned (he_graph (re_hide e)) (rr_repo r) k -> ~ merge_commit (he_graph (re_hide e)) k) ->
  (rs_out (restack_commits e ts tx d chosen r) = ["No abandoned commits to restack."] <->
   forall o k, considered chosen o -> ~ abandoned_on (he_graph (re_hide e)) (rr_repo r) o k) /\
  (rs_out (restack_commits e ts tx d chosen r) = ["No abandoned commits to restack."] ->
   rs_repo (restack_commits e ts tx d chosen r) = r /\ rs_ok (restack_commits e ts tx d chosen r) = true).
Proof.
  intros e ts tx chosen r d R Op NM. split.
  - rewrite (restack_nothing_plan e ts tx r d chosen R NM Op). destruct (opened_in e r d Op (ra_order _ _ R)) as (_ & _ & O).
    assert (L : forall o k, abandoned_on (he_graph (re_hide e)) (rr_repo r) o k -> o ∈ looked_at d chosen <-> considered chosen o).
    { intros o k (_ & [new Rw] & _). destruct chosen as [s|]; cbn; [reflexivity|]. split; [auto|]. intros _.
      apply O. eapply rewritten_obsolete, Rw. }
    split; intros H o k Ho Ab; eapply (H o k); eauto; now apply (L o k).
  - intros H. destruct (restack_commits_nothing _ _ _ _ _ _ H) as (A & _ & B). auto.
Qed.

(** So a second run has nothing to do. *)
Theorem c73_again : forall e ts i r rw e' ts' tx',
  let r' := rs_repo (restack e ts (TxId i) None r) in
  restackable e r -> disk_silent e -> sorted_out (he_graph (re_hide e)) (rr_repo r) -> main_stays e r ->
  rs_ok (restack e ts (TxId i) None r) = true -> rs_rewritten (restack e ts (TxId i) None r) = Some rw ->
  fresh (he_graph (re_hide e)) (hr_log (rr_repo r)) rw ->
  restackable e' r' -> grown (he_graph (re_hide e)) (rr_store r') rw (he_graph (re_hide e')) ->
  let again := restack e' ts' tx' None r' in
  rs_out again = ["No abandoned commits to restack."; "No abandoned branches to restack."] /\ rs_repo again = r' /\ rs_ok again = true.
Proof.
  intros e ts i r rw e' ts' tx' r' R DS SO MS Ok_ Rw F R' Gr again.
  pose proof (c73_none_left e ts i r rw _ R DS SO MS Ok_ Rw F Gr) as N. fold r' in N.
  destruct (restack_parts _ _ _ _ _ _ Ok_ Rw) as (d & Op & Ck & Cr & Bk & E). fold r' in E.
  destruct (restack_run e ts i r d None rw R DS (so_merge _ _ SO) Op (fun n H => proj1 (F n H)) Ck Cr) as [cs Rn].
  destruct (open_repo (re_hide e') (rr_repo r')) as [d'|] eqn:Op'.
  2:{ exfalso. revert Op'. unfold open_repo. destruct (io_exists _ _ (ra_order _ _ R')) as [m Hm]. rewrite Hm. discriminate. }
  assert (A : rs_out (restack_commits e' ts' tx' d' None r') = ["No abandoned commits to restack."]).
  { apply (restack_nothing_plan e' ts' tx' r' d' None R'); [|exact Op'|].
    - intros k Hk. destruct (N k Hk).
    - intros o k _ Hk. apply (N k). now exists o. }
  destruct (restack_commits_nothing _ _ _ _ _ _ A) as (A1 & A2 & A3).
  assert (B : rs_out (restack_branches e' ts' tx' r') = ["No abandoned branches to restack."]).
  { apply restack_branches_nothing; [apply (ra_tables _ _ R')|]. intros n o new L Hn.
    rewrite E in Hn |- *. eapply (branches_done e r d None rw _ cs R Op Rn SO F MS ts (TxId i) Bk n); eauto. apply (ra_upstream _ _ R). }
  destruct (restack_branches_nothing_done _ _ _ _ B) as [B1 B2].
  unfold again, restack. rewrite Op'. cbv zeta. rewrite A3, A1. cbn [rs_out rs_repo rs_ok]. rewrite A, B. auto.
Qed.

(** When the new places of branches can be written, a restack in memory that stops has
    changed no reference, nor HEAD, nor what is known about commits. *)
Theorem c73_stopped : forall e ts tx chosen r d,
  let b := he_branch (re_hide e) in let res := restack_commits e ts tx d chosen r in
  (forall o, be_exists b o = true) -> (forall n, be_writes b n = true) -> be_upstream b <> None ->
  re_on_disk e = false -> re_resolve e = false \/ re_in_memory e = true ->
  (forall r' x o, x ∈ re_checked_out e r' -> ~ concerns x o) ->
  rs_ok res = false ->
  hr_refs (rr_repo (rs_repo res)) = hr_refs (rr_repo r) /\ hr_head (rr_repo (rs_repo res)) = hr_head (rr_repo r) /\
  rr_store r ⊆ rr_store (rs_repo res) /\
  forall o v, visibility (hr_log (rr_repo (rs_repo res))) o v <-> visibility (hr_log (rr_repo r)) o v.
Proof.
  intros e ts tx chosen r d b res Ex Wr Up Nd Nm Q. unfold res, restack_commits.
  destruct (plan_restack _ _ _ _ _ _) as [| | |dest cmds]; [auto 6..|cbn; discriminate|].
  destruct (execute_plan _ _ _ _ _ _ _ _ _ _ _) as [r' x] eqn:Ep. rewrite Nd in Ep. intros Hk.
  destruct (c31_nothing_visible _ _ _ _ _ _ _ _ _ _ _ _ Ep) as ((V1 & V2 & V3 & V4 & V5) & V6 & _); [|exact Nm|].
  - intros [[st rw] hd] Er. pose proof (execute_memory (runner e r) b (he_groups (re_hide e)) (re_iter e) (re_disk e) (re_in_memory e) (re_resolve e) dest cmds (start_repo r)) as H.
    cbv zeta in H. unfold b in H. rewrite Ep, Er in H. destruct H as (ok & H & Hp). injection H as ->.
    assert (ok = true) as ->.
    { revert Hp. unfold post_rebase. rewrite move_branches_go by assumption. congruence. }
    discriminate Hk.
  - assert (S : rr_store r ⊆ rp_store r' /\ rp_refs r' = hr_refs (rr_repo r) /\ checked_out_head r' = hr_head (rr_repo r) /\
      forall o v, visibility (hr_log (rr_repo (after_plan e ts tx r r'))) o v <-> visibility (hr_log (rr_repo r)) o v).
    { split; [exact V6|]. split; [exact V1|]. split.
      - unfold checked_out_head. rewrite V5. cbn. exact V2.
      - intros o v. cbn [after_plan rr_repo hr_log]. apply visibility_app_iff. intros y Hy. apply elem_of_app in Hy. destruct Hy as [Hy|Hy].
        + eapply hook_events_quiet, Hy.
        + apply elem_of_app in Hy. destruct Hy as [Hy|Hy]; [|eapply Q, Hy]. rewrite V4 in Hy. cbn in Hy.
          destruct tx; cbn in Hy; now apply elem_of_nil in Hy. }
    destruct S as (S1 & S2 & S3 & S4). destruct x; cbn [rs_ok rs_repo after_plan rr_repo rr_store hr_refs hr_head] in *; try discriminate Hk; auto.
Qed.

(** ** C74: branches *)

(** Branches at rewritten commits follow them to their newest versions, or are deleted
    with them; other references stay. *)
Theorem c74_branches : forall e ts i chosen r rw,
  restackable e r -> disk_silent e -> sorted_out (he_graph (re_hide e)) (rr_repo r) ->
  rs_ok (restack e ts (TxId i) chosen r) = true -> rs_rewritten (restack e ts (TxId i) chosen r) = Some rw ->
  fresh (he_graph (re_hide e)) (hr_log (rr_repo r)) rw ->
  let r' := rr_repo (rs_repo (restack e ts (TxId i) chosen r)) in
  (forall n o, is_local n = true -> n <> he_main (re_hide e) -> hr_refs (rr_repo r) !! n = Some o ->
     branch_moved (hr_log r') (he_branch (re_hide e)) n o (hr_refs r' !! n)) /\
  (forall n, is_local n = true -> hr_refs (rr_repo r) !! n = None -> hr_refs r' !! n = None) /\
  (main_stays e r -> hr_refs r' !! he_main (re_hide e) = hr_refs (rr_repo r) !! he_main (re_hide e) /\
     forall n o new, is_local n = true -> hr_refs r' !! n = Some o -> ~ rewritten (hr_log r') o new).
Proof.
  intros e ts i chosen r rw R DS SO Ok_ Rw F. destruct (restack_parts _ _ _ _ _ _ Ok_ Rw) as (d & Op & Ck & Cr & Bk & E).
  destruct (restack_run e ts i r d chosen rw R DS (so_merge _ _ SO) Op (fun n H => proj1 (F n H)) Ck Cr) as [cs Rn].
  cbv zeta. rewrite E. split_and!.
  - intros n o L Nm Hn. eapply branch_final; eauto. apply (ra_upstream _ _ R).
  - intros n L Hn. destruct (restack_branches_moved e ts (TxId i) _ (ra_tables _ _ R _) (ra_upstream _ _ R) Bk) as [_ M2].
    assert (H1 : hr_refs (rr_repo (rs_repo (restack_commits e ts (TxId i) d chosen r))) !! n = None).
    { rewrite (rn_refs _ _ _ _ _ _ _ Rn n L). unfold branch_after. now rewrite Hn. }
    rewrite M2; auto.
  - intros MS. split; [eapply main_final; eauto|]. intros n o new L Hn. eapply branches_done; eauto. apply (ra_upstream _ _ R).
Qed.

(** The part that moves branches, by itself. *)
Theorem c74_alone : forall e ts tx r,
  branch_table (he_groups (re_hide e) (hr_refs (rr_repo r))) (hr_refs (rr_repo r)) ->
  (exists up, be_upstream (he_branch (re_hide e)) = Some up) ->
  rs_ok (restack_branches e ts tx r) = true ->
  let r' := rs_repo (restack_branches e ts tx r) in
  (forall n o, is_local n = true -> hr_refs (rr_repo r) !! n = Some o ->
     branch_moved (hr_log (rr_repo r)) (he_branch (re_hide e)) n o (hr_refs (rr_repo r') !! n)) /\
  (forall n, is_local n = false \/ hr_refs (rr_repo r) !! n = None -> hr_refs (rr_repo r') !! n = hr_refs (rr_repo r) !! n) /\
  rr_store r' = rr_store r /\
  (forall o v, visibility (hr_log (rr_repo r')) o v <-> visibility (hr_log (rr_repo r)) o v) /\
  (rs_out (restack_branches e ts tx r) = ["No abandoned branches to restack."] <->
   forall n o new, is_local n = true -> hr_refs (rr_repo r) !! n = Some o -> ~ rewritten (hr_log (rr_repo r)) o new).
Proof.
  intros e ts tx r T Up Hk. destruct (restack_branches_moved e ts tx r T Up Hk) as [A B].
  destruct (restack_branches_spec e ts tx r T Hk) as (_ & _ & _ & _ & (q & El & Q) & St & _). cbv zeta.
  split_and!; [exact A|exact B|exact St| |now apply restack_branches_nothing].
  intros o v. rewrite El. apply visibility_app_iff. intros x Hx. now apply Q.
Qed.

(** When a reference cannot be written, each local branch is where it was or where it
    should go. *)
Theorem c74_halfway : forall e ts tx r n o,
  branch_table (he_groups (re_hide e) (hr_refs (rr_repo r))) (hr_refs (rr_repo r)) ->
  (exists up, be_upstream (he_branch (re_hide e)) = Some up) ->
  is_local n = true -> hr_refs (rr_repo r) !! n = Some o ->
  let to := hr_refs (rr_repo (rs_repo (restack_branches e ts tx r))) !! n in
  to = Some o \/ branch_moved (hr_log (rr_repo r)) (he_branch (re_hide e)) n o to.
Proof.
  intros e ts tx r n o T [up Hu] L Hn to. unfold to, restack_branches. set (h := rr_repo r) in *.
  destruct (rewritten_targets_spec (he_main (re_hide e)) (hr_log h) (List.map snd (local_branches (hr_refs h))) ∅) as (rw & E & A & B).
  { intros o' x H. now rewrite lookup_empty in H. }
  rewrite E. destruct (decide (rw = ∅)); [now left|]. cbn [rs_repo rr_repo hr_refs].
  destruct (c32_halfway (he_branch (re_hide e)) rw _ _ T) as [H _]. destruct (H n) as [->| ->]; [now left|right].
  unfold branch_after. rewrite Hn, L. destruct (rw !! o) as [[|x]|] eqn:Ew.
  - right. right. split; [apply A, Ew|]. destruct (decide (n = be_main (he_branch (re_hide e)))) as [->|Ne].
    + split; [congruence|]. intros _. rewrite Hu. reflexivity.
    + split; [reflexivity|congruence].
  - right. left. exists x. split; [apply A, Ew|reflexivity].
  - left. split; [|reflexivity]. intros new Rw. destruct (rewritten_chain_end _ _ _ Rw) as [m Ce].
    destruct (proj2 (B o)) as [x Hx]; [|congruence]. right. split; [apply local_targets; eauto|eauto].
Qed.

Local Open Scope Z_scope.

(** ** A stack left behind

    2 on the main branch 1 was rewritten to 5, leaving 3 and 4 behind; the branches [a]
    at 4, where HEAD is, and [b] at 2. *)
Definition rdemo_graph : graph := [(1%N, []); (2%N, [1%N]); (3%N, [2%N]); (4%N, [3%N]); (5%N, [1%N])].
(** Commits and their names; others are numbered. *)
Definition named_as (st : list (oid * object)) (x : object) : oid :=
  match List.find (fun v => bool_decide (snd v = x)) st with
  | Some v => fst v
  | None => 100 + Npos (encode x)
  end.
Lemma named_as_inj st : Forall (fun v => (fst v < 100)%N) st -> NoDup (List.map fst st) ->
  forall x y, named_as st x = named_as st y -> x = y.
Proof.
  intros B Nd x y. unfold named_as. rewrite Forall_forall in B.
  assert (F : forall z v, @List.find (oid * object) (fun v : oid * object => bool_decide (snd v = z)) st = Some v -> v ∈ st /\ snd v = z).
  { intros z v H. apply find_some in H. destruct H as [Hin H]. apply bool_decide_eq_true in H. split; [now apply elem_of_list_In|exact H]. }
  destruct (@List.find (oid * object) (fun v : oid * object => bool_decide (snd v = x)) st) as [v|] eqn:Ex; destruct (@List.find (oid * object) (fun v : oid * object => bool_decide (snd v = y)) st) as [w|] eqn:Ey.
  - apply F in Ex, Ey. intros E. destruct Ex as [Hv <-], Ey as [Hw <-]. f_equal. clear - Nd Hv Hw E.
    induction st as [|u st IH]; [now apply elem_of_nil in Hv|]. cbn in Nd. apply NoDup_cons in Nd. destruct Nd as [Nu Nd].
    rewrite elem_of_cons in Hv, Hw. destruct Hv as [->|Hv], Hw as [->|Hw]; [reflexivity| | |now apply IH]; exfalso; apply Nu; apply elem_of_list_In, in_map_iff.
    + exists w. split; [exact (eq_sym E)|now apply elem_of_list_In].
    + exists v. split; [exact E|now apply elem_of_list_In].
  - apply F in Ex. destruct Ex as [Hv _]. specialize (B v Hv). intros E. cbn in B. unfold oid in *. lia.
  - apply F in Ey. destruct Ey as [Hv _]. specialize (B w Hv). intros E. cbn in B. unfold oid in *. lia.
  - intros E. apply (inj encode). lia.
Qed.
Lemma named_as_store st o x : NoDup (List.map snd st) -> (o, x) ∈ st -> named_as st x = o.
Proof.
  intros Nd Hi. unfold named_as.
  destruct (@List.find (oid * object) (fun v : oid * object => bool_decide (snd v = x)) st) as [v|] eqn:E.
  - apply find_some in E. destruct E as [Hv E]. apply bool_decide_eq_true in E. apply elem_of_list_In in Hv. revert Nd Hi Hv.
    induction st as [|u m IH]; intros Nd Hi Hv; [now apply elem_of_nil in Hv|]. cbn in Nd. apply NoDup_cons in Nd. destruct Nd as [Nu Nd].
    rewrite elem_of_cons in Hi, Hv. destruct Hi as [<-|Hi], Hv as [->|Hv]; [reflexivity| | |now apply IH]; exfalso; apply Nu; apply elem_of_list_In, in_map_iff.
    + exists v. split; [exact E|now apply elem_of_list_In].
    + exists (o, x). split; [now rewrite E|now apply elem_of_list_In].
  - apply elem_of_list_In in Hi. pose proof (find_none _ _ E _ Hi) as N. cbn in N. now rewrite bool_decide_true in N by reflexivity.
Qed.
Definition objects_in (g : graph) : list (oid * object) := List.map (fun v => (fst v, object_in g (fst v))) g.
(** The surroundings of the demonstrations; [objs] are the commits with known names. *)
Definition rdemo_env (g : graph) (objs : list (oid * object)) (writes : refname -> bool) : restack_env :=
  mk_re (mk_he g yes oid_to_string (mk_be yes writes "refs/heads/main" (Some None)) table_of yes (fun _ => None) None)
    (mk_ee (named_as objs) (fun c _ => MadeTree (c + 50)%N) (fun _ _ => Conflict) (fun n => n + 1)%N yes None)
    (fun _ _ => false) elements elements map_to_list (fun r => (r, FailedExit)) (fun _ => []) false false false false.
Definition rdemo_repo (g : graph) (refs : list (refname * oid)) (head : head_info) (log : list event) : rrepo :=
  mk_rrepo (store_of g) (mk_hrepo (list_to_map refs) head log).

(** When everything around is in order, in a form that can be computed. *)
Definition event_shows (x : event) : option oid :=
  match x with
  | CommitEvent _ _ o | UnobsoleteEvent _ _ o => Some o
  | RewriteEvent _ _ _ (NonZero o) => Some o
  | _ => None
  end.
Definition rdemo_good (g : graph) (objs : list (oid * object)) (r : rrepo) : bool :=
  let h := rr_repo r in
  bool_decide (NoDup (List.map fst objs)) && bool_decide (NoDup (List.map snd objs))
  && forallb (fun v => bool_decide (0 < fst v < 100)%N) objs
  && forallb (fun v => bool_decide (v ∈ objs)) (map_to_list (rr_store r))
  && forallb (fun c => bool_decide (0 < c < 100)%N && match rr_store r !! c with Some x => bool_decide (commit_parents (ob_commit x) = parents_of g c) | None => false end) (List.map fst g)
  && all_refs (fun _ o => bool_decide (o ∈ List.map fst g)) (hr_refs h)
  && forallb (fun x => match event_shows x with Some o => bool_decide (o ∈ List.map fst g) | None => true end) (hr_log h)
  && match hi_oid (hr_head h) with Some o => bool_decide (o ∈ List.map fst g) | None => false end
  && match hi_branch (hr_head h) with
     | Some n => is_local n && bool_decide (hr_refs h !! n = hi_oid (hr_head h))
     | None => true
     end
  && bool_decide (is_Some (hr_refs h !! ("refs/heads/main" : refname))).
Lemma rdemo_restackable g objs writes r : wf_graph g -> rdemo_good g objs r = true -> restackable (rdemo_env g objs writes) r.
Proof.
  intros W H. unfold rdemo_good in H. cbv zeta in H. rewrite !andb_true_iff in H. destruct H as [[[[[[[[[N1 N2] H2] H3] H4] H5] H6] H7] H8] H9].
  apply bool_decide_eq_true in N1, N2, H9. set (h := rr_repo r) in *.
  assert (Vx : forall o, o ∈ vertices g <-> o ∈ List.map fst g) by (intros o; unfold vertices; apply elem_of_list_to_set).
  assert (Hh : exists o, hi_oid (hr_head h) = Some o /\ o ∈ List.map fst g).
  { destruct (hi_oid (hr_head h)) as [o|]; [|discriminate]. apply bool_decide_eq_true in H7. eauto. }
  assert (Hb : forall n, hi_branch (hr_head h) = Some n -> is_local n = true /\ hr_refs h !! n = hi_oid (hr_head h)).
  { intros n E. rewrite E in H8. apply andb_true_iff in H8. destruct H8 as [L X]. apply bool_decide_eq_true in X. auto. }
  assert (Og : forall c, c ∈ List.map fst g -> (0 < c < 100)%N /\ exists x, rr_store r !! c = Some x /\ commit_parents (ob_commit x) = parents_of g c).
  { intros c Hc. rewrite forallb_forall in H4. apply elem_of_list_In in Hc. specialize (H4 c Hc). apply andb_true_iff in H4. destruct H4 as [A B].
    apply bool_decide_eq_true in A. split; [exact A|]. destruct (rr_store r !! c) as [x|]; [|discriminate]. apply bool_decide_eq_true in B. eauto. }
  constructor; cbn [rdemo_env re_hide re_exec re_order re_sort re_iter re_checked_out he_graph he_groups he_branch be_upstream].
  - constructor; cbn [rdemo_env re_hide he_graph he_main he_branch be_main he_groups].
    + exact W.
    + exists "main". reflexivity.
    + exact H9.
    + apply table_of_spec.
    + intros n o E. apply (all_refs_spec _ _ H5), bool_decide_eq_true in E. now apply Vx.
    + intros o E. apply active_in in E. destruct E as (x & Hx & S). rewrite forallb_forall in H6. apply elem_of_list_In in Hx. specialize (H6 x Hx).
      assert (E : event_shows x = Some o) by (destruct x; cbn in S |- *; first [contradiction|subst; reflexivity]).
      rewrite E in H6. apply bool_decide_eq_true in H6. now apply Vx.
    + intros o E. destruct Hh as (o' & Eh & Hh). unfold h in Eh. rewrite Eh in E. injection E as <-. now apply Vx.
    + intros n E. now apply Hb.
  - intros rf. apply table_of_spec.
  - destruct Hh as (o & E & _). eauto.
  - intros n E. now apply Hb.
  - eauto.
  - intros c Hc. apply Vx in Hc. now apply Og.
  - intros x y. apply named_as_inj; [|exact N1]. apply Forall_forall. intros v Hv. rewrite forallb_forall in H2. apply elem_of_list_In in Hv.
    specialize (H2 v Hv). apply bool_decide_eq_true in H2. apply H2.
  - intros o x E. cbn [rdemo_env re_exec ee_hash]. apply named_as_store; [exact N2|]. rewrite forallb_forall in H3.
    apply elem_of_map_to_list, elem_of_list_In in E. specialize (H3 _ E). now apply bool_decide_eq_true in H3.
  - intros c Hc. apply Vx, Og in Hc. unfold oid_ok, oid_limit. assert (100 < 2 ^ 160)%N by reflexivity. lia.
  - reflexivity.
  - reflexivity.
  - reflexivity.
  - intros r' x o Hx. now apply elem_of_nil in Hx.
Qed.
Lemma rdemo_silent g objs writes : disk_silent (rdemo_env g objs writes).
Proof. intros r r' rw [=]. Qed.

Definition rewrote (old new : N) : event := RewriteEvent 2 (TxId 2) (NonZero old) (NonZero new).
Definition rdemo_log : list event := List.map (CommitEvent 1 (TxId 1)) [2%N; 3%N; 4%N] ++ [rewrote 2 5].
Definition rdemo_objects : list (oid * object) := objects_in rdemo_graph ++
  [(6%N, mk_object (mk_commit [5%N] 53%N) 23%N 34%N 43%N); (7%N, mk_object (mk_commit [6%N] 54%N) 24%N 35%N 44%N)].
Definition rdemo_refs : list (refname * oid) := [("refs/heads/main", 1%N); ("refs/heads/a", 4%N); ("refs/heads/b", 2%N)].
Definition rdemo_head : head_info := mk_head (Some 4%N) (Some "refs/heads/a").
Definition rdemo : rrepo := rdemo_repo rdemo_graph rdemo_refs rdemo_head rdemo_log.
Definition rdemo_grown : graph := rdemo_graph ++ [(6%N, [5%N]); (7%N, [6%N])].
Definition rdemo_result : restack_result := restack (rdemo_env rdemo_graph rdemo_objects yes) 9 (TxId 9) None rdemo.

Lemma rewritten_in log o new : rewritten log o new -> exists ts tx, RewriteEvent ts tx (NonZero o) new ∈ log.
Proof. intros (ts & tx & (b & a & -> & _) & _). exists ts, tx. apply elem_of_app. right. left. Qed.
Lemma last_rewrite log o new ts tx : new <> NonZero o -> rewritten (log ++ [RewriteEvent ts tx (NonZero o) new]) o new.
Proof.
  intros Ne. exists ts, tx. split; [|exact Ne]. exists log, []. split; [reflexivity|]. split; [right; reflexivity|].
  intros y Hy. now apply elem_of_nil in Hy.
Qed.
Definition no_merges (g : graph) : bool := forallb (fun v => bool_decide (length (snd v) <= 1)%nat) g.
Lemma no_merges_spec g k : no_merges g = true -> ~ merge_commit g k.
Proof.
  intros H (ps & Hk & L). unfold no_merges in H. rewrite forallb_forall in H. apply elem_of_list_In in Hk. specialize (H _ Hk).
  apply bool_decide_eq_true in H. cbn in H. lia.
Qed.

Lemma rdemo_wf : wf_graph rdemo_graph.
Proof. repeat split; try (intros p Hp; revert Hp); try decide_it; set_solver. Qed.
Lemma rdemo_grown_wf : wf_graph rdemo_grown.
Proof. repeat split; try (intros p Hp; revert Hp); try decide_it; set_solver. Qed.
Lemma rdemo_grown_vertices c : c ∈ vertices rdemo_grown -> c ∈ vertices rdemo_graph \/ c = 6%N \/ c = 7%N.
Proof. unfold vertices, rdemo_grown, rdemo_graph. cbn. set_solver. Qed.
Lemma rdemo_in_order : restackable (rdemo_env rdemo_graph rdemo_objects yes) rdemo.
Proof. apply rdemo_restackable; [exact rdemo_wf|vm_compute; reflexivity]. Qed.
Lemma rdemo_rewritten o new : rewritten rdemo_log o new -> o = 2%N /\ new = NonZero 5.
Proof.
  intros H. destruct (rewritten_in _ _ _ H) as (ts & tx & X). unfold rdemo_log in X. cbn in X. rewrite !elem_of_cons in X.
  destruct X as [X|[X|[X|[X|X]]]]; try discriminate X; [|now apply elem_of_nil in X]. injection X as _ _ -> ->. auto.
Qed.
Lemma rdemo_chain : chain_end rdemo_log 2%N (NonZero 5%N).
Proof.
  apply chain_last; [apply (last_rewrite (List.map (CommitEvent 1 (TxId 1)) [2%N; 3%N; 4%N])); discriminate|].
  intros new H. apply rdemo_rewritten in H. destruct H as [H _]. discriminate.
Qed.
Lemma rdemo_sorted : sorted_out rdemo_graph (rr_repo rdemo).
Proof.
  constructor.
  - intros k _. apply no_merges_spec. reflexivity.
  - intros o k (_ & [new Rw] & _) C. apply rdemo_rewritten in Rw. destruct Rw as [-> _].
    pose proof (chain_end_unique _ _ _ _ C rdemo_chain). discriminate.
  - intros o x _ C. destruct (chain_end_rewritten _ _ _ C) as [new Rw]. apply rdemo_rewritten in Rw. destruct Rw as [-> _].
    pose proof (chain_end_unique _ _ _ _ C rdemo_chain) as E. injection E as ->.
    exists 5%N. split; [constructor|]. left. apply status_in_spec. vm_compute. reflexivity.
Qed.
Lemma rdemo_main : main_stays (rdemo_env rdemo_graph rdemo_objects yes) rdemo.
Proof.
  split; [reflexivity|]. intros m new Hm Rw. assert (m = 1%N) as -> by (vm_compute in Hm; congruence).
  apply rdemo_rewritten in Rw. destruct Rw as [Rw _]. discriminate.
Qed.
Lemma made_in rw l n : made rw n -> map_to_list rw = l -> exists old, (old, NonZero n) ∈ l.
Proof. intros [old H] <-. exists old. now apply elem_of_map_to_list. Qed.

(** [git restack] there: 3 and 4 are made again on top of 5 as 6 and 7, [a] goes to 7 and
    [b] to 5. *)
Example c73_example :
  let e := rdemo_env rdemo_graph rdemo_objects yes in
  let r' := rs_repo rdemo_result in
  restackable e rdemo /\ disk_silent e /\ sorted_out rdemo_graph (rr_repo rdemo) /\ main_stays e rdemo /\
  abandoned rdemo_graph (rr_repo rdemo) 3 /\
  exists rw, rs_rewritten rdemo_result = Some rw /\ map_to_list rw = [(3%N, NonZero 6); (4%N, NonZero 7)] /\ rs_ok rdemo_result = true /\
  fresh rdemo_graph rdemo_log rw /\ grown rdemo_graph (rr_store r') rw rdemo_grown /\
  rs_out rdemo_result = ["Finished restacking commits."; "Finished restacking branches."] /\
  List.map (fun n : refname => hr_refs (rr_repo r') !! n) ["refs/heads/main"; "refs/heads/a"; "refs/heads/b"] = [Some 1%N; Some 7%N; Some 5%N] /\
  hr_head (rr_repo r') = mk_head (Some 7%N) (Some "refs/heads/a") /\
  List.map (status_in (hr_log (rr_repo r'))) [2%N; 3%N; 4%N; 5%N; 6%N; 7%N] = [Obsolete; Obsolete; Obsolete; Active; Active; Active] /\
  restackable (rdemo_env rdemo_grown rdemo_objects yes) r'.
Proof.
  intros e r'. split; [exact rdemo_in_order|]. split; [apply rdemo_silent|]. split; [exact rdemo_sorted|]. split; [exact rdemo_main|]. split.
  { exists 2%N. split; [exists [2%N]; split; [decide_it|now left]|]. split; [|split].
    - exists (NonZero 5%N). apply (last_rewrite (List.map (CommitEvent 1 (TxId 1)) [2%N; 3%N; 4%N])). discriminate.
    - exists 3%N. split; [constructor|]. left. apply status_in_spec. vm_compute. reflexivity.
    - intros H. assert (A : visibility rdemo_log 3%N Active) by (apply status_in_spec; vm_compute; reflexivity).
      pose proof (visibility_unique _ _ _ _ H A). discriminate. }
  destruct (rs_rewritten rdemo_result) as [rw|] eqn:Erw; [|exfalso; revert Erw; vm_compute; discriminate].
  assert (El : map_to_list rw = [(3%N, NonZero 6); (4%N, NonZero 7)]).
  { assert (X : from_option map_to_list [] (rs_rewritten rdemo_result) = [(3%N, NonZero 6); (4%N, NonZero 7)]) by (vm_compute; reflexivity).
    rewrite Erw in X. exact X. }
  assert (L3 : rw !! 3%N = Some (NonZero 6%N)) by (apply elem_of_map_to_list; unfold oid in *; rewrite El; left).
  assert (L4 : rw !! 4%N = Some (NonZero 7%N)) by (apply elem_of_map_to_list; unfold oid in *; rewrite El; right; left).
  assert (M : forall n, made rw n -> n = 6%N \/ n = 7%N).
  { intros n Hn. destruct (made_in _ _ _ Hn El) as [old H]. rewrite !elem_of_cons in H. destruct H as [[= _ ->]|[[= _ ->]|H]]; [auto..|now apply elem_of_nil in H]. }
  exists rw. split; [reflexivity|]. split; [exact El|]. split; [vm_compute; reflexivity|]. split; [|split; [|split_and!]].
  - intros n Hn. apply M in Hn. assert (L : (7 < oid_limit)%N) by reflexivity. split; [unfold oid_ok; destruct Hn as [->| ->]; lia|]. split.
    + destruct Hn as [->| ->]; decide_it.
    + intros x Hx C. unfold rdemo_log in Hx. cbn in Hx. rewrite !elem_of_cons in Hx.
      destruct Hx as [->|[->|[->|[->|Hx]]]]; [..|now apply elem_of_nil in Hx]; destruct Hn as [->| ->]; destruct C as [C|C]; cbn in C; (discriminate C || destruct C).
  - constructor.
    + exact rdemo_grown_wf.
    + intros c Hc. apply rdemo_grown_vertices in Hc.
      destruct Hc as [Hc|[->| ->]]; [auto|right; now exists 3%N|right; now exists 4%N].
    + intros p c Hc. split; intros (ps & Hi & Hp).
      * unfold rdemo_grown in Hi. apply elem_of_app in Hi. destruct Hi as [Hi|Hi]; [exists ps; auto|].
        exfalso. rewrite !elem_of_cons in Hi. destruct Hi as [[= -> ->]|[[= -> ->]|Hi]]; [revert Hc; decide_it|revert Hc; decide_it|now apply elem_of_nil in Hi].
      * exists ps. split; [apply elem_of_app; now left|exact Hp].
    + intros p n x Hn Hx. apply M in Hn.
      assert (Q : ((n = 6%N /\ commit_parents (ob_commit x) = [5%N]) \/ (n = 7%N /\ commit_parents (ob_commit x) = [6%N]))).
      { destruct Hn as [->| ->]; [left|right]; (split; [reflexivity|]); vm_compute in Hx; injection Hx as <-; reflexivity. }
      destruct Q as [[-> ->]|[-> ->]]; split.
      * intros (ps & Hi & Hp). unfold rdemo_grown, rdemo_graph in Hi. cbn in Hi. rewrite !elem_of_cons in Hi.
        destruct Hi as [[=]|[[=]|[[=]|[[=]|[[=]|[[= ->]|[[=]|Hi]]]]]]]; [exact Hp|now apply elem_of_nil in Hi].
      * intros Hp. exists [5%N]. split; [decide_it|exact Hp].
      * intros (ps & Hi & Hp). unfold rdemo_grown, rdemo_graph in Hi. cbn in Hi. rewrite !elem_of_cons in Hi.
        destruct Hi as [[=]|[[=]|[[=]|[[=]|[[=]|[[=]|[[= ->]|Hi]]]]]]]; [exact Hp|now apply elem_of_nil in Hi].
      * intros Hp. exists [6%N]. split; [decide_it|exact Hp].
  - vm_compute. reflexivity.
  - vm_compute. reflexivity.
  - vm_compute. reflexivity.
  - vm_compute. reflexivity.
  - apply rdemo_restackable; [exact rdemo_grown_wf|vm_compute; reflexivity].
Qed.

(** Without a newest version there is nowhere to go: when 2 was dropped instead, 3 is
    made again on top of 2 itself and is as abandoned as before. *)
Definition gdemo_graph : graph := [(1%N, []); (2%N, [1%N]); (3%N, [2%N])].
Definition gdemo_log : list event := List.map (CommitEvent 1 (TxId 1)) [2%N; 3%N] ++ [RewriteEvent 2 (TxId 2) (NonZero 2%N) Zero].
Definition gdemo_objects : list (oid * object) := objects_in gdemo_graph ++ [(6%N, mk_object (mk_commit [2%N] 53%N) 23%N 34%N 43%N)].
Definition gdemo : rrepo := rdemo_repo gdemo_graph [("refs/heads/main", 1%N)] (mk_head (Some 1%N) (Some "refs/heads/main")) gdemo_log.
Definition gdemo_grown : graph := gdemo_graph ++ [(6%N, [2%N])].
Lemma gdemo_wf : wf_graph gdemo_graph.
Proof. repeat split; try (intros p Hp; revert Hp); try decide_it; set_solver. Qed.
Lemma gdemo_grown_wf : wf_graph gdemo_grown.
Proof. repeat split; try (intros p Hp; revert Hp); try decide_it; set_solver. Qed.
Lemma gdemo_grown_vertices c : c ∈ vertices gdemo_grown -> c ∈ vertices gdemo_graph \/ c = 6%N.
Proof. unfold vertices, gdemo_grown, gdemo_graph. cbn. set_solver. Qed.
Theorem c73_dropped_refuted : exists e ts i r rw g' k,
  restackable e r /\ disk_silent e /\ main_stays e r /\
  (forall k, abandoned (he_graph (re_hide e)) (rr_repo r) k -> ~ merge_commit (he_graph (re_hide e)) k) /\
  rs_ok (restack e ts (TxId i) None r) = true /\ rs_rewritten (restack e ts (TxId i) None r) = Some rw /\
  fresh (he_graph (re_hide e)) (hr_log (rr_repo r)) rw /\
  grown (he_graph (re_hide e)) (rr_store (rs_repo (restack e ts (TxId i) None r))) rw g' /\
  made rw k /\ abandoned g' (rr_repo (rs_repo (restack e ts (TxId i) None r))) k.
Proof.
  set (e := rdemo_env gdemo_graph gdemo_objects yes). set (res := restack e 9 (TxId 9) None gdemo).
  assert (Rw2 : forall o new, rewritten gdemo_log o new -> o = 2%N /\ new = Zero).
  { intros o new H. destruct (rewritten_in _ _ _ H) as (ts & tx & X). unfold gdemo_log in X. cbn in X. rewrite !elem_of_cons in X.
    destruct X as [X|[X|[X|X]]]; try discriminate X; [|now apply elem_of_nil in X]. injection X as _ _ -> ->. auto. }
  destruct (rs_rewritten res) as [rw|] eqn:Erw; [|exfalso; revert Erw; vm_compute; discriminate].
  assert (El : map_to_list rw = [(3%N, NonZero 6)]).
  { assert (X : from_option map_to_list [] (rs_rewritten res) = [(3%N, NonZero 6)]) by (vm_compute; reflexivity). rewrite Erw in X. exact X. }
  assert (L3 : rw !! 3%N = Some (NonZero 6%N)) by (apply elem_of_map_to_list; unfold oid in *; rewrite El; left).
  assert (M : forall n, made rw n -> n = 6%N).
  { intros n Hn. destruct (made_in _ _ _ Hn El) as [old H]. apply elem_of_list_singleton in H. now injection H. }
  exists e, 9, 9, gdemo, rw, gdemo_grown, 6%N. fold res. split_and!.
  - apply rdemo_restackable; [exact gdemo_wf|vm_compute; reflexivity].
  - apply rdemo_silent.
  - split; [reflexivity|]. intros m new Hm Rw. assert (m = 1%N) as -> by (vm_compute in Hm; congruence).
    apply Rw2 in Rw. destruct Rw as [Rw _]. discriminate.
  - intros k _. apply no_merges_spec. reflexivity.
  - vm_compute. reflexivity.
  - exact Erw.
  - intros n Hn. apply M in Hn. subst n. split; [split; reflexivity|]. split; [decide_it|].
    intros x Hx C. unfold gdemo in Hx. cbn in Hx. rewrite !elem_of_cons in Hx.
    destruct Hx as [->|[->|[->|Hx]]]; [..|now apply elem_of_nil in Hx]; destruct C as [C|C]; cbn in C; (discriminate C || destruct C).
  - constructor.
    + exact gdemo_grown_wf.
    + intros c Hc. apply gdemo_grown_vertices in Hc. destruct Hc as [Hc| ->]; [auto|right; now exists 3%N].
    + intros p c Hc. split; intros (ps & Hi & Hp).
      * unfold gdemo_grown in Hi. apply elem_of_app in Hi. destruct Hi as [Hi|Hi]; [exists ps; auto|].
        exfalso. apply elem_of_list_singleton in Hi. injection Hi as -> ->. revert Hc. decide_it.
      * exists ps. split; [apply elem_of_app; now left|exact Hp].
    + intros p n x Hn Hx. apply M in Hn. subst n.
      assert (Q : commit_parents (ob_commit x) = [2%N]) by (vm_compute in Hx; injection Hx as <-; reflexivity).
      rewrite Q. split.
      * intros (ps & Hi & Hp). unfold gdemo_grown, gdemo_graph in Hi. cbn in Hi. rewrite !elem_of_cons in Hi.
        destruct Hi as [[=]|[[=]|[[=]|[[= ->]|Hi]]]]; [exact Hp|now apply elem_of_nil in Hi].
      * intros Hp. exists [2%N]. split; [decide_it|exact Hp].
  - now exists 3%N.
  - exists 2%N. assert (A : visibility (hr_log (rr_repo (rs_repo res))) 6%N Active) by (apply status_in_spec; vm_compute; reflexivity).
    split; [exists [2%N]; split; [decide_it|now left]|]. split; [|split].
    + assert (X : exists q, hr_log (rr_repo (rs_repo res)) = gdemo_log ++ q /\ q = [RewriteEvent 9 (TxId 9) (NonZero 3%N) (NonZero 6%N)]) by (eexists; split; vm_compute; reflexivity).
      destruct X as (q & -> & ->). exists Zero. exists 2, (TxId 2). split; [|discriminate].
      exists (List.map (CommitEvent 1 (TxId 1)) [2%N; 3%N]), [RewriteEvent 9 (TxId 9) (NonZero 3%N) (NonZero 6%N)].
      split; [reflexivity|]. split; [right; reflexivity|]. intros y Hy. apply elem_of_list_singleton in Hy. subst y. intros [C|C]; discriminate C.
    + exists 6%N. split; [constructor|now left].
    + intros H. pose proof (visibility_unique _ _ _ _ H A). discriminate.
Qed.

(** A merge left behind is merged again with the old version of its parent: 4 merges 2
    and 3, and 2 was rewritten to 5. *)
Definition mdemo_graph : graph := [(1%N, []); (2%N, [1%N]); (3%N, [1%N]); (4%N, [2%N; 3%N]); (5%N, [1%N])].
Definition mdemo_log : list event := List.map (CommitEvent 1 (TxId 1)) [2%N; 3%N; 4%N] ++ [rewrote 2 5].
Definition mdemo : rrepo := rdemo_repo mdemo_graph [("refs/heads/main", 1%N)] (mk_head (Some 1%N) (Some "refs/heads/main")) mdemo_log.
Lemma mdemo_wf : wf_graph mdemo_graph.
Proof. repeat split; try (intros p Hp; revert Hp); try decide_it; set_solver. Qed.
Theorem c73_merge_refuted : exists e r d o k t dest before others after,
  restackable e r /\ main_stays e r /\ open_repo (re_hide e) (rr_repo r) = Some d /\
  abandoned_on (he_graph (re_hide e)) (rr_repo r) o k /\ chain_end (hr_log (rr_repo r)) o (NonZero t) /\
  plan_restack e d (replay (he_main (re_hide e)) (hr_log (rr_repo r))) (default_cursor (replay (he_main (re_hide e)) (hr_log (rr_repo r))))
    None (rr_store r) = PlanMade dest (before ++ [Reset_ (AtOid o); Merge k others] ++ after) /\ AtOid t ∉ others.
Proof.
  set (e := rdemo_env mdemo_graph (objects_in mdemo_graph) yes).
  assert (Rw2 : forall o new, rewritten mdemo_log o new -> o = 2%N /\ new = NonZero 5).
  { intros o new H. destruct (rewritten_in _ _ _ H) as (ts & tx & X). unfold mdemo_log in X. cbn in X. rewrite !elem_of_cons in X.
    destruct X as [X|[X|[X|[X|X]]]]; try discriminate X; [|now apply elem_of_nil in X]. injection X as _ _ -> ->. auto. }
  assert (Rw5 : rewritten mdemo_log 2%N (NonZero 5%N)).
  { apply (last_rewrite (List.map (CommitEvent 1 (TxId 1)) [2%N; 3%N; 4%N])). discriminate. }
  destruct (open_repo (re_hide e) (rr_repo mdemo)) as [d|] eqn:Ed; [|exfalso; revert Ed; vm_compute; discriminate].
  exists e, mdemo, d, 2%N, 4%N, 5%N, 5%N, [Reset_ (AtOid 5%N)], [AtOid 3%N], [RegisterExtra]. split_and!.
  - apply rdemo_restackable; [exact mdemo_wf|vm_compute; reflexivity].
  - split; [reflexivity|]. intros m new Hm Rw. assert (m = 1%N) as -> by (vm_compute in Hm; congruence).
    apply Rw2 in Rw. destruct Rw as [Rw _]. discriminate.
  - exact Ed.
  - split; [exists [2%N; 3%N]; split; [decide_it|now left]|]. split; [eauto|]. split.
    + exists 4%N. split; [constructor|]. left. apply status_in_spec. vm_compute. reflexivity.
    + intros H. assert (A : visibility mdemo_log 4%N Active) by (apply status_in_spec; vm_compute; reflexivity).
      pose proof (visibility_unique _ _ _ _ H A). discriminate.
  - apply chain_last; [exact Rw5|]. intros new H. apply Rw2 in H. destruct H as [H _]. discriminate.
  - injection Ed as <-. vm_compute. reflexivity.
  - rewrite elem_of_list_singleton. discriminate.
Qed.

(** A branch checked out at a rewritten commit is moved under HEAD although nothing is
    checked out: [a] is at 2, which was rewritten to 5. *)
Definition bdemo_graph : graph := [(1%N, []); (2%N, [1%N]); (5%N, [1%N])].
Definition bdemo (head : head_info) : rrepo :=
  rdemo_repo bdemo_graph [("refs/heads/main", 1%N); ("refs/heads/a", 2%N); ("refs/heads/b", 2%N)] head [CommitEvent 1 (TxId 1) 2%N; rewrote 2 5].
Lemma bdemo_wf : wf_graph bdemo_graph.
Proof. repeat split; try (intros p Hp; revert Hp); try decide_it; set_solver. Qed.
Theorem c74_head_refuted : exists e ts tx r d,
  restackable e r /\ disk_silent e /\ main_stays e r /\ open_repo (re_hide e) (rr_repo r) = Some d /\
  rs_repo (restack_commits e ts tx d None r) = r /\ rs_ok (restack e ts tx None r) = true /\
  rs_out (restack e ts tx None r) = ["No abandoned commits to restack."; "Finished restacking branches."] /\
  hi_oid (hr_head (rr_repo (rs_repo (restack e ts tx None r)))) <> hi_oid (hr_head (rr_repo r)).
Proof.
  set (e := rdemo_env bdemo_graph (objects_in bdemo_graph) yes). set (r := bdemo (mk_head (Some 2%N) (Some "refs/heads/a"))).
  destruct (open_repo (re_hide e) (rr_repo r)) as [d|] eqn:Ed; [|exfalso; revert Ed; vm_compute; discriminate].
  exists e, 9, (TxId 9), r, d. split_and!.
  - apply rdemo_restackable; [exact bdemo_wf|vm_compute; reflexivity].
  - apply rdemo_silent.
  - split; [reflexivity|]. intros m new Hm Rw. assert (m = 1%N) as -> by (vm_compute in Hm; congruence).
    destruct (rewritten_in _ _ _ Rw) as (ts & tx & X). cbn in X. rewrite !elem_of_cons in X.
    destruct X as [X|[X|X]]; [discriminate X..|now apply elem_of_nil in X].
  - exact Ed.
  - apply restack_commits_nothing. injection Ed as <-. vm_compute. reflexivity.
  - vm_compute. reflexivity.
  - vm_compute. reflexivity.
  - vm_compute. discriminate.
Qed.

(** A restack that stops, because nothing can be picked. *)
Example c73_example_stopped :
  let e0 := rdemo_env rdemo_graph rdemo_objects yes in
  let x := re_exec e0 in
  let e := mk_re (re_hide e0) (mk_ee (ee_hash x) (fun c _ => if N.eqb c 4 then Conflict else MadeTree (c + 50)%N) (ee_amend x) (ee_stamp x) (ee_decodes x) (ee_head x))
    (re_upstream e0) (re_order e0) (re_sort e0) (re_iter e0) (re_disk e0) (re_checked_out e0) false false false false in
  exists d, open_repo (re_hide e) (rr_repo rdemo) = Some d /\ rs_ok (restack_commits e 9 (TxId 9) d None rdemo) = false /\
    size (rr_store (rs_repo (restack_commits e 9 (TxId 9) d None rdemo))) = 6%nat.
Proof.
  intros e0 x e. destruct (open_repo (re_hide e) (rr_repo rdemo)) as [d|] eqn:Ed; [|exfalso; revert Ed; vm_compute; discriminate].
  exists d. split; [reflexivity|]. injection Ed as <-. split; vm_compute; reflexivity.
Qed.

(** [a] cannot be written: [b] is moved, [a] is not. *)
Example c74_example :
  let e := rdemo_env bdemo_graph (objects_in bdemo_graph) (fun n => negb (String.eqb n "refs/heads/a")) in
  let r := bdemo (mk_head (Some 1%N) (Some "refs/heads/main")) in
  let res := restack_branches e 9 (TxId 9) r in
  let res' := restack_branches (rdemo_env bdemo_graph (objects_in bdemo_graph) yes) 9 (TxId 9) r in
  rs_ok res = false /\ rs_ok res' = true /\
  List.map (fun n : refname => hr_refs (rr_repo (rs_repo res)) !! n) ["refs/heads/main"; "refs/heads/a"; "refs/heads/b"] = [Some 1%N; Some 2%N; Some 5%N] /\
  List.map (fun n : refname => hr_refs (rr_repo (rs_repo res')) !! n) ["refs/heads/main"; "refs/heads/a"; "refs/heads/b"] = [Some 1%N; Some 5%N; Some 5%N].
Proof. split_and!; vm_compute; reflexivity. Qed.

Print Assumptions c73_moved.
Print Assumptions c73_recorded.
Print Assumptions c73_head.
Print Assumptions c73_none_left.
Print Assumptions c73_nothing.
Print Assumptions c73_again.
Print Assumptions c73_stopped.
Print Assumptions c73_dropped_refuted.
Print Assumptions c73_merge_refuted.
Print Assumptions c74_branches.
Print Assumptions c74_alone.
Print Assumptions c74_halfway.
Print Assumptions c74_head_refuted.
