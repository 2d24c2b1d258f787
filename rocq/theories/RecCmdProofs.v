(** Proofs about [git record]. *)
From Verif Require Import Base TextModel EventLogModel EventLogSpec EventLogProofs EvolveSpec
  DagModel DagSpec DagProofs DagCompProofs StrModel StrProofs HookModel PlanModel PlanSpec PlanProofs PlanBuildProofs PlanProps
  ExecModel ExecSpec ExecProofs ExecAfterProofs HideModel HideSpec HideProofs RestackModel RestackSpec RestackProofs
  TrailerModel NavModel NavSpec NavCheckoutProofs SyncModel SyncSpec SyncProofs MoveModel MoveSpec MoveProofs MoveReqProofs AmendModel RecCmdModel RecCmdSpec.
From Verif Require SnapModel.
Local Open Scope string_scope.
Local Open Scope list_scope.

(** ** Committing *)
Lemma kind_takes v a k : takes (rv_changes v) (rg_interactive a) k -> kind_of v a = k.
Proof. unfold kind_of. intros H. inversion H; subst; reflexivity. Qed.

Lemma commit_makes v k c r : usual v r -> rv_contents v k = Some c -> exists n r', git_commit v k r = Some (n, r') /\
  committed v r c n r' /\ heads_at r' (Some n) (hi_branch (hr_head (rr_repo r))) /\
  hr_refs (rr_repo r') = match hi_branch (hr_head (rr_repo r)) with Some b => <[b := n]> (hr_refs (rr_repo r)) | None => hr_refs (rr_repo r) end.
Proof.
  intros U Hc. unfold git_commit. rewrite Hc. destruct (add_object _ _ _) as [n st] eqn:E. pose proof E as E0.
  apply add_object_spec in E; [|apply (us_faithful _ _ U)|apply (us_named _ _ U)]. destruct E as (_ & S & _ & L).
  eexists n, _. split; [reflexivity|]. split; [|split; reflexivity]. constructor; cbn [rr_store log_more].
  - exists (new_object v c r). split; [exact L|]. repeat split.
  - intros o Ne. unfold add_object in E0. injection E0 as <- <-. destruct (rr_store r !! _); [reflexivity|]. now rewrite lookup_insert_ne by congruence.
  - exact S.
Qed.

(** ** Making the branch *)
Lemma head_state_of r : (hi_branch (hr_head r) = None -> is_Some (hi_oid (hr_head r))) ->
  (forall b, hi_branch (hr_head r) = Some b -> hr_refs r !! b = hi_oid (hr_head r)) ->
  exists s, head_state r = Some s /\ rs_refs s = hr_refs r /\ fst (get_head_info s) = hi_oid (hr_head r).
Proof.
  intros H B. unfold head_state. destruct (hr_head r) as [o [b|]]; cbn in *.
  - eexists. split; [reflexivity|]. split; [reflexivity|]. cbn. auto.
  - destruct (H eq_refl) as [o' ->]. eexists. split; [reflexivity|]. now split.
Qed.

Lemma create_here v s b o : fst (get_head_info s) = Some o -> rs_refs s !! (heads_prefix +:+ b : refname) = None ->
  check_out_commit (git_rev (rs_refs s)) (rv_auto v) s None (CheckoutArgs (Some b) false) =
  Some (RefState (OnBranch (heads_prefix +:+ b)) (<[(heads_prefix +:+ b : refname) := o]> (rs_refs s))).
Proof.
  intros Ho Hb. unfold check_out_commit, target_text.
  assert (P : forall t, (t = None \/ exists x, t = Some (render_suffix x) /\ local_branch x /\ rs_refs s !! x = Some o) ->
    git_checkout (git_rev (rs_refs s)) s t (CheckoutArgs (Some b) false) =
    Some (RefState (OnBranch (heads_prefix +:+ b)) (<[(heads_prefix +:+ b : refname) := o]> (rs_refs s)))).
  { intros t [->|(x & -> & [n ->] & Hx)]; unfold git_checkout.
    - rewrite Ho. cbn [ca_create ca_detach]. now rewrite Hb.
    - rewrite render_suffix_branch, Hx. cbn [ca_create ca_detach]. now rewrite Hb. }
  destruct (rv_auto v); apply P; [|now left]. unfold maybe_get_branch_name. rewrite Ho.
  destruct (branches_at s o) as [|x [|]] eqn:E; auto. right. exists x. split; [reflexivity|]. apply branches_at_elem. rewrite E. left.
Qed.

Lemma create_taken v s b o : rs_refs s !! (heads_prefix +:+ b : refname) = Some o ->
  check_out_commit (git_rev (rs_refs s)) (rv_auto v) s None (CheckoutArgs (Some b) false) = None.
Proof.
  intros Hb. unfold check_out_commit, git_checkout. destruct (target_text None) as [t w]. cbn [ca_create ca_detach]. rewrite Hb.
  repeat match goal with |- context [match ?x with _ => _ end] => destruct x; try reflexivity end.
Qed.

Lemma create_makes v b r : usual v r -> hr_refs (rr_repo r) !! (heads_prefix +:+ b : refname) = None ->
  exists r1, go_to v AfterCreate None (CheckoutArgs (Some b) false) r = Some r1 /\ usual v r1 /\ rr_store r1 = rr_store r /\
    heads_at r1 (hi_oid (hr_head (rr_repo r))) (Some (heads_prefix +:+ b)) /\
    forall n, n <> (heads_prefix +:+ b : refname) -> hr_refs (rr_repo r1) !! n = hr_refs (rr_repo r) !! n.
Proof.
  intros U Hb. destruct (head_state_of (rr_repo r)) as (s & Es & Er & Eo); [apply U|intros x Hx; now apply (us_branch _ _ U)|].
  unfold go_to. rewrite Es. destruct (hi_oid (hr_head (rr_repo r))) as [o|] eqn:Eh; cbn [ca_create].
  - rewrite (create_here v s b o Eo) by now rewrite Er. eexists. split; [reflexivity|].
    assert (G : get_head_info (RefState (OnBranch (heads_prefix +:+ b)) (<[(heads_prefix +:+ b : refname) := o]> (rs_refs s))) = (Some o, Some (heads_prefix +:+ b : refname))).
    { unfold get_head_info. cbn [rs_head rs_refs]. now rewrite lookup_insert. }
    unfold put_state. rewrite G. split; [|split; [reflexivity|split; [reflexivity|]]].
    + constructor; cbn [log_more rr_repo rr_store hr_head hr_refs hi_oid hi_branch]; [|discriminate|apply U|apply U].
      intros x [= <-]. cbn [rs_refs]. rewrite lookup_insert. split; [reflexivity|]. now exists b.
    + intros n Hn. cbn [log_more rr_repo hr_refs rs_refs]. rewrite lookup_insert_ne by congruence. now rewrite Er.
  - rewrite bool_decide_eq_true_2 by exact Hb. eexists. split; [reflexivity|].
    assert (G : get_head_info (RefState (OnBranch (heads_prefix +:+ b)) (rs_refs s)) = (None, Some (heads_prefix +:+ b : refname))).
    { unfold get_head_info. cbn [rs_head rs_refs]. now rewrite Er, Hb. }
    unfold put_state. rewrite G. split; [|split; [reflexivity|split; [reflexivity|]]].
    + constructor; cbn [log_more rr_repo rr_store hr_head hr_refs hi_oid hi_branch]; [|discriminate|apply U|apply U].
      intros x [= <-]. cbn [rs_refs]. rewrite Er. split; [exact Hb|]. now exists b.
    + intros n Hn. cbn [log_more rr_repo hr_refs rs_refs]. now rewrite Er.
Qed.
Lemma create_fails v b r o : hr_refs (rr_repo r) !! (heads_prefix +:+ b : refname) = Some o ->
  go_to v AfterCreate None (CheckoutArgs (Some b) false) r = None.
Proof.
  intros Hb. unfold go_to. destruct (head_state (rr_repo r)) as [s|] eqn:E; [|reflexivity].
  assert (Er : rs_refs s = hr_refs (rr_repo r)).
  { revert E. unfold head_state. destruct (hr_head (rr_repo r)) as [[?|] [?|]]; intros [= <-]; reflexivity. }
  rewrite (create_taken v s b o) by now rewrite Er. destruct (hi_oid _); [reflexivity|]. cbn [ca_create].
  rewrite bool_decide_eq_false_2; [reflexivity|]. rewrite Hb. discriminate.
Qed.

(** ** The whole *)
Lemma record_commits v ts tx a r c : can_commit v a c ->
  record v ts tx a r =
  match (match rg_create a with Some b => go_to v AfterCreate None (CheckoutArgs (Some b) false) r | None => Some r end) with
  | None => mk_rr r None None CreateFails
  | Some r1 =>
      match git_commit v (kind_of v a) r1 with
      | None => mk_rr r1 None None CommitFails
      | Some (n, r2) =>
              let finish r := 
                if rg_insert a then
                  let '(r', rw, x) := insert_before_siblings (rv_restack v) ts tx r in mk_rr r' (Some n) rw (RecordedAndInserted x)
                else mk_rr r (Some n) None Recorded in
              if (rg_detach a || rg_stash a)%bool then
                match put_back v r2 with
                | None => mk_rr r2 (Some n) None PutBackFails
                | Some r3 =>
                    if rg_stash a then
                      match back_target (hr_head (rr_repo r2)) with
                      | None => finish r3
                      | Some t =>
                          match go_to v AfterSwitch (Some t) no_args r3 with
                          | None => mk_rr r3 (Some n) None SwitchFails
                          | Some r4 => finish r4
                          end
                      end
                    else finish r3
                end
              else finish r2
      end
  end.
Proof.
  intros (k & T & _). unfold record. inversion T as [E1 E2 E3|E1 E2 E3|E1 E2 E3]; rewrite ?andb_false_r, ?andb_true_r; cbn [andb]; reflexivity.
Qed.

Lemma record_here v ts tx a r c : usual v r -> can_commit v a c -> rg_create a = None -> rg_detach a = false -> rg_stash a = false -> rg_insert a = false ->
  exists n r', record v ts tx a r = mk_rr r' (Some n) None Recorded /\ committed v r c n r' /\
    heads_at r' (Some n) (hi_branch (hr_head (rr_repo r))) /\
    hr_refs (rr_repo r') = match hi_branch (hr_head (rr_repo r)) with Some b => <[b := n]> (hr_refs (rr_repo r)) | None => hr_refs (rr_repo r) end.
Proof.
  intros U C E1 E2 E3 E4. rewrite (record_commits v ts tx a r c C), E1, E2, E3, E4. destruct C as (k & T & Hc). rewrite (kind_takes v a k T).
  destruct (commit_makes v k c r U Hc) as (n & r' & -> & H). exists n, r'. cbn. auto.
Qed.

Lemma record_create v ts tx a r c b : usual v r -> can_commit v a c -> rg_create a = Some b -> rg_detach a = false -> rg_stash a = false -> rg_insert a = false ->
  hr_refs (rr_repo r) !! ("refs/heads/" +:+ b : refname) = None ->
  exists n r', record v ts tx a r = mk_rr r' (Some n) None Recorded /\ committed v r c n r' /\
    heads_at r' (Some n) (Some ("refs/heads/" +:+ b)) /\ only_ref r r' ("refs/heads/" +:+ b) (Some n).
Proof.
  intros U C E1 E2 E3 E4 Hb. rewrite (record_commits v ts tx a r c C), E1, E2, E3, E4. destruct C as (k & T & Hc). rewrite (kind_takes v a k T).
  destruct (create_makes v b r U Hb) as (r1 & -> & U1 & S1 & H1 & O1). destruct (commit_makes v k c r1 U1 Hc) as (n & r' & -> & Cm & Hd & Rf).
  exists n, r'. cbn [orb]. split; [reflexivity|]. unfold heads_at in H1. rewrite H1 in Hd, Rf. cbn [hi_branch] in Hd, Rf. split; [|split; [exact Hd|]].
  - destruct Cm as [A B D]. rewrite S1 in *. rewrite H1 in A. cbn [hi_oid] in A. now constructor.
  - split; [rewrite Rf; apply lookup_insert|]. intros m Hm. rewrite Rf, lookup_insert_ne by (change heads_prefix with "refs/heads/"; congruence). now apply O1.
Qed.

Lemma put_back_here v r2 o b p x refs : hr_head (rr_repo r2) = mk_head (Some o) (Some b) -> rr_store r2 !! o = Some x ->
  commit_parents (ob_commit x) = [p] -> hr_refs (rr_repo r2) = <[b := o]> refs -> refs !! b = Some p -> (exists s, b = "refs/heads/" +:+ s) ->
  exists r3, put_back v r2 = Some r3 /\ rr_store r3 = rr_store r2 /\ heads_at r3 (Some o) None /\ hr_refs (rr_repo r3) = refs.
Proof.
  intros Hh Hx Hp Hr Hb [s ->]. unfold put_back. rewrite Hh, Hx, Hp. eexists. split; [reflexivity|]. unfold put_state, get_head_info. cbn [rs_head rs_refs].
  split; [reflexivity|]. split; [reflexivity|]. cbn [log_more rr_repo hr_refs rs_refs]. change "refs/heads/" with heads_prefix. rewrite render_suffix_branch, Hr.
  change "refs/heads/" with heads_prefix. rewrite insert_insert. now apply insert_id.
Qed.

Lemma record_detach v ts tx a r c p : usual v r -> can_commit v a c -> rg_create a = None -> rg_detach a = true -> rg_stash a = false -> rg_insert a = false ->
  hi_oid (hr_head (rr_repo r)) = Some p -> rv_merging v = [] ->
  exists n r', record v ts tx a r = mk_rr r' (Some n) None Recorded /\ committed v r c n r' /\ heads_at r' (Some n) None /\ same_refs r r'.
Proof.
  intros U C E1 E2 E3 E4 Hp Mg. rewrite (record_commits v ts tx a r c C), E1, E2, E3, E4. destruct C as (k & T & Hc). rewrite (kind_takes v a k T).
  destruct (commit_makes v k c r U Hc) as (n & r2 & -> & Cm & Hd & Rf). cbn [orb]. unfold heads_at in Hd.
  destruct (hi_branch (hr_head (rr_repo r))) as [b|] eqn:Eb.
  - destruct (us_branch _ _ U b Eb) as [Rb Lb]. destruct (cm_parents _ _ _ _ _ Cm) as (x & Hx & Px & Rest). rewrite Hp, Mg in Px.
    rewrite Hp in Rb. destruct (put_back_here v r2 n b p x (hr_refs (rr_repo r)) Hd Hx Px Rf Rb Lb) as (r3 & -> & S3 & H3 & R3).
    exists n, r3. split; [reflexivity|]. split; [|split; [exact H3|exact R3]].
    destruct Cm as [A B D]. rewrite <- S3 in A, B, D. now constructor.
  - unfold put_back. rewrite Hd. exists n, r2. split; [reflexivity|]. split; [exact Cm|]. split; [exact Hd|exact Rf].
Qed.

Lemma record_stash v ts tx a r c p b : usual v r -> can_commit v a c -> rg_create a = None -> rg_detach a = false -> rg_stash a = true -> rg_insert a = false ->
  hr_head (rr_repo r) = mk_head (Some p) (Some b) -> rv_merging v = [] ->
  exists n r', record v ts tx a r = mk_rr r' (Some n) None Recorded /\ committed v r c n r' /\
    hr_head (rr_repo r') = hr_head (rr_repo r) /\ same_refs r r'.
Proof.
  intros U C E1 E2 E3 E4 Hp Mg. rewrite (record_commits v ts tx a r c C), E1, E2, E3, E4. destruct C as (k & T & Hc). rewrite (kind_takes v a k T).
  destruct (commit_makes v k c r U Hc) as (n & r2 & -> & Cm & Hd & Rf). cbn [orb]. unfold heads_at in Hd. rewrite Hp in Hd, Rf. cbn [hi_branch] in Hd, Rf.
  destruct (us_branch _ _ U b) as [Rb Lb]; [now rewrite Hp|]. rewrite Hp in Rb. cbn [hi_oid] in Rb.
  destruct (cm_parents _ _ _ _ _ Cm) as (x & Hx & Px & Rest). rewrite Hp, Mg in Px. cbn [hi_oid app] in Px.
  destruct (put_back_here v r2 n b p x (hr_refs (rr_repo r)) Hd Hx Px Rf Rb Lb) as (r3 & -> & S3 & H3 & R3).
  rewrite Hd. unfold back_target. unfold heads_at in H3. cbn [hi_branch hi_oid]. unfold go_to, head_state. rewrite H3. cbn [hi_oid hi_branch].
  assert (Ck : check_out_commit (git_rev (rs_refs (RefState (Detached n) (hr_refs (rr_repo r3))))) (rv_auto v)
    (RefState (Detached n) (hr_refs (rr_repo r3))) (Some (TRef b)) no_args = Some (RefState (OnBranch b) (hr_refs (rr_repo r3)))).
  { unfold check_out_commit, target_text. destruct (rv_auto v); [rewrite name_of_text|]; apply (checkout_branch _ (RefState (Detached n) (hr_refs (rr_repo r3))) p b); cbn [rs_refs]; rewrite ?R3; auto. }
  rewrite Ck. eexists n, _. split; [reflexivity|]. unfold put_state, get_head_info. cbn [rs_head rs_refs].
  split; [|split].
  - destruct Cm as [A B D]. rewrite <- S3 in A, B, D. now constructor.
  - cbn [log_more rr_repo hr_head]. rewrite R3, Rb. now rewrite Hp.
  - exact R3.
Qed.

(** ** Inserting *)
Section inserting.
Context (e : restack_env) (r : rrepo) (h : oid).
Let g := he_graph (re_hide e).
Let e1 := in_memory_only e.
Hypothesis I : insertable e r.
Hypothesis Hh : hi_oid (hr_head (rr_repo r)) = Some h.
Let R := it_order _ _ I.

Lemma ins_order : restackable e1 r.
Proof. destruct R as [A1 A2 A3 A4 A5 A6 A7 A8 A9 A10 A11 A12 A13]. now constructor. Qed.
Lemma ins_wf : wf_graph g. Proof. exact (graph_wf e r R). Qed.

(** Inserting is moving the siblings onto HEAD. *)
Definition sibling_args (s : commit_set) : move_args := mk_ma [s] (Some {[h]}) [] [] false false.
Definition as_insert (m : move_result) : rrepo * option (gmap oid moid) * insert_end :=
  (mv_repo m, mv_rewritten m,
   match mv_end m with
   | NothingToDo => NothingAbove
   | Moved => Inserted
   | NotMoved WouldRewritePublic => PublicAbove
   | NotMoved (PlanCycle _) => CycleAbove
   | NotMoved PlanIllegal => IllegalAbove
   | NotMoved _ => InsertFails
   | Declined c => ConflictAbove c
   | RebaseFailed => InsertFails
   end).

Lemma siblings_spec d c : open_repo (re_hide e) (rr_repo r) = Some d -> c ∈ siblings d h <-> sibling e r c.
Proof.
  intros Op. pose proof (dag_is e r d R Op) as G. unfold siblings, sibling. rewrite filter_visible_spec by (rewrite G; exact ins_wf).
  rewrite G, elem_of_difference, children_spec, elem_of_singleton, (shown_is e r d R Op). split.
  - intros [[(p & Hp & P) Ne] V]. split; [exact V|]. apply parents_spec in Hp. destruct Hp as (x & Hx & Px).
    apply elem_of_singleton in Hx. subst x. exists h, p. auto.
  - intros [V (x & p & Ex & Ne & P1 & P2)]. rewrite Hh in Ex. injection Ex as <-. split; [|exact V]. split; [|exact Ne].
    exists p. split; [|exact P2]. apply parents_spec. exists h. split; [now apply elem_of_singleton|exact P1].
Qed.

Context (d : dag).
Hypothesis Op : open_repo (re_hide e) (rr_repo r) = Some d.
Let s := siblings d h.
Let a := sibling_args s.

Lemma ins_given c : subtree_given g a r h c <-> sibling e r c.
Proof.
  rewrite <- (siblings_spec d c Op). fold s. unfold subtree_given, given_source, given_base, a, sibling_args. cbn [ma_sources ma_bases ma_exacts]. split.
  - intros [(x & Hx & Hc)|(b & [(x & Hx & _)|(X & _)] & _)]; [|now apply elem_of_nil in Hx|discriminate].
    apply elem_of_list_singleton in Hx. now subst x.
  - intros Hc. left. exists s. split; [apply elem_of_list_singleton; reflexivity|exact Hc].
Qed.
Lemma ins_single c p : sibling e r c -> parent g p c -> parents_of g c = [p].
Proof.
  intros Hc (ps & Hi & Hp). pose proof (it_merge _ _ I c Hc) as N. rewrite (parents_of_spec ∅ g c ps ins_wf Hi).
  destruct ps as [|x [|y ps]].
  - now apply elem_of_nil in Hp.
  - apply elem_of_list_singleton in Hp. now subst.
  - exfalso. apply N. exists (x :: y :: ps). split; [exact Hi|cbn; lia].
Qed.
Lemma ins_first c : to_move e1 r a h c <-> sibling e r c.
Proof.
  unfold to_move, first_of. change (he_graph (re_hide e1)) with g. rewrite ins_given. split; [intros [H _]; exact H|]. intros Hc. split; [exact Hc|].
  intros p P Hp. apply ins_given in Hp. pose proof Hc as (_ & h' & q & Eh & _ & P1 & P2). rewrite Hh in Eh. injection Eh as <-.
  pose proof (ins_single c p Hc P) as E1. rewrite (ins_single c q Hc P2) in E1. injection E1 as ->.
  apply (it_below _ _ I p h Hp Hh). eapply rtc_l; [exact P1|constructor].
Qed.
Lemma ins_movable : movable e1 r a h.
Proof.
  constructor.
  - exact ins_order.
  - split; [reflexivity|]. now left.
  - reflexivity.
  - repeat split.
  - intros b x [(y & Hy & _)|(X & _)]; [now apply elem_of_nil in Hy|discriminate].
  - intros c Hc. apply ins_first in Hc. apply Hc.
  - intros c Hc. apply ins_first in Hc. exact (it_merge _ _ I c Hc).
Qed.
Lemma ins_requests ps l : (forall c p, sibling e r c -> parent g p c -> p ∈ ps) -> (forall c, c ∈ l -> sibling e r c) ->
  sibling_requests (rr_store r) ps h l = Some (List.map (MoveSubtree [h]) l).
Proof.
  intros Hp. induction l as [|c l IH]; intros Hl; [reflexivity|]. cbn [sibling_requests List.map].
  rewrite IH by (intros x Hx; apply Hl; now right). assert (Hc : sibling e r c) by (apply Hl; left).
  pose proof Hc as (Sh & h' & p & Eh & _ & P1 & P2). 
  destruct (ra_store _ _ R c) as (x & -> & Px); [apply (SyncProofs.shown_known e r); [exact R|exact Sh]|].
  fold g in Px. rewrite Px, (ins_single c p Hc P2). cbn [List.map]. unfold instead_of. rewrite decide_True; [reflexivity|]. exact (Hp c p Hc P2).
Qed.

Lemma insert_is_move ts tx : insert_before_siblings e ts tx r = as_insert (move e1 ts tx a r).
Proof.
  destruct (sub_requests e1 r d a h ins_movable Op) as (s' & Hs & Rq).
  assert (s' = s) as ->.
  { apply set_eq. intros c. rewrite Hs. change (he_graph (re_hide e1)) with g. rewrite ins_given. symmetry. now apply siblings_spec. }
  assert (Er : roots (dag_graph d) s = s).
  { apply set_eq. intros c. rewrite (sub_first e1 r d a h ins_movable Op s Hs), ins_first. symmetry. now apply siblings_spec. }
  rewrite Er in Rq.
  destruct (ra_store _ _ R h) as (x & Hx & Px); [exact (io_head _ _ (ra_order _ _ R) _ Hh)|].
  unfold insert_before_siblings, move. fold e1. rewrite Hh. change (re_hide e1) with (re_hide e). rewrite Op, Hx. fold s.
  rewrite Hh in Rq. rewrite Rq. destruct (verify_rewrite_set d (re_force e1) s) as [allowed|]; [|reflexivity].
  rewrite (ins_requests (commit_parents (ob_commit x)) (re_order e1 s)).
  - destruct (build _ _ _ _) as [[]| |]; try reflexivity. destruct (run_plan _ _ _ _ _ _) as [r' [rw|c| |]]; reflexivity.
  - intros c p Hc P. rewrite Px. pose proof Hc as (_ & h' & q & Eh & _ & P1 & P2). rewrite Hh in Eh. injection Eh as <-.
    pose proof (ins_single c p Hc P) as E1. rewrite (ins_single c q Hc P2) in E1. injection E1 as ->. apply parent_parents_of; [exact ins_wf|exact P1].
  - intros c Hc. change (re_order e1) with (re_order e) in Hc. rewrite (ra_sets _ _ R), elem_of_elements in Hc. now apply siblings_spec in Hc.
Qed.

Lemma done_in_memory asked goes rw r' : move_done e1 r asked goes rw r' -> move_done e r asked goes rw r'.
Proof.
  intros [A1 [B1 B2 B3] A3 A4 A5 A6 A7 A8 A9]. constructor; auto. constructor; auto.
Qed.
Lemma insert_comes ts i : match snd (insert_before_siblings e ts (TxId i) r) with
  | Inserted => exists rw, insert_before_siblings e ts (TxId i) r = (fst (fst (insert_before_siblings e ts (TxId i) r)), Some rw, Inserted) /\
      move_done e r (sibling e r) (subtrees_onto g (sibling e r) h) rw (fst (fst (insert_before_siblings e ts (TxId i) r)))
  | ConflictAbove _ => left_alone r (fst (fst (insert_before_siblings e ts (TxId i) r)))
  | InsertFails => True
  | _ => fst (fst (insert_before_siblings e ts (TxId i) r)) = r
  end.
Proof.
  pose proof (sub_comes_to e1 r a h ins_movable ts i) as H. rewrite insert_is_move. unfold as_insert, comes_to in *. cbn [fst snd].
  destruct (mv_end _) as [| |[]| |]; auto. destruct H as (rw & E & D). exists rw. rewrite E. split; [reflexivity|]. apply done_in_memory.
  eapply move_done_ext; [| |exact D].
  - intros o _. setoid_rewrite ins_first. reflexivity.
  - intros p o _ _. unfold subtrees_onto. rewrite ins_first. auto.
Qed.
Lemma insert_ends ts i : workable e r -> match snd (insert_before_siblings e ts (TxId i) r) with
  | NothingAbove => forall c, ~ sibling e r c
  | PublicAbove => siblings_public e r
  | Inserted => True
  | ConflictAbove x => shown g (rr_repo r) x /\ (exists c, sibling e r c /\ ancestor g c x) /\
      (merge_commit g x \/ exists q, ee_pick (re_exec e) x q = Conflict)
  | _ => False
  end.
Proof.
  intros Wk. assert (Wk1 : workable e1 r) by (destruct Wk; now constructor).
  pose proof (sub_ends e1 r a h ins_movable ts i Wk1 (io_head _ _ (ra_order _ _ R) _ Hh)) as H. rewrite insert_is_move. unfold as_insert in *. cbn [snd].
  unfold goes_through in H. destruct (mv_end _) as [| |[]|x|]; auto; try contradiction.
  - intros c Hc. apply (H c). now apply ins_first.
  - destruct H as (_ & c & o & Hc & A & P). exists c, o. apply ins_first in Hc. auto.
  - destruct H as (c & Hc & A). apply ins_first in Hc. exact (it_below _ _ I c h Hc Hh A).
  - destruct H as (H1 & (c & Hc & A) & H3). split; [exact H1|]. split; [|exact H3]. exists c. apply ins_first in Hc. auto.
Qed.
Lemma insert_public ts tx : siblings_public e r -> insert_before_siblings e ts tx r = (r, None, PublicAbove).
Proof.
  intros (c & o & Hc & A & P). rewrite insert_is_move.
  rewrite (sub_refused_public e1 r a h ins_movable); [reflexivity|]. split; [reflexivity|]. exists c, o. split; [now apply ins_first|auto].
Qed.
End inserting.

(** HEAD's siblings are not below it, unless it is a merge. *)
Lemma siblings_not_below e r h : restackable e r -> hi_oid (hr_head (rr_repo r)) = Some h -> ~ merge_commit (he_graph (re_hide e)) h ->
  forall c, sibling e r c -> ~ ancestor (he_graph (re_hide e)) c h.
Proof.
  intros R Hh NM c (_ & h' & p & Eh & Ne & P1 & P2) A. pose proof (graph_wf e r R) as W. rewrite Hh in Eh. injection Eh as <-.
  apply rtc_inv_r in A. destruct A as [A|(q & A & Q)]; [congruence|].
  rewrite (only_one_parent _ h q p W NM Q P1) in A. apply (wf_acyclic _ p W). eapply tc_rtc_r; [apply tc_once; exact P2|exact A].
Qed.

(** Whether to insert matters at the very end only. *)
Lemma record_insert v ts tx a r : rg_insert a = true ->
  record v ts tx a r =
  let m := record v ts tx (without_insert a) r in
  match rc_end m with
  | Recorded => let '(r', rw, x) := insert_before_siblings (rv_restack v) ts tx (rc_repo m) in mk_rr r' (rc_new m) rw (RecordedAndInserted x)
  | _ => m
  end.
Proof.
  intros Ei. destruct a as [i cr de ins st]. cbn in Ei. subst ins. unfold record, without_insert.
  cbn [rg_interactive rg_create rg_detach rg_insert rg_stash].
  assert (K : kind_of v (mk_ra i cr de true st) = kind_of v (mk_ra i cr de false st)) by reflexivity. rewrite K.
  destruct (rv_changes v); try reflexivity.
  all: destruct (match cr with Some _ => _ | None => _ end) as [r1|]; [|reflexivity].
  all: destruct (i && _)%bool; [reflexivity|].
  all: destruct (git_commit _ _ _) as [[n r2]|]; [|reflexivity].
  all: destruct (de || st)%bool; [|reflexivity].
  all: destruct (put_back _ _) as [r3|]; [|reflexivity].
  all: destruct st; [|reflexivity].
  all: destruct (back_target _) as [t|]; [|reflexivity].
  all: destruct (go_to _ _ _ _ _) as [r4|]; reflexivity.
Qed.
