(** Properties C103 to C106: submitting to Phabricator. *)
From stdpp Require Import sorting relations countable.
From Verif Require Import Base TextModel EventLogModel EventLogSpec EventLogProofs EvolveModel EvolveSpec
  DagModel DagSpec DagProofs DagCompProofs StrModel StrProofs HookModel HookSpec PlanModel PlanSpec PlanProofs PlanBuildProofs PlanProps ExecModel ExecSpec ExecAfterProofs ExecProps
  HideModel HideSpec HideProofs HideProps RestackModel RestackSpec RestackProofs RestackProps SyncModel SyncSpec SyncProofs SyncProps
  MoveModel MoveSpec MoveProofs MoveProps ModeModel TreeModel SnapModel AmendModel AmendSpec AmendProofs RecCmdModel TestCacheModel FixModel FixSpec
  RewordCmdModel RewordCmdSpec SwapProofs SwapRunProofs RewordCmdProofs RewordCmdProps SubmitModel SubmitProofs PhabModel PhabSpec PhabProofs PhabRunProofs.
Local Open Scope string_scope.
Local Open Scope list_scope.
Local Open Scope N_scope.

(** ** C103 *)

(** The revision of a commit is the one that the first line with a link names, and there is none without such a line. *)
Theorem c103_link : forall e st c x i, st !! c = Some x -> get_revision_id e st c = Some (Some i) <-> text_links (ph_text e (ob_message x)) i.
Proof.
  intros e st c x i Hx. rewrite <- has_revision_get. unfold has_revision. split; [intros (y & Hy & L)|intros L; eauto]. rewrite Hx in Hy. now injection Hy as <-.
Qed.
Theorem c103_one : forall text i j, text_links text i -> text_links text j -> i = j.
Proof. exact text_links_unique. Qed.
Theorem c103_none : forall e st c x, st !! c = Some x -> get_revision_id e st c = Some None <->
  forall ls l i, lines_are (ph_text e (ob_message x)) ls -> l ∈ ls -> ~ links l i.
Proof.
  intros e st c x Hx. unfold get_revision_id. rewrite Hx. split.
  - intros [= N] ls l i Hl Hi Li. apply lines_unique in Hl. subst ls. apply elem_of_list_split in Hi. destruct Hi as (l1 & l2 & E). unfold id_in in N.
    apply id_in_line_spec in Li. rewrite E in N. clear -Li N. induction l1 as [|a l1 IH]; cbn in N; [rewrite Li in N; discriminate|]. destruct (id_in_line a); [discriminate|exact (IH N)].
  - intros H. f_equal. apply id_in_none. intros i (b & l & a & Hl & Li & _). apply (H _ l i Hl); [|exact Li]. apply elem_of_app. right. left.
Qed.
(** What comes after the first link does not matter. *)
Theorem c103_first : forall ls before line i, lines_are (joined ls) ls -> (forall l j, l ∈ before -> ~ links l j) -> links line i ->
  (exists after, ls = before ++ line :: after) -> text_links (joined ls) i.
Proof. intros ls before line i Hl Hb Hk (after & ->). exists before, line, after. auto. Qed.
Definition phd_text (m : N) : string :=
  match m with
  | 105 => "Change 5" +:+ newline +:+ newline +:+ "Differential Revision: D5"
  | 107 => "Change 7" +:+ newline +:+ newline +:+ "Differential Revision: https://phab.example.com/D7" +:+ newline
  | 108 => "Change 8" +:+ newline +:+ "Differential Revision: phab.example.com/D8" +:+ newline +:+ "Differential Revision: D9"
  | 109 => "Revert D7" +:+ newline +:+ newline +:+ "Differential Revision: D" +:+ newline +:+ "Differential Revision: /D7" +:+ newline +:+ "  Differential Revision: D7"
  | _ => "Change"
  end.
Example c103_example : text_links (phd_text 105) "5" /\ text_links (phd_text 107) "7" /\ text_links (phd_text 108) "8" /\ ~ text_links (phd_text 108) "9" /\
  (forall i, ~ text_links (phd_text 109) i) /\ (forall i, ~ text_links (phd_text 0) i).
Proof.
  assert (H8 : text_links (phd_text 108) "8") by (apply id_in_spec; vm_compute; reflexivity).
  split; [apply id_in_spec; vm_compute; reflexivity|]. split; [apply id_in_spec; vm_compute; reflexivity|]. split; [exact H8|].
  split; [intros H; pose proof (c103_one _ _ _ H8 H); discriminate|]. split; apply id_in_none; vm_compute; reflexivity.
Qed.

(** ** C104 *)

(** The status of a commit: up to date if its revision is for it, to be submitted if it has none, to be updated otherwise. *)
Theorem c104_status : forall e st sv l m c x, phab_statuses e st sv l = Some m -> (c, x) ∈ m ->
  (cs_status x = Unsubmitted <-> forall i, ~ has_revision e st c i) /\
  (cs_status x = UpToDate <-> exists i r, has_revision e st c i /\ sv !! i = Some r /\ is_for r c) /\
  (cs_status x = NeedsUpdate <-> exists i, has_revision e st c i /\ forall r, sv !! i = Some r -> ~ is_for r c).
Proof.
  intros e st sv l m c x E H. pose proof (phab_statuses_spec e st sv l) as S. rewrite E in S. destruct S as [Th ->]. apply elem_of_list_In, in_map_iff in H. destruct H as (c' & Ec & Hc). injection Ec as -> <-. cbn [cs_status].
  apply elem_of_list_In, Th in Hc. split; [now apply status_unsubmitted|]. split; [apply status_up_to_date|now apply status_needs].
Qed.
(** There is one for every commit that can be read. *)
Theorem c104_all : forall e st sv l, (forall c, c ∈ l -> is_Some (st !! c)) -> exists m, phab_statuses e st sv l = Some m /\ List.map fst m = l.
Proof.
  intros e st sv l H. pose proof (phab_statuses_spec e st sv l) as S. destruct (phab_statuses e st sv l) as [m|].
  - destruct S as [_ ->]. eexists. split; [reflexivity|]. rewrite map_map. cbn. apply map_id.
  - destruct S as (c & Hc & N). destruct (H c Hc). congruence.
Qed.
Lemma unlinked_set e r (commits : commit_set) : (forall c, c ∈ commits -> is_Some (rr_store r !! c)) -> exists new : commit_set, forall c, c ∈ new <-> is_unlinked e r commits c.
Proof.
  intros Th. exists (list_to_set (List.filter (fun c => bool_decide (get_revision_id e (rr_store r) c = Some None)) (elements commits))). intros c.
  rewrite elem_of_list_to_set, elem_of_list_In, filter_In, bool_decide_eq_true, <- elem_of_list_In, elem_of_elements. unfold is_unlinked. split; intros [Hc H]; (split; [exact Hc|]).
  - intros i Hi. apply has_revision_get in Hi. congruence.
  - destruct (Th c Hc) as [x Hx]. unfold get_revision_id. rewrite Hx. f_equal. apply id_in_none. intros i Hi. apply (H i). exists x. auto.
Qed.
(** Updating, if it ends well: the revisions of the commits that were out of date are for them and depend on those of
    their parents; other revisions, references, the log and HEAD stay. *)
Theorem c104_updated : forall e r sv commits changed ts i, rewordable (ph_restack e) r commits -> (forall c, c ∈ changed <-> out_of_date e r sv commits c) ->
  sorts e -> own_revisions e (rr_store r) changed -> told_apart sv ->
  arc_updates e (ph_sort e (rr_store r) changed) (rr_store r) sv (ph_arc_update e (ph_sort e (rr_store r) changed) (rr_store r) sv) ->
  (forall v i ids, ph_edit e v i ids <> EditIgnored) ->
  let res := submit_phab e ts (TxId i) false false commits (mk_phab r sv) in pr_end res = ForgeDone ->
  (forall c, c ∈ changed -> ~ is_public (ph_restack e) r c) /\ only_commits r (pb_repo (pr_phab res)) /\ brought_up e r changed sv (pb_server (pr_phab res)).
Proof.
  intros e r sv commits changed ts i A Ch So Ow Ta Au Ed res. unfold res. destruct (unlinked_set e r commits (sb_present e r commits A)) as [new New].
  destruct (sb_open e r commits A) as [d Op]. rewrite (sb_eq e r commits sv ts i A new changed New Ch false d Op). cbn [cd_end cd_phab cd_statuses].
  destruct (update_revisions e d changed (mk_phab r sv)) as [p2 en] eqn:Eu. destruct en; cbn [pr_end]; try discriminate. intros _. cbn [pr_phab].
  assert (A' : rewordable (ph_restack e) r changed) by (apply (rewordable_less _ _ _ _ A); intros c Hc; apply Ch in Hc; apply Hc).
  destruct (up_done e r d changed sv A' Op So Ow Ta Au p2 Ed Eu) as (H1 & H2 & H3 & H4). split; [exact H1|]. split; [split; assumption|exact H4].
Qed.
(** It goes through if there were no cycles, [arc diff] works, the server refuses cycles only, and parents with revisions are
    out of date as well; there are no cycles then. *)
Theorem c104_through : forall e r sv commits changed ts i, rewordable (ph_restack e) r commits -> (forall c, c ∈ changed <-> out_of_date e r sv commits c) ->
  sorts e -> own_revisions e (rr_store r) changed -> told_apart sv ->
  let run := ph_arc_update e (ph_sort e (rr_store r) changed) (rr_store r) sv in
  arc_updates e (ph_sort e (rr_store r) changed) (rr_store r) sv run -> ar_aborted run = false -> (forall x, x ∈ ar_outs run -> it_passed (snd x)) ->
  parents_first e (ar_store run) changed -> accepts e -> no_cycle sv -> (forall c, c ∈ changed -> ~ is_public (ph_restack e) r c) ->
  (forall c q j, c ∈ changed -> parent (he_graph (re_hide (ph_restack e))) q c -> is_draft e r q -> has_revision e (rr_store r) q j -> is_Some (sv !! j) -> q ∈ changed) ->
  let res := submit_phab e ts (TxId i) false false commits (mk_phab r sv) in
  pr_end res = ForgeDone /\ only_commits r (pb_repo (pr_phab res)) /\ brought_up e r changed sv (pb_server (pr_phab res)) /\ no_cycle (pb_server (pr_phab res)).
Proof.
  intros e r sv commits changed ts i A Ch So Ow Ta run Au Na Ps Pf Ac Nc Np Cl res. unfold res. destruct (unlinked_set e r commits (sb_present e r commits A)) as [new New].
  destruct (sb_open e r commits A) as [d Op]. rewrite (sb_eq e r commits sv ts i A new changed New Ch false d Op). cbn [cd_end cd_phab cd_statuses].
  assert (A' : rewordable (ph_restack e) r changed) by (apply (rewordable_less _ _ _ _ A); intros c Hc; apply Ch in Hc; apply Hc).
  destruct (up_through e r d changed sv A' Op So Ow Ta Au Ac Pf Nc Np Na Ps Cl) as (p' & -> & H1 & H2 & H3 & H4). cbn [pr_end pr_phab]. split; [reflexivity|]. split; [split; assumption|]. split; assumption.
Qed.

(** ** C105 *)

(** Creating and updating, if it ends well: commits without a revision have one of their own then, with a link to it in
    their message, and those above go along; the others are updated as in C104. *)
Theorem c105_created : forall e r sv commits new changed ts i, rewordable (ph_restack e) r commits ->
  (forall c, c ∈ new <-> is_unlinked e r commits c) -> (forall c, c ∈ changed <-> out_of_date e r sv commits c) ->
  sorts e -> own_revisions e (rr_store r) changed ->
  arc_creates e (ph_sort e (rr_store r) new) (rr_store r) sv (ph_arc_create e (ph_sort e (rr_store r) new) (rr_store r) sv) ->
  (forall st v, rr_store r ⊆ st -> arc_updates e (ph_sort e st changed) st v (ph_arc_update e (ph_sort e st changed) st v)) ->
  (forall v i ids, ph_edit e v i ids <> EditIgnored) ->
  let res := submit_phab e ts (TxId i) true false commits (mk_phab r sv) in pr_end res = ForgeDone -> exists c,
  ((new = ∅ /\ only_commits r (pb_repo (cd_phab c)) /\ sv ⊆ pb_server (cd_phab c) /\ cd_statuses c = []) \/
   ((forall o, o ∈ new -> ~ is_public (ph_restack e) r o /\ parents_of (he_graph (re_hide (ph_restack e))) o <> []) /\ made_revisions e r new sv c)) /\
  only_commits (pb_repo (cd_phab c)) (pb_repo (pr_phab res)) /\
  brought_up e (mk_rrepo (rr_store (pb_repo (cd_phab c))) (rr_repo r)) changed (pb_server (cd_phab c)) (pb_server (pr_phab res)) /\
  (forall n, n ∈ pr_submitted res <-> exists o y j, (o, (y, j)) ∈ cd_statuses c /\ n = "D" +:+ j).
Proof.
  intros e r sv commits new changed ts i A New Ch So Ow Acr Au Ed res. unfold res. destruct (sb_open e r commits A) as [d Op].
  rewrite (sb_eq e r commits sv ts i A new changed New Ch true d Op). set (c := create_revisions e ts (TxId i) d new (mk_phab r sv)).
  assert (A1 : rewordable (ph_restack e) r new) by (apply (rewordable_less _ _ _ _ A); intros o Ho; apply New in Ho; apply Ho).
  pose proof (cr_spec e r d new sv ts i A1 Op So Acr Ed) as S. fold c in S. pose proof (cr_statuses_empty e ts (TxId i) d new (mk_phab r sv)) as Se. fold c in Se.
  destruct c as [[r1 v1] rw ms en] eqn:Ec. cbn [cd_end cd_phab cd_statuses]. destruct en; cbn [pr_end]; try discriminate. cbn [pb_server pb_repo] in S. destruct S as (Ta1 & Nm1 & S).
  destruct (update_revisions e d changed (mk_phab r1 v1)) as [p2 en] eqn:Eu. destruct en; cbn [pr_end]; try discriminate. intros _. cbn [pr_phab pr_submitted].
  assert (Gr : rr_store r ⊆ rr_store r1). { destruct S as [(_ & [_ G] & _)|(_ & _ & M)]; [exact G|apply (ga_store _ _ _ _ (mr_along _ _ _ _ _ M))]. }
  set (r' := mk_rrepo (rr_store r1) (rr_repo r)).
  assert (R' : restackable (ph_restack e) r') by (apply restackable_more; [apply A|exact Gr|exact Nm1]).
  assert (A' : rewordable (ph_restack e) r' changed). { constructor; [exact R'|]. intros o Ho. apply (rb_given _ _ _ A). apply Ch in Ho. apply Ho. }
  assert (Ow' : own_revisions e (rr_store r') changed).
  { intros o o' k Ho Ho' H H'. apply (Ow o o' k Ho Ho'); (apply (has_revision_back e (rr_store r) (rr_store r1)); [exact Gr| |assumption]); apply (sb_present e r commits A); [apply Ch in Ho; apply Ho|apply Ch in Ho'; apply Ho']. }
  destruct r1 as [st1 rp1]. pose proof (update_repo e d changed st1 rp1 (rr_repo r) v1 p2 ForgeDone Eu) as Eu'.
  destruct (up_done e r' d changed v1 A' Op So Ow' Ta1 (Au _ v1 Gr) _ Ed Eu') as (_ & _ & H3 & H4). cbn [pb_repo pb_server rr_store] in H3, H4.
  exists (mk_created (mk_phab (mk_rrepo st1 rp1) v1) rw ms ForgeDone). cbn [cd_phab cd_statuses pb_repo pb_server rr_store]. split; [|split; [|split]].
  - destruct S as [(En & Oc & Ev)|(Np & _ & M)]; [left|right; split; assumption]. split; [exact En|]. split; [exact Oc|]. split; [rewrite Ev; apply (ac_others _ _ _ _ _ Acr)|].
    apply Se; [reflexivity|]. intros o Ho. apply (proj2 (So _ _)) in Ho. rewrite En in Ho. set_solver.
  - pose proof (update_repo e d changed st1 rp1 rp1 v1 p2 ForgeDone Eu) as E. rewrite Eu in E. injection E as E. split; [now rewrite E|exact H3].
  - exact H4.
  - intros n. rewrite sorted_elem. rewrite elem_of_list_In, in_map_iff. split.
    + intros ((o & y & j) & <- & H). exists o, y, j. split; [now apply elem_of_list_In|reflexivity].
    + intros (o & y & j & H & ->). exists (o, (y, j)). split; [reflexivity|now apply elem_of_list_In].
Qed.
(** Creating, if it does not end well: references, the log and HEAD stay unless only setting dependencies failed, and why. *)
Theorem c105_otherwise : forall e r sv new d ts i, rewordable (ph_restack e) r new -> open_repo (re_hide (ph_restack e)) (rr_repo r) = Some d -> sorts e ->
  let run := ph_arc_create e (ph_sort e (rr_store r) new) (rr_store r) sv in
  arc_creates e (ph_sort e (rr_store r) new) (rr_store r) sv run -> (forall v i ids, ph_edit e v i ids <> EditIgnored) ->
  workable (ph_restack e) r -> arc_text e run ->
  let c := create_revisions e ts (TxId i) d new (mk_phab r sv) in
  match cd_end c with
  | ForgeDone => True
  | ForgeEdit => goes_along (ph_restack e) r (cd_rewritten c) (pb_repo (cd_phab c))
  | ForgePublic => cd_phab c = mk_phab r sv /\ exists o, o ∈ new /\ is_public (ph_restack e) r o
  | en => left_alone r (pb_repo (cd_phab c)) /\ pb_server (cd_phab c) = ar_server run /\
      match en with
      | ForgePanics => exists o, o ∈ new /\ parents_of (he_graph (re_hide (ph_restack e))) o = []
      | ForgeAborted => ar_aborted run = true
      | ForgeUploadFailed => exists o x, (o, x) ∈ ar_outs run /\ ~ it_passed x
      | ForgeMerge o => plain_picks (re_exec (ph_restack e)) (rr_store r) -> is_above (ph_restack e) r new o /\ merge_commit (he_graph (re_hide (ph_restack e))) o
      | _ => False
      end
  end.
Proof.
  intros e r sv new d ts i A Op So run Acr Ed Wk At c. pose proof (cr_spec e r d new sv ts i A Op So Acr Ed) as S. fold c in S.
  assert (O : forall r', only_commits r r' -> left_alone r r'). { intros r' [Er Es]. constructor; [exact Es|now rewrite Er..]. }
  destruct c as [p' rw ms en]. cbn [cd_end cd_phab cd_rewritten]. destruct en; try contradiction.
  - exact I.
  - destruct S as [H ->]. split; [reflexivity|exact H].
  - destruct (S (conj Wk At)).
  - destruct S as (H & Oc & Es). auto.
  - destruct S as (H & Oc & Es). auto.
  - destruct S as (H & Oc & Es). auto.
  - destruct S as (La & Es & H). split; [exact La|]. split; [exact Es|]. intros Pp. exact (H Wk At Pp).
  - destruct (S (conj Wk At)).
  - exact S.
Qed.

(** ** C106 *)

(** Nothing is ever said about commits that were updated, skipped or left out. *)
Theorem c106_silent : forall e ts tx create_ dry_run commits p, let res := submit_phab e ts tx create_ dry_run commits p in
  pr_updated res = [] /\ pr_skipped res = [] /\ pr_unsubmitted res = [].
Proof.
  intros e ts tx create_ dry_run commits p res. unfold res, submit_phab. destruct (open_repo _ _) as [d|]; [|auto].
  pose proof (phab_statuses_spec e (rr_store (pb_repo p)) (pb_server p) (elements commits)) as S. destruct (phab_statuses _ _ _ _) as [m|]; [|auto]. destruct S as [_ Em].
  assert (N : forall s, names_of (List.map snd (of_status s m)) = []).
  { intros s. rewrite Em. clear Em. unfold names_of, of_status. induction (elements commits) as [|c l IH]; [reflexivity|]. cbn. destruct (bool_decide _); cbn; exact IH. }
  cbn zeta. rewrite !N. change (sorted_names []) with (@nil string).
  match goal with |- context [match cd_end ?c with _ => _ end] => destruct (cd_end c); try (split_and!; reflexivity) end.
  match goal with |- context [match ?u with (p2, _) => _ end] => destruct u as [p2 en] end.
  destruct en; split_and!; try reflexivity. destruct create_; reflexivity.
Qed.
(** With --dry-run nothing changes, and nothing is said at all. *)
Theorem c106_dry_run : forall e ts tx create_ commits p, let res := submit_phab e ts tx create_ true commits p in
  pr_phab res = p /\ pr_submitted res = [].
Proof.
  intros e ts tx create_ commits p res. unfold res, submit_phab. destruct (open_repo _ _) as [d|]; [|auto].
  pose proof (phab_statuses_spec e (rr_store (pb_repo p)) (pb_server p) (elements commits)) as S. destruct (phab_statuses _ _ _ _) as [m|]; [|auto]. destruct S as [_ Em].
  assert (N : forall s, names_of (List.map snd (of_status s m)) = []).
  { intros s. rewrite Em. clear Em. unfold names_of, of_status. induction (elements commits) as [|c l IH]; [reflexivity|]. cbn. destruct (bool_decide _); cbn; exact IH. }
  cbn [negb]. rewrite Bool.andb_false_r. cbn [cd_end cd_phab pr_phab pr_submitted]. rewrite !N. split; [reflexivity|]. destruct create_; reflexivity.
Qed.

(** ** Demonstrations *)

Definition phd_sort (st : store) (s : commit_set) : list oid := merge_sort N.le (elements s).
(** [arc diff] updates the revisions named by the commits. *)
Definition phd_revise (st : store) (c : oid) (v : server) : server :=
  match st !! c with
  | Some x => match id_in (phd_text (ob_message x)) with
              | Some i => alter (fun r => mk_rev (rv_phid r) [("gtcm", Some c)] (rv_depends r)) i v
              | None => v
              end
  | None => v
  end.
Definition phd_update (l : list oid) (st : store) (sv : server) : arc_run :=
  mk_run st (foldr (phd_revise st) sv l) false (List.map (fun c => (c, OPassed false (mk_fi None None) false)) l).
(** The server refuses revisions that depend on each other. *)
Definition phd_edit (v : server) (i : string) (ids : list N) : edit_answer :=
  let l := map_to_list (alter (fun r => mk_rev (rv_phid r) (rv_hashes r) ids) i v) in
  if existsb (fun x => existsb (fun y => (bool_decide (rv_phid (snd y) ∈ rv_depends (snd x)) && bool_decide (rv_phid (snd x) ∈ rv_depends (snd y)))%bool) l) l
  then EditFailed else EditDone.
Definition phd_env (g : graph) (st : store) (names : list (oid * object)) (create : list oid -> store -> server -> arc_run) (edit : server -> string -> list N -> edit_answer) : phab_env :=
  mk_ph (rwd_env g st names) phd_text phd_sort create phd_update edit.
Lemma phd_sorts g st names create edit : sorts (phd_env g st names create edit).
Proof. intros st' s. cbn [phd_env ph_sort]. unfold phd_sort. rewrite merge_sort_Permutation. split; [apply NoDup_elements|]. intros c. rewrite merge_sort_Permutation. apply elem_of_elements. Qed.
Lemma phd_accepts g st names create : accepts (phd_env g st names create phd_edit).
Proof.
  intros v i ids Ta Nc. cbn [phd_env ph_edit]. unfold phd_edit. destruct (existsb _ _) eqn:E; [|reflexivity]. exfalso. apply existsb_exists in E. destruct E as ([a x] & Ha & E). apply existsb_exists in E. destruct E as ([b y] & Hb & E).
  apply andb_prop in E. destruct E as [E1 E2]. apply bool_decide_eq_true in E1, E2. apply elem_of_list_In, elem_of_map_to_list in Ha, Hb. cbn in E1, E2.
  apply (Nc a). apply (tc_l _ a b a); [exists x, y; auto|apply tc_once; exists y, x; auto].
Qed.
Lemma phd_edits v i ids : phd_edit v i ids <> EditIgnored.
Proof. unfold phd_edit. destruct (existsb _ _); discriminate. Qed.
Lemma phd_updates g st0 names create edit l st sv : let e := phd_env g st0 names create edit in NoDup l ->
  (forall c c' i, c ∈ l -> c' ∈ l -> has_revision e st c i -> has_revision e st c' i -> c = c') -> arc_updates e l st sv (phd_update l st sv).
Proof.
  intros e Nd Ow. set (upd := fun c (r : revision) => mk_rev (rv_phid r) [("gtcm", Some c)] (rv_depends r)).
  assert (H : (forall i, (forall c, c ∈ l -> ~ has_revision e st c i) -> foldr (phd_revise st) sv l !! i = sv !! i) /\
    forall c i, c ∈ l -> has_revision e st c i -> foldr (phd_revise st) sv l !! i = upd c <$> sv !! i).
  { induction l as [|a l IH]; [split; [reflexivity|]; intros c i Hc; now apply elem_of_nil in Hc|]. apply NoDup_cons in Nd. destruct Nd as [Na Nd].
    destruct (IH Nd (fun c c' i Hc Hc' => Ow c c' i ltac:(now right) ltac:(now right))) as [I1 I2]. cbn [foldr].
    assert (Ca : forall v, (exists k, has_revision e st a k /\ phd_revise st a v = alter (upd a) k v) \/ ((forall k, ~ has_revision e st a k) /\ phd_revise st a v = v)).
    { intros v. unfold phd_revise. destruct (st !! a) as [x|] eqn:Ex.
      - destruct (id_in (phd_text (ob_message x))) as [k|] eqn:Ek; [left; exists k; split; [exists x; split; [exact Ex|now apply id_in_spec]|reflexivity]|right; split; [|reflexivity]].
        intros k (y & Hy & L). rewrite Ex in Hy. injection Hy as <-. exact (proj1 (id_in_none _) Ek k L).
      - right. split; [|reflexivity]. intros k (y & Hy & _). congruence. }
    destruct (Ca (foldr (phd_revise st) sv l)) as [(k & Hk & ->)|[Nk ->]].
    - assert (Nl : forall c, c ∈ l -> ~ has_revision e st c k). { intros c Hc X. apply Na. rewrite (Ow a c k ltac:(left) ltac:(now right) Hk X). exact Hc. }
      split.
      + intros i Hi. rewrite alter_other by (intros ->; exact (Hi a ltac:(left) Hk)). apply I1. intros c Hc. apply Hi. now right.
      + intros c i Hc Hi. apply elem_of_cons in Hc. destruct Hc as [->|Hc].
        * rewrite (has_revision_unique _ _ _ _ _ Hi Hk), alter_here, (I1 k Nl). reflexivity.
        * rewrite alter_other by (intros ->; exact (Nl c Hc Hi)). exact (I2 c i Hc Hi).
    - split.
      + intros i Hi. apply I1. intros c Hc. apply Hi. now right.
      + intros c i Hc Hi. apply elem_of_cons in Hc. destruct Hc as [->|Hc]; [destruct (Nk i Hi)|exact (I2 c i Hc Hi)]. }
  destruct H as [H1 H2]. constructor; cbn [phd_update ar_store ar_server ar_outs].
  - reflexivity.
  - rewrite map_map. cbn. now rewrite map_id.
  - exact H1.
  - intros i r Hr. destruct (some_has e st l i) as [(c & Hc & Hi)|N].
    + rewrite (H2 c i Hc Hi), Hr. eexists. split; [reflexivity|]. split; reflexivity.
    + rewrite (H1 i N), Hr. eauto.
  - intros i Hi. destruct (some_has e st l i) as [(c & Hc & Hk)|N]; [now rewrite (H2 c i Hc Hk), Hi|now rewrite (H1 i N)].
  - intros c o i r Ho _ Hi Hr. apply elem_of_list_In, in_map_iff in Ho. destruct Ho as (c' & E & Hc). injection E as -> _. apply elem_of_list_In in Hc.
    rewrite (H2 c i Hc Hi) in Hr. destruct (sv !! i) as [q|]; [|discriminate]. injection Hr as <-. exists [], []. split; [reflexivity|]. intros h X. now apply elem_of_nil in X.
Qed.
Definition apart_b (sv : server) : bool := bool_decide (NoDup (List.map (fun x => rv_phid (snd x)) (map_to_list sv))).
Lemma apart_list (l : list (string * revision)) i j r q : NoDup (List.map (fun x => rv_phid (snd x)) l) -> (i, r) ∈ l -> (j, q) ∈ l -> rv_phid r = rv_phid q -> i = j.
Proof.
  induction l as [|[k x] l IH]; cbn; intros Nd Hi Hj E; [now apply elem_of_nil in Hi|]. apply NoDup_cons in Nd. destruct Nd as [N Nd].
  assert (In : forall k' y, (k', y) ∈ l -> rv_phid y ∈ List.map (fun x => rv_phid (snd x)) l) by (intros k' y H; apply elem_of_list_In, in_map_iff; exists (k', y); split; [reflexivity|now apply elem_of_list_In]).
  apply elem_of_cons in Hi, Hj. destruct Hi as [Hi|Hi], Hj as [Hj|Hj].
  - congruence.
  - injection Hi as <- <-. destruct N. rewrite E. exact (In j q Hj).
  - injection Hj as <- <-. destruct N. rewrite <- E. exact (In i r Hi).
  - exact (IH Nd Hi Hj E).
Qed.
Lemma apart_spec sv : apart_b sv = true -> told_apart sv.
Proof. unfold apart_b. rewrite bool_decide_eq_true. intros Nd i j r q Hi Hj E. apply elem_of_map_to_list in Hi, Hj. exact (apart_list _ i j r q Nd Hi Hj E). Qed.
Definition down_b (sv : server) : bool := forallb (fun x => forallb (fun n => N.ltb n (rv_phid (snd x))) (rv_depends (snd x))) (map_to_list sv).
Lemma down_spec sv : down_b sv = true -> no_cycle sv.
Proof.
  unfold down_b. rewrite forallb_forall. intros D.
  assert (S : forall i j, depends_on sv i j -> forall r q, sv !! i = Some r -> sv !! j = Some q -> rv_phid q < rv_phid r).
  { intros i j (r & q & Hr & Hq & In) r' q' Hr' Hq'. rewrite Hr in Hr'. injection Hr' as <-. rewrite Hq in Hq'. injection Hq' as <-.
    apply elem_of_map_to_list in Hr. specialize (D (i, r) (proj1 (elem_of_list_In _ _) Hr)). rewrite forallb_forall in D. apply N.ltb_lt, D, elem_of_list_In, In. }
  assert (T : forall i j, tc (depends_on sv) i j -> forall r q, sv !! i = Some r -> sv !! j = Some q -> rv_phid q < rv_phid r).
  { intros i j H. induction H as [i j H|i j k H _ IH]; [exact (S i j H)|]. intros r q Hr Hq. pose proof H as (_ & m & _ & Hm & _).
    pose proof (S i j H r m Hr Hm). pose proof (IH m q Hm Hq). lia. }
  intros i H. assert (X : exists r, sv !! i = Some r). { inversion H as [? ? (r & q & Hr & _)|? ? ? (r & q & Hr & _)]; eauto. }
  destruct X as [r Hr]. pose proof (T i i H r r Hr Hr). lia.
Qed.

Definition phd_chain : graph := [(1, []); (2, [1]); (3, [2]); (4, [3])].
(** 2 and 3 have the revisions 7 and 8, as numbered in the messages. *)
Definition phd_linked (m2 m3 m4 : N) : list (oid * object) :=
  [(1, object_in phd_chain 1); (2, mk_object (mk_commit [1] 12) 22 32 m2); (3, mk_object (mk_commit [2] 13) 23 33 m3); (4, mk_object (mk_commit [3] 14) 24 34 m4)].
Definition phd_none (l : list oid) (st : store) (sv : server) : arc_run := mk_run st sv false [].
Definition phd_sv : server := list_to_map [("7", mk_rev 71 [("gtcm", Some 90); ("gttr", Some 2)] []); ("8", mk_rev 72 [] []); ("5", mk_rev 75 [("gtcm", Some 4)] [71])].
Definition phd_has (st : store) (c : oid) (i : string) : bool := match st !! c with Some x => bool_decide (id_in (phd_text (ob_message x)) = Some i) | None => false end.
Lemma phd_has_spec g st0 names create edit st c i : phd_has st c i = true <-> has_revision (phd_env g st0 names create edit) st c i.
Proof.
  unfold phd_has, has_revision. cbn [phd_env ph_text]. destruct (st !! c) as [x|]; [|split; [discriminate|intros (y & H & _); discriminate]]. rewrite bool_decide_eq_true, id_in_spec. split; [eauto|].
  intros (y & [= <-] & H). exact H.
Qed.
(** For finitely many commits these can be computed. *)
Definition phd_id (st : store) (c : oid) : option string := match st !! c with Some x => id_in (phd_text (ob_message x)) | None => None end.
Lemma phd_id_spec g st0 names create edit st c i : has_revision (phd_env g st0 names create edit) st c i <-> phd_id st c = Some i.
Proof.
  unfold phd_id, has_revision. cbn [phd_env ph_text]. destruct (st !! c) as [x|]; [|split; [intros (y & H & _); discriminate|discriminate]]. rewrite id_in_spec. split; [|eauto].
  intros (y & [= <-] & H). exact H.
Qed.
Lemma phd_own g st0 names create edit st (s : commit_set) : bool_decide (NoDup (omap (phd_id st) (elements s))) = true -> own_revisions (phd_env g st0 names create edit) st s.
Proof.
  rewrite bool_decide_eq_true. intros Nd c c' i Hc Hc' H H'. apply phd_id_spec in H, H'. apply elem_of_elements in Hc, Hc'. revert Nd Hc Hc'. generalize (elements s) as l. intros l. induction l as [|a l IH]; [intros _ X; now apply elem_of_nil in X|].
  cbn. intros Nd Hc Hc'. apply elem_of_cons in Hc, Hc'.
  assert (In : forall b, b ∈ l -> phd_id st b = Some i -> i ∈ omap (phd_id st) l) by (intros b Hb E; apply elem_of_list_omap; eauto).
  destruct Hc as [->|Hc], Hc' as [->|Hc']; [reflexivity| | |].
  - rewrite H in Nd. apply NoDup_cons in Nd. destruct Nd as [N _]. destruct N. exact (In c' Hc' H').
  - rewrite H' in Nd. apply NoDup_cons in Nd. destruct Nd as [N _]. destruct N. exact (In c Hc H).
  - apply IH; [|exact Hc|exact Hc']. destruct (phd_id st a); [now apply NoDup_cons in Nd|exact Nd].
Qed.
Definition phd_old (st : store) (sv : server) (c : oid) : bool :=
  match phd_id st c with Some i => match sv !! i with Some r => bool_decide (hash_of r <> Some c) | None => true end | None => false end.
Lemma phd_old_spec g st0 names create edit r sv (commits : commit_set) c : c ∈ commits -> phd_old (rr_store r) sv c = true <-> out_of_date (phd_env g st0 names create edit) r sv commits c.
Proof.
  intros Hc. unfold phd_old, out_of_date. split.
  - intros H. split; [exact Hc|]. destruct (phd_id (rr_store r) c) as [i|] eqn:E; [|discriminate]. exists i. split; [now apply phd_id_spec|]. intros q Hq F. rewrite Hq in H. apply bool_decide_eq_true in H. now apply hash_of_spec in F.
  - intros [_ (i & Hi & N)]. apply phd_id_spec in Hi. rewrite Hi. destruct (sv !! i) as [q|] eqn:E; [|reflexivity]. apply bool_decide_eq_true. intros F. apply hash_of_spec in F. exact (N q eq_refl F).
Qed.
Lemma phd_changed g st0 names create edit r sv (commits changed : commit_set) : bool_decide (changed ⊆ commits) = true ->
  forallb (fun c => Bool.eqb (phd_old (rr_store r) sv c) (bool_decide (c ∈ changed))) (elements commits) = true ->
  forall c, c ∈ changed <-> out_of_date (phd_env g st0 names create edit) r sv commits c.
Proof.
  rewrite bool_decide_eq_true, forallb_forall. intros Sub H c. split.
  - intros Hc. pose proof (Sub c Hc) as Hi. apply phd_old_spec; [exact Hi|]. specialize (H c). rewrite <- elem_of_list_In, elem_of_elements in H. apply H, Bool.eqb_prop in Hi. rewrite Hi. now apply bool_decide_eq_true.
  - intros O. pose proof (proj1 O) as Hi. apply (phd_old_spec _ _ _ _ _ _ _ _ _ Hi) in O. specialize (H c). rewrite <- elem_of_list_In, elem_of_elements in H. apply H, Bool.eqb_prop in Hi. rewrite O in Hi. symmetry in Hi. now apply bool_decide_eq_true in Hi.
Qed.
Lemma phd_new g st0 names create edit r (commits new : commit_set) : bool_decide (new ⊆ commits) = true ->
  forallb (fun c => Bool.eqb (bool_decide (phd_id (rr_store r) c = None)) (bool_decide (c ∈ new))) (elements commits) = true ->
  forall c, c ∈ new <-> is_unlinked (phd_env g st0 names create edit) r commits c.
Proof.
  rewrite bool_decide_eq_true, forallb_forall. intros Sub H c. unfold is_unlinked. split.
  - intros Hc. pose proof (Sub c Hc) as Hi. split; [exact Hi|]. specialize (H c). rewrite <- elem_of_list_In, elem_of_elements in H. apply H, Bool.eqb_prop in Hi. rewrite (bool_decide_eq_true_2 _ Hc) in Hi. apply bool_decide_eq_true in Hi.
    intros i X. apply phd_id_spec in X. congruence.
  - intros [Hi N]. specialize (H c). rewrite <- elem_of_list_In, elem_of_elements in H. apply H, Bool.eqb_prop in Hi. symmetry in Hi. destruct (phd_id (rr_store r) c) as [i|] eqn:E; [destruct (N i); now apply phd_id_spec|].
    rewrite (bool_decide_eq_true_2 (None = None)) in Hi by reflexivity. now apply bool_decide_eq_true in Hi.
Qed.
Example c104_example :
  let st : store := list_to_map (phd_linked 107 108 44) in let e := phd_env phd_chain st (phd_linked 107 108 44) phd_none phd_edit in let r := rwd phd_chain st 4 [2; 3; 4] in
  let commits : commit_set := {[2; 3; 4]} in let changed : commit_set := {[2; 3]} in
  let run := ph_arc_update e (ph_sort e (rr_store r) changed) (rr_store r) phd_sv in
  let res := submit_phab e 9%Z (TxId 9%Z) false false commits (mk_phab r phd_sv) in
  (rewordable (ph_restack e) r commits /\ (forall c, c ∈ changed <-> out_of_date e r phd_sv commits c) /\ sorts e /\ own_revisions e (rr_store r) changed /\ told_apart phd_sv /\
   arc_updates e (ph_sort e (rr_store r) changed) (rr_store r) phd_sv run /\ (forall v i ids, ph_edit e v i ids <> EditIgnored)) /\
  (ar_aborted run = false /\ (forall x, x ∈ ar_outs run -> it_passed (snd x)) /\ parents_first e (ar_store run) changed /\ accepts e /\ no_cycle phd_sv /\
   (forall c, c ∈ changed -> ~ is_public (ph_restack e) r c) /\
   (forall c q j, c ∈ changed -> parent (he_graph (re_hide (ph_restack e))) q c -> is_draft e r q -> has_revision e (rr_store r) q j -> is_Some (phd_sv !! j) -> q ∈ changed)) /\
  pr_end res = ForgeDone /\ pb_server (pr_phab res) !! "7" = Some (mk_rev 71 [("gtcm", Some 2)] []) /\ pb_server (pr_phab res) !! "8" = Some (mk_rev 72 [("gtcm", Some 3)] [71]) /\
  depends_on (pb_server (pr_phab res)) "8" "7".
Proof.
  intros st e r commits changed run res.
  assert (A : rewordable (ph_restack e) r commits) by (apply rwd_rewordable; vm_compute; reflexivity).
  assert (Ch : forall c, c ∈ changed <-> out_of_date e r phd_sv commits c) by (apply phd_changed; vm_compute; reflexivity).
  assert (So : sorts e) by apply phd_sorts.
  assert (Ow : own_revisions e (rr_store r) changed) by (apply phd_own; vm_compute; reflexivity).
  assert (Ta : told_apart phd_sv) by (apply apart_spec; vm_compute; reflexivity).
  assert (Au : arc_updates e (ph_sort e (rr_store r) changed) (rr_store r) phd_sv run).
  { apply phd_updates; [apply So|]. intros c c' i Hc Hc'. apply (proj2 (So _ _)) in Hc, Hc'. now apply Ow. }
  assert (Ed : forall v i ids, ph_edit e v i ids <> EditIgnored) by apply phd_edits.
  assert (Dn : pr_end res = ForgeDone) by (vm_compute; reflexivity).
  destruct (c104_updated e r phd_sv commits changed 9%Z 9%Z A Ch So Ow Ta Au Ed Dn) as (Np & _ & _).
  split; [split_and!; assumption|]. split; [split_and!|].
  - reflexivity.
  - intros x Hx. unfold run in Hx. cbn [e phd_env ph_arc_update phd_update ar_outs] in Hx. apply elem_of_list_In, in_map_iff in Hx. destruct Hx as (c & <- & _). do 3 eexists. reflexivity.
  - intros l1 a l2 b l3 E (x & Hx & Hb). change (ph_sort e (ar_store run) changed) with [2; 3] in E.
    destruct l1 as [|? [|? l1]]; injection E as ? E; [|destruct l2; discriminate|destruct l1; discriminate]. destruct l2 as [|? l2]; injection E as ? E; [|destruct l2; discriminate]. subst a b.
    vm_compute in Hx. injection Hx as <-. cbn in Hb. apply elem_of_list_singleton in Hb. discriminate.
  - apply phd_accepts.
  - apply down_spec. vm_compute. reflexivity.
  - exact Np.
  - intros c q j _ _ _ Hq Hj. unfold e in Hq. apply phd_id_spec in Hq. unfold phd_id in Hq. destruct (rr_store r !! q) as [x|] eqn:Ex; [|discriminate].
    apply elem_of_list_to_map_2 in Ex. repeat (apply elem_of_cons in Ex; destruct Ex as [[= -> ->]|Ex]; [first [vm_compute in Hq; discriminate|apply elem_of_union; rewrite !elem_of_singleton; auto]|]). now apply elem_of_nil in Ex.
  - split; [exact Dn|]. split; [vm_compute; reflexivity|]. split; [vm_compute; reflexivity|]. eexists _, _. split; [vm_compute; reflexivity|]. split; [vm_compute; reflexivity|]. vm_compute. left.
Qed.
(** Without the last hypothesis of [c104_through] it may fail half way: after two commits were swapped, the dependency of
    the one that is not updated stays the other way around. *)
Theorem c104_cycle_refuted : exists e r sv commits ts i, rewordable (ph_restack e) r commits /\ sorts e /\ accepts e /\ told_apart sv /\ no_cycle sv /\
  (let run := ph_arc_update e (ph_sort e (rr_store r) commits) (rr_store r) sv in arc_updates e (ph_sort e (rr_store r) commits) (rr_store r) sv run /\ ar_aborted run = false /\ forall x, x ∈ ar_outs run -> it_passed (snd x)) /\
  (forall c, c ∈ commits <-> out_of_date e r sv commits c) /\
  let res := submit_phab e ts (TxId i) false false commits (mk_phab r sv) in pr_end res = ForgeEdit /\
  exists k, depends_on (pb_server (pr_phab res)) "8" "7" /\ has_revision e (rr_store r) 2 "8" /\ has_revision e (rr_store r) 3 "7" /\ pb_server (pr_phab res) !! "7" = Some k /\ is_for k 3.
Proof.
  set (st := list_to_map (phd_linked 108 107 44) : store). set (e := phd_env phd_chain st (phd_linked 108 107 44) phd_none phd_edit). set (r := rwd phd_chain st 4 [2; 3; 4]).
  set (sv := list_to_map [("7", mk_rev 71 [("gtcm", Some 90)] []); ("8", mk_rev 72 [("gtcm", Some 2)] [71])] : server).
  set (commits := {[3]} : commit_set).
  assert (Ow : own_revisions e (rr_store r) commits) by (apply phd_own; vm_compute; reflexivity).
  exists e, r, sv, commits, 9%Z, 9%Z. split; [apply rwd_rewordable; vm_compute; reflexivity|]. split; [apply phd_sorts|]. split; [apply phd_accepts|].
  split; [apply apart_spec; vm_compute; reflexivity|]. split; [apply down_spec; vm_compute; reflexivity|]. split; [split; [|split; [reflexivity|]]|split; [|split]].
  - apply phd_updates; [apply phd_sorts|]. intros c c' i Hc Hc'. apply (phd_sorts phd_chain st (phd_linked 108 107 44) phd_none phd_edit) in Hc, Hc'. now apply Ow.
  - intros x Hx. cbn [e phd_env ph_arc_update phd_update ar_outs] in Hx. apply elem_of_list_In, in_map_iff in Hx. destruct Hx as (c & <- & _). do 3 eexists. reflexivity.
  - apply phd_changed; vm_compute; reflexivity.
  - vm_compute. reflexivity.
  - exists (mk_rev 71 [("gtcm", Some 3)] []). split; [|split; [apply phd_id_spec; vm_compute; reflexivity|split; [apply phd_id_spec; vm_compute; reflexivity|split; [vm_compute; reflexivity|]]]].
    + eexists _, _. split; [vm_compute; reflexivity|]. split; [vm_compute; reflexivity|]. vm_compute. left.
    + exists [], []. split; [reflexivity|]. intros h X. now apply elem_of_nil in X.
Qed.
(** The answer to a request to edit is not read: one that was not followed counts as done. *)
Theorem c104_ignored_refuted : exists e r sv commits ts i, rewordable (ph_restack e) r commits /\ sorts e /\ told_apart sv /\ no_cycle sv /\
  let run := ph_arc_update e (ph_sort e (rr_store r) commits) (rr_store r) sv in arc_updates e (ph_sort e (rr_store r) commits) (rr_store r) sv run /\
  let res := submit_phab e ts (TxId i) false false commits (mk_phab r sv) in pr_end res = ForgeDone /\
  should_depend e r sv 3 "7" /\ has_revision e (rr_store r) 3 "8" /\ ~ depends_on (pb_server (pr_phab res)) "8" "7".
Proof.
  set (st := list_to_map (phd_linked 107 108 44) : store). set (e := phd_env phd_chain st (phd_linked 107 108 44) phd_none (fun _ _ _ => EditIgnored)). set (r := rwd phd_chain st 4 [2; 3; 4]).
  set (commits := {[2; 3]} : commit_set).
  assert (Ow : own_revisions e (rr_store r) commits) by (apply phd_own; vm_compute; reflexivity).
  assert (A : rewordable (ph_restack e) r commits) by (apply rwd_rewordable; vm_compute; reflexivity).
  exists e, r, phd_sv, commits, 9%Z, 9%Z. split; [exact A|]. split; [apply phd_sorts|].
  split; [apply apart_spec; vm_compute; reflexivity|]. split; [apply down_spec; vm_compute; reflexivity|]. intros run. split; [|split; [|split; [split|split]]].
  - apply phd_updates; [apply phd_sorts|]. intros c c' i Hc Hc'. apply (phd_sorts phd_chain st (phd_linked 107 108 44) phd_none (fun _ _ _ => EditIgnored)) in Hc, Hc'. now apply Ow.
  - vm_compute. reflexivity.
  - eexists. vm_compute. reflexivity.
  - exists 2. split; [exists [2]; split; [cbn; right; right; left|left]|]. split; [|apply phd_id_spec; vm_compute; reflexivity].
    destruct (sb_open e r commits A) as [d Op]. apply (up_draft e r d commits A Op). revert Op. intros Op. assert (Eo : open_repo (re_hide (ph_restack e)) (rr_repo r) = Some d) by exact Op.
    vm_compute in Eo. injection Eo as <-. apply (bool_decide_eq_true (_ ∈ _)). vm_compute. reflexivity.
  - apply phd_id_spec. vm_compute. reflexivity.
  - intros (x & q & Hx & Hq & H). vm_compute in Hx. injection Hx as <-. vm_compute in H. inversion H.
Qed.

(** [arc diff] puts other commits in place; whether that is as expected can be computed. *)
Definition phd_run (st : store) (sv : server) (chs : list (oid * oid)) : arc_run :=
  mk_run st sv false (List.map (fun v => (fst v, OPassed false (mk_fi (Some (snd v)) None) false)) chs).
Definition within {K V} `{Countable K} `{EqDecision V} (m m' : gmap K V) : bool := forallb (fun x => bool_decide (m' !! fst x = Some (snd x))) (map_to_list m).
Lemma within_spec {K V} `{Countable K} `{EqDecision V} (m m' : gmap K V) : within m m' = true -> m ⊆ m'.
Proof. unfold within. rewrite forallb_forall. intros F. apply map_subseteq_spec. intros k v Hk. apply elem_of_map_to_list, elem_of_list_In in Hk. specialize (F _ Hk). now apply bool_decide_eq_true in F. Qed.
Global Instance revision_eq_dec : EqDecision revision. Proof. solve_decision. Defined.
Definition phd_made (st st' : store) (sv sv' : server) (v : oid * oid) : bool :=
  match st !! fst v, st' !! snd v with
  | Some x, Some y => bool_decide (commit_parents (ob_commit y) = commit_parents (ob_commit x)) && bool_decide (commit_tree (ob_commit y) = commit_tree (ob_commit x)) && bool_decide (ob_author y = ob_author x) &&
      match id_in (phd_text (ob_message y)) with Some i => bool_decide (sv !! i = None) && bool_decide (is_Some (sv' !! i)) | None => false end
  | _, _ => false
  end%bool.
Definition phd_good (names : list (oid * object)) (l : list oid) (st st' : store) (sv sv' : server) (chs : list (oid * oid)) : bool :=
  (within st st' && bool_decide (NoDup (List.map snd names)) && forallb (fun v => bool_decide (v ∈ names)) (map_to_list st') && bool_decide (List.map fst chs = l) &&
   forallb (phd_made st st' sv sv') chs && bool_decide (NoDup (omap (fun v => phd_id st' (snd v)) chs)) && within sv sv' && apart_b sv')%bool.
Lemma phd_creates g st0 names create edit l st st' sv sv' chs : phd_good names l st st' sv sv' chs = true -> arc_creates (phd_env g st0 names create edit) l st sv (phd_run st' sv' chs).
Proof.
  unfold phd_good. rewrite !andb_true_iff. intros [[[[[[[H1 H2] H3] H4] H5] H6] H7] H8]. apply bool_decide_eq_true in H2, H4, H6. rewrite forallb_forall in H3, H5.
  assert (O : forall c a f b, (c, OPassed a f b) ∈ ar_outs (phd_run st' sv' chs) -> exists h, fi_head f = Some h /\ (c, h) ∈ chs).
  { intros c a f b H. cbn [phd_run ar_outs] in H. apply elem_of_list_In, in_map_iff in H. destruct H as ([c' h] & [= <- <- <- <-] & Hi). exists h. split; [reflexivity|now apply elem_of_list_In]. }
  constructor; cbn [phd_run ar_store ar_server].
  - now apply within_spec.
  - intros o x Hx. apply (named_as_store names); [exact H2|]. apply elem_of_map_to_list, elem_of_list_In in Hx. specialize (H3 _ Hx). now apply bool_decide_eq_true in H3.
  - rewrite <- H4. unfold phd_run. cbn [ar_outs]. rewrite map_map. cbn. reflexivity.
  - intros c a f b H. destruct (O c a f b H) as (h & Hf & Hi). apply elem_of_list_In in Hi. specialize (H5 _ Hi). unfold phd_made in H5. cbn [fst snd] in H5. destruct (st !! c) as [x|]; [|discriminate]. destruct (st' !! h) as [y|] eqn:Ey; [|discriminate].
    rewrite !andb_true_iff in H5. destruct H5 as [[[P1 P2] P3] P4]. apply bool_decide_eq_true in P1, P2, P3. destruct (id_in (phd_text (ob_message y))) as [i|] eqn:Ei; [|discriminate]. apply andb_prop in P4. destruct P4 as [P4 P5]. apply bool_decide_eq_true in P4, P5.
    exists h, x, y, i. split_and!; try assumption; try reflexivity. now apply id_in_spec.
  - intros c c' a a' f f' b b' h h' i H H' Hf Hf' Hi Hi'. destruct (O _ _ _ _ H) as (k & Ek & Hk). destruct (O _ _ _ _ H') as (k' & Ek' & Hk'). rewrite Hf in Ek. injection Ek as <-. rewrite Hf' in Ek'. injection Ek' as <-.
    apply phd_id_spec in Hi, Hi'. clear -Hk Hk' Hi Hi' H6. induction chs as [|[d q] chs IH]; [now apply elem_of_nil in Hk|]. cbn in H6. apply elem_of_cons in Hk, Hk'.
    assert (In : forall v w, (v, w) ∈ chs -> phd_id st' w = Some i -> i ∈ omap (fun v => phd_id st' (snd v)) chs) by (intros v w Hv E; apply elem_of_list_omap; exists (v, w); auto).
    destruct Hk as [[= -> ->]|Hk], Hk' as [[= -> ->]|Hk']; [reflexivity| | |].
    + rewrite Hi in H6. apply NoDup_cons in H6. destruct H6 as [N _]. destruct N. eauto.
    + rewrite Hi' in H6. apply NoDup_cons in H6. destruct H6 as [N _]. destruct N. eauto.
    + apply IH; [|exact Hk|exact Hk']. destruct (phd_id st' q); [now apply NoDup_cons in H6|exact H6].
  - now apply within_spec.
  - now apply apart_spec.
Qed.
(** 2 and 3 are new; 6 and 7 are what [arc diff] makes of them, 8, 9 and 10 what becomes of the stack. *)
Definition phd_names : list (oid * object) := objects_in phd_chain ++
  [(6, mk_object (mk_commit [1] 12) 22 32 107); (7, mk_object (mk_commit [2] 13) 23 33 108);
   (8, mk_object (mk_commit [1] 12) 22 33 107); (9, mk_object (mk_commit [8] 13) 23 34 108); (10, mk_object (mk_commit [9] 14) 24 35 44)].
Definition phd_after (names : list (oid * object)) (st : store) (l : list oid) : store := st ∪ list_to_map (List.filter (fun v => bool_decide (fst v ∈ l)) names).
Definition phd_both : server := list_to_map [("7", mk_rev 71 [("gtcm", Some 6)] []); ("8", mk_rev 72 [("gtcm", Some 7)] [])].
Definition phd_create (l : list oid) (st : store) (sv : server) : arc_run := phd_run (phd_after phd_names (store_of phd_chain) [6; 7]) phd_both [(2, 6); (3, 7)].
Lemma phd_empty_updates g st0 names create edit st v : arc_updates (phd_env g st0 names create edit) (phd_sort st ∅) st v (phd_update (phd_sort st ∅) st v).
Proof. apply phd_updates; [apply (phd_sorts g st0 names create edit)|]. intros c c' i Hc. now apply elem_of_nil in Hc. Qed.
Example c105_example :
  let st := store_of phd_chain in let e := phd_env phd_chain st phd_names phd_create phd_edit in let r := rwd phd_chain st 4 [2; 3; 4] in
  let commits : commit_set := {[2; 3]} in let new := commits in let changed : commit_set := ∅ in let sv : server := ∅ in
  let res := submit_phab e 9%Z (TxId 9%Z) true false commits (mk_phab r sv) in
  (rewordable (ph_restack e) r commits /\ (forall c, c ∈ new <-> is_unlinked e r commits c) /\ (forall c, c ∈ changed <-> out_of_date e r sv commits c) /\
   sorts e /\ own_revisions e (rr_store r) changed /\
   arc_creates e (ph_sort e (rr_store r) new) (rr_store r) sv (ph_arc_create e (ph_sort e (rr_store r) new) (rr_store r) sv) /\
   (forall st' v, rr_store r ⊆ st' -> arc_updates e (ph_sort e st' changed) st' v (ph_arc_update e (ph_sort e st' changed) st' v)) /\
   (forall v i ids, ph_edit e v i ids <> EditIgnored) /\ plain_picks (re_exec (ph_restack e)) (rr_store r) /\ workable (ph_restack e) r /\
   arc_text e (ph_arc_create e (ph_sort e (rr_store r) new) (rr_store r) sv)) /\
  pr_end res = ForgeDone /\ pr_submitted res = ["D7"; "D8"] /\
  (exists d, open_repo (re_hide (ph_restack e)) (rr_repo r) = Some d /\ let c := create_revisions e 9%Z (TxId 9%Z) d new (mk_phab r sv) in
     cd_statuses c = [(2, (8, "7")); (3, (9, "8"))] /\ fresh phd_chain (rwd_log [2; 3; 4]) (cd_rewritten c) /\ cd_rewritten c !! 4 = Some (NonZero 10)) /\
  hr_head (rr_repo (pb_repo (pr_phab res))) = mk_head (Some 10) (Some "refs/heads/a") /\
  has_revision e (rr_store (pb_repo (pr_phab res))) 9 "8" /\ depends_on (pb_server (pr_phab res)) "8" "7".
Proof.
  intros st e r commits new changed sv res.
  assert (A : rewordable (ph_restack e) r commits) by (apply rwd_rewordable; vm_compute; reflexivity).
  split; [split_and!|split; [vm_compute; reflexivity|split; [vm_compute; reflexivity|split; [|split; [vm_compute; reflexivity|split]]]]].
  - exact A.
  - apply phd_new; vm_compute; reflexivity.
  - apply phd_changed; vm_compute; reflexivity.
  - apply phd_sorts.
  - intros c c' i Hc. set_solver.
  - apply phd_creates. vm_compute. reflexivity.
  - intros st' v _. apply phd_empty_updates.
  - apply phd_edits.
  - apply rwd_plain; [repeat constructor|apply (bool_decide_eq_true (NoDup _)); vm_compute; reflexivity].
  - apply mdemo_workable; [apply A|apply rwd_fine|discriminate].
  - intros c a f b h y _ _ _. reflexivity.
  - eexists. split; [vm_compute; reflexivity|]. intros c. unfold c. split; [vm_compute; reflexivity|]. split; [apply all_fresh_spec; vm_compute; reflexivity|vm_compute; reflexivity].
  - apply phd_id_spec. vm_compute. reflexivity.
  - eexists _, _. split; [vm_compute; reflexivity|]. split; [vm_compute; reflexivity|]. vm_compute. left.
Qed.
(** A commit that is rewritten between two new ones is not looked at: the revision above does not depend on its revision, nor that on the one below. *)
Definition phd_mid : list (oid * object) := phd_linked 42 105 44 ++
  [(6, mk_object (mk_commit [1] 12) 22 32 107); (7, mk_object (mk_commit [3] 14) 24 34 108);
   (8, mk_object (mk_commit [1] 12) 22 33 107); (9, mk_object (mk_commit [8] 13) 23 34 105); (10, mk_object (mk_commit [9] 14) 24 35 108)].
Theorem c105_between_refuted : exists e r sv commits (new : commit_set) ts i, rewordable (ph_restack e) r commits /\ (forall c, c ∈ new <-> is_unlinked e r commits c) /\ (forall c, ~ out_of_date e r sv commits c) /\ sorts e /\ accepts e /\
  workable (ph_restack e) r /\ plain_picks (re_exec (ph_restack e)) (rr_store r) /\
  arc_creates e (ph_sort e (rr_store r) new) (rr_store r) sv (ph_arc_create e (ph_sort e (rr_store r) new) (rr_store r) sv) /\
  let res := submit_phab e ts (TxId i) true false commits (mk_phab r sv) in pr_end res = ForgeDone /\
  exists c2 c3 c4, let st' := rr_store (pb_repo (pr_phab res)) in store_parent st' c2 c3 /\ store_parent st' c3 c4 /\ has_revision e st' c2 "7" /\ has_revision e st' c3 "5" /\ has_revision e st' c4 "8" /\
  ~ depends_on (pb_server (pr_phab res)) "8" "5" /\ ~ depends_on (pb_server (pr_phab res)) "5" "7".
Proof.
  set (st := list_to_map (phd_linked 42 105 44) : store). set (sv := list_to_map [("5", mk_rev 75 [("gtcm", Some 3)] [])] : server).
  set (sv' := list_to_map [("7", mk_rev 77 [("gtcm", Some 6)] []); ("8", mk_rev 78 [("gtcm", Some 7)] []); ("5", mk_rev 75 [("gtcm", Some 3)] [])] : server).
  set (create := fun (_ : list oid) (_ : store) (_ : server) => phd_run (phd_after phd_mid st [6; 7]) sv' [(2, 6); (4, 7)]).
  exists (phd_env phd_chain st phd_mid create phd_edit), (rwd phd_chain st 4 [2; 3; 4]), sv, {[2; 3; 4]}, {[2; 4]}, 9%Z, 9%Z.
  match goal with |- rewordable ?e ?r ?g /\ _ => assert (A : rewordable e r g) by (apply rwd_rewordable; vm_compute; reflexivity) end.
  split; [exact A|]. split; [apply phd_new; vm_compute; reflexivity|]. split; [|split; [apply phd_sorts|split; [apply phd_accepts|split; [|split; [|split; [|split]]]]]].
  - intros c O. eapply (phd_changed phd_chain st phd_mid create phd_edit _ sv {[2; 3; 4]} ∅) in O; [set_solver|vm_compute; reflexivity|vm_compute; reflexivity].
  - apply mdemo_workable; [apply A|apply rwd_fine|discriminate].
  - apply rwd_plain; [repeat constructor|apply (bool_decide_eq_true (NoDup _)); vm_compute; reflexivity].
  - apply phd_creates. vm_compute. reflexivity.
  - vm_compute. reflexivity.
  - exists 8, 9, 10. split; [eexists; split; [vm_compute; reflexivity|left]|]. split; [eexists; split; [vm_compute; reflexivity|left]|].
    split; [apply phd_id_spec; vm_compute; reflexivity|]. split; [apply phd_id_spec; vm_compute; reflexivity|]. split; [apply phd_id_spec; vm_compute; reflexivity|].
    split; intros (x & q & Hx & Hq & H); vm_compute in Hx; injection Hx as <-; vm_compute in H; inversion H.
Qed.
(** Commits to update are looked up before creating: one above a new commit is updated as it was before it was rewritten, and depends
    on nothing. *)
Definition phd_up : list (oid * object) := phd_linked 42 105 44 ++
  [(6, mk_object (mk_commit [1] 12) 22 32 107); (8, mk_object (mk_commit [1] 12) 22 33 107); (9, mk_object (mk_commit [8] 13) 23 34 105); (10, mk_object (mk_commit [9] 14) 24 35 44)].
Theorem c105_stale_refuted : exists e r sv commits (new changed : commit_set) ts i, rewordable (ph_restack e) r commits /\ (forall c, c ∈ new <-> is_unlinked e r commits c) /\ (forall c, c ∈ changed <-> out_of_date e r sv commits c) /\
  sorts e /\ accepts e /\ workable (ph_restack e) r /\ plain_picks (re_exec (ph_restack e)) (rr_store r) /\
  arc_creates e (ph_sort e (rr_store r) new) (rr_store r) sv (ph_arc_create e (ph_sort e (rr_store r) new) (rr_store r) sv) /\
  let res := submit_phab e ts (TxId i) true false commits (mk_phab r sv) in pr_end res = ForgeDone /\
  exists o y q, let st' := rr_store (pb_repo (pr_phab res)) in o ∈ changed /\ RewriteEvent ts (TxId i) (NonZero o) (NonZero y) ∈ hr_log (rr_repo (pb_repo (pr_phab res))) /\
  has_revision e st' y "5" /\ pb_server (pr_phab res) !! "5" = Some q /\ is_for q o /\ ~ is_for q y /\
  (exists p, store_parent st' p y /\ has_revision e st' p "7" /\ ~ depends_on (pb_server (pr_phab res)) "5" "7").
Proof.
  set (st := list_to_map (phd_linked 42 105 44) : store). set (sv := list_to_map [("5", mk_rev 75 [("gtcm", Some 90)] [])] : server).
  set (sv' := list_to_map [("7", mk_rev 77 [("gtcm", Some 6)] []); ("5", mk_rev 75 [("gtcm", Some 90)] [])] : server).
  set (create := fun (_ : list oid) (_ : store) (_ : server) => phd_run (phd_after phd_up st [6]) sv' [(2, 6)]).
  exists (phd_env phd_chain st phd_up create phd_edit), (rwd phd_chain st 4 [2; 3; 4]), sv, {[2; 3]}, {[2]}, {[3]}, 9%Z, 9%Z.
  match goal with |- rewordable ?e ?r ?g /\ _ => assert (A : rewordable e r g) by (apply rwd_rewordable; vm_compute; reflexivity) end.
  split; [exact A|]. split; [apply phd_new; vm_compute; reflexivity|]. split; [apply phd_changed; vm_compute; reflexivity|split; [apply phd_sorts|split; [apply phd_accepts|split; [|split; [|split; [|split]]]]]].
  - apply mdemo_workable; [apply A|apply rwd_fine|discriminate].
  - apply rwd_plain; [repeat constructor|apply (bool_decide_eq_true (NoDup _)); vm_compute; reflexivity].
  - apply phd_creates. vm_compute. reflexivity.
  - vm_compute. reflexivity.
  - exists 3, 9, (mk_rev 75 [("gtcm", Some 3)] []). split; [now apply elem_of_singleton|]. split; [apply (bool_decide_eq_true (_ ∈ _)); vm_compute; reflexivity|].
    split; [apply phd_id_spec; vm_compute; reflexivity|]. split; [vm_compute; reflexivity|].
    split; [exists [], []; split; [reflexivity|]; intros h X; now apply elem_of_nil in X|]. split; [intros X; apply hash_of_spec in X; discriminate|].
    exists 8. split; [eexists; split; [vm_compute; reflexivity|left]|]. split; [apply phd_id_spec; vm_compute; reflexivity|].
    intros (x & q & Hx & Hq & H); vm_compute in Hx; injection Hx as <-; vm_compute in H; inversion H.
Qed.
(** If a later upload fails, the revisions made so far stay without any commit that links to them. *)
Theorem c105_orphan_refuted : exists e r sv commits ts i, rewordable (ph_restack e) r commits /\ (forall c, c ∈ commits <-> is_unlinked e r commits c) /\ sorts e /\ accepts e /\ workable (ph_restack e) r /\
  arc_creates e (ph_sort e (rr_store r) commits) (rr_store r) sv (ph_arc_create e (ph_sort e (rr_store r) commits) (rr_store r) sv) /\
  let res := submit_phab e ts (TxId i) true false commits (mk_phab r sv) in pr_end res = ForgeUploadFailed /\
  exists j, sv !! j = None /\ is_Some (pb_server (pr_phab res) !! j) /\ rr_repo (pb_repo (pr_phab res)) = rr_repo r /\ forall c, is_Some (rr_store r !! c) -> ~ has_revision e (rr_store r) c j.
Proof.
  set (st := store_of phd_chain). set (sv := ∅ : server). set (sv' := list_to_map [("7", mk_rev 71 [("gtcm", Some 6)] [])] : server).
  set (good := phd_run (phd_after phd_names st [6]) sv' [(2, 6)]).
  set (create := fun (_ : list oid) (_ : store) (_ : server) => mk_run (ar_store good) (ar_server good) false (ar_outs good ++ [(3, OFailed false 1%Z false)])).
  set (e := phd_env phd_chain st phd_names create phd_edit). set (r := rwd phd_chain st 4 [2; 3; 4]).
  assert (Gd : arc_creates e [2] st sv good) by (apply phd_creates; vm_compute; reflexivity).
  exists e, r, sv, {[2; 3]}, 9%Z, 9%Z.
  assert (A : rewordable (ph_restack e) r {[2; 3]}) by (apply rwd_rewordable; vm_compute; reflexivity).
  split; [exact A|]. split; [apply phd_new; vm_compute; reflexivity|]. split; [apply phd_sorts|split; [apply phd_accepts|split; [|split; [|split]]]].
  - apply mdemo_workable; [apply A|apply rwd_fine|discriminate].
  - assert (O : forall c a f b, (c, OPassed a f b) ∈ ar_outs good ++ [(3, OFailed false 1%Z false)] -> (c, OPassed a f b) ∈ ar_outs good).
    { intros c a f b H. apply elem_of_app in H. destruct H as [H|H]; [exact H|]. apply elem_of_list_singleton in H. discriminate. }
    constructor; cbn [e phd_env ph_arc_create create ar_store ar_server ar_outs].
    + apply Gd.
    + apply Gd.
    + vm_compute. reflexivity.
    + intros c a f b H. exact (ac_passed _ _ _ _ _ Gd c a f b (O _ _ _ _ H)).
    + intros c c' a a' f f' b b' h h' i H H'. exact (ac_apart _ _ _ _ _ Gd c c' a a' f f' b b' h h' i (O _ _ _ _ H) (O _ _ _ _ H')).
    + apply Gd.
    + apply Gd.
  - vm_compute. reflexivity.
  - exists "7". split; [reflexivity|]. split; [eexists; vm_compute; reflexivity|]. split; [vm_compute; reflexivity|].
    intros c [x Hx] Hc. unfold e in Hc. apply phd_id_spec in Hc. unfold phd_id in Hc. rewrite Hx in Hc. change (rr_store r) with (store_of phd_chain) in Hx. unfold store_of in Hx.
    apply elem_of_list_to_map_2 in Hx. cbn [phd_chain List.map fst] in Hx.
    repeat (apply elem_of_cons in Hx; destruct Hx as [[= -> ->]|Hx]; [vm_compute in Hc; discriminate|]). now apply elem_of_nil in Hx.
Qed.
(** Right after creating, the revisions are for the commits that [arc diff] made and not for those there are now: submitting again updates all of them. *)
Theorem c105_again_refuted : exists e r sv commits ts i, rewordable (ph_restack e) r commits /\ (forall c, c ∈ commits <-> is_unlinked e r commits c) /\ sorts e /\ accepts e /\ workable (ph_restack e) r /\
  arc_creates e (ph_sort e (rr_store r) commits) (rr_store r) sv (ph_arc_create e (ph_sort e (rr_store r) commits) (rr_store r) sv) /\
  let res := submit_phab e ts (TxId i) true false commits (mk_phab r sv) in pr_end res = ForgeDone /\
  exists y j, has_revision e (rr_store (pb_repo (pr_phab res))) y j /\ j ∈ List.map (fun n => substring 1 (String.length n) n) (pr_submitted res) /\ out_of_date e (pb_repo (pr_phab res)) (pb_server (pr_phab res)) {[y]} y.
Proof.
  set (e := phd_env phd_chain (store_of phd_chain) phd_names phd_create phd_edit). set (r := rwd phd_chain (store_of phd_chain) 4 [2; 3; 4]).
  exists e, r, ∅, {[2; 3]}, 9%Z, 9%Z. assert (A : rewordable (ph_restack e) r {[2; 3]}) by (apply rwd_rewordable; vm_compute; reflexivity).
  split; [exact A|]. split; [apply phd_new; vm_compute; reflexivity|]. split; [apply phd_sorts|split; [apply phd_accepts|split; [|split; [|split]]]].
  - apply mdemo_workable; [apply A|apply rwd_fine|discriminate].
  - apply phd_creates. vm_compute. reflexivity.
  - vm_compute. reflexivity.
  - exists 8, "7". split; [apply phd_id_spec; vm_compute; reflexivity|]. split; [vm_compute; left|]. apply phd_old_spec; [now apply elem_of_singleton|vm_compute; reflexivity].
Qed.

(** Something was updated and something left out, but nothing of that is said. *)
Theorem c106_told_refuted : exists e r sv commits ts i, rewordable (ph_restack e) r commits /\ sorts e /\ accepts e /\
  let res := submit_phab e ts (TxId i) false false commits (mk_phab r sv) in pr_end res = ForgeDone /\
  (exists c, out_of_date e r sv commits c) /\ (exists c, is_unlinked e r commits c) /\ pb_server (pr_phab res) <> sv /\
  pr_submitted res = [] /\ pr_updated res = [] /\ pr_skipped res = [] /\ pr_unsubmitted res = [].
Proof.
  set (st := list_to_map (phd_linked 107 108 44) : store). set (e := phd_env phd_chain st (phd_linked 107 108 44) phd_none phd_edit). set (r := rwd phd_chain st 4 [2; 3; 4]).
  exists e, r, phd_sv, {[2; 3; 4]}, 9%Z, 9%Z. split; [apply rwd_rewordable; vm_compute; reflexivity|]. split; [apply phd_sorts|]. split; [apply phd_accepts|].
  split; [vm_compute; reflexivity|]. split; [|split; [|split; [|split_and!; vm_compute; reflexivity]]].
  - exists 2. apply phd_old_spec; [apply (bool_decide_eq_true (_ ∈ _)); vm_compute; reflexivity|vm_compute; reflexivity].
  - exists 4. apply (phd_new phd_chain st (phd_linked 107 108 44) phd_none phd_edit r {[2; 3; 4]} {[4]}); [vm_compute; reflexivity|vm_compute; reflexivity|now apply elem_of_singleton].
  - intros E. apply (f_equal (fun v : server => v !! "8")) in E. vm_compute in E. discriminate.
Qed.

(** ** C107 *)

Lemma id_of_phid_spec sv n i : told_apart sv -> id_of_phid sv n = Some i <-> exists q, sv !! i = Some q /\ rv_phid q = n.
Proof.
  intros Ta. unfold id_of_phid. destruct (List.find _ _) as [[j q]|] eqn:F.
  - apply find_some in F. destruct F as [Hj En]. apply elem_of_list_In, elem_of_map_to_list in Hj. cbn [snd] in En. apply N.eqb_eq in En. split.
    + intros [= <-]. eauto.
    + intros (q' & Hq & E). cbn. f_equal. apply (Ta j i q q' Hj Hq). congruence.
  - split; [discriminate|]. intros (q & Hq & E). apply elem_of_map_to_list, elem_of_list_In in Hq. pose proof (find_none _ _ F _ Hq) as X. cbn in X. apply N.eqb_neq in X. congruence.
Qed.
Lemma commit_of_id_spec e st l i q : (forall c c' i, c ∈ l -> c' ∈ l -> has_revision e st c i -> has_revision e st c' i -> c = c') ->
  commit_of_id e st l i = Some q <-> q ∈ l /\ has_revision e st q i.
Proof.
  intros Ow. unfold commit_of_id. destruct (List.find _ _) as [c|] eqn:F.
  - apply find_some in F. destruct F as [Hc E]. apply elem_of_list_In in Hc. apply bool_decide_eq_true, has_revision_get in E. split; [intros [= <-]; auto|]. intros [Hq H]. f_equal. exact (Ow c q i Hc Hq E H).
  - split; [discriminate|]. intros [Hq H]. apply elem_of_list_In in Hq. pose proof (find_none _ _ F _ Hq) as X. cbn in X. apply bool_decide_eq_false in X. now apply has_revision_get in H.
Qed.
(** The dependencies asked for are those of the revisions, as far as they are of the commits. *)
Theorem c107_dependencies : forall e st sv commits c q, told_apart sv -> own_revisions e st commits ->
  q ∈ remote_dependencies e st sv (elements commits) c <-> q ∈ commits /\ exists i j, has_revision e st c i /\ has_revision e st q j /\ depends_on sv i j.
Proof.
  intros e st sv commits c q Ta Ow. assert (Ow' : forall c c' i, c ∈ elements commits -> c' ∈ elements commits -> has_revision e st c i -> has_revision e st c' i -> c = c').
  { intros a b i Ha Hb. apply elem_of_elements in Ha, Hb. now apply Ow. }
  unfold remote_dependencies. destruct (get_revision_id e st c) as [[i|]|] eqn:Ei.
  2-3: (split; [intros H; now apply elem_of_nil in H|]; intros (_ & i & j & H & _); apply has_revision_get in H; congruence).
  apply has_revision_get in Ei. destruct (sv !! i) as [r|] eqn:Er.
  - rewrite elem_of_list_omap. split.
    + intros (j & Hj & E). apply elem_of_list_omap in Hj. destruct Hj as (n & Hn & En). apply (id_of_phid_spec sv n j Ta) in En. destruct En as (x & Hx & En). apply (commit_of_id_spec e st _ j q Ow') in E. destruct E as [Hq H].
      split; [now apply elem_of_elements|]. exists i, j. split; [exact Ei|]. split; [exact H|]. exists r, x. split; [exact Er|]. split; [exact Hx|now rewrite En].
    + intros (Hq & i' & j & Hi & Hj & (r' & x & Hr' & Hx & In)). rewrite (has_revision_unique _ _ _ _ _ Hi Ei), Er in Hr'. injection Hr' as <-. exists j. split.
      * apply elem_of_list_omap. exists (rv_phid x). split; [exact In|]. apply id_of_phid_spec; eauto.
      * apply commit_of_id_spec; [exact Ow'|]. split; [now apply elem_of_elements|exact Hj].
  - split; [intros H; now apply elem_of_nil in H|]. intros (_ & i' & j & Hi & _ & (r' & x & Hr' & _)). rewrite (has_revision_unique _ _ _ _ _ Hi Ei) in Hr'. congruence.
Qed.
(** After an update they are the parents that were updated as well. *)
Theorem c107_updated : forall e r given sv sv' c i q, brought_up e r given sv sv' -> told_apart sv' -> own_revisions e (rr_store r) given ->
  (forall p q j, is_draft e r p -> q ∈ given -> has_revision e (rr_store r) p j -> has_revision e (rr_store r) q j -> p = q) ->
  c ∈ given -> has_revision e (rr_store r) c i -> is_Some (sv !! i) ->
  q ∈ remote_dependencies e (rr_store r) sv' (elements given) c <->
  q ∈ given /\ parent (he_graph (re_hide (ph_restack e))) q c /\ is_draft e r q /\ exists j, has_revision e (rr_store r) q j /\ is_Some (sv !! j).
Proof.
  intros e r given sv sv' c i q B Ta Ow Od Hc Hi Hs. rewrite (c107_dependencies e (rr_store r) sv' given c q Ta Ow). destruct (bu_given _ _ _ _ _ B c i Hc Hi Hs) as (r' & _ & _ & D). split.
  - intros (Hq & i' & j & Hi' & Hj & Dp). rewrite (has_revision_unique _ _ _ _ _ Hi' Hi) in Dp. apply D in Dp. destruct Dp as (Sj & p & Hp & Dr & Hj').
    pose proof (Od p q j Dr Hq Hj' Hj) as E. subst p. split; [exact Hq|]. split; [exact Hp|]. split; [exact Dr|]. eauto.
  - intros (Hq & Hp & Dr & j & Hj & Sj). split; [exact Hq|]. exists i, j. split; [exact Hi|]. split; [exact Hj|]. apply D. split; [exact Sj|]. exists q. auto.
Qed.
Example c107_example :
  let st : store := list_to_map (phd_linked 107 108 105) in let e := phd_env phd_chain st (phd_linked 107 108 105) phd_none phd_edit in let r := rwd phd_chain st 4 [2; 3; 4] in
  let commits : commit_set := {[2; 3; 4]} in let sv' := pb_server (pr_phab (submit_phab e 9%Z (TxId 9%Z) false false commits (mk_phab r phd_sv))) in
  told_apart sv' /\ told_apart phd_sv /\ own_revisions e (rr_store r) commits /\
  remote_dependencies e (rr_store r) phd_sv (elements commits) 4 = [2] /\ remote_dependencies e (rr_store r) sv' (elements commits) 4 = [2] /\
  remote_dependencies e (rr_store r) sv' (elements commits) 3 = [2] /\ remote_dependencies e (rr_store r) phd_sv (elements commits) 3 = [] /\
  brought_up e r {[2; 3]} phd_sv sv' /\ (forall p q j, is_draft e r p -> q ∈ ({[2; 3]} : commit_set) -> has_revision e (rr_store r) p j -> has_revision e (rr_store r) q j -> p = q).
Proof.
  intros st e r commits sv'.
  assert (A : rewordable (ph_restack e) r commits) by (apply rwd_rewordable; vm_compute; reflexivity).
  assert (Ch : forall c, c ∈ ({[2; 3]} : commit_set) <-> out_of_date e r phd_sv commits c) by (apply phd_changed; vm_compute; reflexivity).
  assert (Ow : own_revisions e (rr_store r) commits) by (apply phd_own; vm_compute; reflexivity).
  assert (Ow' : own_revisions e (rr_store r) {[2; 3]}) by (apply phd_own; vm_compute; reflexivity).
  assert (Ta : told_apart phd_sv) by (apply apart_spec; vm_compute; reflexivity).
  split; [apply apart_spec; vm_compute; reflexivity|]. split; [exact Ta|]. split; [exact Ow|].
  do 4 (split; [vm_compute; reflexivity|]). split.
  - assert (Dn : pr_end (submit_phab e 9%Z (TxId 9%Z) false false commits (mk_phab r phd_sv)) = ForgeDone) by (vm_compute; reflexivity).
    refine (proj2 (proj2 (c104_updated e r phd_sv commits {[2; 3]} 9%Z 9%Z A Ch (phd_sorts _ _ _ _ _) Ow' Ta _ (phd_edits) Dn))).
    apply phd_updates; [apply phd_sorts|]. intros c c' i Hc Hc'. apply (phd_sorts phd_chain st (phd_linked 107 108 105) phd_none phd_edit) in Hc, Hc'. now apply Ow'.
  - intros p q j _ Hq Hp Hj. assert (Hpc : p ∈ ({[1; 2; 3; 4]} : commit_set)).
    { destruct Hp as (x & Hx & _). apply elem_of_list_to_map_2 in Hx. repeat (apply elem_of_cons in Hx; destruct Hx as [[= -> _]|Hx]; [set_solver|]). now apply elem_of_nil in Hx. }
    assert (Ow2 : own_revisions e (rr_store r) {[1; 2; 3; 4]}) by (apply phd_own; vm_compute; reflexivity). apply (Ow2 p q j Hpc); [clear -Hq; set_solver|exact Hp|exact Hj].
Qed.

Print Assumptions c103_link.
Print Assumptions c103_one.
Print Assumptions c103_none.
Print Assumptions c103_first.
Print Assumptions c104_status.
Print Assumptions c104_all.
Print Assumptions c104_updated.
Print Assumptions c104_through.
Print Assumptions c104_cycle_refuted.
Print Assumptions c104_ignored_refuted.
Print Assumptions c105_created.
Print Assumptions c105_otherwise.
Print Assumptions c105_between_refuted.
Print Assumptions c105_stale_refuted.
Print Assumptions c105_orphan_refuted.
Print Assumptions c105_again_refuted.
Print Assumptions c106_silent.
Print Assumptions c106_dry_run.
Print Assumptions c106_told_refuted.
Print Assumptions c107_dependencies.
Print Assumptions c107_updated.
