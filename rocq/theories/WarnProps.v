(** Property C120: the warning after Git rewrote commits. *)
From Verif Require Import Base TextModel EventLogModel EventLogSpec EventLogProofs EvolveModel EvolveSpec EvolveProofs
  DagModel DagSpec DagProofs StrModel StrProofs HookModel HookSpec HookProofs ExecModel ExecSpec HideModel HideSpec HideProofs HideProps
  RestackModel RestackSpec RestackProofs RestackProps WarnModel WarnSpec WarnProofs.
Local Open Scope string_scope.
Local Open Scope list_scope.
Local Open Scope Z_scope.

Lemma proper_size l : proper_list l -> size (collect_map l) = length l.
Proof.
  intros [ND _]. unfold size, map_size. rewrite <- (map_length fst l), <- (map_length fst (map_to_list (collect_map l))).
  apply Permutation_length, NoDup_Permutation; [apply NoDup_fst_map_to_list|exact ND|]. intros o. apply collected.
Qed.

(** The hook records what Git rewrote, and the warning names exactly the commits and
    branches left behind by it. *)
Theorem c120_says : forall e ts tx kind l cs h refs head,
  (kind = "amend" -> hs_rebase h = false) -> read_deferred (hs_deferred h) = Some cs ->
  Forall (fun x => oid_ok (fst x) /\ moid_ok (snd x)) l -> proper_list l ->
  let log' := hs_log h ++ List.map (CommitEvent ts tx) cs ++ List.map (fun x => RewriteEvent ts tx (NonZero (fst x)) (snd x)) l in
  let r' := mk_hrepo refs head log' in
  in_order e r' ->
  (exists warning, rewrite_hook true e ts tx kind (write_rewritten_list l) h refs head = (log', Some (printed (length l) warning)) /\
     says_left (he_graph e) r' (fun o => o ∈ List.map fst l) warning) /\
  rewrite_hook false e ts tx kind (write_rewritten_list l) h refs head = (log', Some (printed (length l) None)).
Proof.
  intros e ts tx kind l cs h refs head Hk Dc Le Pl log' r' I.
  assert (Sp : (String.eqb kind "amend" && hs_rebase h)%bool = false).
  { destruct (String.eqb_spec kind "amend") as [->|_]; [now rewrite Hk|reflexivity]. }
  assert (Op : exists d, open_repo e r' = Some d).
  { unfold open_repo. destruct (io_exists _ _ I) as [m ->]. eauto. }
  destruct Op as [d Op].
  unfold rewrite_hook, hook_post_rewrite. rewrite Sp, Dc. rewrite (rewritten_round_trip l Le). cbv zeta.
  cbn [set_log hs_log negb]. rewrite <- app_assoc, (proper_size l Pl), counted_spec. fold log'. fold r'. split; [|reflexivity].
  destruct (says_left_spec e r' d (List.map fst (map_to_list (collect_map l))) I Op) as (text & -> & S).
  exists text. split; [destruct text; reflexivity|].
  destruct S as (ks & names & A & B & C & D & F & G). exists ks, names. split_and!; [exact A| |exact C|exact D| |exact G].
  - intros k. rewrite B. unfold commit_left. setoid_rewrite collected. reflexivity.
  - intros s. rewrite F. unfold branch_left. setoid_rewrite collected. reflexivity.
Qed.

(** Everything Git said was rewritten counts as rewritten: left behind are the children
    still shown and the branches still there. *)
Theorem c120_left : forall ts tx g log l refs head,
  proper_list l ->
  let r' := mk_hrepo refs head (log ++ List.map (fun x => RewriteEvent ts tx (NonZero (fst x)) (snd x)) l) in
  (forall k, commit_left g r' (fun o => o ∈ List.map fst l) k <->
     exists o new, (o, new) ∈ l /\ parent g o k /\ shown g r' k /\ ~ visibility (hr_log r') k Obsolete) /\
  (forall s, branch_left r' (fun o => o ∈ List.map fst l) s <->
     exists o new, (o, new) ∈ l /\ refs !! ("refs/heads/" +:+ s : refname) = Some o).
Proof.
  intros ts tx g log l refs head Pl r'.
  assert (In : forall o, o ∈ List.map fst l <-> exists new, (o, new) ∈ l).
  { intros o. rewrite elem_of_list_In, in_map_iff. split.
    - intros ([o' m] & <- & H). exists m. now apply elem_of_list_In.
    - intros [m H]. exists (o, m). split; [reflexivity|now apply elem_of_list_In]. }
  split.
  - intros k. unfold commit_left, abandoned_on. split.
    + intros (o & [new Ho]%In & P & _ & S & V). exists o, new. auto.
    + intros (o & new & Ho & P & S & V). exists o. split; [apply In; eauto|]. split; [exact P|]. split; [|auto].
      exists new. now apply just_rewritten.
  - intros s. unfold branch_left. split.
    + intros (o & [new Ho]%In & _ & Hr). exists o, new. auto.
    + intros (o & new & Ho & Hr). exists o. split; [apply In; eauto|]. split; [|exact Hr]. exists new. now apply just_rewritten.
Qed.

(** The advice is good: [git restack] moves every commit and every branch the warning is
    about, the main branch aside. *)
Theorem c120_restack : forall e ts i r rw olds,
  restackable e r -> disk_silent e -> sorted_out (he_graph (re_hide e)) (rr_repo r) ->
  rs_ok (restack e ts (TxId i) None r) = true -> rs_rewritten (restack e ts (TxId i) None r) = Some rw ->
  fresh (he_graph (re_hide e)) (hr_log (rr_repo r)) rw ->
  let r' := rr_repo (rs_repo (restack e ts (TxId i) None r)) in
  (forall k, commit_left (he_graph (re_hide e)) (rr_repo r) olds k -> is_Some (rw !! k) /\ visibility (hr_log r') k Obsolete) /\
  (forall s, branch_left (rr_repo r) olds s -> ("refs/heads/" +:+ s : refname) <> he_main (re_hide e) ->
     exists o, hr_refs (rr_repo r) !! ("refs/heads/" +:+ s : refname) = Some o /\ (exists new, rewritten (hr_log (rr_repo r)) o new) /\
       branch_moved (hr_log r') (he_branch (re_hide e)) ("refs/heads/" +:+ s) o (hr_refs r' !! ("refs/heads/" +:+ s : refname))).
Proof.
  intros e ts i r rw olds R DS SO Ok_ Rw F r'. split.
  - intros k (o & Ho & Ab).
    pose proof (c73_moved e ts i None r rw R DS SO Ok_ Rw (fun n H => proj1 (F n H))) as K.
    assert (X : is_Some (rw !! k)).
    { apply (rk_which _ _ _ _ _ K). split; [apply Ab|]. exists o, k. split; [exact I|]. split; [exact Ab|constructor]. }
    split; [exact X|]. destruct X as [new X].
    destruct (c73_recorded e ts i None r rw R DS SO Ok_ Rw F) as (A & _). exact (proj2 (A _ _ X)).
  - intros s (o & Ho & Rr & Hr) Nm. exists o. split; [exact Hr|]. split; [exact Rr|].
    destruct (c74_branches e ts i None r rw R DS SO Ok_ Rw F) as (A & _). apply A; [|exact Nm|exact Hr].
    apply is_local_spec. now exists s.
Qed.

(** What Git says about an amendment in the middle of a rebase is put off: nothing is
    recorded or printed. *)
Theorem c120_underway : forall hint e ts tx text h refs head,
  hs_rebase h = true -> rewrite_hook hint e ts tx "amend" text h refs head = (hs_log h, Some []).
Proof. intros hint e ts tx text h refs head H. unfold rewrite_hook, hook_post_rewrite. now rewrite H. Qed.

(** ** A concrete case *)

(** The repository of C73, before the hook is told that 2 became 5: 3 and 4 are on top of
    2, and [b] is at 2. *)
Definition wdemo_hooks : hook_state :=
  mk_hooks (List.map (CommitEvent 1 (TxId 1)) [2%N; 3%N; 4%N]) false None None None None None.
Definition wdemo_hide : hide_env := re_hide (rdemo_env rdemo_graph rdemo_objects yes).
Definition wdemo_list : list (oid * moid) := [(2%N, NonZero 5%N)].

Lemma wdemo_proper : proper_list wdemo_list.
Proof.
  split; [decide_it|]. intros o new o' H Ho. apply elem_of_list_singleton in H. injection H as -> ->.
  apply elem_of_list_singleton in Ho. cbn in Ho. subst o'. discriminate.
Qed.

Example c120_example :
  (("amend" : string) = "amend" -> hs_rebase wdemo_hooks = false) /\ read_deferred (hs_deferred wdemo_hooks) = Some [] /\
  Forall (fun x => oid_ok (fst x) /\ moid_ok (snd x)) wdemo_list /\ proper_list wdemo_list /\
  rr_repo rdemo = mk_hrepo (list_to_map rdemo_refs) rdemo_head
    (hs_log wdemo_hooks ++ List.map (CommitEvent 2 (TxId 2)) [] ++ List.map (fun x => RewriteEvent 2 (TxId 2) (NonZero (fst x)) (snd x)) wdemo_list) /\
  in_order wdemo_hide (rr_repo rdemo) /\
  rewrite_hook true wdemo_hide 2 (TxId 2) "amend" (write_rewritten_list wdemo_list) wdemo_hooks (list_to_map rdemo_refs) rdemo_head =
    (rdemo_log, Some (printed 1%nat (Some "This operation abandoned 1 commit and 1 branch (b)!"))).
Proof.
  split_and!; [reflexivity..| |exact wdemo_proper|reflexivity|exact (ra_order _ _ rdemo_in_order)|].
  - repeat constructor; vm_compute; reflexivity.
  - vm_compute. reflexivity.
Qed.

(** The number in the warning is that of the lowest commits only: one commit is said to be
    abandoned, [git restack] moves two. *)
Example c120_example_number : exists e ts i r rw,
  restackable e r /\ disk_silent e /\ sorted_out (he_graph (re_hide e)) (rr_repo r) /\
  warn_abandoned (re_hide e) (rr_repo r) [2%N] = Some (Some "This operation abandoned 1 commit and 1 branch (b)!") /\
  rs_ok (restack e ts (TxId i) None r) = true /\ rs_rewritten (restack e ts (TxId i) None r) = Some rw /\ size rw = 2%nat.
Proof.
  destruct c73_example as (A & B & C & _ & _ & rw & E & L & Ok_ & _).
  exists (rdemo_env rdemo_graph rdemo_objects yes), 9, 9, rdemo, rw. split_and!; [exact A|exact B|exact C| |exact Ok_|exact E|].
  - vm_compute. reflexivity.
  - change (length (map_to_list rw) = 2%nat). unfold oid in *. now rewrite L.
Qed.

Print Assumptions c120_says.
Print Assumptions c120_left.
Print Assumptions c120_restack.
Print Assumptions c120_underway.
