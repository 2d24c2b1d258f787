(** Properties C75 and C76: syncing stacks and the main branch. *)
From stdpp Require Import sorting relations countable.
From Verif Require Import Base TextModel EventLogModel EventLogSpec EventLogProofs EvolveModel EvolveSpec
  DagModel DagSpec DagProofs StrModel StrProofs HookModel HookSpec PlanModel PlanSpec PlanProofs PlanBuildProofs PlanProps ExecModel ExecSpec ExecAfterProofs ExecProps
  HideModel HideSpec HideProofs HideProps RestackModel RestackSpec RestackProofs RestackProps SyncModel SyncSpec SyncProofs.
Local Open Scope string_scope.
Local Open Scope list_scope.

(** ** C75: stacks *)

Lemma syncable_opens e r m : syncable e r m -> exists d, open_repo (re_hide e) (rr_repo r) = Some d.
Proof. intros SC. unfold open_repo. rewrite (sc_main _ _ _ SC). eauto. Qed.

(** Every stack that was meant is moved, or reported as not movable, or reported as being
    in place, once; and nothing else is.  In place are those whose first commit has the
    main branch as its only parent. *)
Theorem c75_stacks : forall e ts i sets r m, let s := sync_stacks e ts (TxId i) sets r in
  syncable e r m -> sy_ok s = true -> fresh (he_graph (re_hide e)) (hr_log (rr_repo r)) (became (sy_done s)) ->
  NoDup (handled s) /\
  (forall c, c ∈ handled s <-> stack_root (he_graph (re_hide e)) (rr_repo r) m c /\ meant_to_sync (he_graph (re_hide e)) sets c) /\
  (forall c, c ∈ sy_skipped s <-> c ∈ handled s /\ parents_of (he_graph (re_hide e)) c = [m]).
Proof.
  intros e ts i sets r m s SC Ok_ F. destruct (syncable_opens e r m SC) as [d Op].
  destruct (sync_stacks_spec e r d m SC Op ts i sets Ok_ F) as (_ & A & B & C). auto.
Qed.

(** All commits of the stacks that were moved are made again with their changes on top of
    the main branch, or of the new version of their parent, and otherwise as before; those
    that are dropped are upstream already or change nothing there. *)
Theorem c75_moved : forall e ts i sets r m, let s := sync_stacks e ts (TxId i) sets r in
  syncable e r m -> sy_ok s = true -> fresh (he_graph (re_hide e)) (hr_log (rr_repo r)) (became (sy_done s)) ->
  stacks_moved e r m (List.map fst (sy_done s)) (became (sy_done s)) (rr_store (sy_repo s)) /\
  rr_store r ⊆ rr_store (sy_repo s).
Proof.
  intros e ts i sets r m s SC Ok_ F. destruct (syncable_opens e r m SC) as [d Op].
  destruct (sync_stacks_spec e r d m SC Op ts i sets Ok_ F) as (S & _). split; [exact (sf_moved _ _ _ _ _ S)|exact (sf_store _ _ _ _ _ S)].
Qed.

(** They are then obsolete and their new versions are active; nothing changes about any
    other commit. *)
Theorem c75_recorded : forall e ts i sets r m, let s := sync_stacks e ts (TxId i) sets r in
  let rw := became (sy_done s) in let log' := hr_log (rr_repo (sy_repo s)) in
  syncable e r m -> sy_ok s = true -> fresh (he_graph (re_hide e)) (hr_log (rr_repo r)) rw ->
  (forall o new, rw !! o = Some new -> rewritten log' o new /\ visibility log' o Obsolete) /\
  (forall n, made rw n -> visibility log' n Active) /\
  (forall o v, rw !! o = None -> ~ made rw o -> visibility log' o v <-> visibility (hr_log (rr_repo r)) o v).
Proof.
  intros e ts i sets r m s rw log' SC Ok_ F. destruct (syncable_opens e r m SC) as [d Op].
  destruct (sync_stacks_spec e r d m SC Op ts i sets Ok_ F) as (S & _). destruct (sf_log _ _ _ _ _ S) as (es & El & T).
  unfold log', s. rewrite El. fold s rw in T |- *. pose proof (again_known e r m s SC S) as K. split_and!.
  - intros o new H. split; [eapply told_dom; eauto|eapply told_dom_obsolete; eauto].
  - intros n M. eapply told_made_active; eauto.
  - intros o v N M. apply (told_outside_status _ es rw T). now split.
Qed.

(** Local branches follow their commits, or go away with them when these are dropped; the
    main branch stays where it is, and so do all references that are not local branches
    (references that keep commits from being collected aside). *)
Theorem c75_branches : forall e ts i sets r m, let s := sync_stacks e ts (TxId i) sets r in
  let rw := became (sy_done s) in let refs' := hr_refs (rr_repo (sy_repo s)) in
  syncable e r m -> sy_ok s = true -> fresh (he_graph (re_hide e)) (hr_log (rr_repo r)) rw ->
  (forall n o, is_local n = true -> hr_refs (rr_repo r) !! n = Some o ->
     refs' !! n = match rw !! o with None => Some o | Some (NonZero o') => Some o' | Some Zero => None end) /\
  (forall n, is_local n = true -> hr_refs (rr_repo r) !! n = None -> refs' !! n = None) /\
  refs' !! he_main (re_hide e) = Some m /\
  (forall n, is_local n = false -> (forall o, n <> gc_name o) -> refs' !! n = hr_refs (rr_repo r) !! n).
Proof.
  intros e ts i sets r m s rw refs' SC Ok_ F. destruct (syncable_opens e r m SC) as [d Op].
  destruct (sync_stacks_spec e r d m SC Op ts i sets Ok_ F) as (S & _). pose proof (sf_refs _ _ _ _ _ S) as Rf. fold s rw refs' in Rf.
  assert (Out : rw !! m = None).
  { destruct (rw !! m) eqn:E; [|reflexivity]. exfalso.
    destruct (proj1 (sm_which _ _ _ _ _ _ (sf_moved _ _ _ _ _ S) m)) as (c & Hc & A & _); [unfold rw in E; eauto|].
    apply (proj2 (proj1 (sf_roots _ _ _ _ _ S c Hc))), A. }
  split_and!.
  - intros n o L Hn. rewrite (Rf n L). unfold branch_after. rewrite Hn, L. destruct (rw !! o) as [[|o']|] eqn:E; [|reflexivity..].
    destruct (decide (n = be_main (he_branch (re_hide e)))) as [->|_]; [|reflexivity].
    change (be_main (he_branch (re_hide e))) with (he_main (re_hide e)) in Hn. rewrite (sc_main _ _ _ SC) in Hn. injection Hn as <-. congruence.
  - intros n L Hn. rewrite (Rf n L). unfold branch_after. now rewrite Hn.
  - destruct (io_main _ _ (ra_order _ _ (sc_order _ _ _ SC))) as [n E]. assert (L : is_local (he_main (re_hide e)) = true) by (apply is_local_spec; eauto).
    rewrite (Rf _ L). unfold branch_after. rewrite (sc_main _ _ _ SC), L. now rewrite Out.
  - exact (sf_others _ _ _ _ _ S).
Qed.

(** HEAD goes where its commit went, or onto what that was to go onto if it was dropped;
    it stays on its branch while there is one. *)
Theorem c75_head : forall e ts i sets r m o, let s := sync_stacks e ts (TxId i) sets r in
  let r' := rr_repo (sy_repo s) in
  syncable e r m -> sy_ok s = true -> fresh (he_graph (re_hide e)) (hr_log (rr_repo r)) (became (sy_done s)) ->
  hi_oid (hr_head (rr_repo r)) = Some o ->
  (exists q, hi_oid (hr_head r') = Some q /\ becomes (onto (he_graph (re_hide e)) m (List.map fst (sy_done s))) (became (sy_done s)) o q) /\
  (forall n, hi_branch (hr_head r') = Some n <-> hi_branch (hr_head (rr_repo r)) = Some n /\ is_Some (hr_refs r' !! n)) /\
  (forall n, hi_branch (hr_head r') = Some n -> hr_refs r' !! n = hi_oid (hr_head r')).
Proof.
  intros e ts i sets r m o s r' SC Ok_ F Ho. destruct (syncable_opens e r m SC) as [d Op].
  destruct (sync_stacks_spec e r d m SC Op ts i sets Ok_ F) as (S & _). fold s in S.
  destruct (sf_head _ _ _ _ _ S) as (o' & q & Ho' & Hq & B). rewrite Ho in Ho'. injection Ho' as <-. split; [eauto|]. split.
  - intros n. split.
    + intros Hn. destruct (sf_branch _ _ _ _ _ S n Hn) as [A E]. split; [exact A|]. unfold r'. rewrite E, Hq. eauto.
    + intros [A I]. exact (sf_stays _ _ _ _ _ S n A I).
  - intros n Hn. apply (sf_branch _ _ _ _ _ S n Hn).
Qed.

(** All other stacks are left alone: those that cannot be moved, those in place, and those
    that were not meant. *)
Theorem c75_others : forall e ts i sets r m c o, let s := sync_stacks e ts (TxId i) sets r in
  let r' := rr_repo (sy_repo s) in
  syncable e r m -> sy_ok s = true -> fresh (he_graph (re_hide e)) (hr_log (rr_repo r)) (became (sy_done s)) ->
  stack_root (he_graph (re_hide e)) (rr_repo r) m c -> c ∉ List.map fst (sy_done s) -> in_stack (he_graph (re_hide e)) (rr_repo r) c o ->
  (forall v, visibility (hr_log r') o v <-> visibility (hr_log (rr_repo r)) o v) /\
  (forall n, is_local n = true -> hr_refs (rr_repo r) !! n = Some o -> hr_refs r' !! n = Some o).
Proof.
  intros e ts i sets r m c o s r' SC Ok_ F Rc Nc Io. destruct (syncable_opens e r m SC) as [d Op].
  destruct (sync_stacks_spec e r d m SC Op ts i sets Ok_ F) as (S & _). fold s in S.
  assert (N : became (sy_done s) !! o = None).
  { destruct (became (sy_done s) !! o) eqn:E; [|reflexivity]. exfalso.
    destruct (proj1 (sm_which _ _ _ _ _ _ (sf_moved _ _ _ _ _ S) o)) as (c' & Hc' & I'); [eauto|]. apply Nc.
    rewrite <- (stacks_apart _ _ m c' c o (io_graph _ _ (ra_order _ _ (sc_order _ _ _ SC))) (sf_roots _ _ _ _ _ S c' Hc') Rc); [exact Hc'| |exact I'|apply Io].
    intros x. now apply (sf_apart _ _ _ _ _ S). }
  assert (M : ~ made (became (sy_done s)) o).
  { intros X. destruct (F o X) as (_ & X' & _). apply X'. apply (shown_known e r (sc_order _ _ _ SC)), Io. }
  split.
  - intros v. now apply (c75_recorded e ts i sets r m SC Ok_ F).
  - intros n L Hn. pose proof (proj1 (c75_branches e ts i sets r m SC Ok_ F) n o L Hn) as X. fold s r' in X. now rewrite N in X.
Qed.

(** If commits can be read and written it comes to the end, and only a merge or a conflict
    keeps a stack from being moved. *)
Theorem c75_runs : forall e ts i sets r m, let s := sync_stacks e ts (TxId i) sets r in
  syncable e r m -> workable e r -> fresh (he_graph (re_hide e)) (hr_log (rr_repo r)) (became (sy_done s)) ->
  sy_ok s = true /\ forall c x, (c, x) ∈ sy_failed s -> stopped_at e r c x.
Proof.
  intros e ts i sets r m s SC Wk F. destruct (syncable_opens e r m SC) as [d Op]. exact (sync_stacks_works e r d m SC Op ts i sets Wk F).
Qed.

(** After all stacks were moved, each of them starts right on the main branch, so that a
    second run changes nothing. *)
Theorem c75_again : forall e e' ts i ts' i' sets r m, let s := sync_stacks e ts (TxId i) [] r in
  syncable e r m -> sy_ok s = true -> fresh (he_graph (re_hide e)) (hr_log (rr_repo r)) (became (sy_done s)) -> sy_failed s = [] ->
  syncable e' (sy_repo s) m -> grown (he_graph (re_hide e)) (rr_store (sy_repo s)) (became (sy_done s)) (he_graph (re_hide e')) ->
  (forall c, stack_root (he_graph (re_hide e')) (rr_repo (sy_repo s)) m c -> parents_of (he_graph (re_hide e')) c = [m]) /\
  exists skipped, sync_stacks e' ts' (TxId i') sets (sy_repo s) = mk_sr (sy_repo s) [] [] skipped true.
Proof.
  intros e e' ts i ts' i' sets r m s SC Ok_ F Nf SC' Gr. destruct (syncable_opens e r m SC) as [d Op]. destruct (syncable_opens e' _ m SC') as [d' Op'].
  destruct (sync_stacks_spec e r d m SC Op ts i [] Ok_ F) as (S & _ & In & Sk). fold s in S, In, Sk.
  assert (P : forall c, stack_root (he_graph (re_hide e')) (rr_repo (sy_repo s)) m c -> parents_of (he_graph (re_hide e')) c = [m]).
  { apply (again_in_place e e' r m s SC S F); [|exact SC'|exact Gr]. intros c Rc. assert (H : c ∈ handled s) by (apply In; split; [exact Rc|now left]).
    unfold handled in H. rewrite Nf in H. cbn [List.map app] in H. apply elem_of_app in H. destruct H as [H|H]; [auto|]. right. now apply Sk. }
  split; [exact P|]. exact (sync_stacks_in_place e' (sy_repo s) d' m ts' (TxId i') sets SC' Op' P).
Qed.

(** ** C76: the main branch *)

Lemma pullable_opens e r m up : pullable e r m up -> exists d, open_repo (re_hide e) (rr_repo r) = Some d.
Proof. intros PU. unfold open_repo. rewrite (pu_main _ _ _ _ PU). eauto. Qed.

(** When the main branch has nothing of its own it is put at its upstream and nothing else
    changes; HEAD goes with it if it was on it.  It is said whether there was anything to
    do.  If it cannot be done, nothing changes. *)
Theorem c76_forwarded : forall e ts tx fw r m up,
  let res := sync_main e ts tx fw (hr_head (rr_repo r)) r in let s := snd res in let r' := rr_repo (sy_repo s) in
  let on_main := hi_branch (hr_head (rr_repo r)) = Some (he_main (re_hide e)) in
  pullable e r m up -> ancestor (he_graph (re_hide e)) m up ->
  (fst res = Some NotUpdating <-> m = up) /\ (m <> up -> fst res = Some (Forwarding up)) /\ handled s = [] /\
  (sy_ok s = true <-> (on_main /\ fw <> None) \/ (~ on_main /\ be_writes (he_branch (re_hide e)) (he_main (re_hide e)) = true)) /\
  (sy_ok s = false -> sy_repo s = r) /\
  (sy_ok s = true -> rr_store (sy_repo s) = rr_store r /\ hr_refs r' = <[he_main (re_hide e) := up]> (hr_refs (rr_repo r)) /\
     (on_main -> hr_head r' = mk_head (Some up) (Some (he_main (re_hide e))) /\ exists es, fw = Some es /\ hr_log r' = hr_log (rr_repo r) ++ es) /\
     (~ on_main -> hr_head r' = hr_head (rr_repo r) /\ hr_log r' = hr_log (rr_repo r))).
Proof.
  intros e ts tx fw r m up res s r' on_main PU A. destruct (pullable_opens e r m up PU) as [d Op].
  unfold on_main, r', s, res. unfold sync_main. rewrite Op, (pu_main _ _ _ _ PU), (pu_up _ _ _ _ PU). cbv zeta.
  destruct (decide (only _ _ _ = ∅)) as [_|N]; [|destruct N; now apply (own_empty e r d m up PU Op)].
  set (msg := if decide (m = up) then NotUpdating else Forwarding up).
  assert (M1 : Some msg = Some NotUpdating <-> m = up) by (unfold msg; destruct (decide (m = up)); split; congruence).
  assert (M2 : m <> up -> Some msg = Some (Forwarding up)) by (unfold msg; destruct (decide (m = up)); congruence).
  destruct (decide (hi_branch (hr_head (rr_repo r)) = Some (he_main (re_hide e)))) as [E|E]; [destruct fw as [es|]|destruct (be_writes _ _)];
    cbn [fst snd begin_with sy_ok sy_repo rr_repo rr_store hr_head hr_refs hr_log]; unfold handled; cbn [sy_done sy_failed sy_skipped List.map app begin_with];
    (split; [exact M1|]); (split; [exact M2|]); (split; [reflexivity|]).
  - split; [split; [intros _; left; split; [exact E|discriminate]|reflexivity]|]. split; [discriminate|]. intros _. split; [reflexivity|]. split; [reflexivity|].
    split; [|contradiction]. intros _. split; [now rewrite E|]. eauto.
  - split; [split; [discriminate|intros [[_ X]|[X _]]; contradiction]|]. split; [reflexivity|discriminate].
  - split; [split; [intros _; right; auto|reflexivity]|]. split; [discriminate|]. intros _. split; [reflexivity|]. split; [reflexivity|].
    split; [contradiction|]. auto.
  - split; [split; [discriminate|intros [[X _]|[_ X]]; [contradiction|discriminate]]|]. split; [reflexivity|discriminate].
Qed.

(** When it tracks nothing, nothing happens. *)
Theorem c76_untracked : forall e ts tx fw r m,
  hr_refs (rr_repo r) !! he_main (re_hide e) = Some m -> be_upstream (he_branch (re_hide e)) = Some None ->
  sync_main e ts tx fw (hr_head (rr_repo r)) r = (Some NotTracking, mk_sr r [] [] [] true).
Proof. intros e ts tx fw r m Hm Up. unfold sync_main, open_repo. now rewrite Hm, Up. Qed.

(** When it has commits of its own, starting with one that is no merge, these and all that
    is shown above them are put on top of the upstream, with branches and HEAD following;
    or they are reported as not movable, and no reference, HEAD or commit is different. *)
Theorem c76_moved : forall e ts i fw r m up c,
  let res := sync_main e ts (TxId i) fw (hr_head (rr_repo r)) r in let s := snd res in let r' := rr_repo (sy_repo s) in
  let g := he_graph (re_hide e) in
  pullable e r m up -> (forall x, first_ahead g m up x <-> x = c) -> ~ merge_commit g c -> sy_ok s = true ->
  fresh g (hr_log (rr_repo r)) (became (sy_done s)) ->
  fst res = Some Syncing /\
  ((exists rw, sy_done s = [(c, Some rw)] /\ sy_failed s = [] /\ stacks_moved e r up [c] rw (rr_store (sy_repo s)) /\
      hr_refs r' !! he_main (re_hide e) = match rw !! m with Some (NonZero n) => Some n | _ => Some up end /\
      (forall n o, is_local n = true -> n <> he_main (re_hide e) -> hr_refs (rr_repo r) !! n = Some o ->
         hr_refs r' !! n = match rw !! o with None => Some o | Some (NonZero o') => Some o' | Some Zero => None end) /\
      (forall n, is_local n = false -> (forall o, n <> gc_name o) -> hr_refs r' !! n = hr_refs (rr_repo r) !! n) /\
      (exists h q, hi_oid (hr_head (rr_repo r)) = Some h /\ hi_oid (hr_head r') = Some q /\
         (becomes (onto g up [c]) rw h q \/
          (hi_branch (hr_head (rr_repo r)) = Some (he_main (re_hide e)) /\ rw !! h = Some Zero /\ q = up))) /\
      (forall n, hi_branch (hr_head r') = Some n <-> hi_branch (hr_head (rr_repo r)) = Some n /\ is_Some (hr_refs r' !! n)) /\
      (forall o new, rw !! o = Some new -> rewritten (hr_log r') o new /\ visibility (hr_log r') o Obsolete) /\
      (forall n, made rw n -> visibility (hr_log r') n Active) /\
      (forall o v, rw !! o = None -> ~ made rw o -> visibility (hr_log r') o v <-> visibility (hr_log (rr_repo r)) o v)) \/
   (exists x, sy_done s = [] /\ sy_failed s = [(c, x)] /\ hr_refs r' = hr_refs (rr_repo r) /\ hr_head r' = hr_head (rr_repo r) /\
      rr_store r ⊆ rr_store (sy_repo s) /\ forall o v, visibility (hr_log r') o v <-> visibility (hr_log (rr_repo r)) o v)).
Proof.
  intros e ts i fw r m up c res s r' g PU Fc NM Ok_ F. destruct (pullable_opens e r m up PU) as [d Op].
  assert (Hc : first_ahead g m up c) by now apply Fc. split.
  { unfold res. destruct (sync_main_moves e r d m up PU Op ts i fw (hr_head (rr_repo r)) c Fc NM) as (al & dest & cmds & _ & E). now rewrite E. }
  destruct (sync_main_runs e r d m up PU Op ts i fw (hr_head (rr_repo r)) c Fc NM Ok_) as [(rw & Ed & Ef & Rd)|(x & Ed & Ef & Rc)].
  - left. fold res s in Ed, Ef, Rd. assert (Eb : became (sy_done s) = rw) by (rewrite Ed; cbn; apply (right_id_L ∅ (∪))). rewrite Eb in F.
    pose proof (fun x => moved_rw e r d m up PU Op c (sy_repo s) rw Hc Rd x) as Mr.
    assert (K : forall o, is_Some (rw !! o) -> o ∈ vertices g). { intros o H. apply Mr in H. apply (shown_known e r (pu_order _ _ _ _ PU)), H. }
    assert (Lm : is_local (he_main (re_hide e)) = true). { destruct (io_main _ _ (ra_order _ _ (pu_order _ _ _ _ PU))) as [n E]. apply is_local_spec; eauto. }
    assert (Sm : is_Some (rw !! m)). { apply Mr. split; [apply Hc|]. apply (main_shown e r m up PU). constructor. }
    destruct (rd_log _ _ _ _ _ _ _ _ Rd) as (es & El & T); [intros n M; apply (F n M)|].
    exists rw. split_and!; auto.
    + exact (moved_moved e r d m up PU Op c (sy_repo s) rw Hc Rd).
    + unfold r'. rewrite (rd_refs _ _ _ _ _ _ _ _ Rd _ Lm). unfold branch_after. rewrite (pu_main _ _ _ _ PU), Lm.
      destruct Sm as [[|n] Sm]; rewrite Sm; [|reflexivity]. rewrite decide_True by reflexivity. now rewrite (pu_up _ _ _ _ PU).
    + intros n o L Nn Hn. unfold r'. rewrite (rd_refs _ _ _ _ _ _ _ _ Rd _ L). unfold branch_after. rewrite Hn, L.
      destruct (rw !! o) as [[|o']|]; [|reflexivity..]. rewrite decide_False by exact Nn. reflexivity.
    + exact (rd_others _ _ _ _ _ _ _ _ Rd).
    + destruct (rd_head _ _ _ _ _ _ _ _ Rd) as (h & q & H1 & H2 & H3). exists h, q. split; [exact H1|]. split; [exact H2|].
      destruct H3 as [H3|(A & B & C)]; [left; now apply (moved_becomes e r d m up PU Op c (sy_repo s) rw Hc Rd)|right].
      split; [exact A|]. split; [exact B|]. rewrite (pu_up _ _ _ _ PU) in C. congruence.
    + intros n. split.
      * intros Hn. destruct (rd_branch _ _ _ _ _ _ _ _ Rd n Hn) as [A E]. split; [exact A|]. unfold r'. rewrite E.
        destruct (rd_head _ _ _ _ _ _ _ _ Rd) as (h & q & _ & H2 & _). rewrite H2. eauto.
      * intros [A I]. exact (rd_stays _ _ _ _ _ _ _ _ Rd n A I).
    + intros o new H. unfold r'. rewrite El. split; [eapply told_dom; eauto|eapply told_dom_obsolete; eauto].
    + intros n M. unfold r'. rewrite El. eapply told_made_active; eauto.
    + intros o v N M. unfold r'. rewrite El. apply (told_outside_status _ es rw T). now split.
  - right. fold res s in Ed, Ef, Rc. exists x. destruct Rc as [R1 R2 R3 R4 (q & R5 & Q)]. split_and!; auto.
    intros o v. unfold r'. rewrite R5. apply visibility_app_iff. intros y Hy. now apply Q.
Qed.

(** If commits can be read and written, only a merge or a conflict is in the way. *)
Theorem c76_runs : forall e ts i fw r m up c,
  let s := snd (sync_main e ts (TxId i) fw (hr_head (rr_repo r)) r) in
  pullable e r m up -> workable e r -> (forall x, first_ahead (he_graph (re_hide e)) m up x <-> x = c) -> ~ merge_commit (he_graph (re_hide e)) c ->
  sy_ok s = true /\ forall c' x, (c', x) ∈ sy_failed s -> stopped_at e r c x.
Proof.
  intros e ts i fw r m up c s PU Wk Fc NM. destruct (pullable_opens e r m up PU) as [d Op].
  exact (sync_main_works e r d m up PU Op ts i fw _ c Wk Fc NM).
Qed.

(** With several first commits of its own it is not touched, and this is not said. *)
Theorem c76_several : forall e ts tx fw r m up a b,
  pullable e r m up -> first_ahead (he_graph (re_hide e)) m up a -> first_ahead (he_graph (re_hide e)) m up b -> a <> b ->
  sync_main e ts tx fw (hr_head (rr_repo r)) r = (Some Syncing, mk_sr r [] [] [] true).
Proof.
  intros e ts tx fw r m up a b PU Ha Hb Ne. destruct (pullable_opens e r m up PU) as [d Op].
  unfold sync_main. rewrite Op, (pu_main _ _ _ _ PU), (pu_up _ _ _ _ PU). cbv zeta.
  pose proof (dag_is e r d (pu_order _ _ _ _ PU) Op) as G.
  assert (W : wf_graph (dag_graph d)) by (rewrite G; exact (pull_wf e r m up PU)).
  destruct (decide _) as [E|_]; [exfalso; apply (own_empty e r d m up PU Op) in E; apply (proj2 (proj1 Ha)); eapply rtc_transitive; [apply (proj1 (proj1 Ha))|exact E]|].
  destruct (verify_rewrite_set _ _ _) as [allowed|] eqn:Ev.
  2:{ exfalso. apply verify_rewrite_set_none in Ev; [|exact W]. destruct Ev as [Ev _]. discriminate. }
  assert (In : forall x, first_ahead (he_graph (re_hide e)) m up x -> x ∈ re_order e (roots (dag_graph d) (only (dag_graph d) {[m]} {[up]}))).
  { intros x Hx. rewrite (ra_sets _ _ (pu_order _ _ _ _ PU)), elem_of_elements. now apply (own_roots e r d m up PU Op). }
  pose proof (In a Ha) as Ia. pose proof (In b Hb) as Ib.
  destruct (re_order e _) as [|x [|y l]]; [reflexivity| |reflexivity]. exfalso. apply Ne. apply elem_of_list_singleton in Ia, Ib. congruence.
Qed.

(** When pulling, the stacks are moved after the main branch, onto its new place; they are
    left alone if the main branch could not be moved. *)
Theorem c76_then : forall e e' ts i fw sets r m up, let g' := he_graph (re_hide e') in
  pullable e r m up -> ancestor (he_graph (re_hide e)) m up -> he_main (re_hide e') = he_main (re_hide e) ->
  match sync e e' ts (TxId i) fw true sets r with
  | [s] => sy_ok s = false /\ sy_repo s = r
  | [s; s'] => sy_ok s = true /\
      ((forall c, stack_root g' (rr_repo (sy_repo s)) up c -> ~ merge_commit g' c) -> restackable e' (sy_repo s) -> in_memory e' ->
       sy_ok s' = true -> fresh g' (hr_log (rr_repo (sy_repo s))) (became (sy_done s')) ->
       hr_refs (rr_repo (sy_repo s')) !! he_main (re_hide e) = Some up /\
       (forall c, c ∈ handled s' <-> stack_root g' (rr_repo (sy_repo s)) up c /\ meant_to_sync g' sets c) /\
       (forall c, c ∈ sy_skipped s' <-> c ∈ handled s' /\ parents_of g' c = [up]) /\
       stacks_moved e' (sy_repo s) up (List.map fst (sy_done s')) (became (sy_done s')) (rr_store (sy_repo s')))
  | _ => False
  end.
Proof.
  intros e e' ts i fw sets r m up g' PU A Hm. destruct (c76_forwarded e ts (TxId i) fw r m up PU A) as (_ & _ & _ & _ & No & Yes).
  unfold sync. set (s := snd (sync_main e ts (TxId i) fw (hr_head (rr_repo r)) r)) in *. destruct (sy_ok s) eqn:Ok_; [|auto].
  split; [exact Ok_|]. intros NM Re Im Ok' F. destruct (Yes eq_refl) as (_ & Rf & _).
  assert (SC : syncable e' (sy_repo s) up).
  { constructor; [exact Re|exact Im|rewrite Hm, Rf; apply lookup_insert|exact NM]. }
  destruct (c75_stacks e' ts i sets (sy_repo s) up SC Ok' F) as (_ & B & C).
  destruct (c75_moved e' ts i sets (sy_repo s) up SC Ok' F) as (D & _).
  destruct (c75_branches e' ts i sets (sy_repo s) up SC Ok' F) as (_ & _ & E & _). rewrite Hm in E. auto.
Qed.

(** ** Demonstrations *)
Local Open Scope Z_scope.

(** Conditions in a form that can be computed. *)
Fixpoint ordered_from (seen : commit_set) (g : graph) : bool :=
  match g with
  | [] => true
  | (o, ps) :: g' => negb (bool_decide (o ∈ seen)) && forallb (fun p => bool_decide (p ∈ seen)) ps && ordered_from ({[o]} ∪ seen) g'
  end.
Lemma ordered_from_spec g : forall seen, ordered_from seen g = true -> well_ordered seen g.
Proof.
  induction g as [|[o ps] g IH]; intros seen H; cbn in *; [exact I|]. rewrite !andb_true_iff in H. destruct H as [[A B] C]. split_and!.
  - apply negb_true_iff, bool_decide_eq_false in A. exact A.
  - intros p Hp. rewrite forallb_forall in B. apply elem_of_list_In in Hp. specialize (B p Hp). now apply bool_decide_eq_true in B.
  - now apply IH.
Qed.
Definition event_names (x : event) : list oid :=
  match x with
  | CommitEvent _ _ o | ObsoleteEvent _ _ o | UnobsoleteEvent _ _ o => [o]
  | RewriteEvent _ _ a b => (match a with NonZero o => [o] | Zero => [] end) ++ match b with NonZero o => [o] | Zero => [] end
  | _ => []
  end.
Definition all_fresh (g : graph) (log : list event) (rw : gmap oid moid) : bool :=
  forallb (fun v => match snd v with
                    | NonZero n => bool_decide (0 < n < 100)%N && negb (bool_decide (n ∈ vertices g)) && negb (bool_decide (n ∈ flat_map event_names log))
                    | Zero => true
                    end) (map_to_list rw).
Lemma all_fresh_spec g log rw : all_fresh g log rw = true -> fresh g log rw.
Proof.
  intros H n [o Ho]. unfold all_fresh in H. rewrite forallb_forall in H. apply elem_of_map_to_list, elem_of_list_In in Ho. specialize (H _ Ho). cbn in H.
  rewrite !andb_true_iff, !negb_true_iff in H. destruct H as [[A B] C]. apply bool_decide_eq_true in A. apply bool_decide_eq_false in B, C. split_and!.
  - unfold oid_ok, oid_limit. assert (100 < 2 ^ 160)%N by reflexivity. unfold oid in *. lia.
  - exact B.
  - intros x Hx Cn. apply C, elem_of_list_In, in_flat_map. exists x. split; [now apply elem_of_list_In|]. destruct x as [? ? [] []| | | | |]; destruct Cn as [Cn|Cn]; cbn in Cn |- *; intuition congruence.
Qed.
(** The graph with commits added that were made. *)
Definition all_added (g : graph) (st : store) (rw : gmap oid moid) (more : graph) : bool :=
  forallb (fun v => negb (bool_decide (fst v ∈ vertices g)) && bool_decide (NonZero (fst v) ∈ List.map snd (map_to_list rw))
                    && match st !! fst v with Some x => bool_decide (commit_parents (ob_commit x) = snd v) | None => false end) more
  && forallb (fun v => match snd v with NonZero n => bool_decide (n ∈ List.map fst more) | Zero => true end) (map_to_list rw).
Lemma all_added_spec g st rw more : ordered_from ∅ (g ++ more) = true -> all_added g st rw more = true -> grown g st rw (g ++ more).
Proof.
  intros W H. apply ordered_from_spec in W. apply andb_true_iff in H. destruct H as [H1 H2]. rewrite forallb_forall in H1, H2.
  assert (A : forall n ps, (n, ps) ∈ more -> n ∉ vertices g /\ made rw n /\ exists x, st !! n = Some x /\ commit_parents (ob_commit x) = ps).
  { intros n ps Hn. apply elem_of_list_In in Hn. specialize (H1 _ Hn). cbn in H1. rewrite !andb_true_iff, negb_true_iff in H1. destruct H1 as [[A B] C].
    apply bool_decide_eq_false in A. apply bool_decide_eq_true in B. split; [exact A|]. split.
    - apply elem_of_list_In, in_map_iff in B. destruct B as ([o y] & E & B). cbn in E. subst y. exists o. now apply elem_of_map_to_list, elem_of_list_In.
    - destruct (st !! n) as [x|]; [|discriminate]. apply bool_decide_eq_true in C. eauto. }
  constructor.
  - exact W.
  - intros c Hc. unfold vertices in Hc. rewrite map_app, list_to_set_app_L in Hc. apply elem_of_union in Hc. destruct Hc as [Hc|Hc]; [now left|right].
    apply elem_of_list_to_set, elem_of_list_In, in_map_iff in Hc. destruct Hc as ([n ps] & <- & Hc). apply elem_of_list_In in Hc. now apply (A n ps).
  - intros p c Hc. split; intros (ps & Hi & Hp); exists ps; (split; [|exact Hp]).
    + apply elem_of_app in Hi. destruct Hi as [Hi|Hi]; [exact Hi|]. destruct (A _ _ Hi) as [N _]. contradiction.
    + apply elem_of_app. now left.
  - intros p n x Hn Hx. destruct Hn as [o Ho]. apply elem_of_map_to_list, elem_of_list_In in Ho. specialize (H2 _ Ho). cbn in H2. apply bool_decide_eq_true in H2.
    apply elem_of_list_In, in_map_iff in H2. destruct H2 as ([n' ps] & E & H2). cbn in E. subst n'. apply elem_of_list_In in H2.
    destruct (A _ _ H2) as (Nv & _ & x' & Hx' & <-). assert (x' = x) as -> by congruence. split.
    + intros (ps & Hi & Hp). apply elem_of_app in Hi. destruct Hi as [Hi|Hi].
      * exfalso. apply Nv. unfold vertices. apply elem_of_list_to_set, elem_of_list_In, in_map_iff. exists (n, ps). split; [reflexivity|now apply elem_of_list_In].
      * destruct (A _ _ Hi) as (_ & _ & x' & Hx'' & <-). congruence.
    + intros Hp. eexists. split; [apply elem_of_app; right; exact H2|exact Hp].
Qed.

(** The surroundings: what picking does, and where the upstream of the main branch is. *)
Definition sdemo_env (g : graph) (objs : list (oid * object)) (pick : oid -> oid -> attempt) (up : option oid) : restack_env :=
  mk_re (mk_he g yes oid_to_string (mk_be yes yes "refs/heads/main" (Some up)) table_of yes (fun _ => None) None)
    (mk_ee (named_as objs) pick (fun _ _ => Conflict) (fun n => n + 1)%N yes None)
    (fun _ _ => false) elements elements map_to_list (fun r => (r, FailedExit)) (fun _ => []) false false false false.
Lemma sdemo_restackable g objs pick up r : ordered_from ∅ g = true -> rdemo_good g objs r = true -> restackable (sdemo_env g objs pick up) r.
Proof.
  intros W H. apply ordered_from_spec in W. destruct (rdemo_restackable g objs yes r W H) as [A1 A2 A3 A4 A5 A6 A7 A8 A9 A10 A11 A12 A13].
  constructor; auto; [destruct A1; constructor; auto|cbn; eauto].
Qed.
Lemma sdemo_memory g objs pick up : in_memory (sdemo_env g objs pick up). Proof. split; [reflexivity|now left]. Qed.
Lemma sdemo_workable g objs pick up r : restackable (sdemo_env g objs pick up) r -> (forall c q, pick c q <> Broken) -> workable (sdemo_env g objs pick up) r.
Proof.
  intros R P. constructor; try reflexivity.
  - intros c Hc. destruct (ra_store _ _ R c Hc) as (x & Hx & _). exists x. split; [exact Hx|reflexivity].
  - exact P.
  - intros c q. discriminate.
Qed.
(** Picking makes trees, except in the places given. *)
Definition picks (bad : list (oid * oid)) (c q : oid) : attempt := if bool_decide ((c, q) ∈ bad) then Conflict else MadeTree (c + 50)%N.
Lemma picks_fine bad c q : picks bad c q <> Broken. Proof. unfold picks. case_bool_decide; discriminate. Qed.
(** A commit made again. *)
Definition again (n c q : N) : oid * object := (n, mk_object (mk_commit [q] (c + 50)%N) (c + 20)%N (c + 31)%N (c + 40)%N).

(** The main branch is at 2.  On 1, which it was at before, are the stacks of 3 and 4,
    with the branch [a] where HEAD is, and of 5; on 2 is the stack of 6. *)
Definition sdemo_graph : graph := [(1%N, []); (2%N, [1%N]); (3%N, [1%N]); (4%N, [3%N]); (5%N, [1%N]); (6%N, [2%N])].
Definition sdemo_objects : list (oid * object) := objects_in sdemo_graph ++ [again 7 3 2; again 8 4 7; again 9 5 2].
Definition sdemo_log : list event := List.map (CommitEvent 1 (TxId 1)) [3%N; 4%N; 5%N; 6%N].
Definition sdemo : rrepo :=
  rdemo_repo sdemo_graph [("refs/heads/main", 2%N); ("refs/heads/a", 4%N)] (mk_head (Some 4%N) (Some "refs/heads/a")) sdemo_log.
Definition sdemo_more : graph := [(7%N, [2%N]); (8%N, [7%N]); (9%N, [2%N])].
Lemma sdemo_syncable bad : syncable (sdemo_env sdemo_graph sdemo_objects (picks bad) None) sdemo 2.
Proof.
  constructor.
  - apply sdemo_restackable; vm_compute; reflexivity.
  - apply sdemo_memory.
  - vm_compute. reflexivity.
  - intros c _. apply no_merges_spec. reflexivity.
Qed.

(** [git sync] there: 3, 4 and 5 are made again on 2, 6 is in place; a second run has
    nothing to do. *)
Example c75_example :
  let e := sdemo_env sdemo_graph sdemo_objects (picks []) None in
  let e' := sdemo_env (sdemo_graph ++ sdemo_more) sdemo_objects (picks []) None in
  let s := sync_stacks e 9 (TxId 9) [] sdemo in let r' := rr_repo (sy_repo s) in
  syncable e sdemo 2 /\ workable e sdemo /\ sy_ok s = true /\ fresh sdemo_graph sdemo_log (became (sy_done s)) /\
  List.map fst (sy_done s) = [3%N; 5%N] /\ sy_failed s = [] /\ sy_skipped s = [6%N] /\
  map_to_list (became (sy_done s)) = [(3%N, NonZero 7); (5%N, NonZero 9); (4%N, NonZero 8)] /\
  List.map (fun n : refname => hr_refs r' !! n) ["refs/heads/main"; "refs/heads/a"] = [Some 2%N; Some 8%N] /\
  hr_head r' = mk_head (Some 8%N) (Some "refs/heads/a") /\
  List.map (status_in (hr_log r')) [3%N; 4%N; 5%N; 6%N; 7%N; 8%N; 9%N] = [Obsolete; Obsolete; Obsolete; Active; Active; Active; Active] /\
  syncable e' (sy_repo s) 2 /\ grown sdemo_graph (rr_store (sy_repo s)) (became (sy_done s)) (sdemo_graph ++ sdemo_more) /\
  sy_skipped (sync_stacks e' 10 (TxId 10) [] (sy_repo s)) = [7%N; 9%N; 6%N].
Proof.
  intros e e' s r'. split; [apply sdemo_syncable|]. split; [apply sdemo_workable; [apply sdemo_syncable|apply picks_fine]|].
  split; [vm_compute; reflexivity|]. split; [apply all_fresh_spec; vm_compute; reflexivity|].
  split; [vm_compute; reflexivity|]. split; [vm_compute; reflexivity|]. split; [vm_compute; reflexivity|].
  split; [vm_compute; reflexivity|]. split; [vm_compute; reflexivity|]. split; [vm_compute; reflexivity|]. split; [vm_compute; reflexivity|].
  split; [|split; [apply all_added_spec; vm_compute; reflexivity|vm_compute; reflexivity]].
  constructor.
  - apply sdemo_restackable; vm_compute; reflexivity.
  - apply sdemo_memory.
  - vm_compute. reflexivity.
  - intros c _. apply no_merges_spec. reflexivity.
Qed.

(** ** Where it goes wrong *)

(** The command says that it succeeded though a stack could not be moved. *)
Theorem c75_exit_refuted : exists e ts i r m,
  let s := sync_stacks e ts (TxId i) [] r in
  syncable e r m /\ workable e r /\ fresh (he_graph (re_hide e)) (hr_log (rr_repo r)) (became (sy_done s)) /\ sy_ok s = true /\ sy_failed s <> [].
Proof.
  exists (sdemo_env sdemo_graph sdemo_objects (picks [(5%N, 2%N)]) None), 9, 9, sdemo, 2%N. intros s.
  split; [apply sdemo_syncable|]. split; [apply sdemo_workable; [apply sdemo_syncable|apply picks_fine]|].
  split; [apply all_fresh_spec; vm_compute; reflexivity|]. split; [vm_compute; reflexivity|vm_compute; discriminate].
Qed.
(** The other stack is moved all the same. *)
Example c75_example_conflict :
  let e := sdemo_env sdemo_graph sdemo_objects (picks [(5%N, 2%N)]) None in let s := sync_stacks e 9 (TxId 9) [] sdemo in
  List.map fst (sy_done s) = [3%N] /\ sy_failed s = [(5%N, 5%N)] /\ sy_skipped s = [6%N] /\
  stack_root sdemo_graph (rr_repo sdemo) 2 5 /\ in_stack sdemo_graph (rr_repo sdemo) 5 5.
Proof.
  intros e s. split; [vm_compute; reflexivity|]. split; [vm_compute; reflexivity|]. split; [vm_compute; reflexivity|].
  assert (R : stack_root sdemo_graph (rr_repo sdemo) 2 5).
  { apply (c75_stacks e 9 9 [] sdemo 2%N (sdemo_syncable _)); [vm_compute; reflexivity|apply all_fresh_spec; vm_compute; reflexivity|].
    apply (bool_decide_unpack _). vm_compute. exact Logic.I. }
  split; [exact R|]. split; [constructor|]. apply R.
Qed.

(** Commits that were replaced are brought back: with the main branch at 2, the commit 3
    on 1 was rewritten to 5 on 2, leaving 4 behind on 3.  Syncing makes 3 again beside 5
    and calls it active. *)
Definition vdemo_graph : graph := [(1%N, []); (2%N, [1%N]); (3%N, [1%N]); (4%N, [3%N]); (5%N, [2%N])].
Definition vdemo_objects : list (oid * object) := objects_in vdemo_graph ++ [again 7 3 2; again 8 4 7].
Definition vdemo : rrepo :=
  rdemo_repo vdemo_graph [("refs/heads/main", 2%N)] (mk_head (Some 2%N) (Some "refs/heads/main"))
    (List.map (CommitEvent 1 (TxId 1)) [3%N; 4%N] ++ [rewrote 3 5]).
Theorem c75_replaced_refuted : exists e ts i r m c new n,
  let s := sync_stacks e ts (TxId i) [] r in
  syncable e r m /\ sy_ok s = true /\ fresh (he_graph (re_hide e)) (hr_log (rr_repo r)) (became (sy_done s)) /\
  rewritten (hr_log (rr_repo r)) c (NonZero new) /\ visibility (hr_log (rr_repo r)) new Active /\
  became (sy_done s) !! c = Some (NonZero n) /\ n <> new /\
  visibility (hr_log (rr_repo (sy_repo s))) n Active /\ visibility (hr_log (rr_repo (sy_repo s))) new Active.
Proof.
  exists (sdemo_env vdemo_graph vdemo_objects (picks []) None), 9, 9, vdemo, 2%N, 3%N, 5%N, 7%N. intros s. split_and!.
  - constructor; [apply sdemo_restackable; vm_compute; reflexivity|apply sdemo_memory|vm_compute; reflexivity|].
    intros c _. apply no_merges_spec. reflexivity.
  - vm_compute. reflexivity.
  - apply all_fresh_spec. vm_compute. reflexivity.
  - apply (last_rewrite (List.map (CommitEvent 1 (TxId 1)) [3%N; 4%N])). discriminate.
  - apply status_in_spec. vm_compute. reflexivity.
  - vm_compute. reflexivity.
  - discriminate.
  - apply status_in_spec. vm_compute. reflexivity.
  - apply status_in_spec. vm_compute. reflexivity.
Qed.

(** Stacks joined by a merge are not moved, conflicts or not. *)
Definition jdemo_graph : graph := [(1%N, []); (2%N, [1%N]); (3%N, [1%N]); (4%N, [1%N]); (5%N, [3%N; 4%N])].
Definition jdemo (main : oid) : rrepo :=
  rdemo_repo jdemo_graph [("refs/heads/main", main)] (mk_head (Some main) (Some "refs/heads/main")) (List.map (CommitEvent 1 (TxId 1)) [3%N; 4%N; 5%N]).
Lemma jdemo_merge k : merge_commit jdemo_graph k -> k = 5%N.
Proof.
  intros (ps & Hk & L). unfold jdemo_graph in Hk. rewrite !elem_of_cons in Hk.
  destruct Hk as [[= -> ->]|[[= -> ->]|[[= -> ->]|[[= -> ->]|[[= -> ->]|Hk]]]]]; cbn in L; try lia. now apply elem_of_nil in Hk.
Qed.
Lemma not_ancestor g a b : ordered_from ∅ g = true -> bool_decide (a ∈ ancestors g {[b]}) = false -> ~ ancestor g a b.
Proof.
  intros W H A. apply ordered_from_spec in W. apply bool_decide_eq_false in H. apply H. apply (ancestors_spec _ _ _ W). exists b.
  split; [now apply elem_of_singleton|exact A].
Qed.
Theorem c75_merge_refuted : exists e ts i r m,
  let s := sync_stacks e ts (TxId i) [] r in
  syncable e r m /\ workable e r /\ (forall c q, ee_pick (re_exec e) c q <> Conflict) /\ sy_ok s = true /\
  sy_done s = [] /\ List.map fst (sy_failed s) = [3%N; 4%N].
Proof.
  exists (sdemo_env jdemo_graph (objects_in jdemo_graph ++ [again 7 3 2; again 8 4 2]) (picks []) None), 9, 9, (jdemo 2), 2%N. intros s.
  assert (SC : syncable (sdemo_env jdemo_graph (objects_in jdemo_graph ++ [again 7 3 2; again 8 4 2]) (picks []) None) (jdemo 2) 2).
  { constructor; [apply sdemo_restackable; vm_compute; reflexivity|apply sdemo_memory|vm_compute; reflexivity|].
    intros c [_ P] M. apply jdemo_merge in M. subst c.
    assert (X : parent jdemo_graph 3%N 5%N) by (exists [3%N; 4%N]; split; decide_it). apply P in X. revert X. apply not_ancestor; vm_compute; reflexivity. }
  split; [exact SC|]. split; [apply sdemo_workable; [apply SC|apply picks_fine]|].
  split; [intros c q; discriminate|]. split; [vm_compute; reflexivity|]. split; vm_compute; reflexivity.
Qed.

(** The main branch at 4 has the commits 3 and 4 that its upstream at 2 does not have. *)
Definition pdemo_graph : graph := [(1%N, []); (2%N, [1%N]); (3%N, [1%N]); (4%N, [3%N])].
Definition pdemo_objects : list (oid * object) := objects_in pdemo_graph ++ [again 7 3 2; again 8 4 7].
Definition pdemo (main : oid) (head : head_info) : rrepo :=
  rdemo_repo pdemo_graph [("refs/heads/main", main); ("refs/heads/a", 4%N)] head (List.map (CommitEvent 1 (TxId 1)) [3%N; 4%N]).
Definition on_main (o : oid) : head_info := mk_head (Some o) (Some "refs/heads/main").
Lemma pdemo_pullable pick main head up : rdemo_good pdemo_graph pdemo_objects (pdemo main head) = true -> up ∈ vertices pdemo_graph ->
  pullable (sdemo_env pdemo_graph pdemo_objects pick (Some up)) (pdemo main head) main up.
Proof.
  intros G Hu. constructor; [apply sdemo_restackable; [vm_compute; reflexivity|exact G]|apply sdemo_memory|reflexivity|reflexivity|exact Hu].
Qed.
Lemma pdemo_first x : first_ahead pdemo_graph 4 2 x <-> x = 3%N.
Proof.
  assert (R : roots pdemo_graph (only pdemo_graph ({[4%N : oid]} : commit_set) ({[2%N : oid]} : commit_set)) = ({[3%N : oid]} : commit_set)) by (apply (bool_decide_unpack _); vm_compute; exact Logic.I).
  set (e := sdemo_env pdemo_graph pdemo_objects (picks []) (Some 2%N)).
  assert (PU : pullable e (pdemo 4 (on_main 4)) 4 2) by (apply pdemo_pullable; [vm_compute; reflexivity|decide_it]).
  destruct (pullable_opens _ _ _ _ PU) as [d Op]. pose proof (own_roots e _ d 4%N 2%N PU Op x) as X.
  rewrite (dag_is e _ d (pu_order _ _ _ _ PU) Op) in X. cbn [e sdemo_env re_hide he_graph] in X.
  change (he_graph (re_hide e)) with pdemo_graph in X. rewrite <- X. change (x ∈ roots pdemo_graph (only pdemo_graph ({[4%N : oid]} : commit_set) ({[2%N : oid]} : commit_set)) <-> x = 3%N). rewrite R. apply elem_of_singleton.
Qed.
Example c76_example :
  let e := sdemo_env pdemo_graph pdemo_objects (picks []) (Some 2%N) in let r := pdemo 4 (on_main 4) in
  let s := snd (sync_main e 9 (TxId 9) None (hr_head (rr_repo r)) r) in
  pullable e r 4 2 /\ workable e r /\ (forall x, first_ahead pdemo_graph 4 2 x <-> x = 3%N) /\ ~ merge_commit pdemo_graph 3 /\ sy_ok s = true /\
  fresh pdemo_graph (hr_log (rr_repo r)) (became (sy_done s)) /\ map_to_list (became (sy_done s)) = [(3%N, NonZero 7); (4%N, NonZero 8)] /\
  List.map (fun n : refname => hr_refs (rr_repo (sy_repo s)) !! n) ["refs/heads/main"; "refs/heads/a"] = [Some 8%N; Some 8%N] /\
  hr_head (rr_repo (sy_repo s)) = on_main 8.
Proof.
  intros e r s. assert (PU : pullable e r 4 2) by (apply pdemo_pullable; [vm_compute; reflexivity|decide_it]).
  split; [exact PU|]. split; [apply sdemo_workable; [apply PU|apply picks_fine]|]. split; [exact pdemo_first|]. split; [apply no_merges_spec; reflexivity|].
  split; [vm_compute; reflexivity|]. split; [apply all_fresh_spec; vm_compute; reflexivity|]. split; [vm_compute; reflexivity|].
  split; vm_compute; reflexivity.
Qed.
(** With the main branch at 1, there is nothing to move. *)
Example c76_example_forward :
  let e := sdemo_env pdemo_graph pdemo_objects (picks []) (Some 2%N) in let r := pdemo 1 (mk_head (Some 4%N) (Some "refs/heads/a")) in
  let res := sync_main e 9 (TxId 9) None (hr_head (rr_repo r)) r in
  pullable e r 1 2 /\ ancestor pdemo_graph 1 2 /\ fst res = Some (Forwarding 2) /\ sy_ok (snd res) = true /\
  hr_refs (rr_repo (sy_repo (snd res))) !! ("refs/heads/main" : refname) = Some 2%N.
Proof.
  intros e r res. split; [apply pdemo_pullable; [vm_compute; reflexivity|decide_it]|]. split.
  { apply rtc_once. exists [1%N]. split; decide_it. }
  split; [vm_compute; reflexivity|]. split; vm_compute; reflexivity.
Qed.

(** The main branch goes from 1 to 2, and the commits 3 and 4 on 1 follow. *)
Example c76_example_then :
  let e := sdemo_env pdemo_graph pdemo_objects (picks []) (Some 2%N) in let r := pdemo 1 (mk_head (Some 4%N) (Some "refs/heads/a")) in
  pullable e r 1 2 /\ ancestor pdemo_graph 1 2 /\
  exists s s', sync e e 9 (TxId 9) None true [] r = [s; s'] /\ (forall c, ~ merge_commit pdemo_graph c) /\ restackable e (sy_repo s) /\
    in_memory e /\ sy_ok s' = true /\ fresh pdemo_graph (hr_log (rr_repo (sy_repo s))) (became (sy_done s')) /\
    map_to_list (became (sy_done s')) = [(3%N, NonZero 7); (4%N, NonZero 8)] /\
    List.map (fun n : refname => hr_refs (rr_repo (sy_repo s')) !! n) ["refs/heads/main"; "refs/heads/a"] = [Some 2%N; Some 8%N].
Proof.
  intros e r. split; [apply pdemo_pullable; [vm_compute; reflexivity|decide_it]|]. split.
  { apply rtc_once. exists [1%N]. split; decide_it. }
  exists (snd (sync_main e 9 (TxId 9) None (hr_head (rr_repo r)) r)).
  exists (sync_stacks e 9 (TxId 9) [] (sy_repo (snd (sync_main e 9 (TxId 9) None (hr_head (rr_repo r)) r)))).
  split; [unfold sync; replace (sy_ok _) with true by (vm_compute; reflexivity); reflexivity|].
  split; [intros c; apply no_merges_spec; reflexivity|]. split; [apply sdemo_restackable; vm_compute; reflexivity|]. split; [apply sdemo_memory|].
  split; [vm_compute; reflexivity|]. split; [apply all_fresh_spec; vm_compute; reflexivity|]. split; vm_compute; reflexivity.
Qed.

(** Moving the main branch forward is not recorded, so that it cannot be undone. *)
Theorem c76_recorded_refuted : exists e ts tx fw r m up,
  let s := snd (sync_main e ts tx fw (hr_head (rr_repo r)) r) in
  pullable e r m up /\ sy_ok s = true /\
  hr_refs (rr_repo (sy_repo s)) !! he_main (re_hide e) <> hr_refs (rr_repo r) !! he_main (re_hide e) /\
  hr_log (rr_repo (sy_repo s)) = hr_log (rr_repo r).
Proof.
  exists (sdemo_env pdemo_graph pdemo_objects (picks []) (Some 2%N)), 9, (TxId 9), None, (pdemo 1 (mk_head (Some 4%N) (Some "refs/heads/a"))), 1%N, 2%N.
  intros s. split; [apply pdemo_pullable; [vm_compute; reflexivity|decide_it]|]. split; [vm_compute; reflexivity|].
  split; [vm_compute; discriminate|vm_compute; reflexivity].
Qed.

(** When the last commit of the main branch is dropped, the branch goes to the upstream
    and so loses the commits before it, which were made again. *)
Definition drops_4 (c q : oid) : attempt := MadeTree (if N.eqb c 4 then 53 else c + 50)%N.
Theorem c76_lost_refuted : exists e ts i fw r m up c n g',
  let s := snd (sync_main e ts (TxId i) fw (hr_head (rr_repo r)) r) in
  pullable e r m up /\ (forall x, first_ahead (he_graph (re_hide e)) m up x <-> x = c) /\ sy_ok s = true /\ sy_failed s = [] /\
  fresh (he_graph (re_hide e)) (hr_log (rr_repo r)) (became (sy_done s)) /\
  grown (he_graph (re_hide e)) (rr_store (sy_repo s)) (became (sy_done s)) g' /\
  became (sy_done s) !! c = Some (NonZero n) /\
  exists m', hr_refs (rr_repo (sy_repo s)) !! he_main (re_hide e) = Some m' /\ ~ ancestor g' n m'.
Proof.
  exists (sdemo_env pdemo_graph pdemo_objects drops_4 (Some 2%N)), 9, 9, None, (pdemo 4 (on_main 4)), 4%N, 2%N, 3%N, 7%N, (pdemo_graph ++ [(7%N, [2%N])]).
  intros s. split; [apply pdemo_pullable; [vm_compute; reflexivity|decide_it]|]. split; [exact pdemo_first|]. split; [vm_compute; reflexivity|].
  split; [vm_compute; reflexivity|]. split; [apply all_fresh_spec; vm_compute; reflexivity|]. split; [apply all_added_spec; vm_compute; reflexivity|].
  split; [vm_compute; reflexivity|]. exists 2%N. split; [vm_compute; reflexivity|]. apply not_ancestor; vm_compute; reflexivity.
Qed.

(** When the commits of the main branch start in several places, it says that it syncs
    them, does nothing and succeeds. *)
Theorem c76_synced_refuted : exists e ts i fw r m up,
  let res := sync_main e ts (TxId i) fw (hr_head (rr_repo r)) r in
  pullable e r m up /\ fst res = Some Syncing /\ sy_ok (snd res) = true /\ sy_failed (snd res) = [] /\ sy_repo (snd res) = r /\
  ~ ancestor (he_graph (re_hide e)) up m.
Proof.
  exists (sdemo_env jdemo_graph (objects_in jdemo_graph) (picks []) (Some 2%N)), 9, 9, None, (jdemo 5), 5%N, 2%N. intros res.
  assert (PU : pullable (sdemo_env jdemo_graph (objects_in jdemo_graph) (picks []) (Some 2%N)) (jdemo 5) 5 2).
  { constructor; [apply sdemo_restackable; vm_compute; reflexivity|apply sdemo_memory|vm_compute; reflexivity|reflexivity|decide_it]. }
  assert (E : res = (Some Syncing, mk_sr (jdemo 5) [] [] [] true)).
  { apply (c76_several _ 9 (TxId 9) None _ 5%N 2%N 3%N 4%N PU); [| |discriminate].
    - split; [split; [apply rtc_once; exists [3%N; 4%N]; split; decide_it|apply not_ancestor; vm_compute; reflexivity]|].
      intros p (ps & Hp & Hi). assert (p = 1%N) as ->; [|apply rtc_once; exists [1%N]; split; decide_it].
      cbn in Hp. unfold jdemo_graph in Hp. rewrite !elem_of_cons in Hp.
      destruct Hp as [[=]|[[=]|[[= ->]|[[=]|[[=]|Hp]]]]]; [now apply elem_of_list_singleton in Hi|now apply elem_of_nil in Hp].
    - split; [split; [apply rtc_once; exists [3%N; 4%N]; split; decide_it|apply not_ancestor; vm_compute; reflexivity]|].
      intros p (ps & Hp & Hi). assert (p = 1%N) as ->; [|apply rtc_once; exists [1%N]; split; decide_it].
      cbn in Hp. unfold jdemo_graph in Hp. rewrite !elem_of_cons in Hp.
      destruct Hp as [[=]|[[=]|[[=]|[[= ->]|[[=]|Hp]]]]]; [now apply elem_of_list_singleton in Hi|now apply elem_of_nil in Hp]. }
  rewrite E. split; [exact PU|]. split_and!; try reflexivity. apply not_ancestor; vm_compute; reflexivity.
Qed.

(** With the main branch checked out and up to date, changes in the working copy, which
    make [git rebase] fail, keep the stacks from being synced when pulling. *)
Theorem c76_dirty_refuted : exists e ts tx r m,
  pullable e r m m /\ hi_branch (hr_head (rr_repo r)) = Some (he_main (re_hide e)) /\
  List.map sy_ok (sync e e ts tx None true [] r) = [false] /\ List.map sy_repo (sync e e ts tx None true [] r) = [r] /\
  exists s, sync e e ts tx None false [] r = [s] /\ sy_ok s = true /\ sy_done s <> [].
Proof.
  exists (sdemo_env pdemo_graph pdemo_objects (picks []) (Some 2%N)), 9, (TxId 9), (pdemo 2 (on_main 2)), 2%N.
  split; [apply pdemo_pullable; [vm_compute; reflexivity|decide_it]|]. split; [reflexivity|]. split; [vm_compute; reflexivity|].
  split; [vm_compute; reflexivity|].
  exists (sync_stacks (sdemo_env pdemo_graph pdemo_objects (picks []) (Some 2%N)) 9 (TxId 9) [] (pdemo 2 (on_main 2))).
  split; [reflexivity|]. split; [vm_compute; reflexivity|vm_compute; discriminate].
Qed.

Print Assumptions c75_stacks.
Print Assumptions c75_moved.
Print Assumptions c75_recorded.
Print Assumptions c75_branches.
Print Assumptions c75_head.
Print Assumptions c75_others.
Print Assumptions c75_runs.
Print Assumptions c75_again.
Print Assumptions c75_exit_refuted.
Print Assumptions c75_replaced_refuted.
Print Assumptions c75_merge_refuted.
Print Assumptions c76_forwarded.
Print Assumptions c76_untracked.
Print Assumptions c76_then.
Print Assumptions c76_moved.
Print Assumptions c76_runs.
Print Assumptions c76_several.
Print Assumptions c76_recorded_refuted.
Print Assumptions c76_lost_refuted.
Print Assumptions c76_synced_refuted.
Print Assumptions c76_dirty_refuted.
