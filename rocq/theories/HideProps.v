(** Properties C70 to C72: hiding commits, undoing and unhiding, repairing. *)
From Verif Require Import Base TextModel EventLogModel EventLogSpec EventLogProofs EventLogRefProofs DagModel DagSpec DagProofs
  StrModel StrProofs HookModel HookSpec ExecModel ExecSpec ExecProps UndoModel UndoSpec HideModel HideSpec HideProofs HideUndoProofs.
From Verif Require NavModel.
Local Open Scope string_scope.
Local Open Scope list_scope.

(** ** C70: hiding *)

(** Exactly the commits meant become hidden; nothing changes for the others. *)
Theorem c70_status : forall e ts ts' i nd recursive chosen r,
  in_order e r -> chosen ⊆ vertices (he_graph e) ->
  let res := hide e ts ts' (TxId i) nd recursive chosen r in
  hs_ok res = true -> hook_ready e (hr_refs r) (hr_refs (hs_repo res)) ->
  forall o v, visibility (hr_log (hs_repo res)) o v <->
    (meant_to_hide (he_graph e) r recursive chosen o /\ v = Obsolete) \/
    (~ meant_to_hide (he_graph e) r recursive chosen o /\ visibility (hr_log r) o v).
Proof.
  intros e ts ts' i nd recursive chosen r I C res K H o v.
  destruct (hide_spec e ts ts' i nd recursive chosen r I C K H) as (cs & ls & _ & M & _ & L & _).
  fold res in L. rewrite L, hide_status, M. tauto.
Qed.

(** The commits are announced one by one, each once and parents before children. *)
Theorem c70_announced : forall e ts ts' i nd recursive chosen r,
  in_order e r -> chosen ⊆ vertices (he_graph e) ->
  let res := hide e ts ts' (TxId i) nd recursive chosen r in
  hs_ok res = true -> hook_ready e (hr_refs r) (hr_refs (hs_repo res)) ->
  exists cs last, NoDup cs /\ (forall o, o ∈ cs <-> meant_to_hide (he_graph e) r recursive chosen o) /\
    (forall l1 a l2 b l3, cs = l1 ++ a :: l2 ++ b :: l3 -> ~ proper_ancestor (he_graph e) b a) /\
    hs_out res = flat_map (hide_line e r) cs ++ last.
Proof.
  intros e ts ts' i nd recursive chosen r I C res K H.
  destruct (hide_spec e ts ts' i nd recursive chosen r I C K H) as (cs & ls & N & M & O & _ & _ & _ & _ & _ & _ & T).
  exists cs. eexists. split_and!; [exact N|exact M|exact O|exact T].
Qed.

(** With --no-delete-branches no reference changes.  Otherwise the branches at hidden
    commits go; a main branch at a hidden commit is put where its upstream is.  All other
    references stay. *)
Theorem c70_references : forall e ts ts' i nd recursive chosen r,
  in_order e r -> chosen ⊆ vertices (he_graph e) ->
  let res := hide e ts ts' (TxId i) nd recursive chosen r in
  hs_ok res = true -> hook_ready e (hr_refs r) (hr_refs (hs_repo res)) ->
  forall n : refname,
    (nd = true -> hr_refs (hs_repo res) !! n = hr_refs r !! n) /\
    ((forall s, n <> "refs/heads/" +:+ s) -> hr_refs (hs_repo res) !! n = hr_refs r !! n) /\
    ((forall o, hr_refs r !! n = Some o -> ~ meant_to_hide (he_graph e) r recursive chosen o) ->
       hr_refs (hs_repo res) !! n = hr_refs r !! n) /\
    (forall s o, nd = false -> n = "refs/heads/" +:+ s -> n <> he_main e -> hr_refs r !! n = Some o ->
       meant_to_hide (he_graph e) r recursive chosen o -> hr_refs (hs_repo res) !! n = None) /\
    (forall o t, nd = false -> n = he_main e -> hr_refs r !! n = Some o ->
       meant_to_hide (he_graph e) r recursive chosen o -> be_upstream (he_branch e) = Some t ->
       hr_refs (hs_repo res) !! n = t).
Proof.
  intros e ts ts' i nd recursive chosen r I C res K H n.
  destruct (hide_spec e ts ts' i nd recursive chosen r I C K H) as (cs & ls & _ & M & _ & _ & _ & _ & _ & R & _).
  fold res in R. specialize (R n). rewrite R. unfold ref_after. split_and!.
  - intros ->. reflexivity.
  - intros Hn. destruct nd; [reflexivity|]. destruct (hr_refs r !! n) as [o|]; [|reflexivity].
    rewrite decide_False; [reflexivity|]. intros [L _]. apply is_local_spec in L. destruct L as [s L]. now apply (Hn s).
  - intros Hn. destruct nd; [reflexivity|]. destruct (hr_refs r !! n) as [o|]; [|reflexivity].
    rewrite decide_False; [reflexivity|]. rewrite M. intros [_ ?]. now apply (Hn o).
  - intros s o -> Hs Hm Ho Hh. rewrite Ho. rewrite decide_True; [now rewrite decide_False|].
    split; [apply is_local_spec; eauto|now apply M].
  - intros o t -> Hm Ho Hh Hu. rewrite Ho, Hu. rewrite decide_True; [now rewrite decide_True|].
    split; [|now apply M]. apply is_local_spec. rewrite Hm. apply (io_main _ _ I).
Qed.

(** HEAD stays at its commit.  It leaves its branch only if its commit is hidden and
    branches are deleted, and it is never left on a branch that is gone. *)
Theorem c70_head : forall e ts ts' i nd recursive chosen r,
  in_order e r -> chosen ⊆ vertices (he_graph e) ->
  let res := hide e ts ts' (TxId i) nd recursive chosen r in
  hs_ok res = true -> hook_ready e (hr_refs r) (hr_refs (hs_repo res)) ->
  hi_oid (hr_head (hs_repo res)) = hi_oid (hr_head r) /\
  (hi_branch (hr_head (hs_repo res)) <> hi_branch (hr_head r) ->
     nd = false /\ exists o, hi_oid (hr_head r) = Some o /\ meant_to_hide (he_graph e) r recursive chosen o) /\
  (forall n, hi_branch (hr_head (hs_repo res)) = Some n -> hi_branch (hr_head r) = Some n /\
     hr_refs (hs_repo res) !! n = hi_oid (hr_head r)).
Proof.
  intros e ts ts' i nd recursive chosen r I C res K H.
  destruct (hide_spec e ts ts' i nd recursive chosen r I C K H) as (cs & ls & _ & M & _ & _ & _ & _ & _ & R & Hh & _).
  fold res in Hh, R. rewrite Hh. split_and!.
  - destruct nd; [reflexivity|apply detach_if_oid].
  - destruct nd; [done|]. unfold detach_if. destruct (hi_oid (hr_head r)) as [o|] eqn:Eo; [|done].
    destruct (decide (o ∈ cs)) as [Hi|]; [|done]. intros _. split; [reflexivity|]. exists o. split; [reflexivity|now apply M].
  - intros n Hn. destruct nd.
    + split; [exact Hn|]. rewrite R. now apply (io_branch _ _ I).
    + unfold detach_if in Hn. destruct (hi_oid (hr_head r)) as [o|] eqn:Eo.
      * destruct (decide (o ∈ cs)) as [Hi|Hi]; [unfold detached in Hn; rewrite Eo in Hn; discriminate|].
        split; [exact Hn|]. rewrite R. pose proof (io_branch _ _ I n Hn) as B. rewrite Eo in B. unfold ref_after. rewrite B.
        now rewrite decide_False by tauto.
      * split; [exact Hn|]. rewrite R. pose proof (io_branch _ _ I n Hn) as B. rewrite Eo in B. unfold ref_after. now rewrite B.
Qed.

(** What is shown afterwards, when branches are deleted: what is below HEAD, below a
    commit that was not meant and is active or has a branch, or below the new place of
    the main branch. *)
Theorem c70_shown : forall e ts ts' i recursive chosen r,
  in_order e r -> chosen ⊆ vertices (he_graph e) ->
  let res := hide e ts ts' (TxId i) false recursive chosen r in
  hs_ok res = true -> hook_ready e (hr_refs r) (hr_refs (hs_repo res)) ->
  forall o, shown (he_graph e) (hs_repo res) o <-> exists v, ancestor (he_graph e) o v /\
    (hi_oid (hr_head r) = Some v \/
     (~ meant_to_hide (he_graph e) r recursive chosen v /\ (visibility (hr_log r) v Active \/ branch_at (hr_refs r) v)) \/
     (exists m, hr_refs r !! he_main e = Some m /\ meant_to_hide (he_graph e) r recursive chosen m /\
        hr_refs (hs_repo res) !! he_main e = Some v)).
Proof.
  intros e ts ts' i recursive chosen r I C res K H o.
  destruct (hide_spec e ts ts' i false recursive chosen r I C K H) as (cs & ls & _ & M & _ & L & _ & _ & _ & R & Hh & _).
  fold res in L, R, Hh. rewrite (shown_after_hide e r cs (hs_repo res)).
  - setoid_rewrite M. assert (X : forall v,
      (exists m, hr_refs r !! he_main e = Some m /\ meant_to_hide (he_graph e) r recursive chosen m /\
         match be_upstream (he_branch e) with Some t => t | None => Some m end = Some v) <->
      (exists m, hr_refs r !! he_main e = Some m /\ meant_to_hide (he_graph e) r recursive chosen m /\
         hr_refs (hs_repo res) !! he_main e = Some v)).
    { intros v. split; intros (m & H1 & H2 & H3); exists m; (split; [exact H1|]; split; [exact H2|]).
      - rewrite R. unfold ref_after. rewrite H1, decide_True; [now rewrite decide_True|]. split; [apply is_local_spec, (io_main _ _ I)|now apply M].
      - rewrite R in H3. unfold ref_after in H3. rewrite H1, decide_True in H3; [now rewrite decide_True in H3|].
        split; [apply is_local_spec, (io_main _ _ I)|now apply M]. }
    setoid_rewrite X. reflexivity.
  - exact (io_main _ _ I).
  - intros o' v. rewrite L, hide_status. reflexivity.
  - exact R.
  - rewrite Hh. apply detach_if_oid.
Qed.

(** [git hide --recursive]: nothing above the chosen commits is shown any more, except
    what is needed for HEAD or the new place of the main branch. *)
Theorem c70_nothing_left : forall e ts ts' i chosen r,
  in_order e r -> chosen ⊆ vertices (he_graph e) ->
  let res := hide e ts ts' (TxId i) false true chosen r in
  hs_ok res = true -> hook_ready e (hr_refs r) (hr_refs (hs_repo res)) ->
  forall c o, c ∈ chosen -> ancestor (he_graph e) c o -> shown (he_graph e) (hs_repo res) o ->
  exists v, ancestor (he_graph e) o v /\ (hi_oid (hr_head r) = Some v \/ hr_refs (hs_repo res) !! he_main e = Some v).
Proof.
  intros e ts ts' i chosen r I C res K H c o Hc A S.
  apply (c70_shown e ts ts' i true chosen r I C K H) in S. destruct S as (v & Av & S). exists v. split; [exact Av|].
  destruct S as [S|[[N S]|(m & _ & _ & S)]]; [now left| |now right]. exfalso. apply N. split.
  - exists c. split; [exact Hc|]. now transitivity o.
  - exists v. split; [reflexivity|tauto].
Qed.

(** The summary: how many commits, and the names of all branches at hidden commits, each
    once and in order. *)
Theorem c70_summary : forall e ts ts' i nd recursive chosen r,
  in_order e r -> chosen ⊆ vertices (he_graph e) ->
  let res := hide e ts ts' (TxId i) nd recursive chosen r in
  hs_ok res = true -> hook_ready e (hr_refs r) (hr_refs (hs_repo res)) ->
  exists before count names, hs_out res = before ++ hide_summary (negb nd) count names /\
    (exists cs, NoDup cs /\ length cs = count /\ forall o, o ∈ cs <-> meant_to_hide (he_graph e) r recursive chosen o) /\
    NoDup names /\ Sorted.Sorted name_le names /\
    forall s, s ∈ names <-> exists o, hr_refs r !! ("refs/heads/" +:+ s : refname) = Some o /\
      meant_to_hide (he_graph e) r recursive chosen o.
Proof.
  intros e ts ts' i nd recursive chosen r I C res K H.
  destruct (hide_spec e ts ts' i nd recursive chosen r I C K H) as (cs & ls & N & M & _ & _ & _ & _ & _ & _ & _ & T).
  destruct (names_spec cs (hr_refs r) N) as (N1 & N2 & _).
  eexists _, (length cs), (abandoned_names cs (hr_refs r)). split_and!; [exact T|exists cs; auto|exact N1| |].
  - apply sorted_sorted.
  - intros s. rewrite N2. setoid_rewrite M. split; intros (o & ? & ?); exists o; tauto.
Qed.

(** ** C71: undoing and unhiding *)

(** [git undo] right after hiding puts all references back and shows the hidden commits
    again; nothing changes for the others, and nothing is checked out. *)
Theorem c71_undo : forall e ts ts' i now j nd recursive chosen r,
  in_order e r -> chosen ⊆ vertices (he_graph e) ->
  let res := hide e ts ts' (TxId i) nd recursive chosen r in
  hs_ok res = true -> hook_ready e (hr_refs r) (hr_refs (hs_repo res)) ->
  (exists o, meant_to_hide (he_graph e) r recursive chosen o) ->
  (forall x, x ∈ hr_log r -> event_tx x <> TxId i) ->
  exists w, undo_last (he_main e) now (TxId j) true (mk_world (hr_refs (hs_repo res)) (hr_log (hs_repo res))) = Some (w, None) /\
    (forall n, n <> "HEAD" -> w_refs w !! n = hr_refs r !! n) /\
    forall o v, visibility (w_log w) o v <->
      (meant_to_hide (he_graph e) r recursive chosen o /\ v = Active) \/
      (~ meant_to_hide (he_graph e) r recursive chosen o /\ visibility (hr_log r) o v).
Proof.
  intros e ts ts' i now j nd recursive chosen r I C res K H [o Ho] F.
  destruct (hide_spec e ts ts' i nd recursive chosen r I C K H) as (cs & ls & N & M & _ & L & ND & An & Ls & _).
  fold res in L, An.
  destruct (undo_hide (he_main e) (hr_log r) ts ts' i now j cs ls (hr_refs r) (hr_refs (hs_repo res))) as (w & E & R & V).
  - intros ->. apply M in Ho. now apply elem_of_nil in Ho.
  - exact ND.
  - exact An.
  - intros o' x n Hi. apply Ls in Hi. tauto.
  - exact F.
  - exists w. rewrite L. split_and!; [exact E|exact R|]. intros o' v. rewrite V, M. tauto.
Qed.

(** Exactly the commits meant by [git unhide] become active; references and HEAD stay. *)
Theorem c71_unhide : forall e ts i recursive chosen r,
  wf_graph (he_graph e) -> (exists s, he_main e = "refs/heads/" +:+ s) -> chosen ⊆ vertices (he_graph e) ->
  let res := unhide e ts (TxId i) recursive chosen r in hs_ok res = true ->
  hr_refs (hs_repo res) = hr_refs r /\ hr_head (hs_repo res) = hr_head r /\
  (forall o v, visibility (hr_log (hs_repo res)) o v <->
    (meant_to_unhide (he_graph e) r recursive chosen o /\ v = Active) \/
    (~ meant_to_unhide (he_graph e) r recursive chosen o /\ visibility (hr_log r) o v)) /\
  exists cs last, NoDup cs /\ (forall o, o ∈ cs <-> meant_to_unhide (he_graph e) r recursive chosen o) /\
    hs_out res = flat_map (unhide_line e r) cs ++ last.
Proof.
  intros e ts i recursive chosen r W Mn C res K.
  destruct (unhide_spec e ts i recursive chosen r W Mn C K) as (cs & N & M & R & T). fold res in R, T. rewrite R. cbn [hr_refs hr_head hr_log].
  split_and!; [reflexivity|reflexivity| |].
  - intros o v. rewrite unhide_status, M. tauto.
  - exists cs. eexists. split_and!; [exact N|exact M|exact T].
Qed.

(** Everything shown before [git hide --recursive] is shown again after
    [git unhide --recursive] of the same commits, whether branches were deleted or not. *)
Theorem c71_round_trip : forall e ts ts' i nd tu k chosen r,
  in_order e r -> chosen ⊆ vertices (he_graph e) ->
  let res := hide e ts ts' (TxId i) nd true chosen r in
  hs_ok res = true -> hook_ready e (hr_refs r) (hr_refs (hs_repo res)) ->
  let res' := unhide e tu (TxId k) true chosen (hs_repo res) in hs_ok res' = true ->
  forall o, shown (he_graph e) r o -> shown (he_graph e) (hs_repo res') o.
Proof.
  intros e ts ts' i nd tu k chosen r I C res K H res' K' o (v & A & S).
  pose proof (c70_status e ts ts' i nd true chosen r I C K H) as V. fold res in V.
  destruct (c71_unhide e tu k true chosen (hs_repo res) (io_graph _ _ I) (io_main _ _ I) C K') as (R' & H' & V' & _). fold res' in R', H', V'.
  destruct (c70_head e ts ts' i nd true chosen r I C K H) as (Hd & _). fold res in Hd.
  exists v. split; [exact A|]. rewrite H', Hd, R'.
  destruct (visibility_exists (hr_log (hs_repo res)) v) as [a Ha]. pose proof (proj1 (V v a) Ha) as Q.
  destruct Q as [[Q ->]|[Q Qv]].
  - left. apply V'. left. split; [|reflexivity]. split; [exact (proj1 Q)|exact Ha].
  - destruct S as [S|[S|[s S]]]; [|now right; left|].
    + left. apply V'. right. rewrite (visibility_unique _ _ _ _ Qv S) in Ha. split; [|exact Ha].
      intros [_ X]. pose proof (visibility_unique _ _ _ _ Ha X). discriminate.
    + right. right. exists s. destruct (c70_references e ts ts' i nd true chosen r I C K H ("refs/heads/" +:+ s)) as (_ & _ & X & _).
      fold res in X. rewrite X; [exact S|]. intros o' Ho'. rewrite S in Ho'. injection Ho' as <-. exact Q.
Qed.

(** ** C72: repairing *)

(** A dry run changes nothing. *)
Theorem c72_dry : forall e iter biter ts tx r, hs_repo (repair e iter biter ts tx true r) = r.
Proof. intros. unfold repair. now destruct (broken_branches e r). Qed.

(** After repairing, every commit of the log that is not in the repository is hidden, and
    no branch is on record that is not in the repository.  Nothing else changes. *)
Theorem c72_repaired : forall e iter biter ts i r,
  (forall l, Permutation (iter l) l) -> (forall l, Permutation (biter l) l) -> is_Some (hr_refs r !! he_main e) ->
  let r' := hs_repo (repair e iter biter ts (TxId i) false r) in
  hr_refs r' = hr_refs r /\ hr_head r' = hr_head r /\
  (forall o, he_found e o = false -> (exists x, x ∈ hr_log r /\ concerns x o) -> visibility (hr_log r') o Obsolete) /\
  (forall o v, he_found e o = true \/ (forall x, x ∈ hr_log r -> ~ concerns x o) -> visibility (hr_log r') o v <-> visibility (hr_log r) o v) /\
  (forall s o, last_update (hr_log r') ("refs/heads/" +:+ s) (NonZero o) -> is_Some (hr_refs r' !! ("refs/heads/" +:+ s : refname))) /\
  (forall (n : refname) m, (forall s, n <> "refs/heads/" +:+ s) \/ is_Some (hr_refs r !! n) \/ (forall o, ~ last_update (hr_log r) n (NonZero o)) ->
     last_update (hr_log r') n m <-> last_update (hr_log r) n m).
Proof.
  intros e iter biter ts i r P1 P2 M r'.
  destruct (repair_spec e iter biter ts i r P1 P2 M) as (cs & bs & B & -> & _ & R & Hd & _ & _ & V & U). fold r' in R, Hd, V, U.
  destruct (broken_branches_spec e r bs B) as [_ Bs].
  assert (Bn : forall n, n ∈ List.map snd bs <-> is_local n = true /\ hr_refs r !! n = None /\ exists o, last_update (hr_log r) n (NonZero o)).
  { intros n. rewrite elem_of_list_In, in_map_iff. split.
    - intros ([o n'] & <- & Hi). apply elem_of_list_In, Bs in Hi. cbn [snd]. destruct Hi as (? & ? & ?). eauto.
    - intros (? & ? & o & ?). exists (o, n). split; [reflexivity|]. apply elem_of_list_In, Bs. auto. }
  split_and!; [exact R|exact Hd| | | |].
  - intros o Hf Hx. apply V. left. split; [|reflexivity]. apply broken_commits_spec. auto.
  - intros o v Hf. rewrite V, broken_commits_spec. destruct Hf as [Hf|Hf].
    + rewrite Hf. split; [intros [[[_ ?] _]|[_ ?]]; [discriminate|assumption]|]. intros Hv. right. split; [|exact Hv]. intros [_ ?]. discriminate.
    + split; [intros [[[(x & Hx & Cx) _] _]|[_ ?]]; [exfalso; now apply (Hf x)|assumption]|]. intros Hv. right. split; [|exact Hv].
      intros [(x & Hx & Cx) _]. now apply (Hf x).
  - intros s o Hu. rewrite R. apply U in Hu. destruct Hu as [[_ ?]|[Nb Hu]]; [discriminate|].
    destruct (hr_refs r !! ("refs/heads/" +:+ s : refname)) as [x|] eqn:E; [eauto|]. exfalso. apply Nb, Bn.
    split_and!; [apply is_local_spec; eauto|exact E|eauto].
  - intros n m Hn. rewrite U. assert (Nb : n ∉ List.map snd bs).
    { intros Hb. apply Bn in Hb. destruct Hb as (L & N & o & Hu). destruct Hn as [Hn|[Hn|Hn]].
      - apply is_local_spec in L. destruct L as [s L]. now apply (Hn s).
      - rewrite N in Hn. now destruct Hn.
      - now apply (Hn o). }
    split; [intros [[? _]|[_ ?]]; [done|assumption]|auto].
Qed.

(** What it reports: the commits of the log that are not in the repository, and the
    branches on record that are not. *)
Theorem c72_report : forall e iter biter ts tx dry r, is_Some (hr_refs r !! he_main e) ->
  exists cs bs, hs_out (repair e iter biter ts tx dry r) = repair_lines dry cs bs /\ hs_ok (repair e iter biter ts tx dry r) = true /\
    (forall o, o ∈ cs <-> (exists x, x ∈ hr_log r /\ concerns x o) /\ he_found e o = false) /\ NoDup bs /\
    (forall o (n : refname), (o, n) ∈ bs <-> (exists s, n = "refs/heads/" +:+ s) /\ last_update (hr_log r) n (NonZero o) /\ hr_refs r !! n = None).
Proof.
  intros e iter biter ts tx dry r M. destruct (broken_branches_total e r M) as [bs Hb]. unfold repair. rewrite Hb.
  destruct (broken_branches_spec e r bs Hb) as [N B]. exists (broken_commits e r), bs. split_and!; [reflexivity|reflexivity|apply broken_commits_spec|exact N|].
  intros o n. rewrite B, is_local_spec. reflexivity.
Qed.

(** Repairing again finds no more broken branches. *)
Theorem c72_again : forall e iter biter ts i r,
  (forall l, Permutation (iter l) l) -> (forall l, Permutation (biter l) l) -> is_Some (hr_refs r !! he_main e) ->
  broken_branches e (hs_repo (repair e iter biter ts (TxId i) false r)) = Some [].
Proof.
  intros e iter biter ts i r P1 P2 M. set (r' := hs_repo _).
  destruct (c72_repaired e iter biter ts i r P1 P2 M) as (R & _ & _ & _ & U & _). fold r' in R, U.
  destruct (broken_branches_total e r') as [bs Hb]; [now rewrite R|]. rewrite Hb. destruct (broken_branches_spec e r' bs Hb) as [_ B].
  destruct bs as [|[o n] bs]; [reflexivity|]. exfalso. destruct (proj1 (B o n) ltac:(left)) as (L & Hu & N).
  apply is_local_spec in L. destruct L as [s ->]. destruct (U s o Hu) as [x Hx]. rewrite N in Hx. discriminate.
Qed.

Local Open Scope Z_scope.

(** ** A stack with branches

    Commits 2, 3 and 4 above the main branch and 5 beside them; the branches [a] at 3,
    where HEAD is, and [b] at 4. *)
Definition hdemo_graph : graph := [(1%N, []); (2%N, [1%N]); (3%N, [2%N]); (4%N, [3%N]); (5%N, [2%N])].
Definition hdemo_env (found : oid -> bool) (writes : refname -> bool) (upstream : option oid) : hide_env :=
  mk_he hdemo_graph found oid_to_string (mk_be (fun _ => true) writes "refs/heads/main" (Some upstream)) table_of
    (fun _ => true) (fun _ => None) None.
Definition hdemo_refs : gmap refname oid :=
  list_to_map [("refs/heads/main", 1%N); ("refs/heads/a", 3%N); ("refs/heads/b", 4%N); ("refs/remotes/origin/b", 4%N)].
Definition hdemo_log : list event := List.map (CommitEvent 1%Z (TxId 1%Z)) [2%N; 3%N; 4%N; 5%N].
Definition hdemo : hrepo := mk_hrepo hdemo_refs (mk_head (Some 3%N) (Some "refs/heads/a")) hdemo_log.

Definition all_refs (P : refname -> oid -> bool) (refs : gmap refname oid) : bool := forallb (fun p => P (fst p) (snd p)) (map_to_list refs).
Lemma all_refs_spec P refs : all_refs P refs = true -> forall n o, refs !! n = Some o -> P n o = true.
Proof.
  intros H n o E. unfold all_refs in H. rewrite forallb_forall in H. apply (H (n, o)). apply elem_of_list_In, elem_of_map_to_list. exact E.
Qed.
Lemma active_in log o : visibility log o Active -> exists x, x ∈ log /\ shows x o.
Proof. intros (x & (b & a & -> & _) & S). exists x. split; [apply elem_of_app; right; left|exact S]. Qed.
Lemma hdemo_known : all_refs (fun _ o => bool_decide (o ∈ vertices hdemo_graph)) hdemo_refs = true.
Proof. vm_compute. reflexivity. Qed.
Lemma hdemo_names : all_refs (fun n o => bool_decide ((0 < o < oid_limit)%N /\ " "%char ∉ list_ascii_of_string n /\ LF ∉ list_ascii_of_string n))
  hdemo_refs = true.
Proof. vm_compute. reflexivity. Qed.
Lemma hdemo_wf : wf_graph hdemo_graph.
Proof. repeat split; try (intros p Hp; revert Hp); try decide_it; set_solver. Qed.
Lemma hdemo_order found writes upstream : in_order (hdemo_env found writes upstream) hdemo.
Proof.
  constructor.
  - exact hdemo_wf.
  - exists "main". reflexivity.
  - exists 1%N. vm_compute. reflexivity.
  - apply table_of_spec.
  - intros n o H. apply (all_refs_spec _ _ hdemo_known), bool_decide_eq_true in H. exact H.
  - intros o H. apply active_in in H. destruct H as (x & Hx & S). cbn in Hx. rewrite !elem_of_cons in Hx.
    destruct Hx as [->|[->|[->|[->|Hx]]]]; [..|now apply elem_of_nil in Hx]; cbn in S; subst o; change (vertices (he_graph _)) with (vertices hdemo_graph); decide_it.
  - intros o [= <-]. change (3%N ∈ vertices hdemo_graph). decide_it.
  - intros n [= <-]. vm_compute. reflexivity.
Qed.
Lemma hdemo_hook found writes upstream refs' : (forall t, upstream = Some t -> oid_ok t) ->
  hook_ready (hdemo_env found writes upstream) hdemo_refs refs'.
Proof.
  intros U. constructor.
  - intros t [=].
  - intros n o H. apply (all_refs_spec _ _ hdemo_names), bool_decide_eq_true in H. exact H.
  - reflexivity.
  - cbn. intros t [= ->]. now apply U.
  - intros n m (text & ? & ? & ? & [=] & _).
Qed.

Definition yes {A} (_ : A) : bool := true.
Definition status_in (log : list event) (o : oid) : activity :=
  let rp := replay "refs/heads/main" log in commit_status rp (default_cursor rp) o.
Lemma status_in_spec log o v : status_in log o = v -> visibility log o v.
Proof. intros <-. eapply status_now. reflexivity. Qed.

(** [git hide --recursive 3]. *)
Example c70_example :
  let e := hdemo_env yes yes None in
  let res := hide e 2 3 (TxId 7) false true {[3%N]} hdemo in
  in_order e hdemo /\ hs_ok res = true /\ hook_ready e hdemo_refs (hr_refs (hs_repo res)) /\
  List.map (status_in (hr_log (hs_repo res))) [1%N; 2%N; 3%N; 4%N; 5%N] = [Inactive; Active; Obsolete; Obsolete; Active] /\
  List.map (fun n : refname => hr_refs (hs_repo res) !! n) ["refs/heads/main"; "refs/heads/a"; "refs/heads/b"; "refs/remotes/origin/b"]
    = [Some 1%N; None; None; Some 4%N] /\
  hr_head (hs_repo res) = mk_head (Some 3%N) None /\
  hs_out res = ["Hid commit: 0000000000000000000000000000000000000003"; "Hid commit: 0000000000000000000000000000000000000004";
    "Deleted 2 branches: a, b"; "To unhide these 2 commits and restore 2 branches, run: git undo"].
Proof.
  intros e res. split_and!; [apply hdemo_order|vm_compute; reflexivity|apply hdemo_hook; discriminate|vm_compute; reflexivity..].
Qed.

(** The main branch itself may be hidden.  It is deleted if it has no upstream, and then
    no command can open the repository. *)
Theorem c70_main_refuted : exists e r chosen, in_order e r /\
  let res := hide e 2 3 (TxId 7) false false chosen r in
  hs_ok res = true /\ hook_ready e (hr_refs r) (hr_refs (hs_repo res)) /\ is_Some (hr_refs r !! he_main e) /\
  open_repo e (hs_repo res) = None /\
  forall ts tx recursive chosen', hs_ok (unhide e ts tx recursive chosen' (hs_repo res)) = false.
Proof.
  exists (hdemo_env yes yes None), hdemo, {[1%N]}. split; [apply hdemo_order|]. intros res. set (e := hdemo_env yes yes None) in *.
  assert (O : open_repo e (hs_repo res) = None) by (vm_compute; reflexivity).
  split_and!; [vm_compute; reflexivity|apply hdemo_hook; discriminate|vm_compute; eauto|exact O|].
  intros. unfold unhide. now rewrite O.
Qed.

(** With an upstream the main branch is moved, yet it is said to be deleted. *)
Theorem c70_deleted_refuted : exists e r chosen before after, in_order e r /\
  let res := hide e 2 3 (TxId 7) false false chosen r in
  hs_ok res = true /\ hook_ready e (hr_refs r) (hr_refs (hs_repo res)) /\
  hs_out res = before ++ "Deleted 1 branch: main" :: after /\ is_Some (hr_refs (hs_repo res) !! ("refs/heads/main" : refname)).
Proof.
  exists (hdemo_env yes yes (Some 2%N)), hdemo, {[1%N]}, ["Hid commit: 0000000000000000000000000000000000000001"],
    ["To unhide this 1 commit and restore 1 branch, run: git undo"]. split; [apply hdemo_order|]. intros res.
  split_and!; [vm_compute; reflexivity|apply hdemo_hook; intros t [= <-]; split; vm_compute; reflexivity|vm_compute; reflexivity|].
  exists 2%N. vm_compute. reflexivity.
Qed.

(** If a branch cannot be deleted, the command fails with the commits hidden. *)
Theorem c70_halfway_refuted : exists e r chosen o, in_order e r /\
  let res := hide e 2 3 (TxId 7) false false chosen r in
  hs_ok res = false /\ visibility (hr_log r) o Active /\ visibility (hr_log (hs_repo res)) o Obsolete /\ hr_refs (hs_repo res) = hr_refs r.
Proof.
  exists (hdemo_env yes (fun n => negb (String.eqb n "refs/heads/b")) None), hdemo, {[4%N]}, 4%N. split; [apply hdemo_order|]. intros res.
  split_and!; [vm_compute; reflexivity|apply status_in_spec; vm_compute; reflexivity|apply status_in_spec; vm_compute; reflexivity|].
  apply (bool_decide_unpack _). vm_compute. exact Logic.I.
Qed.

(** Hiding 3 and above, and undoing it: the branches are back. *)
Example c71_example :
  let e := hdemo_env yes yes None in
  let res := hide e 2 3 (TxId 7) false true {[3%N]} hdemo in
  (exists o, meant_to_hide (he_graph e) hdemo true {[3%N]} o) /\ (forall x, x ∈ hr_log hdemo -> event_tx x <> TxId 7) /\
  exists w, undo_last (he_main e) 9 (TxId 9) true (mk_world (hr_refs (hs_repo res)) (hr_log (hs_repo res))) = Some (w, None) /\
    w_refs w !! ("refs/heads/a" : refname) = Some 3%N /\ w_refs w !! ("refs/heads/b" : refname) = Some 4%N /\
    List.map (status_in (w_log w)) [2%N; 3%N; 4%N] = [Active; Active; Active] /\
    hr_head hdemo = mk_head (Some 3%N) (Some "refs/heads/a") /\ hr_head (hs_repo res) = mk_head (Some 3%N) None.
Proof.
  intros e res. split; [|split].
  - exists 3%N. split; [exists 3%N; split; [set_solver|reflexivity]|]. exists 3%N. split; [reflexivity|]. right. left. reflexivity.
  - intros x Hx. cbn in Hx. rewrite !elem_of_cons in Hx. destruct Hx as [->|[->|[->|[->|Hx]]]]; [discriminate..|now apply elem_of_nil in Hx].
  - destruct (undo_last (he_main e) 9 (TxId 9) true (mk_world (hr_refs (hs_repo res)) (hr_log (hs_repo res)))) as [[w t]|] eqn:E;
      [|vm_compute in E; discriminate]. vm_compute in E. injection E as <- <-. eexists. split; [reflexivity|]. split_and!; vm_compute; reflexivity.
Qed.

(** HEAD was on a branch; after hiding and undoing it is on none: nothing is checked out
    when undoing. *)
Theorem c71_head_refuted : exists e r chosen now j w, in_order e r /\
  let res := hide e 2 3 (TxId 7) false false chosen r in
  hs_ok res = true /\ hook_ready e (hr_refs r) (hr_refs (hs_repo res)) /\
  undo_last (he_main e) now (TxId j) true (mk_world (hr_refs (hs_repo res)) (hr_log (hs_repo res))) = Some (w, None) /\
  hi_branch (hr_head r) = Some "refs/heads/a" /\ hi_branch (hr_head (hs_repo res)) = None.
Proof.
  set (e := hdemo_env yes yes None). set (res := hide e 2 3 (TxId 7) false false {[3%N]} hdemo).
  destruct (c71_undo e 2 3 7 9 9 false false {[3%N]} hdemo) as (w & E & _).
  - apply hdemo_order.
  - intros x Hx. apply elem_of_singleton in Hx. subst x. change (3%N ∈ vertices hdemo_graph). decide_it.
  - vm_compute. reflexivity.
  - apply hdemo_hook. discriminate.
  - exists 3%N. cbn. set_solver.
  - exact (proj1 (proj2 c71_example)).
  - exists e, hdemo, {[3%N]}, 9%Z, 9%Z, w. split; [apply hdemo_order|]. split_and!; [vm_compute; reflexivity|apply hdemo_hook; discriminate|exact E|reflexivity|].
    vm_compute. reflexivity.
Qed.

(** Commit 4 or 5 is hidden already. *)
Definition hdemo_without (o : oid) : hrepo := mk_hrepo hdemo_refs (hr_head hdemo) (hdemo_log ++ [ObsoleteEvent 1 (TxId 2) o]).
Lemma hdemo_without_order found writes upstream o : in_order (hdemo_env found writes upstream) (hdemo_without o).
Proof.
  destruct (hdemo_order found writes upstream) as [H1 H2 H3 H4 H5 H6 H7 H8]. constructor; try assumption.
  intros o' H. apply H6. apply active_in in H. destruct H as (x & Hx & S). cbn in Hx.
  rewrite !elem_of_cons in Hx. destruct Hx as [->|[->|[->|[->|[->|Hx]]]]]; cbn in S;
    [| | | |done|now apply elem_of_nil in Hx]; subst o'; apply status_in_spec; vm_compute; reflexivity.
Qed.

(** A commit said to have been hidden already is shown after undoing. *)
Theorem c71_no_effect_refuted : exists e r chosen o before after now j w, in_order e r /\
  let res := hide e 2 3 (TxId 7) false false chosen r in
  hs_ok res = true /\ hs_out res = before ++ "(It was already hidden, so this operation had no effect.)" :: after /\
  visibility (hr_log r) o Obsolete /\
  undo_last (he_main e) now (TxId j) true (mk_world (hr_refs (hs_repo res)) (hr_log (hs_repo res))) = Some (w, None) /\
  visibility (w_log w) o Active.
Proof.
  set (e := hdemo_env yes yes None). set (res := hide e 2 3 (TxId 7) false false {[5%N]} (hdemo_without 5)).
  destruct (c71_undo e 2 3 7 9 9 false false {[5%N]} (hdemo_without 5)) as (w & E & _ & V).
  - apply hdemo_without_order.
  - intros x Hx. apply elem_of_singleton in Hx. subst x. change (5%N ∈ vertices hdemo_graph). decide_it.
  - vm_compute. reflexivity.
  - apply hdemo_hook. discriminate.
  - exists 5%N. cbn. set_solver.
  - intros x Hx. cbn in Hx. rewrite !elem_of_cons in Hx. destruct Hx as [->|[->|[->|[->|[->|Hx]]]]]; [discriminate..|now apply elem_of_nil in Hx].
  - exists e, (hdemo_without 5), {[5%N]}, 5%N, ["Hid commit: 0000000000000000000000000000000000000005"], ["To unhide this 1 commit, run: git undo"], 9%Z, 9%Z, w.
    split; [apply hdemo_without_order|]. split_and!; [vm_compute; reflexivity|vm_compute; reflexivity|apply status_in_spec; vm_compute; reflexivity|exact E|].
    apply V. left. split; [|reflexivity]. cbn. set_solver.
Qed.

(** Hiding and unhiding the same commits with --recursive also shows commits that were
    hidden before, and does not bring branches back. *)
Theorem c71_unhide_refuted : exists e r chosen o, in_order e r /\
  let res := hide e 2 3 (TxId 7) false true chosen r in
  let res' := unhide e 4 (TxId 8) true chosen (hs_repo res) in
  hs_ok res = true /\ hook_ready e (hr_refs r) (hr_refs (hs_repo res)) /\ hs_ok res' = true /\
  ~ shown (he_graph e) r o /\ shown (he_graph e) (hs_repo res') o /\
  hr_refs r !! ("refs/heads/b" : refname) = Some 4%N /\ hr_refs (hs_repo res') !! ("refs/heads/b" : refname) = None.
Proof.
  exists (hdemo_env yes yes None), (hdemo_without 5), {[2%N]}, 5%N. split; [apply hdemo_without_order|]. intros res res'.
  split_and!; [vm_compute; reflexivity|apply hdemo_hook; discriminate|vm_compute; reflexivity| | |vm_compute; reflexivity..].
  - intros (v & A & S). assert (v = 5%N) as ->.
    { assert (X : v ∈ descendants hdemo_graph {[5%N]}) by (apply descendants_spec; [exact hdemo_wf|exists 5%N; split; [set_solver|exact A]]).
      assert (Y : descendants hdemo_graph {[5%N]} = {[5%N]}) by (apply (bool_decide_unpack _); vm_compute; exact Logic.I).
      rewrite Y in X. now apply elem_of_singleton in X. }
    destruct S as [S|[S|[s S]]]; [|discriminate|].
    + assert (O : visibility (hr_log (hdemo_without 5)) 5%N Obsolete) by (apply status_in_spec; vm_compute; reflexivity).
      pose proof (visibility_unique _ _ _ _ S O). discriminate.
    + assert (O : all_refs (fun _ o => negb (N.eqb o 5)) hdemo_refs = true) by (vm_compute; reflexivity).
      apply (all_refs_spec _ _ O) in S. discriminate.
  - exists 5%N. split; [reflexivity|]. left. apply status_in_spec. vm_compute. reflexivity.
Qed.

(** Commit 4 is not in the repository any more, nor is the branch [old] of the log. *)
Definition hdemo_broken : hrepo :=
  mk_hrepo hdemo_refs (hr_head hdemo)
    (hdemo_log ++ [RefUpdateEvent 1 (TxId 2) "refs/heads/old" Zero (NonZero 5) None; RefUpdateEvent 1 (TxId 2) "refs/heads/a" Zero (NonZero 2) None]).
Example c72_example :
  let e := hdemo_env (fun o => negb (N.eqb o 4)) yes None in
  let res := repair e id id 2 (TxId 7) false hdemo_broken in
  is_Some (hr_refs hdemo_broken !! he_main e) /\ hs_ok res = true /\
  hs_out res = ["Found and repaired 1 broken commit: 0000000000000000000000000000000000000004"; "Found and repaired 1 broken branch: old"] /\
  List.map (status_in (hr_log (hs_repo res))) [2%N; 3%N; 4%N; 5%N] = [Active; Active; Obsolete; Active] /\
  last_update (hr_log (hs_repo res)) "refs/heads/old" Zero.
Proof.
  intros e res. split_and!; [exists 1%N; vm_compute; reflexivity|vm_compute; reflexivity..|].
  exists (hr_log hdemo_broken ++ [ObsoleteEvent 2 (TxId 7) 4%N]), 2%Z, (TxId 7), (NonZero 5), None, []. split; [vm_compute; reflexivity|].
  intros x Hx. now apply elem_of_nil in Hx.
Qed.

(** Repairing again finds the same commits and adds the same events once more. *)
Theorem c72_again_refuted : exists e r, is_Some (hr_refs r !! he_main e) /\
  let r1 := hs_repo (repair e id id 2 (TxId 7) false r) in
  let res := repair e id id 3 (TxId 8) false r1 in
  broken_commits e r1 <> [] /\ hs_out res = ["Found and repaired 1 broken commit: 0000000000000000000000000000000000000004"] /\
  hr_log (hs_repo res) = hr_log r1 ++ [ObsoleteEvent 3 (TxId 8) 4%N] /\ visibility (hr_log r1) 4%N Obsolete.
Proof.
  exists (hdemo_env (fun o => negb (N.eqb o 4)) yes None), hdemo_broken. split; [exists 1%N; vm_compute; reflexivity|]. intros r1 res.
  split_and!; [vm_compute; discriminate|vm_compute; reflexivity..|]. apply status_in_spec. vm_compute. reflexivity.
Qed.

(** A branch that is elsewhere than the log says stays so. *)
Theorem c72_elsewhere_refuted : exists e r (n : refname) o, is_Some (hr_refs r !! he_main e) /\ (exists s, n = "refs/heads/" +:+ s) /\
  let r' := hs_repo (repair e id id 2 (TxId 7) false r) in
  last_update (hr_log r') n (NonZero o) /\ hr_refs r' !! n <> Some o.
Proof.
  exists (hdemo_env yes yes None), hdemo_broken, "refs/heads/a", 2%N. split; [exists 1%N; vm_compute; reflexivity|].
  split; [exists "a"; reflexivity|]. intros r'. split; [|vm_compute; discriminate].
  exists (hdemo_log ++ [RefUpdateEvent 1 (TxId 2) "refs/heads/old" Zero (NonZero 5) None]), 1%Z, (TxId 2), Zero, None,
    [RefUpdateEvent 2 (TxId 7) "refs/heads/old" (NonZero 5) Zero None]. split; [vm_compute; reflexivity|].
  intros x Hx. apply elem_of_list_singleton in Hx. subst x. discriminate.
Qed.

(** A dry run says that it has repaired what it has not. *)
Theorem c72_dry_refuted : exists e r after, let res := repair e id id 2 (TxId 7) true r in
  hs_out res = "Found and repaired 1 broken commit: 0000000000000000000000000000000000000004" :: after /\
  hs_repo res = r /\ visibility (hr_log r) 4%N Active.
Proof.
  exists (hdemo_env (fun o => negb (N.eqb o 4)) yes None), hdemo_broken,
    ["Found and repaired 1 broken branch: old"; "(This was a dry-run; run with --no-dry-run to apply changes.)"]. intros res.
  split_and!; [vm_compute; reflexivity|apply c72_dry|]. apply status_in_spec. vm_compute. reflexivity.
Qed.

Print Assumptions c70_status. Print Assumptions c70_announced. Print Assumptions c70_references.
Print Assumptions c70_head. Print Assumptions c70_shown. Print Assumptions c70_nothing_left. Print Assumptions c70_summary.
Print Assumptions c70_main_refuted. Print Assumptions c70_deleted_refuted. Print Assumptions c70_halfway_refuted.
Print Assumptions c71_undo. Print Assumptions c71_unhide. Print Assumptions c71_round_trip.
Print Assumptions c71_head_refuted. Print Assumptions c71_no_effect_refuted. Print Assumptions c71_unhide_refuted.
Print Assumptions c72_dry. Print Assumptions c72_repaired. Print Assumptions c72_report. Print Assumptions c72_again.
Print Assumptions c72_again_refuted. Print Assumptions c72_elsewhere_refuted. Print Assumptions c72_dry_refuted.
