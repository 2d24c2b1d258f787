(** Properties C10 to C14: undo, garbage collection, rewritten commits. *)
From Verif Require Import Base TextModel EventLogModel EventLogSpec EventLogProofs
  UndoModel UndoSpec UndoProofs EvolveModel EvolveSpec EvolveProofs.
Local Open Scope Z_scope.

(** ** C10: undo restores every reference *)

(** [R] is the table of references at the cursor. *)
Theorem c10_refs_restored : forall r c now tx w R since w' t,
  events_since_cursor r c = Some since ->
  true_history R since ->
  (forall n : refname, n <> "HEAD"%string -> w_refs w !! n = after_history R since !! n) ->
  undo_events r c now tx true w = Some (w', t) ->
  forall n : refname, n <> "HEAD"%string -> w_refs w' !! n = R !! n.
Proof. exact undo_restores_refs. Qed.

Theorem c10_others_untouched : forall r c now tx w since w' t n,
  events_since_cursor r c = Some since ->
  (forall e, e ∈ since -> ~ updates e n) ->
  undo_events r c now tx true w = Some (w', t) ->
  w_refs w' !! n = w_refs w !! n.
Proof. exact undo_untouched. Qed.

(** HEAD is not written directly but handed to the final checkout. *)
Theorem c10_head_left_to_checkout : forall r c now tx w since w' t,
  events_since_cursor r c = Some since ->
  undo_events r c now tx true w = Some (w', t) ->
  w_refs w' !! "HEAD"%string = w_refs w !! "HEAD"%string.
Proof. exact undo_head_left. Qed.

Theorem c10_head_target : forall r c now tx w R since w' t o,
  events_since_cursor r c = Some since ->
  undo_events r c now tx true w = Some (w', t) ->
  true_history R since -> R !! "HEAD"%string = Some o ->
  (forall ts tx' h so n, SnapshotEvent ts tx' h so n ∉ since) ->
  (exists e, e ∈ since /\ updates e "HEAD") ->
  t = Some (mk_target o true None).
Proof.
  intros r c now tx w R since w' t o Hs Hu HT HR HN HE.
  rewrite (undo_result r c now tx w since Hs) in Hu. injection Hu as _ <-.
  exact (undo_head_target now tx R since o HT HR HN HE).
Qed.

(** In general the earliest HEAD update or snapshot since the cursor decides. *)
Theorem c10_checkout_target : forall r c now tx w since w' t t0,
  events_since_cursor r c = Some since ->
  undo_events r c now tx true w = Some (w', t) ->
  t = Some t0 <->
  exists before e after, since = before ++ e :: after /\ checkout_hint e t0 /\
    forall e' t', e' ∈ before -> ~ checkout_hint e' t'.
Proof.
  intros r c now tx w since w' t t0 Hs Hu.
  rewrite (undo_result r c now tx w since Hs) in Hu. injection Hu as _ <-.
  exact (undo_target now tx since t0).
Qed.

(** Undo itself never panics at a valid cursor. *)
Theorem c10_total : forall r c now tx confirmed w,
  valid_cursor r c -> exists res, undo_events r c now tx confirmed w = Some res.
Proof.
  intros r c now tx confirmed w Hc. destruct (events_since_spec r c Hc) as (since & Hs & _).
  unfold undo_events. rewrite Hs. destruct (inverse_events now tx since); [eauto|].
  destruct confirmed; [|eauto]. destruct (extract_checkout None _). eauto.
Qed.

(** Declining the confirmation changes nothing. *)
Theorem c10_declined : forall r c now tx w w' t,
  undo_events r c now tx false w = Some (w', t) -> w' = w /\ t = None.
Proof.
  intros r c now tx w w' t. unfold undo_events. destruct (events_since_cursor r c); [|discriminate].
  destruct (inverse_events now tx _); intros E; injection E as <- <-; auto.
Qed.

(** A branch is created, moved, another one deleted, HEAD moves twice. *)
Definition undo_before : gmap refname oid :=
  {[ "HEAD"%string := 10%N; "refs/heads/old"%string := 10%N; "refs/heads/main"%string := 10%N ]}.
Definition undo_log_ex : list event :=
  [ RefUpdateEvent 1 (TxId 1) "HEAD" (NonZero 10) (NonZero 11) None;
    CommitEvent 1 (TxId 1) 11;
    RefUpdateEvent 2 (TxId 2) "refs/heads/topic" Zero (NonZero 11) (Some "branch");
    RefUpdateEvent 3 (TxId 2) "refs/heads/old" (NonZero 10) Zero None;
    RefUpdateEvent 4 (TxId 3) "refs/heads/topic" (NonZero 11) (NonZero 12) None;
    RefUpdateEvent 4 (TxId 3) "HEAD" (NonZero 11) (NonZero 12) None;
    RewriteEvent 4 (TxId 3) (NonZero 11) (NonZero 12) ].
Example c10_example :
  let r := replay "refs/heads/main" undo_log_ex in
  exists w' t,
  events_since_cursor r 0 = Some undo_log_ex /\
  true_history undo_before undo_log_ex /\
  undo_events r 0 9 (TxId 9) true (mk_world (after_history undo_before undo_log_ex) undo_log_ex) = Some (w', t) /\
  t = Some (mk_target 10 true None) /\
  after_history undo_before undo_log_ex !! "refs/heads/topic"%string = Some 12%N /\
  w_refs w' !! "refs/heads/topic"%string = None /\
  w_refs w' !! "refs/heads/old"%string = Some 10%N /\
  w_log w' = undo_log_ex ++ [RewriteEvent 9 (TxId 9) (NonZero 12) (NonZero 11); ObsoleteEvent 9 (TxId 9) 11].
Proof.
  eexists _, _. split_and!; [vm_compute; reflexivity| |vm_compute; reflexivity..].
  vm_compute. repeat split.
Qed.

(** ** C11: undo restores visibility *)

(** [extra] stands for the events recorded by the final checkout. *)
Theorem c11_unaffected : forall main log c now i w w' t since extra o,
  w_log w = log -> valid_cursor (replay main log) c ->
  events_since_cursor (replay main log) c = Some since ->
  undo_events (replay main log) c now (TxId i) true w = Some (w', t) ->
  (forall e, e ∈ extra -> ~ concerns e o) ->
  (forall e, e ∈ since -> ~ concerns e o) ->
  let r' := replay main (w_log w' ++ extra) in
  commit_status r' (default_cursor r') o = commit_status (replay main log) c o.
Proof.
  intros main log c now i w w' t since extra o H1 H2 H3 H4 H5.
  exact (proj1 (undo_status main log c now i w w' t since extra o H1 H2 H3 H4 H5)).
Qed.

(** The status after the undo is the opposite of the first event since the
    cursor that concerns the commit. *)
Theorem c11_opposite_of_first : forall main log c now i w w' t since extra o e,
  w_log w = log -> valid_cursor (replay main log) c ->
  events_since_cursor (replay main log) c = Some since ->
  undo_events (replay main log) c now (TxId i) true w = Some (w', t) ->
  (forall e, e ∈ extra -> ~ concerns e o) ->
  first_concerning since o e ->
  let r' := replay main (w_log w' ++ extra) in
  (hides e o -> commit_status r' (default_cursor r') o = Active) /\
  (~ hides e o -> commit_status r' (default_cursor r') o = Obsolete).
Proof.
  intros main log c now i w w' t since extra o e H1 H2 H3 H4 H5 Hf.
  pose proof (proj2 (undo_status main log c now i w w' t since extra o H1 H2 H3 H4 H5) e Hf) as E.
  cbn. cbn in E. rewrite E. destruct (hides_dec e o); split; intros; tauto.
Qed.

(** Missing for the full claim: the first event since the cursor that concerns
    the commit must really have changed its visibility. *)
Theorem c11_visibility_partial : forall main log c now i w w' t since extra o,
  w_log w = log -> valid_cursor (replay main log) c ->
  events_since_cursor (replay main log) c = Some since ->
  undo_events (replay main log) c now (TxId i) true w = Some (w', t) ->
  (forall e, e ∈ extra -> ~ concerns e o) ->
  (forall e, first_concerning since o e ->
     (hides e o -> commit_status (replay main log) c o = Active) /\
     (~ hides e o -> commit_status (replay main log) c o <> Active)) ->
  let r' := replay main (w_log w' ++ extra) in
  (commit_status (replay main log) c o <> Inactive ->
     commit_status r' (default_cursor r') o = commit_status (replay main log) c o) /\
  (commit_status (replay main log) c o = Inactive -> (exists e, e ∈ since /\ concerns e o) ->
     commit_status r' (default_cursor r') o = Obsolete).
Proof.
  intros main log c now i w w' t since extra o H1 H2 H3 H4 H5 Hd r'.
  destruct (undo_status main log c now i w w' t since extra o H1 H2 H3 H4 H5) as [A B].
  destruct (first_concerning_exists since o) as [N|[e He]].
  - split; [intros _; exact (A N)|]. intros _ (e & He & C). exfalso. exact (N e He C).
  - fold r' in B. rewrite (B e He). destruct (Hd e He) as [D1 D2].
    destruct (hides_dec e o) as [Hh|Hh].
    + rewrite (D1 Hh). split; [reflexivity|discriminate].
    + specialize (D2 Hh). split; [|reflexivity].
      destruct (commit_status (replay main log) c o); done.
Qed.

Example c11_example :
  let log := [CommitEvent 1 (TxId 1) 10; CommitEvent 1 (TxId 2) 11; ObsoleteEvent 1 (TxId 3) 10;
              RewriteEvent 1 (TxId 4) (NonZero 11) (NonZero 12)] in
  let r := replay "refs/heads/main" log in
  exists w' t, undo_events r 2 9 (TxId 9) true (mk_world ∅ log) = Some (w', t) /\
    (let r' := replay "refs/heads/main" (w_log w') in
     List.map (commit_status r' (default_cursor r')) [10%N; 11%N; 12%N] = [Active; Active; Obsolete] /\
     List.map (commit_status r (default_cursor r)) [10%N; 11%N; 12%N] = [Obsolete; Obsolete; Active]).
Proof. eexists _, _. split; [vm_compute; reflexivity|]. cbv zeta. split; vm_compute; reflexivity. Qed.

(** A commit recorded a second time since the cursor ends up hidden, although
    it was visible at the cursor. *)
Theorem c11_visibility_refuted : exists main log c now i w w' t since o,
  w_log w = log /\ valid_cursor (replay main log) c /\
  events_since_cursor (replay main log) c = Some since /\
  undo_events (replay main log) c now (TxId i) true w = Some (w', t) /\
  commit_status (replay main log) c o = Active /\
  (let r' := replay main (w_log w') in commit_status r' (default_cursor r') o = Obsolete).
Proof.
  exists "refs/heads/main"%string, [CommitEvent 1 (TxId 1) 10; CommitEvent 1 (TxId 2) 10], 1, 9, 9,
    (mk_world ∅ [CommitEvent 1 (TxId 1) 10; CommitEvent 1 (TxId 2) 10]).
  eexists _, _, _, 10%N. split_and!; try (vm_compute; reflexivity).
  vm_compute. repeat split; discriminate.
Qed.

(** ** C12: undoing an undo *)

Theorem c12_inverse_twice : forall now tx now' tx' e,
  effect_of (inverse_event now' tx' (inverse_event now tx e)) = effect_of e.
Proof. exact inverse_twice. Qed.

(** Applying the inverses of the inverse events restores all references. *)
Theorem c12_redo_refs : forall now tx since R w,
  true_history R since ->
  (forall n : refname, n <> "HEAD"%string -> w_refs w !! n = R !! n) ->
  forall n : refname, n <> "HEAD"%string ->
  w_refs (fold_left undo_step (List.map (inverse_event now tx) (rev (inverse_events now tx since))) w) !! n
  = after_history R since !! n.
Proof. exact redo_restores. Qed.

Example c12_example :
  inverse_event 9 (TxId 9) (RefUpdateEvent 1 (TxId 1) "refs/heads/a" Zero (NonZero 5) (Some "m")) =
  RefUpdateEvent 9 (TxId 9) "refs/heads/a" (NonZero 5) Zero None /\
  effect_of (CommitEvent 1 (TxId 1) 5) = effect_of (UnobsoleteEvent 9 (TxId 9) 5).
Proof. split; reflexivity. Qed.

(** But [git undo] does not record the reference changes it makes, so running
    it a second time repeats the first undo instead of reverting it. *)
Theorem c12_undo_undo_refuted : exists main now now' i j w w1 w2 t1 t2 (n : refname),
  true_history {[ n := 10%N ]} (w_log w) /\ w_refs w = after_history {[ n := 10%N ]} (w_log w) /\
  undo_last main now (TxId i) true w = Some (w1, t1) /\
  undo_last main now' (TxId j) true w1 = Some (w2, t2) /\
  w_refs w1 !! n = Some 10%N /\ w_refs w !! n = Some 11%N /\ w_refs w2 !! n = Some 10%N.
Proof.
  exists "refs/heads/main"%string, 5, 6, 5, 6,
    (mk_world {[ "refs/heads/topic"%string := 11%N ]}
       [RefUpdateEvent 1 (TxId 1) "refs/heads/topic" (NonZero 10) (NonZero 11) None]).
  eexists _, _, _, _, "refs/heads/topic"%string.
  split_and!; try (vm_compute; reflexivity). 
  - vm_compute. repeat split.
  - cbn [w_refs w_log after_history]. rewrite insert_singleton. reflexivity.
Qed.

(** ** C13: garbage collection *)

Theorem c13_exactly_obsolete : forall refs r n t,
  gc refs r !! n = Some t <->
  refs !! n = Some t /\
  ~ ((exists rest, n = String.append "refs/branchless/" rest) /\
     exists o, t = ToCommit o /\ commit_status r (default_cursor r) o = Obsolete).
Proof. exact gc_spec. Qed.
Theorem c13_idempotent : forall refs r, gc (gc refs r) r = gc refs r.
Proof. exact gc_idempotent. Qed.
(** A marked commit that is not hidden survives. *)
Theorem c13_marked_survives : forall (exists_commit : oid -> bool) o refs r,
  exists_commit o = true -> commit_status r (default_cursor r) o <> Obsolete ->
  gc (mark_reachable exists_commit o refs) r !! String.append "refs/branchless/" (oid_to_string o)
  = Some (ToCommit o).
Proof. exact mark_then_gc. Qed.

Example c13_example :
  let log := [CommitEvent 1 (TxId 1) 10; CommitEvent 1 (TxId 1) 11; ObsoleteEvent 1 (TxId 2) 11] in
  let refs := {[ "refs/branchless/a"%string := ToCommit 10; "refs/branchless/b"%string := ToCommit 11;
                 "refs/heads/b"%string := ToCommit 11; "refs/branchless/c"%string := ToCommit 12 ]} : gmap refname ref_target in
  let refs' := gc refs (replay "refs/heads/main" log) in
  List.map (fun n : refname => refs' !! n) ["refs/branchless/a"; "refs/branchless/b"; "refs/heads/b"; "refs/branchless/c"]%string
  = [Some (ToCommit 10); None; Some (ToCommit 11); Some (ToCommit 12)].
Proof. vm_compute. reflexivity. Qed.

(** ** C14: newest version of a commit *)

(** The lookup terminates: the fuel is never exhausted. *)
Theorem c14_terminates : forall main log c o,
  valid_cursor (replay main log) c ->
  exists res, find_rewrite_target (replay main log) c o = Some res.
Proof.
  intros main log c o Hc.
  destruct (find_rewrite_target_spec _ c o (replay_invariant main log) Hc) as (res & H & _). eauto.
Qed.
Theorem c14_target : forall main log c o m,
  valid_cursor (replay main log) c ->
  find_rewrite_target (replay main log) c o = Some (Some m) <->
  chain_end (upto (events (replay main log)) c) o m.
Proof. intros main log c o m. apply find_rewrite_some, replay_invariant. Qed.
Theorem c14_none : forall main log c o,
  valid_cursor (replay main log) c ->
  find_rewrite_target (replay main log) c o = Some None <->
  forall new, ~ rewritten (upto (events (replay main log)) c) o new.
Proof. intros main log c o. apply find_rewrite_none, replay_invariant. Qed.
Theorem c14_never_itself : forall es o, ~ chain_end es o (NonZero o).
Proof. exact chain_end_not_self. Qed.
Theorem c14_answer_is_newest : forall es o x,
  chain_end es o (NonZero x) -> forall new, ~ rewritten es x new.
Proof. exact chain_end_final. Qed.
Theorem c14_answer_unique : forall es o a b, chain_end es o a -> chain_end es o b -> a = b.
Proof. exact chain_end_unique. Qed.

(** 1→2→3, a cycle 4→5→4, a deletion 6→7→0. *)
Example c14_example :
  let log := [RewriteEvent 1 (TxId 1) (NonZero 1) (NonZero 2); RewriteEvent 1 (TxId 1) (NonZero 4) (NonZero 5);
              RewriteEvent 1 (TxId 1) (NonZero 6) (NonZero 7); RewriteEvent 2 (TxId 2) (NonZero 2) (NonZero 3);
              RewriteEvent 2 (TxId 2) (NonZero 5) (NonZero 4); RewriteEvent 2 (TxId 2) (NonZero 7) Zero] in
  let r := replay "refs/heads/main" log in
  List.map (find_rewrite_target r (default_cursor r)) [1; 2; 3; 4; 5; 6; 8]%N
  = [Some (Some (NonZero 3)); Some (Some (NonZero 3)); Some None; Some None;
     Some (Some (NonZero 4)); Some (Some Zero); Some None].
Proof. vm_compute. reflexivity. Qed.

Print Assumptions c10_refs_restored.
Print Assumptions c10_head_target.
Print Assumptions c11_visibility_partial.
Print Assumptions c11_visibility_refuted.
Print Assumptions c12_redo_refs.
Print Assumptions c12_undo_undo_refuted.
Print Assumptions c13_exactly_obsolete.
Print Assumptions c13_marked_survives.
Print Assumptions c14_target.
Print Assumptions c14_never_itself.
