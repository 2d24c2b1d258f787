(** Properties C01-C09, C52, C53: the event log and its replay. *)
From Verif Require Import Base TextModel TextProofs EventLogModel EventLogSpec
  EventLogProofs EventLogNavProofs EventLogRefProofs.
Local Open Scope Z_scope.

(** ** C01: storage *)

(** In every use of the database, reading the log gives exactly the storable
    events of the additions reported successful, in order. *)
Theorem c01_log_round_trip : forall d ids stored,
  usage d ids stored -> get_events d = Some stored.
Proof. intros d ids stored H. exact (proj1 (usage_invariant d ids stored H)). Qed.

(** One batch, without any assumption on transaction ids. *)
Theorem c01_one_batch : forall fails commit_fails d stored es d' ok,
  get_events d = Some stored -> (forall e, e ∈ es -> event_ok e) ->
  add_events fails commit_fails d es = (d', ok) ->
  get_events d' = Some (if ok then stored ++ filter storable es else stored).
Proof.
  intros fails cf d stored es d' ok Hget Hok H. destruct ok.
  - unfold add_events in H. destruct (insert_rows fails 0 (db_rows d) es) as [rows|] eqn:E; [|congruence].
    destruct cf; [congruence|]. injection H as <-. exact (insert_rows_spec _ _ _ _ _ _ Hok Hget E).
  - rewrite (add_events_failed _ _ _ _ _ H). exact Hget.
Qed.

(** A failed batch changes nothing at all, and without faults every batch
    succeeds. *)
Theorem c01_all_or_nothing : forall fails commit_fails d es d',
  add_events fails commit_fails d es = (d', false) -> d' = d.
Proof. exact add_events_failed. Qed.
Theorem c01_succeeds : forall d es, snd (add_events (fun _ => false) false d es) = true.
Proof. exact add_events_no_fault. Qed.

Definition ex_log : list event :=
  [ RefUpdateEvent 1 (TxId 1) "refs/heads/main" Zero (NonZero 10) (Some "init");
    CommitEvent 2 (TxId 2) 11;
    RefUpdateEvent 2 (TxId 2) "HEAD" (NonZero 10) (NonZero 11) None;
    RefUpdateEvent 2 (TxId 2) "refs/heads/topic" (NonZero 10) (NonZero 11) None;
    RewriteEvent 3 (TxId 3) (NonZero 11) (NonZero 12);
    RefUpdateEvent 3 (TxId 3) "refs/heads/topic" (NonZero 11) (NonZero 12) None;
    ObsoleteEvent 4 (TxId 4) 12;
    RefUpdateEvent 4 (TxId 4) "refs/heads/topic" Zero Zero (Some "delete");
    RefUpdateEvent 4 (TxId 4) "refs/heads/topic" Zero Zero (Some "delete");
    RefUpdateEvent 5 (TxId 5) "refs/branchless/12" Zero (NonZero 12) None;
    UnobsoleteEvent 5 (TxId 5) 12;
    SnapshotEvent 6 (TxId 6) (NonZero 10) 13 (Some "refs/heads/main"%string) ].

(** Decidable version of [event_ok], for the examples only. *)
Definition oid_okb (o : oid) : bool := (0 <? o)%N && (o <? oid_limit)%N.
Lemma ex_ok : forall e, e ∈ ex_log -> event_ok e.
Proof.
  intros e He. unfold ex_log in He.
  repeat (apply elem_of_cons in He; destruct He as [->|He]; [cbn; unfold oid_ok, oid_limit; lia|]).
  now apply elem_of_nil in He.
Qed.

Example c01_example :
  get_events (fst (add_events (fun _ => false) false empty_db
                     (ex_log ++ [CommitEvent 7 TxSuppressed 14]))) = Some ex_log
  /\ add_events (fun k => Nat.eqb k 5) false empty_db ex_log = (empty_db, false).
Proof. split; vm_compute; reflexivity. Qed.

(** ** C02: transaction ids *)

Theorem c02_toplevel_fresh : forall d ids stored env m t d',
  usage d ids stored ->
  match env with None => True | Some s => txid_from_string s = None end ->
  make_transaction_id env m d = (t, d') ->
  t ∉ ids /\ forall e, e ∈ stored -> event_tx e <> t.
Proof. exact toplevel_id_fresh. Qed.

Theorem c02_nested_same : forall d ids stored t m t' d',
  usage d ids stored -> t ∈ ids ->
  make_transaction_id (Some (txid_to_string t)) m d = (t', d') ->
  t' = t /\ d' = d.
Proof. exact nested_id_inherited. Qed.

Theorem c02_nested_suppressed : forall m d t d',
  make_transaction_id (Some (txid_to_string TxSuppressed)) m d = (t, d') ->
  t = TxSuppressed /\ d' = d.
Proof. exact suppressed_inherited. Qed.

Theorem c02_text_round_trip : forall t,
  match t with TxId i => isize_ok i | TxSuppressed => True end ->
  txid_from_string (txid_to_string t) = Some t.
Proof. exact txid_text_round_trip. Qed.

Theorem c02_message : forall d ids stored env m t d',
  usage d ids stored ->
  match env with None => True | Some s => txid_from_string s = None end ->
  make_transaction_id env m d = (t, d') ->
  get_transaction_message d' t = Some m.
Proof. exact toplevel_message. Qed.

Theorem c02_message_kept : forall d t m,
  get_transaction_message d t = Some m ->
  (forall env m' t' d', make_transaction_id env m' d = (t', d') -> get_transaction_message d' t = Some m) /\
  (forall f c es d' ok, add_events f c d es = (d', ok) -> get_transaction_message d' t = Some m).
Proof.
  intros d t m H. split; intros *; [exact (message_kept_by_tx _ _ _ _ _ _ _ H)|exact (message_kept_by_add _ _ _ _ _ _ _ _ H)].
Qed.

Example c02_example :
  let (t1, d1) := make_transaction_id None "a" empty_db in
  let (t2, d2) := make_transaction_id (Some (txid_to_string t1)) "b" d1 in
  let (t3, d3) := make_transaction_id None "c" d2 in
  t1 = TxId 1 /\ t2 = TxId 1 /\ t3 = TxId 2 /\ usage d3 [t1; t2; t3] [] /\
  txid_to_string (TxId (-42)) = "-42"%string.
Proof.
  cbn. split_and!; try reflexivity.
  pose (d1 := mk_db [] 1 [(1, "a"%string)]).
  apply (usage_toplevel d1 [TxId 1; TxId 1] [] None "c"); [|exact I|cbn; lia|reflexivity].
  apply (usage_nested d1 [TxId 1] [] (TxId 1) "b"); [|constructor|reflexivity].
  apply (usage_toplevel empty_db [] [] None "a"); [constructor|exact I|cbn; lia|reflexivity].
Qed.

(** ** C03: visibility *)

Theorem c03_status : forall main log c o a,
  valid_cursor (replay main log) c ->
  commit_status (replay main log) c o = a <->
  visibility (upto (events (replay main log)) c) o a.
Proof. intros main log c o a H. exact (commit_status_spec _ c o a (replay_invariant main log) H). Qed.

(** At the end of the log, in terms of the raw stored events. *)
Theorem c03_status_now : forall main log o a,
  commit_status (replay main log) (default_cursor (replay main log)) o = a <->
  visibility log o a.
Proof. exact status_now. Qed.

Theorem c03_latest_event : forall main log c o e,
  valid_cursor (replay main log) c ->
  latest_event (replay main log) c o = Some e <->
  last_concerning (upto (events (replay main log)) c) o e.
Proof. intros main log c o e H. exact (latest_event_spec _ c o e (replay_invariant main log) H). Qed.

Theorem c03_known_commits : forall main log c o,
  valid_cursor (replay main log) c ->
  o ∈ cursor_oids (replay main log) c <->
  exists e, e ∈ upto (events (replay main log)) c /\ concerns e o.
Proof. intros main log c o H. exact (cursor_oids_spec _ c o (replay_invariant main log) H). Qed.

Example c03_example :
  let r := replay "refs/heads/main" ex_log in
  length (events r) = 10%nat /\
  List.map (fun c => commit_status r c 12) [4; 5; 7; 9; 10] = [Inactive; Active; Obsolete; Active; Active] /\
  List.map (fun c => commit_status r c 11) [1; 2; 5] = [Inactive; Active; Obsolete].
Proof. split_and!; vm_compute; reflexivity. Qed.

(** ** C04: the past is immutable *)

Theorem c04_past_immutable : forall main l1 l2 c,
  valid_cursor (replay main l1) c ->
  let r1 := replay main l1 in
  let r2 := replay main (l1 ++ l2) in
  (forall o, commit_status r2 c o = commit_status r1 c o) /\
  (forall o, latest_event r2 c o = latest_event r1 c o) /\
  (forall o, o ∈ cursor_oids r2 c <-> o ∈ cursor_oids r1 c) /\
  cursor_head_oid r2 c = cursor_head_oid r1 c /\
  (forall repo_main now, cursor_branches r2 c repo_main now = cursor_branches r1 c repo_main now) /\
  tx_events_before_cursor r2 c = tx_events_before_cursor r1 c.
Proof.
  intros main l1 l2 c H. split_and!.
  - exact (stable_status main l1 l2 c H).
  - exact (stable_latest main l1 l2 c H).
  - exact (stable_oids main l1 l2 c H).
  - exact (stable_head main l1 l2 c H).
  - exact (stable_branches main l1 l2 c H).
  - exact (stable_tx_events main l1 l2 c H).
Qed.

(** The events themselves are only ever extended. *)
Theorem c04_events_extended : forall main l1 l2,
  exists ext, events (replay main (l1 ++ l2)) = events (replay main l1) ++ ext.
Proof. exact replay_extends. Qed.

Example c04_example :
  let r1 := replay "refs/heads/main" (firstn 6 ex_log) in
  let r2 := replay "refs/heads/main" ex_log in
  valid_cursor r1 3 /\ cursor_head_oid r1 3 = Some (Some 11%N) /\
  commit_status r1 3 11 = Active /\ commit_status r2 10 11 = Obsolete /\
  cursor_head_oid r2 10 = Some (Some 10%N).
Proof. split_and!; try (vm_compute; reflexivity); vm_compute; repeat split; discriminate. Qed.

(** ** C05: cursors stay within the log *)

Theorem c05_make_cursor : forall r c,
  valid_cursor r (make_cursor r c) /\
  (valid_cursor r c -> make_cursor r c = c) /\
  (c < 0 -> make_cursor r c = 0) /\
  (Z.of_nat (length (events r)) < c -> make_cursor r c = Z.of_nat (length (events r))).
Proof.
  intros r c. split; [exact (make_cursor_valid r c)|].
  rewrite make_cursor_spec. unfold valid_cursor, len. lia.
Qed.

Theorem c05_advance : forall r c n,
  valid_cursor r (advance_cursor r c n) /\
  (valid_cursor r (c + n) -> advance_cursor r c n = c + n).
Proof.
  intros r c n. split; [exact (make_cursor_valid r (c + n))|].
  unfold advance_cursor. rewrite make_cursor_spec. unfold valid_cursor, len. lia.
Qed.

(** With machine integers the same holds as long as the sum is representable. *)
Theorem c05_advance_isize_partial : forall r c n,
  isize_ok (c + n) -> advance_cursor_isize r c n = advance_cursor r c n.
Proof.
  intros r c n H. unfold advance_cursor_isize, advance_cursor. rewrite wrap_isize_id by exact H. reflexivity.
Qed.

(** A machine-integer cursor is always within the log ... *)
Theorem c05_advance_isize_valid : forall r c n, valid_cursor r (advance_cursor_isize r c n).
Proof. intros r c n. exact (make_cursor_valid r (wrap_isize (c + n))). Qed.

(** ... but a huge forward amount moves a release build backwards (a debug
    build panics): the full statement fails of the machine arithmetic. *)
Theorem c05_advance_isize_refuted : exists r c n,
  valid_cursor r c /\ isize_ok n /\ 0 < n /\ advance_cursor_isize r c n < c.
Proof.
  exists (replay "refs/heads/main" ex_log), 3, (2 ^ 63 - 1).
  split_and!; try (vm_compute; reflexivity); vm_compute; repeat split; discriminate.
Qed.

Example c05_example :
  let r := replay "refs/heads/main" ex_log in
  List.map (advance_cursor r 4) [-100; -4; -1; 0; 3; 6; 1000] = [0; 0; 3; 4; 7; 10; 10].
Proof. vm_compute. reflexivity. Qed.

(** ** C06: stepping by transaction *)

Theorem c06_lands_on_boundary : forall r c n,
  valid_cursor r c ->
  exists d, advance_tx r c n = Some d /\ valid_cursor r d /\ boundary (events r) d.
Proof. exact advance_tx_lands. Qed.

Theorem c06_snaps_forward : forall r c d,
  valid_cursor r c ->
  advance_tx r c 0 = Some d <->
  (c <= d <= Z.of_nat (length (events r)) /\ boundary (events r) d /\
   forall x, c <= x < d -> ~ boundary (events r) x).
Proof. exact advance_tx_zero. Qed.

Theorem c06_one_forward : forall r b d,
  valid_cursor r b -> boundary (events r) b -> b < Z.of_nat (length (events r)) ->
  advance_tx r b 1 = Some d <-> next_boundary (events r) b d.
Proof. exact advance_tx_one. Qed.

Theorem c06_one_backward : forall r b d,
  valid_cursor r b -> boundary (events r) b -> 0 < b ->
  advance_tx r b (-1) = Some d <-> prev_boundary (events r) b d.
Proof. exact advance_tx_minus_one. Qed.

(** Larger amounts are iterated single steps. *)
Theorem c06_iterate_forward : forall r c n,
  valid_cursor r c -> 0 <= n ->
  exists d, advance_tx r c n = Some d /\ advance_tx r c (n + 1) = advance_tx r d 1.
Proof. exact advance_tx_plus. Qed.
Theorem c06_iterate_backward : forall r c n,
  valid_cursor r c -> 0 <= n ->
  exists d, advance_tx r c (- n) = Some d /\ advance_tx r c (- (n + 1)) = advance_tx r d (-1).
Proof. exact advance_tx_minus. Qed.

Theorem c06_forward_back : forall r b,
  valid_cursor r b -> boundary (events r) b -> b < Z.of_nat (length (events r)) ->
  exists d, advance_tx r b 1 = Some d /\ advance_tx r d (-1) = Some b.
Proof. exact advance_tx_forward_back. Qed.
Theorem c06_back_forward : forall r b,
  valid_cursor r b -> boundary (events r) b -> 0 < b ->
  exists d, advance_tx r b (-1) = Some d /\ advance_tx r d 1 = Some b.
Proof. exact advance_tx_back_forward. Qed.

Theorem c06_ends : forall r n, 0 <= n ->
  advance_tx r (Z.of_nat (length (events r))) n = Some (Z.of_nat (length (events r))) /\
  advance_tx r 0 (- n) = Some 0.
Proof. intros r n H. split; [exact (advance_tx_stuck_end r n H)|exact (advance_tx_stuck_start r n H)]. Qed.

Example c06_example :
  let r := replay "refs/heads/main" ex_log in
  List.map (fun n => advance_tx r 4 n) [-3; -2; -1; 0; 1; 2; 3; 9]
  = List.map Some [0; 0; 1; 4; 6; 8; 9; 10] /\ advance_tx r 2 1 = Some 6 /\
  boundary (events r) 4 /\ ~ boundary (events r) 2.
Proof.
  split_and!; try (vm_compute; reflexivity).
  - apply boundary_T; [vm_compute; split; discriminate|]. right. split; vm_compute; [reflexivity|discriminate].
  - rewrite boundary_T by (vm_compute; split; discriminate). intros [H|[_ H]]; [discriminate H|].
    apply H. vm_compute. reflexivity.
Qed.

(** ** C07: the latest transaction *)

Theorem c07_latest_transaction : forall r c,
  valid_cursor r c -> 0 < c ->
  exists start seg, tx_events_before_cursor r c = Some (Some (start + 1, seg)) /\
                    latest_run (events r) c start seg.
Proof. exact tx_events_spec. Qed.

Theorem c07_run_unique : forall es c s seg s' seg',
  latest_run es c s seg -> latest_run es c s' seg' -> s = s' /\ seg = seg'.
Proof. exact latest_run_unique. Qed.

Theorem c07_nothing_at_start : forall r, tx_events_before_cursor r 0 = Some None.
Proof. exact tx_events_start. Qed.

(** A single event is given with its number, counted from 1. *)
Theorem c07_latest_event : forall r c, valid_cursor r c -> 0 < c ->
  exists e, event_before_cursor r c = Some (Some (c, e)) /\ nth_error (events r) (Z.to_nat c - 1) = Some e.
Proof.
  intros r c [H1 H2] H. unfold event_before_cursor, index. destruct (Z.eqb_spec c 0); [lia|]. destruct (Z.leb_spec 0 (c - 1)); [|lia].
  replace (Z.to_nat c - 1)%nat with (Z.to_nat (c - 1)) by lia.
  destruct (nth_error (events r) (Z.to_nat (c - 1))) as [e|] eqn:E; [eauto|]. apply nth_error_None in E. lia.
Qed.

Example c07_example :
  let r := replay "refs/heads/main" ex_log in
  tx_events_before_cursor r 3 =
  Some (Some (2, [CommitEvent 2 (TxId 2) 11;
                  RefUpdateEvent 2 (TxId 2) "HEAD" (NonZero 10) (NonZero 11) None])).
Proof. vm_compute. reflexivity. Qed.

(** ** C08: historical branch table *)

Theorem c08_branches : forall r c repo_main now,
  valid_cursor r c ->
  exists res m, cursor_branches r c repo_main now = Some res /\
    cursor_main_oid r c repo_main now = Some m /\
    forall o n, (o, n) ∈ res <->
      ((exists rest, n = String.append "refs/heads/" rest) /\
       last_update (upto (events r) c) n (NonZero o)) \/
      (n = main_name r /\ o = m).
Proof. exact cursor_branches_spec. Qed.

Theorem c08_untracked_never : forall main log e n,
  e ∈ events (replay main log) -> updates e n -> ~ untracked n.
Proof. exact replay_tracked. Qed.

Example c08_example :
  let r := replay "refs/heads/main" ex_log in
  cursor_branches r 4 "refs/heads/main" 99 =
    Some [(11%N, "refs/heads/topic"%string); (10%N, "refs/heads/main"%string); (10%N, "refs/heads/main"%string)] /\
  cursor_branches r 10 "refs/heads/main" 99 =
    Some [(10%N, "refs/heads/main"%string); (10%N, "refs/heads/main"%string)].
Proof. split; vm_compute; reflexivity. Qed.

(** ** C09: the main branch *)

(** The claim fails once the main branch has been deleted. *)
Theorem c09_main_branch_refuted : exists main log c now o,
  let r := replay main log in
  valid_cursor r c /\ last_update (upto (events r) c) main Zero /\
  cursor_main_oid r c main now = Some o /\ o <> now.
Proof.
  exists "refs/heads/main"%string,
    [RefUpdateEvent 1 (TxId 1) "refs/heads/main" Zero (NonZero 10) None;
     RefUpdateEvent 2 (TxId 2) "refs/heads/main" (NonZero 10) Zero None], 2, 20%N, 10%N.
  cbv zeta. split_and!; try (vm_compute; repeat split; congruence).
  exists [RefUpdateEvent 1 (TxId 1) "refs/heads/main" Zero (NonZero 10) None], 2, (TxId 2), (NonZero 10), None, [].
  split; [vm_compute; reflexivity|]. intros e He. now apply elem_of_nil in He.
Qed.

(** It holds as long as the branch is not deleted at the cursor. *)
Theorem c09_main_branch_partial : forall r c n now o,
  valid_cursor r c -> last_update (upto (events r) c) n (NonZero o) ->
  cursor_main_oid r c n now = Some o.
Proof. exact cursor_main_not_deleted. Qed.
Theorem c09_main_branch_unobserved : forall r c n now,
  valid_cursor r c -> (forall e, e ∈ upto (events r) c -> ~ updates e n) ->
  cursor_main_oid r c n now = Some now.
Proof. exact cursor_main_unobserved. Qed.

Example c09_example :
  let r := replay "refs/heads/main" ex_log in
  cursor_main_oid r 0 "refs/heads/main" 99 = Some 99%N /\
  cursor_main_oid r 5 "refs/heads/main" 99 = Some 10%N /\
  last_update (upto (events r) 5) "refs/heads/main" (NonZero 10).
Proof.
  split_and!; try (vm_compute; reflexivity).
  apply ref_table_spec. vm_compute. reflexivity.
Qed.

(** ** C52: cleaning raw events loses nothing *)

Theorem c52_positions_kept : forall main log n m,
  ~ untracked n ->
  last_update (events (replay main log)) n m <-> last_update log n m.
Proof. exact replay_positions. Qed.

Theorem c52_other_events_kept : forall main log,
  filter (fun e => ~ is_ref_update e) (events (replay main log)) =
  filter (fun e => ~ is_ref_update e) log.
Proof. exact replay_others. Qed.

Theorem c52_only_removed : forall main log,
  List.map forget_old (events (replay main log)) `sublist_of` List.map forget_old log.
Proof. exact replay_sublist. Qed.

Theorem c52_old_values : forall main log before ts tx n old m msg after,
  events (replay main log) = before ++ RefUpdateEvent ts tx n old m msg :: after ->
  RefUpdateEvent ts tx n old m msg ∈ log \/
  (m = Zero /\ RefUpdateEvent ts tx n Zero Zero msg ∈ log /\
   forall o, old = NonZero o <-> last_update before n (NonZero o)).
Proof. exact replay_old_values. Qed.

(** No deletion of a reference that had a position is left without old value. *)
Theorem c52_deletions_dated : forall main log before ts tx n msg after,
  events (replay main log) = before ++ RefUpdateEvent ts tx n Zero Zero msg :: after ->
  forall o, ~ last_update before n (NonZero o).
Proof. exact replay_deletions. Qed.

Example c52_example :
  skipn 7 (events (replay "refs/heads/main" ex_log)) =
  [ RefUpdateEvent 4 (TxId 4) "refs/heads/topic" (NonZero 12) Zero (Some "delete");
    UnobsoleteEvent 5 (TxId 5) 12;
    SnapshotEvent 6 (TxId 6) (NonZero 10) 13 (Some "refs/heads/main"%string) ]
  /\ ~ untracked "refs/heads/topic" /\ untracked "refs/branchless/12".
Proof.
  split; [vm_compute; reflexivity|]. split.
  - intros H. apply ignored_spec in H. vm_compute in H. discriminate.
  - apply ignored_spec. reflexivity.
Qed.

(** ** C53: historical HEAD *)

Theorem c53_head : forall r c,
  valid_cursor r c ->
  exists res, cursor_head_oid r c = Some res /\
    forall o, res = Some o <->
      exists before e after, upto (events r) c = before ++ e :: after /\ head_evidence e o /\
        forall e' o', e' ∈ after -> ~ head_evidence e' o'.
Proof. exact cursor_head_spec. Qed.

Example c53_example :
  let r := replay "refs/heads/main" ex_log in
  List.map (cursor_head_oid r) [1; 2; 9; 10] = List.map Some [None; Some 11%N; Some 11%N; Some 10%N].
Proof. vm_compute. reflexivity. Qed.

(** ** C54: text of object ids *)

Theorem c54_oid_text : forall m, moid_ok m -> moid_from_string (moid_to_string m) = Some m.
Proof. exact moid_text_round_trip. Qed.
Theorem c54_nonzero_text : forall o, oid_ok o -> oid_from_string (oid_to_string o) = Some o.
Proof. exact nzoid_text_round_trip. Qed.
Theorem c54_width : forall o, String.length (oid_to_string o) = 40%nat.
Proof. exact oid_text_length. Qed.
Theorem c54_zero_rejected : oid_from_string (moid_to_string Zero) = None.
Proof. vm_compute. reflexivity. Qed.

Example c54_example :
  oid_to_string 0xe83c5163316f89bfbde7d9ab23ca2e25604af290 = "e83c5163316f89bfbde7d9ab23ca2e25604af290"%string
  /\ oid_from_string "E83C5163316F89BFBDE7D9AB23CA2E25604AF290" = Some 0xe83c5163316f89bfbde7d9ab23ca2e25604af290%N
  /\ oid_from_string "xyz" = None.
Proof. split_and!; vm_compute; reflexivity. Qed.

Print Assumptions c01_log_round_trip.
Print Assumptions c02_toplevel_fresh.
Print Assumptions c03_status_now.
Print Assumptions c04_past_immutable.
Print Assumptions c05_advance_isize_refuted.
Print Assumptions c06_iterate_backward.
Print Assumptions c07_latest_transaction.
Print Assumptions c08_branches.
Print Assumptions c09_main_branch_refuted.
Print Assumptions c52_old_values.
Print Assumptions c53_head.
Print Assumptions c54_oid_text.
