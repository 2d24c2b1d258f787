(** C118: wrapped Git commands *)
From Verif Require Import Base TextModel TextProofs EventLogModel EventLogSpec EventLogProofs EventLogNavProofs EventLogRefProofs EventLogProps
  WrapModel WrapSpec WrapProofs.
Local Open Scope Z_scope.

(** ** C118: a wrapped Git command is one step of the history *)

(** All that the hooks and the programs started by them record during a wrapped
    command, at whatever depth, is recorded as one transaction, which is new, is
    described by the command, and has nothing else in it. *)
Theorem c118_one_transaction : forall d ids stored env args hooks,
  usage d ids stored -> match env with None => True | Some s => txid_from_string s = None end -> tx_seq d + 1 < 2 ^ 63 ->
  Forall (fun h => tidy (snd h) /\ alone (snd h)) hooks ->
  exists t, t ∉ ids /\ t <> TxSuppressed /\
    get_events (wrap true env args hooks d) = Some (stored ++ hooks_say t hooks) /\
    (forall e, e ∈ hooks_say t hooks -> event_tx e = t) /\ (forall e, e ∈ stored -> event_tx e <> t) /\
    get_transaction_message (wrap true env args hooks d) t = Some (match args with a :: _ => a | [] => "wrap"%string end).
Proof.
  intros d ids stored env args hooks U He Hs F. unfold wrap.
  destruct (make_transaction_id env (wrap_message args) d) as [t d'] eqn:E.
  destruct (toplevel_id_fresh _ _ _ _ _ _ _ U He E) as [N1 N2]. pose proof (toplevel_message _ _ _ _ _ _ _ U He E) as M.
  pose proof (usage_invariant _ _ _ U) as (G & Sq & _). rewrite make_tx_toplevel in E by exact He. injection E as <- <-.
  set (t := TxId (tx_seq d + 1)) in *. assert (Ht : t <> TxSuppressed) by discriminate.
  assert (Hr : txid_from_string (txid_to_string t) = Some t) by (apply txid_text_round_trip; unfold isize_ok; cbn; lia).
  destruct (hooks_inside t hooks Ht Hr (mk_db (db_rows d) (tx_seq d + 1) (tx_table d ++ [(tx_seq d + 1, wrap_message args)])) stored F G) as (A & B).
  exists t. split; [exact N1|]. split; [exact Ht|]. split; [exact A|]. split; [intros e; now apply hooks_tx|]. split; [exact N2|].
  revert M. unfold get_transaction_message. cbn [t]. rewrite B. unfold wrap_message. destruct args; auto.
Qed.

(** So going back by one step from the end, as [git undo] does, goes back to where
    the command was run, if anything was recorded that counts. *)
Theorem c118_undone_in_one_step : forall d ids stored env args hooks main after,
  usage d ids stored -> match env with None => True | Some s => txid_from_string s = None end -> tx_seq d + 1 < 2 ^ 63 ->
  Forall (fun h => tidy (snd h) /\ alone (snd h)) hooks ->
  get_events (wrap true env args hooks d) = Some after ->
  let r := replay main after in
  events r = events (replay main stored) \/
  advance_tx r (default_cursor r) (-1) = Some (default_cursor (replay main stored)).
Proof.
  intros d ids stored env args hooks main after U He Hs F HA r.
  destruct (c118_one_transaction d ids stored env args hooks U He Hs F) as (t & _ & _ & G & Hn & Ho & _).
  rewrite G in HA. injection HA as <-. destruct (replay_more main stored (hooks_say t hooks) t Hn) as (ext & E & X). fold r in E.
  destruct ext as [|x ext]; [left; now rewrite app_nil_r in E|]. right. rewrite (default_cursor_spec (replay main stored)).
  apply (one_back r (events (replay main stored)) (x :: ext) t); auto.
  intros e Hin Et. destruct (replayed_tx main stored e Hin) as (e' & He' & Et'). apply (Ho e' He'). congruence.
Qed.

(** A command wrapped inside a transaction is part of that; one outside of a
    repository leaves the variable alone. *)
Theorem c118_nested : forall d ids stored t args hooks found,
  usage d ids stored -> t ∈ ids -> Forall (fun h => tidy (snd h) /\ alone (snd h)) hooks ->
  get_events (wrap found (Some (txid_to_string t)) args hooks d) = Some (stored ++ hooks_say t hooks).
Proof.
  intros d ids stored t args hooks found U Ht F. pose proof (usage_invariant _ _ _ U) as (G & Sq & Hin & _).
  destruct (Hin t Ht) as (i & -> & Hi).
  assert (Hr : txid_from_string (txid_to_string (TxId i)) = Some (TxId i)) by (apply txid_text_round_trip; unfold isize_ok; cbn; lia).
  unfold wrap. rewrite inherited by exact Hr. destruct found; eapply hooks_inside; eauto; discriminate.
Qed.

(** If something else is run meanwhile, the steps are mixed up: going back by one
    does not go back to where the command was run, and what it did is in two steps. *)
Definition mixed : list (string * script) :=
  [("hook-post-commit"%string, Records false (fun t => [CommitEvent 1 t 11]) Stop);
   ("hook-reference-transaction"%string,
    Meanwhile "commit" (Records false (fun t => [CommitEvent 2 t 12]) Stop) (Records false (fun t => [CommitEvent 3 t 13]) Stop))].
Theorem c118_meanwhile_refuted : exists d ids stored args hooks main after,
  usage d ids stored /\ tx_seq d + 1 < 2 ^ 63 /\ Forall (fun h => tidy (snd h)) hooks /\
  get_events (wrap true None args hooks d) = Some after /\
  advance_tx (replay main after) (default_cursor (replay main after)) (-1) <> Some (default_cursor (replay main stored)) /\
  exists a x b y c, after = a ++ x :: b ++ y :: c /\ event_tx x = event_tx y /\ exists z, z ∈ b /\ event_tx z <> event_tx x.
Proof.
  exists empty_db, [], [], ["rebase"%string], mixed, "refs/heads/main"%string,
    [CommitEvent 1 (TxId 1) 11; CommitEvent 2 (TxId 2) 12; CommitEvent 3 (TxId 1) 13].
  split; [constructor|]. split; [cbn; lia|]. split.
  { unfold mixed. repeat constructor; cbn [snd tidy]; repeat split; intros; try (apply elem_of_list_singleton in H; subst e; reflexivity);
      apply elem_of_list_singleton in H; subst e; cbn; unfold oid_ok, oid_limit; lia. }
  split; [vm_compute; reflexivity|]. split; [vm_compute; discriminate|].
  exists [], (CommitEvent 1 (TxId 1) 11), [CommitEvent 2 (TxId 2) 12], (CommitEvent 3 (TxId 1) 13), [].
  split; [reflexivity|]. split; [reflexivity|]. eexists. split; [left|discriminate].
Qed.

(** A rebase: the commits are recorded by a hook; another hook starts Git to check
    out something, for which a hook is called; a test is run for which nothing is
    recorded; one batch cannot be stored. *)
Definition rebase_hooks : list (string * script) :=
  [("hook-post-commit"%string, Records false (fun t => [CommitEvent 1 t 11]) (Records true (fun t => [CommitEvent 1 t 12]) Stop));
   ("hook-post-rewrite"%string,
    Records false (fun t => [RewriteEvent 2 t (NonZero 10) (NonZero 11)])
      (Runs OwnTx "checkout" (Runs Inherits "hook-reference-transaction"
         (Records false (fun t => [RefUpdateEvent 3 t "HEAD" (NonZero 10) (NonZero 11) None]) Stop) Stop)
       (Runs Suppresses "test" (Records false (fun t => [CommitEvent 4 t 13]) Stop) Stop)))].
Example c118_example :
  let d := wrap true None ["rebase"; "-i"]%string rebase_hooks
             (wrap true None ["commit"]%string [("hook-post-commit"%string, Records false (fun t => [CommitEvent 0 t 10]) Stop)] empty_db) in
  Forall (fun h => tidy (snd h) /\ alone (snd h)) rebase_hooks /\
  get_events d = Some [CommitEvent 0 (TxId 1) 10; CommitEvent 1 (TxId 2) 11; RewriteEvent 2 (TxId 2) (NonZero 10) (NonZero 11);
                       RefUpdateEvent 3 (TxId 2) "HEAD" (NonZero 10) (NonZero 11) None] /\
  get_transaction_message d (TxId 2) = Some "rebase"%string /\
  match get_events d with
  | Some after => let r := replay "refs/heads/main" after in advance_tx r (default_cursor r) (-1) = Some 1
  | None => False
  end.
Proof.
  intros d. split.
  - unfold rebase_hooks. repeat constructor; cbn [snd tidy alone]; repeat split; intros; try (apply elem_of_list_singleton in H; subst e; reflexivity);
      apply elem_of_list_singleton in H; subst e; cbn; unfold oid_ok, oid_limit; lia.
  - subst d. vm_compute. auto.
Qed.

Print Assumptions c118_one_transaction.
Print Assumptions c118_undone_in_one_step.
Print Assumptions c118_nested.
Print Assumptions c118_meanwhile_refuted.
