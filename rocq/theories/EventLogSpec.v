(** What a user may rely on about the event log, stated without the replayer's
    data structures. *)
From Verif Require Import Base TextModel EventLogModel.
Local Open Scope Z_scope.

(** An event that may be stored: it was not produced under a suppressed
    transaction. *)
Definition storable (e : event) : Prop := event_tx e <> TxSuppressed.
Global Instance storable_dec e : Decision (storable e).
Proof. unfold storable. apply _. Defined.

(** All ids in the event are 20-byte ids. *)
Definition event_ok (e : event) : Prop :=
  match e with
  | RewriteEvent _ _ a b | RefUpdateEvent _ _ _ a b _ => moid_ok a /\ moid_ok b
  | CommitEvent _ _ o | ObsoleteEvent _ _ o | UnobsoleteEvent _ _ o => oid_ok o
  | SnapshotEvent _ _ h o _ => moid_ok h /\ oid_ok o
  end.

(** Use of the log over time: what was handed out and what was stored.  The
    index [ids] lists the transaction ids handed out so far, [stored] the
    events whose addition was reported as successful. *)
Inductive usage : db -> list txid -> list event -> Prop :=
| usage_start : usage empty_db [] []
| usage_toplevel d ids stored env m t d' :
    usage d ids stored ->
    match env with None => True | Some s => txid_from_string s = None end ->
    tx_seq d + 1 < 2 ^ 63 ->
    make_transaction_id env m d = (t, d') ->
    usage d' (ids ++ [t]) stored
| usage_nested d ids stored t m t' d' :
    usage d ids stored ->
    t ∈ ids ->
    make_transaction_id (Some (txid_to_string t)) m d = (t', d') ->
    usage d' (ids ++ [t']) stored
| usage_add d ids stored fails commit_fails es d' (ok : bool) :
    usage d ids stored ->
    (forall e, e ∈ es -> event_ok e) ->
    (forall e, e ∈ es -> storable e -> event_tx e ∈ ids) ->
    add_events fails commit_fails d es = (d', ok) ->
    usage d' ids (if ok then stored ++ filter storable es else stored).

(** Does the event make the commit visible / hide it? *)
Definition shows (e : event) (o : oid) : Prop :=
  match e with
  | CommitEvent _ _ o' | UnobsoleteEvent _ _ o' => o' = o
  | RewriteEvent _ _ _ new => new = NonZero o
  | _ => False
  end.
Definition hides (e : event) (o : oid) : Prop :=
  match e with
  | ObsoleteEvent _ _ o' => o' = o
  | RewriteEvent _ _ old _ => old = NonZero o
  | _ => False
  end.
Definition concerns (e : event) (o : oid) : Prop := shows e o \/ hides e o.

(** [e] is the last event of [es] that concerns [o]. *)
Definition last_concerning (es : list event) (o : oid) (e : event) : Prop :=
  exists before after, es = before ++ e :: after /\ concerns e o /\
                       forall e', e' ∈ after -> ~ concerns e' o.

(** The visibility of a commit as told by a list of events. *)
Definition visibility (es : list event) (o : oid) (a : activity) : Prop :=
  match a with
  | Active => exists e, last_concerning es o e /\ shows e o
  | Obsolete => exists e, last_concerning es o e /\ hides e o /\ ~ shows e o
  | Inactive => forall e, e ∈ es -> ~ concerns e o
  end.

(** A cursor lies within the list. *)
Definition valid_cursor (r : replayer) (c : Z) : Prop := 0 <= c <= Z.of_nat (length (events r)).

(** The events before a cursor. *)
Definition upto (es : list event) (c : Z) : list event := take (Z.to_nat c) es.

(** A position between two events of different transactions, or an end. *)
Definition boundary (es : list event) (c : Z) : Prop :=
  c = 0 \/ c = Z.of_nat (length es) \/
  exists before e e' after, es = before ++ e :: e' :: after /\
    c = Z.of_nat (length before) + 1 /\ event_tx e <> event_tx e'.

(** [d] is the closest boundary after (resp. before) [c]. *)
Definition next_boundary (es : list event) (c d : Z) : Prop :=
  c < d <= Z.of_nat (length es) /\ boundary es d /\ forall x, c < x < d -> ~ boundary es x.
Definition prev_boundary (es : list event) (c d : Z) : Prop :=
  0 <= d < c /\ boundary es d /\ forall x, d < x < c -> ~ boundary es x.

(** Updates of a reference, and the last of them. *)
Definition updates (e : event) (n : refname) : Prop :=
  match e with RefUpdateEvent _ _ n' _ _ _ => n' = n | _ => False end.
Definition last_update (es : list event) (n : refname) (m : moid) : Prop :=
  exists before ts tx old msg after,
    es = before ++ RefUpdateEvent ts tx n old m msg :: after /\
    forall e, e ∈ after -> ~ updates e n.

(** References whose movements the log does not follow. *)
Definition untracked (n : refname) : Prop :=
  (exists rest, n = String.append "refs/branchless/" rest) \/
  n ∈ ["ORIG_HEAD"; "CHERRY_PICK"; "REBASE_HEAD"; "CHERRY_PICK_HEAD"; "AUTO_MERGE"; "FETCH_HEAD"].

(** Evidence of where HEAD was. *)
Definition head_evidence (e : event) (o : oid) : Prop :=
  match e with
  | RefUpdateEvent _ _ n _ new _ => n = "HEAD"%string /\ new = NonZero o
  | CommitEvent _ _ o' => o' = o
  | SnapshotEvent _ _ h _ _ => h = NonZero o
  | _ => False
  end.

(** The maximal run of one transaction that ends at the cursor. *)
Definition latest_run (es : list event) (c : Z) (start : Z) (seg : list event) : Prop :=
  exists pre post t,
    es = pre ++ seg ++ post /\ Z.of_nat (length pre) = start /\
    Z.of_nat (length pre + length seg) = c /\ seg <> [] /\
    (forall e, e ∈ seg -> event_tx e = t) /\
    (forall e, last pre = Some e -> event_tx e <> t).

(** An event without the old value it records. *)
Definition forget_old (e : event) : event :=
  match e with
  | RefUpdateEvent ts tx n _ new m => RefUpdateEvent ts tx n Zero new m
  | _ => e
  end.
Definition is_ref_update (e : event) : Prop :=
  match e with RefUpdateEvent _ _ _ _ _ _ => True | _ => False end.
Global Instance is_ref_update_dec e : Decision (is_ref_update e).
Proof. destruct e; cbn; apply _. Defined.
