(** Model of the event log and of the event replayer
    (git-branchless-lib/src/core/eventlog.rs). *)
From Verif Require Import Base TextModel.
Local Open Scope Z_scope.

(** Timestamps are [f64] seconds; they are only stored and returned, so any
    value will do.  (SQLite stores an [f64] that is not NaN exactly.) *)
Definition timestamp := Z.

(** [Event] (core/eventlog.rs:88-201). *)
Inductive event :=
| RewriteEvent (ts : timestamp) (tx : txid) (old_oid new_oid : moid)
| RefUpdateEvent (ts : timestamp) (tx : txid) (name : refname)
                 (old_oid new_oid : moid) (message : option string)
| CommitEvent (ts : timestamp) (tx : txid) (o : oid)
| ObsoleteEvent (ts : timestamp) (tx : txid) (o : oid)
| UnobsoleteEvent (ts : timestamp) (tx : txid) (o : oid)
| SnapshotEvent (ts : timestamp) (tx : txid) (head_oid : moid) (o : oid)
                (name : option refname).
Global Instance event_eq_dec : EqDecision event.
Proof. solve_decision. Defined.

(** [Event::get_event_tx_id] (core/eventlog.rs:218-227). *)
Definition event_tx (e : event) : txid :=
  match e with
  | RewriteEvent _ tx _ _ | RefUpdateEvent _ tx _ _ _ _ | CommitEvent _ tx _
  | ObsoleteEvent _ tx _ | UnobsoleteEvent _ tx _ | SnapshotEvent _ tx _ _ _ => tx
  end.

(** [Event::get_timestamp] (core/eventlog.rs:205-215), without the conversion to
    [SystemTime]. *)
Definition event_ts (e : event) : timestamp :=
  match e with
  | RewriteEvent ts _ _ _ | RefUpdateEvent ts _ _ _ _ _ | CommitEvent ts _ _
  | ObsoleteEvent ts _ _ | UnobsoleteEvent ts _ _ | SnapshotEvent ts _ _ _ _ => ts
  end.

(** [Row] (core/eventlog.rs:30-38). *)
Record row := mk_row {
  row_ts : timestamp;
  row_type : string;
  row_tx : Z;
  row_ref1 : option string;
  row_ref2 : option string;
  row_name : option string;
  row_message : option string }.

(** [TryFrom<Event> for Row] (core/eventlog.rs:230-352); [None] is [Err(())]. *)
Definition row_of_event (e : event) : option row :=
  match e with
  | RewriteEvent ts (TxId tx) old new =>
      Some (mk_row ts "rewrite" tx (Some (moid_to_string old)) (Some (moid_to_string new)) None None)
  | RefUpdateEvent ts (TxId tx) name old new message =>
      Some (mk_row ts "ref-move" tx (Some (moid_to_string old)) (Some (moid_to_string new)) (Some name) message)
  | CommitEvent ts (TxId tx) o =>
      Some (mk_row ts "commit" tx (Some (oid_to_string o)) None None None)
  | ObsoleteEvent ts (TxId tx) o =>
      Some (mk_row ts "hide" tx (Some (oid_to_string o)) None None None)
  | UnobsoleteEvent ts (TxId tx) o =>
      Some (mk_row ts "unhide" tx (Some (oid_to_string o)) None None None)
  | SnapshotEvent ts (TxId tx) head o name =>
      Some (mk_row ts "snapshot" tx (Some (moid_to_string head)) (Some (oid_to_string o)) name None)
  | RewriteEvent _ TxSuppressed _ _ | RefUpdateEvent _ TxSuppressed _ _ _ _
  | CommitEvent _ TxSuppressed _ | ObsoleteEvent _ TxSuppressed _
  | UnobsoleteEvent _ TxSuppressed _ | SnapshotEvent _ TxSuppressed _ _ _ => None
  end.

(** The closure [get_oid] (core/eventlog.rs:367-380). *)
Definition get_oid (r : option string) : option moid :=
  match r with Some s => moid_from_string s | None => None end.

Definition get_nonzero_oid (r : option string) : option oid :=
  match get_oid r with Some m => oid_of_moid m | None => None end.

(** [try_from_row_helper] (core/eventlog.rs:354-451); [None] is an error. *)
Definition event_of_row (r : row) : option event :=
  let ts := row_ts r in
  let tx := TxId (row_tx r) in
  if String.eqb (row_type r) "rewrite" then
    match get_oid (row_ref1 r), get_oid (row_ref2 r) with
    | Some old, Some new => Some (RewriteEvent ts tx old new)
    | _, _ => None
    end
  else if String.eqb (row_type r) "ref-move" then
    match row_name r, row_ref1 r, row_ref2 r with
    | Some name, Some r1, Some r2 =>
        match moid_from_string r1, moid_from_string r2 with
        | Some old, Some new => Some (RefUpdateEvent ts tx name old new (row_message r))
        | _, _ => None
        end
    | _, _, _ => None
    end
  else if String.eqb (row_type r) "commit" then
    match get_nonzero_oid (row_ref1 r) with Some o => Some (CommitEvent ts tx o) | None => None end
  else if String.eqb (row_type r) "hide" then
    match get_nonzero_oid (row_ref1 r) with Some o => Some (ObsoleteEvent ts tx o) | None => None end
  else if String.eqb (row_type r) "unhide" then
    match get_nonzero_oid (row_ref1 r) with Some o => Some (UnobsoleteEvent ts tx o) | None => None end
  else if String.eqb (row_type r) "snapshot" then
    match get_oid (row_ref1 r), get_nonzero_oid (row_ref2 r) with
    | Some head, Some o => Some (SnapshotEvent ts tx head o (row_name r))
    | _, _ => None
    end
  else None.

(** The two tables (core/eventlog.rs:479-515).  [event_log] rows are in rowid
    order.  [tx_seq] is SQLite's AUTOINCREMENT sequence (largest id ever used);
    [tx_table] the rows of [event_transactions]. *)
Record db := mk_db { db_rows : list row; tx_seq : Z; tx_table : list (Z * string) }.
Definition empty_db : db := mk_db [] 0 [].

(** [EventLogDb::add_events] (core/eventlog.rs:530-577).  [fails k] says whether
    the k-th INSERT fails and [commit_fails] whether the final COMMIT does; in
    both cases the SQL transaction is dropped, i.e. rolled back.  The boolean in
    the result tells whether [Ok] was returned. *)
Fixpoint insert_rows (fails : nat -> bool) (k : nat) (rows : list row) (es : list event)
  : option (list row) :=
  match es with
  | [] => Some rows
  | e :: es' =>
      match row_of_event e with
      | None => insert_rows fails k rows es'
      | Some r => if fails k then None else insert_rows fails (S k) (rows ++ [r]) es'
      end
  end.
Definition add_events (fails : nat -> bool) (commit_fails : bool) (d : db) (es : list event)
  : db * bool :=
  match insert_rows fails 0 (db_rows d) es with
  | Some rows => if commit_fails then (d, false)
                 else (mk_db rows (tx_seq d) (tx_table d), true)
  | None => (d, false)
  end.

(** [EventLogDb::get_events] (core/eventlog.rs:584-615): all rows in rowid
    order, an error as soon as one row cannot be decoded. *)
Fixpoint events_of_rows (rs : list row) : option (list event) :=
  match rs with
  | [] => Some []
  | r :: rs' =>
      match event_of_row r, events_of_rows rs' with
      | Some e, Some es => Some (e :: es)
      | _, _ => None
      end
  end.
Definition get_events (d : db) : option (list event) := events_of_rows (db_rows d).

(** [EventLogDb::make_transaction_id_inner] (core/eventlog.rs:618-656).  [env]
    is the value of BRANCHLESS_TRANSACTION_ID, if set. *)
Definition make_transaction_id (env : option string) (message : string) (d : db) : txid * db :=
  let fresh :=
    let i := tx_seq d + 1 in
    (TxId i, mk_db (db_rows d) i (tx_table d ++ [(i, message)])) in
  match env with
  | Some s => match txid_from_string s with
              | Some t => (t, d)
              | None => fresh
              end
  | None => fresh
  end.

(** [EventLogDb::get_transaction_message] (core/eventlog.rs:669-691); [None] is
    an error. *)
Definition get_transaction_message (d : db) (t : txid) : option string :=
  match t with
  | TxSuppressed => None
  | TxId i => match List.find (fun p => fst p =? i) (tx_table d) with
              | Some (_, m) => Some m
              | None => None
              end
  end.

(** [is_gc_ref] (core/eventlog.rs:699-701). *)
Definition is_gc_ref (n : refname) : bool := starts_with "refs/branchless/" n.

(** [should_ignore_ref_updates] (core/eventlog.rs:706-721). *)
Definition should_ignore_ref_updates (n : refname) : bool :=
  if is_gc_ref n then true
  else existsb (String.eqb n)
         ["ORIG_HEAD"; "CHERRY_PICK"; "REBASE_HEAD"; "CHERRY_PICK_HEAD"; "AUTO_MERGE"; "FETCH_HEAD"].

(** [EventClassification] (core/eventlog.rs:724-727). *)
Inductive classification := Show | Hide.

(** [CommitActivityStatus] (core/eventlog.rs:734-747). *)
Inductive activity := Active | Inactive | Obsolete.
Global Instance activity_eq_dec : EqDecision activity.
Proof. solve_decision. Defined.

(** [EventInfo] (core/eventlog.rs:750-754). *)
Record event_info := mk_info { info_id : Z; info_event : event; info_class : classification }.

(** [EventReplayer] (core/eventlog.rs:772-791). *)
Record replayer := mk_replayer {
  id_counter : Z;
  events : list event;
  main_name : refname;
  commit_history : gmap oid (list event_info);
  ref_locations : gmap refname oid }.

(** [EventReplayer::new] (core/eventlog.rs:805-813). *)
Definition new_replayer (main : refname) : replayer := mk_replayer 0 [] main ∅ ∅.

(** [HashMap::entry(k).or_default().push(v)]. *)
Definition push_history (h : gmap oid (list event_info)) (o : oid) (i : event_info)
  : gmap oid (list event_info) :=
  <[o := default [] (h !! o) ++ [i]]> h.

(** First half of [fix_event_git_v2_31] (core/eventlog.rs:960-985): a deletion
    without a recorded old value gets the last known location. *)
Definition fix_old_oid (r : replayer) (e : event) : event :=
  match e with
  | RefUpdateEvent ts tx name Zero Zero message =>
      RefUpdateEvent ts tx name (moid_of_option (ref_locations r !! name)) Zero message
  | _ => e
  end.

(** Second half (core/eventlog.rs:987-1013): a repeated deletion directly after
    a deletion of the same reference with the same message is dropped. *)
Definition fix_event (r : replayer) (e : event) : option event :=
  let e := fix_old_oid r e in
  match e, last (events r) with
  | RefUpdateEvent _ _ name _ Zero message, Some (RefUpdateEvent _ _ name' _ Zero message') =>
      if decide (name = name' /\ message = message') then None else Some e
  | _, _ => Some e
  end.

(** The bookkeeping part of [process_event] (core/eventlog.rs:862-955). *)
Definition record_event (r : replayer) (e : event) : replayer :=
  let id := id_counter r in
  let h := commit_history r in
  let push h o c := push_history h o (mk_info id e c) in
  let h' :=
    match e with
    | RewriteEvent _ _ old new =>
        let h := match old with NonZero o => push h o Hide | Zero => h end in
        match new with NonZero o => push h o Show | Zero => h end
    | RefUpdateEvent _ _ _ _ _ _ => h
    | CommitEvent _ _ o => push h o Show
    | ObsoleteEvent _ _ o => push h o Hide
    | UnobsoleteEvent _ _ o => push h o Show
    | SnapshotEvent _ _ _ _ _ => h
    end in
  let locs :=
    match e with
    | RefUpdateEvent _ _ name _ (NonZero o) _ => <[name := o]> (ref_locations r)
    | RefUpdateEvent _ _ name _ Zero _ => delete name (ref_locations r)
    | _ => ref_locations r
    end in
  mk_replayer (id + 1) (events r ++ [e]) (main_name r) h' locs.

(** [EventReplayer::process_event] (core/eventlog.rs:845-956). *)
Definition process_event (r : replayer) (e : event) : replayer :=
  let ignored := match e with
                 | RefUpdateEvent _ _ name _ _ _ => should_ignore_ref_updates name
                 | _ => false
                 end in
  if ignored then r
  else match fix_event r e with
       | None => r
       | Some e' => record_event r e'
       end.

(** [EventReplayer::from_event_log_db] (core/eventlog.rs:822-835). *)
Definition replay (main : refname) (log : list event) : replayer :=
  fold_left process_event log (new_replayer main).

(** [EventCursor] (core/eventlog.rs:767-769) is a plain [isize]. *)
Definition cursor := Z.

(** [get_cursor_commit_history] (core/eventlog.rs:1016-1024). *)
Definition cursor_history (r : replayer) (c : cursor) (o : oid) : list event_info :=
  match commit_history r !! o with
  | None => []
  | Some h => List.filter (fun i => info_id i <? c) h
  end.

(** [get_cursor_commit_activity_status] (core/eventlog.rs:1028-1049). *)
Definition commit_status (r : replayer) (c : cursor) (o : oid) : activity :=
  match last (cursor_history r c o) with
  | Some i => match info_class i with Show => Active | Hide => Obsolete end
  | None => Inactive
  end.

(** [get_cursor_commit_latest_event] (core/eventlog.rs:1059-1067). *)
Definition latest_event (r : replayer) (c : cursor) (o : oid) : option event :=
  match last (cursor_history r c o) with
  | Some i => Some (info_event i)
  | None => None
  end.

(** [get_cursor_oids] (core/eventlog.rs:1071-1082); the set as the list of the
    map's keys satisfying the test, in unspecified order. *)
Definition cursor_oids (r : replayer) (c : cursor) : list oid :=
  List.map fst (List.filter (fun p => existsb (fun i => info_id i <? c) (snd p))
                  (map_to_list (commit_history r))).

(** [make_cursor] (core/eventlog.rs:1093-1102). *)
Definition make_cursor (r : replayer) (event_id : Z) : cursor :=
  let event_id := if event_id <? 0 then 0 else event_id in
  let num_events := Z.of_nat (length (events r)) in
  if event_id >? num_events then num_events else event_id.

(** [make_default_cursor] (core/eventlog.rs:1085-1087). *)
Definition default_cursor (r : replayer) : cursor :=
  make_cursor r (Z.of_nat (length (events r))).

(** [advance_cursor] (core/eventlog.rs:1110-1112), with unbounded integers. *)
Definition advance_cursor (r : replayer) (c : cursor) (n : Z) : cursor :=
  make_cursor r (c + n).

(** The same line with the wrap-around [isize] addition of a release build. *)
Definition wrap_isize (z : Z) : Z := (z + 2 ^ 63) mod 2 ^ 64 - 2 ^ 63.
Definition advance_cursor_isize (r : replayer) (c : cursor) (n : Z) : cursor :=
  make_cursor r (wrap_isize (c + n)).

(** [get_event_before_cursor] (core/eventlog.rs:1358-1365).  The outer option
    is the indexing panic. *)
Definition event_before_cursor (r : replayer) (c : cursor) : option (option (Z * event)) :=
  if c =? 0 then Some None
  else match index (events r) (c - 1) with
       | Some e => Some (Some (c, e))
       | None => None
       end.

(** [get_event_tx_id_before_cursor] (core/eventlog.rs:1114-1117). *)
Definition tx_before_cursor (r : replayer) (c : cursor) : option (option txid) :=
  match event_before_cursor r c with
  | Some (Some (_, e)) => Some (Some (event_tx e))
  | Some None => Some None
  | None => None
  end.

(** [snap_to_transaction_boundary] (core/eventlog.rs:1122-1134).  Fuel; [None]
    is a panic or exhausted fuel. *)
Fixpoint snap (fuel : nat) (r : replayer) (c : cursor) : option cursor :=
  match fuel with
  | O => None
  | S fuel' =>
      let next := advance_cursor r c 1 in
      if c =? next then Some c
      else match tx_before_cursor r c, tx_before_cursor r next with
           | Some t, Some t' =>
               if decide (t = t') then snap fuel' r next else Some c
           | _, _ => None
           end
  end.
Definition log_fuel (r : replayer) : nat := S (S (length (events r))).
Definition snap_to_boundary (r : replayer) (c : cursor) : option cursor :=
  snap (log_fuel r) r c.

(** [advance_cursor_by_transaction_helper] (core/eventlog.rs:1136-1172). *)
Fixpoint advance_tx_helper (fuel : nat) (r : replayer) (c : cursor) (n : Z) : option cursor :=
  match fuel with
  | O => None
  | S fuel' =>
      match n ?= 0 with
      | Eq => snap_to_boundary r c
      | Gt =>
          let next := advance_cursor r c 1 in
          if c =? next then Some next
          else match tx_before_cursor r c, tx_before_cursor r next with
               | Some t, Some t' =>
                   advance_tx_helper fuel' r next (if decide (t = t') then n else n - 1)
               | _, _ => None
               end
      | Lt =>
          let prev := advance_cursor r c (-1) in
          if c =? prev then Some prev
          else match tx_before_cursor r c, tx_before_cursor r prev with
               | Some t, Some t' =>
                   advance_tx_helper fuel' r prev (if decide (t = t') then n else n + 1)
               | _, _ => None
               end
      end
  end.

(** [advance_cursor_by_transaction] (core/eventlog.rs:1179-1190). *)
Definition advance_tx (r : replayer) (c : cursor) (n : Z) : option cursor :=
  match events r with
  | [] => Some c
  | _ => match snap_to_boundary r c with
         | Some c' => advance_tx_helper (log_fuel r) r c' n
         | None => None
         end
  end.

(** [Iterator::find_map]. *)
Fixpoint find_map {A B} (f : A -> option B) (l : list A) : option B :=
  match l with
  | [] => None
  | x :: l' => match f x with Some b => Some b | None => find_map f l' end
  end.

(** [get_cursor_head_oid] (core/eventlog.rs:1196-1229).  Outer option: the
    slicing panic. *)
Definition cursor_head_oid (r : replayer) (c : cursor) : option (option oid) :=
  match slice (events r) 0 c with
  | None => None
  | Some es =>
      Some (find_map (fun e =>
        match e with
        | RefUpdateEvent _ _ name _ (NonZero o) _ => if String.eqb name "HEAD" then Some o else None
        | RefUpdateEvent _ _ _ _ Zero _ => None
        | CommitEvent _ _ o => Some o
        | SnapshotEvent _ _ (NonZero o) _ _ => Some o
        | SnapshotEvent _ _ Zero _ _ => None
        | RewriteEvent _ _ _ _ | ObsoleteEvent _ _ _ | UnobsoleteEvent _ _ _ => None
        end) (rev es))
  end.

(** [get_cursor_branch_oid] (core/eventlog.rs:1231-1249). *)
Definition cursor_branch_oid (r : replayer) (c : cursor) (n : refname) : option (option oid) :=
  match slice (events r) 0 c with
  | None => None
  | Some es =>
      Some (find_map (fun e =>
        match e with
        | RefUpdateEvent _ _ name _ (NonZero o) _ => if String.eqb name n then Some o else None
        | _ => None
        end) (rev es))
  end.

(** [get_cursor_main_branch_oid] (core/eventlog.rs:1264-1279).  [main_now] is
    the present location of the main branch, read from the repository, and
    [repo_main] its name according to the repository's configuration. *)
Definition cursor_main_oid (r : replayer) (c : cursor) (repo_main : refname) (main_now : oid)
  : option oid :=
  match cursor_branch_oid r c repo_main with
  | None => None
  | Some (Some o) => Some o
  | Some None => Some main_now
  end.

(** [CategorizedReferenceName::new] restricted to the test for a local branch
    (git/reference.rs:170-176). *)
Definition is_local_branch (n : refname) : bool := starts_with "refs/heads/" n.

(** The first loop of [get_cursor_branch_oid_to_names]
    (core/eventlog.rs:1296-1316). *)
Definition apply_ref_update (m : gmap refname oid) (e : event) : gmap refname oid :=
  match e with
  | RefUpdateEvent _ _ name _ (NonZero o) _ => <[name := o]> m
  | RefUpdateEvent _ _ name _ Zero _ => delete name m
  | _ => m
  end.

(** [get_cursor_branch_oid_to_names] (core/eventlog.rs:1291-1336), as the list
    of (oid, name) pairs of the resulting map of sets. *)
Definition cursor_branches (r : replayer) (c : cursor) (repo_main : refname) (main_now : oid)
  : option (list (oid * refname)) :=
  match slice (events r) 0 c, cursor_main_oid r c repo_main main_now with
  | Some es, Some m =>
      let table := fold_left apply_ref_update es ∅ in
      Some (List.map (fun p => (snd p, fst p))
              (List.filter (fun p => is_local_branch (fst p)) (map_to_list table))
            ++ [(m, main_name r)])
  | _, _ => None
  end.

(** [get_tx_events_before_cursor] (core/eventlog.rs:1373-1387). *)
Definition tx_events_before_cursor (r : replayer) (c : cursor)
  : option (option (Z * list event)) :=
  match advance_tx r c (-1) with
  | None => None
  | Some prev =>
      match slice (events r) prev c with
      | None => None
      | Some [] => Some None
      | Some es => Some (Some (prev + 1, es))
      end
  end.

(** [get_events_since_cursor] (core/eventlog.rs:1393-1396). *)
Definition events_since_cursor (r : replayer) (c : cursor) : option (list event) :=
  slice (events r) c (Z.of_nat (length (events r))).
