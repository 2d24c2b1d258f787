(** Model of choosing a past state in [git undo --interactive]
    (git-branchless-undo/src/lib.rs:430-647).

    The user's keys are taken as they reach the loop; a text typed into the dialog
    for going to an event comes as one.  Not modelled: the layout, the smartlog on the
    screen (it is that of the cursor), descriptions of events, and relative times. *)
From Verif Require Import Base TextModel EventLogModel UndoModel.
Local Open Scope string_scope.
Local Open Scope list_scope.
Local Open Scope Z_scope.

(** [Message] (git-branchless-undo/src/lib.rs:437-447), as keys (450-477). *)
Inductive key := KNext | KPrevious | KGoTo (text : string) | KHelp | KQuit | KEnter.

(** What is on the screen (git-branchless-undo/src/lib.rs:497-549): the state at the
    cursor, and the events that led there with the number given for them. *)
Record screen := mk_screen { sc_cursor : cursor; sc_events : option (Z * list event) }.
Definition redraw (r : replayer) (c : cursor) : option screen :=
  match tx_events_before_cursor r c with
  | Some v => Some (mk_screen c v)
  | None => None
  end.
(** The line above the events (git-branchless-undo/src/lib.rs:507-543). *)
Definition info_line (s : screen) : string :=
  match sc_events s with
  | Some (n, e :: _) =>
      "Repo after transaction " +:+ txid_to_string (event_tx e) +:+ " (event " +:+ isize_to_string n +:+
      "). Press 'h' for help, 'q' to quit."
  | _ => "There are no previous available events."
  end.

(** Where the loop got to: waiting for a key, left with a state or without one. *)
Inductive browsing := Looking (s : screen) | Chose (c : cursor) | Gone | Panicked.
Definition looking (x : option screen) : browsing := match x with Some s => Looking s | None => Panicked end.

(** One round of the loop (git-branchless-undo/src/lib.rs:551-640). *)
Definition press (r : replayer) (k : key) (s : screen) : browsing :=
  match k with
  | KNext => looking (match advance_tx r (sc_cursor s) 1 with Some c => redraw r c | None => None end)
  | KPrevious => looking (match advance_tx r (sc_cursor s) (-1) with Some c => redraw r c | None => None end)
  | KGoTo text =>
      match isize_from_string text with
      | Some n => looking (redraw r (make_cursor r n))
      | None => Looking s
      end
  | KHelp => Looking s
  | KQuit => Gone
  | KEnter => Chose (sc_cursor s)
  end.
(** [select_past_event] (git-branchless-undo/src/lib.rs:430-647). *)
Definition browse (r : replayer) (keys : list key) : browsing :=
  fold_left (fun b k => match b with Looking s => press r k s | _ => b end) keys (looking (redraw r (default_cursor r))).

(** Interactive [undo] (git-branchless-undo/src/lib.rs:946-996). *)
Definition undo_interactive (main : refname) (keys : list key) (now : timestamp) (tx : txid) (confirmed : bool) (w : world)
  : option (world * option checkout_target) :=
  let r := replay main (w_log w) in
  match browse r keys with
  | Chose c => undo_events r c now tx confirmed w
  | Looking _ | Gone => Some (w, None)
  | Panicked => None
  end.
