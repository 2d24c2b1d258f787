(** What the screen and the keys of interactive [git undo] mean. *)
From Verif Require Import Base TextModel EventLogModel EventLogSpec UndoModel BrowseModel.
Local Open Scope Z_scope.

(** The screen tells the truth: the events shown are the transaction that ends at the
    cursor, as far as it comes before it, with the number of the first. *)
Definition true_screen (r : replayer) (s : screen) : Prop :=
  valid_cursor r (sc_cursor s) /\
  match sc_events s with
  | None => sc_cursor s = 0
  | Some (n, es) => latest_run (events r) (sc_cursor s) (n - 1) es
  end.

(** One step through the states between transactions; at the ends there is none. *)
Definition steps_back (es : list event) (b d : Z) : Prop := (b = 0 /\ d = 0) \/ prev_boundary es b d.
Definition steps_on (es : list event) (b d : Z) : Prop :=
  (b = Z.of_nat (length es) /\ d = b) \/ next_boundary es b d.

(** The state before the last [k] transactions. *)
Fixpoint before_last (es : list event) (k : nat) (c : Z) : Prop :=
  match k with
  | O => c = Z.of_nat (length es)
  | S k' => exists b, before_last es k' b /\ prev_boundary es b c
  end.
