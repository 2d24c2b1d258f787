(** What the programs below a wrapped Git command record. *)
From Verif Require Import Base TextModel EventLogModel EventLogSpec WrapModel.
Local Open Scope list_scope.

(** Events are of the transaction of the program that records them. *)
Fixpoint tidy (s : script) : Prop :=
  match s with
  | Stop => True
  | Records _ es rest => (forall t e, e ∈ es t -> event_tx e = t /\ event_ok e) /\ tidy rest
  | Runs _ _ child rest => tidy child /\ tidy rest
  | Meanwhile _ other rest => tidy other /\ tidy rest
  end.
(** No other program is started meanwhile. *)
Fixpoint alone (s : script) : Prop :=
  match s with
  | Stop => True
  | Records _ _ rest => alone rest
  | Runs _ _ child rest => alone child /\ alone rest
  | Meanwhile _ _ _ => False
  end.
(** All that is to be recorded, if everything belongs to this transaction. *)
Fixpoint says (t : txid) (s : script) : list event :=
  match s with
  | Stop => []
  | Records fault es rest => (if fault then [] else es t) ++ says t rest
  | Runs Suppresses _ _ rest => says t rest
  | Runs _ _ child rest => says t child ++ says t rest
  | Meanwhile _ _ rest => says t rest
  end.
Definition hooks_say (t : txid) (hooks : list (string * script)) : list event :=
  List.concat (List.map (fun h => says t (snd h)) hooks).
