(** Specification side of undo and garbage collection. *)
From Verif Require Import Base TextModel EventLogModel EventLogSpec UndoModel.
Local Open Scope Z_scope.

(** A reference history starting from the table [R] in which each update
    records the true previous value. *)
Fixpoint true_history (R : gmap refname oid) (es : list event) : Prop :=
  match es with
  | [] => True
  | e :: es' =>
      match e with
      | RefUpdateEvent _ _ n old new _ =>
          old = moid_of_option (R !! n) /\
          true_history (match new with NonZero o => <[n := o]> R | Zero => delete n R end) es'
      | _ => true_history R es'
      end
  end.

(** The table after a history. *)
Fixpoint after_history (R : gmap refname oid) (es : list event) : gmap refname oid :=
  match es with
  | [] => R
  | RefUpdateEvent _ _ n _ new _ :: es' =>
      after_history (match new with NonZero o => <[n := o]> R | Zero => delete n R end) es'
  | _ :: es' => after_history R es'
  end.

(** The first event of a list that concerns a commit. *)
Definition first_concerning (es : list event) (o : oid) (e : event) : Prop :=
  exists before after, es = before ++ e :: after /\ concerns e o /\
                       forall e', e' ∈ before -> ~ concerns e' o.

(** The repository effect of an event, without time, transaction and message;
    creating a commit and unhiding it have the same effect on visibility. *)
Inductive effect :=
| EShow (o : oid) | EHide (o : oid) | ERewrite (a b : moid) | ERef (n : refname) (a b : moid)
| ESnapshot (e : event).
Definition effect_of (e : event) : effect :=
  match e with
  | CommitEvent _ _ o | UnobsoleteEvent _ _ o => EShow o
  | ObsoleteEvent _ _ o => EHide o
  | RewriteEvent _ _ a b => ERewrite a b
  | RefUpdateEvent _ _ n a b _ => ERef n a b
  | SnapshotEvent _ _ _ _ _ => ESnapshot e
  end.

(** Events that tell [undo] which commit to check out. *)
Definition checkout_hint (e : event) (t : checkout_target) : Prop :=
  match e with
  | RefUpdateEvent _ _ n (NonZero o) _ _ => n = "HEAD"%string /\ t = mk_target o true None
  | SnapshotEvent _ _ _ o name => t = mk_target o false name
  | _ => False
  end.
