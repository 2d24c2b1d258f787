(** What it means for a commit to have been rewritten, in terms of the events
    alone. *)
From Verif Require Import Base TextModel EventLogModel EventLogSpec.

(** The last word about [o] is that it was replaced by something else. *)
Definition rewritten (es : list event) (o : oid) (new : moid) : Prop :=
  exists ts tx, last_concerning es o (RewriteEvent ts tx (NonZero o) new) /\ new <> NonZero o.

(** The end of the chain of replacements that starts at [o]. *)
Inductive chain_end (es : list event) : oid -> moid -> Prop :=
| chain_deleted o : rewritten es o Zero -> chain_end es o Zero
| chain_last o x : rewritten es o (NonZero x) -> (forall new, ~ rewritten es x new) ->
    chain_end es o (NonZero x)
| chain_step o x m : rewritten es o (NonZero x) -> chain_end es x m -> chain_end es o m.
