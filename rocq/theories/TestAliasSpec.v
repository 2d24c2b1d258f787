(** Names for commands that Git's documentation of [git config] allows: "variable names
    are case-insensitive, allow only alphanumeric characters and -, and must start with an
    alphabetic character". *)
From Verif Require Import Base.
Local Open Scope string_scope.
Local Open Scope list_scope.

Definition letters : list ascii := list_ascii_of_string "abcdefghijklmnopqrstuvwxyzABCDEFGHIJKLMNOPQRSTUVWXYZ".
Definition others : list ascii := list_ascii_of_string "0123456789-".

(** A name, after a part which ends in a dot or is empty, and has no newline. *)
Definition parts (a : string) (before : list ascii) (name : list ascii) : Prop :=
  list_ascii_of_string a = before ++ name /\ "."%char ∉ name /\
  (before = [] \/ exists b, before = b ++ ["."%char]).
Definition good_alias (a : string) : Prop :=
  exists before c name, parts a before (c :: name) /\ c ∈ letters /\ (forall x, x ∈ name -> x ∈ letters \/ x ∈ others) /\
    ascii_of_nat 10 ∉ before.

(** The same but for upper and lower case in the name. *)
Definition same_letter (c d : ascii) : Prop :=
  c = d \/ exists k, (k < 26)%nat /\ ((letters !! k = Some c /\ letters !! (k + 26)%nat = Some d) \/
                                  (letters !! k = Some d /\ letters !! (k + 26)%nat = Some c)).
Definition same_alias (a b : string) : Prop :=
  exists before n1 n2, parts a before n1 /\ parts b before n2 /\ Forall2 same_letter n1 n2.
