(** What should be seen of what a tested command printed. *)
From Verif Require Import Base TextModel StrModel StrProofs TestCacheModel.
Local Open Scope string_scope.
Local Open Scope list_scope.

(** The text of some lines; the last may lack its line feed. *)
Definition one_line (x : string) : Prop := LF ∉ list_ascii_of_string x /\ CR ∉ list_ascii_of_string x.
Definition ended (ls : list string) : string := fold_right (fun x s => x +:+ String LF s) "" ls.
Definition printed (ls : list string) (s : string) : Prop :=
  Forall one_line ls /\
  (s = ended ls \/ exists before x, ls = before ++ [x] /\ x <> "" /\ s = ended before +:+ x).

(** The first five and the last five lines, with the number of those between them. *)
Definition abridged (ls shown : list string) : Prop :=
  exists first between final number,
    ls = first ++ between ++ final /\ length first = 5%nat /\ length final = 5%nat /\ between <> [] /\
    shown = first ++ ["<" +:+ number +:+ " more lines>"] ++ final /\
    isize_from_string number = Some (Z.of_nat (length between)).

(** The command left other contents than it found. *)
Definition left_changes (f : fix_info) (tree : moid) : Prop :=
  exists after before, fi_tree f = Some after /\ tree = NonZero before /\ after <> before.

(** The command was run by the user, so that nothing of it was kept. *)
Definition by_hand (x : outcome) : Prop :=
  (exists cached code, x = OFailed cached code true) \/ (exists cached f, x = OPassed cached f true).
