(** Vocabulary for statements about the revset language. *)
From Verif Require Import Base RevsetSyntaxModel.
Local Open Scope string_scope.
Local Open Scope list_scope.

(** A text that is read as one word: the characters of [a-zA-Z0-9_$@/-] and
    single dots in front of them, or a lone dot; not a keyword. *)
Inductive dotted_word : string -> Prop :=
| word_one a : word_char a = true -> dotted_word (String a "")
| word_dot a : word_char a = true -> dotted_word (String "." (String a ""))
| word_more a w : word_char a = true -> dotted_word w -> dotted_word (String a w)
| word_dot_more a w : word_char a = true -> dotted_word w -> dotted_word (String "." (String a w)).
Definition plain (w : string) : Prop :=
  (dotted_word w \/ w = ".") /\ w <> "or" /\ w <> "and" /\ w <> "-".

(** Every name in the expression is plain. *)
Fixpoint plain_expr (e : expr) : Prop :=
  match e with
  | Name s => plain s
  | Call f args => plain f /\ fold_right (fun a P => plain_expr a /\ P) True args
  end.

(** Blanks: the space, the tab, and the characters that end lines or pages. *)
Definition blanks : list ascii := [" "; "009"; "010"; "011"; "012"; "013"]%char.
Definition blank (s : string) : Prop := Forall (fun c => c ∈ blanks) (list_ascii_of_string s).

(** What a character behind a backslash stands for: line feed, carriage return, tab, or
    itself. *)
Definition escaped (c : ascii) : ascii :=
  match c with
  | "n" => "010"
  | "r" => "013"
  | "t" => "009"
  | _ => c
  end%char.

(** The text a quoted literal is documented to denote: backslash escapes the
    next character, all others stand for themselves. *)
Inductive denotes : string -> string -> Prop :=
| den_nil : denotes "" ""
| den_plain c s s' : c <> "\"%char -> denotes s s' -> denotes (String c s) (String c s')
| den_escape c s s' : denotes s s' -> denotes (String "\" (String c s)) (String (escaped c) s').

(** How tightly an operator binds. *)
Definition binding (t : token) : nat :=
  match t with
  | TPipe | TPlus | TOr => 1
  | TAmp | TAnd | TMinus | TPercent => 2
  | TColon | TColonColon | TDotDot => 3
  | TCaret | TTilde => 4
  | _ => 0
  end.

(** The documented function of each binary operator; [..] takes its arguments
    in opposite order. *)
Definition binary_tree (t : token) (l r : expr) : option expr :=
  match t with
  | TPipe | TPlus | TOr => Some (Call "union" [l; r])
  | TAmp | TAnd => Some (Call "intersection" [l; r])
  | TMinus => Some (Call "difference" [l; r])
  | TPercent => Some (Call "only" [l; r])
  | TColon | TColonColon => Some (Call "range" [l; r])
  | TDotDot => Some (Call "only" [r; l])
  | _ => None
  end.

(** The documented meaning of a range operator with one operand: everything up
    from, down to, or compared with the current commit. *)
Definition prefix_tree (t : token) (r : expr) : option expr :=
  match t with
  | TColon | TColonColon => Some (Call "ancestors" [r])
  | TDotDot => Some (Call "only" [r; Name "."])
  | _ => None
  end.
Definition postfix_tree (t : token) (l : expr) : option expr :=
  match t with
  | TColon | TColonColon => Some (Call "descendants" [l])
  | TDotDot => Some (Call "only" [Name "."; l])
  | _ => None
  end.
(** The n-th parent and the n-th ancestor. *)
Definition nth_tree (t : token) (l : expr) (n : string) : option expr :=
  match t with
  | TCaret => Some (Call "parents.nth" [l; Name n])
  | TTilde => Some (Call "ancestors.nth" [l; Name n])
  | _ => None
  end.

(** How the binary operators are written. *)
Definition spelling : list (string * token) :=
  [("|", TPipe); ("+", TPlus); ("or", TOr); ("&", TAmp); ("and", TAnd); ("-", TMinus); ("%", TPercent);
   (":", TColon); ("::", TColonColon); ("..", TDotDot)].
