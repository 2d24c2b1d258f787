(** Splitting text into fields and lines, as done by the Rust standard library. *)
From Verif Require Import Base.
Local Open Scope string_scope.
Local Open Scope list_scope.

Definition LF : ascii := ascii_of_N 10.
Definition CR : ascii := ascii_of_N 13.

(** Rust's [str::split(char)]. *)
Fixpoint split_on (c : ascii) (s : string) : list string :=
  match s with
  | EmptyString => [""]
  | String a s' =>
      if Ascii.eqb a c then "" :: split_on c s'
      else match split_on c s' with
           | x :: xs => String a x :: xs
           | [] => [String a ""]
           end
  end.

(** Rust's [BufRead::split(byte)]: an empty piece at the end is not yielded. *)
Fixpoint drop_last_empty (l : list string) : list string :=
  match l with
  | [] => []
  | [x] => if String.eqb x "" then [] else [x]
  | x :: xs => x :: drop_last_empty xs
  end.
Definition buf_split (c : ascii) (s : string) : list string := drop_last_empty (split_on c s).

(** Removes one carriage return at the end. *)
Fixpoint strip_cr (s : string) : string :=
  match s with
  | EmptyString => ""
  | String c EmptyString => if Ascii.eqb c CR then "" else s
  | String c s' => String c (strip_cr s')
  end.

(** Rust's [BufRead::lines] and [str::lines]: a line ends with a line feed, which
    may follow a carriage return; the last line may lack the line feed and then
    keeps its carriage return. *)
Fixpoint chomp (l : list string) : list string :=
  match l with
  | [] => []
  | [x] => if String.eqb x "" then [] else [x]
  | x :: xs => strip_cr x :: chomp xs
  end.
Definition lines (s : string) : list string := chomp (split_on LF s).

(** Rust's [str::trim], for the white space of ASCII only. *)
Definition is_space (c : ascii) : bool :=
  let n := N_of_ascii c in (N.eqb n 32 || (N.leb 9 n && N.leb n 13))%bool.
Fixpoint trim_start (s : string) : string :=
  match s with
  | EmptyString => ""
  | String c s' => if is_space c then trim_start s' else s
  end.
Fixpoint trim_end (s : string) : string :=
  match s with
  | EmptyString => ""
  | String c s' =>
      match trim_end s' with
      | EmptyString => if is_space c then "" else String c ""
      | t => String c t
      end
  end.
Definition trim (s : string) : string := trim_end (trim_start s).

(** Rust's [join]. *)
Fixpoint join (sep : string) (l : list string) : string :=
  match l with
  | [] => ""
  | [x] => x
  | x :: xs => x +:+ sep +:+ join sep xs
  end.
(** Each line followed by a line feed, as printed by [writeln!]. *)
Fixpoint unlines (l : list string) : string :=
  match l with
  | [] => ""
  | x :: xs => x +:+ String LF (unlines xs)
  end.
