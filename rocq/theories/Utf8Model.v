(** Well-formed UTF-8, as accepted by Rust's [std::str::from_utf8]. *)
From Verif Require Import Base.
Local Open Scope string_scope.
Local Open Scope N_scope.

(** Used at git-branchless-lib/src/git/diff.rs:180-185 and, inside the regular
    expression over bytes, at git-branchless-lib/src/git/status.rs:206.  [n] bytes are still
    missing from the current character, the next of them between [lo] and [hi]. *)
Fixpoint utf8_from (n : nat) (lo hi : N) (s : string) : bool :=
  match s with
  | EmptyString => match n with O => true | S _ => false end
  | String c s' =>
    let b := N_of_ascii c in
    match n with
    | S m => (lo <=? b) && (b <=? hi) && utf8_from m 128 191 s'
    | O =>
      if b <=? 127 then utf8_from 0 128 191 s'
      else if (194 <=? b) && (b <=? 223) then utf8_from 1 128 191 s'
      else if b =? 224 then utf8_from 2 160 191 s'
      else if b =? 237 then utf8_from 2 128 159 s'
      else if (225 <=? b) && (b <=? 239) then utf8_from 2 128 191 s'
      else if b =? 240 then utf8_from 3 144 191 s'
      else if (241 <=? b) && (b <=? 243) then utf8_from 3 128 191 s'
      else if b =? 244 then utf8_from 3 128 143 s'
      else false
    end
  end.
Definition utf8 (s : string) : bool := utf8_from 0 128 191 s.
