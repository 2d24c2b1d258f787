(** Text forms of object ids and transaction ids. *)
From Verif Require Import Base.
From Coq Require Import DecimalString DecimalZ.
Local Open Scope N_scope.

(** Lower-case hexadecimal digit, as printed by libgit2's [git_oid_fmt]. *)
Definition hex_char (d : N) : ascii :=
  if d <? 10 then ascii_of_N (48 + d) else ascii_of_N (87 + d).

(** libgit2's [git__fromhex]: accepts both cases. *)
Definition unhex (c : ascii) : option N :=
  let n := N_of_ascii c in
  if (48 <=? n) && (n <=? 57) then Some (n - 48)
  else if (97 <=? n) && (n <=? 102) then Some (n - 87)
  else if (65 <=? n) && (n <=? 70) then Some (n - 55)
  else None.

(** [w] hexadecimal digits of [n], most significant first. *)
Fixpoint hex_digits (w : nat) (n : N) : list N :=
  match w with
  | O => []
  | S w' => hex_digits w' (n / 16) ++ [n mod 16]
  end.

Definition string_of_list (l : list ascii) : string := string_of_list_ascii l.
Definition list_of_string (s : string) : list ascii := list_ascii_of_string s.

(** [Display for git2::Oid] as used by git/oid.rs:29-33 and 141-153: forty
    hexadecimal digits. *)
Definition oid_to_string (o : oid) : string :=
  string_of_list (map hex_char (hex_digits 40 o)).

(** git/oid.rs:141-153. *)
Definition moid_to_string (m : moid) : string :=
  match m with NonZero o => oid_to_string o | Zero => oid_to_string 0 end.

Fixpoint unhex_all (l : list ascii) : option (list N) :=
  match l with
  | [] => Some []
  | c :: l' =>
      match unhex c, unhex_all l' with
      | Some d, Some ds => Some (d :: ds)
      | _, _ => None
      end
  end.

(** libgit2's [git_oid_fromstrn]: between 1 and 40 hexadecimal digits; the
    digits fill the id from its most significant end, the rest is zero. *)
Definition git_oid_from_str (s : string) : option N :=
  let l := list_of_string s in
  let n := length l in
  if (Nat.leb 1 n && Nat.leb n 40)%bool then
    match unhex_all l with
    | Some ds => Some (fold_left (fun acc d => acc * 16 + d) ds 0 * 16 ^ N.of_nat (40 - n))
    | None => None
    end
  else None.

(** [FromStr for MaybeZeroOid] (git/oid.rs:155-165). *)
Definition moid_from_string (s : string) : option moid :=
  match git_oid_from_str s with
  | Some n => if n =? 0 then Some Zero else Some (NonZero n)
  | None => None
  end.

(** [TryFrom<MaybeZeroOid> for NonZeroOid] (git/oid.rs:35-45). *)
Definition oid_of_moid (m : moid) : option oid :=
  match m with NonZero o => Some o | Zero => None end.

(** [FromStr for NonZeroOid] (git/oid.rs:80-91). *)
Definition oid_from_string (s : string) : option oid :=
  match moid_from_string s with Some m => oid_of_moid m | None => None end.

(** [isize] as on 64-bit targets. *)
Definition isize_ok (z : Z) : Prop := (- 2 ^ 63 <= z < 2 ^ 63)%Z.

(** Rust's [Display for isize]. *)
Definition isize_to_string (z : Z) : string := NilZero.string_of_int (Z.to_int z).

(** Rust's [FromStr for isize]: optional sign, at least one decimal digit, and
    the value must fit.  [strip_plus] removes a leading plus sign; "+-5" is
    rejected because only one sign is allowed. *)
Definition strip_plus (s : string) : string :=
  match s with
  | String a s' =>
      if Ascii.eqb a "+"%char then
        match s' with
        | String c _ => if Ascii.eqb c "-"%char then EmptyString else s'
        | EmptyString => s'
        end
      else s
  | EmptyString => s
  end.
Definition isize_from_string (s : string) : option Z :=
  match NilZero.int_of_string (strip_plus s) with
  | Some i => let z := Z.of_int i in
              if ((- 2 ^ 63 <=? z) && (z <? 2 ^ 63))%Z then Some z else None
  | None => None
  end.

(** [EventTransactionId] (core/eventlog.rs:57-63). *)
Inductive txid := TxId (i : Z) | TxSuppressed.
Global Instance txid_eq_dec : EqDecision txid.
Proof. solve_decision. Defined.

(** [Display for EventTransactionId] (core/eventlog.rs:65-72). *)
Definition txid_to_string (t : txid) : string :=
  match t with TxId i => isize_to_string i | TxSuppressed => "SUPPRESSED" end.

(** [FromStr for EventTransactionId] (core/eventlog.rs:74-85). *)
Definition txid_from_string (s : string) : option txid :=
  if String.eqb s "SUPPRESSED" then Some TxSuppressed
  else match isize_from_string s with Some i => Some (TxId i) | None => None end.
