(** Shared vocabulary of the models: object ids, reference names, slices and a
    few string helpers.  No proofs here beyond decidability instances. *)
From stdpp Require Export base list gmap strings.
From Coq Require Export ZArith NArith Lia Ascii String.
Notation length := List.length.
Local Open Scope N_scope.

(** [NonZeroOid] (git-branchless-lib/src/git/oid.rs:12-14).  An object id is a
    160-bit number; here any [N].  Where the text form matters the models ask
    for [oid_ok].  Comparison of ids is equality of numbers. *)
Definition oid := N.
Bind Scope N_scope with oid.

(** The ids libgit2 can represent: 20 bytes, and not zero for [NonZeroOid]
    (git/oid.rs:99-102). *)
Definition oid_limit : N := 2 ^ 160.
Definition oid_ok (o : oid) : Prop := 0 < o < oid_limit.

(** [MaybeZeroOid] (git/oid.rs:113-119). *)
Inductive moid := Zero | NonZero (o : oid).
Global Instance moid_eq_dec : EqDecision moid.
Proof. solve_decision. Defined.

(** [From<Option<NonZeroOid>> for MaybeZeroOid] (git/oid.rs:211-218). *)
Definition moid_of_option (o : option oid) : moid :=
  match o with Some o => NonZero o | None => Zero end.

(** [From<MaybeZeroOid> for Option<NonZeroOid>] (git/oid.rs:220-227). *)
Definition option_of_moid (m : moid) : option oid :=
  match m with Zero => None | NonZero o => Some o end.

Definition moid_ok (m : moid) : Prop :=
  match m with Zero => True | NonZero o => oid_ok o end.

(** [ReferenceName] (git/reference.rs:38): a string of bytes. *)
Definition refname := string.
Bind Scope string_scope with refname.

(** Rust's [str::starts_with] and [str::strip_prefix]. *)
Fixpoint strip_prefix (p s : string) : option string :=
  match p, s with
  | EmptyString, _ => Some s
  | String a p', String b s' => if Ascii.eqb a b then strip_prefix p' s' else None
  | String _ _, EmptyString => None
  end.
Definition starts_with (p s : string) : bool :=
  match strip_prefix p s with Some _ => true | None => false end.

(** Rust slice indexing [&v[a..b]]: [None] is the panic. *)
Definition slice {A} (l : list A) (a b : Z) : option (list A) :=
  if ((0 <=? a) && (a <=? b) && (b <=? Z.of_nat (length l)))%Z
  then Some (firstn (Z.to_nat (b - a)) (skipn (Z.to_nat a) l))
  else None.

(** Rust indexing [v[i]]: [None] is the panic. *)
Definition index {A} (l : list A) (i : Z) : option A :=
  if (0 <=? i)%Z then nth_error l (Z.to_nat i) else None.

(** Decides a closed statement by computation. *)
Ltac decide_it := refine (bool_decide_eq_true_1 _ _); vm_compute; reflexivity.
