(** Shared definitions: outcomes of C++ code and byte strings. *)
From Coq Require Import String Ascii ZArith NArith Arith Bool Lia List.
Import ListNotations.

(** Result of running a piece of C++ code.
    - [Ok a]      : normal return with value [a]
    - [Throw m]   : a C++ exception was thrown ([m] names it)
    - [UB]        : undefined behaviour (out-of-bounds access, signed overflow,
                    violated assertion, use of destroyed storage)
    - [OutOfFuel] : the model's step budget ran out before the code returned *)
Inductive outcome (A : Type) : Type :=
| Ok (a : A)
| Throw (m : string)
| UB
| OutOfFuel.
Arguments Ok {A} a.
Arguments Throw {A} m.
Arguments UB {A}.
Arguments OutOfFuel {A}.

Definition obind {A B} (o : outcome A) (f : A -> outcome B) : outcome B :=
  match o with
  | Ok a => f a
  | Throw m => Throw m
  | UB => UB
  | OutOfFuel => OutOfFuel
  end.

(** Byte strings: [std::string] as a list of 8-bit characters. *)
Notation bytes := (list ascii).

(** String literals as byte strings. *)
Definition lit (s : string) : bytes := list_ascii_of_string s.

Definition ascii_eqb := Ascii.eqb.

(** Characters used below. *)
Definition ch (n : N) : ascii := ascii_of_N n.

(** Equality of byte strings. *)
Fixpoint bytes_eqb (a b : bytes) : bool :=
  match a, b with
  | [], [] => true
  | x :: a', y :: b' => Ascii.eqb x y && bytes_eqb a' b'
  | _, _ => false
  end.

Lemma bytes_eqb_eq : forall a b, bytes_eqb a b = true <-> a = b.
Proof.
  induction a as [|x a IH]; destruct b as [|y b]; simpl; split; intros H;
    try reflexivity; try discriminate.
  - apply andb_true_iff in H. destruct H as [H1 H2].
    apply Ascii.eqb_eq in H1. apply IH in H2. subst. reflexivity.
  - inversion H; subst. rewrite Ascii.eqb_refl. simpl. apply IH. reflexivity.
Qed.

(** C++ integer limits used in the models (LP64, as in the pinned platform). *)
Definition INT_MAX : Z := 2147483647.
Definition INT_MIN : Z := -2147483648.
Definition UINT_MOD : Z := 4294967296.
Definition LONG_MAX : Z := 9223372036854775807.
Definition LONG_MIN : Z := -9223372036854775808.
Definition ULONG_MOD : Z := 18446744073709551616.

(** Conversion of an unbounded integer to [int] / [unsigned int] / [unsigned long]
    (implementation-defined modular conversion, as every supported compiler does). *)
Definition to_u32 (z : Z) : Z := (z mod UINT_MOD)%Z.
Definition to_i32 (z : Z) : Z :=
  let r := (z mod UINT_MOD)%Z in if (r <=? INT_MAX)%Z then r else (r - UINT_MOD)%Z.
Definition to_u64 (z : Z) : Z := (z mod ULONG_MOD)%Z.
Definition to_i64 (z : Z) : Z :=
  let r := (z mod ULONG_MOD)%Z in if (r <=? LONG_MAX)%Z then r else (r - ULONG_MOD)%Z.
