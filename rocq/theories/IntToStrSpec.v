(** Decimal numerals, independent of the model. *)
From Coq Require Import String Ascii ZArith NArith Arith Bool Lia List.
From Verif Require Import Common IntToStrModel.
Import ListNotations.
Local Open Scope Z_scope.

Definition is_digit (c : ascii) : Prop := (48 <= N_of_ascii c <= 57)%N.
(** Value of a digit string, most significant digit first. *)
Definition digits_value (s : bytes) : Z :=
  fold_left (fun acc c => 10 * acc + (Z.of_N (N_of_ascii c) - 48)) s 0.
(** [s] is the decimal numeral of [n >= 0]: digits only, no superfluous leading zero. *)
Definition numeral (n : Z) (s : bytes) : Prop :=
  s <> [] /\ Forall is_digit s /\ (hd " "%char s = "0"%char -> s = ["0"%char]) /\ digits_value s = n.
(** With sign. *)
Definition decimal (n : Z) (s : bytes) : Prop :=
  (0 <= n /\ numeral n s) \/ (n < 0 /\ exists t, s = "-"%char :: t /\ numeral (- n) t).

(** Largest magnitudes that fit a buffer of B cells. *)
Definition fits (B : nat) (n : Z) : Prop :=
  (0 <= n /\ n < 10 ^ (2 * (Z.of_nat B / 2))) \/ (n < 0 /\ - n < 10 ^ (Z.of_nat B - 1)).

(** The resulting open intervals of printable values, per type. *)
Definition safe_ranges : list (inttype * Z * Z) :=
  [ (t_short, -1000, 10000); (t_ushort, -1, 10000);
    (t_int, -100000000, 100000000); (t_uint, -1, 100000000);
    (t_long, -100000000000000000, 1000000000000000000);
    (t_ulong, -1, 1000000000000000000) ].
