(** Texts of generators, independent of how they are made and read. *)
From Coq Require Import String Ascii ZArith NArith Arith Bool List.
From Verif Require Import Common IntToStrSpec.
Import ListNotations.
Local Open Scope Z_scope.

Definition blank (c : ascii) : Prop := (9 <= N_of_ascii c <= 13)%N \/ N_of_ascii c = 32%N.
(** What follows a number: nothing, or something that does not go on with a digit. *)
Definition stops (r : bytes) : Prop := match r with [] => True | c :: _ => ~ is_digit c end.
(** [t] is read as the number [n] of [w] bits: an optional sign and digits that fit. *)
Definition number_of (w : Z) (t : bytes) (n : Z) : Prop := exists sign ds, t = sign ++ ds /\ ds <> [] /\ Forall is_digit ds /\
  digits_value ds < 2 ^ w /\
  ((sign = [] \/ sign = ["+"%char]) /\ n = digits_value ds \/ sign = ["-"%char] /\ n = (- digits_value ds) mod 2 ^ w).
(** A text beginning with the three numbers [n1], [n2], [n3], with blanks before each, and then [r]. *)
Definition three (w : Z) (text : bytes) (n1 n2 n3 : Z) (r : bytes) : Prop := exists b1 t1 b2 t2 b3 t3,
  text = b1 ++ t1 ++ b2 ++ t2 ++ b3 ++ t3 ++ r /\ Forall blank b1 /\ Forall blank b2 /\ Forall blank b3 /\
  number_of w t1 n1 /\ number_of w t2 n2 /\ number_of w t3 n3 /\
  stops (b2 ++ t2 ++ b3 ++ t3 ++ r) /\ stops (b3 ++ t3 ++ r) /\ stops r.
(** Numbers in decimal separated by one space each. *)
Inductive listed : list Z -> bytes -> Prop :=
| listed_one : forall n t, numeral n t -> listed [n] t
| listed_more : forall n t l u, numeral n t -> listed l u -> listed (n :: l) (t ++ " "%char :: u).
(** The same with the first number padded on the right to a width. *)
Definition listed_padded (fill : ascii) (width : nat) (l : list Z) (t : bytes) : Prop :=
  match l with
  | n :: l => exists a u, numeral n a /\ listed l u /\ t = a ++ repeat fill (width - length a) ++ " "%char :: u
  | [] => False
  end.
(** Hexadecimal numerals. *)
Definition hex_digit (c : ascii) (k : Z) : Prop :=
  let a := Z.of_N (N_of_ascii c) in 48 <= a <= 57 /\ k = a - 48 \/ 97 <= a <= 102 /\ k = a - 87 \/ 65 <= a <= 70 /\ k = a - 55.
Inductive hex_value : bytes -> Z -> Prop :=
| hex_none : hex_value [] 0
| hex_more : forall t n c k, hex_value t n -> hex_digit c k -> hex_value (t ++ [c]) (16 * n + k).
Definition hex_numeral (n : Z) (t : bytes) : Prop := t <> [] /\ hex_value t n /\ (hd " "%char t = "0"%char -> t = ["0"%char]).
