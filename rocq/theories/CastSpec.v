(** Numbers in texts, remainders and floats in plain terms. *)
From Coq Require Import String Ascii ZArith NArith Arith Bool List.
From Coq Require Import Floats.SpecFloat.
From Verif Require Import Common CmdSpec.
Import ListNotations.
Local Open Scope Z_scope.

(** [number s z]: after blanks, [s] has an optional sign and digits denoting [z], then anything but a digit. *)
Definition number (s : bytes) (z : Z) : Prop :=
  exists blanks sign ds rest, s = blanks ++ sign ++ ds ++ rest /\
    Forall blank blanks /\ Forall digit ds /\ ds <> [] /\
    match rest with c :: _ => ~ digit c | [] => True end /\
    ((sign = [] \/ sign = lit "+") /\ z = decimal ds \/ sign = lit "-" /\ z = - decimal ds).

(** [x] and [y] differ by a multiple of [m]. *)
Definition same_mod (m x y : Z) : Prop := exists k, x = y + k * m.

(** The whole numbers that are floats: at most 24 significant bits (below the largest float). *)
Definition float_whole (v : Z) : Prop := exists k j, 0 <= j /\ Z.abs k <= 2 ^ 24 /\ v = k * 2 ^ j.
(** [v] is one of them nearest to [z]. *)
Definition nearest_float (z v : Z) : Prop :=
  float_whole v /\ forall w, float_whole w -> Z.abs (z - v) <= Z.abs (z - w).

(** The value of a finite float is the whole number [v]. *)
Definition whole_value (f : spec_float) (v : Z) : Prop :=
  match f with
  | S754_zero _ => v = 0
  | S754_finite s m e => Zpos m * 2 ^ Z.max 0 e = Z.abs v * 2 ^ Z.max 0 (- e) /\ (if s then v < 0 else 0 < v)
  | _ => False
  end.
(** [z] is the value of a finite float without its fraction. *)
Definition toward_zero (f : spec_float) (z : Z) : Prop :=
  match f with
  | S754_zero _ => z = 0
  | S754_finite s m e => exists a, z = (if s then - a else a) /\
      a * 2 ^ Z.max 0 (- e) <= Zpos m * 2 ^ Z.max 0 e < (a + 1) * 2 ^ Z.max 0 (- e)
  | _ => False
  end.
