(** Floats as rational numbers, and numbers in texts. *)
From Coq Require Import String Ascii ZArith NArith Bool List QArith Qabs.
From Coq Require Import Floats.SpecFloat.
From Verif Require Import Common IntToStrSpec JsonSpec RealSpec.
Import ListNotations.

(** The finite floats: 24 binary digits, exponents from -149 to 104. *)
Definition is_float (q : Q) : Prop := exists m e, (Z.abs m < 2 ^ 24 /\ -149 <= e <= 104)%Z /\ q == times_pow 2 m e.
(** Those whose last digit, written with all 24 digits (fewer at the least exponent), is 0. *)
Definition even_float (q : Q) : Prop := exists m e,
  (Z.abs m < 2 ^ 24 /\ -149 <= e <= 104 /\ (2 ^ 23 <= Z.abs m \/ e = -149))%Z /\ Z.even m = true /\ q == times_pow 2 m e.
Definition nearest_float : Q -> Q -> Prop := nearest_of is_float even_float.

(** A decimal number without sign: digits with at most one point (".5" and "5." included), an exponent; its value is
    m * 10^e. *)
Definition decimal_text (t : bytes) (m e : Z) : Prop :=
  exists ip dot fp ex ev, t = ip ++ dot ++ fp ++ ex /\ (dot = [] /\ fp = [] \/ dot = ["."%char]) /\ ip ++ fp <> [] /\
    Forall is_digit ip /\ Forall is_digit fp /\ exponent_text ex ev /\ m = digits_value (ip ++ fp) /\ e = (ev - Z.of_nat (length fp))%Z.
(** A sign. *)
Definition sign_text (t : bytes) (neg : bool) : Prop := t = [] /\ neg = false \/ t = ["+"%char] /\ neg = false \/ t = ["-"%char] /\ neg = true.
(** The blanks of C: space, tab, line feed, vertical tab, form feed, carriage return. *)
Definition c_blank (c : ascii) : Prop := (N_of_ascii c = 32 \/ 9 <= N_of_ascii c <= 13)%N.
(** A text that does not continue a decimal number. *)
Definition no_more (t : bytes) : Prop :=
  match t with [] => True | c :: _ => ~ is_digit c /\ ~ In c ["."; "e"; "E"; "x"; "X"]%char end.
(** [t] starts with the number of exact value (-1)^neg * m * 10^e. *)
Definition starts_with (t : bytes) (neg : bool) (m e : Z) : Prop :=
  exists bl sg d rest, t = bl ++ sg ++ d ++ rest /\ Forall c_blank bl /\ sign_text sg neg /\ decimal_text d m e /\ no_more rest.

(** The numbers that can be read as a float.  Too large is anything from half a step above the greatest float on; too
    small is what is not a float and would be rounded, with 24 digits and any exponent, to less than 2^-126. *)
Definition float_range (x : Q) : Prop := Qabs x < times_pow 2 (2 ^ 25 - 1) 103 /\ (times_pow 2 (2 ^ 25 - 1) (-151) <= Qabs x \/ is_float x).
(** The same for doubles. *)
Definition double_range (x : Q) : Prop := Qabs x < times_pow 2 (2 ^ 54 - 1) 970 /\ (times_pow 2 (2 ^ 54 - 1) (-1076) <= Qabs x \/ is_double x).
(** The sign of a number, which zeros have as well. *)
Definition has_sign (f : spec_float) (neg : bool) : Prop :=
  match f with S754_zero s | S754_infinity s | S754_finite s _ _ => s = neg | S754_nan => False end.
