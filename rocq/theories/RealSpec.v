(** Doubles and six-digit decimals as rational numbers. *)
From Coq Require Import String Ascii ZArith NArith Bool List QArith Qabs.
From Coq Require Import Floats.SpecFloat.
From Verif Require Import Common IntToStrSpec JsonNumModel.
Import ListNotations.

(** m * b^e *)
Definition times_pow (b m e : Z) : Q := inject_Z m * inject_Z b ^ e.

(** [q] is the element of the set nearest to [x], the even one of two. *)
Definition nearest_of (set even : Q -> Prop) (x q : Q) : Prop :=
  set q /\ forall p, set p -> ~ p == q ->
    Qabs (q - x) < Qabs (p - x) \/ (Qabs (q - x) == Qabs (p - x) /\ even q).

(** The finite doubles: 53 binary digits, exponents from -1074 to 971. *)
Definition is_double (q : Q) : Prop := exists m e, (Z.abs m < 2 ^ 53 /\ -1074 <= e <= 971)%Z /\ q == times_pow 2 m e.
(** Those whose last digit, written with all 53 digits (fewer at the least exponent), is 0. *)
Definition even_double (q : Q) : Prop := exists m e,
  (Z.abs m < 2 ^ 53 /\ -1074 <= e <= 971 /\ (2 ^ 52 <= Z.abs m \/ e = -1074))%Z /\ Z.even m = true /\ q == times_pow 2 m e.
Definition nearest_double : Q -> Q -> Prop := nearest_of is_double even_double.
(** The value of a finite double. *)
Definition has_value (f : double) (q : Q) : Prop :=
  match f with
  | S754_zero _ => q == 0
  | S754_finite s m e => q == times_pow 2 (if s then Zneg m else Zpos m) e
  | _ => False
  end.

(** The decimals with six digits. *)
Definition is_six (q : Q) : Prop := exists m e, (10 ^ 5 <= Z.abs m < 10 ^ 6)%Z /\ q == times_pow 10 m e.
Definition even_six (q : Q) : Prop := exists m e, (10 ^ 5 <= Z.abs m < 10 ^ 6)%Z /\ Z.even m = true /\ q == times_pow 10 m e.
Definition nearest_six : Q -> Q -> Prop := nearest_of is_six even_six.

(** The stored form of the number nearest to [x]: an integer when it is whole. *)
Definition stored (x : Q) (n : num) : Prop := exists q, nearest_double x q /\
  match n with
  | NS z => q == inject_Z z /\ (LONG_MIN <= z <= LONG_MAX)%Z
  | NR f => valid_binary 53 1024 f = true /\ has_value f q /\ forall z, ~ q == inject_Z z
  | NU _ => False
  end.

(** The printed form of a positive number [q] of at most six digits: plain from 10^-4 up to 10^6, with an exponent of
    two or three digits outside; no superfluous zero at either end. *)
Definition printed (q : Q) (t : bytes) : Prop :=
  exists ip fp ex ev, t = ip ++ (match fp with [] => [] | _ => "."%char :: fp end) ++ ex /\
    ip <> [] /\ Forall is_digit ip /\ Forall is_digit fp /\ last fp "1"%char <> "0"%char /\
    q == times_pow 10 (digits_value (ip ++ fp)) (ev - Z.of_nat (length fp)) /\
    ((times_pow 10 1 (-4) <= q /\ q < times_pow 10 1 6) /\ ex = [] /\ ev = 0%Z /\ (ip = ["0"%char] \/ hd "0"%char ip <> "0"%char)
     \/ ~ (times_pow 10 1 (-4) <= q /\ q < times_pow 10 1 6) /\ length ip = 1%nat /\ ip <> ["0"%char] /\
        exists ds, ex = "e"%char :: (if (ev <? 0)%Z then "-"%char else "+"%char) :: ds /\ Forall is_digit ds /\
          digits_value ds = Z.abs ev /\ (length ds = 2%nat \/ length ds = 3%nat /\ hd "0"%char ds <> "0"%char)).
