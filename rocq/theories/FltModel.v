(** Floating-point numbers as text: [sToFloat], [sToDouble] (Core/Common/Casts.hpp:148-157), [toStr] of them
    (Core/String/ToStr.hpp:22-31) and floating-point arguments of commands (CmdLine/Internal/Parser.hpp:46-60).
    [std::stof]/[std::stod] are those of libstdc++ over glibc in the "C" locale; their behaviour is written out
    here.  Values are those of Coq's [SpecFloat]: precision 24 and maximal exponent 128 for [float], 53 and 1024 for
    [double]. *)
From Coq Require Import String Ascii ZArith NArith Arith Bool List.
From Coq Require Import Floats.SpecFloat.
From Verif Require Import Common JsonNumModel CmdModel CastModel.
Import ListNotations.
Local Open Scope Z_scope.

(** ** Reading *)
(** What stands at the start of a text (after blanks and sign): nothing, an infinity, a NaN or m * b^e. *)
Inductive scanned := SNothing | SInf | SNan | SNum (m b e : Z).
Definition scan_decimal (s : bytes) : scanned :=
  match scan_mantissa isDigit s with
  | ([], [], _) => SNothing
  | (ip, fp, r) =>
    SNum (to_number 10 (fun c => num_of c - 48) (ip ++ fp)) 10 (fst (scan_exponent ["e"%char; "E"%char] r) - Z.of_nat (length fp))
  end.
Definition scan (s : bytes) : scanned :=
  match s with
  | c :: x :: h =>
    if Ascii.eqb c "0" && lower_is x "x" then
      match scan_mantissa isHex h with
      | ([], [], _) => SNum 0 10 0
      | (ip, fp, r) =>
        SNum (to_number 16 hex_value (ip ++ fp)) 2 (fst (scan_exponent ["p"%char; "P"%char] r) - 4 * Z.of_nat (length fp))
      end
    else if begins_nocase s (lit "inf") then SInf
    else if begins_nocase s (lit "nan") then SNan
    else scan_decimal s
  | _ => scan_decimal s
  end.
(** glibc reports a range error (ERANGE) for results that overflow, and for those that are inexact and, rounded to the
    full precision with no limit on the exponent, lie below the least normal number 2^(3 - emax). *)
Definition tiny (prec emax : Z) (n d : positive) : bool :=
  Zpos n * 2 ^ (emax + prec - 1) <? (2 ^ (prec + 1) - 1) * Zpos d.
Definition exact (f : spec_float) (n d : positive) : bool :=
  match f with
  | S754_finite _ m e => if 0 <=? e then Zpos m * 2 ^ e * Zpos d =? Zpos n else Zpos m * Zpos d =? Zpos n * 2 ^ (- e)
  | _ => false
  end.
(** The number nearest to +-n/d, ties to even; [None] on a range error. *)
Definition read_ratio (prec emax : Z) (neg : bool) (n d : positive) : option spec_float :=
  let f := SFdiv prec emax (S754_finite neg n 0) (S754_finite false d 0) in
  match f with
  | S754_infinity _ => None
  | _ => if tiny prec emax n d && negb (exact f n d) then None else Some f
  end.
Definition read_scaled (prec emax : Z) (neg : bool) (m b e : Z) : option spec_float :=
  match m with
  | Zpos p => if 0 <=? e then read_ratio prec emax neg (p * Z.to_pos (b ^ e)) 1 else read_ratio prec emax neg p (Z.to_pos (b ^ (- e)))
  | _ => Some (S754_zero neg)
  end.
Definition read_scanned (prec emax : Z) (neg : bool) (x : scanned) : option spec_float :=
  match x with
  | SNothing => None
  | SInf => Some (S754_infinity neg)
  | SNan => Some S754_nan
  | SNum m b e => read_scaled prec emax neg m b e
  end.
(** [std::stof]/[std::stod]: blanks, a sign, the number; the rest is ignored. [None]: an exception (no number:
    [std::invalid_argument]; range error: [std::out_of_range]). *)
Definition stofd (prec emax : Z) (s : bytes) : option spec_float :=
  match skip_space s with
  | c :: r => if Ascii.eqb c "-" then read_scanned prec emax true (scan r)
              else if Ascii.eqb c "+" then read_scanned prec emax false (scan r)
              else read_scanned prec emax false (scan (c :: r))
  | [] => None
  end.
(** Casts.hpp:148-151 and :154-157: [noexcept], so an exception terminates the process. *)
Definition sToFloat (s : bytes) : outcome spec_float :=
  match stofd 24 128 s with Some f => Ok f | None => terminated end.
Definition sToDouble (s : bytes) : outcome spec_float :=
  match stofd 53 1024 s with Some f => Ok f | None => terminated end.
(** Parser.hpp:49-59: the [catch] is never reached ([sToFloat] is [noexcept]). *)
Definition parse_float (s : bytes) : outcome spec_float := sToFloat s.

(** ** Writing *)
(** ToStr.hpp:25-30 with Stringifier.hpp:177-203 unformatted: [ostream << x].  A float is first converted to double. *)
Definition widen (f : spec_float) : spec_float :=
  match f with S754_finite s m e => of_scaled s (Zpos m) 2 e | f => f end.
Definition toStr_double (f : spec_float) : bytes := print_double f.
Definition toStr_float (f : spec_float) : bytes := print_double (widen f).
