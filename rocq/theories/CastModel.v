(** Model of include/SSVUtils/Core/Common/Casts.hpp:101-164 (numbers and texts to numbers) and
    include/SSVUtils/Core/Common/Frametime.hpp:27-48.
    Simplified: [bool] and the floating types other than [float] and [double] are left out; of the double-precision
    conversions only those from and to integers are modelled.  Not modelled: [castUp], [castStorage], [castEnum],
    [toEnum] (checks of types), [sToFloat], [sToDouble]. *)
From Coq Require Import String Ascii ZArith NArith Arith Bool List.
From Coq Require Import Floats.SpecFloat.
From Verif Require Import Common CmdModel JsonNumModel.
Import ListNotations.
Local Open Scope Z_scope.

(** Integer types: width and signedness (two's complement). *)
Record itype := mkI { bits : Z; signed : bool }.
Definition i8 := mkI 8 true.     Definition u8 := mkI 8 false.
Definition i16 := mkI 16 true.   Definition u16 := mkI 16 false.
Definition i32 := mkI 32 true.   Definition u32 := mkI 32 false.
Definition i64 := mkI 64 true.   Definition u64 := mkI 64 false.
Definition itypes := [i8; u8; i16; u16; i32; u32; i64; u64].
Definition tmin (t : itype) : Z := if signed t then - 2 ^ (bits t - 1) else 0.
Definition tmax (t : itype) : Z := if signed t then 2 ^ (bits t - 1) - 1 else 2 ^ bits t - 1.

(** Casts.hpp:101-111 [toNum<TOut>(x)] for integers: the conversion keeps the low bits. *)
Definition toNum (t : itype) (x : Z) : Z :=
  let r := x mod 2 ^ bits t in
  if signed t && (2 ^ (bits t - 1) <=? r) then r - 2 ^ bits t else r.

(** [toNum<TOut>(x)] for a floating [x]: the fraction is dropped; undefined when the rest does not fit. *)
Definition toNum_of_floating (t : itype) (f : spec_float) : outcome Z :=
  match truncate f with
  | Some z => if (tmin t <=? z) && (z <=? tmax t) then Ok z else UB
  | None => UB
  end.

(** Casts.hpp:121-125 [toFloat] of an integer: the nearest float, ties to even. *)
Definition toFloat (x : Z) : spec_float :=
  match x with
  | 0 => S754_zero false
  | Zpos p => SFdiv 24 128 (S754_finite false p 0) (S754_finite false 1 0)
  | Zneg p => SFdiv 24 128 (S754_finite true p 0) (S754_finite false 1 0)
  end.
(** Casts.hpp:128-132 [toDouble] of an integer. *)
Definition toDouble (x : Z) : spec_float := of_int x.

(** Casts.hpp:142-145 [sToInt]. [std::stoi] throws on a text without number or out of range; the function is
    [noexcept], so the process is terminated. *)
Definition terminated {A} : outcome A := Throw "terminate"%string.
Definition sToInt (s : bytes) : outcome Z :=
  match stoi s with Some z => Ok z | None => terminated end.

(** [std::stol]: as [std::stoi], with the range of [long]. *)
Definition stol (s : bytes) : option Z :=
  let s := skip_space s in
  let '(neg, s) := match s with
                   | c :: r => if Ascii.eqb c "-" then (true, r) else if Ascii.eqb c "+" then (false, r) else (false, s)
                   | [] => (false, s) end in
  match s with
  | c :: _ =>
    if is_digit c then
      let z := digits_value 0 s in
      let z := if neg then - z else z in
      if (LONG_MIN <=? z) && (z <=? LONG_MAX) then Some z else None
    else None
  | [] => None
  end.
(** Casts.hpp:160-163 [sToSizeT]. *)
Definition sToSizeT (s : bytes) : outcome Z :=
  match stol s with Some z => Ok (toNum u64 z) | None => terminated end.

(** Frametime.hpp:27 [secondsFTRatio]: 60.f. *)
Definition secondsFTRatio : spec_float := S754_finite false 15728640 (-18).
(** Frametime.hpp:30-34, 37-41, 44-48 for [T] = float... *)
Definition getFTToSeconds_f (x : spec_float) : spec_float := SFdiv 24 128 x secondsFTRatio.
Definition getSecondsToFT_f (x : spec_float) : spec_float := SFmul 24 128 x secondsFTRatio.
Definition getFTToFPS_f (x : spec_float) : spec_float := SFdiv 24 128 secondsFTRatio x.
(** ... and for an integer [T]: the operand becomes a float, the result is converted back. *)
Definition getFTToSeconds (t : itype) (n : Z) : outcome Z := toNum_of_floating t (getFTToSeconds_f (toFloat n)).
Definition getSecondsToFT (t : itype) (n : Z) : outcome Z := toNum_of_floating t (getSecondsToFT_f (toFloat n)).
Definition getFTToFPS (t : itype) (n : Z) : outcome Z := toNum_of_floating t (getFTToFPS_f (toFloat n)).
