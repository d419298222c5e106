(** Angles and ranges computed in single precision.

    Model of the functions of Core/Utils/Math.hpp for arguments of type float, as the machine computes them: every
    operation yields the float nearest to its exact result (IEEE 754, round to nearest, ties to even), infinities and
    NaNs included.  Coq's [SpecFloat] defines the operations; [fmodf] and [fabsf] are the C library's.
    Simplified: one type (float) for all arguments, no fused or wider intermediate results (FLT_EVAL_METHOD 0). *)
From Coq Require Import ZArith Bool.
From Coq Require Import Floats.SpecFloat.
From Verif Require Import Common.
Local Open Scope Z_scope.

Definition fl := spec_float.
(** The operations of float. *)
Definition addf : fl -> fl -> fl := SFadd 24 128.
Definition subf : fl -> fl -> fl := SFsub 24 128.
Definition mulf : fl -> fl -> fl := SFmul 24 128.
Definition divf : fl -> fl -> fl := SFdiv 24 128.
Definition ltf : fl -> fl -> bool := SFltb.
Definition lef : fl -> fl -> bool := SFleb.

(** [std::fmod(float, float)] (C11 F.10.7.1): the exact remainder with the sign of the first argument; NaN for an
    infinite first or a zero second argument. *)
Definition fmodf (x y : fl) : fl :=
  match x, y with
  | S754_nan, _ | _, S754_nan => S754_nan
  | S754_infinity _, _ => S754_nan
  | _, S754_zero _ => S754_nan
  | S754_zero s, _ => S754_zero s
  | _, S754_infinity _ => x
  | S754_finite s m1 e1, S754_finite _ m2 e2 =>
      let e := Z.min e1 e2 in
      let r := (Zpos m1 * 2 ^ (e1 - e)) mod (Zpos m2 * 2 ^ (e2 - e)) in
      binary_normalize 24 128 (if s then - r else r) e s
  end.
(** [std::abs(float)]: the sign is removed. *)
Definition fabsf (x : fl) : fl := SFabs x.

(** The constants 0, 180, 360 and 1 as floats. *)
Definition f0 : fl := S754_zero false.
Definition f1 : fl := S754_finite false 8388608 (-23).
Definition f180 : fl := S754_finite false 11796480 (-16).
Definition f360 : fl := S754_finite false 11796480 (-15).
(** Math.hpp:27 [radDegRatio{0.01745329251f}]: the float nearest to that decimal, 9370165 * 2^-29. *)
Definition radDegRatio : fl := S754_finite false 9370165 (-29).

(** Math.hpp:131-139 [getCycledValue]. *)
Definition getCycledValue (x mn mx : fl) : fl :=
  let delta := subf mx mn in
  let result := fmodf (subf x mn) delta in
  addf mn (if ltf result f0 then addf result delta else result).

(** Math.hpp:145-149 [toRad], 155-159 [toDeg]. *)
Definition toRad (x : fl) : fl := mulf x radDegRatio.
Definition toDeg (x : fl) : fl := divf x radDegRatio.

(** Math.hpp:176-181 [getWrapDeg]. *)
Definition getWrapDeg (x : fl) : fl :=
  let x' := fmodf x f360 in if ltf x' f0 then addf x' f360 else x'.

(** Math.hpp:190-200 [getRotatedDeg]. *)
Definition getRotatedDeg (start end_ speed : fl) : fl :=
  let diff := getCycledValue (subf (getWrapDeg end_) (getWrapDeg start)) (SFopp f180) f180 in
  if ltf diff (SFopp speed) then subf start speed
  else if ltf speed diff then addf start speed
  else end_.

(** Math.hpp:415-420 [getDistDeg]. *)
Definition getDistDeg (a b : fl) : fl :=
  subf f180 (fabsf (subf (fmodf (fabsf (subf a b)) f360) f180)).

(** Math.hpp:428-434 [getMap]; a violated assertion is UB. *)
Definition getMap (i imn imx omn omx : fl) : outcome fl :=
  if SFeqb (subf imx imn) f0 then UB
  else Ok (addf (divf (mulf (subf i imn) (subf omx omn)) (subf imx imn)) omn).

(** Math.hpp:440-446 [getLerp]; a violated assertion is UB. *)
Definition getLerp (w a b : fl) : outcome fl :=
  if lef f0 w && lef w f1 then Ok (addf a (mulf w (subf b a))) else UB.
