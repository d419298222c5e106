(** Radians in single precision: [getWrapRad], [getDistRad] and [getRotatedRad] of Core/Utils/Math.hpp for arguments of
    type float, with the operations of AngleModel. *)
From Coq Require Import ZArith Bool.
From Coq Require Import Floats.SpecFloat.
From Verif Require Import Common AngleModel.
Local Open Scope Z_scope.

(** Math.hpp:18 [pi{3.14159265359f}], 24 [tau{6.28318530718f}]: the floats nearest to these decimals. *)
Definition pi : fl := S754_finite false 13176795 (-22).
Definition tau : fl := S754_finite false 13176795 (-21).
Definition f2 : fl := S754_finite false 8388608 (-22).

(** Math.hpp:166-170 [getWrapRad]. *)
Definition getWrapRad (x : fl) : fl :=
  let x' := fmodf x tau in if ltf x' f0 then addf x' tau else x'.
(** Math.hpp:404-409 [getDistRad]. *)
Definition getDistRad (a b : fl) : fl :=
  subf pi (fabsf (subf (fmodf (fabsf (subf a b)) (mulf pi f2)) pi)).
(** Math.hpp:209-214 [getRotatedRad]. *)
Definition getRotatedRad (start end_ speed : fl) : fl := getRotatedDeg (toDeg start) (toDeg end_) speed.
