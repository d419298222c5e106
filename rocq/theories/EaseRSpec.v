(** The shapes of the curves made with sin, cos, sqrt and powers, on the unit interval. *)
From Coq Require Import Reals.
From Verif Require Import EaseRModel.
Local Open Scope R_scope.

Definition two_to (x : R) : R := exp (x * ln 2).
Definition quarter_wave (x : R) : R := 1 - cos (x * (PI / 2)).
Definition quarter_circle (x : R) : R := 1 - sqrt (1 - x ^ 2).
(** 0 at 0; otherwise from 1/1024 up to 1. *)
Definition powers_of_two (x : R) : R := if Req_EM_T x 0 then 0 else two_to (10 * (x - 1)).
(** A swing of the given period that grows as the powers of two and ends at its crest. *)
Definition swing (period x : R) : R :=
  if Req_EM_T x 0 then 0 else two_to (10 * (x - 1)) * cos ((1 - x) * (2 * PI / period)).
Definition shape_R (k : familyR) : R -> R :=
  match k with Sine => quarter_wave | Circ => quarter_circle | Elastic => swing (3 / 10) | Expo => powers_of_two end.
(** Elastic swings more slowly when easing in and out. *)
Definition inOut_shape_R (k : familyR) : R -> R := match k with Elastic => swing (45 / 100) | _ => shape_R k end.

(** A shape in time: from [b] by [c] within [d]; reflected; and half of each. *)
Definition eased_in_R (f : R -> R) (t b c d : R) : R := b + c * f (t / d).
Definition eased_out_R (f : R -> R) (t b c d : R) : R := b + c * (1 - f (1 - t / d)).
Definition eased_inOut_R (f : R -> R) (t b c d : R) : R :=
  let x := t / d in b + c * (if Rlt_dec x (1 / 2) then f (2 * x) / 2 else 1 - f (2 - 2 * x) / 2).
