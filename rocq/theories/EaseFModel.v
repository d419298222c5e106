(** The power curves of include/SSVUtils/Easing/Inc/Easing.hpp for arguments of type float, with the operations of
    AngleModel (every step rounded).
    Simplified: the order of evaluation is the one in which the curves are meant ([LR] of EaseModel: an assignment to
    [mT] is seen by the reads on its right); no fused or wider intermediate results. *)
From Coq Require Import ZArith Bool.
From Coq Require Import Floats.SpecFloat.
From Verif Require Import Common AngleModel.
Local Open Scope Z_scope.

(** The constants 2 and 1 as floats. *)
Definition two : fl := S754_finite false 8388608 (-22).
Definition one : fl := f1.
Definition negf (x : fl) : fl := SFopp x.
(** [assert(mD != 0)]. *)
Definition nzf (d v : fl) : outcome fl := if SFeqb d f0 then UB else Ok v.

Definition fcurve := fl -> fl -> fl -> fl -> outcome fl.

(** Easing.hpp:58-74. *)
Definition flinear : fcurve := fun t b c d => nzf d (addf (divf (mulf c t) d) b).
(** Easing.hpp:284-303. *)
Definition fquad_in : fcurve := fun t b c d => nzf d (let t := divf t d in addf (mulf (mulf c t) t) b).
Definition fquad_out : fcurve := fun t b c d => nzf d (let t := divf t d in addf (mulf (mulf (negf c) t) (subf t two)) b).
Definition fquad_inOut : fcurve := fun t b c d => nzf d (
  let t := divf t (divf d two) in
  if ltf t one then addf (mulf (mulf (divf c two) t) t) b
  else let t := subf t one in addf (mulf (divf (negf c) two) (subf (mulf t (subf t two)) one)) b).
(** Easing.hpp:127-140. *)
Definition fcubic_in : fcurve := fun t b c d => nzf d (let t := divf t d in addf (mulf (mulf (mulf c t) t) t) b).
Definition fcubic_out : fcurve := fun t b c d => nzf d (
  let t := subf (divf t d) one in addf (mulf c (addf (mulf (mulf t t) t) one)) b).
(** Easing.hpp:305-324. *)
Definition fquart_in : fcurve := fun t b c d => nzf d (let t := divf t d in addf (mulf (mulf (mulf (mulf c t) t) t) t) b).
Definition fquart_out : fcurve := fun t b c d => nzf d (
  let t := subf (divf t d) one in addf (mulf (negf c) (subf (mulf (mulf (mulf t t) t) t) one)) b).
Definition fquart_inOut : fcurve := fun t b c d => nzf d (
  let t := divf t (divf d two) in
  if ltf t one then addf (mulf (mulf (mulf (mulf (divf c two) t) t) t) t) b
  else let t := subf t two in addf (mulf (divf (negf c) two) (subf (mulf (mulf (mulf t t) t) t) two)) b).
(** Easing.hpp:326-346. *)
Definition fquint_in : fcurve := fun t b c d => nzf d (let t := divf t d in addf (mulf (mulf (mulf (mulf (mulf c t) t) t) t) t) b).
Definition fquint_out : fcurve := fun t b c d => nzf d (
  let t := subf (divf t d) one in addf (mulf c (addf (mulf (mulf (mulf (mulf t t) t) t) t) one)) b).
Definition fquint_inOut : fcurve := fun t b c d => nzf d (
  let t := divf t (divf d two) in
  if ltf t one then addf (mulf (mulf (mulf (mulf (mulf (divf c two) t) t) t) t) t) b
  else let t := subf t two in addf (mulf (divf c two) (addf (mulf (mulf (mulf (mulf t t) t) t) t) two)) b).
