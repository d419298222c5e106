(** Model of the curves of include/SSVUtils/Easing/Inc/Easing.hpp that call sin, cos, sqrt and pow, over the real
    numbers: rounding is not modelled, and [ssvu::pi] is the exact number. The other curves are in EaseModel, as is
    the meaning of the evaluation order [order]. A square root of a negative number is the outcome [NaN]. *)
From Coq Require Import String Reals.
From Verif Require Import Common EaseModel.
Local Open Scope R_scope.

Definition read_R (o : order) (old new : R) : R := match o with LR => new | RL => old end.
(** [assert(mD != 0)]. *)
Definition nzr (d : R) (v : outcome R) : outcome R := if Req_EM_T d 0 then UB else v.
Definition NaN : outcome R := Throw "NaN"%string.
(** [std::sqrt] and what is done with the root. *)
Definition root (x : R) (f : R -> R) : outcome R := if Rlt_dec x 0 then NaN else Ok (f (sqrt x)).
(** [std::pow] with the base 2. *)
Definition pow2 (x : R) : R := Rpower 2 x.

Definition curveR := order -> R -> R -> R -> R -> outcome R.

(** Easing.hpp:76-94. *)
Definition sine_in : curveR := fun _ t b c d => nzr d (Ok (- c * cos (t / d * (PI / 2)) + c + b)).
Definition sine_out : curveR := fun _ t b c d => nzr d (Ok (c * sin (t / d * (PI / 2)) + b)).
Definition sine_inOut : curveR := fun _ t b c d => nzr d (Ok (- c / 2 * (cos (PI * t / d) - 1) + b)).

(** Easing.hpp:183-203. In the second half of the last the assignment is the right operand. *)
Definition circ_in : curveR := fun o t b c d => nzr d (
  let new := t / d in root (1 - new * read_R o t new) (fun q => - c * (q - 1) + b)).
Definition circ_out : curveR := fun o t b c d => nzr d (
  let new := t / d - 1 in root (1 - new * read_R o t new) (fun q => c * q + b)).
Definition circ_inOut : curveR := fun o t b c d => nzr d (
  let t := t / (d / 2) in
  if Rlt_dec t 1 then root (1 - t * t) (fun q => - c / 2 * (q - 1) + b)
  else let new := t - 2 in root (1 - match o with LR => t | RL => new end * new) (fun q => c / 2 * (q + 1) + b)).

(** Easing.hpp:205-254; [assert(p != 0)] included. *)
Definition elastic_in : curveR := fun _ t b c d => nzr d (
  if Req_EM_T t 0 then Ok b else
  let t := t / d in
  if Req_EM_T t 1 then Ok (b + c) else
  let p := d * (3 / 10) in let a := c in let s := p / 4 in
  let t := t - 1 in let postFix := a * pow2 (10 * t) in
  nzr p (Ok (- (postFix * sin ((t * d - s) * (2 * PI) / p)) + b))).
Definition elastic_out : curveR := fun _ t b c d => nzr d (
  if Req_EM_T t 0 then Ok b else
  let t := t / d in
  if Req_EM_T t 1 then Ok (b + c) else
  let p := d * (3 / 10) in let a := c in let s := p / 4 in
  nzr p (Ok (a * pow2 (-10 * t) * sin ((t * d - s) * (2 * PI) / p) + c + b))).
Definition elastic_inOut : curveR := fun _ t b c d => nzr d (
  if Req_EM_T t 0 then Ok b else
  let t := t / (d / 2) in
  if Req_EM_T t 2 then Ok (b + c) else
  let p := d * (3 / 10 * (15 / 10)) in let a := c in let s := p / 4 in
  nzr p (
    if Rlt_dec t 1 then
      let t := t - 1 in let postFix := a * pow2 (10 * t) in
      Ok (- (5 / 10) * (postFix * sin ((t * d - s) * (2 * PI) / p)) + b)
    else
      let t := t - 1 in let postFix := a * pow2 (-10 * t) in
      Ok (postFix * sin ((t * d - s) * (2 * PI) / p) * (5 / 10) + c + b))).

(** Easing.hpp:256-282. *)
Definition expo_in : curveR := fun _ t b c d => nzr d (
  Ok (if Req_EM_T t 0 then b else c * pow2 (10 * (t / d - 1)) + b)).
Definition expo_out : curveR := fun _ t b c d => nzr d (
  Ok (if Req_EM_T t d then b + c else c * (- pow2 (-10 * t / d) + 1) + b)).
Definition expo_inOut : curveR := fun _ t b c d => nzr d (Ok (
  if Req_EM_T t 0 then b else
  if Req_EM_T t d then b + c else
  let t := t / (d / 2) in
  if Rlt_dec t 1 then c / 2 * pow2 (10 * (t - 1)) + b
  else let t := t - 1 in c / 2 * (- pow2 (-10 * t) + 2) + b)).

(** The curves by name. *)
Inductive familyR := Sine | Circ | Elastic | Expo.
Definition in_R (k : familyR) : curveR := match k with Sine => sine_in | Circ => circ_in | Elastic => elastic_in | Expo => expo_in end.
Definition out_R (k : familyR) : curveR := match k with Sine => sine_out | Circ => circ_out | Elastic => elastic_out | Expo => expo_out end.
Definition inOut_R (k : familyR) : curveR := match k with Sine => sine_inOut | Circ => circ_inOut | Elastic => elastic_inOut | Expo => expo_inOut end.
