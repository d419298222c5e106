(** Model of include/SSVUtils/Easing/Inc/Easing.hpp over exact rational numbers (rounding is not modelled):
    the curves made of sums, products and quotients. Sine, Circ, Elastic and Expo call cos, sin, sqrt and
    pow and are not modelled, except for the second half of Circ's inOut.
    Many of the expressions assign to [mT] (or [s]) in one operand of a product and read it in the other.
    C++ leaves the order of the two open (and by the letter makes the behaviour undefined), so these curves
    take the order the compiler chose: [LR] makes the assignment on the left visible to the reads on its
    right, [RL] lets those reads see the old value. Curves without such an expression ignore it. *)
From Coq Require Import ZArith QArith Bool List.
From Verif Require Import Common.
Local Open Scope Q_scope.

Inductive order := LR | RL.
Definition read (o : order) (old new : Q) : Q := match o with LR => new | RL => old end.
Definition Qltb (a b : Q) : bool := negb (Qle_bool b a).

(** [assert(mD != 0)]. *)
Definition nz (d v : Q) : outcome Q := if Qeq_bool d 0 then UB else Ok v.

Definition curve := order -> Q -> Q -> Q -> Q -> outcome Q.

(** Easing.hpp:58-74. *)
Definition linear_in : curve := fun _ t b c d => nz d (c * t / d + b).
Definition linear_out : curve := linear_in.
Definition linear_inOut : curve := linear_in.

(** Easing.hpp:96-125; the constant is the decimal one. *)
Definition back_s : Q := 170158 # 100000.
Definition back_in : curve := fun _ t b c d => nz d (
  let t := t / d in let postFix := t in
  c * postFix * t * ((back_s + 1) * t - back_s) + b).
Definition back_out : curve := fun o t b c d => nz d (
  let new := t / d - 1 in let t' := read o t new in
  c * (new * t' * ((back_s + 1) * t' + back_s) + 1) + b).
Definition back_inOut : curve := fun o t b c d => nz d (
  let t := t / (d / 2) in
  let s := back_s * (1525 # 1000) in let s' := read o back_s s in
  if Qltb t 1 then c / 2 * (t * t * ((s + 1) * t - s')) + b
  else let t := t - 2 in c / 2 * (t * t * ((s + 1) * t + s') + 2) + b).

(** Easing.hpp:127-148. *)
Definition cubic_in : curve := fun o t b c d => nz d (
  let new := t / d in let t' := read o t new in c * new * t' * t' + b).
Definition cubic_out : curve := fun o t b c d => nz d (
  let new := t / d - 1 in let t' := read o t new in c * (new * t' * t' + 1) + b).
Definition cubic_inOut : curve := fun _ t b c d => nz d (
  let t := t / (d / 2) in
  if Qltb t 1 then c / 2 * t * t * t + b
  else let p1 := c / 2 * t in let t := t - 2 in p1 * t * t + 2 + b).

(** Easing.hpp:150-181. *)
Definition bounce_out : curve := fun _ t b c d => nz d (
  let t := t / d in
  if Qltb t (1 / (275 # 100)) then c * ((75625 # 10000) * t * t) + b
  else if Qltb t (2 / (275 # 100)) then
    let t := t - (15 # 10) / (275 # 100) in c * ((75625 # 10000) * t * t + (75 # 100)) + b
  else if Qltb t ((25 # 10) / (275 # 100)) then
    let t := t - (225 # 100) / (275 # 100) in c * ((75625 # 10000) * t * t + (9375 # 10000)) + b
  else
    let t := t - (2625 # 1000) / (275 # 100) in c * ((75625 # 10000) * t * t + (984375 # 1000000)) + b).
Definition bounce_in : curve := fun o t b c d =>
  obind (bounce_out o (d - t) 0 c d) (fun v => Ok (c - v + b)).
Definition bounce_inOut : curve := fun o t b c d =>
  if Qltb t (d / 2) then obind (bounce_in o (t * 2) 0 c d) (fun v => Ok (v * (1 # 2) + b))
  else obind (bounce_out o (t * 2 - d) 0 c d) (fun v => Ok (v * (1 # 2) + c * (1 # 2) + b)).

(** Easing.hpp:284-303. *)
Definition quad_in : curve := fun o t b c d => nz d (
  let new := t / d in c * new * read o t new + b).
Definition quad_out : curve := fun o t b c d => nz d (
  let new := t / d in - c * new * (read o t new - 2) + b).
Definition quad_inOut : curve := fun o t b c d => nz d (
  let t := t / (d / 2) in
  if Qltb t 1 then c / 2 * t * t + b
  else let new := t - 1 in - c / 2 * (new * (read o t new - 2) - 1) + b).

(** Easing.hpp:305-324. *)
Definition quart_in : curve := fun o t b c d => nz d (
  let new := t / d in let t' := read o t new in c * new * t' * t' * t' + b).
Definition quart_out : curve := fun o t b c d => nz d (
  let new := t / d - 1 in let t' := read o t new in - c * (new * t' * t' * t' - 1) + b).
Definition quart_inOut : curve := fun o t b c d => nz d (
  let t := t / (d / 2) in
  if Qltb t 1 then c / 2 * t * t * t * t + b
  else let new := t - 2 in let t' := read o t new in - c / 2 * (new * t' * t' * t' - 2) + b).

(** Easing.hpp:326-346. *)
Definition quint_in : curve := fun o t b c d => nz d (
  let new := t / d in let t' := read o t new in c * new * t' * t' * t' * t' + b).
Definition quint_out : curve := fun o t b c d => nz d (
  let new := t / d - 1 in let t' := read o t new in c * (new * t' * t' * t' * t' + 1) + b).
Definition quint_inOut : curve := fun o t b c d => nz d (
  let t := t / (d / 2) in
  if Qltb t 1 then c / 2 * t * t * t * t * t + b
  else let new := t - 2 in let t' := read o t new in c / 2 * (new * t' * t' * t' * t' + 2) + b).

(** The curves by name. *)
Inductive family := Linear | Quad | Cubic | Quart | Quint | Back | Bounce.
Definition ease_in (k : family) : curve := match k with Linear => linear_in | Quad => quad_in | Cubic => cubic_in
  | Quart => quart_in | Quint => quint_in | Back => back_in | Bounce => bounce_in end.
Definition ease_out (k : family) : curve := match k with Linear => linear_out | Quad => quad_out | Cubic => cubic_out
  | Quart => quart_out | Quint => quint_out | Back => back_out | Bounce => bounce_out end.
Definition ease_inOut (k : family) : curve := match k with Linear => linear_inOut | Quad => quad_inOut | Cubic => cubic_inOut
  | Quart => quart_inOut | Quint => quint_inOut | Back => back_inOut | Bounce => bounce_inOut end.

(** Easing.hpp:196-202, second half: the number whose square root is taken,
    [T(1) - mT * (mT -= T(2))]: here the assignment is the right operand. *)
Definition circ_radicand (o : order) (t d : Q) : Q :=
  let t := t / (d / 2) in let new := t - 2 in
  1 - match o with LR => t | RL => new end * new.

(** Easing.hpp:48-54, 373-380 [getMapEased] and 355-363 [getEased]. *)
Definition getMapEased (f : curve) (o : order) (i imin imax omin omax : Q) : outcome Q :=
  f o (imin + i) omin (omax - omin) (imax - imin).
Definition getEased (f : curve) (o : order) (i imin imax : Q) : outcome Q :=
  getMapEased f o i imin imax imin imax.
