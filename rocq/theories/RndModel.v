(** Model of include/SSVUtils/Core/Utils/Rnd.hpp, the functions giving integers.  The distribution of the
    standard library is a parameter [dist t lo hi]: from the engine to the engine and a number; the standard
    asks lo <= hi of its users.  Real numbers (57-77) are not modelled: they are the distributions of the
    standard library alone. *)
From Coq Require Import String ZArith Bool List.
From Verif Require Import Common CInt MplModel.
Local Open Scope Z_scope.

(** Integer types: those of CInt, and narrower ones (signed, number of bits). *)
Inductive aty := Wide (t : ity) | Narrow (sgn : bool) (bits : Z).
Definition avalue (t : aty) (z : Z) : Prop :=
  match t with
  | Wide t => has_type t z
  | Narrow true b => - 2 ^ (b - 1) <= z < 2 ^ (b - 1)
  | Narrow false b => 0 <= z < 2 ^ b
  end.
(** Type after integral promotion. *)
Definition promoted (t : aty) : ity := match t with Wide t => t | Narrow _ _ => I32 end.
(** [std::common_type_t]: the type itself if both are the same. *)
Definition acommon (a b : aty) : aty :=
  match a, b with
  | Narrow sa ba, Narrow sb bb => if Bool.eqb sa sb && (ba =? bb) then a else Wide I32
  | _, _ => Wide (common (promoted a) (promoted b))
  end.

Section RND.
Context {E : Type} (dist : ity -> Z -> Z -> E -> E * Z).

(** Rnd.hpp:43-51 [getRndI].  [max - 1] is an int for narrower types, and giving it in braces to a
    distribution of the narrower type does not compile. *)
Definition getRndI (t1 t2 : aty) (mMin mMax : Z) (e : E) : outcome (E * tv) :=
  match acommon t1 t2 with
  | Narrow _ _ => illformed
  | Wide CT =>
      let min := (CT, cvt CT mMin) in
      let max := (CT, cvt CT mMax) in
      obind (cassert (clt min max)) (fun _ =>
      obind (csub max i1) (fun hi =>
      let lo := snd min in
      if lo <=? snd hi then let '(e, v) := dist CT lo (snd hi) e in Ok (e, (CT, v)) else UB))
  end.
(** 82-86 [getRndSign]: -1 or 1 as an int, converted to T. *)
Definition getRndSign (T : ity) (e : E) : E * tv :=
  let '(e, v) := dist T 0 1 e in (e, (T, cvt T (if 0 <? v then -1 else 1))).
End RND.
