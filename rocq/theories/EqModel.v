(** Model of the comparison of generators: include/SSVUtils/Internal/PCG/pcg_random.hpp:702-726, 1399-1418. *)
From Coq Require Import String ZArith Bool List.
From Verif Require Import Common.
Import ListNotations.
Local Open Scope Z_scope.

(** A generator: multiplier, increment, state. *)
Definition engine : Type := Z * Z * Z.
(** 702-714 [operator==], 716-726 [operator!=]. *)
Definition engine_eq (lhs rhs : engine) : bool :=
  let '(m, c, s) := lhs in let '(m', c', s') := rhs in (m =? m') && (c =? c') && (s =? s').
Definition engine_ne (lhs rhs : engine) : bool := negb (engine_eq lhs rhs).
(** 1399-1409 [operator==] of extended generators; [memcmp] on tables of unsigned integers, which have the same size. *)
Fixpoint same_table (a b : list Z) : bool :=
  match a, b with
  | [], [] => true
  | x :: a, y :: b => (x =? y) && same_table a b
  | _, _ => false
  end.
Definition extended_eq (lhs rhs : engine * list Z) : bool := engine_eq (fst lhs) (fst rhs) && same_table (snd lhs) (snd rhs).
(** 1411-1418 [operator!=]: calls itself. *)
Fixpoint extended_ne (fuel : nat) (lhs rhs : engine * list Z) : outcome bool :=
  match fuel with O => OutOfFuel | S fuel => extended_ne fuel lhs rhs end.
