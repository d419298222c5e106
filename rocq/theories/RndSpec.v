(** What the standard promises of [std::uniform_int_distribution]: numbers of the closed range. *)
From Coq Require Import ZArith.
From Verif Require Import Common CInt.
Local Open Scope Z_scope.
Definition honest {E} (dist : ity -> Z -> Z -> E -> E * Z) : Prop :=
  forall t lo hi e, has_type t lo -> has_type t hi -> lo <= hi -> lo <= snd (dist t lo hi e) <= hi.
