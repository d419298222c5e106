(** Equality of rationals modulo a period. *)
From Coq Require Import ZArith QArith.
Local Open Scope Q_scope.
Definition congruent (d a b : Q) : Prop := exists n : Z, a == b + d * inject_Z n.
