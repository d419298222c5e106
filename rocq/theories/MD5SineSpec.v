(** The sine function at a whole number, by its power series z - z^3/3! + z^5/5! - ... . *)
From Coq Require Import ZArith QArith.
Local Open Scope Q_scope.

Fixpoint factorial (n : nat) : Z := match n with O => 1 | S m => Z.of_nat n * factorial m end%Z.
Definition sine_term (z : Z) (k : nat) : Q :=
  let magnitude := inject_Z (z ^ (2 * Z.of_nat k + 1)) / inject_Z (factorial (2 * k + 1)) in
  if Nat.even k then magnitude else - magnitude.
(** The sum of the first [n] terms. *)
Fixpoint sine_sum (z : Z) (n : nat) : Q := match n with O => 0 | S k => sine_sum z k + sine_term z k end.
