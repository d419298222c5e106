(** The first numbers a generator gives. *)
From Coq Require Import ZArith List.
From Verif Require Import Common.
Import ListNotations.
Local Open Scope Z_scope.
Fixpoint first_numbers {S} (next : S -> outcome (S * Z)) (n : nat) (s : S) : outcome (list Z) :=
  match n with
  | O => Ok []
  | Datatypes.S n => obind (next s) (fun '(s, x) => obind (first_numbers next n s) (fun l => Ok (x :: l)))
  end.
