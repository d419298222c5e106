(** List notions used in the statements about type lists. *)
From Coq Require Import ZArith Arith Bool List.
Import ListNotations.
Local Open Scope Z_scope.

Section Types.
Context {A : Type} (eqb : A -> A -> bool).

(** [l] without repetitions, first occurrences kept. *)
Fixpoint firsts (l : list A) : list A :=
  match l with [] => [] | x :: r => x :: filter (fun y => negb (eqb x y)) (firsts r) end.

(** [m] occurs in [s] at position [i]. *)
Definition occurs (s m : list A) (i : Z) : Prop :=
  exists a b, s = a ++ m ++ b /\ i = Z.of_nat (length a).
(** No two occurrences of [m] in [s] share an element. *)
Definition apart (s m : list A) : Prop :=
  forall i j, occurs s m i -> occurs s m j -> i < j -> i + Z.of_nat (length m) <= j.

(** Replacement of [m] by [n] from left to right; the first [skip] elements belong to the last occurrence. *)
Fixpoint starts (m l : list A) : bool :=
  match m, l with [], _ => true | x :: m', y :: l' => eqb x y && starts m' l' | _, [] => false end.
Fixpoint replaced (m n : list A) (skip : nat) (l : list A) : list A :=
  match l with
  | [] => []
  | x :: r => match skip with
              | S k => replaced m n k r
              | O => if starts m l then n ++ replaced m n (pred (length m)) r else x :: replaced m n 0 r
              end
  end.
End Types.
