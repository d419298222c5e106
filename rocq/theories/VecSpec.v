(** Specification side for the sorted-vector containers: orders, sortedness, and the finite map a
    history of operations stands for. *)
From Coq Require Import Arith Bool List.
From Verif Require Import VecModel.
Import ListNotations.

(** A strict total order together with a matching equality test. *)
Record strict_total {K} (ltb eqb : K -> K -> bool) : Prop := {
  st_irrefl : forall a, ltb a a = false;
  st_trans : forall a b c, ltb a b = true -> ltb b c = true -> ltb a c = true;
  st_total : forall a b, ltb a b = true \/ a = b \/ ltb b a = true;
  st_eqb : forall a b, eqb a b = true <-> a = b }.

(** A strict weak order (what the STL asks of a comparator). *)
Record strict_weak {T} (cmp : T -> T -> bool) : Prop := {
  sw_irrefl : forall a, cmp a a = false;
  sw_trans : forall a b c, cmp a b = true -> cmp b c = true -> cmp a c = true;
  sw_incomp : forall a b c, cmp a b = false -> cmp b c = false -> cmp a c = false }.

(** Each element relates to every later one. *)
Fixpoint ordered {A} (R : A -> A -> Prop) (l : list A) : Prop :=
  match l with [] => True | x :: r => (forall y, In y r -> R x y) /\ ordered R r end.

(** The map meant by a history: newest operation first in the recursion, i.e. the history is read
    from its end. *)
Fixpoint meaning {K V} (eqb : K -> K -> bool) (dflt : V) (rev_history : list (vm_op K V)) (k : K) : option V :=
  match rev_history with
  | [] => None
  | Clear :: _ => None
  | Assign k' v :: h => if eqb k' k then Some v else meaning eqb dflt h k
  | Touch k' :: h => match meaning eqb dflt h k with
                     | Some v => Some v
                     | None => if eqb k' k then Some dflt else None
                     end
  end.
