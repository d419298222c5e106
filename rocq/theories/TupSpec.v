(** Calls made one after the other, and what holds for the notions of the statements on packs and delegates. *)
From Coq Require Import String ZArith Arith Bool List.
Import ListNotations.
From Verif Require Import Common TupModel.

Section Order.
Context {S R : Type}.
(** The calls in order, each on the state the one before left; the first that does not return ends it all. *)
Fixpoint in_order (calls : list (S -> ending S unit)) (s : S) : ending S unit :=
  match calls with
  | [] => Returned s tt
  | c :: r => match c s with Returned s' _ => in_order r s' | e => e end
  end.
(** The same, collecting what the calls return. *)
Fixpoint collect (calls : list (S -> ending S R)) (s : S) : ending S (list R) :=
  match calls with
  | [] => Returned s []
  | c :: r => match c s with
              | Returned s' x => match collect r s' with
                                 | Returned s'' xs => Returned s'' (x :: xs)
                                 | e => e
                                 end
              | Raised s' m => Raised s' m
              | Terminated => Terminated
              end
  end.
End Order.

(** Histories of a delegate. *)
Inductive op (F : Type) : Type := Add (f : F) | Clear.
Arguments Add {F}. Arguments Clear {F}.
Definition after {S Args R} (h : list (op (@func S Args R))) : @delegate S Args R :=
  fold_left (fun d o => match o with Add f => add d f | Clear => clear d end) h [].
