(** What going through a sequence means. *)
From Coq Require Import List.
From Verif Require Import Common.
Import ListNotations.

(** Each element in turn is converted and given to the body. *)
Fixpoint visit {A B S} (get : A -> outcome B) (body : S -> B -> outcome S) (l : list A) (st : S) : outcome S :=
  match l with
  | [] => Ok st
  | x :: l => obind (get x) (fun y => obind (body st y) (fun st => visit get body l st))
  end.
(** The places [i], [i + 1], ..., [j - 1] of a sequence. *)
Definition slice {A} (i j : nat) (l : list A) : list A := firstn (j - i) (skipn i l).
