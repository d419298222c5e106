(** What a history of bimap operations should do to the list of pairs; [None] means a precondition
    was violated. *)
From Coq Require Import Arith Bool List.
From Verif Require Import BimapModel.
Import ListNotations.

Section SPEC.
Context {T1 T2 : Type} (eq1 : T1 -> T1 -> bool) (eq2 : T2 -> T2 -> bool).
Definition uses1 (x : T1) (p : T1 * T2) : bool := eq1 (fst p) x.
Definition uses2 (y : T2) (p : T1 * T2) : bool := eq2 (snd p) y.
Definition spec_step (l : list (T1 * T2)) (o : bm_op T1 T2) : option (list (T1 * T2)) :=
  match o with
  | Emplace x y => if existsb (uses1 x) l || existsb (uses2 y) l then None else Some (l ++ [(x, y)])
  | Erase1 x => if existsb (uses1 x) l then Some (filter (fun p => negb (uses1 x p)) l) else None
  | Erase2 y => if existsb (uses2 y) l then Some (filter (fun p => negb (uses2 y p)) l) else None
  | BClear => Some []
  end.
Fixpoint spec_run (l : list (T1 * T2)) (h : list (bm_op T1 T2)) : option (list (T1 * T2)) :=
  match h with
  | [] => Some l
  | o :: h => match spec_step l o with Some l' => spec_run l' h | None => None end
  end.
End SPEC.
