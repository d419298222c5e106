(** Model of argument packs and tuples: include/SSVUtils/Core/Utils/ForArgs.hpp, Core/Tuple/**,
    Core/Utils/Containers.hpp:433-476, and of Delegate/Inc/Delegate.hpp.
    The functions called are any functions on a state [S] (everything they can read or change); they
    return, throw, or - an exception leaving a [noexcept] function - end the program. *)
From Coq Require Import String ZArith Arith Bool List.
Import ListNotations.
From Verif Require Import Common MplModel.

(** How a call ends. *)
Inductive ending (S R : Type) : Type :=
| Returned (s : S) (r : R)
| Raised (s : S) (m : string)
| Terminated.
Arguments Returned {S R}. Arguments Raised {S R}. Arguments Terminated {S R}.
Definition ebind {S R R'} (e : ending S R) (k : S -> R -> ending S R') : ending S R' :=
  match e with Returned s r => k s r | Raised s m => Raised s m | Terminated => Terminated end.
(** A function declared [noexcept] (or not). *)
Definition guarded {S R} (nx : bool) (e : ending S R) : ending S R :=
  match e with Raised s m => if nx then Terminated else e | _ => e end.

Section Calls.
Context {S A : Type}.

(** ForArgs.hpp:22-33 [execN]: the arguments number [base], [base+1], ... *)
Definition execN (arity base : nat) (f : S -> list A -> ending S unit) (xs : list A) (s : S) : outcome (ending S unit) :=
  match pack (fun c => elem (Z.of_nat (base + c)) xs) (seq 0 arity) with
  | Ok args => Ok (f s args)
  | Throw m => Throw m | UB => UB | OutOfFuel => OutOfFuel
  end.
(** ForArgs.hpp:35-48 [exec]: the groups from left to right (the order in a braced list is fixed). *)
Fixpoint exec_groups (arity : nat) (bs : list nat) (f : S -> list A -> ending S unit) (xs : list A) (s : S) : outcome (ending S unit) :=
  match bs with
  | [] => Ok (Returned s tt)
  | b :: bs' => match execN arity (b * arity) f xs s with
                | Ok (Returned s' _) => exec_groups arity bs' f xs s'
                | r => r
                end
  end.
(** ForArgs.hpp:54-66 [forArgs]. *)
Definition forArgs (arity : nat) (f : S -> list A -> ending S unit) (xs : list A) (s : S) : outcome (ending S unit) :=
  match arity with
  | O => illformed
  | _ => if Nat.eqb (length xs mod arity) 0 then exec_groups arity (seq 0 (length xs / arity)) f xs s else illformed
  end.

(** MinMax.hpp:13-29 [getMin] of one or more values. *)
Fixpoint getMinOf (a : nat) (r : list nat) : nat :=
  match r with [] => a | b :: r' => let m := getMinOf b r' in if a <? m then a else m end.

(** TplForHelper.hpp:13-32 [exec<TI>], from [i] on with [k] positions left. [nx i] says whether the call at
    position [i] is [noexcept]; each [exec] is declared [noexcept] if its own call is. *)
Fixpoint exec_tpl (nx : nat -> bool) (f : S -> nat -> list A -> ending S unit) (tpls : list (list A)) (k i : nat) (s : S) : outcome (ending S unit) :=
  match k with
  | O => Ok (Returned s tt)
  | Datatypes.S k' =>
      match pack (fun t => elem (Z.of_nat i) t) tpls with
      | Ok args => match guarded (nx i) (f s i args) with
                   | Returned s' _ => match exec_tpl nx f tpls k' (i + 1) s' with
                                      | Ok e => Ok (guarded (nx i) e)
                                      | r => r
                                      end
                   | e => Ok e
                   end
      | Throw m => Throw m | UB => UB | OutOfFuel => OutOfFuel
      end
  end.
(** TplFor.hpp:12-31 [tplFor] and [tplForData] (the function also gets the position; [tplFor]'s ignores it).
    With no tuple there is no [getMin]; with no position only the overload that needs an explicit index is
    left: neither compiles. *)
Definition tplFor (nx : nat -> bool) (f : S -> nat -> list A -> ending S unit) (tpls : list (list A)) (s : S) : outcome (ending S unit) :=
  match tpls with
  | [] => illformed
  | t :: r => match getMinOf (length t) (map (@length A) r) with
              | O => illformed
              | n => exec_tpl nx f tpls n 0 s
              end
  end.

(** Exploder.hpp:15-38: the elements are put in front from the last one on; [explode] with something left is
    unconditionally [noexcept]. *)
Fixpoint exploder {R} (n : nat) (f : S -> list A -> ending S R) (t args : list A) (s : S) : outcome (ending S R) :=
  match n with
  | O => Ok (f s args)
  | Datatypes.S n' => match elem (Z.of_nat n') t with
                      | Ok x => match exploder n' f t (x :: args) s with
                                | Ok e => Ok (guarded true e)
                                | r => r
                                end
                      | Throw m => Throw m | UB => UB | OutOfFuel => OutOfFuel
                      end
  end.
(** Tuple.hpp:30-37. *)
Definition explode {R} (f : S -> list A -> ending S R) (t : list A) (s : S) : outcome (ending S R) :=
  exploder (length t) f t [] s.

(** TplIdxOfHelper.hpp:13-28: no definition for an empty rest. *)
Fixpoint getTplIdxOf (eqb : A -> A -> bool) (x : A) (t : list A) : outcome nat :=
  match t with
  | [] => illformed
  | y :: r => if eqb x y then Ok O else obind (getTplIdxOf eqb x r) (fun i => Ok (1 + i))
  end.
(** TplRepeatHelper.hpp:13-33. *)
Fixpoint TplRepeatHelper (x : A) (n : nat) (args : list A) : list A :=
  match n with O => args | Datatypes.S n' => TplRepeatHelper x n' (args ++ [x]) end.
Definition TplRepeat (x : A) (n : nat) : list A := TplRepeatHelper x n [].
End Calls.

(** Containers.hpp:446-476 [mkUnorderedMap]: [emplace] keeps an element that is there; the map as the list
    of its elements in order of insertion. *)
Definition emplace {A} (keqb : A -> A -> bool) (m : list (A * A)) (k v : A) : list (A * A) :=
  if existsb (fun e => keqb k (fst e)) m then m else m ++ [(k, v)].
Definition mkUnorderedMap {A} (keqb : A -> A -> bool) (xs : list A) : outcome (ending (list (A * A)) unit) :=
  forArgs 2 (fun m args => match args with [k; v] => Returned (emplace keqb m k v) tt | _ => Returned m tt end) xs [].
(** Containers.hpp:434-444 [mkVector] (all arguments already of the common type). *)
Definition mkVector {A} (xs : list A) : list A := fold_left (fun r x => r ++ [x]) xs [].

(** ** Delegates *)
(** Delegate.hpp:33-34: the functions, in a vector. A function is given by what a call of it does with the
    arguments and the state, and how it changed the delegate itself meanwhile: the functions that it added,
    or whether it cleared it. *)
Inductive change := Same | Changed.
Section Delegates.
Context {S Args R : Type}.
Definition func := S -> Args -> ending S R * change.
Definition delegate := list func.
(** Delegate.hpp:36-49, 72-82. *)
Definition add (d : delegate) (f : func) : delegate := d ++ [f].
Definition clear (d : delegate) : delegate := [].
Definition isEmpty (d : delegate) : bool := match d with [] => true | _ => false end.
(** Delegate.hpp:86-106 [exec]: the loop over the vector. A function that adds to or clears the vector
    invalidates the iterators that the loop goes on with. *)
Fixpoint exec (d : delegate) (args : Args) (s : S) (result : list R) : outcome (ending S (list R)) :=
  match d with
  | [] => Ok (Returned s result)
  | f :: d' => match f s args with
               | (Returned s' r, Same) => exec d' args s' (result ++ [r])
               | (Returned _ _, Changed) => UB
               | (Raised s' m, _) => Ok (Raised s' m)
               | (Terminated, _) => Ok Terminated
               end
  end.
Definition call (d : delegate) (args : Args) (s : S) : outcome (ending S (list R)) := exec d args s [].
End Delegates.
