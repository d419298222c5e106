(** Model of include/SSVUtils/Range/Internal/**/*.hpp, and of the iteration over JSON values built on it
    (Json/Val/Internal/ItrHelper.hpp, Json/Val/Val.hpp:408-479, Val.inl:66-99).
    Simplified: a container is the sequence of its elements, an iterator a place in it; comparing or
    using iterators of different containers is left out. *)
From Coq Require Import String Ascii ZArith Arith Bool List.
From Verif Require Import Common JsonNumModel JsonModel JsonCnvModel.
Import ListNotations.
Local Notation "'let!' x := e 'in' f" := (obind e (fun x => f)) (at level 200, x pattern, e at level 100, f at level 200, right associativity).

(** Iterators of the standard library: forward ones stand before the element at their position,
    std::reverse_iterator shows the element before its position. *)
Inductive itr := Fwd (p : nat) | Rev (p : nat).
Definition itr_eqb (a b : itr) : bool :=
  match a, b with Fwd p, Fwd q | Rev p, Rev q => Nat.eqb p q | _, _ => false end.

Section CONTAINER.
Context {A : Type} (c : list A).
Definition elem (p : nat) : outcome A := match nth_error c p with Some x => Ok x | None => UB end.
Definition deref (i : itr) : outcome A := match i with Fwd p => elem p | Rev (S p) => elem p | Rev O => UB end.
(** Moving by [off] elements, undefined outside the container. *)
Definition moved (p : nat) (off : Z) : outcome nat :=
  let q := (Z.of_nat p + off)%Z in
  if ((0 <=? q) && (q <=? Z.of_nat (length c)))%Z then Ok (Z.to_nat q) else UB.
Definition move (i : itr) (off : Z) : outcome itr :=
  match i with
  | Fwd p => let! q := moved p off in Ok (Fwd q)
  | Rev p => let! q := moved p (- off) in Ok (Rev q)
  end.

(** Adaptor.hpp:18-124: an adaptor holds an iterator; [get] is [TImpl::get], applied to what it shows. Operators that move
    give the adaptor afterwards and the adaptor the expression stands for. *)
Section ADAPTOR.
Context {B : Type} (get : A -> outcome B).
(** 29-44 *)
Definition a_deref (i : itr) : outcome B := let! x := deref i in get x.
(** 46-50, 51-55: both forms move and return [*this]. *)
Definition a_inc (i : itr) : outcome (itr * itr) := let! j := move i 1 in Ok (j, j).
Definition a_inc_post (i : itr) : outcome (itr * itr) := let! j := move i 1 in Ok (j, j).
(** 76-80, 81-85 *)
Definition a_dec (i : itr) : outcome (itr * itr) := let! j := move i (-1) in Ok (j, j).
Definition a_dec_post (i : itr) : outcome (itr * itr) := let! j := move i (-1) in Ok (j, j).
(** 97-106 *)
Definition a_add (i : itr) (off : Z) : outcome itr := move i off.
Definition a_sub (i : itr) (off : Z) : outcome itr := move i (- off).
(** 57-64, 108-123 *)
Definition a_eq (i j : itr) : bool := itr_eqb i j.
Definition a_lt (i j : itr) : bool :=
  match i, j with Fwd p, Fwd q => Nat.ltb p q | Rev p, Rev q => Nat.ltb q p | _, _ => false end.
(** Postfix increment and decrement of the standard iterators, for comparison. *)
Definition std_inc_post (i : itr) : outcome (itr * itr) := let! j := move i 1 in Ok (j, i).
Definition std_dec_post (i : itr) : outcome (itr * itr) := let! j := move i (-1) in Ok (j, i).

(** [for(auto&& x : makeRange(i, e)) body(x);] (Range.hpp:14-41), [body] acting on any state. *)
Context {S : Type} (body : S -> B -> outcome S).
Fixpoint for_range (fuel : nat) (i e : itr) (st : S) : outcome S :=
  match fuel with
  | O => OutOfFuel
  | Datatypes.S fuel =>
      if a_eq i e then Ok st else
      let! x := a_deref i in
      let! st := body st x in
      let! (i, _) := a_inc i in
      for_range fuel i e st
  end.
(** [while(i != e) body( *i++);] with either kind of postfix increment. *)
Context (post : itr -> outcome (itr * itr)).
Fixpoint while_post (fuel : nat) (i e : itr) (st : S) : outcome S :=
  match fuel with
  | O => OutOfFuel
  | Datatypes.S fuel =>
      if a_eq i e then Ok st else
      let! (j, shown) := post i in
      let! x := a_deref shown in
      let! st := body st x in
      while_post fuel j e st
  end.
End ADAPTOR.

(** Range.hpp:45-57 [asRange]; Reverse.hpp:15-27 [asRangeReverse]. *)
Definition asRange : itr * itr := (Fwd 0, Fwd (length c)).
Definition asRangeReverse : itr * itr := (Rev (length c), Rev 0).
End CONTAINER.

(** Cast.hpp:16-24 [AdaptorImplCastPtr::get]: the pointer in the container is to a base class part; the address
    is kept by reinterpret_cast.  [base_offset]: where the [k]-th base of a class lies in its objects, after the
    class's own table pointer if it has one and the bases before it. *)
Definition castPtr (base_address : Z) : Z := base_address.
Definition base_offset (own_table : bool) (base_sizes : list Z) (k : nat) : Z :=
  ((if own_table then 8 else 0) + fold_right Z.add 0 (firstn k base_sizes))%Z.

(** ** Iterating over JSON values *)
(** ItrHelper.hpp:51-59: elements as [T]. 39-47: keys and values as [T].  Both are noexcept: an exception ends the program. *)
Definition terminate {A} : outcome A := Throw "std::terminate"%string.
Definition nothrow {A} (o : outcome A) : outcome A := match o with Throw _ => terminate | o => o end.
Definition get_arr (t : ty) (v : jval) : outcome cv := nothrow (as_ t v).
Definition get_obj (t : ty) (m : bytes * jval) : outcome (bytes * cv) := nothrow (let! x := as_ t (snd m) in Ok (fst m, x)).
Section FOR.
Context {S : Type}.
(** Val.hpp:409-432: a getter used on the wrong kind fails its assertion. *)
Definition forUncheckedArrAs (t : ty) (v : jval) (body : S -> cv -> outcome S) (st : S) : outcome S :=
  match v with JArr a => for_range a (get_arr t) body (Datatypes.S (length a)) (fst (asRange a)) (snd (asRange a)) st | _ => UB end.
Definition forUncheckedObjAs (t : ty) (v : jval) (body : S -> bytes * cv -> outcome S) (st : S) : outcome S :=
  match v with JObj o => for_range o (get_obj t) body (Datatypes.S (length o)) (fst (asRange o)) (snd (asRange o)) st | _ => UB end.
(** Val.hpp:436-467: of another kind the empty range of a static object is taken. *)
Definition forArrAs (t : ty) (v : jval) (body : S -> cv -> outcome S) (st : S) : outcome S :=
  match v with
  | JArr _ => forUncheckedArrAs t v body st
  | _ => for_range ([] : list jval) (get_arr t) body 1 (Fwd 0) (Fwd 0) st
  end.
Definition forObjAs (t : ty) (v : jval) (body : S -> bytes * cv -> outcome S) (st : S) : outcome S :=
  match v with
  | JObj _ => forUncheckedObjAs t v body st
  | _ => for_range ([] : list (bytes * jval)) (get_obj t) body 1 (Fwd 0) (Fwd 0) st
  end.
(** Val.inl:66-99: without a type, elements are taken as values. *)
Definition forArr (v : jval) := forArrAs TyVal v.
Definition forObj (v : jval) := forObjAs TyVal v.
End FOR.
