(** What is where in a JSON value, and when two values are the same data. *)
From Coq Require Import String Ascii ZArith NArith Arith Bool Lia List.
From Coq Require Import Floats.SpecFloat.
From Verif Require Import Common VecSpec JsonNumModel JsonModel JsonSpec JsonAccModel.
Import ListNotations.

(** [found v p w]: following the keys and indices [p] from [v] one arrives at [w]. *)
Inductive found : jval -> list step -> jval -> Prop :=
| f_here : forall v, found v [] v
| f_key : forall o k u p w, In (k, u) o -> found u p w -> found (JObj o) (K k :: p) w
| f_idx : forall a i u p w, nth_error a i = Some u -> found u p w -> found (JArr a) (I i :: p) w.

(** [p] ends in a key that its object does not have. *)
Definition missing_key (v : jval) (p : list step) : Prop :=
  exists q o k, p = q ++ [K k] /\ found v q (JObj o) /\ ~ In k (map fst o).
(** [p] leads beyond the end of an array. *)
Definition beyond (v : jval) (p : list step) : Prop :=
  exists q a i r, p = q ++ I i :: r /\ found v q (JArr a) /\ length a <= i.

(** Objects hold one value per key, in key order, at every depth. *)
Inductive keyed : jval -> Prop :=
| k_obj : forall o, ordered (fun p q => bytes_ltb (fst p) (fst q) = true) o -> (forall k u, In (k, u) o -> keyed u) -> keyed (JObj o)
| k_arr : forall a, (forall u, In u a -> keyed u) -> keyed (JArr a)
| k_str : forall s, keyed (JStr s)
| k_num : forall n, keyed (JNum n)
| k_bln : forall b, keyed (JBln b)
| k_nll : keyed JNll.

(** Two paths part: neither continues the other. *)
Definition part (p q : list step) : Prop := exists c s t p' q', p = c ++ s :: p' /\ q = c ++ t :: q' /\ s <> t.

(** Every number in the value satisfies [P]. *)
Inductive numbers (P : num -> Prop) : jval -> Prop :=
| n_obj : forall o, (forall k u, In (k, u) o -> numbers P u) -> numbers P (JObj o)
| n_arr : forall a, (forall u, In u a -> numbers P u) -> numbers P (JArr a)
| n_str : forall s, numbers P (JStr s)
| n_num : forall n, P n -> numbers P (JNum n)
| n_bln : forall b, numbers P (JBln b)
| n_nll : numbers P JNll.
(** A whole number up to 2^53 in any of the three representations. *)
Definition whole_number (n : num) : Prop := exists z, holds z n /\ (Z.abs z <= 2 ^ 53)%Z.
Definition not_unsigned (n : num) : Prop := forall z, n <> NU z.
Definition not_real (n : num) : Prop := forall f, n <> NR f.

(** The same data: same kinds, equal numbers, arrays position by position, objects key by key. *)
Inductive alike : jval -> jval -> Prop :=
| a_obj : forall o p, (forall k, In k (map fst o) <-> In k (map fst p)) ->
    (forall k u w, In (k, u) o -> In (k, w) p -> alike u w) -> alike (JObj o) (JObj p)
| a_arr : forall a b, length a = length b ->
    (forall i u w, nth_error a i = Some u -> nth_error b i = Some w -> alike u w) -> alike (JArr a) (JArr b)
| a_str : forall s, alike (JStr s) (JStr s)
| a_num : forall z m n, (Z.abs z <= 2 ^ 53)%Z -> holds z m -> holds z n -> alike (JNum m) (JNum n)
| a_bln : forall b, alike (JBln b) (JBln b)
| a_nll : alike JNll JNll.
