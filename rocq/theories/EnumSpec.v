(** What an enum definition means. *)
From Coq Require Import String Ascii ZArith NArith Arith Bool List.
From Verif Require Import Common EnumModel.
Import ListNotations.
Local Open Scope Z_scope.

(** The elements in the order given: names with their values, or names numbered from 0. *)
Definition elements (d : definition) : list (bytes * Z) :=
  match d with
  | Vals l => l
  | Defs l => combine l (map Z.of_nat (seq 0 (length l)))
  end.
(** Definitions the compiler accepts, for an underlying type with values from [lo] to [hi]. *)
Definition acceptable (lo hi : Z) (d : definition) : Prop :=
  elements d <> [] /\ NoDup (map fst (elements d)) /\ NoDup (map snd (elements d)) /\
  Forall (fun e => lo <= snd e <= hi) (elements d).
