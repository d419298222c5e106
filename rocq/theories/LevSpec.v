(** Edit distance: single-character edits and chains of them. *)
From Coq Require Import String Ascii ZArith NArith Arith Bool Lia List.
From Verif Require Import Common.
Import ListNotations.

(** One insertion, deletion or substitution anywhere in the string. *)
Inductive edit : bytes -> bytes -> Prop :=
| edit_ins : forall p c q, edit (p ++ q) (p ++ c :: q)
| edit_del : forall p c q, edit (p ++ c :: q) (p ++ q)
| edit_sub : forall p c d q, edit (p ++ c :: q) (p ++ d :: q).

(** [edits k a b]: [k] edits in a row turn [a] into [b]. *)
Inductive edits : nat -> bytes -> bytes -> Prop :=
| edits_nil : forall a, edits 0 a a
| edits_cons : forall k a b c, edit a b -> edits k b c -> edits (S k) a c.
