(** Occurrences, replacement and splitting, stated on strings without reference to the code. *)
From Coq Require Import String Ascii ZArith NArith Arith Bool Lia List.
From Verif Require Import Common.
Import ListNotations.

(** [x] occurs in [s]. *)
Definition occurs (x s : bytes) : Prop := exists p q, s = p ++ x ++ q.

(** [s = p ++ x ++ q] is the leftmost occurrence of [x] in [s]. *)
Definition leftmost (x s p q : bytes) : Prop :=
  s = p ++ x ++ q /\ forall p' q', s = p' ++ x ++ q' -> length p <= length p'.

(** Left-to-right replacement of non-overlapping occurrences. *)
Inductive replaced (from to : bytes) : bytes -> bytes -> Prop :=
| replaced_none : forall s, ~ occurs from s -> replaced from to s s
| replaced_some : forall s p q r, leftmost from s p q -> replaced from to q r ->
    replaced from to s (p ++ to ++ r).

(** [pieces sep s ps]: cutting [s] at successive leftmost occurrences of [sep] gives [ps]. *)
Inductive pieces (sep : bytes) : bytes -> list bytes -> Prop :=
| pieces_last : forall s, ~ occurs sep s -> pieces sep s [s]
| pieces_cut : forall s p q ps, leftmost sep s p q -> pieces sep q ps -> pieces sep s (p :: ps).

(** Joining with a separator. *)
Fixpoint join (sep : bytes) (ps : list bytes) : bytes :=
  match ps with
  | [] => []
  | [p] => p
  | p :: r => p ++ sep ++ join sep r
  end.

(** The earliest separator of a list: at the earliest position where any separator occurs; among
    those occurring there, the first of the list. *)
Definition earliest (seps : list bytes) (s p sep q : bytes) : Prop :=
  s = p ++ sep ++ q /\
  (forall x p' q', In x seps -> s = p' ++ x ++ q' -> length p <= length p') /\
  exists before after, seps = before ++ sep :: after /\
    forall x q', In x before -> s <> p ++ x ++ q'.

(** [cuts seps s l last]: pieces with the separator that ended them, and the last piece. *)
Inductive cuts (seps : list bytes) : bytes -> list (bytes * bytes) -> bytes -> Prop :=
| cuts_last : forall s, (forall x, In x seps -> ~ occurs x s) -> cuts seps s [] s
| cuts_cut : forall s p sep q l last, earliest seps s p sep q -> cuts seps q l last ->
    cuts seps s ((p, sep) :: l) last.

Definition nonempty (s : bytes) : bool := match s with [] => false | _ => true end.
