(** What may be expected of a manager whose objects use it. *)
From Coq Require Import Arith Bool List.
From Verif Require Import Common ReMgrModel.
Import ListNotations.

(** The objects in the manager, in order: those of the used slots. *)
Definition listed (s : st) : list nat :=
  flat_map (fun x => match x with Some id => [id] | None => [] end) (firstn (next s) (slots s)).
Definition deleted (s : st) (id : nat) : Prop := nth_error (objs s) id = Some (There false).
Definition living (s : st) (id : nat) : Prop := nth_error (objs s) id = Some (There true).
Definition exists_in (s : st) (id : nat) : Prop := exists f, nth_error (objs s) id = Some (There f).

(** [k] is deleted somewhere in the actions [l]. *)
Inductive deletes (k : nat) : act -> Prop :=
| deletes_here : deletes k (ADel k)
| deletes_in : forall a l, In a l -> deletes k a -> deletes k (ANew l).
Definition deletes_one_of (k : nat) (l : list act) : Prop := exists a, In a l /\ deletes k a.
Definition only_deletes (l : list act) : Prop := forall a, In a l -> exists k, a = ADel k.
Definition creates (l : list act) : Prop := exists m, In (ANew m) l.

(** Numbers of the objects created by [ANew l], in the order in which they get their slots, when [n] is the next
    number: an object comes after those its constructor creates. *)
Fixpoint born (a : act) (n : nat) : list nat * nat :=
  match a with
  | ADel _ => ([], n)
  | ANew l =>
      let r := (fix go (l : list act) (n : nat) : list nat * nat :=
        match l with [] => ([], n) | b :: l' => let (x, n') := born b n in let (y, n'') := go l' n' in (x ++ y, n'') end) l (S n) in
      (fst r ++ [n], snd r)
  end.

Section Run.
Variable script : nat -> list act.
(** Every object deleted by a destructor is deleted by that destructor alone, and still in use while its owner is. *)
Definition owned_once (s : st) : Prop :=
  (forall i j k, In (ADel k) (script i) -> In (ADel k) (script j) -> i = j) /\
  (forall i k, In i (listed s) -> In (ADel k) (script i) -> k = i \/ living s k).
(** Objects that are deleted, or that the destructor of a doomed object deletes. *)
Inductive doomed (s : st) : nat -> Prop :=
| doomed_now : forall id, In id (listed s) -> deleted s id -> doomed s id
| doomed_then : forall id k, doomed s id -> deletes_one_of k (script id) -> In k (listed s) -> doomed s k.
Fixpoint refreshes (n : nat) (s : st) : outcome st :=
  match n with O => Ok s | S n => obind (refresh script false s) (refreshes n) end.
End Run.
