(** What may be expected of a loop over a manager whose body uses the manager. *)
From Coq Require Import Arith Bool List.
From Verif Require Import Common ReMgrModel ReMgrSpec IterModel.
Import ListNotations.

(** The number of objects created, and of uses of [t], in a body. *)
Definition news (l : list vact) : nat := length (filter (fun a => match a with VNew => true | _ => false end) l).
Definition uses (l : list vact) : nat := length (filter (fun a => match a with VUse => true | _ => false end) l).
(** [m] slots: [c], tripled until [n] objects have room. *)
Definition room (c n m : nat) : Prop := exists k, m = c * 3 ^ k /\ n <= m /\ forall j, j < k -> c * 3 ^ j < n.
(** Nothing but creating, deleting objects that are there, and using [t]. *)
Definition mild (s : st) (l : list vact) : Prop := forall a, In a l -> a = VNew \/ a = VUse \/ exists k, a = VDel k /\ exists_in s k.
(** Of the objects [L] visited one after the other: at every use of [t] the objects created since [t] was bound had room
    in the slots there were when it was bound. *)
Definition fits (body : nat -> list vact) (s : st) (L : list nat) : Prop :=
  forall L1 id L2, L = L1 ++ id :: L2 -> forall A B, body id = A ++ VUse :: B ->
  forall m, room (cap s) (next s + news (flat_map body L1)) m -> next s + news (flat_map body L1) + news A <= m.
(** What such a loop leaves behind. *)
Definition after_loop (body : nat -> list vact) (s : st) (L : list nat) (s' : st) : Prop :=
  let n := news (flat_map body L) in
  listed s' = listed s ++ seq (length (objs s)) n /\ length (objs s') = length (objs s) + n /\ shown s' = shown s /\ log s' = log s /\
  room (cap s) (next s + n) (cap s') /\
  (forall k, length (objs s) <= k -> k < length (objs s') -> living s' k) /\
  (forall k, k < length (objs s) -> nth_error (objs s') k =
     if existsb (fun id => existsb (fun a => match a with VDel j => j =? k | _ => false end) (body id)) L then Some (There false) else nth_error (objs s) k).
(** Timelines created in one round, by the updates of [L]. *)
Definition spawned (upd : nat -> nat -> nat * bool) (tick : nat) (L : list nat) : nat := list_sum (map (fun id => fst (upd id tick)) L).
