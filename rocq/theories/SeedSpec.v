(** Bytes of numbers in memory, lowest first, and numbers made of words; nothing of the model. *)
From Coq Require Import ZArith Arith Bool List.
Import ListNotations.
Local Open Scope Z_scope.

(** The [D] bytes of a number. *)
Definition bytes_of (D : nat) (x : Z) : list Z := map (fun i => x / 256 ^ Z.of_nat i mod 256) (seq 0 D).
Definition memory (D : nat) (l : list Z) : list Z := flat_map (bytes_of D) l.
(** [l] consists of [n] numbers of [D] bytes. *)
Definition numbers (D : nat) (n : nat) (l : list Z) : Prop := length l = n /\ Forall (fun x => 0 <= x < 256 ^ Z.of_nat D) l.
(** The number whose digits in base 2^32 are the words, the lowest first. *)
Fixpoint joined (l : list Z) : Z := match l with [] => 0 | x :: l => x + 2 ^ 32 * joined l end.
(** [n] is the number of 4-byte words needed for [b] bytes. *)
Definition words_for (b n : nat) : Prop := (b <= 4 * n < b + 4)%nat.
(** A source that delivers [l], then zeros, from the start each time it is asked. *)
Definition given (l : list Z) : unit -> nat -> unit * list Z := fun q n => (q, firstn n (l ++ repeat 0 n)).
(** Sizes of states, in bits. *)
Definition sizes : list Z := [8; 16; 32; 64; 128].
Definition big_sizes : list Z := [32; 64; 128].
