(** The sequence of states of a generator, and what is asked of its constants. *)
From Coq Require Import ZArith Bool List.
From Verif Require Import Common.
Import ListNotations.
Local Open Scope Z_scope.

(** One step, and any number of steps. *)
Definition one_step (w m c s : Z) : Z := (s * m + c) mod 2 ^ w.
Definition after (w m c n s : Z) : Z := Nat.iter (Z.to_nat n) (one_step w m c) s.

(** State types computed with without undefined overflow. *)
Definition wide (w : Z) : Prop := w = 8 \/ 32 <= w.
(** Constants of the two kinds: with an increment (odd), or without. *)
Definition good (is_mcg : bool) (m c : Z) : Prop :=
  if is_mcg then m mod 8 = 5 /\ c = 0 else m mod 4 = 1 /\ c mod 2 = 1.
(** States: without an increment the two low bits are 1. *)
Definition state (w : Z) (is_mcg : bool) (s : Z) : Prop :=
  0 <= s < 2 ^ w /\ (is_mcg = true -> s mod 4 = 3).
(** The output function of the 32-bit generators with 64 bits of state, as published: the state is mixed
    with itself moved down by 22 bits; 32 bits of that, from bit 22 plus the number in the three top bits. *)
Definition out32 (s : Z) : Z := Z.lxor s (s / 2 ^ 22) / 2 ^ (22 + s / 2 ^ 61) mod 2 ^ 32.
(** Length of the sequence until it repeats. *)
Definition period (w : Z) (is_mcg : bool) : Z := if is_mcg then 2 ^ (w - 2) else 2 ^ w.

(** Numbers drawn for a list of [n] elements: below n, then below n - 1, ..., then below 2. *)
Fixpoint draws_ok (n : nat) (cs : list Z) : Prop :=
  match n with
  | O | S O => cs = []
  | S n' => match cs with [] => False | c :: cs => 0 <= c < Z.of_nat n /\ draws_ok n' cs end
  end.
(** Each number drawn says which of the first n elements goes to the n-th place, in exchange with the
    one there. *)
Definition put {A} (l : list A) (i : nat) (x : A) : list A := firstn i l ++ x :: skipn (S i) l.
Definition exchange {A} (d : A) (l : list A) (i j : nat) : list A := put (put l i (nth j l d)) j (nth i l d).
Fixpoint arrange {A} (d : A) (n : nat) (cs : list Z) (l : list A) : list A :=
  match n with
  | O | S O => l
  | S n' => match cs with [] => l | c :: cs => arrange d n' cs (exchange d l (Z.to_nat c) n') end
  end.
(** The numbers come one after the other from a source [draw bound]. *)
Fixpoint drawn {R} (draw : Z -> R -> outcome (R * Z)) (n : nat) (r : R) (cs : list Z) (r' : R) : Prop :=
  match n with
  | O | S O => cs = [] /\ r' = r
  | S n' => match cs with
            | [] => False
            | c :: cs => exists r1, draw (Z.of_nat n) r = Ok (r1, c) /\ drawn draw n' r1 cs r'
            end
  end.
