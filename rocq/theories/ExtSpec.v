(** What is asked of the constants of an extended generator, and sequences of draws. *)
From Coq Require Import ZArith Bool List.
From Verif Require Import Common PcgSpec PermSpec PcgModel PermModel ExtModel.
Import ListNotations.
Local Open Scope Z_scope.

(** Any base generator of C88 and any table generator of C94 with 32 or 64 bits; the results of the base have the
    bits of the table entries; the table is addressed by bits that the state has. *)
Definition sound (p : params) : Prop :=
  32 <= w p /\ good (is_mcg p) (m p) (c p) /\ 0 <= m p < 2 ^ w p /\ 0 <= c p < 2 ^ w p /\
  (forall s, 0 <= s < 2 ^ w p -> 0 <= output p s < 2 ^ xb p) /\
  (xb p = 32 \/ xb p = 64) /\ (exists op last, In (xb p, op, last, om p) rxs_sizes) /\ In (xb p, om p, ou p) multipliers /\
  good false (em p) (ec p) /\ 0 <= em p < 2 ^ xb p /\ 0 <= ec p < 2 ^ xb p /\
  0 <= table_pow2 p /\ table_pow2 p + (if is_mcg p then 2 else 0) <= w p /\
  2 <= advance_pow2 p /\ (may_tick p = true -> advance_pow2 p + (if is_mcg p then 2 else 0) < w p).
(** A table: 2^table_pow2 numbers of [xb] bits. *)
Definition entry (p : params) (x : Z) : Prop := 0 <= x < 2 ^ xb p.
Definition table (p : params) (t : list Z) : Prop := Z.of_nat (length t) = 2 ^ table_pow2 p /\ Forall (entry p) t.
Definition ready (p : params) (g : gen) : Prop := state (w p) (is_mcg p) (fst g) /\ table p (snd g).

(** [n] numbers drawn one after the other. *)
Fixpoint draws (p : params) (n : nat) (g : gen) : outcome (gen * list Z) :=
  match n with
  | O => Ok (g, [])
  | S n => obind (draw p g) (fun '(g, r) => obind (draws p n g) (fun '(g, rs) => Ok (g, r :: rs)))
  end.
(** The generator returns to where it was after [n] draws. *)
Definition returns (p : params) (n : Z) (g : gen) : Prop := exists rs, draws p (Z.to_nat n) g = Ok (g, rs).
(** The logarithm of the true period. *)
Definition true_period_pow2 (p : params) : Z :=
  let base := w p - (if is_mcg p then 2 else 0) in
  if may_tock p then base + xb p * 2 ^ table_pow2 p
  else if may_tick p then Z.max base (advance_pow2 p + xb p * 2 ^ table_pow2 p)
  else base.
(** The states at which the table is turned over (for the generators with [kdd]). *)
Definition turnover (p : params) (s : Z) : Prop := (s / (if is_mcg p then 4 else 1)) mod 2 ^ advance_pow2 p = 0.
(** The numbers entry number [i] (from 0) of the table goes through, from 0 on. *)
Definition entry_sequence (p : params) (i k : Z) : outcome Z :=
  rxs_m_xs (om p) (xb p) (xb p) (after (xb p) (em p) ((ec p + 2 * (i + 1)) mod 2 ^ xb p) k 0).
(** The table turned once: every entry moves on by one in its sequence, and by one more if the one before passed 0. *)
Fixpoint turned (p : params) (i carry : Z) (t t' : list Z) : Prop :=
  match t, t' with
  | [], [] => True
  | x :: t, x' :: t' => exists k, 0 <= k < 2 ^ xb p /\ entry_sequence p i k = Ok x /\
      entry_sequence p i ((k + 1 + carry) mod 2 ^ xb p) = Ok x' /\ turned p (i + 1) ((k + 1 + carry) / 2 ^ xb p) t t'
  | _, _ => False
  end.
(** The entry of the table used in a state, and when the table is turned: by the low bits with [kdd], else by the high ones. *)
Definition slot (p : params) (s : Z) : Z :=
  if kdd p then (s / (if is_mcg p then 4 else 1)) mod 2 ^ table_pow2 p else s / 2 ^ (w p - table_pow2 p).
Definition turns (p : params) (s : Z) : Prop := may_tick p = true /\ if kdd p then turnover p s else s / 2 ^ (w p - advance_pow2 p) = 0.
Definition turns_again (p : params) (s : Z) : Prop := may_tock p = true /\ s / (if kdd p && is_mcg p then 4 else 1) = 0.
(** The generators with names; [i] is the increment of those with settable streams. *)
Definition named32 (i : Z) : list params :=
  [pcg32_k2 i; pcg32_k2_fast; pcg32_k64 i; pcg32_k64_oneseq; pcg32_k64_fast; pcg32_c64 i; pcg32_c64_oneseq; pcg32_c64_fast;
   pcg32_k1024 i; pcg32_k1024_fast; pcg32_c1024 i; pcg32_c1024_fast; pcg32_k16384 i; pcg32_k16384_fast].
Definition named64 (i : Z) : list params :=
  [pcg64_k32 i; pcg64_k32_oneseq; pcg64_k32_fast; pcg64_c32 i; pcg64_c32_oneseq; pcg64_c32_fast;
   pcg64_k1024 i; pcg64_k1024_fast; pcg64_c1024 i; pcg64_c1024_fast].
