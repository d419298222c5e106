(** Model of seeding generators from seed sequences: include/SSVUtils/Internal/PCG/pcg_extras.hpp:361-521, 553-590 and the
    constructors of pcg_random.hpp:497-521, 1329-1338.  A seed sequence is any function [fill q n] that writes [n] numbers of
    32 bits.  Sizes of types are given in bytes.  Not modelled: a failing allocation of the buffer (492). *)
From Coq Require Import String ZArith Arith Bool List.
From Verif Require Import Common PcgModel.
Import ListNotations.
Local Open Scope Z_scope.
Local Notation "'let!' x := e 'in' f" := (obind e (fun x => f)) (at level 200, x pattern, e at level 100, f at level 200, right associativity).

(** pcg_extras.hpp:386-412 [uneven_copy_impl] for destinations smaller than the source; reading beyond the source is
    undefined. *)
Fixpoint copy_small (D : Z) (size : nat) (count : Z) (value : Z) (src : list Z) : outcome (list Z) :=
  match size with
  | O => Ok []
  | S size =>
      let SCALE := 4 / D in
      let! (value, src) :=
        (if count mod SCALE =? 0 then match src with x :: src => Ok (x, src) | [] => UB end
         else Ok (Z.shiftr value (8 * D), src)) in
      let! rest := copy_small D size (count + 1) value src in
      Ok (value mod 2 ^ (8 * D) :: rest)
  end.
(** 415-443: for others. *)
Fixpoint gather (D : Z) (n : nat) (value shift : Z) (src : list Z) : outcome (Z * list Z) :=
  match n with
  | O => Ok (value, src)
  | S n => match src with
           | x :: src => gather D n (Z.lor value (Z.shiftl x shift mod 2 ^ (8 * D))) (shift + 32) src
           | [] => UB
           end
  end.
Fixpoint copy_large (D : Z) (size : nat) (src : list Z) : outcome (list Z) :=
  match size with
  | O => Ok []
  | S size =>
      let SCALE := (D + 4 - 1) / 4 in
      let! (value, src) := gather D (Z.to_nat SCALE) 0 0 src in
      let! rest := copy_large D size src in
      Ok (value :: rest)
  end.
(** 445-458 [uneven_copy]. *)
Definition uneven_copy (D : Z) (size : nat) (src : list Z) : outcome (list Z) :=
  if D <? 4 then copy_small D size 0 0 src else copy_large D size src.

Section SEQ.
Context {Q : Type} (fill : Q -> nat -> Q * list Z).

(** 478-484. *)
Definition from_elems (D : Z) (size : nat) : nat :=
  Z.to_nat (if 4 <? D then Z.of_nat size * ((D + 4 - 1) / 4) else (Z.of_nat size + 4 / D - 1) / (4 / D + 0)).
(** 460-508 [generate_to]. *)
Definition generate_to (D : Z) (size : nat) (q : Q) : outcome (Q * list Z) :=
  if D =? 4 then Ok (fill q size)
  else let '(q, buffer) := fill q (from_elems D size) in
       let! dest := uneven_copy D size buffer in Ok (q, dest).
(** 510-521 [generate_one]. *)
Definition generate_one (D : Z) (i N : nat) (q : Q) : outcome (Q * Z) :=
  let! (q, result) := generate_to D N q in
  match nth_error result i with Some x => Ok (q, x) | None => UB end.

(** pcg_random.hpp:497-507: without a settable stream. *)
Definition engine_seed (w : Z) (is_mcg : bool) (m c : Z) (q : Q) : outcome (Q * Z) :=
  let! (q, x) := generate_one (w / 8) 0 1 q in
  let! s := construct w is_mcg m c x in Ok (q, s).
(** 509-519: with one: the increment and the state. The compiler chooses which number is made first; [stream_first]: that of the
    stream. *)
Definition engine_seed_stream (stream_first : bool) (w m : Z) (q : Q) : outcome (Q * (Z * Z)) :=
  let! (q, state, stream) :=
    (if stream_first then
       let! (q, stream) := generate_one (w / 8) 0 2 q in
       let! (q, state) := generate_one (w / 8) 1 2 q in Ok (q, state, stream)
     else
       let! (q, state) := generate_one (w / 8) 1 2 q in
       let! (q, stream) := generate_one (w / 8) 0 2 q in Ok (q, state, stream)) in
  let c := stream_increment w stream in
  let! s := construct w false m c state in Ok (q, (c, s)).
(** 1329-1338: an extended generator is seeded by its base, then its table. *)
Definition extended_seed {B} (base : Q -> outcome (Q * B)) (D : Z) (table_size : nat) (q : Q) : outcome (Q * (B * list Z)) :=
  let! (q, b) := base q in
  let! (q, data) := generate_to D table_size q in Ok (q, (b, data)).
End SEQ.

(** pcg_extras.hpp:566-584 [seed_seq_from]: the numbers of a generator, converted to 32 bits. *)
Fixpoint draw_words {R} (rng : R -> R * Z) (r : R) (n : nat) : R * list Z :=
  match n with
  | O => (r, [])
  | S n => let '(r, x) := rng r in let '(r, l) := draw_words rng r n in (r, x mod 2 ^ 32 :: l)
  end.
(** Core/Utils/Rnd.hpp:19-23: the engine of the library, seeded from the system's source. *)
Definition library_engine {R} (rng : R -> R * Z) (r : R) : outcome (R * Z) := engine_seed (draw_words rng) 64 true fast_mult 0 r.
