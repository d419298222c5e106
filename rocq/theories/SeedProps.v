(** C100: generators seeded from a source of 32-bit words. *)
From Coq Require Import String ZArith Arith Bool Lia List.
From Verif Require Import Common PcgModel PcgSpec SeedModel SeedSpec SeedProofs SeedEngProofs SeedTopProofs.
Import ListNotations.
Local Open Scope Z_scope.

(** C100. Numbers of 1, 2, 4, 8 or 16 bytes: the source is asked once, for the fewest words holding that many bytes, and the
    numbers are those bytes of the words in order. *)
Theorem C100_words : forall Q (fill : Q -> nat -> Q * list Z), (forall q n, numbers 4 n (snd (fill q n))) ->
  forall D size q, In D [1; 2; 4; 8; 16]%nat -> exists n dest, words_for (size * D) n /\
  generate_to fill (Z.of_nat D) size q = Ok (fst (fill q n), dest) /\ numbers D size dest /\
  memory D dest = firstn (size * D) (memory 4 (snd (fill q n))).
Proof. exact @generate_ok. Qed.
Print Assumptions C100_words.
(** C100. A generator with a fixed increment: the words joined, lowest first, are the number it is seeded with. *)
Theorem C100_engine : forall Q (fill : Q -> nat -> Q * list Z), (forall q n, numbers 4 n (snd (fill q n))) ->
  forall w (mcg : bool) m c q n, In w sizes -> (w = 16 -> m < 2 ^ 15) -> 0 <= m < 2 ^ w -> 0 <= c < 2 ^ w -> words_for (Z.to_nat (w / 8)) n ->
  let x := joined (snd (fill q n)) mod 2 ^ w in
  engine_seed fill w mcg m c q = Ok (fst (fill q n), if mcg then x / 4 * 4 + 3 else ((x + c) * m + c) mod 2 ^ w).
Proof. exact @engine_ok. Qed.
Print Assumptions C100_engine.
(** C100. A generator with a settable increment asks the source twice for the words of two numbers: the increment is made from
    the low number of one answer, the state from the high number of the other. *)
Theorem C100_stream : forall Q (fill : Q -> nat -> Q * list Z), (forall q n, numbers 4 n (snd (fill q n))) ->
  forall (stream_first : bool) w m q n, In w sizes -> (w = 16 -> m < 2 ^ 15) -> 0 <= m < 2 ^ w -> words_for (2 * Z.to_nat (w / 8)) n ->
  let first := fill q n in let second := fill (fst first) n in
  let x := joined (snd (if stream_first then second else first)) / 2 ^ w mod 2 ^ w in
  let y := joined (snd (if stream_first then first else second)) mod 2 ^ w in
  let c := (2 * y + 1) mod 2 ^ w in
  engine_seed_stream fill stream_first w m q = Ok (fst second, (c, ((x + c) * m + c) mod 2 ^ w)).
Proof. exact @stream_ok. Qed.
Print Assumptions C100_stream.
(** C100. A source that answers the same each time gives the same generator whichever number the compiler makes first ... *)
Theorem C100_repeatable : forall Q (fill : Q -> nat -> Q * list Z) w m q, (forall q n, numbers 4 n (snd (fill q n))) -> (forall q n, fst (fill q n) = q) ->
  In w sizes -> (w = 16 -> m < 2 ^ 15) -> 0 <= m < 2 ^ w -> engine_seed_stream fill true w m q = engine_seed_stream fill false w m q.
Proof. exact repeatable. Qed.
Print Assumptions C100_repeatable.
(** C100. ... one that draws fresh words, such as the system's random numbers wrapped by the library, does not: the code does not
    say which generator is made. *)
Theorem C100_order_refuted : exists (rng : Z -> Z * Z) q a b,
  engine_seed_stream (draw_words rng) true 64 6364136223846793005 q = Ok a /\
  engine_seed_stream (draw_words rng) false 64 6364136223846793005 q = Ok b /\ fst a = fst b /\ snd a <> snd b.
Proof.
  exists (fun q => (q + 1, q)), 0. vm_compute. eexists. eexists. split; [reflexivity|]. split; [reflexivity|]. split; [reflexivity|discriminate].
Qed.
Print Assumptions C100_order_refuted.
(** C100. Every state of a generator with an increment is reached from exactly one list of words ... *)
Theorem C100_once : forall w m c t, In w big_sizes -> Z.odd m = true -> 0 <= m < 2 ^ w -> 0 <= c < 2 ^ w -> 0 <= t < 2 ^ w ->
  exists l, (numbers 4 (Z.to_nat (w / 32)) l /\ engine_seed (given l) w false m c tt = Ok (tt, t)) /\
    forall l', numbers 4 (Z.to_nat (w / 32)) l' -> engine_seed (given l') w false m c tt = Ok (tt, t) -> l' = l.
Proof. exact lcg_once. Qed.
Print Assumptions C100_once.
(** C100. ... and without one, from exactly four. *)
Theorem C100_four : forall w m t, In w big_sizes -> 0 <= m < 2 ^ w -> state w true t ->
  exists ls, NoDup ls /\ length ls = 4%nat /\ forall l, In l ls <-> numbers 4 (Z.to_nat (w / 32)) l /\ engine_seed (given l) w true m 0 tt = Ok (tt, t).
Proof. exact mcg_four. Qed.
Print Assumptions C100_four.
(** C100. A wrapped generator is asked for each word once, in order, and its numbers are cut to 32 bits. *)
Theorem C100_draws : forall R (rng : R -> R * Z) n r, draw_words rng r n =
  (Nat.iter n (fun r => fst (rng r)) r, map (fun i => snd (rng (Nat.iter i (fun r => fst (rng r)) r)) mod 2 ^ 32) (seq 0 n)).
Proof. exact draws_are. Qed.
Print Assumptions C100_draws.
(** C100. The engine of the library takes two numbers of the system: the low half of the state, with its two low bits set, then
    the high half. *)
Theorem C100_library : forall R (rng : R -> R * Z) r, let '(r1, a) := rng r in let '(r2, b) := rng r1 in
  library_engine rng r = Ok (r2, (a mod 2 ^ 32 + 2 ^ 32 * (b mod 2 ^ 32)) / 4 * 4 + 3).
Proof. exact library_ok. Qed.
Print Assumptions C100_library.
(** C100. An extended generator seeds its base first, and the source as that leaves it fills the table. *)
Theorem C100_extended : forall Q B (fill : Q -> nat -> Q * list Z) (base : Q -> outcome (Q * B)) D size q q1 b, (forall q n, numbers 4 n (snd (fill q n))) ->
  In D [1; 2; 4; 8; 16]%nat -> base q = Ok (q1, b) -> exists n data, words_for (size * D) n /\
  extended_seed fill base (Z.of_nat D) size q = Ok (fst (fill q1 n), (b, data)) /\ numbers D size data /\ memory D data = firstn (size * D) (memory 4 (snd (fill q1 n))).
Proof. exact extended_ok. Qed.
Print Assumptions C100_extended.

(** Bytes 04 03 02 01 08 07 as three 16-bit numbers; two words as one 64-bit number. *)
Example words_case : generate_to (given [0x01020304; 0x05060708]) 2 3 tt = Ok (tt, [0x0304; 0x0102; 0x0708]) /\
  generate_to (given [0x01020304; 0x05060708]) 8 1 tt = Ok (tt, [0x0506070801020304]) /\
  words_for (3 * 2) 2 /\ numbers 2 3 [0x0304; 0x0102; 0x0708].
Proof.
  split; [reflexivity|]. split; [reflexivity|]. split; [vm_compute; lia|]. split; [reflexivity|]. repeat apply Forall_cons; try (apply Forall_nil); vm_compute; split; congruence.
Qed.
Example engine_case : engine_seed (given [7; 1]) 64 true 6364136223846793005 0 tt = Ok (tt, 2 ^ 32 + 7) /\
  engine_seed (given [7; 1]) 64 false 5 1 tt = Ok (tt, (2 ^ 32 + 8) * 5 + 1) /\ words_for (Z.to_nat (64 / 8)) 2.
Proof. split; [reflexivity|]. split; [reflexivity|]. vm_compute. lia. Qed.
Example stream_case : engine_seed_stream (given [3; 0; 10; 0]) true 64 5 tt = Ok (tt, (7, (10 + 7) * 5 + 7)).
Proof. reflexivity. Qed.
Example library_case : library_engine (fun q : Z => (q + 1, q)) 4 = Ok (6, 7 + 2 ^ 32 * 5).
Proof. reflexivity. Qed.
