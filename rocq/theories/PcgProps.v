(** Properties C79, C88 and C89: fast-forwarding the random engines, the numbers the library's engine
    gives, and shuffling with it. *)
From Coq Require Import ZArith Bool List Permutation.
From Verif Require Import Common PcgModel PcgSpec PcgProofs PcgTopProofs PcgOutProofs PcgShufProofs.
Import ListNotations.
Local Open Scope Z_scope.

(** C79: advancing by n (and discarding n numbers) gives the state reached by n single steps, whatever
    the constants; state types of 8, 32, 64 and 128 bits. *)
Theorem C79_advance : forall w m c s n, wide w -> 0 <= m < 2 ^ w -> 0 <= c < 2 ^ w -> 0 <= s < 2 ^ w -> 0 <= n < 2 ^ w ->
  advance w m c s n = Ok (after w m c n s) /\ discard w m c s n = Ok (after w m c n s).
Proof. exact advance_top. Qed.
Print Assumptions C79_advance.
Example C79_advance_case : advance 64 6364136223846793005 1442695040888963407 42 1000000000000 = Ok 1621903161643487274 /\
  advance 64 6364136223846793005 1442695040888963407 42 3 = Ok (after 64 6364136223846793005 1442695040888963407 3 42).
Proof. split; vm_compute; reflexivity. Qed.

(** C79: stepping back by n undoes advancing by n, and the other way round. *)
Theorem C79_backstep : forall w mcg m c, wide w -> good mcg m c -> 0 <= m < 2 ^ w -> 0 <= c < 2 ^ w ->
  forall s n, state w mcg s -> 0 <= n < 2 ^ w ->
  obind (advance w m c s n) (fun t => backstep w m c t n) = Ok s /\ obind (backstep w m c s n) (fun t => advance w m c t n) = Ok s.
Proof. exact backstep_top. Qed.
Print Assumptions C79_backstep.
Example C79_backstep_case : backstep 64 fast_mult 0 3 5 = Ok 3023940811875268607 /\ advance 64 fast_mult 0 3023940811875268607 5 = Ok 3.
Proof. split; vm_compute; reflexivity. Qed.

(** C79: the sequence of states comes back to where it was exactly after every multiple of the period. *)
Theorem C79_period : forall w mcg m c, wide w -> good mcg m c -> 0 <= m < 2 ^ w -> 0 <= c < 2 ^ w ->
  forall n s, state w mcg s -> 0 <= n -> (after w m c n s = s <-> (period w mcg | n)).
Proof. intros w mcg m c W G _ _. exact (period_top w mcg m c W G). Qed.
Print Assumptions C79_period.
Example C79_period_case : after 8 141 77 256 5 = 5 /\ after 8 141 77 128 5 <> 5 /\ period 8 true = 64 /\ after 8 141 0 64 7 = 7.
Proof. repeat split; vm_compute; congruence. Qed.

(** C79: between any two states the distance is the number of steps from one to the other; the difference of
    two engines n steps apart is n (modulo the period). *)
Theorem C79_distance : forall w mcg m c, wide w -> good mcg m c -> 0 <= m < 2 ^ w -> 0 <= c < 2 ^ w ->
  forall s t, state w mcg s -> state w mcg t ->
  exists d, distance w mcg m c s t = Ok d /\ 0 <= d < period w mcg /\ after w m c d s = t.
Proof. exact distance_top. Qed.
Print Assumptions C79_distance.
Theorem C79_minus : forall w mcg m c, wide w -> good mcg m c -> 0 <= m < 2 ^ w -> 0 <= c < 2 ^ w ->
  forall s n k, state w mcg s -> 0 <= k -> 0 <= n ->
  minus w mcg m c (after w m c (n + k) s) (after w m c k s) = Ok (n mod period w mcg).
Proof. exact minus_top. Qed.
Print Assumptions C79_minus.
Example C79_minus_case : distance 64 true fast_mult 0 3 7 = Ok 3095231563296985441 /\ advance 64 fast_mult 0 3 3095231563296985441 = Ok 7 /\
  minus 32 false 747796405 2891336453 (after 32 747796405 2891336453 12 99) (after 32 747796405 2891336453 5 99) = Ok 7.
Proof. repeat split; vm_compute; reflexivity. Qed.

(** C79: an engine tells that it has wrapped at exactly one place of its period. *)
Theorem C79_wrapped : forall w mcg m c, wide w -> good mcg m c -> 0 <= m < 2 ^ w -> 0 <= c < 2 ^ w ->
  forall s, state w mcg s -> exists n, 0 <= n < period w mcg /\
  forall k, 0 <= k -> (wrapped mcg (after w m c k s) = true <-> k mod period w mcg = n).
Proof. exact wrapped_once. Qed.
Print Assumptions C79_wrapped.
Example C79_wrapped_case : wrapped true (after 8 141 0 9 (after 8 141 0 55 3)) = true /\ wrapped true (after 8 141 0 8 (after 8 141 0 55 3)) = false /\
  141 mod 8 = 5 /\ period 8 true = 64.
Proof. repeat split; vm_compute; reflexivity. Qed.

(** C79: all of this holds of the engines of the library: constructed states, built-in constants, chosen
    and unique streams; what is written can be read back. *)
Theorem C79_engines :
  (forall w m c, In (w, m, c) constants -> good false m c /\ good true m 0 /\ 0 <= m < 2 ^ w /\ 0 <= c < 2 ^ w) /\
  (forall w m x, 1 <= w -> m mod 4 = 1 ->
     good false m (stream_increment w x) /\ 0 <= stream_increment w x < 2 ^ w /\
     (0 <= x -> good false m (unique_increment w x) /\ 0 <= unique_increment w x < 2 ^ w)) /\
  (forall w mcg m c, wide w -> good mcg m c -> 0 <= m < 2 ^ w -> 0 <= c < 2 ^ w ->
     forall s, 0 <= s < 2 ^ w -> exists t, construct w mcg m c s = Ok t /\ state w mcg t) /\
  (forall w m c can s, 1 <= w -> 0 <= c < 2 ^ w -> (can = true -> c mod 2 = 1) ->
     load w m c can (save m c s) = Some (c, s) /\
     forall m' c' s', m' <> m \/ (can = false /\ c' <> c) -> load w m c can (m', c', s') = None).
Proof. exact (conj constants_ok (conj streams_ok (conj construct_top load_save))). Qed.
Print Assumptions C79_engines.
Example C79_engines_case : good false 747796405 (stream_increment 32 54) /\ construct 64 true fast_mult 0 256 = Ok 259.
Proof. repeat split. Qed.

(** C79 fails: engines with a 16-bit state overflow int when advanced or subtracted. *)
Theorem C79_narrow_refuted : exists m c s n t, In (16, m, c) constants /\ 0 <= s < 2 ^ 16 /\ 0 <= n < 2 ^ 16 /\ 0 <= t < 2 ^ 16 /\
  advance 16 m c s n = UB /\ minus 16 false m c t s = UB.
Proof. exists 12829, 47989, 1, 1000, 4. repeat split; try discriminate; [right; left; reflexivity|vm_compute; reflexivity..]. Qed.
Print Assumptions C79_narrow_refuted.
(** C79 fails: reading an engine without increment accepts states outside its sequence; the difference
    with an ordinary engine then never comes out. *)
Theorem C79_read_state_refuted : exists x s, load 64 fast_mult 0 false x = Some (0, s) /\ state 64 true 3 /\
  forall fuel d, distance_fuel 64 true fast_mult 0 fuel 3 s <> Ok d.
Proof.
  exists (fast_mult, 0, 4), 4. split; [reflexivity|]. split; [repeat split; discriminate|].
  intros fuel d. exact (distance_never 64 fast_mult ltac:(discriminate) eq_refl fuel 3 4 ltac:(discriminate) d).
Qed.
Print Assumptions C79_read_state_refuted.

(** C88: over one period, from any state on, the library's engine gives every 32-bit number equally often:
    [f] numbers the 2^30 places of each. *)
Theorem C88_equally_often : forall s, state 64 true s ->
  exists f, (forall n, 0 <= n < 2 ^ 62 -> 0 <= out32 (after 64 fast_mult 0 n s) < 2 ^ 32 /\ 0 <= f n < 2 ^ 30) /\
  forall o k, 0 <= o < 2 ^ 32 -> 0 <= k < 2 ^ 30 ->
    exists n, (0 <= n < 2 ^ 62 /\ out32 (after 64 fast_mult 0 n s) = o /\ f n = k) /\
      forall n', 0 <= n' < 2 ^ 62 -> out32 (after 64 fast_mult 0 n' s) = o -> f n' = k -> n' = n.
Proof. exact fast_outputs_out. Qed.
Print Assumptions C88_equally_often.
(** C88: that number is what the engine returns, and the state moves on by one step. *)
Theorem C88_next : forall s, state 64 true s -> pcg32_fast s = Ok (after 64 fast_mult 0 1 s, out32 s).
Proof. exact fast_step_out. Qed.
Print Assumptions C88_next.
Example C88_next_case : pcg32_fast_seed 1 2 = Ok (2 ^ 33 + 3) /\ pcg32_fast (2 ^ 33 + 3) = Ok (11682578097156160903, 2048).
Proof. split; vm_compute; reflexivity. Qed.
(** C88: seeding with two 32-bit numbers gives a state of the sequence, made of both numbers but for the two low bits. *)
Theorem C88_seed : forall lo hi, 0 <= lo < 2 ^ 32 -> 0 <= hi < 2 ^ 32 ->
  pcg32_fast_seed lo hi = Ok ((lo + hi * 2 ^ 32) / 4 * 4 + 3) /\ state 64 true ((lo + hi * 2 ^ 32) / 4 * 4 + 3).
Proof. exact fast_seed. Qed.
Print Assumptions C88_seed.
(** C88: the same of the 64-bit engines with a stream: every number from 2^32 states. *)
Theorem C88_states : forall mcg, exists rank,
  (forall s, state 64 mcg s -> 0 <= out32 s < 2 ^ 32 /\ 0 <= rank s < if mcg then 2 ^ 30 else 2 ^ 32) /\
  forall o k, 0 <= o < 2 ^ 32 -> 0 <= k < (if mcg then 2 ^ 30 else 2 ^ 32) ->
    exists s, (state 64 mcg s /\ out32 s = o /\ rank s = k) /\
      forall t, state 64 mcg t -> out32 t = o -> rank t = k -> t = s.
Proof. exact uniform_out. Qed.
Print Assumptions C88_states.
(** C88: that is what the code computes for any 64-bit engine with this output function. *)
Theorem C88_output : forall m c mcg s, state 64 mcg s ->
  generate 64 m c true (xsh_rs 64 32) s = Ok (one_step 64 m c s, out32 s) /\
  generate 64 m c false (xsh_rs 64 32) s = Ok (one_step 64 m c s, out32 (one_step 64 m c s)).
Proof. exact generate_out. Qed.
Print Assumptions C88_output.

(** C88: a number below a bound is the first output not below 2^32 mod bound, reduced; one always comes. *)
Theorem C88_bounded : forall s b, state 64 true s -> 0 < b < 2 ^ 32 ->
  exists n, 0 <= n < 2 ^ 62 /\ (forall i, 0 <= i < n -> out32 (after 64 fast_mult 0 i s) < 2 ^ 32 mod b) /\
    2 ^ 32 mod b <= out32 (after 64 fast_mult 0 n s) /\
    forall fuel, n < Z.of_nat fuel ->
      bounded_rand pcg32_fast 32 fuel b s = Ok (after 64 fast_mult 0 (n + 1) s, out32 (after 64 fast_mult 0 n s) mod b).
Proof. exact fast_bounded_out. Qed.
Print Assumptions C88_bounded.
Example C88_bounded_case : bounded_rand pcg32_fast 32 1 10 (2 ^ 33 + 3) = Ok (11682578097156160903, 8) /\
  bounded_rand pcg32_fast 32 1 3000000000 (2 ^ 33 + 3) = OutOfFuel.
Proof. split; vm_compute; reflexivity. Qed.
(** C88: the outputs accepted give each number below the bound equally often. *)
Theorem C88_unbiased : forall M b, 0 < b <= M ->
  (forall x, M mod b <= x < M -> 0 <= (x - M mod b) / b < M / b) /\
  forall y j, 0 <= y < b -> 0 <= j < M / b ->
    exists x, (M mod b <= x < M /\ x mod b = y /\ (x - M mod b) / b = j) /\
      forall x', M mod b <= x' < M -> x' mod b = y -> (x' - M mod b) / b = j -> x' = x.
Proof. exact residues. Qed.
Print Assumptions C88_unbiased.

(** C89: shuffling draws numbers below n, n - 1, ..., 2 from the engine and arranges the elements
    accordingly; the result is a permutation, with any engine. *)
Theorem C89_draws : forall R A (d : A) (rng : R -> outcome (R * Z)) wx fuel l r r' l', Z.of_nat (length l) < 2 ^ wx ->
  shuffle rng wx fuel l r = Ok (r', l') ->
  exists cs, drawn (bounded_rand rng wx fuel) (length l) r cs r' /\ draws_ok (length l) cs /\ l' = arrange d (length l) cs l.
Proof. exact shuffle_draws. Qed.
Print Assumptions C89_draws.
Theorem C89_permutation : forall R A (rng : R -> outcome (R * Z)) wx fuel (l : list A) r r' l', Z.of_nat (length l) < 2 ^ wx ->
  shuffle rng wx fuel l r = Ok (r', l') -> Permutation l l'.
Proof. exact shuffle_permutes. Qed.
Print Assumptions C89_permutation.
(** C89: with the library's engine it always ends. *)
Theorem C89_ends : forall A (l : list A) s, state 64 true s -> Z.of_nat (length l) < 2 ^ 32 ->
  exists f0, forall fuel, (f0 <= fuel)%nat -> exists s' l', shuffle pcg32_fast 32 fuel l s = Ok (s', l') /\ state 64 true s'.
Proof. exact fast_shuffle. Qed.
Print Assumptions C89_ends.
(** C89: of different elements every order comes from exactly one way of drawing the numbers. *)
Theorem C89_every_order_once : forall A d (l l' : list A), NoDup l -> Permutation l l' ->
  exists cs, (draws_ok (length l) cs /\ arrange d (length l) cs l = l') /\
    forall cs', draws_ok (length l) cs' -> arrange d (length l) cs' l = l' -> cs' = cs.
Proof. exact shuffle_unbiased. Qed.
Print Assumptions C89_every_order_once.
Example C89_case : shuffle pcg32_fast 32 100 [10; 20; 30; 40; 50] (2 ^ 33 + 3) = Ok (1643018696821062195, [30; 20; 50; 10; 40]) /\
  draws_ok 4 [1; 2; 0] /\ arrange 0 4 [1; 2; 0] [10; 20; 30; 40] = [40; 10; 30; 20].
Proof. split; [vm_compute; reflexivity|]. split; [cbn; repeat split; (discriminate || reflexivity)|reflexivity]. Qed.
(** C89 fails: the number of elements is converted to the engine's result type; if that makes it 0 (2^32
    elements with the library's engine) the program divides by zero. *)
Theorem C89_count_converted_refuted : forall wx, 1 <= wx -> exists l : list Z, Z.of_nat (length l) = 2 ^ wx /\
  forall R (rng : R -> outcome (R * Z)) fuel r, shuffle rng wx fuel l r = UB.
Proof. exact shuffle_too_many. Qed.
Print Assumptions C89_count_converted_refuted.
