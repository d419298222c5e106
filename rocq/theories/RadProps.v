(** C111: radians in single precision. *)
From Coq Require Import ZArith Arith Bool Lia List QArith Qabs.
From Coq Require Import Floats.SpecFloat.
From Verif Require Import Common RealSpec FltSpec AngleSpec AngleModel RadModel RadSpec RadProofs.
Local Open Scope Q_scope.

(** Wrapping: the float nearest to the angle in [0, tau) that differs by whole multiples of the float [tau]; that angle
    itself for arguments not below 0; [tau] itself exactly for angles less than 2^-22 below it. *)
Theorem C111_wrap : forall f v, float_is f v -> exists x q, same_upto float_turn x v /\ 0 <= x /\ x < float_turn /\
  float_is (getWrapRad f) q /\ nearest_float x q /\ (0 <= v -> q == x) /\ (q == float_turn <-> float_turn - times_pow 2 1 (-22) < x).
Proof. exact wrap_rad. Qed.
Print Assumptions C111_wrap.
(** Against the true full turn: within 2^-22 and 1.75 * 10^-7 for each turn. *)
Theorem C111_wrap_drift : forall f v t, float_is f v -> full_turn t -> exists q k, float_is (getWrapRad f) q /\
  Qabs (q - (v - t * inject_Z k)) <= (17486 # 100000000000) * Qabs (inject_Z k) + times_pow 2 1 (-22) /\ Qabs (inject_Z k) <= Qabs v / (6 # 1) + 1.
Proof. exact wrap_drift. Qed.
Print Assumptions C111_wrap_drift.
(** Full statement that fails: the direction is kept.  2^26 is turned by more than a radian. *)
Theorem C111_wrap_direction_refuted : exists f v q, float_is f v /\ float_is (getWrapRad f) q /\
  forall t k, full_turn t -> 1 < Qabs (q - (v - t * inject_Z k)).
Proof. exact turns_refuted. Qed.
Print Assumptions C111_wrap_direction_refuted.
(** Wrapping twice is wrapping once, but for [tau], which becomes 0. *)
Theorem C111_wrap_again : forall f q, float_is (getWrapRad f) q -> 0 <= q -> q <= float_turn ->
  float_is (getWrapRad (getWrapRad f)) (if Qlt_le_dec q float_turn then q else 0).
Proof. exact wrap_rad_again. Qed.
Print Assumptions C111_wrap_again.
(** What is not finite gives NaN. *)
Theorem C111_wrap_nan : forall f, (forall v, ~ has_value f v) -> getWrapRad f = S754_nan.
Proof. exact wrap_rad_nan. Qed.
Print Assumptions C111_wrap_nan.

(** Distances: between 0 and the float pi, the same both ways, 0 for whole float turns; up to 8 radians apart within
    5 * 2^-23 of the true angle; NaN when the difference overflows. *)
Theorem C111_dist : forall f g p q, float_is f p -> float_is g q -> in_range (p - q) ->
  exists d D w, nearest_float (p - q) d /\ angle_upto float_turn d 0 D /\ float_is (getDistRad f g) w /\ 0 <= w /\ 2 * w <= float_turn /\
    Qabs (w - D) <= times_pow 2 1 (-23) /\ (same_upto float_turn d 0 -> w == 0).
Proof. exact dist_rad'. Qed.
Print Assumptions C111_dist.
Theorem C111_dist_true : forall f g p q t D, float_is f p -> float_is g q -> Qabs (p - q) <= 8 -> full_turn t -> angle_upto t p q D ->
  exists w, float_is (getDistRad f g) w /\ Qabs (w - D) <= 5 * times_pow 2 1 (-23).
Proof. exact dist_rad_error. Qed.
Print Assumptions C111_dist_true.
Theorem C111_dist_symmetric : forall f g, getDistRad f g = getDistRad g f.
Proof. exact dist_rad_comm. Qed.
Print Assumptions C111_dist_symmetric.
Theorem C111_dist_overflow : forall f g p q, float_is f p -> float_is g q -> ~ in_range (p - q) -> getDistRad f g = S754_nan.
Proof. exact dist_rad_overflow. Qed.
Print Assumptions C111_dist_overflow.

(** Full statement that fails: rotating stays at a target already reached.  [getRotatedRad] answers in degrees: whatever
    the angle and the speed, what is there already is taken more than 57 times as far. *)
Theorem C111_rotated_refuted : forall f h p c, float_is f p -> float_is h c -> 0 <= c -> times_pow 2 1 (-100) <= Qabs p -> Qabs p <= times_pow 2 1 100 ->
  exists q, float_is (getRotatedRad f f h) q /\ 57 * Qabs p <= Qabs q.
Proof. exact rotated_degrees. Qed.
Print Assumptions C111_rotated_refuted.

(** The hypotheses are met: -1, 2^-30 below 0, 7 and 1. *)
Example wrap_m1 : float_is (S754_finite true 8388608 (-23)) (- (1)) /\ float_is (getWrapRad (S754_finite true 8388608 (-23))) (11079643 # 2097152).
Proof. split; split; vm_compute; reflexivity. Qed.
Example wrap_tiny : float_is (getWrapRad (S754_finite true 8388608 (-53))) float_turn.
Proof. split; vm_compute; reflexivity. Qed.
Example dist_7_1 : float_is (S754_finite false 14680064 (-21)) 7 /\ float_is f1 1 /\
  float_is (getDistRad (S754_finite false 14680064 (-21)) f1) (593883 # 2097152).
Proof. split; [|split]; split; vm_compute; reflexivity. Qed.
Example turn_exists : full_turn (314159265358979 # 50000000000000).
Proof. split; reflexivity. Qed.
