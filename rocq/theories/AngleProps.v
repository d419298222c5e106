(** C106: angles and ranges in single precision. *)
From Coq Require Import ZArith Bool List QArith Qabs.
From Coq Require Import Floats.SpecFloat.
From Verif Require Import Common RealSpec FltSpec AngleSpec AngleModel AngleProofs FloatOpsProofs AngleMoreProofs.
Local Open Scope Q_scope.

(** A wrapped angle is the float nearest to the angle in [0, 360) of the same direction, exactly that angle when the
    argument is not negative; it is 360 exactly when that angle is within 2^-16 below 360. *)
Theorem C106_wrap : forall f v, float_is f v -> exists x q,
  same_direction x v /\ 0 <= x /\ x < 360 /\ float_is (getWrapDeg f) q /\ nearest_float x q /\ (0 <= v -> q == x) /\
  (q == 360 <-> 360 - times_pow 2 1 (-16) <= x).
Proof. exact wrap_is. Qed.
Print Assumptions C106_wrap.
(** So it is in [0, 360] and at most 2^-16 off the direction. *)
Theorem C106_wrap_bounds : forall f v, float_is f v -> exists q, float_is (getWrapDeg f) q /\ 0 <= q /\ q <= 360 /\
  exists k : Z, Qabs (q - (v + 360 * inject_Z k)) <= times_pow 2 1 (-16).
Proof. exact wrap_bounds. Qed.
Print Assumptions C106_wrap_bounds.
(** Wrapping again changes nothing but 360, which becomes 0. *)
Theorem C106_wrap_again : forall f q, float_is (getWrapDeg f) q -> 0 <= q -> q <= 360 ->
  float_is (getWrapDeg (getWrapDeg f)) (if Qlt_le_dec q 360 then q else 0).
Proof. exact wrap_again. Qed.
Print Assumptions C106_wrap_again.
(** Full statement that fails: wrapped angles are below 360. *)
Theorem C106_wrap_below_refuted : exists f v, float_is f v /\ float_is (getWrapDeg f) 360 /\ float_is (getWrapDeg (getWrapDeg f)) 0.
Proof. exists (S754_finite true 8388608 (-43)), (- times_pow 2 1 (-20)). split; [|split]; split; vm_compute; reflexivity. Qed.
Print Assumptions C106_wrap_below_refuted.

(** The distance of two angles: in [0, 180], at most 2^-17 off the angle between the directions of the rounded
    difference and 0, and 0 when that difference is whole turns. *)
Theorem C106_dist : forall f g p q, float_is f p -> float_is g q -> in_range (p - q) ->
  exists d D w, nearest_float (p - q) d /\ angle_between d 0 D /\ float_is (getDistDeg f g) w /\ 0 <= w /\ w <= 180 /\
    Qabs (w - D) <= times_pow 2 1 (-17) /\ (same_direction d 0 -> w == 0).
Proof. exact dist_is. Qed.
Print Assumptions C106_dist.
(** For angles at most 512 degrees apart it is at most 3 * 2^-17 off the angle between their directions. *)
Theorem C106_dist_error : forall f g p q D, float_is f p -> float_is g q -> Qabs (p - q) <= 512 -> angle_between p q D ->
  exists w, float_is (getDistDeg f g) w /\ Qabs (w - D) <= 3 * times_pow 2 1 (-17).
Proof. exact dist_error. Qed.
Print Assumptions C106_dist_error.
(** The order of the two does not matter, whatever they are. *)
Theorem C106_dist_symmetric : forall f g, getDistDeg f g = getDistDeg g f.
Proof. exact dist_comm. Qed.
Print Assumptions C106_dist_symmetric.
(** Where the difference is beyond the range of float there is no distance. *)
Theorem C106_dist_overflow : forall f g p q, float_is f p -> float_is g q -> ~ in_range (p - q) -> getDistDeg f g = S754_nan.
Proof. exact dist_overflow. Qed.
Print Assumptions C106_dist_overflow.

(** Cycling: the length of the range and the offset are rounded, the remainder is exact, and the result is not below
    the range. *)
Theorem C106_cycled : forall f g h x lo hi, float_is f x -> float_is g lo -> float_is h hi -> lo < hi ->
  Qabs x <= times_pow 2 1 100 -> Qabs lo <= times_pow 2 1 100 -> Qabs hi <= times_pow 2 1 100 ->
  exists d s m k r q, nearest_float (hi - lo) d /\ 0 < d /\ nearest_float (x - lo) s /\ s == m + d * inject_Z k /\ 0 <= m /\ m < d /\
    nearest_float m r /\ (0 <= s -> r == m) /\ r <= d /\ nearest_float (lo + r) q /\ float_is (getCycledValue f g h) q /\ lo <= q.
Proof. exact cycled_is. Qed.
Print Assumptions C106_cycled.
(** Where the length of the range is a float the result is in the closed range. *)
Theorem C106_cycled_range : forall f g h x lo hi, float_is f x -> float_is g lo -> float_is h hi -> lo < hi ->
  Qabs x <= times_pow 2 1 100 -> Qabs lo <= times_pow 2 1 100 -> Qabs hi <= times_pow 2 1 100 -> is_float (hi - lo) ->
  exists q, float_is (getCycledValue f g h) q /\ lo <= q /\ q <= hi.
Proof. exact cycled_exact. Qed.
Print Assumptions C106_cycled_range.
(** Full statements that fail: the result is not above the range, and a value in the range is left alone. *)
Theorem C106_cycled_above_refuted : exists f g h x lo hi q, float_is f x /\ float_is g lo /\ float_is h hi /\ lo < hi /\
  float_is (getCycledValue f g h) q /\ hi < q.
Proof.
  exists (S754_finite false 13923611 (-23)), (S754_finite false 13923612 (-23)), (S754_finite false 14050101 (-20)),
    (times_pow 2 13923611 (-23)), (times_pow 2 13923612 (-23)), (times_pow 2 14050101 (-20)), (times_pow 2 14050102 (-20)).
  repeat split; vm_compute; reflexivity.
Qed.
Print Assumptions C106_cycled_above_refuted.
Theorem C106_cycled_inside_refuted : exists f g h x lo hi q, float_is f x /\ float_is g lo /\ float_is h hi /\ lo <= x /\ x < hi /\
  float_is (getCycledValue f g h) q /\ ~ q == x.
Proof.
  exists (S754_finite true 13421773 (-24)), (S754_finite true 8388608 (-22)), (S754_finite true 11744051 (-24)),
    (times_pow 2 (-13421773) (-24)), (- (2)), (times_pow 2 (-11744051) (-24)), (times_pow 2 (-13421772) (-24)).
  repeat split; try (vm_compute; reflexivity); vm_compute; discriminate.
Qed.
Print Assumptions C106_cycled_inside_refuted.

(** Rotating: by the signed difference [t] of the directions, computed to 2^-13 and in [-180, 180], the angle goes one
    step of [c] down, one step up (each rounded), or becomes the target itself. *)
Theorem C106_rotated : forall f g h p e c, float_is f p -> float_is g e -> float_is h c -> exists t k,
  - (180) <= t /\ t <= 180 /\ Qabs (t - (e - p + 360 * inject_Z k)) <= times_pow 2 1 (-13) /\
  (t < - c -> float_of (p - c) (getRotatedDeg f g h)) /\
  (- c <= t -> c < t -> float_of (p + c) (getRotatedDeg f g h)) /\
  (- c <= t -> t <= c -> getRotatedDeg f g h = g).
Proof. exact rotated_is. Qed.
Print Assumptions C106_rotated.
(** Half a turn or more reaches any target at once. *)
Theorem C106_rotated_fast : forall f g h p e c, float_is f p -> float_is g e -> float_is h c -> 180 <= c -> getRotatedDeg f g h = g.
Proof. exact rotated_fast. Qed.
Print Assumptions C106_rotated_fast.
(** Full statement that fails: a positive speed brings the angle nearer to the target.  300 degrees with a target of 310
    and a speed of 10^-6 stays. *)
Theorem C106_rotated_stuck_refuted : exists f g h p e c, float_is f p /\ float_is g e /\ float_is h c /\ 0 < c /\ p < e /\ e < p + 180 /\
  getRotatedDeg f g h = f.
Proof.
  exists (S754_finite false 9830400 (-15)), (S754_finite false 10158080 (-15)), (S754_finite false 8796093 (-43)), 300, 310, (times_pow 2 8796093 (-43)).
  repeat split; vm_compute; reflexivity.
Qed.
Print Assumptions C106_rotated_stuck_refuted.

(** Interpolating: never below the first value, the first value itself for weight 0 or two equal values, and not
    decreasing in the weight. *)
Theorem C106_lerp : forall f f' g h w w' a b, float_is f w -> float_is f' w' -> float_is g a -> float_is h b -> 0 <= w -> w <= w' -> w' <= 1 -> a <= b ->
  Qabs a <= times_pow 2 1 100 -> Qabs b <= times_pow 2 1 100 ->
  exists r r' q q', getLerp f g h = Ok r /\ getLerp f' g h = Ok r' /\ float_is r q /\ float_is r' q' /\ a <= q /\ q <= q' /\
    (w == 0 -> q == a) /\ (a == b -> q' == a).
Proof. exact lerp_mono. Qed.
Print Assumptions C106_lerp.
(** Full statement that fails: it is not above the second value.  With weight 1, from -1.9 to 0.1. *)
Theorem C106_lerp_above_refuted : exists g h a b r q, float_is g a /\ float_is h b /\ a <= b /\ getLerp f1 g h = Ok r /\ float_is r q /\ b < q.
Proof.
  exists (S754_finite true 15938355 (-23)), (S754_finite false 13421773 (-27)), (times_pow 2 (-15938355) (-23)), (times_pow 2 13421773 (-27)),
    (S754_finite false 13421776 (-27)), (times_pow 2 13421776 (-27)).
  repeat split; try (vm_compute; reflexivity); vm_compute; discriminate.
Qed.
Print Assumptions C106_lerp_above_refuted.

(** Mapping: not decreasing, the output minimum for the input minimum, and not below it for what is not below the
    input minimum. *)
Theorem C106_map : forall fi fj f0 f1 g0 g1 i j i0 i1 o0 o1, float_is fi i -> float_is fj j -> float_is f0 i0 -> float_is f1 i1 -> float_is g0 o0 -> float_is g1 o1 ->
  Qabs i <= times_pow 2 1 40 -> Qabs j <= times_pow 2 1 40 -> Qabs i0 <= times_pow 2 1 40 -> Qabs i1 <= times_pow 2 1 40 ->
  Qabs o0 <= times_pow 2 1 40 -> Qabs o1 <= times_pow 2 1 40 -> times_pow 2 1 (-20) <= i1 - i0 -> o0 <= o1 -> i <= j ->
  exists r r' q q', getMap fi f0 f1 g0 g1 = Ok r /\ getMap fj f0 f1 g0 g1 = Ok r' /\ float_is r q /\ float_is r' q' /\ q <= q' /\
    (i == i0 -> q == o0) /\ (i0 <= i -> o0 <= q).
Proof. exact map_mono. Qed.
Print Assumptions C106_map.
(** Full statement that fails: the input maximum is mapped to the output maximum.  0.2 in [0.1, 0.2] to [0, 0.1]. *)
Theorem C106_map_max_refuted : exists f0 f1 g1 i0 i1 o1 r q, float_is f0 i0 /\ float_is f1 i1 /\ float_is g1 o1 /\ i0 < i1 /\ 0 < o1 /\
  getMap f1 f0 f1 (S754_zero false) g1 = Ok r /\ float_is r q /\ o1 < q.
Proof.
  exists (S754_finite false 13421773 (-27)), (S754_finite false 13421773 (-26)), (S754_finite false 13421773 (-27)),
    (times_pow 2 13421773 (-27)), (times_pow 2 13421773 (-26)), (times_pow 2 13421773 (-27)), (S754_finite false 13421774 (-27)), (times_pow 2 13421774 (-27)).
  repeat split; vm_compute; reflexivity.
Qed.
Print Assumptions C106_map_max_refuted.

(** Degrees to radians and back: within a part in 2^22. *)
Theorem C106_degrees : forall f p, float_is f p -> times_pow 2 1 (-100) <= Qabs p -> Qabs p <= times_pow 2 1 100 ->
  exists q, float_is (toDeg (toRad f)) q /\ Qabs (q - p) <= times_pow 2 1 (-22) * Qabs p.
Proof. exact deg_rad. Qed.
Print Assumptions C106_degrees.
(** Full statement that fails: the same degrees come back.  15 becomes 15.000001. *)
Theorem C106_degrees_refuted : exists f q, float_is f 15 /\ float_is (toDeg (toRad f)) q /\ ~ q == 15.
Proof.
  exists (S754_finite false 15728640 (-20)), (times_pow 2 15728641 (-20)). repeat split; try (vm_compute; reflexivity); vm_compute; discriminate.
Qed.
Print Assumptions C106_degrees_refuted.

(** Non-trivial cases. *)
Example C106_ex_wrap : getWrapDeg (S754_finite true 11878400 (-14)) = S754_finite false 11632640 (-15). (* -725 -> 355 *)
Proof. vm_compute. reflexivity. Qed.
Example C106_ex_dist : getDistDeg (S754_finite false 11468800 (-15)) (S754_finite false 10485760 (-20)) = S754_finite false 10485760 (-19). (* 350, 10 -> 20 *)
Proof. vm_compute. reflexivity. Qed.
Example C106_ex_angle : angle_between 350 10 20.
Proof. split; [split; vm_compute; discriminate|]. left. exists 1%Z. reflexivity. Qed.
Example C106_ex_rotated : getRotatedDeg (S754_finite false 11468800 (-15)) (S754_finite false 10485760 (-20)) (S754_finite false 10485760 (-21)) =
  S754_finite false 11632640 (-15). (* 350 towards 10 by 5 -> 355 *)
Proof. vm_compute. reflexivity. Qed.
Example C106_ex_overflow : ~ in_range (times_pow 2 (2 ^ 24 - 1) 104 - - times_pow 2 (2 ^ 24 - 1) 104).
Proof. unfold in_range. vm_compute. discriminate. Qed.
Example C106_ex_range : is_float (180 - - (180)).
Proof. exists 360%Z, 0%Z. split; [split; [reflexivity|split; discriminate]|reflexivity]. Qed.
