(** Properties C22-C27, C83, C84: integer and angle arithmetic. *)
From Coq Require Import String Ascii ZArith NArith Arith Bool Lia List QArith Qabs SpecFloat.
From Verif Require Import Common CInt MathModel MathSpec MathProofs.
Import ListNotations.
Local Open Scope Z_scope.

(** C22: [getMod(v, ub)] at one signed type is [v] modulo [ub] exactly when the intermediate sum
    [v % ub + ub] fits the type, and is undefined behaviour otherwise. ([Z.modulo] is the
    representative in [0, ub) because [0 < ub].) *)
Theorem C22_getMod_signed : forall t v ub, is_signed t = true -> has_type t v -> has_type t ub -> 0 < ub ->
  (Z.rem v ub + ub <= imax t -> getMod2 (t, v) (t, ub) = Ok (t, v mod ub)) /\
  (imax t < Z.rem v ub + ub -> getMod2 (t, v) (t, ub) = UB).
Proof. exact getMod2_signed. Qed.
Print Assumptions C22_getMod_signed.
Example C22_ex1 : getMod2 (I32, -7) (I32, 5) = Ok (I32, 3). Proof. vm_compute. reflexivity. Qed.
Example C22_ex2 : getMod2 (I32, 1999999999) (I32, 2000000000) = UB. Proof. vm_compute. reflexivity. Qed.

(** C22: at one unsigned type the result is right exactly when the sum does not wrap. *)
Theorem C22_getMod_unsigned : forall t v ub, is_signed t = false -> has_type t v -> has_type t ub -> 0 < ub ->
  (v mod ub + ub <= imax t -> getMod2 (t, v) (t, ub) = Ok (t, v mod ub)) /\
  (imax t < v mod ub + ub -> exists r, getMod2 (t, v) (t, ub) = Ok (t, r) /\ r <> v mod ub).
Proof. exact getMod2_unsigned. Qed.
Print Assumptions C22_getMod_unsigned.
Example C22_ex3 : getMod2 (U32, 2000000000) (U32, 3000000000) = Ok (U32, 705032704). Proof. vm_compute. reflexivity. Qed.

(** C22: three-argument form. *)
Theorem C22_getMod_range : forall t v lb ub, has_type t v -> has_type t lb -> has_type t ub ->
  lb < ub -> ub - lb < imax t ->
  (lb <= v -> v - lb <= imax t) ->
  (v < lb -> lb - v <= imax t /\ (ub - lb) * ((lb - v) / (ub - lb) + 1) <= imax t) ->
  exists r, getMod3 (t, v) (t, lb) (t, ub) = Ok (t, r) /\ lb <= r < ub /\ (ub - lb | v - r).
Proof. exact getMod3_spec. Qed.
Print Assumptions C22_getMod_range.
Example C22_ex4 : getMod3 (I32, -2) (I32, 0) (I32, 12) = Ok (I32, 10). Proof. vm_compute. reflexivity. Qed.
Example C22_ex5 : getMod3 (I32, -17) (I32, -5) (I32, 4) = Ok (I32, 1). Proof. vm_compute. reflexivity. Qed.

(** C23: cyclic indexing with a signed index. *)
Theorem C23_getByModIdx : forall A (l : list A) t i, is_signed t = true -> has_type t i ->
  l <> [] -> Z.of_nat (length l) <= LONG_MAX ->
  (0 <= i -> exists x, getByModIdx l (t, i) = Ok x /\
      nth_error l (Z.to_nat (i mod Z.of_nat (length l))) = Some x) /\
  (i < 0 -> exists k x, getByModIdx l (t, i) = Ok x /\ 0 <= k < Z.of_nat (length l) /\
      nth_error l (Z.to_nat k) = Some x /\
      (k = i mod Z.of_nat (length l) <-> (Z.of_nat (length l) | 2 ^ 64))).
Proof. exact getByModIdx_spec. Qed.
Print Assumptions C23_getByModIdx.
Example C23_ex1 : getByModIdx [10;20;30] (I32, -1) = Ok 10. Proof. vm_compute. reflexivity. Qed. (* 30 expected *)
Example C23_ex2 : getByModIdx [10;20;30;40] (I32, -1) = Ok 40. Proof. vm_compute. reflexivity. Qed.
Example C23_ex3 : getByModIdx [10;20;30] (I32, 7) = Ok 20. Proof. vm_compute. reflexivity. Qed.

(** C24: both round trips, and the excluded origin. *)
Theorem C24_index_roundtrip : forall t idx cols, has_type t idx -> has_type t cols -> 0 < idx -> 0 < cols ->
  exists x y, get2DIdxFrom1D (t, idx) (t, cols) = Ok ((t, x), (t, y)) /\
    0 <= x < cols /\ 0 <= y /\ get1DIdxFrom2D (t, x) (t, y) (t, cols) = Ok (t, idx).
Proof. exact idx2_of_1. Qed.
Print Assumptions C24_index_roundtrip.
Theorem C24_coordinates_roundtrip : forall t x y cols, has_type t x -> has_type t y -> has_type t cols ->
  0 <= x < cols -> 0 <= y -> 0 < x + y * cols <= imax t ->
  exists i, get1DIdxFrom2D (t, x) (t, y) (t, cols) = Ok (t, i) /\ i = x + y * cols /\
    get2DIdxFrom1D (t, i) (t, cols) = Ok ((t, x), (t, y)).
Proof. exact idx1_of_2. Qed.
Print Assumptions C24_coordinates_roundtrip.
Theorem C24_origin_excluded_refuted : forall t cols, get2DIdxFrom1D (t, 0) (t, cols) = UB.
Proof. exact idx2_zero. Qed.
Print Assumptions C24_origin_excluded_refuted.
Example C24_ex : get2DIdxFrom1D (U64, 17) (U64, 5) = Ok ((U64, 2), (U64, 3)). Proof. vm_compute. reflexivity. Qed.

(** C25: three dimensions. *)
Theorem C25_index3D_value : forall t x y z cols rows,
  has_type t x -> has_type t y -> has_type t z -> has_type t cols -> has_type t rows ->
  0 <= x < cols -> 0 <= y < rows -> 0 <= z -> x + y * cols + z * cols * rows <= imax t ->
  get1DIdxFrom3D (t, x) (t, y) (t, z) (t, cols) (t, rows) = Ok (t, x + y * cols + z * cols * rows).
Proof. exact idx3_value. Qed.
Print Assumptions C25_index3D_value.
Theorem C25_index3D_injective : forall x y z x' y' z' cols rows, 0 <= x < cols -> 0 <= x' < cols ->
  0 <= y < rows -> 0 <= y' < rows ->
  x + y * cols + z * cols * rows = x' + y' * cols + z' * cols * rows -> x = x' /\ y = y' /\ z = z'.
Proof. exact idx3_injective. Qed.
Print Assumptions C25_index3D_injective.
(** The inverse returns [y + z*rows] in place of [x]. *)
Theorem C25_index3D_inverse_refuted : forall t x y z cols rows,
  has_type t x -> has_type t y -> has_type t z -> has_type t cols -> has_type t rows ->
  0 <= x < cols -> 0 <= y < rows -> 0 <= z -> 0 < x + y * cols + z * cols * rows <= imax t ->
  cols * rows <= imax t ->
  get3DIdxFrom1D (t, x + y * cols + z * cols * rows) (t, cols) (t, rows)
  = Ok ((t, y + z * rows), (t, y), (t, z)).
Proof. exact idx3_back. Qed.
Print Assumptions C25_index3D_inverse_refuted.
Example C25_ex : get3DIdxFrom1D (I32, 1 + 2 * 4 + 1 * 4 * 3) (I32, 4) (I32, 3) = Ok ((I32, 5), (I32, 2), (I32, 1)).
Proof. vm_compute. reflexivity. Qed.

(** C26: clamping at one type: [r] is in the range and no element of the range is nearer to [x];
    in-place and value forms agree, a second clamp changes nothing; an empty range is UB. *)
Theorem C26_clamp : forall t x lo hi, has_type t x -> has_type t lo -> has_type t hi ->
  (lo <= hi -> exists r, getClamped (t, x) (t, lo) (t, hi) = Ok (t, r) /\
     clamp (t, x) (t, lo) (t, hi) = Ok (t, r) /\
     getClamped (t, r) (t, lo) (t, hi) = Ok (t, r) /\
     clampMax (clampMin (t, x) (t, lo)) (t, hi) = (t, r) /\
     lo <= r <= hi /\ forall y, lo <= y <= hi -> Z.abs (x - r) <= Z.abs (x - y)) /\
  (hi < lo -> getClamped (t, x) (t, lo) (t, hi) = UB /\ clamp (t, x) (t, lo) (t, hi) = UB).
Proof. exact clamp_spec. Qed.
Print Assumptions C26_clamp.
Theorem C26_clamp_mixed_sign_refuted : forall x lo hi, INT_MIN <= x < 0 -> has_type U32 lo -> has_type U32 hi ->
  lo <= hi <= INT_MAX -> getClamped (I32, x) (U32, lo) (U32, hi) = Ok (U32, hi).
Proof. exact clamp_mixed. Qed.
Print Assumptions C26_clamp_mixed_sign_refuted.
(** C26: one-sided clamping and the sign, for every integer type. *)
Theorem C26_one_sided : forall t x y, has_type t x -> has_type t y ->
  getClampedMin (t, x) (t, y) = (t, Z.max x y) /\ clampMin (t, x) (t, y) = (t, Z.max x y) /\
  getClampedMax (t, x) (t, y) = (t, Z.min x y) /\ clampMax (t, x) (t, y) = (t, Z.min x y).
Proof. exact one_sided. Qed.
Print Assumptions C26_one_sided.
Theorem C26_sign : forall t x, has_type t x -> getSign (t, x) = Z.sgn x.
Proof. exact sign_spec. Qed.
Print Assumptions C26_sign.
Example C26_ex0 : getSign (U32, 1) = 1 /\ getSign (I32, -7) = -1 /\ getClampedMax (I32, 12) (I32, -4) = (I32, -4).
Proof. vm_compute. auto. Qed.
Example C26_ex1 : getClamped (I32, 15) (I32, -3) (I32, 10) = Ok (I32, 10). Proof. vm_compute. reflexivity. Qed.
Example C26_ex2 : getClamped (I32, -5) (U32, 0) (U32, 10) = Ok (U32, 10). Proof. vm_compute. reflexivity. Qed.

(** C84: distances at one signed type, exact until they no longer fit, and metric laws. *)
Theorem C84_distance_exact : forall t x1 y1 x2 y2, is_signed t = true ->
  has_type t x1 -> has_type t y1 -> has_type t x2 -> has_type t y2 ->
  (forall d, d = Z.abs (x1 - x2) + Z.abs (y1 - y2) ->
     (d <= imax t -> getDistManhattan (t, x1) (t, y1) (t, x2) (t, y2) = Ok (t, d)) /\
     (imax t < d -> getDistManhattan (t, x1) (t, y1) (t, x2) (t, y2) = UB)) /\
  (forall d, d = Z.max (Z.abs (x1 - x2)) (Z.abs (y1 - y2)) ->
     (d <= imax t -> getDistChebyshev (t, x1) (t, y1) (t, x2) (t, y2) = Ok (t, d)) /\
     (imax t < d -> getDistChebyshev (t, x1) (t, y1) (t, x2) (t, y2) = UB)) /\
  (forall d, d = (x1 - x2) ^ 2 + (y1 - y2) ^ 2 ->
     (d <= imax t -> getDistSquaredEuclidean (t, x1) (t, y1) (t, x2) (t, y2) = Ok (t, d)) /\
     (imax t < d -> getDistSquaredEuclidean (t, x1) (t, y1) (t, x2) (t, y2) = UB)).
Proof. exact dist_exact. Qed.
Print Assumptions C84_distance_exact.
Theorem C84_distance_metric : forall t x1 y1 x2 y2 x3 y3, is_signed t = true ->
  has_type t x1 -> has_type t y1 -> has_type t x2 -> has_type t y2 -> has_type t x3 -> has_type t y3 ->
  forall dist, dist = getDistManhattan \/ dist = getDistChebyshev ->
  forall d12 d23 d13,
  dist (t, x1) (t, y1) (t, x2) (t, y2) = Ok (t, d12) ->
  dist (t, x2) (t, y2) (t, x3) (t, y3) = Ok (t, d23) ->
  dist (t, x1) (t, y1) (t, x3) (t, y3) = Ok (t, d13) ->
  0 <= d12 /\ (d12 = 0 <-> x1 = x2 /\ y1 = y2) /\
  dist (t, x2) (t, y2) (t, x1) (t, y1) = Ok (t, d12) /\ d13 <= d12 + d23.
Proof. exact dist_laws. Qed.
Print Assumptions C84_distance_metric.
Example C84_ex1 : getDistManhattan (I32, 3) (I32, -4) (I32, -2) (I32, 8) = Ok (I32, 17). Proof. vm_compute. reflexivity. Qed.
Example C84_ex2 : getDistSquaredEuclidean (I32, 60000) (I32, 0) (I32, 0) (I32, 0) = UB. Proof. vm_compute. reflexivity. Qed.

(** C84: integer range mapping: endpoints map to endpoints, order is kept, the result is the exact
    image rounded down. *)
Theorem C84_getMap_int : forall t i j a b c d, has_type t i -> has_type t j -> has_type t a -> has_type t b ->
  has_type t c -> has_type t d -> a < b -> c <= d -> a <= i -> i <= j -> j <= b ->
  b - a <= imax t -> d - c <= imax t -> (b - a) * (d - c) <= imax t ->
  exists ri rj, getMapInt (t, i) (t, a) (t, b) (t, c) (t, d) = Ok (t, ri) /\
    getMapInt (t, j) (t, a) (t, b) (t, c) (t, d) = Ok (t, rj) /\
    c <= ri /\ ri <= rj /\ rj <= d /\ (i = a -> ri = c) /\ (j = b -> rj = d) /\
    (ri - c) * (b - a) <= (i - a) * (d - c) < (ri - c + 1) * (b - a).
Proof. exact getMapInt_spec. Qed.
Print Assumptions C84_getMap_int.
Example C84_ex3 : getMapInt (I32, 5) (I32, 0) (I32, 10) (I32, 100) (I32, 200) = Ok (I32, 150). Proof. vm_compute. reflexivity. Qed.

Local Open Scope Q_scope.

(** C27 (over exact rationals). *)
Theorem C27_cycled : forall x lo hi, lo < hi ->
  lo <= getCycledValue x lo hi /\ getCycledValue x lo hi < hi /\
  congruent (hi - lo) (getCycledValue x lo hi) x.
Proof. exact cycled_spec. Qed.
Print Assumptions C27_cycled.
Theorem C27_cycled_unique : forall x lo hi y, lo < hi -> lo <= y -> y < hi -> congruent (hi - lo) y x ->
  y == getCycledValue x lo hi.
Proof. exact cycled_unique. Qed.
Print Assumptions C27_cycled_unique.
Theorem C27_wrap : forall x, 0 <= getWrapDeg x /\ getWrapDeg x < 360 /\ congruent 360 (getWrapDeg x) x.
Proof. exact wrap_spec. Qed.
Print Assumptions C27_wrap.
Theorem C27_angle_distance_minimal : forall a b,
  (exists n, Qabs (a - b + 360 * inject_Z n) == getDistDeg a b) /\
  (forall n, getDistDeg a b <= Qabs (a - b + 360 * inject_Z n)).
Proof. exact dist_min. Qed.
Print Assumptions C27_angle_distance_minimal.
Theorem C27_angle_distance_range : forall a b, 0 <= getDistDeg a b /\ getDistDeg a b <= 180.
Proof. exact dist_range. Qed.
Print Assumptions C27_angle_distance_range.
Theorem C27_angle_distance_symmetric : forall a b, getDistDeg a b == getDistDeg b a.
Proof. exact dist_sym. Qed.
Print Assumptions C27_angle_distance_symmetric.
Theorem C27_angle_distance_zero : forall a b, getDistDeg a b == 0 <-> congruent 360 a b.
Proof. exact dist_zero. Qed.
Print Assumptions C27_angle_distance_zero.
Theorem C27_rotate : forall s e v, 0 <= v ->
  (getDistDeg s e <= v -> getRotatedDeg s e v == e) /\
  (v < getDistDeg s e -> (getRotatedDeg s e v == s + v \/ getRotatedDeg s e v == s - v) /\
     getDistDeg (getRotatedDeg s e v) e == getDistDeg s e - v).
Proof. exact rotated_spec. Qed.
Print Assumptions C27_rotate.
Theorem C27_radians : forall x, toDeg (toRad x) == x /\ toRad (toDeg x) == x.
Proof. exact radians_spec. Qed.
Print Assumptions C27_radians.
Example C27_ex0 : Qabs (toRad 180 - (314159265 # 100000000)) < (1 # 100000000). Proof. vm_compute. reflexivity. Qed.
Example C27_ex1 : getWrapDeg (-725) == 355. Proof. vm_compute. reflexivity. Qed.
Example C27_ex2 : getRotatedDeg 350 20 (15 # 2) == (715 # 2). Proof. vm_compute. reflexivity. Qed.
Example C27_ex3 : getDistDeg (-10) 725 == 15. Proof. vm_compute. reflexivity. Qed.
Example C27_ex4 : getCycledValue (- (7 # 2)) 2 5 == (5 # 2). Proof. vm_compute. reflexivity. Qed.

(** C27: in single precision the half-open range is not kept: a tiny negative angle wraps to 360
    (here -2^-20). *)
Theorem C27_wrap_float_refuted :
  exists x, x = S754_finite true 8388608 (-43) /\ SFltb x (S754_zero false) = true /\
    getWrapDeg32_small x = f360.
Proof. eexists. split; [reflexivity|]. split; vm_compute; reflexivity. Qed.
Print Assumptions C27_wrap_float_refuted.

(** C83: [getRotatedRad] should return an angle in radians at most [speed] away from the start; it
    returns the degrees computed with an unconverted speed. *)
Theorem C83_rotatedRad_refuted :
  exists start end_ speed, 0 <= speed /\ 0 < end_ - start < 1 /\
    speed < Qabs (getRotatedRad start end_ speed - start) /\
    speed < Qabs (getRotatedRad start end_ speed - end_) /\
    getRotatedRad start end_ speed > 28.
Proof. exists (1 # 2), (3 # 4), (1 # 10). vm_compute. repeat split; discriminate || reflexivity. Qed.
Print Assumptions C83_rotatedRad_refuted.

(** C84: range mapping and interpolation over exact rationals. *)
Theorem C84_getMap : forall i a b c d, ~ a == b -> exists r, getMap i a b c d = Ok r /\
  (r - c) * (b - a) == (i - a) * (d - c) /\
  (a < b -> c <= d -> a <= i -> i <= b -> c <= r /\ r <= d) /\
  (i == a -> r == c) /\ (i == b -> r == d).
Proof. exact getMap_spec. Qed.
Print Assumptions C84_getMap.
Theorem C84_getLerp : forall w a b, (0 <= w -> w <= 1 -> exists r, getLerp w a b = Ok r /\ r == (1 - w) * a + w * b /\
   (a <= b -> a <= r /\ r <= b) /\ (w == 0 -> r == a) /\ (w == 1 -> r == b)) /\
  (w < 0 \/ 1 < w -> getLerp w a b = UB).
Proof. exact getLerp_spec. Qed.
Print Assumptions C84_getLerp.
