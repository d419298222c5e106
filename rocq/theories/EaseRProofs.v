(** Proofs about the curves over the real numbers. *)
From Coq Require Import String Reals Lra.
From Verif Require Import Common EaseModel EaseRModel EaseRSpec.
Local Open Scope R_scope.

Lemma nzr_ok : forall d v, d <> 0 -> nzr d v = v.
Proof. intros d v H. unfold nzr. destruct (Req_EM_T d 0); [contradiction|reflexivity]. Qed.
Lemma root_ok : forall x f, 0 <= x -> root x f = Ok (f (sqrt x)).
Proof. intros x f H. unfold root. destruct (Rlt_dec x 0); [lra|reflexivity]. Qed.
Lemma root_nan : forall x f, x < 0 -> root x f = NaN.
Proof. intros x f H. unfold root. destruct (Rlt_dec x 0); [reflexivity|lra]. Qed.
Lemma pow2_is : forall x, pow2 x = two_to x.
Proof. reflexivity. Qed.
Lemma two_to_0 : two_to 0 = 1.
Proof. unfold two_to. rewrite Rmult_0_l. apply exp_0. Qed.
Lemma two_to_pos : forall x, 0 < two_to x.
Proof. intros. apply exp_pos. Qed.
Lemma ln2_pos : 0 < ln 2.
Proof. rewrite <- ln_1. apply ln_increasing; lra. Qed.
Lemma two_to_le : forall x y, x <= y -> two_to x <= two_to y.
Proof.
  intros x y H. unfold two_to. destruct H as [H| ->]; [|apply Rle_refl]. left. apply exp_increasing. apply Rmult_lt_compat_r; [apply ln2_pos|exact H].
Qed.
Lemma two_to_m10 : two_to (-10) = / 1024.
Proof.
  unfold two_to. change (Rpower 2 (-10) = / 1024). replace (-10) with (- (INR 10)) by (cbn; lra). rewrite Rpower_Ropp, Rpower_pow by lra. f_equal. cbn. lra.
Qed.
Lemma div_zero : forall t d, d <> 0 -> (t / d = 0 <-> t = 0).
Proof. intros t d D. split; intros H; [|subst; unfold Rdiv; lra]. replace t with (t / d * d) by (field; exact D). rewrite H. lra. Qed.
Lemma div_one : forall t d, d <> 0 -> (t / d = 1 <-> t = d).
Proof. intros t d D. split; intros H; [|subst; field; exact D]. replace t with (t / d * d) by (field; exact D). rewrite H. lra. Qed.
Lemma half_div : forall t d, d <> 0 -> t / (d / 2) = 2 * (t / d).
Proof. intros. field. exact H. Qed.
(** The swing: its argument is a quarter of a wave behind. *)
Lemma behind : forall m q d, d <> 0 -> q <> 0 -> sin ((m * d - d * q / 4) * (2 * PI) / (d * q)) = - cos (m * (2 * PI / q)).
Proof.
  intros m q d D Q. replace ((m * d - d * q / 4) * (2 * PI) / (d * q)) with (m * (2 * PI / q) - PI / 2) by (field; split; assumption).
  rewrite sin_minus, cos_PI2, sin_PI2. lra.
Qed.
Lemma cos_flip : forall x y, x = - y -> cos x = cos y.
Proof. intros x y ->. apply cos_neg. Qed.

Lemma in_is : forall k t b c d, d <> 0 -> (k = Circ -> -1 <= t / d <= 1) -> in_R k LR t b c d = Ok (eased_in_R (shape_R k) t b c d).
Proof.
  intros k t b c d D G. destruct k; cbn [in_R shape_R]; unfold eased_in_R.
  - unfold sine_in. rewrite nzr_ok by exact D. f_equal. unfold quarter_wave. ring.
  - unfold circ_in. rewrite nzr_ok by exact D. cbn [read_R]. specialize (G eq_refl). rewrite root_ok by nra. f_equal. unfold quarter_circle.
    replace (t / d * (t / d)) with ((t / d) ^ 2) by ring. ring.
  - unfold elastic_in. rewrite nzr_ok by exact D. unfold swing. destruct (Req_EM_T t 0) as [->|T].
    + destruct (Req_EM_T (0 / d) 0) as [_|N]; [f_equal; ring|]. exfalso. apply N. now apply div_zero.
    + destruct (Req_EM_T (t / d) 0) as [E|_]; [exfalso; apply T; now apply (div_zero t d)|]. destruct (Req_EM_T (t / d) 1) as [E|E].
      * rewrite E. f_equal. replace (10 * (1 - 1)) with 0 by ring. rewrite two_to_0. replace ((1 - 1) * (2 * PI / (3 / 10))) with 0 by field. rewrite cos_0. ring.
      * rewrite nzr_ok by lra. f_equal. rewrite behind by lra. rewrite pow2_is.
        rewrite (cos_flip ((1 - t / d) * (2 * PI / (3 / 10))) ((t / d - 1) * (2 * PI / (3 / 10)))) by (field; exact D). ring.
  - unfold expo_in. rewrite nzr_ok by exact D. f_equal. unfold powers_of_two. destruct (Req_EM_T t 0) as [->|T].
    + destruct (Req_EM_T (0 / d) 0) as [_|N]; [ring|]. exfalso. apply N. now apply div_zero.
    + destruct (Req_EM_T (t / d) 0) as [E|_]; [exfalso; apply T; now apply (div_zero t d)|]. rewrite pow2_is. ring.
Qed.
Lemma out_is : forall k t b c d, d <> 0 -> (k = Circ -> 0 <= t / d <= 2) -> out_R k LR t b c d = Ok (eased_out_R (shape_R k) t b c d).
Proof.
  intros k t b c d D G. destruct k; cbn [out_R shape_R]; unfold eased_out_R.
  - unfold sine_out. rewrite nzr_ok by exact D. f_equal. unfold quarter_wave. rewrite sin_cos. 
    replace ((1 - t / d) * (PI / 2)) with (- (PI / 2 + t / d * (PI / 2)) + PI) by (field; exact D). rewrite neg_cos, cos_neg. ring.
  - unfold circ_out. rewrite nzr_ok by exact D. cbn [read_R]. specialize (G eq_refl). rewrite root_ok by nra. f_equal. unfold quarter_circle.
    replace ((t / d - 1) * (t / d - 1)) with ((1 - t / d) ^ 2) by ring. ring.
  - unfold elastic_out. rewrite nzr_ok by exact D. unfold swing. destruct (Req_EM_T t 0) as [->|T].
    + replace (0 / d) with 0 by (unfold Rdiv; ring). destruct (Req_EM_T (1 - 0) 0); [lra|]. replace (10 * (1 - 0 - 1)) with 0 by ring.
      replace (1 - (1 - 0)) with 0 by ring. rewrite Rmult_0_l, two_to_0, cos_0. f_equal. ring.
    + destruct (Req_EM_T (t / d) 1) as [E|E].
      * rewrite E. destruct (Req_EM_T (1 - 1) 0) as [_|N]; [f_equal; ring|]. exfalso. apply N. ring.
      * destruct (Req_EM_T (1 - t / d) 0) as [N|_]; [exfalso; apply E; lra|]. rewrite nzr_ok by lra. f_equal. rewrite behind by lra. rewrite pow2_is.
        replace (10 * (1 - t / d - 1)) with (-10 * (t / d)) by ring. replace (1 - (1 - t / d)) with (t / d) by ring. ring.
  - unfold expo_out. rewrite nzr_ok by exact D. f_equal. unfold powers_of_two. destruct (Req_EM_T t d) as [->|T].
    + replace (d / d) with 1 by (field; exact D). destruct (Req_EM_T (1 - 1) 0) as [_|N]; [ring|]. exfalso. apply N. ring.
    + destruct (Req_EM_T (1 - t / d) 0) as [N|_]; [exfalso; apply T; apply (div_one t d D); lra|]. rewrite pow2_is.
      replace (10 * (1 - t / d - 1)) with (-10 * t / d) by (field; exact D). ring.
Qed.
Lemma inOut_is : forall k t b c d, d <> 0 -> (k = Circ -> - (1 / 2) <= t / d <= 3 / 2) -> inOut_R k RL t b c d = Ok (eased_inOut_R (inOut_shape_R k) t b c d).
Proof.
  intros k t b c d D G. set (x := t / d) in *. destruct k; cbn [inOut_R inOut_shape_R shape_R]; unfold eased_inOut_R; fold x; cbv zeta.
  - unfold sine_inOut. rewrite nzr_ok by exact D. f_equal. unfold quarter_wave. replace (PI * t / d) with (PI * x) by (unfold x; field; exact D).
    destruct (Rlt_dec x (1 / 2)).
    + replace (2 * x * (PI / 2)) with (PI * x) by field. field.
    + replace ((2 - 2 * x) * (PI / 2)) with (- (PI * x) + PI) by field. rewrite neg_cos, cos_neg. field.
  - unfold circ_inOut. rewrite nzr_ok by exact D. cbv zeta. rewrite half_div by exact D. fold x. specialize (G eq_refl). unfold quarter_circle.
    destruct (Rlt_dec (2 * x) 1) as [L|L]; destruct (Rlt_dec x (1 / 2)) as [L2|L2]; try lra.
    + rewrite root_ok by nra. f_equal. replace (2 * x * (2 * x)) with ((2 * x) ^ 2) by ring. field.
    + rewrite root_ok by nra. f_equal. replace ((2 * x - 2) * (2 * x - 2)) with ((2 - 2 * x) ^ 2) by ring. field.
  - unfold elastic_inOut. rewrite nzr_ok by exact D. cbv zeta. rewrite half_div by exact D. fold x. unfold swing. destruct (Req_EM_T t 0) as [T|T].
    + assert (X0 : x = 0) by (now apply div_zero). rewrite X0. destruct (Rlt_dec 0 (1 / 2)); [|lra]. destruct (Req_EM_T (2 * 0) 0) as [_|N]; [f_equal; field|lra].
    + assert (X0 : x <> 0) by (intros E; apply T; now apply (div_zero t d)). destruct (Req_EM_T (2 * x) 2) as [E|E].
      * destruct (Rlt_dec x (1 / 2)); [lra|]. destruct (Req_EM_T (2 - 2 * x) 0) as [_|N]; [f_equal; field|lra].
      * rewrite nzr_ok by lra. destruct (Rlt_dec (2 * x) 1) as [L|L]; destruct (Rlt_dec x (1 / 2)) as [L2|L2]; try lra.
        -- destruct (Req_EM_T (2 * x) 0); [lra|]. f_equal. rewrite behind by lra. rewrite pow2_is.
           rewrite (cos_flip ((1 - 2 * x) * (2 * PI / (45 / 100))) ((2 * x - 1) * (2 * PI / (3 / 10 * (15 / 10))))) by field. field.
        -- destruct (Req_EM_T (2 - 2 * x) 0); [lra|]. f_equal. rewrite behind by lra. rewrite pow2_is.
           replace (10 * (2 - 2 * x - 1)) with (-10 * (2 * x - 1)) by ring.
           replace ((1 - (2 - 2 * x)) * (2 * PI / (45 / 100))) with ((2 * x - 1) * (2 * PI / (3 / 10 * (15 / 10)))) by field. field.
  - unfold expo_inOut. rewrite nzr_ok by exact D. f_equal. cbv zeta. rewrite half_div by exact D. fold x. unfold powers_of_two. destruct (Req_EM_T t 0) as [T|T].
    + assert (X0 : x = 0) by (now apply div_zero). rewrite X0. destruct (Rlt_dec 0 (1 / 2)); [|lra]. destruct (Req_EM_T (2 * 0) 0) as [_|N]; [field|lra].
    + assert (X0 : x <> 0) by (intros E; apply T; now apply (div_zero t d)). destruct (Req_EM_T t d) as [E|E].
      * assert (X1 : x = 1) by (now apply div_one). rewrite X1. destruct (Rlt_dec 1 (1 / 2)); [lra|]. destruct (Req_EM_T (2 - 2 * 1) 0) as [_|N]; [field|lra].
      * assert (X1 : x <> 1) by (intros E'; apply E; now apply (div_one t d)).
        destruct (Rlt_dec (2 * x) 1) as [L|L]; destruct (Rlt_dec x (1 / 2)) as [L2|L2]; try lra.
        -- destruct (Req_EM_T (2 * x) 0); [lra|]. rewrite pow2_is. field.
        -- destruct (Req_EM_T (2 - 2 * x) 0); [lra|]. rewrite pow2_is. replace (10 * (2 - 2 * x - 1)) with (-10 * (2 * x - 1)) by ring. field.
Qed.
Lemma circ_nan : forall t b c d, d <> 0 ->
  (1 < Rabs (t / d) -> circ_in LR t b c d = NaN) /\ (1 < Rabs (t / d - 1) -> circ_out LR t b c d = NaN) /\
  (t / d < - (1 / 2) \/ 3 / 2 < t / d -> circ_inOut RL t b c d = NaN).
Proof.
  intros t b c d D. assert (SQ : forall x, 1 < Rabs x -> 1 - x * x < 0).
  { intros x H. unfold Rabs in H. destruct (Rcase_abs x); nra. }
  split; [|split]; intros H.
  - unfold circ_in. rewrite nzr_ok by exact D. cbn [read_R]. apply root_nan. now apply SQ.
  - unfold circ_out. rewrite nzr_ok by exact D. cbn [read_R]. apply root_nan. now apply SQ.
  - unfold circ_inOut. rewrite nzr_ok by exact D. cbv zeta. rewrite half_div by exact D. set (x := t / d) in *.
    destruct (Rlt_dec (2 * x) 1); apply root_nan; nra.
Qed.
Lemma zero_duration_R : forall k o t b c, in_R k o t b c 0 = UB /\ out_R k o t b c 0 = UB /\ inOut_R k o t b c 0 = UB.
Proof.
  assert (Z : forall v, nzr 0 v = UB) by (intros v; unfold nzr; destruct (Req_EM_T 0 0); [reflexivity|contradiction]).
  intros. destruct k; (split; [exact (Z _)|split; exact (Z _)]).
Qed.

(** ** Shapes *)
Lemma shape_0 : forall k, shape_R k 0 = 0.
Proof.
  destruct k; cbn.
  - unfold quarter_wave. rewrite Rmult_0_l, cos_0. ring.
  - unfold quarter_circle. replace (1 - 0 ^ 2) with 1 by ring. rewrite sqrt_1. ring.
  - unfold swing. destruct (Req_EM_T 0 0); [reflexivity|contradiction].
  - unfold powers_of_two. destruct (Req_EM_T 0 0); [reflexivity|contradiction].
Qed.
Lemma swing_1 : forall q, q <> 0 -> swing q 1 = 1.
Proof.
  intros q Q. unfold swing. destruct (Req_EM_T 1 0); [lra|]. replace (10 * (1 - 1)) with 0 by ring. rewrite two_to_0.
  replace ((1 - 1) * (2 * PI / q)) with 0 by (field; exact Q). rewrite cos_0. ring.
Qed.
Lemma shape_1 : forall k, shape_R k 1 = 1.
Proof.
  destruct k; cbn.
  - unfold quarter_wave. rewrite Rmult_1_l, cos_PI2. ring.
  - unfold quarter_circle. replace (1 - 1 ^ 2) with 0 by ring. rewrite sqrt_0. ring.
  - apply swing_1. lra.
  - unfold powers_of_two. destruct (Req_EM_T 1 0); [lra|]. replace (10 * (1 - 1)) with 0 by ring. apply two_to_0.
Qed.
Lemma inOut_shape_0 : forall k, inOut_shape_R k 0 = 0.
Proof. destruct k; try apply (shape_0 Sine); try apply (shape_0 Circ); try apply (shape_0 Expo). cbn. unfold swing. destruct (Req_EM_T 0 0); [reflexivity|contradiction]. Qed.
Lemma ends_R : forall k b c d, 0 < d ->
  in_R k LR 0 b c d = Ok b /\ in_R k LR d b c d = Ok (b + c) /\ out_R k LR 0 b c d = Ok b /\ out_R k LR d b c d = Ok (b + c) /\
  inOut_R k RL 0 b c d = Ok b /\ inOut_R k RL d b c d = Ok (b + c).
Proof.
  intros k b c d D. assert (N : d <> 0) by lra. assert (Z0 : 0 / d = 0) by (unfold Rdiv; ring). assert (O1 : d / d = 1) by (field; exact N).
  rewrite !in_is, !out_is, !inOut_is by (try exact N; intros; rewrite ?Z0, ?O1; lra). unfold eased_in_R, eased_out_R, eased_inOut_R. cbv zeta. rewrite Z0, O1.
  replace (1 - 0) with 1 by ring. replace (1 - 1) with 0 by ring. destruct (Rlt_dec 0 (1 / 2)); [|lra]. destruct (Rlt_dec 1 (1 / 2)); [lra|].
  replace (2 * 0) with 0 by ring. replace (2 - 2 * 1) with 0 by ring. rewrite shape_0, shape_1, inOut_shape_0.
  repeat split; f_equal; field.
Qed.
Lemma reflection_R : forall k t b c d, 0 < d -> 0 <= t <= d -> exists x y, in_R k LR (d - t) b c d = Ok x /\ out_R k LR t b c d = Ok y /\ x + y = 2 * b + c.
Proof.
  intros k t b c d D T. assert (N : d <> 0) by lra.
  assert (R1 : 0 <= t / d <= 1).
  { split; [apply Rmult_le_pos; [lra|]; left; now apply Rinv_0_lt_compat|]. apply (Rmult_le_reg_r d); [exact D|]. replace (t / d * d) with t by (field; exact N). lra. }
  assert (E : (d - t) / d = 1 - t / d) by (field; exact N).
  exists (eased_in_R (shape_R k) (d - t) b c d), (eased_out_R (shape_R k) t b c d).
  split; [apply in_is; [exact N|intros _; rewrite E; lra]|]. split; [apply out_is; [exact N|intros _; lra]|]. unfold eased_in_R, eased_out_R. rewrite E. ring.
Qed.
Lemma unit_time : forall t d, 0 < d -> 0 <= t <= d -> 0 <= t / d <= 1.
Proof.
  intros t d D T. assert (N : d <> 0) by lra. split; [apply Rmult_le_pos; [lra|]; left; now apply Rinv_0_lt_compat|].
  apply (Rmult_le_reg_r d); [exact D|]. replace (t / d * d) with t by (field; exact N). lra.
Qed.
Lemma time_le : forall t t' d, 0 < d -> t <= t' -> t / d <= t' / d.
Proof. intros. apply Rmult_le_compat_r; [left; now apply Rinv_0_lt_compat|assumption]. Qed.
Lemma shape_mid : forall k, k <> Elastic -> inOut_shape_R k = shape_R k.
Proof. destruct k; intros H; try reflexivity. contradiction. Qed.
Lemma inOut_reflection_R : forall k t b c d, 0 < d -> 0 <= t <= d -> exists x y, inOut_R k RL (d - t) b c d = Ok x /\ inOut_R k RL t b c d = Ok y /\ x + y = 2 * b + c.
Proof.
  intros k t b c d D T. assert (N : d <> 0) by lra. pose proof (unit_time t d D T) as R1. assert (E : (d - t) / d = 1 - t / d) by (field; exact N).
  exists (eased_inOut_R (inOut_shape_R k) (d - t) b c d), (eased_inOut_R (inOut_shape_R k) t b c d).
  split; [apply inOut_is; [exact N|intros _; rewrite E; lra]|]. split; [apply inOut_is; [exact N|intros _; lra]|].
  unfold eased_inOut_R. cbv zeta. rewrite E. set (x := t / d) in *. clearbody x.
  destruct (Rlt_dec (1 - x) (1 / 2)) as [A|A]; destruct (Rlt_dec x (1 / 2)) as [B|B]; try lra.
  - replace (2 - 2 * x) with (2 * (1 - x)) by ring. field.
  - replace (2 - 2 * (1 - x)) with (2 * x) by ring. field.
  - replace x with (1 / 2) by lra. replace (2 - 2 * (1 - 1 / 2)) with 1 by field. replace (2 - 2 * (1 / 2)) with 1 by field.
    assert (I1 : inOut_shape_R k 1 = 1) by (destruct k; try apply (shape_1 Sine); try apply (shape_1 Circ); try apply (shape_1 Expo); cbn; apply swing_1; lra).
    rewrite I1. field.
Qed.

(** ** Never going back *)
Lemma shape_steady : forall k x y, k <> Elastic -> 0 <= x -> x <= y -> y <= 1 -> shape_R k x <= shape_R k y.
Proof.
  intros k x y K X XY Y. destruct k; [| |contradiction|]; cbn.
  - unfold quarter_wave. enough (cos (y * (PI / 2)) <= cos (x * (PI / 2))) by lra. pose proof PI_RGT_0. apply cos_decr_1; nra.
  - unfold quarter_circle. enough (sqrt (1 - y ^ 2) <= sqrt (1 - x ^ 2)) by lra. apply sqrt_le_1; nra.
  - unfold powers_of_two. destruct (Req_EM_T x 0) as [->|NX]; destruct (Req_EM_T y 0) as [->|NY]; try lra.
    + left. apply two_to_pos.
    + apply two_to_le. lra.
Qed.
Lemma shape_inside : forall k x, k <> Elastic -> 0 <= x <= 1 -> 0 <= shape_R k x <= 1.
Proof.
  intros k x K X. pose proof (shape_steady k 0 x K ltac:(lra) ltac:(lra) ltac:(lra)) as A. pose proof (shape_steady k x 1 K ltac:(lra) ltac:(lra) ltac:(lra)) as B.
  rewrite shape_0 in A. rewrite shape_1 in B. lra.
Qed.
Lemma steady_R : forall k t t' b c d, k <> Elastic -> 0 <= c -> 0 <= t -> t <= t' -> t' <= d -> 0 < d ->
  (exists x x', in_R k LR t b c d = Ok x /\ in_R k LR t' b c d = Ok x' /\ b <= x <= x' /\ x' <= b + c) /\
  (exists x x', out_R k LR t b c d = Ok x /\ out_R k LR t' b c d = Ok x' /\ b <= x <= x' /\ x' <= b + c) /\
  (exists x x', inOut_R k RL t b c d = Ok x /\ inOut_R k RL t' b c d = Ok x' /\ b <= x <= x' /\ x' <= b + c).
Proof.
  intros k t t' b c d K C T TT T' D. assert (N : d <> 0) by lra. pose proof (unit_time t d D ltac:(lra)) as R1. pose proof (unit_time t' d D ltac:(lra)) as R2.
  pose proof (time_le t t' d D TT) as R3.
  rewrite !in_is, !out_is, !inOut_is by (try exact N; intros; lra). rewrite shape_mid by exact K. unfold eased_in_R, eased_out_R, eased_inOut_R. cbv zeta.
  set (x := t / d) in *. set (y := t' / d) in *. clearbody x y.
  pose proof (shape_inside k x K R1). pose proof (shape_inside k y K R2). pose proof (shape_inside k (1 - x) K ltac:(lra)). pose proof (shape_inside k (1 - y) K ltac:(lra)).
  pose proof (shape_steady k x y K ltac:(lra) R3 ltac:(lra)) as S1. pose proof (shape_steady k (1 - y) (1 - x) K ltac:(lra) ltac:(lra) ltac:(lra)) as S2.
  split; [|split].
  - do 2 eexists. split; [reflexivity|]. split; [reflexivity|]. nra.
  - do 2 eexists. split; [reflexivity|]. split; [reflexivity|]. nra.
  - assert (G : 0 <= (if Rlt_dec x (1 / 2) then shape_R k (2 * x) / 2 else 1 - shape_R k (2 - 2 * x) / 2)
              <= (if Rlt_dec y (1 / 2) then shape_R k (2 * y) / 2 else 1 - shape_R k (2 - 2 * y) / 2)
              /\ (if Rlt_dec y (1 / 2) then shape_R k (2 * y) / 2 else 1 - shape_R k (2 - 2 * y) / 2) <= 1).
    { destruct (Rlt_dec x (1 / 2)) as [A|A]; destruct (Rlt_dec y (1 / 2)) as [B|B]; try lra.
      - pose proof (shape_steady k (2 * x) (2 * y) K ltac:(lra) ltac:(lra) ltac:(lra)). pose proof (shape_inside k (2 * x) K ltac:(lra)). pose proof (shape_inside k (2 * y) K ltac:(lra)). lra.
      - pose proof (shape_inside k (2 * x) K ltac:(lra)). pose proof (shape_inside k (2 - 2 * y) K ltac:(lra)). lra.
      - pose proof (shape_steady k (2 - 2 * y) (2 - 2 * x) K ltac:(lra) ltac:(lra) ltac:(lra)). pose proof (shape_inside k (2 - 2 * x) K ltac:(lra)). pose proof (shape_inside k (2 - 2 * y) K ltac:(lra)). lra. }
    do 2 eexists. split; [reflexivity|]. split; [reflexivity|].
    set (u := if Rlt_dec x (1 / 2) then _ else _) in *. set (v := if Rlt_dec y (1 / 2) then _ else _) in *. clearbody u v. nra.
Qed.

(** ** Elastic: how far it swings *)
Lemma swing_bound : forall q x, Rabs (swing q x) <= two_to (10 * (x - 1)).
Proof.
  intros q x. unfold swing. pose proof (two_to_pos (10 * (x - 1))) as P. destruct (Req_EM_T x 0); [rewrite Rabs_R0; lra|].
  rewrite Rabs_mult, (Rabs_pos_eq (two_to _)) by lra. pose proof (COS_bound ((1 - x) * (2 * PI / q))) as [A B].
  assert (Rabs (cos ((1 - x) * (2 * PI / q))) <= 1) by (apply Rabs_le; lra). nra.
Qed.
Lemma elastic_bound : forall t b c d, d <> 0 -> exists x y,
  elastic_in LR t b c d = Ok x /\ elastic_out LR t b c d = Ok y /\
  Rabs (x - b) <= Rabs c * two_to (10 * (t / d - 1)) /\ Rabs (y - (b + c)) <= Rabs c * two_to (-10 * (t / d)).
Proof.
  intros t b c d D. exists (eased_in_R (shape_R Elastic) t b c d), (eased_out_R (shape_R Elastic) t b c d).
  split; [apply (in_is Elastic); [exact D|discriminate]|]. split; [apply (out_is Elastic); [exact D|discriminate]|].
  unfold eased_in_R, eased_out_R, shape_R. split.
  - replace (b + c * swing (3 / 10) (t / d) - b) with (c * swing (3 / 10) (t / d)) by ring. rewrite Rabs_mult.
    apply Rmult_le_compat_l; [apply Rabs_pos|]. apply swing_bound.
  - replace (b + c * (1 - swing (3 / 10) (1 - t / d)) - (b + c)) with (- (c * swing (3 / 10) (1 - t / d))) by ring. rewrite Rabs_Ropp, Rabs_mult.
    apply Rmult_le_compat_l; [apply Rabs_pos|]. replace (-10 * (t / d)) with (10 * (1 - t / d - 1)) by ring. apply swing_bound.
Qed.
Lemma elastic_beyond : forall b c d, 0 < c -> 0 < d ->
  elastic_in LR (17 / 20 * d) b c d = Ok (b - c * two_to (- (3 / 2))) /\ elastic_out LR (3 / 20 * d) b c d = Ok (b + c + c * two_to (- (3 / 2))) /\ 0 < c * two_to (- (3 / 2)).
Proof.
  intros b c d C D. assert (N : d <> 0) by lra.
  assert (S : swing (3 / 10) (17 / 20) = - two_to (- (3 / 2))).
  { unfold swing. destruct (Req_EM_T (17 / 20) 0); [lra|]. replace (10 * (17 / 20 - 1)) with (- (3 / 2)) by field.
    replace ((1 - 17 / 20) * (2 * PI / (3 / 10))) with PI by field. rewrite cos_PI. ring. }
  split; [|split].
  - change (in_R Elastic LR (17 / 20 * d) b c d = Ok (b - c * two_to (- (3 / 2)))). rewrite in_is; [|exact N|discriminate]. f_equal. unfold eased_in_R, shape_R.
    replace (17 / 20 * d / d) with (17 / 20) by (field; exact N). rewrite S. ring.
  - change (out_R Elastic LR (3 / 20 * d) b c d = Ok (b + c + c * two_to (- (3 / 2)))). rewrite out_is; [|exact N|discriminate]. f_equal. unfold eased_out_R, shape_R.
    replace (1 - 3 / 20 * d / d) with (17 / 20) by (field; exact N). rewrite S. ring.
  - apply Rmult_lt_0_compat; [exact C|apply two_to_pos].
Qed.
(** ** Expo: the steps at its ends *)
Lemma expo_step : forall t b c d, 0 <= c -> 0 < d ->
  (0 < t -> exists x, expo_in LR t b c d = Ok x /\ b + c / 1024 <= x) /\ (t < d -> exists x, expo_out LR t b c d = Ok x /\ x <= b + c - c / 1024).
Proof.
  intros t b c d C D. assert (N : d <> 0) by lra.
  assert (P : forall x, 0 <= x -> x <> 0 -> / 1024 <= powers_of_two x).
  { intros x X NX. unfold powers_of_two. destruct (Req_EM_T x 0); [contradiction|]. rewrite <- two_to_m10. apply two_to_le. lra. }
  split; intros H.
  - exists (eased_in_R (shape_R Expo) t b c d). split; [apply (in_is Expo); [exact N|discriminate]|]. unfold eased_in_R, shape_R.
    assert (X : 0 < t / d) by (apply Rmult_lt_0_compat; [exact H|now apply Rinv_0_lt_compat]). pose proof (P (t / d) ltac:(lra) ltac:(lra)). nra.
  - exists (eased_out_R (shape_R Expo) t b c d). split; [apply (out_is Expo); [exact N|discriminate]|]. unfold eased_out_R, shape_R.
    assert (X : 0 < 1 - t / d). { replace (1 - t / d) with ((d - t) / d) by (field; exact N). apply Rmult_lt_0_compat; [lra|now apply Rinv_0_lt_compat]. }
    pose proof (P (1 - t / d) ltac:(lra) ltac:(lra)). nra.
Qed.
(** ** Circ: no order of evaluation gives all three kinds *)
Lemma circ_half : forall b c d, 0 < c -> 0 < d -> circ_inOut LR (d / 2) b c d = Ok (b + c / 2 + c / 2 * sqrt 2) /\ b + c < b + c / 2 + c / 2 * sqrt 2 /\
  circ_inOut RL (d / 2) b c d = Ok (b + c / 2).
Proof.
  intros b c d C D. assert (N : d <> 0) by lra. split; [|split].
  - unfold circ_inOut. rewrite nzr_ok by exact N. cbv zeta. replace (d / 2 / (d / 2)) with 1 by (field; exact N). destruct (Rlt_dec 1 1); [lra|].
    replace (1 - 1 * (1 - 2)) with 2 by ring. rewrite root_ok by lra. f_equal. ring.
  - assert (1 < sqrt 2) by (rewrite <- sqrt_1 at 1; apply sqrt_lt_1; lra). nra.
  - change (inOut_R Circ RL (d / 2) b c d = Ok (b + c / 2)). assert (E : d / 2 / d = 1 / 2) by (field; exact N). rewrite inOut_is by (try exact N; intros; rewrite E; lra).
    unfold eased_inOut_R. cbv zeta. rewrite E. destruct (Rlt_dec (1 / 2) (1 / 2)); [lra|]. replace (2 - 2 * (1 / 2)) with 1 by field.
    change (inOut_shape_R Circ 1) with (shape_R Circ 1). rewrite shape_1. f_equal. field.
Qed.
Lemma circ_other : exists x y, circ_in RL 1 0 1 2 = Ok x /\ circ_in LR 1 0 1 2 = Ok y /\ x <> y.
Proof.
  exists (- (1) * (sqrt (1 / 2) - 1) + 0), (- (1) * (sqrt (3 / 4) - 1) + 0). split; [|split].
  - unfold circ_in. rewrite nzr_ok by lra. cbv zeta. cbn [read_R]. replace (1 - 1 / 2 * 1) with (1 / 2) by field. rewrite root_ok by lra. f_equal.
  - unfold circ_in. rewrite nzr_ok by lra. cbv zeta. cbn [read_R]. replace (1 - 1 / 2 * (1 / 2)) with (3 / 4) by field. rewrite root_ok by lra. f_equal.
  - intros E. assert (L : sqrt (1 / 2) < sqrt (3 / 4)) by (apply sqrt_lt_1; lra). lra.
Qed.
Lemma order_R : (forall b c d, 0 < c -> 0 < d -> circ_inOut LR (d / 2) b c d = Ok (b + c / 2 + c / 2 * sqrt 2) /\ b + c < b + c / 2 + c / 2 * sqrt 2 /\
    circ_inOut RL (d / 2) b c d = Ok (b + c / 2)) /\
  (exists x y, circ_in RL 1 0 1 2 = Ok x /\ circ_in LR 1 0 1 2 = Ok y /\ x <> y).
Proof. exact (conj circ_half circ_other). Qed.
