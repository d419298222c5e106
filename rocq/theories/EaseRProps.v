(** C95: the easing curves that use sin, cos, sqrt and powers, over the real numbers. *)
From Coq Require Import String Reals Lra.
From Verif Require Import Common EaseModel EaseRModel EaseRSpec EaseRProofs.
Local Open Scope R_scope.

(** C95: the three kinds follow their shapes at every time, Circ where the root exists. *)
Theorem C95_in : forall k t b c d, d <> 0 -> (k = Circ -> -1 <= t / d <= 1) -> in_R k LR t b c d = Ok (eased_in_R (shape_R k) t b c d).
Proof. exact in_is. Qed.
Print Assumptions C95_in.
Theorem C95_out : forall k t b c d, d <> 0 -> (k = Circ -> 0 <= t / d <= 2) -> out_R k LR t b c d = Ok (eased_out_R (shape_R k) t b c d).
Proof. exact out_is. Qed.
Print Assumptions C95_out.
Theorem C95_inOut : forall k t b c d, d <> 0 -> (k = Circ -> - (1 / 2) <= t / d <= 3 / 2) -> inOut_R k RL t b c d = Ok (eased_inOut_R (inOut_shape_R k) t b c d).
Proof. exact inOut_is. Qed.
Print Assumptions C95_inOut.
Example C95_shape_ex : (2 <> 0 /\ (Circ = Circ -> -1 <= 6 / 5 / 2 <= 1)) /\ eased_in_R (shape_R Circ) (6 / 5) 10 5 2 = 11.
Proof.
  split; [split; [lra|intros _; lra]|]. unfold eased_in_R, shape_R, quarter_circle. replace (1 - (6 / 5 / 2) ^ 2) with ((4 / 5) ^ 2) by field.
  rewrite <- Rsqr_pow2, sqrt_Rsqr by lra. lra.
Qed.
(** C95: Circ has no value outside; a zero duration is a violated assertion. *)
Theorem C95_circ_outside : forall t b c d, d <> 0 ->
  (1 < Rabs (t / d) -> circ_in LR t b c d = NaN) /\ (1 < Rabs (t / d - 1) -> circ_out LR t b c d = NaN) /\
  (t / d < - (1 / 2) \/ 3 / 2 < t / d -> circ_inOut RL t b c d = NaN).
Proof. exact circ_nan. Qed.
Print Assumptions C95_circ_outside.
Theorem C95_zero_duration : forall k o t b c, in_R k o t b c 0 = UB /\ out_R k o t b c 0 = UB /\ inOut_R k o t b c 0 = UB.
Proof. exact zero_duration_R. Qed.
Print Assumptions C95_zero_duration.
(** C95: they start at the start value and end exactly at start plus change. *)
Theorem C95_ends : forall k b c d, 0 < d ->
  in_R k LR 0 b c d = Ok b /\ in_R k LR d b c d = Ok (b + c) /\ out_R k LR 0 b c d = Ok b /\ out_R k LR d b c d = Ok (b + c) /\
  inOut_R k RL 0 b c d = Ok b /\ inOut_R k RL d b c d = Ok (b + c).
Proof. exact ends_R. Qed.
Print Assumptions C95_ends.
(** C95: out is the point reflection of in, and inOut of itself. *)
Theorem C95_reflection : forall k t b c d, 0 < d -> 0 <= t <= d -> exists x y, in_R k LR (d - t) b c d = Ok x /\ out_R k LR t b c d = Ok y /\ x + y = 2 * b + c.
Proof. exact reflection_R. Qed.
Print Assumptions C95_reflection.
Theorem C95_inOut_reflection : forall k t b c d, 0 < d -> 0 <= t <= d -> exists x y, inOut_R k RL (d - t) b c d = Ok x /\ inOut_R k RL t b c d = Ok y /\ x + y = 2 * b + c.
Proof. exact inOut_reflection_R. Qed.
Print Assumptions C95_inOut_reflection.
(** C95: all but Elastic never go back and stay between the ends. *)
Theorem C95_steady : forall k t t' b c d, k <> Elastic -> 0 <= c -> 0 <= t -> t <= t' -> t' <= d -> 0 < d ->
  (exists x x', in_R k LR t b c d = Ok x /\ in_R k LR t' b c d = Ok x' /\ b <= x <= x' /\ x' <= b + c) /\
  (exists x x', out_R k LR t b c d = Ok x /\ out_R k LR t' b c d = Ok x' /\ b <= x <= x' /\ x' <= b + c) /\
  (exists x x', inOut_R k RL t b c d = Ok x /\ inOut_R k RL t' b c d = Ok x' /\ b <= x <= x' /\ x' <= b + c).
Proof. exact steady_R. Qed.
Print Assumptions C95_steady.
(* A third of the way in time is half of the way for Sine; all hypotheses hold of it. *)
Example C95_steady_ex : sine_inOut RL 1 10 4 3 = Ok 11 /\ (Sine <> Elastic /\ 0 <= 4 /\ 0 <= 1 /\ 1 <= 2 /\ 2 <= 3 /\ 0 < 3).
Proof.
  split; [|split; [discriminate|lra]]. unfold sine_inOut. rewrite nzr_ok by lra. f_equal. replace (PI * 1 / 3) with (PI / 3) by field. rewrite cos_PI3. field.
Qed.
(** C95: Elastic swings about its ends, never further than the power of two says, and does leave the range. *)
Theorem C95_elastic_bound : forall t b c d, d <> 0 -> exists x y,
  elastic_in LR t b c d = Ok x /\ elastic_out LR t b c d = Ok y /\
  Rabs (x - b) <= Rabs c * two_to (10 * (t / d - 1)) /\ Rabs (y - (b + c)) <= Rabs c * two_to (-10 * (t / d)).
Proof. exact elastic_bound. Qed.
Print Assumptions C95_elastic_bound.
Theorem C95_elastic_beyond : forall b c d, 0 < c -> 0 < d ->
  elastic_in LR (17 / 20 * d) b c d = Ok (b - c * two_to (- (3 / 2))) /\ elastic_out LR (3 / 20 * d) b c d = Ok (b + c + c * two_to (- (3 / 2))) /\ 0 < c * two_to (- (3 / 2)).
Proof. exact elastic_beyond. Qed.
Print Assumptions C95_elastic_beyond.
(** C95, finding: Expo jumps by a 1024th of the change right after the start (in) and at the end (out). *)
Theorem C95_expo_step_refuted : forall t b c d, 0 <= c -> 0 < d ->
  (0 < t -> exists x, expo_in LR t b c d = Ok x /\ b + c / 1024 <= x) /\ (t < d -> exists x, expo_out LR t b c d = Ok x /\ x <= b + c - c / 1024).
Proof. exact expo_step. Qed.
Print Assumptions C95_expo_step_refuted.
(** C95, finding: evaluated left to right, Circ's inOut jumps above the end at half time; evaluated the other
    way Circ's in is another curve. *)
Theorem C95_circ_order_refuted : (forall b c d, 0 < c -> 0 < d -> circ_inOut LR (d / 2) b c d = Ok (b + c / 2 + c / 2 * sqrt 2) /\ b + c < b + c / 2 + c / 2 * sqrt 2 /\
    circ_inOut RL (d / 2) b c d = Ok (b + c / 2)) /\
  (exists x y, circ_in RL 1 0 1 2 = Ok x /\ circ_in LR 1 0 1 2 = Ok y /\ x <> y).
Proof. exact order_R. Qed.
Print Assumptions C95_circ_order_refuted.
