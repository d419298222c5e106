(** C112: the power curves in single precision. *)
From Coq Require Import ZArith Arith Bool Lia List QArith Qabs.
From Coq Require Import Floats.SpecFloat.
From Verif Require Import Common RealSpec FltSpec AngleSpec AngleModel EaseSpec EaseFModel EaseFSpec EaseFProofs EaseFErrProofs.
Import ListNotations.
Local Open Scope Q_scope.

(** Ten of the twelve curves start at the start, never go back, end at the float nearest to the end and never pass it. *)
Theorem C112_climb : Forall climbs
  [fquad_in; fquad_inOut; fcubic_in; fcubic_out; fquart_in; fquart_out; fquart_inOut; fquint_in; fquint_out; fquint_inOut].
Proof. exact curves_climb. Qed.
Print Assumptions C112_climb.
(** Every curve stays within 2^-19 of the change and 2^-24 of the start from the exact value. *)
Theorem C112_follow : follows modest flinear (exact_in 1) /\
  follows usual fquad_in (exact_in 2) /\ follows usual fquad_out (exact_out 2) /\ follows usual fquad_inOut (exact_inOut 2) /\
  follows usual fcubic_in (exact_in 3) /\ follows usual fcubic_out (exact_out 3) /\
  follows usual fquart_in (exact_in 4) /\ follows usual fquart_out (exact_out 4) /\ follows usual fquart_inOut (exact_inOut 4) /\
  follows usual fquint_in (exact_in 5) /\ follows usual fquint_out (exact_out 5) /\ follows usual fquint_inOut (exact_inOut 5).
Proof. exact curves_follow. Qed.
Print Assumptions C112_follow.
(** The two others.  Linear starts at the start and never goes back. *)
Theorem C112_linear : forall f f' fb fc fd t t' b c d, float_is f t -> float_is f' t' -> float_is fb b -> float_is fc c -> float_is fd d ->
  modest t b c d -> modest t' b c d -> t <= t' ->
  exists r r' q q', flinear f fb fc fd = Ok r /\ flinear f' fb fc fd = Ok r' /\ float_is r q /\ float_is r' q' /\ b <= q /\ q <= q' /\ (t == 0 -> q == b).
Proof. exact linear_climbs. Qed.
Print Assumptions C112_linear.
(** Full statement that fails: it also ends at the end.  From 0 by 0.1 in 0.1 it ends above 0.1. *)
Theorem C112_linear_end_refuted : exists f fb fc fd t c, float_is f t /\ float_is fb 0 /\ float_is fc c /\ float_is fd t /\ modest t 0 c t /\
  exists r q, flinear f fb fc fd = Ok r /\ float_is r q /\ c < q.
Proof. exact linear_end. Qed.
Print Assumptions C112_linear_end_refuted.
(** Quad out starts and ends where it should. *)
Theorem C112_quad_out_ends : forall f fb fc fd t b c d e, float_is f t -> float_is fb b -> float_is fc c -> float_is fd d ->
  usual t b c d -> nearest_float (b + c) e ->
  (t == 0 -> exists r, fquad_out f fb fc fd = Ok r /\ float_is r b) /\ (t == d -> exists r, fquad_out f fb fc fd = Ok r /\ float_is r e).
Proof. exact quad_out_ends. Qed.
Print Assumptions C112_quad_out_ends.
(** Full statement that fails: it never goes back.  It does at the last two times before the end of 0 to 1. *)
Theorem C112_quad_out_back_refuted : exists f f' fb fc fd t t', float_is f t /\ float_is f' t' /\ float_is fb 0 /\ float_is fc 1 /\ float_is fd 1 /\
  0 <= t /\ t < t' /\ t' <= 1 /\ exists r r' q q', fquad_out f fb fc fd = Ok r /\ fquad_out f' fb fc fd = Ok r' /\ float_is r q /\ float_is r' q' /\ q' < q.
Proof. exact quad_out_back. Qed.
Print Assumptions C112_quad_out_back_refuted.
(** Nor that it never passes its end. *)
Theorem C112_quad_out_past_refuted : exists f fb fc fd t c, float_is f t /\ float_is fb 0 /\ float_is fc c /\ float_is fd 1 /\ 0 <= t /\ t < 1 /\ 1 <= c /\ c <= 2 /\
  exists r q, fquad_out f fb fc fd = Ok r /\ float_is r q /\ c < q.
Proof. exact quad_out_past. Qed.
Print Assumptions C112_quad_out_past_refuted.
(** Falling instead of climbing mirrors the values, whatever the arguments. *)
Theorem C112_mirror : forall k, In k [flinear; fquad_in; fquad_out; fquad_inOut; fcubic_in; fcubic_out; fquart_in; fquart_out; fquart_inOut; fquint_in; fquint_out; fquint_inOut] ->
  forall t b c d, mirrored (k t b c d) (k t (SFopp b) (SFopp c) d).
Proof. exact curves_mirror. Qed.
Print Assumptions C112_mirror.
(** Undefined exactly for the duration 0. *)
Theorem C112_zero : forall k, In k [flinear; fquad_in; fquad_out; fquad_inOut; fcubic_in; fcubic_out; fquart_in; fquart_out; fquart_inOut; fquint_in; fquint_out; fquint_inOut] ->
  forall t b c d, k t b c d = UB <-> has_value d 0.
Proof. exact curves_zero. Qed.
Print Assumptions C112_zero.

(** A quarter of the way from 1 by 8 in 1: 1 + 8 * (1 - (3/4)^3) = 5.625. *)
Example C112_case : exists r, fcubic_out (S754_finite false 8388608 (-25)) f1 (S754_finite false 8388608 (-20)) f1 = Ok r /\ float_is r (45 # 8) /\ usual (1 # 4) 1 8 1 /\ modest (1 # 4) 1 8 1.
Proof.
  exists (S754_finite false 11796480 (-21)). split; [reflexivity|]. split; [split; reflexivity|]. split; repeat split; unfold Qle; vm_compute; discriminate.
Qed.
