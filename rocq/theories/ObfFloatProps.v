(** C108: obfuscated floats. *)
From Coq Require Import String Ascii ZArith NArith Arith Bool Lia List QArith Qabs.
From Coq Require Import Floats.SpecFloat.
From Verif Require Import Common RealSpec FltSpec AngleSpec ObfModel ObfFloatModel ObfFloatSpec ObfFloatProofs ObfFloatHistProofs.
Import ListNotations.
Local Open Scope Q_scope.

(** C108. What is read after storing a float: the float nearest to its six-digit decimal; nothing else fits. *)
Theorem C108_kept : forall f, valid_binary 24 128 f = true ->
  exists g, obind (obff_set f) obff_get = Ok g /\ valid_binary 24 128 g = true /\ kept f g /\ forall h, kept f h -> h = g.
Proof.
  intros f V. destruct (keep_kept f V) as [K Vk]. exists (keep f). refine (conj (get_set f) (conj Vk (conj K _))). intros h Kh. exact (kept_one f h _ V Kh K).
Qed.
Print Assumptions C108_kept.
(** C108. It is the float itself exactly for zeros and the floats nearest to a decimal of six digits. *)
Theorem C108_survives : forall f, valid_binary 24 128 f = true -> (obind (obff_set f) obff_get = Ok f <-> six_float_value f).
Proof.
  intros f V. rewrite get_set. rewrite <- (keep_six_iff f V). split; [intros [= E]; exact E|]. intros E. f_equal. exact E.
Qed.
Print Assumptions C108_survives.
(** C108. Whole numbers up to a million are kept. *)
Theorem C108_whole : forall f z, float_is f (inject_Z z) -> (Z.abs z <= 10 ^ 6)%Z -> obind (obff_set f) obff_get = Ok f.
Proof. intros f z F H. rewrite get_set. f_equal. exact (keep_whole f z F H). Qed.
Print Assumptions C108_whole.
(** C108. Storing what was read loses nothing more. *)
Theorem C108_again : forall f, valid_binary 24 128 f = true ->
  exists g, obind (obff_set f) obff_get = Ok g /\ obind (obff_set g) obff_get = Ok g.
Proof. intros f V. exists (keep f). rewrite !get_set. split; [reflexivity|]. f_equal. exact (keep_again f V). Qed.
Print Assumptions C108_again.
(** C108. At most about five millionths of a normal number are lost. *)
Theorem C108_error : forall f q, float_is f q -> times_pow 2 1 (-126) <= Qabs q ->
  exists g y, obind (obff_set f) obff_get = Ok g /\ float_is g y /\ Qabs (y - q) <= (51 # 10000000) * Qabs q.
Proof. intros f q F L. destruct (keep_error f q F L) as (y & H). exists (keep f), y. exact (conj (get_set f) H). Qed.
Print Assumptions C108_error.
(** C108. Any history of assignments and compound assignments: every value is what is left of the operation on the value
    before. *)
Theorem C108_history : forall v h, valid_binary 24 128 v = true -> Forall operand h ->
  exists v0 vs, obff_start v h = Ok (v0 :: vs) /\ kept v v0 /\ obf_history v0 h vs /\
    forall w0 ws, kept v w0 -> obf_history w0 h ws -> w0 = v0 /\ ws = vs.
Proof. exact start_history. Qed.
Print Assumptions C108_history.
(** C108. Division by a zero of either sign violates the assertion, whatever was done before. *)
Theorem C108_division : forall v h w rest, Forall operand h -> valid_binary 24 128 w = true -> has_value w 0 ->
  obff_start v (h ++ FBin Div w :: rest) = UB.
Proof. exact start_div_zero. Qed.
Print Assumptions C108_division.
(** C108. It behaves like a plain float as long as that takes six-digit values only. *)
Theorem C108_plain : forall v h, Forall operand h -> Forall six_float_value (plain_history v h) -> obff_start v h = Ok (plain_history v h).
Proof. exact start_plain. Qed.
Print Assumptions C108_plain.
(** C108. Expected: a counter counts.  Refuted: incremented by one it stops at a million and stays there for ever. *)
Theorem C108_counter_refuted : forall n, exists one vs, float_is one 1 /\
  obff_start (S754_zero false) (repeat (FBin Add one) n) = Ok vs /\ length vs = S n /\
  forall i g, nth_error vs i = Some g -> float_is g (inject_Z (Z.min (Z.of_nat i) (10 ^ 6))).
Proof. intros n. destruct (count_all n) as (vs & H). exists one, vs. split; [split; reflexivity|exact H]. Qed.
Print Assumptions C108_counter_refuted.
(** C108. Expected: what is stored is read back.  Refuted: digits after the sixth are lost, in each step again. *)
Theorem C108_digits_refuted : exists f g third w, float_is f 16777216 /\ float_is g 16777200 /\ obind (obff_set f) obff_get = Ok g /\
  third = SFdiv 24 128 (S754_finite false 8388608 (-23)) (S754_finite false 12582912 (-22)) /\
  obff_start third [FBin Mul (S754_finite false 12582912 (-22))] = Ok [w; S754_finite false 16777199 (-24)] /\
  SFmul 24 128 third (S754_finite false 12582912 (-22)) = S754_finite false 8388608 (-23).
Proof.
  exists (S754_finite false 8388608 1), (S754_finite false 16777200 0), (S754_finite false 11184811 (-25)), (S754_finite false 11184799 (-25)).
  refine (conj (conj eq_refl _) (conj (conj eq_refl _) (conj _ (conj _ (conj _ _))))); vm_compute; reflexivity.
Qed.
Print Assumptions C108_digits_refuted.
(** C108. Expected: a value grown too large stays large.  Refuted: infinity is stored as a text that reads as 0. *)
Theorem C108_overflow_refuted : exists f two, nearest_float (times_pow 10 3 38) (times_pow 2 14791142 104) /\ float_is f (times_pow 2 14791142 104) /\ float_is two 2 /\
  obff_start f [FBin Mul two] = Ok [f; S754_zero false].
Proof.
  exists (S754_finite false 14791142 104), (S754_finite false 8388608 (-22)).
  refine (conj near_3e38 (conj (conj eq_refl _) (conj (conj eq_refl _) _))); vm_compute; reflexivity.
Qed.
Print Assumptions C108_overflow_refuted.

(** Cases. *)
Example C108_kept_case : valid_binary 24 128 (S754_finite true 11184811 (-25)) = true /\
  obind (obff_set (S754_finite true 11184811 (-25))) obff_get = Ok (S754_finite true 11184799 (-25)) /\
  obind (obff_set (S754_finite false 1 (-149))) obff_get = Ok (S754_finite false 1 (-149)) /\
  obind (obff_set (S754_finite false 16777215 104)) obff_get = Ok (S754_finite false 16777198 104) /\
  obind (obff_set (S754_zero true)) obff_get = Ok (S754_zero true) /\ obind (obff_set S754_nan) obff_get = Ok (S754_zero false).
Proof. repeat split; vm_compute; reflexivity. Qed.
Example C108_survives_case : six_float_value (S754_finite false 13421773 (-27)) /\ ~ six_float_value (S754_finite false 11184811 (-25)).
Proof.
  split.
  - apply C108_survives; vm_compute; reflexivity.
  - intros H. apply C108_survives in H; [|reflexivity]. vm_compute in H. discriminate H.
Qed.
Example C108_history_case : Forall operand [FBin Add (S754_finite false 13421773 (-27)); FBin Div (S754_finite false 12582912 (-22)); FSet (S754_finite true 8388608 (-23))] /\
  obff_start (S754_finite false 8388608 (-23))
    [FBin Add (S754_finite false 13421773 (-27)); FBin Div (S754_finite false 12582912 (-22)); FSet (S754_finite true 8388608 (-23))] =
  Ok [S754_finite false 8388608 (-23); S754_finite false 9227469 (-23); S754_finite false 12303303 (-25); S754_finite true 8388608 (-23)].
Proof.
  split; [|vm_compute; reflexivity]. repeat constructor; try exact I. intros H. vm_compute in H. discriminate H.
Qed.
Example C108_plain_case : obff_start (S754_zero false) [FBin Add (S754_finite false 12582912 (-23)); FBin Mul (S754_finite false 12582912 (-23))] =
    Ok (plain_history (S754_zero false) [FBin Add (S754_finite false 12582912 (-23)); FBin Mul (S754_finite false 12582912 (-23))]) /\
  Forall six_float_value (plain_history (S754_zero false) [FBin Add (S754_finite false 12582912 (-23)); FBin Mul (S754_finite false 12582912 (-23))]).
Proof.
  split; [vm_compute; reflexivity|]. repeat constructor; apply C108_survives; vm_compute; reflexivity.
Qed.
