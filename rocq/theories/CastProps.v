(** Property theorems of the number conversions and of frame times. *)
From Coq Require Import String Ascii ZArith NArith Arith Bool Lia ZifyBool List.
From Coq Require Import Floats.SpecFloat.
From Verif Require Import Common CastModel CastSpec.
From Verif Require IntToStrModel IntToStrSpec.
From Verif Require Import CastProofs Cast32Proofs.
Import ListNotations.
Local Open Scope Z_scope.

(** C96. Reading an [int]: exactly the number at the start of the text; without one, or out of range, the process ends. *)
Theorem C96_int_text : forall s,
  (forall z, sToInt s = Ok z <-> number s z /\ -2147483648 <= z <= 2147483647) /\
  ((forall z, number s z -> ~ -2147483648 <= z <= 2147483647) -> sToInt s = terminated).
Proof. exact int_text_ok. Qed.
Print Assumptions C96_int_text.
Example C96_int_text_example :
  sToInt (lit "  -42px") = Ok (-42) /\ sToInt (lit "+7") = Ok 7 /\ sToInt (lit "x1") = terminated /\
  sToInt (lit "") = terminated /\ sToInt (lit "- 1") = terminated /\
  sToInt (lit "2147483647") = Ok 2147483647 /\ sToInt (lit "2147483648") = terminated.
Proof. vm_compute. repeat split; reflexivity. Qed.

(** C96. Reading a size: numbers outside the range of [long] end the process, negative ones wrap around. *)
Theorem C96_size_text : forall s,
  (forall n, sToSizeT s = Ok n <->
     exists z, number s z /\ LONG_MIN <= z <= LONG_MAX /\ n = if z <? 0 then 2 ^ 64 + z else z) /\
  ((forall z, number s z -> ~ LONG_MIN <= z <= LONG_MAX) -> sToSizeT s = terminated).
Proof. exact size_text_ok. Qed.
Print Assumptions C96_size_text.

(** C96. What the decimal numeral of a number reads as. *)
Theorem C96_numeral_back : forall n s, IntToStrSpec.decimal n s ->
  sToInt s = (if (-2147483648 <=? n) && (n <=? 2147483647) then Ok n else terminated) /\
  sToSizeT s = (if (LONG_MIN <=? n) && (n <=? LONG_MAX) then Ok (if n <? 0 then 2 ^ 64 + n else n) else terminated).
Proof. exact numeral_back. Qed.
Print Assumptions C96_numeral_back.
Example C96_numeral_example :
  sToSizeT (lit "1234567890123") = Ok 1234567890123 /\ sToSizeT (lit "-1") = Ok 18446744073709551615.
Proof. vm_compute. repeat split; reflexivity. Qed.

(** C96. Expected: every [size_t] can be read back.  Refuted: the upper half of the range ends the process. *)
Theorem C96_size_back_refuted : exists n s, 0 <= n < 2 ^ 64 /\ IntToStrSpec.decimal n s /\ sToSizeT s = terminated.
Proof.
  exists 9223372036854775808, (lit "9223372036854775808"). split; [lia|]. split; [|vm_compute; reflexivity].
  left. split; [lia|]. split; [discriminate|]. split; [|split; [discriminate|vm_compute; reflexivity]].
  repeat constructor; discriminate.
Qed.
Print Assumptions C96_size_back_refuted.

(** C96. What [toStr] prints, [sToInt] and [sToSizeT] read. *)
Theorem C96_print_read : forall buf n s, length buf = 9%nat -> INT_MIN <= n <= INT_MAX ->
  IntToStrModel.toStr IntToStrModel.t_int buf n = Ok s -> sToInt s = Ok n.
Proof. exact print_read. Qed.
Print Assumptions C96_print_read.
Theorem C96_print_read_size : forall buf n s, length buf = 19%nat -> 0 <= n < 2 ^ 64 ->
  IntToStrModel.toStr IntToStrModel.t_ulong buf n = Ok s -> sToSizeT s = Ok n.
Proof. exact print_read_size. Qed.
Print Assumptions C96_print_read_size.
Example C96_print_example :
  exists s, IntToStrModel.toStr IntToStrModel.t_int (repeat "x"%char 9) (-1234567) = Ok s /\ sToInt s = Ok (-1234567).
Proof. exists (lit "-1234567"). split; vm_compute; reflexivity. Qed.

(** C96. Between integer types: the one value of the target type that differs by a multiple of 2^width;
    in particular a value that fits is kept. *)
Theorem C96_integers : forall t x, In t itypes ->
  (tmin t <= toNum t x <= tmax t /\ same_mod (2 ^ bits t) (toNum t x) x) /\
  (forall y, tmin t <= y <= tmax t -> same_mod (2 ^ bits t) y x -> y = toNum t x) /\
  (tmin t <= x <= tmax t -> toNum t x = x).
Proof.
  exact (fun t x I => conj (toNum_ok t x (sane_types t I)) (conj (fun y => toNum_unique t x y (sane_types t I)) (toNum_id t x (sane_types t I)))).
Qed.
Print Assumptions C96_integers.
(** C96. Through a type at least as wide and back nothing is lost, whatever the signs. *)
Theorem C96_integers_back : forall t u x, In t itypes -> In u itypes -> bits t <= bits u -> tmin t <= x <= tmax t ->
  toNum t (toNum u x) = x.
Proof. exact (fun t u x I J => toNum_back t u x (sane_types t I) (sane_types u J)). Qed.
Print Assumptions C96_integers_back.
Example C96_integers_example :
  toNum i8 200 = -56 /\ toNum u64 (-1) = 18446744073709551615 /\ toNum i32 (toNum u32 (-7)) = -7 /\ toNum i32 (toNum u8 (-7)) = 249.
Proof. vm_compute. repeat split; reflexivity. Qed.

(** C96. From floating point: the fraction is dropped; undefined exactly when the rest does not fit (or there is none). *)
Theorem C96_truncation : forall t f,
  (forall z, toNum_of_floating t f = Ok z <-> toward_zero f z /\ tmin t <= z <= tmax t) /\
  ((forall z, toward_zero f z -> ~ tmin t <= z <= tmax t) -> toNum_of_floating t f = UB).
Proof. exact of_floating. Qed.
Print Assumptions C96_truncation.
Example C96_truncation_example :
  toNum_of_floating i32 (S754_finite true 15 (-1)) = Ok (-7) /\ toNum_of_floating u8 (S754_finite false 1 8) = UB /\
  toNum_of_floating i64 S754_nan = UB.
Proof. vm_compute. repeat split; reflexivity. Qed.

(** C96. To float: a nearest whole float; so [toNum] gives the number back exactly when it is one of them. *)
Theorem C96_to_float : forall z, Z.abs z < 2 ^ 64 -> exists v, whole_value (toFloat z) v /\ nearest_float z v.
Proof. exact (fun z B => match toFloat_near z B with ex_intro _ v (conj W (conj _ N)) => ex_intro _ v (conj W N) end). Qed.
Print Assumptions C96_to_float.
Theorem C96_float_back : forall t z, In t itypes -> tmin t <= z <= tmax t ->
  (toNum_of_floating t (toFloat z) = Ok z <-> float_whole z).
Proof. exact float_back. Qed.
Print Assumptions C96_float_back.
(** C96. Expected: an [int] converted to [float] and back changes a little at most.  Refuted: undefined for the largest. *)
Theorem C96_float_back_refuted : exists z, tmin i32 <= z <= tmax i32 /\ toNum_of_floating i32 (toFloat z) = UB.
Proof. exists 2147483647. split; [split; discriminate|exact float_near_top]. Qed.
Print Assumptions C96_float_back_refuted.
(** C96. Through double nothing is lost up to 2^53, hence for every [int]. *)
Theorem C96_double_back : forall t z, In t itypes -> tmin t <= z <= tmax t -> Z.abs z <= 2 ^ 53 ->
  toNum_of_floating t (toDouble z) = Ok z.
Proof. exact double_back. Qed.
Print Assumptions C96_double_back.
Example C96_float_example :
  toNum_of_floating i32 (toFloat 16777217) = Ok 16777216 /\ toNum_of_floating i32 (toFloat 1000000) = Ok 1000000 /\
  toNum_of_floating i32 (toDouble 2147483647) = Ok 2147483647.
Proof. vm_compute. repeat split; reflexivity. Qed.

(** C96. Whole frame times: seconds are the frames divided by 60 without remainder... *)
Theorem C96_seconds : forall t n, In t itypes -> tmin t <= n <= tmax t -> Z.abs n < 16777259 ->
  getFTToSeconds t n = Ok (Z.quot n 60).
Proof. exact seconds_int. Qed.
Print Assumptions C96_seconds.
(** ... and that bound is exact. *)
Theorem C96_seconds_refuted : exists n, tmin i32 <= n <= tmax i32 /\ n = 16777259 /\
  getFTToSeconds i32 n = Ok (Z.quot n 60 + 1).
Proof. exists 16777259. vm_compute. repeat split; discriminate. Qed.
Print Assumptions C96_seconds_refuted.
(** C96. Frames are the seconds times 60, undefined when the type cannot hold them. *)
Theorem C96_frames : forall t n, In t itypes -> tmin t <= n <= tmax t -> Z.abs n <= 1118482 ->
  getSecondsToFT t n = if (tmin t <=? 60 * n) && (60 * n <=? tmax t) then Ok (60 * n) else UB.
Proof. exact frames_int. Qed.
Print Assumptions C96_frames.
Theorem C96_frames_refuted : exists n z, tmin i32 <= 60 * n <= tmax i32 /\ n = 1118483 /\
  getSecondsToFT i32 n = Ok z /\ z <> 60 * n.
Proof. exists 1118483, 67108976. vm_compute. repeat split; discriminate. Qed.
Print Assumptions C96_frames_refuted.
(** C96. Frames per second: 60 divided by the frame time, undefined for none. *)
Theorem C96_fps : forall t n, In t itypes -> tmin t <= n <= tmax t ->
  getFTToFPS t n = if n =? 0 then UB else Ok (Z.quot 60 n).
Proof. exact fps_int. Qed.
Print Assumptions C96_fps.
Example C96_frame_example :
  getFTToSeconds i32 (-119) = Ok (-1) /\ getSecondsToFT i8 2 = Ok 120 /\ getSecondsToFT i8 3 = UB /\ getFTToFPS u64 7 = Ok 8.
Proof. vm_compute. repeat split; reflexivity. Qed.
(** C96. Expected: seconds to frames and back (or the other way) is the identity on floats.  Refuted, for ordinary values. *)
Theorem C96_there_and_back_refuted : exists x y,
  getFTToSeconds_f (getSecondsToFT_f x) <> x /\ getSecondsToFT_f (getFTToSeconds_f y) <> y.
Proof. exists (S754_finite false 8947864 (-20)), (S754_finite false 15728641 (-18)). vm_compute. split; discriminate. Qed.
Print Assumptions C96_there_and_back_refuted.
