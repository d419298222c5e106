(** C103: floating-point numbers as text. *)
From Coq Require Import String Ascii ZArith NArith Bool List QArith Qabs Lia.
From Coq Require Import Floats.SpecFloat.
From Verif Require Import Common IntToStrSpec CastModel JsonSpec RealSpec FltModel FltSpec FltHexSpec Flt32TopProofs Flt64TopProofs FltHexProofs.
Import ListNotations.

(** C103. A text that starts with the exact number [x] gives the float nearest to it, or ends the process. *)
Theorem C103_read_float : forall t neg m e, starts_with t neg m e -> let x := times_pow 10 (if neg then - m else m) e in
  (float_range x -> exists f q, sToFloat t = Ok f /\ nearest_float x q /\ valid_binary 24 128 f = true /\ has_value f q /\ has_sign f neg) /\
  (~ float_range x -> sToFloat t = terminated).
Proof. exact read_float. Qed.
Print Assumptions C103_read_float.
(** C103. The same for doubles. *)
Theorem C103_read_double : forall t neg m e, starts_with t neg m e -> let x := times_pow 10 (if neg then - m else m) e in
  (double_range x -> exists f q, sToDouble t = Ok f /\ nearest_double x q /\ valid_binary 53 1024 f = true /\ has_value f q /\ has_sign f neg) /\
  (~ double_range x -> sToDouble t = terminated).
Proof. exact read_double. Qed.
Print Assumptions C103_read_double.
(** C103. Hexadecimal numbers (0x, digits with at most one point, a binary exponent) give the nearest float and double. *)
Theorem C103_read_hex_float : forall t neg m e, starts_with_hex t neg m e -> let x := times_pow 2 (if neg then - m else m) e in
  (float_range x -> exists f q, sToFloat t = Ok f /\ nearest_float x q /\ valid_binary 24 128 f = true /\ has_value f q /\ has_sign f neg) /\
  (~ float_range x -> sToFloat t = terminated).
Proof. exact hex_float. Qed.
Print Assumptions C103_read_hex_float.
Theorem C103_read_hex_double : forall t neg m e, starts_with_hex t neg m e -> let x := times_pow 2 (if neg then - m else m) e in
  (double_range x -> exists f q, sToDouble t = Ok f /\ nearest_double x q /\ valid_binary 53 1024 f = true /\ has_value f q /\ has_sign f neg) /\
  (~ double_range x -> sToDouble t = terminated).
Proof. exact hex_double. Qed.
Print Assumptions C103_read_hex_double.
(** C103. Where no number starts the process ends. *)
Theorem C103_no_number : forall bl sg rest neg, Forall c_blank bl -> sign_text sg neg ->
  match rest with
  | [] => True
  | c :: _ => ~ is_digit c /\ ~ In c ["."; "i"; "I"; "n"; "N"]%char /\ (sg = [] -> ~ c_blank c /\ ~ In c ["+"; "-"]%char)
  end ->
  sToFloat (bl ++ sg ++ rest) = terminated /\ sToDouble (bl ++ sg ++ rest) = terminated.
Proof. intros bl sg rest neg F S H. split; [exact (no_number_float bl sg rest neg F S H)|exact (no_number_double bl sg rest neg F S H)]. Qed.
Print Assumptions C103_no_number.
(** C103. A float is written as the nearest decimal of six digits, without superfluous zeros. *)
Theorem C103_write_float : forall f q, valid_binary 24 128 f = true -> has_value f q -> ~ q == 0 ->
  exists (neg : bool) r t, (if neg then q < 0 else 0 < q) /\ nearest_six (Qabs q) r /\ printed r t /\
    toStr_float f = (if neg then ["-"%char] else []) ++ t.
Proof. exact write_float. Qed.
Print Assumptions C103_write_float.
(** C103. A number given with at most six digits, not below the least normal float, comes back unchanged. *)
Theorem C103_six_float : forall t neg m e, starts_with t neg m e -> is_six (times_pow 10 m e) ->
  times_pow 2 1 (-126) <= times_pow 10 m e -> times_pow 10 m e < times_pow 2 (2 ^ 25 - 1) 103 ->
  exists f t', sToFloat t = Ok f /\ toStr_float f = (if neg then ["-"%char] else []) ++ t' /\ printed (times_pow 10 m e) t'.
Proof. exact six_float. Qed.
Print Assumptions C103_six_float.
Theorem C103_six_double : forall t neg m e, starts_with t neg m e -> is_six (times_pow 10 m e) ->
  times_pow 2 1 (-1022) <= times_pow 10 m e -> times_pow 10 m e < times_pow 2 (2 ^ 54 - 1) 970 ->
  exists f t', sToDouble t = Ok f /\ toStr_double f = (if neg then ["-"%char] else []) ++ t' /\ printed (times_pow 10 m e) t'.
Proof. exact six_double. Qed.
Print Assumptions C103_six_double.
(** C103. A float is read back from its own text exactly when it is the one nearest to some decimal of six digits. *)
Theorem C103_back_float : forall f q, valid_binary 24 128 f = true -> has_value f q -> times_pow 2 1 (-126) < Qabs q ->
  (sToFloat (toStr_float f) = Ok f <-> exists x, is_six x /\ Qabs x < times_pow 2 (2 ^ 25 - 1) 103 /\ nearest_float x q).
Proof. exact back_float. Qed.
Print Assumptions C103_back_float.
Theorem C103_back_double : forall f q, valid_binary 53 1024 f = true -> has_value f q -> times_pow 2 1 (-1022) < Qabs q ->
  (sToDouble (toStr_double f) = Ok f <-> exists x, is_six x /\ Qabs x < times_pow 2 (2 ^ 54 - 1) 970 /\ nearest_double x q).
Proof. exact back_double. Qed.
Print Assumptions C103_back_double.
(** C103. Expected: every float comes back.  Refuted: a seventh digit is lost. *)
Theorem C103_seven_refuted : exists f g, sToFloat (lit "1234567") = Ok f /\ has_value f 1234567 /\ toStr_float f = lit "1.23457e+06" /\
  sToFloat (toStr_float f) = Ok g /\ has_value g 1234570.
Proof.
  exists (S754_finite false 9876536 (-3)), (S754_finite false 9876560 (-3)).
  split; [vm_compute; reflexivity|]. split; [vm_compute; reflexivity|]. split; [vm_compute; reflexivity|]. split; vm_compute; reflexivity.
Qed.
Print Assumptions C103_seven_refuted.
(** C103. Expected: every text of a float can be read.  Refuted: that of the least float ends the process, and so does
    1e-40, although there are floats that small. *)
Theorem C103_small_refuted : exists f, valid_binary 24 128 f = true /\ has_value f (times_pow 2 1 (-149)) /\
  toStr_float f = lit "1.4013e-45" /\ sToFloat (toStr_float f) = terminated /\ sToFloat (lit "1e-40") = terminated.
Proof.
  exists (S754_finite false 1 (-149)). split; [vm_compute; reflexivity|]. split; [reflexivity|].
  split; [vm_compute; reflexivity|]. split; vm_compute; reflexivity.
Qed.
Print Assumptions C103_small_refuted.
(** C103. Expected (Parser.hpp:55-58): an argument that is no number is reported with an exception naming it.  Refuted:
    the process ends. *)
Theorem C103_argument_refuted : exists s, parse_float s = terminated /\ parse_float s <> Throw ("Cannot parse 'fast' to float"%string) /\ s = lit "fast".
Proof. exists (lit "fast"). split; [vm_compute; reflexivity|]. split; [vm_compute; discriminate|reflexivity]. Qed.
Print Assumptions C103_argument_refuted.

(** Cases. *)
Example C103_read_case : starts_with (lit "  -.1f rest") true 1 (-1) /\ sToFloat (lit "  -.1f rest") = Ok (S754_finite true 13421773 (-27)) /\
  sToDouble (lit "  -.1f rest") = Ok (S754_finite true 7205759403792794 (-56)).
Proof.
  split; [|vm_compute; auto]. exists (lit "  "), (lit "-"), (lit ".1"), (lit "f rest"). split; [reflexivity|]. split.
  - repeat constructor; left; reflexivity.
  - split; [right; right; auto|]. split.
    + exists [], ["."%char], (lit "1"), [], 0%Z. split; [reflexivity|]. split; [auto|]. split; [discriminate|]. split; [constructor|].
      split; [repeat constructor; vm_compute; discriminate|]. split; [left; auto|auto].
    + cbn. split; [intros C; vm_compute in C; destruct C as [_ C]; apply C; reflexivity|]. intros C. intuition discriminate.
Qed.
(** The greatest float is 2^128 - 2^104; half a step more is out of range. *)
Example C103_range_case : sToFloat (lit "340282356779733661637539395458142568447") = Ok (S754_finite false 16777215 104) /\
  sToFloat (lit "340282356779733661637539395458142568448") = terminated /\
  sToFloat (lit "1.17549435e-38") = Ok (S754_finite false 8388608 (-149)) /\
  sToFloat (lit "1.175494e-38") = terminated.
Proof. vm_compute. auto. Qed.
Example C103_no_number_case : Forall c_blank (lit " ") /\ sign_text (lit "+") false /\ sToFloat (lit " +-1") = terminated.
Proof. split; [repeat constructor; left; reflexivity|]. split; [right; left; auto|vm_compute; reflexivity]. Qed.
Example C103_back_case : valid_binary 24 128 (S754_finite false 13421773 (-27)) = true /\
  toStr_float (S754_finite false 13421773 (-27)) = lit "0.1" /\ sToFloat (lit "0.1") = Ok (S754_finite false 13421773 (-27)) /\
  sToFloat (lit "123.456") = Ok (S754_finite false 16181625 (-17)) /\ toStr_float (S754_finite false 16181625 (-17)) = lit "123.456".
Proof. vm_compute. auto. Qed.
Example C103_hex_case : starts_with_hex (lit " -0X1a.8p-3f") true 424 (-7) /\ sToFloat (lit " -0X1a.8p-3f") = Ok (S754_finite true 13893632 (-22)).
Proof.
  split; [|vm_compute; reflexivity].
  exists (lit " "), (lit "-"), "X"%char, (lit "1a"), (lit "."), (lit "8"), (lit "p-3"), (-3)%Z, (lit "f").
  split; [reflexivity|]. split; [repeat constructor|]. split; [right; right; auto|]. split; [auto|]. split; [auto|]. split; [discriminate|]. split.
  - change (lit "1a" ++ lit "8") with ((([] ++ ["1"%char]) ++ ["a"%char]) ++ ["8"%char]).
    change 424%Z with (16 * (16 * (16 * 0 + 1) + 10) + 8)%Z. repeat apply hex_more; [apply hex_none| | |]; unfold hex_digit; cbn; lia.
  - split; [|split; [|reflexivity]].
    + right. exists "p"%char, (lit "-"), (lit "3"). split; [reflexivity|]. split; [auto|]. split; [discriminate|]. split; [|right; right; split; reflexivity].
      constructor; [|constructor]. unfold IntToStrSpec.is_digit; cbn; lia.
    + split; [unfold IntToStrSpec.is_digit; cbn; lia|discriminate].
Qed.
