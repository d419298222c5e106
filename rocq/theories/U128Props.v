(** C93: the four-word 128-bit unsigned integer used where the compiler has none.
    [is a z]: [a] is a proper 128-bit number whose value is [z]. *)
From Coq Require Import String ZArith Bool List Lia.
From Verif Require Import Common U128Model U128Spec U128Proofs.
Local Open Scope Z_scope.

(** Addition, subtraction, negation and multiplication are those of the integers modulo 2^128, and the conversions keep the low bits. *)
Theorem C93_arithmetic : forall a b, wf a -> wf b ->
  is (add a b) ((value a + value b) mod 2 ^ 128) /\ is (sub a b) ((value a - value b) mod 2 ^ 128) /\
  is (neg a) ((- value a) mod 2 ^ 128) /\ is (mul a b) ((value a * value b) mod 2 ^ 128) /\
  to_u64 a = value a mod 2 ^ 64 /\ to_u32 a = value a mod 2 ^ 32 /\ to_bool a = negb (value a =? 0).
Proof. intros a b A B. exact (conj (add_spec a b A B) (conj (sub_spec a b A B) (conj (neg_spec a A) (conj (mul_spec a b A B) (to_spec a A))))). Qed.
Print Assumptions C93_arithmetic.

(** The two ways to build one. *)
Theorem C93_build : (forall hi lo, 0 <= hi < 2 ^ 64 -> 0 <= lo < 2 ^ 64 -> is (of_double hi lo) (lo + 2 ^ 64 * hi)) /\
  (forall z, 0 <= z < 2 ^ 64 -> is (of_int z) z).
Proof. exact build_ok. Qed.
Print Assumptions C93_build.

(** Building one from a negative integer does not give that integer modulo 2^128: the sign is not carried into the upper half. *)
Theorem C93_negative_refuted : exists z, - 2 ^ 31 <= z < 0 /\ ~ is (of_int z) (z mod 2 ^ 128) /\ is (of_int z) (2 ^ 64 + z).
Proof. exact negative_bad. Qed.
Print Assumptions C93_negative_refuted.

(** Comparisons order by value. *)
Theorem C93_compare : forall a b, wf a -> wf b ->
  eq a b = (value a =? value b) /\ ne a b = negb (value a =? value b) /\
  lt a b = (value a <? value b) /\ gt a b = (value b <? value a) /\ le a b = (value a <=? value b) /\ ge a b = (value b <=? value a).
Proof. exact compare_spec. Qed.
Print Assumptions C93_compare.

(** And, or, exclusive or and complement work on all 128 bits. *)
Theorem C93_bitwise : forall a b, wf a -> wf b ->
  is (band a b) (Z.land (value a) (value b)) /\ is (bor a b) (Z.lor (value a) (value b)) /\
  is (bxor a b) (Z.lxor (value a) (value b)) /\ is (bnot a) (2 ^ 128 - 1 - value a).
Proof. intros a b A B. exact (conj (band_spec a b A B) (conj (bor_spec a b A B) (conj (bxor_spec a b A B) (bnot_spec a A)))). Qed.
Print Assumptions C93_bitwise.

(** Shifting by less than the width multiplies or divides by a power of two. Shifting left by the width or more, up to the 255 the count can hold, gives 0. *)
Theorem C93_shifts : forall a s, wf a ->
  (0 <= s < 128 -> exists l r, shl a s = Ok l /\ shr a s = Ok r /\ is l ((value a * 2 ^ s) mod 2 ^ 128) /\ is r (value a / 2 ^ s)) /\
  (128 <= s < 256 -> exists l, shl a s = Ok l /\ is l 0) /\
  (128 <= s < 160 -> exists r, shr a s = Ok r /\ is r 0).
Proof. exact shifts_ok. Qed.
Print Assumptions C93_shifts.

(** Shifting right by 160 or more is not the zero that shifting left gives: it writes outside the object. *)
Theorem C93_far_shift_refuted : forall a s, wf a -> 160 <= s < 256 -> shr a s = UB.
Proof. intros a s A. exact (proj2 (shr_large a s A)). Qed.
Print Assumptions C93_far_shift_refuted.

(** Division and remainder, for every dividend and every divisor but zero. Division by zero aborts. *)
Theorem C93_division : forall a b, wf a -> wf b ->
  (value b <> 0 -> exists q r, div a b = Ok q /\ modulo a b = Ok r /\ is q (value a / value b) /\ is r (value a mod value b)) /\
  (value b = 0 -> div a b = Throw "abort"%string /\ modulo a b = Throw "abort"%string).
Proof. exact div_spec. Qed.
Print Assumptions C93_division.

(** The logarithms rounded down and up; zero aborts. *)
Theorem C93_logs : forall a, wf a ->
  flog2 a = (if value a =? 0 then Throw "abort"%string else Ok (Z.log2 (value a))) /\
  clog2 a = (if value a =? 0 then Throw "abort"%string else Ok (Z.log2_up (value a))).
Proof. intros a A. exact (conj (flog2_spec a A) (clog2_spec a A)). Qed.
Print Assumptions C93_logs.

(** The number of trailing zero bits: the power of two in front of an odd number; 128 for zero. *)
Theorem C93_trailing_zeros : forall a, wf a -> (value a = 0 -> trailingzeros a = Ok 128) /\
  (value a <> 0 -> exists t o, trailingzeros a = Ok t /\ 0 <= t < 128 /\ 0 <= o /\ value a = 2 ^ t * (2 * o + 1)).
Proof. exact trailingzeros_spec. Qed.
Print Assumptions C93_trailing_zeros.

(** The same two counts on 32 and on 64 bits, found by table look-up, for every value but zero. *)
Theorem C93_narrow_counts :
  (forall v, 0 < v < 2 ^ 32 -> flog2_32 v = Ok (Z.log2 v) /\ exists t o, zeros_32 v = Ok t /\ 0 <= t < 32 /\ 0 <= o /\ v = 2 ^ t * (2 * o + 1)) /\
  (forall v, 0 < v < 2 ^ 64 -> flog2_64 v = Ok (Z.log2 v) /\ exists t o, zeros_64 v = Ok t /\ 0 <= t < 64 /\ 0 <= o /\ v = 2 ^ t * (2 * o + 1)).
Proof. exact narrow_counts_ok. Qed.
Print Assumptions C93_narrow_counts.

(** ** Concrete cases *)
Definition big : x4 := of_double 0x123456789ABCDEF0 0xFEDCBA9876543210.
Definition wide : x4 := of_double 0xFFFFFFFFFFFFFFFF 0xFFFFFFFFFFFFFFFF.
Example wf_big : wf big /\ wf wide. Proof. split; (split; [|split; [|split]]); split; vm_compute; congruence. Qed.
Example add_ex : value (add big wide) = value big - 1. Proof. vm_compute. reflexivity. Qed.
Example mul_ex : value (mul big big) = (0x123456789ABCDEF0FEDCBA9876543210 * 0x123456789ABCDEF0FEDCBA9876543210) mod 2 ^ 128. Proof. vm_compute. reflexivity. Qed.
Example shl_ex : match shl big 36 with Ok r => value r | _ => -1 end = 0x9ABCDEF0FEDCBA987654321000000000 * 16 mod 2 ^ 128. Proof. vm_compute. reflexivity. Qed.
Example shr_ex : match shr big 100 with Ok r => value r | _ => -1 end = 0x1234567. Proof. vm_compute. reflexivity. Qed.
Example shr_far : shr big 160 = UB. Proof. vm_compute. reflexivity. Qed.
Example div_ex : match div big (of_int 1000000007), modulo big (of_int 1000000007) with Ok q, Ok r => (value q, value r) | _, _ => (-1, -1) end =
  (0x123456789ABCDEF0FEDCBA9876543210 / 1000000007, 0x123456789ABCDEF0FEDCBA9876543210 mod 1000000007). Proof. vm_compute. reflexivity. Qed.
Example div_wide : match div wide (of_int 3) with Ok q => value q | _ => -1 end = (2 ^ 128 - 1) / 3. Proof. vm_compute. reflexivity. Qed.
Example log_ex : (flog2 big, clog2 big, trailingzeros big) = (Ok 124, Ok 125, Ok 4). Proof. vm_compute. reflexivity. Qed.
Example clog_pow : (clog2 (of_double 1 0), trailingzeros (of_double 1 0)) = (Ok 64, Ok 64). Proof. vm_compute. reflexivity. Qed.
