(** Whole numbers up to 2^53 are represented exactly by doubles: the division used for rounding is exact. *)
From Coq Require Import String Ascii ZArith NArith Arith Bool Lia List.
From Coq Require Import Floats.SpecFloat.
From Verif Require Import Common JsonNumModel.
Import ListNotations.
Local Open Scope Z_scope.

Lemma digits2_log : forall p, Zpos (digits2_pos p) = Z.log2 (Zpos p) + 1.
Proof.
  induction p as [p IH|p IH|]; cbn [digits2_pos]; [| |reflexivity].
  - rewrite Pos2Z.inj_succ, IH. rewrite (Pos2Z.inj_xI p). rewrite Z.log2_succ_double by lia. lia.
  - rewrite Pos2Z.inj_succ, IH. rewrite (Pos2Z.inj_xO p). rewrite Z.log2_double by lia. lia.
Qed.
Lemma zdigits_log : forall z, 0 < z -> Zdigits2 z = Z.log2 z + 1.
Proof. intros [|p|p] H; try lia. cbn [Zdigits2]. apply digits2_log. Qed.
Lemma log2_mul_pow2 : forall k s, 0 < k -> 0 <= s -> Z.log2 (k * 2 ^ s) = Z.log2 k + s.
Proof. intros. rewrite Z.log2_mul_pow2 by lia. lia. Qed.
Lemma log2_mul_bounds : forall k d, 0 < k -> 0 < d ->
  Z.log2 k + Z.log2 d <= Z.log2 (k * d) <= Z.log2 k + Z.log2 d + 1.
Proof. intros k d K D. split; [apply Z.log2_mul_below|apply Z.log2_mul_above]; lia. Qed.
Lemma new_location_zero : forall d, new_location d 0 = loc_Exact.
Proof. intros d. unfold new_location. destruct (Z.even d); reflexivity. Qed.
Lemma fexp_small : forall D, 0 <= D -> fexp 53 1024 D = D - 53.
Proof. intros D H. unfold fexp, emin. lia. Qed.

Lemma round_stable : forall neg M e, 0 < M -> e = Z.log2 M + 1 + e - 53 -> -53 <= e <= 971 ->
  binary_round_aux 53 1024 neg M e loc_Exact = S754_finite neg (Z.to_pos M) e.
Proof.
  intros neg M e HM He B. unfold binary_round_aux, shr_fexp. rewrite zdigits_log by lia.
  assert (HL : Z.log2 M = 52) by lia. rewrite HL.
  rewrite fexp_small by lia. replace (52 + 1 + e - 53 - e) with 0 by lia. cbn [shr shr_record_of_loc loc_of_shr_record shr_m round_nearest_even].
  rewrite zdigits_log by lia. rewrite HL, fexp_small by lia. replace (52 + 1 + e - 53 - e) with 0 by lia.
  cbn [shr shr_m shr_record_of_loc]. destruct M as [|p|p]; try lia. replace (e <=? 1024 - 53) with true by lia. reflexivity.
Qed.
Lemma round_shift : forall neg M e, 0 < M -> Z.log2 M = 52 -> -53 <= e < 971 ->
  binary_round_aux 53 1024 neg (2 * M) e loc_Exact = S754_finite neg (Z.to_pos M) (e + 1).
Proof.
  intros neg M e HM HL B. unfold binary_round_aux, shr_fexp. rewrite zdigits_log by lia.
  rewrite Z.log2_double by lia. rewrite HL. rewrite fexp_small by lia.
  replace (Z.succ 52 + 1 + e - 53 - e) with 1 by lia.
  destruct M as [|p|p]; try lia. cbn [Z.mul Pos.mul shr iter_pos shr_1 shr_record_of_loc orb shr_m loc_of_shr_record round_nearest_even].
  rewrite zdigits_log by lia. rewrite HL, fexp_small by lia. replace (52 + 1 + (e + 1) - 53 - (e + 1)) with 0 by lia.
  cbn [shr shr_m shr_record_of_loc]. replace (e + 1 <=? 1024 - 53) with true by lia. reflexivity.
Qed.

(** The double for a whole number: mantissa and exponent. *)
Definition whole_exp (k : Z) : Z := Z.log2 k - 52.
Definition whole_mant (k : Z) : positive := Z.to_pos (k * 2 ^ (53 - Z.log2 k) / 2).
Definition whole_double (neg : bool) (k : Z) : double :=
  if k =? 0 then S754_zero neg else S754_finite neg (whole_mant k) (whole_exp k).

Lemma log2_53 : forall k, 0 < k <= 2 ^ 53 -> 0 <= Z.log2 k <= 53 /\ (Z.log2 k = 53 -> k = 2 ^ 53).
Proof.
  intros k H. split.
  - split; [apply Z.log2_nonneg|]. change 53 with (Z.log2 (2 ^ 53)). apply Z.log2_le_mono. lia.
  - intros E. pose proof (Z.log2_spec k ltac:(lia)) as S. rewrite E in S. lia.
Qed.
Lemma whole_mant_spec : forall k, 0 < k <= 2 ^ 53 ->
  2 * Zpos (whole_mant k) = k * 2 ^ (53 - Z.log2 k) /\ Z.log2 (Zpos (whole_mant k)) = 52.
Proof.
  intros k H. destruct (log2_53 k H) as (B & E). unfold whole_mant.
  assert (X : exists M, 0 < M /\ k * 2 ^ (53 - Z.log2 k) = 2 * M).
  { destruct (Z.eq_dec (Z.log2 k) 53) as [C|C].
    - rewrite C, (E C). exists (2 ^ 52). split; [lia|reflexivity].
    - exists (k * 2 ^ (52 - Z.log2 k)). split.
      + assert (0 < 2 ^ (52 - Z.log2 k)) by (apply Z.pow_pos_nonneg; lia). nia.
      + replace (53 - Z.log2 k) with (Z.succ (52 - Z.log2 k)) by lia. rewrite Z.pow_succ_r by lia. ring. }
  destruct X as (M & PM & X). rewrite X. replace (2 * M / 2) with M by (rewrite Z.mul_comm, Z.div_mul; lia).
  rewrite Z2Pos.id by lia. split; [reflexivity|].
  assert (L : Z.log2 (k * 2 ^ (53 - Z.log2 k)) = 53) by (rewrite log2_mul_pow2; lia).
  rewrite X, Z.log2_double in L by lia. lia.
Qed.
Lemma of_ratio_whole : forall neg k d n, 0 < k <= 2 ^ 53 -> Zpos n = k * Zpos d -> of_ratio neg n d = whole_double neg k.
Proof.
  intros neg k d n H En. destruct (log2_53 k H) as (B & E53). destruct (whole_mant_spec k H) as (HM & HLM).
  unfold whole_double. replace (k =? 0) with false by lia.
  unfold of_ratio, SFdiv, SFdiv_core_binary. rewrite !zdigits_log by lia.
  pose proof (log2_mul_bounds k (Zpos d) ltac:(lia) ltac:(lia)) as LB. rewrite <- En in LB.
  rewrite fexp_small by (pose proof (Z.log2_nonneg (Zpos d)); lia).
  set (dl := Z.log2 (Z.pos n) + 1 + 0 - (Z.log2 (Z.pos d) + 1 + 0)).
  assert (Hd : dl = Z.log2 k \/ dl = Z.log2 k + 1) by lia. clearbody dl.
  set (e' := Z.min (dl - 53) (0 - 0)).
  assert (He : e' <= 0 /\ (e' = Z.log2 k - 53 \/ (e' = Z.log2 k - 52))) by lia.
  set (s := 0 - 0 - e'). assert (Hs : 0 <= s) by lia.
  assert (Em : match s with 0 => Z.pos n | Z.pos _ => Z.shiftl (Z.pos n) s | Z.neg _ => 0 end = Zpos n * 2 ^ s).
  { destruct s as [|p|p]; [lia| |lia]. rewrite Z.shiftl_mul_pow2 by lia. reflexivity. }
  rewrite Em. clear Em.
  assert (Dv : Z.div_eucl (Z.pos n * 2 ^ s) (Z.pos d) = (k * 2 ^ s, 0)).
  { rewrite En. replace (k * Z.pos d * 2 ^ s) with (k * 2 ^ s * Z.pos d) by ring.
    pose proof (Z_div_mult_full (k * 2 ^ s) (Zpos d) ltac:(lia)) as D1. pose proof (Z_mod_mult (k * 2 ^ s) (Zpos d)) as D2.
    unfold Z.div in D1. unfold Z.modulo in D2. destruct (Z.div_eucl _ _) as [a b]. congruence. }
  rewrite Dv, new_location_zero. rewrite xorb_false_r.
  destruct He as (He0 & [C|C]).
  - (* one extra bit *)
    replace (k * 2 ^ s) with (2 * Zpos (whole_mant k)) by (rewrite HM; f_equal; f_equal; unfold s; lia).
    rewrite round_shift by lia. cbn [Z.to_pos]. f_equal. unfold whole_exp. lia.
  - assert (Hq : k * 2 ^ s = Zpos (whole_mant k)).
    { assert (2 * (k * 2 ^ s) = 2 * Zpos (whole_mant k)); [|lia]. rewrite HM.
      replace (53 - Z.log2 k) with (Z.succ s) by (unfold s; lia). rewrite Z.pow_succ_r by lia. ring. }
    rewrite Hq. rewrite round_stable by lia. cbn [Z.to_pos]. f_equal. unfold whole_exp. lia.
Qed.
Lemma of_scaled_whole : forall neg m b e k, 1 < b -> 0 <= m -> (if 0 <=? e then m * b ^ e = k else m = k * b ^ (- e)) ->
  k <= 2 ^ 53 -> of_scaled neg m b e = whole_double neg k.
Proof.
  intros neg m b e k Hb Hm Hk Hle. unfold of_scaled. destruct m as [|p|p]; [| |lia].
  - assert (k = 0) as ->; [|reflexivity]. destruct (Z.leb_spec 0 e); [lia|].
    assert (0 < b ^ (- e)) by (apply Z.pow_pos_nonneg; lia). nia.
  - destruct (Z.leb_spec 0 e) as [L|L].
    + assert (0 < b ^ e) by (apply Z.pow_pos_nonneg; lia).
      apply of_ratio_whole; [nia|]. rewrite Pos2Z.inj_mul, Z2Pos.id by lia. lia.
    + assert (0 < b ^ (- e)) by (apply Z.pow_pos_nonneg; lia).
      apply of_ratio_whole; [nia|]. rewrite Z2Pos.id by lia. lia.
Qed.
Lemma of_int_whole : forall z, Z.abs z <= 2 ^ 53 -> of_int z = whole_double (z <? 0) (Z.abs z).
Proof. intros z H. unfold of_int. apply of_scaled_whole; cbn; lia. Qed.
Lemma truncate_whole : forall neg k, 0 <= k <= 2 ^ 53 -> truncate (whole_double neg k) = Some (if neg then - k else k).
Proof.
  intros neg k H. unfold whole_double. destruct (Z.eqb_spec k 0) as [->|N]; [destruct neg; reflexivity|].
  assert (Hk : 0 < k <= 2 ^ 53) by lia. destruct (whole_mant_spec k Hk) as (HM & _). destruct (log2_53 k Hk) as (B & E53).
  cbn [truncate]. unfold whole_exp.
  assert (Q : (if 0 <=? Z.log2 k - 52 then Z.pos (whole_mant k) * 2 ^ (Z.log2 k - 52) else Z.pos (whole_mant k) / 2 ^ (- (Z.log2 k - 52))) = k).
  { destruct (Z.leb_spec 0 (Z.log2 k - 52)) as [L|L].
    - destruct (Z.eq_dec (Z.log2 k) 53) as [C|C].
      + pose proof (E53 C) as Kk. rewrite C in HM |- *. change (2 ^ (53 - 52)) with 2. change (2 ^ (53 - 53)) with 1 in HM. lia.
      + assert (Z.log2 k = 52) as C2 by lia. rewrite C2 in HM |- *. change (2 ^ (52 - 52)) with 1. change (2 ^ (53 - 52)) with 2 in HM. lia.
    - assert (HQ : Zpos (whole_mant k) = k * 2 ^ (- (Z.log2 k - 52))).
      { assert (2 * Zpos (whole_mant k) = 2 * (k * 2 ^ (- (Z.log2 k - 52)))); [|lia]. rewrite HM.
        replace (53 - Z.log2 k) with (Z.succ (- (Z.log2 k - 52))) by lia. rewrite Z.pow_succ_r by lia. ring. }
      rewrite HQ. apply Z_div_mult_full. assert (0 < 2 ^ (- (Z.log2 k - 52))) by (apply Z.pow_pos_nonneg; lia). lia. }
  rewrite Q. reflexivity.
Qed.
Lemma SFeqb_refl : forall f, f <> S754_nan -> SFeqb f f = true.
Proof.
  intros f N. unfold SFeqb. destruct f as [s|s| |s m e].
  - reflexivity.
  - destruct s; reflexivity.
  - now destruct N.
  - cbn [SFcompare]. rewrite Z.compare_refl. change (Pos.compare_cont Eq m m) with (Pos.compare m m). rewrite Pos.compare_refl. destruct s; reflexivity.
Qed.
Lemma whole_eqb : forall (neg : bool) k, 0 <= k <= 2 ^ 53 -> SFeqb (of_int (if neg then - k else k)) (whole_double neg k) = true.
Proof.
  intros neg k H. rewrite of_int_whole by (destruct neg; lia).
  unfold whole_double. destruct (Z.eqb_spec k 0) as [->|N].
  - destruct neg; reflexivity.
  - replace (Z.abs (if neg then - k else k)) with k by (destruct neg; lia). replace (k =? 0) with false by lia.
    replace ((if neg then - k else k) <? 0) with neg by (destruct neg; lia). apply SFeqb_refl. discriminate.
Qed.
