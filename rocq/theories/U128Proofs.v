(** Proofs about the 128-bit integers. *)
From Coq Require Import String ZArith Bool List Lia Znumtheory.
From Verif Require Import Common U128Model U128Spec.
Import ListNotations.
Local Open Scope Z_scope.

Ltac pows := change (2 ^ 8) with 256 in *; change (2 ^ 32) with 4294967296 in *; change (2 ^ 64) with 18446744073709551616 in *;
  change (2 ^ 96) with 79228162514264337593543950336 in *; change (2 ^ 128) with 340282366920938463463374607431768211456 in *.
Lemma bit_range : forall b, 0 <= bit b <= 1.
Proof. intros []; cbn; lia. Qed.
Lemma w32_small : forall x, word x -> w32 x = x.
Proof. intros x H. apply Z.mod_small. exact H. Qed.
Lemma w32_word : forall x, word (w32 x).
Proof. intros x. apply Z.mod_pos_bound. reflexivity. Qed.

(** ** Carries *)
Lemma add_carry : forall x y c r c', word x -> word y -> addwithcarry x y c = (r, c') ->
  word r /\ r + 2 ^ 32 * bit c' = x + y + bit c.
Proof.
  intros x y c r c' Hx Hy E. unfold addwithcarry in E. injection E as <- <-. unfold word, w32 in *. pows.
  pose proof (bit_range c) as Hc. set (b := bit c) in *. clearbody b.
  destruct (Z.eq_dec (y + b) 4294967296) as [F|F].
  - assert (M : (y + b) mod 4294967296 = 0) by (rewrite F; reflexivity). rewrite M, Z.add_0_r.
    rewrite (Z.mod_small x) by lia. replace (0 <? y) with true by lia. cbn [orb bit]. lia.
  - rewrite (Z.mod_small (y + b)) by lia. replace (y + b <? y) with false by lia. cbn [orb].
    destruct (Z.lt_ge_cases (x + (y + b)) 4294967296).
    + rewrite Z.mod_small by lia. replace (x + (y + b) <? x) with false by lia. cbn [bit]. lia.
    + assert (M : (x + (y + b)) mod 4294967296 = x + (y + b) - 4294967296).
      { symmetry. apply Z.mod_unique with 1; lia. }
      rewrite M. replace (x + (y + b) - 4294967296 <? x) with true by lia. cbn [bit]. lia.
Qed.
Lemma sub_carry : forall x y c r c', word x -> word y -> subwithcarry x y c = (r, c') ->
  word r /\ r - 2 ^ 32 * bit c' = x - y - bit c.
Proof.
  intros x y c r c' Hx Hy E. unfold subwithcarry in E. injection E as <- <-. unfold word, w32 in *. pows.
  pose proof (bit_range c) as Hc. set (b := bit c) in *. clearbody b.
  destruct (Z.eq_dec (y + b) 4294967296) as [F|F].
  - assert (M : (y + b) mod 4294967296 = 0) by (rewrite F; reflexivity). rewrite M, Z.sub_0_r.
    rewrite (Z.mod_small x) by lia. replace (0 <? y) with true by lia. cbn [orb bit]. lia.
  - rewrite (Z.mod_small (y + b)) by lia. replace (y + b <? y) with false by lia. cbn [orb].
    destruct (Z.lt_ge_cases x (y + b)).
    + assert (M : (x - (y + b)) mod 4294967296 = x - (y + b) + 4294967296).
      { symmetry. apply Z.mod_unique with (-1); lia. }
      rewrite M. replace (x <? x - (y + b) + 4294967296) with true by lia. cbn [bit]. lia.
    + rewrite Z.mod_small by lia. replace (x <? x - (y + b)) with false by lia. cbn [bit]. lia.
Qed.

(** ** Values *)
Lemma value_range : forall a, wf a -> 0 <= value a < 2 ^ 128.
Proof. intros a (A & B & C & D). unfold word, value in *. pows. lia. Qed.
Lemma value_halves : forall a, value a = v01 a + 2 ^ 64 * v23 a.
Proof. intros a. unfold value, v01, v23. pows. ring. Qed.
Lemma halves_range : forall a, wf a -> 0 <= v01 a < 2 ^ 64 /\ 0 <= v23 a < 2 ^ 64.
Proof. intros a (A & B & C & D). unfold word, v01, v23 in *. pows. lia. Qed.
Lemma high_word : forall x, 0 <= x < 2 ^ 64 -> word (Z.shiftr x 32) /\ w32 x + 2 ^ 32 * Z.shiftr x 32 = x.
Proof.
  intros x H. rewrite Z.shiftr_div_pow2 by lia. unfold word, w32. pose proof (Z.div_mod x (2 ^ 32)) as E. pows. split.
  - split; [apply Z.div_pos; lia|apply Z.div_lt_upper_bound; lia].
  - rewrite E at 3 by lia. ring.
Qed.
Lemma of_double_spec : forall hi lo, 0 <= hi < 2 ^ 64 -> 0 <= lo < 2 ^ 64 ->
  wf (of_double hi lo) /\ v01 (of_double hi lo) = lo /\ v23 (of_double hi lo) = hi /\ value (of_double hi lo) = lo + 2 ^ 64 * hi.
Proof.
  intros hi lo H L. destruct (high_word hi H) as (A & B). destruct (high_word lo L) as (C & D).
  rewrite value_halves. unfold of_double, v01, v23, wf. cbn [v0 v1 v2 v3]. rewrite B, D.
  repeat split; try apply w32_word; try apply A; try apply C.
Qed.
Lemma is_intro : forall a z k, wf a -> value a = z + 2 ^ 128 * k -> is a (z mod 2 ^ 128).
Proof.
  intros a z k W E. split; [exact W|]. apply Z.mod_unique with (- k); [left; now apply value_range|]. rewrite E. ring.
Qed.
Lemma of_int_spec : forall z, is (of_int z) (z mod 2 ^ 64).
Proof.
  intros z. unfold of_int, w64. destruct (of_double_spec 0 (z mod 2 ^ 64)) as (W & _ & _ & V).
  - split; reflexivity || discriminate.
  - apply Z.mod_pos_bound. reflexivity.
  - split; [exact W|]. rewrite V. ring.
Qed.

(** ** Sums *)
Lemma add_spec : forall a b, wf a -> wf b -> is (add a b) ((value a + value b) mod 2 ^ 128).
Proof.
  intros a b (A0 & A1 & A2 & A3) (B0 & B1 & B2 & B3). unfold add.
  destruct (addwithcarry (v0 a) (v0 b) false) as (r0, c0) eqn:E0. apply add_carry in E0 as (W0 & E0); [|assumption..].
  destruct (addwithcarry (v1 a) (v1 b) c0) as (r1, c1) eqn:E1. apply add_carry in E1 as (W1 & E1); [|assumption..].
  destruct (addwithcarry (v2 a) (v2 b) c1) as (r2, c2) eqn:E2. apply add_carry in E2 as (W2 & E2); [|assumption..].
  destruct (addwithcarry (v3 a) (v3 b) c2) as (r3, c3) eqn:E3. apply add_carry in E3 as (W3 & E3); [|assumption..].
  apply is_intro with (- bit c3); [exact (conj W0 (conj W1 (conj W2 W3)))|]. unfold value. cbn [v0 v1 v2 v3]. cbn [bit] in E0. pows. lia.
Qed.
Lemma sub_spec : forall a b, wf a -> wf b -> is (sub a b) ((value a - value b) mod 2 ^ 128).
Proof.
  intros a b (A0 & A1 & A2 & A3) (B0 & B1 & B2 & B3). unfold sub.
  destruct (subwithcarry (v0 a) (v0 b) false) as (r0, c0) eqn:E0. apply sub_carry in E0 as (W0 & E0); [|assumption..].
  destruct (subwithcarry (v1 a) (v1 b) c0) as (r1, c1) eqn:E1. apply sub_carry in E1 as (W1 & E1); [|assumption..].
  destruct (subwithcarry (v2 a) (v2 b) c1) as (r2, c2) eqn:E2. apply sub_carry in E2 as (W2 & E2); [|assumption..].
  destruct (subwithcarry (v3 a) (v3 b) c2) as (r3, c3) eqn:E3. apply sub_carry in E3 as (W3 & E3); [|assumption..].
  apply is_intro with (bit c3); [exact (conj W0 (conj W1 (conj W2 W3)))|]. unfold value. cbn [v0 v1 v2 v3]. cbn [bit] in E0. pows. lia.
Qed.
Lemma neg_spec : forall a, wf a -> is (neg a) ((- value a) mod 2 ^ 128).
Proof.
  intros a W. unfold neg. destruct (of_double_spec 0 0) as (W0 & _ & _ & V); [split; reflexivity || discriminate..|].
  pose proof (sub_spec (of_double 0 0) a W0 W) as S. rewrite V in S. exact S.
Qed.

(** ** Products *)
Lemma product : forall x y, word x -> word y -> let p := w64 (x * y) in word (w32 (Z.shiftr p 32)) /\ w32 p + 2 ^ 32 * w32 (Z.shiftr p 32) = x * y.
Proof.
  intros x y Hx Hy p. assert (R : 0 <= x * y < 2 ^ 64) by (unfold word in *; pows; nia).
  assert (P : p = x * y) by (apply Z.mod_small; exact R). destruct (high_word p) as (A & B); [rewrite P; exact R|].
  rewrite w32_small by exact A. split; [exact A|congruence].
Qed.
Lemma w64_eq : forall x, exists q, w64 x = x + 2 ^ 64 * q.
Proof. intros x. exists (- (x / 2 ^ 64)). unfold w64. rewrite Z.mod_eq by (pows; lia). ring. Qed.
Lemma mul_spec : forall a b, wf a -> wf b -> is (mul a b) ((value a * value b) mod 2 ^ 128).
Proof.
  intros a b (A0 & A1 & A2 & A3) (B0 & B1 & B2 & B3). unfold mul.
  pose proof (product _ _ A0 B0) as P00. pose proof (product _ _ A1 B0) as P10. pose proof (product _ _ A0 B1) as P01.
  pose proof (product _ _ A1 B1) as P11. cbv zeta in P00, P10, P01, P11.
  set (q00 := w64 (v0 a * v0 b)) in *. set (q10 := w64 (v1 a * v0 b)) in *. set (q01 := w64 (v0 a * v1 b)) in *. set (q11 := w64 (v1 a * v1 b)) in *.
  pose proof (w32_word q00) as L00. pose proof (w32_word q10) as L10. pose proof (w32_word q01) as L01. pose proof (w32_word q11) as L11.
  destruct P00 as (H00 & P00), P10 as (H10 & P10), P01 as (H01 & P01), P11 as (H11 & P11).
  assert (Z0 : word 0) by (split; [apply Z.le_refl|reflexivity]).
  destruct (addwithcarry (w32 (Z.shiftr q00 32)) (w32 q10) false) as (r1, c1) eqn:E1. apply add_carry in E1 as (W1 & E1); [|assumption..].
  destruct (addwithcarry (w32 (Z.shiftr q10 32)) 0 c1) as (r2, c2) eqn:E2. apply add_carry in E2 as (W2 & E2); [|assumption..].
  destruct (addwithcarry 0 0 c2) as (r3, c3) eqn:E3. apply add_carry in E3 as (W3 & E3); [|assumption..].
  destruct (addwithcarry r2 (w32 (Z.shiftr q01 32)) false) as (r4, c4) eqn:E4. apply add_carry in E4 as (W4 & E4); [|assumption..].
  destruct (addwithcarry r3 0 c4) as (r5, c5) eqn:E5. apply add_carry in E5 as (W5 & E5); [|assumption..].
  destruct (addwithcarry r1 (w32 q01) false) as (r6, c6) eqn:E6. apply add_carry in E6 as (W6 & E6); [|assumption..].
  destruct (addwithcarry r4 0 c6) as (r7, c7) eqn:E7. apply add_carry in E7 as (W7 & E7); [|assumption..].
  destruct (addwithcarry r5 0 c7) as (r8, c8) eqn:E8. apply add_carry in E8 as (W8 & E8); [|assumption..].
  destruct (addwithcarry r7 (w32 q11) false) as (r9, c9) eqn:E9. apply add_carry in E9 as (W9 & E9); [|assumption..].
  destruct (addwithcarry r8 (w32 (Z.shiftr q11 32)) c9) as (r10, c10) eqn:E10. apply add_carry in E10 as (W10 & E10); [|assumption..].
  set (r := X (w32 q00) r6 r9 r10).
  assert (Wr : wf r) by exact (conj L00 (conj W6 (conj W9 W10))).
  destruct (w64_eq (v01 a * v23 b)) as (k1 & K1). destruct (w64_eq (v23 a * v01 b)) as (k2 & K2). rewrite K1, K2.
  destruct (w64_eq (v01 a * v23 b + 2 ^ 64 * k1 + (v23 a * v01 b + 2 ^ 64 * k2))) as (k3 & K3). rewrite K3.
  set (t := v01 a * v23 b + 2 ^ 64 * k1 + (v23 a * v01 b + 2 ^ 64 * k2) + 2 ^ 64 * k3) in *.
  destruct (w64_eq (v23 r + t)) as (k4 & K4).
  destruct (of_double_spec (w64 (v23 r + t)) (v01 r)) as (W & _ & _ & V); [apply Z.mod_pos_bound; reflexivity|apply halves_range; exact Wr|].
  apply is_intro with (k1 + k2 + k3 + k4 - v23 a * v23 b - bit c3 - bit c5 - bit c8 - bit c10); [exact W|].
  rewrite V, K4, !value_halves. unfold t. clear V K4 K3 K1 K2 W Wr t.
  assert (N : (v01 a + 2 ^ 64 * v23 a) * (v01 b + 2 ^ 64 * v23 b) =
    v0 a * v0 b + 2 ^ 32 * (v1 a * v0 b + v0 a * v1 b) + 2 ^ 64 * (v1 a * v1 b) + 2 ^ 64 * (v01 a * v23 b + v23 a * v01 b) + 2 ^ 128 * (v23 a * v23 b)).
  { change (2 ^ 128) with (2 ^ 64 * 2 ^ 64). change (2 ^ 64) with (2 ^ 32 * 2 ^ 32). unfold v01 at 1 2. ring_simplify. unfold v01. ring. }
  rewrite N. clear N. rewrite <- P00, <- P10, <- P01, <- P11.
  set (x := v01 a * v23 b) in *. set (y := v23 a * v01 b) in *. set (z := v23 a * v23 b) in *. clearbody x y z.
  unfold r, v01, v23. cbn [v0 v1 v2 v3]. cbn [bit] in *.
  clear - E1 E2 E3 E4 E5 E6 E7 E8 E9 E10. pows. lia.
Qed.

(** ** Comparison *)
Lemma lt_spec : forall a b, wf a -> wf b -> lt a b = (value a <? value b).
Proof.
  intros a b A B. apply halves_range in A as (A0 & A1), B as (B0 & B1). unfold lt. rewrite !value_halves. pows.
  destruct (v23 a <? v23 b) eqn:E1, (v23 a =? v23 b) eqn:E2, (v01 a <? v01 b) eqn:E3; cbn [orb andb]; lia.
Qed.
Lemma eq_spec : forall a b, wf a -> wf b -> eq a b = (value a =? value b).
Proof.
  intros a b A B. apply halves_range in A as (A0 & A1), B as (B0 & B1). unfold eq. rewrite !value_halves. pows.
  destruct (v23 a =? v23 b) eqn:E2, (v01 a =? v01 b) eqn:E3; cbn [orb andb]; lia.
Qed.
Lemma compare_spec : forall a b, wf a -> wf b ->
  eq a b = (value a =? value b) /\ ne a b = negb (value a =? value b) /\
  lt a b = (value a <? value b) /\ gt a b = (value b <? value a) /\ le a b = (value a <=? value b) /\ ge a b = (value b <=? value a).
Proof.
  intros a b A B. unfold ne, gt, le, ge. rewrite !lt_spec, eq_spec by assumption. repeat split; [now rewrite Z.leb_antisym|now rewrite Z.leb_antisym].
Qed.
Lemma to_spec : forall a, wf a -> to_u64 a = value a mod 2 ^ 64 /\ to_u32 a = value a mod 2 ^ 32 /\ to_bool a = negb (value a =? 0).
Proof.
  intros a A. pose proof (halves_range a A) as (L & H). destruct A as (A0 & A1 & A2 & A3). unfold word, to_u64, to_u32, to_bool in *.
  split; [|split].
  - rewrite value_halves. apply Z.mod_unique with (v23 a); [left; exact L|ring].
  - unfold value. apply Z.mod_unique with (v1 a + 2 ^ 32 * v2 a + 2 ^ 64 * v3 a); [left; exact A0|pows; ring].
  - rewrite value_halves. pows. destruct (v01 a =? 0) eqn:E1, (v23 a =? 0) eqn:E2; cbn [negb orb]; lia.
Qed.

(** ** Bits *)
Lemma split_bits : forall x n i, 0 <= n -> 0 <= x < 2 ^ n -> forall y, 0 <= i -> Z.testbit (x + 2 ^ n * y) i = if i <? n then Z.testbit x i else Z.testbit y (i - n).
Proof.
  intros x n i Hn Hx y Hi. destruct (i <? n) eqn:E.
  - apply Z.ltb_lt in E. rewrite <- (Z.mod_pow2_bits_low (x + 2 ^ n * y) n i) by exact E.
    rewrite (Z.mul_comm (2 ^ n)), Z.mod_add by (apply Z.pow_nonzero; lia). now rewrite Z.mod_small.
  - apply Z.ltb_ge in E. replace i with ((i - n) + n) at 1 by ring. rewrite <- Z.div_pow2_bits by lia.
    rewrite (Z.mul_comm (2 ^ n)), Z.div_add by (apply Z.pow_nonzero; lia). now rewrite Z.div_small.
Qed.
Lemma bitop_bound : forall (op : Z -> Z -> Z) n x y, 0 <= n -> (forall i, 0 <= i -> n <= i -> Z.testbit (op x y) i = false) -> 0 <= op x y -> 0 <= op x y < 2 ^ n.
Proof.
  intros op n x y Hn Hb P. split; [exact P|]. destruct (Z.eq_dec (op x y) 0) as [->|N]; [apply Z.pow_pos_nonneg; lia|].
  apply Z.log2_lt_pow2; [lia|]. destruct (Z.lt_ge_cases (Z.log2 (op x y)) n) as [?|G]; [assumption|].
  specialize (Hb (Z.log2 (op x y)) (Z.log2_nonneg _) G). rewrite Z.bit_log2 in Hb by lia. discriminate.
Qed.
Lemma high_bits : forall x n i, 0 <= x < 2 ^ n -> n <= i -> Z.testbit x i = false.
Proof.
  intros x n i (P & H) Hi. destruct (Z.eq_dec x 0) as [->|N]; [apply Z.bits_0|]. apply Z.bits_above_log2; [exact P|].
  apply Z.lt_le_trans with n; [apply Z.log2_lt_pow2; lia|exact Hi].
Qed.
Lemma bitwise : forall (op : Z -> Z -> Z) (f : bool -> bool -> bool), f false false = false ->
  (forall x y i, Z.testbit (op x y) i = f (Z.testbit x i) (Z.testbit y i)) -> (forall x y, 0 <= x -> 0 <= y -> 0 <= op x y) ->
  forall a b, wf a -> wf b -> is (of_double (op (v23 a) (v23 b)) (op (v01 a) (v01 b))) (op (value a) (value b)).
Proof.
  intros op f F T P a b A B. apply halves_range in A as (A0 & A1), B as (B0 & B1).
  assert (R : forall x y, 0 <= x < 2 ^ 64 -> 0 <= y < 2 ^ 64 -> 0 <= op x y < 2 ^ 64).
  { intros x y X Y. apply bitop_bound; [lia| |apply P; lia]. intros i Hi Hn. rewrite T, (high_bits x 64), (high_bits y 64); auto. }
  destruct (of_double_spec (op (v23 a) (v23 b)) (op (v01 a) (v01 b))) as (W & _ & _ & V); [auto..|].
  split; [exact W|]. rewrite V. apply Z.bits_inj'. intros i Hi. rewrite T, !value_halves.
  rewrite !split_bits; auto; try lia. destruct (i <? 64); now rewrite T.
Qed.
Lemma band_spec : forall a b, wf a -> wf b -> is (band a b) (Z.land (value a) (value b)).
Proof. apply (bitwise Z.land andb); [reflexivity|apply Z.land_spec|]. intros x y H _. apply Z.land_nonneg. now left. Qed.
Lemma bor_spec : forall a b, wf a -> wf b -> is (bor a b) (Z.lor (value a) (value b)).
Proof. apply (bitwise Z.lor orb); [reflexivity|apply Z.lor_spec|]. intros x y H H'. apply Z.lor_nonneg. now split. Qed.
Lemma bxor_spec : forall a b, wf a -> wf b -> is (bxor a b) (Z.lxor (value a) (value b)).
Proof. apply (bitwise Z.lxor xorb); [reflexivity|apply Z.lxor_spec|]. intros x y H H'. apply Z.lxor_nonneg. now split. Qed.
Lemma bnot_spec : forall a, wf a -> is (bnot a) (2 ^ 128 - 1 - value a).
Proof.
  intros a A. apply halves_range in A as (A0 & A1). unfold bnot, w64, Z.lnot.
  assert (M : forall x, 0 <= x < 2 ^ 64 -> Z.pred (- x) mod 2 ^ 64 = 2 ^ 64 - 1 - x).
  { intros x X. symmetry. apply Z.mod_unique with (-1); pows; lia. }
  rewrite !M by assumption. destruct (of_double_spec (2 ^ 64 - 1 - v23 a) (2 ^ 64 - 1 - v01 a)) as (W & _ & _ & V); [pows; lia..|].
  split; [exact W|]. rewrite V, value_halves. pows. lia.
Qed.

(** ** Shifts *)
Lemma join_words : forall x y m, word x -> word y -> 0 < m < 32 ->
  Z.lor (w32 (Z.shiftl x m)) (Z.shiftr y (32 - m)) = w32 (Z.shiftl x m) + Z.shiftr y (32 - m) /\
  w32 (Z.shiftl x m) + 2 ^ 32 * Z.shiftr x (32 - m) = x * 2 ^ m /\ 0 <= Z.shiftr x (32 - m) < 2 ^ m /\
  exists k, 0 <= k < 2 ^ (32 - m) /\ w32 (Z.shiftl x m) = 2 ^ m * k.
Proof.
  intros x y m Hx Hy Hm. assert (PQ : 2 ^ m * 2 ^ (32 - m) = 2 ^ 32) by (rewrite <- Z.pow_add_r by lia; f_equal; lia).
  assert (P0 : 0 < 2 ^ m) by (apply Z.pow_pos_nonneg; lia). assert (Q0 : 0 < 2 ^ (32 - m)) by (apply Z.pow_pos_nonneg; lia).
  assert (L : w32 (Z.shiftl x m) = 2 ^ m * (x mod 2 ^ (32 - m))).
  { unfold w32. rewrite Z.shiftl_mul_pow2 by lia. rewrite <- PQ, (Z.mul_comm x). rewrite Z.mul_mod_distr_l by lia. reflexivity. }
  assert (R : forall z, Z.shiftr z (32 - m) = z / 2 ^ (32 - m)) by (intros z; apply Z.shiftr_div_pow2; lia).
  assert (Rb : forall z, word z -> 0 <= z / 2 ^ (32 - m) < 2 ^ m).
  { intros z Hz. unfold word in Hz. split; [apply Z.div_pos; lia|apply Z.div_lt_upper_bound; [lia|]]. rewrite Z.mul_comm, PQ. lia. }
  pose proof (Z.mod_pos_bound x (2 ^ (32 - m)) Q0) as Mb. split; [|split; [|split]].
  - rewrite L, R, (Z.add_comm (2 ^ m * _)). apply Z.bits_inj'. intros i Hi. rewrite Z.lor_spec.
    rewrite split_bits; [|lia|apply Rb; exact Hy|exact Hi]. rewrite Z.mul_comm, <- Z.shiftl_mul_pow2 by lia. rewrite Z.shiftl_spec by exact Hi.
    destruct (i <? m) eqn:E.
    + apply Z.ltb_lt in E. rewrite (Z.testbit_neg_r _ (i - m)) by lia. apply orb_false_l.
    + apply Z.ltb_ge in E. rewrite (high_bits (y / 2 ^ (32 - m)) m i (Rb y Hy) E). apply orb_false_r.
  - rewrite L, R, <- PQ. pose proof (Z.div_mod x (2 ^ (32 - m))) as E. rewrite E at 3 by lia. ring.
  - rewrite R. apply Rb. exact Hx.
  - exists (x mod 2 ^ (32 - m)). auto.
Qed.
Lemma sum_word : forall x y m, word x -> word y -> 0 < m < 32 -> word (w32 (Z.shiftl x m) + Z.shiftr y (32 - m)).
Proof.
  intros x y m Hx Hy Hm. destruct (join_words x y m Hx Hy Hm) as (_ & _ & _ & k & K & ->). destruct (join_words y x m Hy Hx Hm) as (_ & _ & R & _).
  assert (PQ : 2 ^ m * 2 ^ (32 - m) = 2 ^ 32) by (rewrite <- Z.pow_add_r by lia; f_equal; lia).
  assert (P0 : 0 < 2 ^ m) by (apply Z.pow_pos_nonneg; lia). unfold word. rewrite <- PQ. split; nia.
Qed.
Lemma shift_split : forall s, 0 <= s < 256 -> exists d m, s / 32 = d /\ Z.land s 31 = m /\ s = 32 * d + m /\ 0 <= m < 32 /\ 0 <= d < 8.
Proof.
  intros s H. exists (s / 32), (s mod 32). change 31 with (Z.ones 5). rewrite Z.land_ones by lia. change (2 ^ 5) with 32.
  pose proof (Z.div_mod s 32). pose proof (Z.mod_pos_bound s 32).
  assert (s / 32 < 8) by (apply Z.div_lt_upper_bound; lia). assert (0 <= s / 32) by (apply Z.div_pos; lia). repeat split; lia.
Qed.
Lemma w8_small : forall x, 0 <= x < 256 -> w8 x = x.
Proof. intros x H. apply Z.mod_small. exact H. Qed.
Lemma zero_word : word 0.
Proof. split; [apply Z.le_refl|reflexivity]. Qed.
Ltac words := refine (conj _ (conj _ (conj _ _))); solve [assumption|apply zero_word].
Section LOOPS.
Variables x0 x1 x2 x3 m : Z.
Definition lo (x c : Z) : Z := if m =? 0 then x else Z.lor (w32 (Z.shiftl x m)) c.
Definition lc (x : Z) : Z := if m =? 0 then 0 else Z.shiftr x (32 - m).
Definition ro (x c : Z) : Z := if m =? 0 then x else Z.lor (Z.shiftr x m) c.
Definition rc (x : Z) : Z := if m =? 0 then 0 else w32 (Z.shiftl x (32 - m)).
Lemma shl_0 : shl_loop 5 [x0; x1; x2; x3] m 0 0 0 [0; 0; 0; 0] = Ok [lo x0 0; lo x1 (lc x0); lo x2 (lc x1); lo x3 (lc x2)].
Proof. reflexivity. Qed.
Lemma shl_1 : shl_loop 5 [x0; x1; x2; x3] m 1 0 0 [0; 0; 0; 0] = Ok [0; lo x0 0; lo x1 (lc x0); lo x2 (lc x1)].
Proof. reflexivity. Qed.
Lemma shl_2 : shl_loop 5 [x0; x1; x2; x3] m 2 0 0 [0; 0; 0; 0] = Ok [0; 0; lo x0 0; lo x1 (lc x0)].
Proof. reflexivity. Qed.
Lemma shl_3 : shl_loop 5 [x0; x1; x2; x3] m 3 0 0 [0; 0; 0; 0] = Ok [0; 0; 0; lo x0 0].
Proof. reflexivity. Qed.
Lemma shr_0 : shr_loop 5 [x0; x1; x2; x3] m 4 4 0 [0; 0; 0; 0] = Ok [ro x0 (rc x1); ro x1 (rc x2); ro x2 (rc x3); ro x3 0].
Proof. reflexivity. Qed.
Lemma shr_1 : shr_loop 5 [x0; x1; x2; x3] m 3 4 0 [0; 0; 0; 0] = Ok [ro x1 (rc x2); ro x2 (rc x3); ro x3 0; 0].
Proof. reflexivity. Qed.
Lemma shr_2 : shr_loop 5 [x0; x1; x2; x3] m 2 4 0 [0; 0; 0; 0] = Ok [ro x2 (rc x3); ro x3 0; 0; 0].
Proof. reflexivity. Qed.
Lemma shr_3 : shr_loop 5 [x0; x1; x2; x3] m 1 4 0 [0; 0; 0; 0] = Ok [ro x3 0; 0; 0; 0].
Proof. reflexivity. Qed.

Hypothesis (Hm : 0 <= m < 32) (A0 : word x0) (A1 : word x1) (A2 : word x2) (A3 : word x3).
Lemma left_word : forall x y, word x -> word y -> word (lo x (lc y)) /\ 0 <= lc x < 2 ^ m /\
  exists l, 0 <= l /\ lo x (lc y) = l + lc y /\ l + 2 ^ 32 * lc x = x * 2 ^ m.
Proof using Hm.
  clear A0 A1 A2 A3. intros x y Hx Hy. unfold lo, lc. destruct (m =? 0) eqn:E.
  - apply Z.eqb_eq in E. rewrite E. change (2 ^ 0) with 1. split; [exact Hx|]. split; [lia|]. exists x. unfold word in Hx. lia.
  - assert (M : 0 < m < 32) by lia. destruct (join_words x y m Hx Hy M) as (L & J & B & _). rewrite L. split; [now apply sum_word|].
    split; [exact B|]. exists (w32 (Z.shiftl x m)). split; [apply w32_word|]. split; [reflexivity|exact J].
Qed.
Lemma left_first : forall x, word x -> word (lo x 0) /\ lo x 0 + 2 ^ 32 * lc x = x * 2 ^ m.
Proof using Hm.
  intros x Hx. destruct (left_word x 0 Hx zero_word) as (W & _ & l & _ & E1 & E2).
  assert (Z0 : lc 0 = 0) by (unfold lc; destruct (m =? 0); [reflexivity|apply Z.shiftr_0_l]). rewrite Z0 in *. split; [exact W|]. lia.
Qed.
Lemma right_word : forall x y, word x -> word y -> word (ro x (rc y)) /\ 
  exists r, 0 <= r < 2 ^ m /\ (ro x (rc y) - rc y) * 2 ^ m + r = x /\ 2 ^ m * rc y = 2 ^ 32 * (y mod 2 ^ m).
Proof using Hm.
  clear A0 A1 A2 A3. intros x y Hx Hy. unfold ro, rc. destruct (m =? 0) eqn:E.
  - apply Z.eqb_eq in E. rewrite E. change (2 ^ 0) with 1. split; [exact Hx|]. exists 0. rewrite Z.mod_1_r. lia.
  - assert (M : 0 < 32 - m < 32) by lia. destruct (join_words y x (32 - m) Hy Hx M) as (L & J & B & _).
    replace (32 - (32 - m)) with m in * by ring. rewrite Z.lor_comm, L.
    pose proof (sum_word y x (32 - m) Hy Hx M) as W. replace (32 - (32 - m)) with m in W by ring. split; [exact W|].
    assert (P0 : 0 < 2 ^ m) by (apply Z.pow_pos_nonneg; lia).
    exists (x mod 2 ^ m). split; [now apply Z.mod_pos_bound|]. split.
    + rewrite (Z.shiftr_div_pow2 x) by lia. pose proof (Z.div_mod x (2 ^ m)) as D. rewrite D at 3 by lia. ring.
    + rewrite (Z.shiftr_div_pow2 y) in J by lia. pose proof (Z.div_mod y (2 ^ m)) as D.
      assert (PQ : 2 ^ m * 2 ^ (32 - m) = 2 ^ 32) by (rewrite <- Z.pow_add_r by lia; f_equal; lia).
      assert (J2 : 2 ^ m * w32 (Z.shiftl y (32 - m)) + 2 ^ 32 * (2 ^ m * (y / 2 ^ m)) = 2 ^ 32 * y).
      { rewrite <- PQ. rewrite <- PQ in J. transitivity (2 ^ m * (y * 2 ^ (32 - m))); [rewrite <- J; ring|ring]. }
      rewrite (Z.mod_eq y (2 ^ m)) by lia. clear - J2. lia.
Qed.
Lemma right_last : forall x, word x -> word (ro x 0) /\ ro x 0 * 2 ^ m + x mod 2 ^ m = x.
Proof using Hm.
  intros x Hx. destruct (right_word x 0 Hx zero_word) as (W & r & R & E1 & E2).
  assert (Z0 : rc 0 = 0) by (unfold rc; destruct (m =? 0); [reflexivity|rewrite Z.shiftl_0_l; reflexivity]). rewrite Z0 in *.
  split; [exact W|]. rewrite Z.sub_0_r in E1. replace (x mod 2 ^ m) with r; [exact E1|].
  apply Z.mod_unique with (ro x 0); [left; exact R|]. rewrite (Z.mul_comm (2 ^ m)). symmetry. exact E1.
Qed.
(** The low part of a word and the remainder. *)
Lemma right_mid : forall x y, word x -> word y -> (ro x (rc y) - rc y) * 2 ^ m + x mod 2 ^ m = x /\ 2 ^ m * rc y = 2 ^ 32 * (y mod 2 ^ m).
Proof using Hm.
  intros x y Hx Hy. destruct (right_word x y Hx Hy) as (_ & r & R & E1 & E2). split; [|exact E2].
  replace (x mod 2 ^ m) with r; [exact E1|]. apply Z.mod_unique with (ro x (rc y) - rc y); [left; exact R|]. rewrite (Z.mul_comm (2 ^ m)). symmetry. exact E1.
Qed.
End LOOPS.

Lemma pow_split : forall d m, 0 <= d -> 0 <= m -> 2 ^ (32 * d + m) = 2 ^ (32 * d) * 2 ^ m.
Proof. intros. apply Z.pow_add_r; lia. Qed.
Lemma shl_small : forall a s, wf a -> 0 <= s < 128 -> exists r, shl a s = Ok r /\ is r ((value a * 2 ^ s) mod 2 ^ 128).
Proof.
  intros [x0 x1 x2 x3] s (A0 & A1 & A2 & A3) Hs. cbn [v0 v1 v2 v3] in *.
  destruct (shift_split s) as (d & m & Ed & Em & Es & Hm & Hd); [lia|]. unfold shl. rewrite Ed, Em. unfold wa. cbn [v0 v1 v2 v3].
  destruct (left_first m Hm x0 A0) as (F0 & G0).
  destruct (left_word m Hm x1 x0 A1 A0) as (W1 & _ & l1 & _ & E1 & G1). destruct (left_word m Hm x2 x1 A2 A1) as (W2 & _ & l2 & _ & E2 & G2).
  destruct (left_word m Hm x3 x2 A3 A2) as (W3 & _ & l3 & _ & E3 & G3).
  rewrite Es, pow_split by lia. set (P := 2 ^ m) in *.
  assert (D : d = 0 \/ d = 1 \/ d = 2 \/ d = 3) by lia. destruct D as [D | [D | [D | D]]]; clear Ed; subst d.
  - rewrite shl_0. cbn [obind]. eexists. split; [reflexivity|]. apply is_intro with (- lc m x3); unfold of_wa, value, wf; cbn [nth v0 v1 v2 v3].
    + words. + change (2 ^ (32 * 0)) with 1. pows. lia.
  - rewrite shl_1. cbn [obind]. eexists. split; [reflexivity|]. apply is_intro with (- lc m x2 - x3 * P); unfold of_wa, value, wf; cbn [nth v0 v1 v2 v3].
    + words. + change (2 ^ (32 * 1)) with 4294967296. pows. lia.
  - rewrite shl_2. cbn [obind]. eexists. split; [reflexivity|].
    apply is_intro with (- lc m x1 - x2 * P - 2 ^ 32 * (x3 * P)); unfold of_wa, value, wf; cbn [nth v0 v1 v2 v3].
    + words. + change (2 ^ (32 * 2)) with 18446744073709551616. pows. lia.
  - rewrite shl_3. cbn [obind]. eexists. split; [reflexivity|].
    apply is_intro with (- lc m x0 - x1 * P - 2 ^ 32 * (x2 * P) - 2 ^ 64 * (x3 * P)); unfold of_wa, value, wf; cbn [nth v0 v1 v2 v3].
    + words. + change (2 ^ (32 * 3)) with 79228162514264337593543950336. pows. lia.
Qed.
Lemma shl_large : forall a s, wf a -> 128 <= s < 256 -> exists r, shl a s = Ok r /\ is r 0.
Proof.
  intros a s W Hs. destruct (shift_split s) as (d & m & Ed & Em & Es & Hm & Hd); [lia|]. unfold shl. rewrite Ed, Em. cbn [shl_loop].
  replace (d <? 4) with false by lia. cbn [obind]. eexists. split; [reflexivity|]. split; [unfold wf; cbn; words|reflexivity].
Qed.
Lemma div_intro : forall a z q r, wf a -> 0 < q -> 0 <= r < q -> value a * q + r = z -> is a (z / q).
Proof. intros a z q r W Q R E. split; [exact W|]. apply Z.div_unique with r; [left; exact R|]. rewrite <- E. ring. Qed.
Lemma shr_small : forall a s, wf a -> 0 <= s < 128 -> exists r, shr a s = Ok r /\ is r (value a / 2 ^ s).
Proof.
  intros [x0 x1 x2 x3] s (A0 & A1 & A2 & A3) Hs. cbn [v0 v1 v2 v3] in *.
  destruct (shift_split s) as (d & m & Ed & Em & Es & Hm & Hd); [lia|]. unfold shr. rewrite Ed, Em. unfold wa. cbn [v0 v1 v2 v3].
  destruct (right_last m Hm x3 A3) as (W3 & G3). destruct (right_word m Hm x2 x3 A2 A3) as (W2 & _). destruct (right_mid m Hm x2 x3 A2 A3) as (G2 & C3).
  destruct (right_word m Hm x1 x2 A1 A2) as (W1 & _). destruct (right_mid m Hm x1 x2 A1 A2) as (G1 & C2).
  destruct (right_word m Hm x0 x1 A0 A1) as (W0 & _). destruct (right_mid m Hm x0 x1 A0 A1) as (G0 & C1).
  assert (P0 : 0 < 2 ^ m) by (apply Z.pow_pos_nonneg; lia).
  pose proof (Z.mod_pos_bound x0 (2 ^ m) P0) as B0. pose proof (Z.mod_pos_bound x1 (2 ^ m) P0) as B1.
  pose proof (Z.mod_pos_bound x2 (2 ^ m) P0) as B2. pose proof (Z.mod_pos_bound x3 (2 ^ m) P0) as B3.
  rewrite Es, pow_split by lia. set (P := 2 ^ m) in *. clearbody P. unfold word in A0, A1, A2, A3.
  assert (D : d = 0 \/ d = 1 \/ d = 2 \/ d = 3) by lia. destruct D as [D | [D | [D | D]]]; clear Ed; subst d.
  - change (w8 (4 - 0)) with 4. rewrite shr_0. cbn [obind]. eexists. split; [reflexivity|].
    change (2 ^ (32 * 0)) with 1. apply div_intro with (x0 mod P); unfold of_wa, value, wf; cbn [nth v0 v1 v2 v3]; [words|lia|lia|]. pows. nia.
  - change (w8 (4 - 1)) with 3. rewrite shr_1. cbn [obind]. eexists. split; [reflexivity|].
    change (2 ^ (32 * 1)) with 4294967296. apply div_intro with (x0 + 2 ^ 32 * (x1 mod P)); unfold of_wa, value, wf; cbn [nth v0 v1 v2 v3]; [words|lia|pows; lia|]. pows. nia.
  - change (w8 (4 - 2)) with 2. rewrite shr_2. cbn [obind]. eexists. split; [reflexivity|].
    change (2 ^ (32 * 2)) with 18446744073709551616. apply div_intro with (x0 + 2 ^ 32 * x1 + 2 ^ 64 * (x2 mod P)); unfold of_wa, value, wf; cbn [nth v0 v1 v2 v3]; [words|lia|pows; lia|]. pows. nia.
  - change (w8 (4 - 3)) with 1. rewrite shr_3. cbn [obind]. eexists. split; [reflexivity|].
    change (2 ^ (32 * 3)) with 79228162514264337593543950336. apply div_intro with (x0 + 2 ^ 32 * x1 + 2 ^ 64 * x2 + 2 ^ 96 * (x3 mod P)); unfold of_wa, value, wf; cbn [nth v0 v1 v2 v3]; [words|lia|pows; lia|]. pows. nia.
Qed.
Lemma shr_large : forall a s, wf a -> (128 <= s < 160 -> exists r, shr a s = Ok r /\ is r 0) /\ (160 <= s < 256 -> shr a s = UB).
Proof.
  intros a s W. split; intros Hs; destruct (shift_split s) as (d & m & Ed & Em & Es & Hm & Hd); try lia; unfold shr; rewrite Ed, Em.
  - assert (d = 4) by lia. rewrite H in *. eexists. split; [reflexivity|]. split; [unfold wf; cbn; words|reflexivity].
  - assert (D : d = 5 \/ d = 6 \/ d = 7) by lia. destruct D as [D | [D | D]]; clear Ed; subst d; reflexivity.
Qed.

(** ** Logarithms *)
Definition topset (d k v : Z) : Prop := forall i, 0 <= i -> Z.testbit v i = true -> i <= k.
Definition filled (d k v : Z) : Prop := forall i, 0 <= i <= k -> k - d < i -> Z.testbit v i = true.
Lemma fill_step : forall d k v, 0 < d -> 0 <= k -> topset d k v -> filled d k v ->
  topset (2 * d) k (Z.lor v (Z.shiftr v d)) /\ filled (2 * d) k (Z.lor v (Z.shiftr v d)).
Proof.
  intros d k v Hd Hk T F. split.
  - intros i Hi H. rewrite Z.lor_spec, Z.shiftr_spec in H by exact Hi. apply orb_true_iff in H as [H|H]; [now apply T|].
    apply T in H; lia.
  - intros i Hi H. rewrite Z.lor_spec, Z.shiftr_spec by lia. apply orb_true_iff.
    destruct (Z.lt_ge_cases (k - d) i) as [L|L]; [left; now apply F|]. right. apply F; lia.
Qed.
Lemma smear_ones : forall v, 0 < v < 2 ^ 32 -> smear v = Z.ones (Z.log2 v + 1).
Proof.
  intros v Hv. pose proof (Z.log2_nonneg v) as K0. assert (K : Z.log2 v < 32) by (apply Z.log2_lt_pow2; lia).
  set (k := Z.log2 v) in *.
  assert (T : topset 1 k v). { intros i Hi H. destruct (Z.le_gt_cases i k) as [?|G]; [assumption|]. rewrite (Z.bits_above_log2 v i) in H by lia. discriminate. }
  assert (F : filled 1 k v). { intros i Hi H. replace i with k by lia. apply Z.bit_log2. lia. }
  unfold smear. 
  destruct (fill_step 1 k v) as (T1 & F1); [lia..|assumption|assumption|]. set (w1 := Z.lor v (Z.shiftr v 1)) in *. clearbody w1. change (2 * 1) with 2 in *.
  destruct (fill_step 2 k w1) as (T2 & F2); [lia..|assumption|assumption|]. set (w2 := Z.lor w1 (Z.shiftr w1 2)) in *. clearbody w2. change (2 * 2) with 4 in *.
  destruct (fill_step 4 k w2) as (T3 & F3); [lia..|assumption|assumption|]. set (w3 := Z.lor w2 (Z.shiftr w2 4)) in *. clearbody w3. change (2 * 4) with 8 in *.
  destruct (fill_step 8 k w3) as (T4 & F4); [lia..|assumption|assumption|]. set (w4 := Z.lor w3 (Z.shiftr w3 8)) in *. clearbody w4. change (2 * 8) with 16 in *.
  destruct (fill_step 16 k w4) as (T5 & F5); [lia..|assumption|assumption|]. cbv zeta.
  apply Z.bits_inj'. intros i Hi. rewrite Z.testbit_ones_nonneg by lia. destruct (i <? k + 1) eqn:E.
  - apply F5; lia.
  - destruct (Z.testbit (Z.lor w4 (Z.shiftr w4 16)) i) eqn:B; [|reflexivity]. apply T5 in B; lia.
Qed.
Lemma sweep : forall (P : Z -> bool) n, forallb P (map Z.of_nat (seq 0 n)) = true -> forall k, 0 <= k < Z.of_nat n -> P k = true.
Proof.
  intros P n H k Hk. rewrite forallb_forall in H. apply H. apply in_map_iff. exists (Z.to_nat k). split; [lia|]. apply in_seq. lia.
Qed.
Definition is_ok (o : outcome Z) (z : Z) : bool := match o with Ok x => x =? z | _ => false end.
Lemma is_ok_eq : forall o z, is_ok o z = true -> o = Ok z.
Proof. intros [x| | |] z H; try discriminate. apply Z.eqb_eq in H. now subst. Qed.
Lemma flog2_32_spec : forall v, 0 < v < 2 ^ 32 -> flog2_32 v = Ok (Z.log2 v) /\ 0 <= Z.log2 v < 32.
Proof.
  intros v Hv. pose proof (Z.log2_nonneg v) as K0. assert (K : Z.log2 v < 32) by (apply Z.log2_lt_pow2; lia). split; [|lia].
  unfold flog2_32. rewrite smear_ones by exact Hv. apply is_ok_eq.
  apply (sweep (fun k => is_ok (entry flog2_table (Z.shiftr (w32 (Z.ones (k + 1) * 130329821)) 27)) k) 32); [vm_compute; reflexivity|lia].
Qed.
(** The lowest set bit. *)
Lemma low_bit : forall w t o, 0 <= t < w -> Z.land (2 ^ t * (2 * o + 1)) ((- (2 ^ t * (2 * o + 1))) mod 2 ^ w) = 2 ^ t.
Proof.
  intros w t o Ht. rewrite <- Z.land_ones, Z.land_assoc by lia.
  replace (2 ^ t * (2 * o + 1)) with (Z.shiftl (2 * o + 1) t) by (rewrite Z.shiftl_mul_pow2 by lia; ring).
  replace (- Z.shiftl (2 * o + 1) t) with (Z.shiftl (2 * Z.lnot o + 1) t) by (rewrite !Z.shiftl_mul_pow2 by lia; unfold Z.lnot; ring_simplify; unfold Z.pred; ring).
  rewrite <- Z.shiftl_land. replace (Z.land (2 * o + 1) (2 * Z.lnot o + 1)) with 1.
  - rewrite Z.land_ones, Z.shiftl_1_l by lia. apply Z.mod_small. split; [apply Z.pow_nonneg; lia|]. apply Z.pow_lt_mono_r; lia.
  - apply Z.bits_inj'. intros i Hi. rewrite Z.land_spec. destruct (Z.eq_dec i 0) as [->|N]; [now rewrite !Z.testbit_odd_0|].
    replace i with (Z.succ (i - 1)) by lia. rewrite !Z.testbit_odd_succ by lia. rewrite Z.lnot_spec by lia.
    change 1 with (2 * 0 + 1) at 1. rewrite Z.testbit_odd_succ by lia. rewrite Z.bits_0. now destruct (Z.testbit o (i - 1)).
Qed.
Lemma odd_part_pos : forall p, exists t o, 0 <= t /\ 0 <= o /\ Zpos p = 2 ^ t * (2 * o + 1).
Proof.
  induction p as [p _|p (t & o & Ht & Ho & E)|].
  - exists 0, (Zpos p). change (2 ^ 0) with 1. lia.
  - exists (Z.succ t), o. rewrite Z.pow_succ_r by exact Ht. split; [lia|]. split; [exact Ho|]. rewrite Pos2Z.inj_xO, E. ring.
  - exists 0, 0. change (2 ^ 0) with 1. lia.
Qed.
Lemma odd_part : forall v, 0 < v -> exists t o, 0 <= t /\ 0 <= o /\ v = 2 ^ t * (2 * o + 1).
Proof. intros [|p|p] H; try lia. apply odd_part_pos. Qed.
Lemma odd_part_bound : forall v w t o, 0 < v < 2 ^ w -> 0 <= t -> 0 <= o -> v = 2 ^ t * (2 * o + 1) -> t < w.
Proof.
  intros v w t o Hv Ht Ho E. assert (P0 : 0 < 2 ^ t) by (apply Z.pow_pos_nonneg; lia).
  destruct (Z.lt_ge_cases t w) as [?|G]; [assumption|]. assert (2 ^ w <= 2 ^ t) by (apply Z.pow_le_mono_r; lia). nia.
Qed.
Lemma zeros_32_spec : forall v, 0 < v < 2 ^ 32 -> exists t o, zeros_32 v = Ok t /\ 0 <= t < 32 /\ 0 <= o /\ v = 2 ^ t * (2 * o + 1).
Proof.
  intros v Hv. destruct (odd_part v) as (t & o & Ht & Ho & E); [lia|]. pose proof (odd_part_bound v 32 t o Hv Ht Ho E) as B.
  exists t, o. split; [|lia]. unfold zeros_32. rewrite E. unfold w32 at 2. rewrite low_bit by lia. apply is_ok_eq.
  apply (sweep (fun k => is_ok (entry zeros_table (Z.shiftr (w32 (2 ^ k * 125613361)) 27)) k) 32); [vm_compute; reflexivity|lia].
Qed.

Lemma flog2_64_spec : forall v, 0 < v < 2 ^ 64 -> flog2_64 v = Ok (Z.log2 v).
Proof.
  intros v Hv. destruct (high_word v) as (H & E); [lia|]. unfold flog2_64. pose proof (w32_word v) as L. rewrite (w32_small (Z.shiftr v 32) H).
  set (h := Z.shiftr v 32) in *. set (l := w32 v) in *. clearbody h l. unfold word in *.
  destruct (h =? 0) eqn:Z0.
  - replace v with l by lia. apply flog2_32_spec. lia.
  - destruct (flog2_32_spec h) as (-> & R); [lia|]. cbn [obind]. rewrite w8_small by lia. f_equal. symmetry. apply Z.log2_unique; [lia|].
    pose proof (Z.log2_spec h) as S. rewrite Z.pow_succ_r in * by lia. rewrite Z.pow_add_r by lia. pows. nia.
Qed.
Lemma zeros_64_spec : forall v, 0 < v < 2 ^ 64 -> exists t o, zeros_64 v = Ok t /\ 0 <= t < 64 /\ 0 <= o /\ v = 2 ^ t * (2 * o + 1).
Proof.
  intros v Hv. destruct (high_word v) as (H & E); [lia|]. unfold zeros_64. pose proof (w32_word v) as L. rewrite (w32_small (Z.shiftr v 32) H).
  set (h := Z.shiftr v 32) in *. set (l := w32 v) in *. clearbody h l. unfold word in *.
  destruct (l =? 0) eqn:Z0.
  - destruct (zeros_32_spec h) as (t & o & -> & T & O & F); [lia|]. exists (t + 32), o. cbn [obind]. rewrite w8_small by lia.
    split; [reflexivity|]. split; [lia|]. split; [exact O|]. rewrite Z.pow_add_r by lia. pows. nia.
  - destruct (zeros_32_spec l) as (t & o & -> & T & O & F); [lia|]. exists t, (o + 2 ^ (31 - t) * h). split; [reflexivity|]. split; [lia|].
    assert (P : 0 < 2 ^ (31 - t)) by (apply Z.pow_pos_nonneg; lia). split; [nia|].
    assert (Q : 2 ^ t * (2 * 2 ^ (31 - t)) = 2 ^ 32) by (rewrite <- Z.pow_succ_r, <- Z.pow_add_r by lia; f_equal; lia).
    rewrite <- E, F, <- Q. ring.
Qed.
Lemma flog2_spec : forall a, wf a -> flog2 a = if value a =? 0 then Throw "abort"%string else Ok (Z.log2 (value a)).
Proof.
  intros [x0 x1 x2 x3] (A0 & A1 & A2 & A3). unfold flog2, value, word in *. cbn [v0 v1 v2 v3] in *.
  assert (J : forall w j low, 0 < w < 2 ^ 32 -> 0 <= j <= 96 -> 0 <= low < 2 ^ j ->
    obind (flog2_32 w) (fun l => Ok (w8 (l + j))) = Ok (Z.log2 (low + 2 ^ j * w))).
  { intros w j low W J L. destruct (flog2_32_spec w W) as (-> & R). cbn [obind]. rewrite w8_small by lia. f_equal. symmetry. apply Z.log2_unique; [lia|].
    pose proof (Z.log2_spec w) as S. rewrite Z.pow_succ_r in * by lia. rewrite Z.pow_add_r by lia. 
    set (q := 2 ^ Z.log2 w) in *. set (b := 2 ^ j) in *. clearbody q b. nia. }
  destruct (x3 =? 0) eqn:E3; cbn [negb].
  - destruct (x2 =? 0) eqn:E2; cbn [negb].
    + destruct (x1 =? 0) eqn:E1; cbn [negb].
      * destruct (x0 =? 0) eqn:E0; cbn [negb].
        -- replace (_ =? 0) with true by lia. reflexivity.
        -- replace (_ + _ + _ + _ =? 0) with false by lia. rewrite (J x0 (32 * 0) 0) by (cbn; lia). do 2 f_equal. change (2 ^ (32 * 0)) with 1. lia.
      * replace (_ + _ + _ + _ =? 0) with false by lia. rewrite (J x1 (32 * 1) x0) by (change (32 * 1) with 32; lia). do 2 f_equal. change (2 ^ (32 * 1)) with (2 ^ 32). lia.
    + replace (_ + _ + _ + _ =? 0) with false by lia. rewrite (J x2 (32 * 2) (x0 + 2 ^ 32 * x1)) by (change (32 * 2) with 64; pows; lia). do 2 f_equal. change (2 ^ (32 * 2)) with (2 ^ 64). lia.
  - replace (_ + _ + _ + _ =? 0) with false by lia. rewrite (J x3 (32 * 3) (x0 + 2 ^ 32 * x1 + 2 ^ 64 * x2)) by (change (32 * 3) with 96; pows; lia). do 2 f_equal.
Qed.
Lemma trailingzeros_spec : forall a, wf a -> (value a = 0 -> trailingzeros a = Ok 128) /\
  (value a <> 0 -> exists t o, trailingzeros a = Ok t /\ 0 <= t < 128 /\ 0 <= o /\ value a = 2 ^ t * (2 * o + 1)).
Proof.
  intros [x0 x1 x2 x3] (A0 & A1 & A2 & A3). unfold trailingzeros, value, word in *. cbn [v0 v1 v2 v3] in *.
  assert (J : forall w j high, 0 < w < 2 ^ 32 -> 0 <= j <= 96 -> 0 <= high ->
    exists t o, obind (zeros_32 w) (fun l => Ok (w8 (l + j))) = Ok t /\ 0 <= t < 128 /\ 0 <= o /\ 2 ^ j * (w + 2 ^ 32 * high) = 2 ^ t * (2 * o + 1)).
  { intros w j high W J L. destruct (zeros_32_spec w W) as (t & o & -> & T & O & F). cbn [obind]. rewrite w8_small by lia.
    exists (t + j), (o + 2 ^ (31 - t) * high). split; [reflexivity|]. split; [lia|].
    assert (P : 0 < 2 ^ (31 - t)) by (apply Z.pow_pos_nonneg; lia). split; [nia|].
    assert (Q : 2 ^ t * (2 * 2 ^ (31 - t)) = 2 ^ 32) by (rewrite <- Z.pow_succ_r, <- Z.pow_add_r by lia; f_equal; lia).
    rewrite F, <- Q, Z.pow_add_r by lia. ring. }
  split; intros V.
  - replace x0 with 0 by lia. replace x1 with 0 by lia. replace x2 with 0 by lia. replace x3 with 0 by lia. reflexivity.
  - destruct (x0 =? 0) eqn:E0; cbn [negb].
    + destruct (x1 =? 0) eqn:E1; cbn [negb].
      * destruct (x2 =? 0) eqn:E2; cbn [negb].
        -- destruct (x3 =? 0) eqn:E3; cbn [negb]; [lia|].
           destruct (J x3 (32 * 3) 0) as (t & o & H1 & H2 & H3 & H4); [lia..|]. exists t, o. split; [exact H1|]. split; [exact H2|]. split; [exact H3|].
           rewrite <- H4. change (2 ^ (32 * 3)) with (2 ^ 96). lia.
        -- destruct (J x2 (32 * 2) x3) as (t & o & H1 & H2 & H3 & H4); [lia..|]. exists t, o. split; [exact H1|]. split; [exact H2|]. split; [exact H3|].
           rewrite <- H4. change (2 ^ (32 * 2)) with (2 ^ 64). lia.
      * destruct (J x1 (32 * 1) (x2 + 2 ^ 32 * x3)) as (t & o & H1 & H2 & H3 & H4); [lia..|]. exists t, o. split; [exact H1|]. split; [exact H2|]. split; [exact H3|].
        rewrite <- H4. change (2 ^ (32 * 1)) with (2 ^ 32). lia.
    + destruct (J x0 (32 * 0) (x1 + 2 ^ 32 * x2 + 2 ^ 64 * x3)) as (t & o & H1 & H2 & H3 & H4); [lia..|]. exists t, o. split; [exact H1|]. split; [exact H2|]. split; [exact H3|].
      rewrite <- H4. change (2 ^ (32 * 0)) with 1. lia.
Qed.
Lemma clog2_spec : forall a, wf a -> clog2 a = if value a =? 0 then Throw "abort"%string else Ok (Z.log2_up (value a)).
Proof.
  intros a W. unfold clog2. rewrite flog2_spec by exact W. destruct (value a =? 0) eqn:E; [reflexivity|]. cbn [obind]. f_equal.
  destruct (neg_spec a W) as (Wn & Vn). destruct (band_spec a (neg a) W Wn) as (Wb & Vb).
  destruct (compare_spec (band a (neg a)) a Wb W) as (_ & -> & _). rewrite Vb, Vn.
  pose proof (value_range a W) as R. set (v := value a) in *. clearbody v. clear - E R.
  destruct (odd_part v) as (t & o & Ht & Ho & F); [lia|]. pose proof (odd_part_bound v 128 t o ltac:(lia) Ht Ho F) as B.
  rewrite F at 2 3. rewrite low_bit by lia.
  assert (K : Z.log2 v < 128) by (apply Z.log2_lt_pow2; lia). pose proof (Z.log2_nonneg v) as K0.
  assert (P0 : 0 < 2 ^ t) by (apply Z.pow_pos_nonneg; lia).
  destruct (2 ^ t =? v) eqn:Q; cbn [negb bit].
  - apply Z.eqb_eq in Q. rewrite <- Q in *. rewrite Z.log2_pow2, Z.log2_up_pow2 by lia. rewrite Z.add_0_r. apply w8_small. lia.
  - rewrite w8_small by lia. symmetry. apply Z.log2_up_unique.
    + lia.
    +
      replace (Z.pred (Z.log2 v + 1)) with (Z.log2 v) by lia. pose proof (Z.log2_spec v ltac:(lia)) as (S1 & S2).
      split; [|rewrite <- Z.add_1_r in S2; lia]. destruct (Z.eq_dec (2 ^ Z.log2 v) v) as [X|X]; [|lia]. exfalso.
      assert (T : t = Z.log2 v \/ t < Z.log2 v).
      { destruct (Z.lt_trichotomy t (Z.log2 v)) as [?|[?|G]]; [now right|now left|]. assert (2 ^ Z.log2 v < 2 ^ t) by (apply Z.pow_lt_mono_r; lia). nia. }
      destruct T as [T|T]; [rewrite <- T in X; lia|].
      assert (Y : 2 ^ (Z.log2 v - t) = 2 * o + 1).
      { apply Z.mul_reg_l with (2 ^ t); [lia|]. rewrite <- Z.pow_add_r by lia. replace (t + (Z.log2 v - t)) with (Z.log2 v) by ring. lia. }
      replace (Z.log2 v - t) with (Z.succ (Z.log2 v - t - 1)) in Y by lia. rewrite Z.pow_succ_r in Y by lia. lia.
Qed.

(** ** Division *)
Lemma is_small : forall a z, 0 <= z < 2 ^ 128 -> is a (z mod 2 ^ 128) -> is a z.
Proof. intros a z H. now rewrite Z.mod_small. Qed.
Lemma narrow_spec : forall n fuel a f q, (n < fuel)%nat -> wf a -> wf f -> wf q -> value f < 2 ^ Z.of_nat n ->
  exists j f' q', narrow fuel a f q = Ok (f', q') /\ 0 <= j /\ is f' (value f / 2 ^ j) /\ is q' (value q / 2 ^ j) /\ value f' <= value a /\
    (j = 0 \/ 0 < j /\ value a < value f / 2 ^ (j - 1)).
Proof.
  induction n as [|n IH]; intros fuel a f q Hf A F Q B; (destruct fuel as [|fuel]; [lia|]); cbn [narrow]; rewrite lt_spec by assumption;
    pose proof (value_range a A) as RA; pose proof (value_range f F) as RF.
  - change (2 ^ Z.of_nat 0) with 1 in B. replace (value a <? value f) with false by lia.
    exists 0, f, q. change (2 ^ 0) with 1. rewrite !Z.div_1_r. split; [reflexivity|]. split; [lia|]. split; [now split|]. split; [now split|]. lia.
  - destruct (value a <? value f) eqn:E.
    + destruct (shr_small f 1 F) as (f1 & -> & F1 & V1); [lia|]. destruct (shr_small q 1 Q) as (q1 & -> & Q1 & W1); [lia|]. cbn [obind].
      change (2 ^ 1) with 2 in *.
      destruct (IH fuel a f1 q1) as (j & f' & q' & H1 & H2 & H3 & H4 & H5 & H6); [lia|assumption..| |].
      { rewrite V1. apply Z.div_lt_upper_bound; [lia|]. rewrite Nat2Z.inj_succ, Z.pow_succ_r in B by lia. exact B. }
      exists (j + 1), f', q'. split; [exact H1|]. split; [lia|].
      assert (D : forall x, x / 2 / 2 ^ j = x / 2 ^ (j + 1)).
      { intros x. rewrite Z.div_div by (try apply Z.pow_pos_nonneg; lia). f_equal. rewrite Z.pow_add_r by lia. ring. }
      rewrite <- !D, <- V1, <- W1. split; [exact H3|]. split; [exact H4|]. split; [exact H5|]. right. split; [lia|].
      replace (j + 1 - 1) with j by ring. destruct H6 as [->|(J & H6)].
      * change (2 ^ 0) with 1. rewrite Z.div_1_r. lia.
      * rewrite V1 in H6. rewrite Z.div_div in H6 by (try apply Z.pow_pos_nonneg; lia).
        replace (2 * 2 ^ (j - 1)) with (2 ^ j) in H6; [exact H6|]. rewrite <- Z.pow_succ_r by lia. f_equal. lia.
    + exists 0, f, q. change (2 ^ 0) with 1. rewrite !Z.div_1_r. split; [reflexivity|]. split; [lia|]. split; [now split|]. split; [now split|]. lia.
Qed.
Lemma div_loop_spec : forall fuel d n q f g k j, wf d -> wf n -> wf q -> wf f -> wf g -> 0 < value d -> 0 <= k ->
  value f = value d * 2 ^ k -> value g = 2 ^ k -> 0 < j -> j * value f <= value n < (j + 1) * value f -> j + k < Z.of_nat fuel ->
  value q * value d + value n < 2 ^ 128 ->
  exists q' n', div_loop fuel d n q f g = Ok (q', n') /\ wf q' /\ wf n' /\ value q' * value d + value n' = value q * value d + value n /\ value n' < value d.
Proof.
  induction fuel as [|fuel IH]; intros d n q f g k j D N Q F G D0 K EF EG J0 J1 B T; [lia|]. cbn [div_loop].
  pose proof (value_range n N) as RN. pose proof (value_range f F) as RF. pose proof (value_range q Q) as RQ. pose proof (value_range d D) as RD.
  assert (P0 : 0 < 2 ^ k) by (apply Z.pow_pos_nonneg; lia).
  assert (FN : value f <= value n) by nia.
  assert (S : is (sub n f) (value n - value f)) by (apply is_small; [lia|now apply sub_spec]).
  assert (QB : 0 <= value q + value g < 2 ^ 128) by (rewrite EG; rewrite EF in FN; nia).
  assert (A : is (add q g) (value q + value g)) by (apply is_small; [exact QB|now apply add_spec]).
  destruct S as (WS & VS), A as (WA & VA). set (n1 := sub n f) in *. set (q1 := add q g) in *. clearbody n1 q1.
  destruct (narrow_spec 128 130 n1 f g) as (i & f' & g' & -> & I0 & (F' & VF) & (G' & VG) & I1 & I2); [lia|assumption..|apply RF|]. cbn [obind].
  destruct (compare_spec n1 d WS D) as (_ & _ & _ & _ & _ & ->).
  assert (T1 : value q1 * value d + value n1 = value q * value d + value n) by (rewrite VA, VS, EG, EF; ring).
  destruct (value d <=? value n1) eqn:C.
  - apply Z.leb_le in C. destruct I2 as [->|(I3 & I4)].
    + change (2 ^ 0) with 1 in *. rewrite Z.div_1_r in *. assert (J2 : 1 < j) by nia.
      destruct (IH d n1 q1 f' g' k (j - 1)) as (q' & n' & H1 & H2 & H3 & H4 & H5);
        [assumption|assumption|assumption|assumption|assumption|assumption|assumption|congruence|congruence|lia|rewrite VF, VS; clear - J1; lia|lia|rewrite T1; exact T|].
      exists q', n'. exact (conj H1 (conj H2 (conj H3 (conj (eq_trans H4 T1) H5)))).
    + assert (IK : i <= k).
      { destruct (Z.le_gt_cases i k) as [?|X]; [assumption|]. exfalso.
        assert (Y : value f / 2 ^ (i - 1) <= value d); [|lia]. apply Z.div_le_upper_bound; [apply Z.pow_pos_nonneg; lia|]. rewrite EF.
        assert (2 ^ k <= 2 ^ (i - 1)) by (apply Z.pow_le_mono_r; lia). nia. }
      assert (PI : forall m, 0 <= m <= k -> value f / 2 ^ m = value d * 2 ^ (k - m) /\ value g / 2 ^ m = 2 ^ (k - m)).
      { intros m Hm. assert (0 < 2 ^ m) by (apply Z.pow_pos_nonneg; lia). assert (E : 2 ^ k = 2 ^ (k - m) * 2 ^ m) by (rewrite <- Z.pow_add_r by lia; f_equal; ring).
        rewrite EF, EG, E. split; [rewrite Z.mul_assoc|]; apply Z.div_mul; lia. }
      destruct (PI i) as (E1 & E2); [lia|]. destruct (PI (i - 1)) as (E3 & _); [lia|]. rewrite E1 in VF. rewrite E2 in VG. rewrite E3 in I4.
      replace (k - (i - 1)) with (Z.succ (k - i)) in I4 by ring. rewrite Z.pow_succ_r in I4 by lia.
      destruct (IH d n1 q1 f' g' (k - i) 1) as (q' & n' & H1 & H2 & H3 & H4 & H5);
        [assumption|assumption|assumption|assumption|assumption|assumption|lia|exact VF|exact VG|lia|rewrite VF in *; clear - I1 I4; lia|lia|rewrite T1; exact T|].
      exists q', n'. exact (conj H1 (conj H2 (conj H3 (conj (eq_trans H4 T1) H5)))).
  - apply Z.leb_gt in C. exists q1, n1. exact (conj eq_refl (conj WA (conj WS (conj T1 C)))).
Qed.
Lemma divmod_spec : forall a b, wf a -> wf b -> value b <> 0 ->
  exists q r, divmod a b = Ok (q, r) /\ is q (value a / value b) /\ is r (value a mod value b).
Proof.
  intros a b A B NZ. unfold divmod. rewrite lt_spec by assumption. pose proof (value_range a A) as RA. pose proof (value_range b B) as RB.
  assert (FIN : forall q r, wf q -> wf r -> value q * value b + value r = value a -> value r < value b -> is q (value a / value b) /\ is r (value a mod value b)).
  { intros q r Q R E L. pose proof (value_range r R) as RR. split; split; try assumption.
    - apply Z.div_unique with (value r); [left; lia|]. rewrite <- E. ring.
    - apply Z.mod_unique with (value q); [left; lia|]. rewrite <- E. ring. }
  destruct (of_int_spec 0) as (W0 & V0). destruct (of_int_spec 1) as (W1 & V1). rewrite Z.mod_0_l in V0 by lia. rewrite Z.mod_small in V1 by lia.
  destruct (value a <? value b) eqn:E.
  { exists (of_int 0), a. split; [reflexivity|]. apply FIN; try assumption; lia. }
  apply Z.ltb_ge in E. rewrite !flog2_spec by assumption.
  replace (value a =? 0) with false by lia. replace (value b =? 0) with false by lia. cbn [obind].
  pose proof (Z.log2_le_mono (value b) (value a) E) as LM. pose proof (Z.log2_nonneg (value b)) as L0.
  assert (LA : Z.log2 (value a) < 128) by (apply Z.log2_lt_pow2; lia).
  pose proof (Z.log2_spec (value a) ltac:(lia)) as SA. pose proof (Z.log2_spec (value b) ltac:(lia)) as SB.
  rewrite Z.pow_succ_r in SA, SB by lia.
  rewrite (w8_small (Z.log2 (value a) - Z.log2 (value b))) by lia.
  destruct (Z.log2 (value a) - Z.log2 (value b) =? 0) eqn:Z0.
  - apply Z.eqb_eq in Z0. replace (Z.log2 (value a)) with (Z.log2 (value b)) in SA by lia.
    assert (S : is (sub a b) (value a - value b)) by (apply is_small; [lia|now apply sub_spec]). destruct S as (WS & VS).
    exists (of_int 1), (sub a b). split; [reflexivity|]. apply FIN; try assumption; lia.
  - apply Z.eqb_neq in Z0. set (k := Z.log2 (value a) - Z.log2 (value b) - 1). assert (K : 0 <= k < 127) by lia.
    rewrite (w8_small k) by lia.
    assert (P : 2 ^ Z.log2 (value a) = 2 * 2 ^ k * 2 ^ Z.log2 (value b)).
    { rewrite <- Z.pow_succ_r, <- Z.pow_add_r by lia. f_equal. lia. }
    assert (P0 : 0 < 2 ^ k) by (apply Z.pow_pos_nonneg; lia).
    assert (PB : 0 < 2 ^ Z.log2 (value b)) by (apply Z.pow_pos_nonneg; lia).
    assert (P1 : 2 ^ k < 2 ^ 128) by (apply Z.pow_lt_mono_r; lia).
    destruct (shl_small (of_int 1) k W1) as (g & -> & G); [lia|]. destruct (shl_small b k B) as (f & -> & F); [lia|]. cbn [obind].
    rewrite V1, Z.mul_1_l in G. apply is_small in G as (WG & VG); [|lia]. 
    assert (FA : value b * 2 ^ k <= value a) by nia. apply is_small in F as (WF & VF); [|nia].
    set (j := value a / value f). assert (J : j * value f <= value a < (j + 1) * value f).
    { pose proof (Z.div_mod (value a) (value f) ltac:(nia)) as DM. pose proof (Z.mod_pos_bound (value a) (value f) ltac:(nia)) as MB. fold j in DM. nia. }
    assert (J4 : value a < 4 * value f) by (rewrite VF; nia).
    assert (J0 : 0 < j) by (rewrite <- VF in FA; nia). assert (J3 : j < 4) by nia.
    destruct (div_loop_spec 140 b a (of_int 0) f g k j) as (q & r & H1 & H2 & H3 & H4 & H5);
      [assumption|assumption|assumption|assumption|assumption|lia|lia|exact VF|exact VG|exact J0|exact J|lia|lia|].
    rewrite H1. exists q, r. split; [reflexivity|]. apply FIN; try assumption; lia.
Qed.
Lemma divmod_zero : forall a b, wf a -> wf b -> value b = 0 -> divmod a b = Throw "abort"%string.
Proof.
  intros a b A B Z0. unfold divmod. rewrite lt_spec, flog2_spec by assumption. pose proof (value_range a A) as RA.
  replace (value a <? value b) with false by lia. replace (value b =? 0) with true by lia. reflexivity.
Qed.
Lemma div_spec : forall a b, wf a -> wf b ->
  (value b <> 0 -> exists q r, div a b = Ok q /\ modulo a b = Ok r /\ is q (value a / value b) /\ is r (value a mod value b)) /\
  (value b = 0 -> div a b = Throw "abort"%string /\ modulo a b = Throw "abort"%string).
Proof.
  intros a b A B. unfold div, modulo. split; intros NZ.
  - destruct (divmod_spec a b A B NZ) as (q & r & -> & Q & R). exists q, r. exact (conj eq_refl (conj eq_refl (conj Q R))).
  - rewrite divmod_zero by assumption. split; reflexivity.
Qed.

(** ** The statements put together *)
Lemma build_ok : (forall hi lo, 0 <= hi < 2 ^ 64 -> 0 <= lo < 2 ^ 64 -> is (of_double hi lo) (lo + 2 ^ 64 * hi)) /\
  (forall z, 0 <= z < 2 ^ 64 -> is (of_int z) z).
Proof.
  split.
  - intros hi lo H L. destruct (of_double_spec hi lo H L) as (W & _ & _ & V). exact (conj W V).
  - intros z H. pose proof (of_int_spec z) as S. now rewrite Z.mod_small in S.
Qed.
Lemma negative_bad : exists z, - 2 ^ 31 <= z < 0 /\ ~ is (of_int z) (z mod 2 ^ 128) /\ is (of_int z) (2 ^ 64 + z).
Proof.
  exists (-1). split; [split; [discriminate|reflexivity]|]. split.
  - intros (_ & V). vm_compute in V. discriminate.
  - exact (of_int_spec (-1)).
Qed.
Lemma shifts_ok : forall a s, wf a ->
  (0 <= s < 128 -> exists l r, shl a s = Ok l /\ shr a s = Ok r /\ is l ((value a * 2 ^ s) mod 2 ^ 128) /\ is r (value a / 2 ^ s)) /\
  (128 <= s < 256 -> exists l, shl a s = Ok l /\ is l 0) /\
  (128 <= s < 160 -> exists r, shr a s = Ok r /\ is r 0).
Proof.
  intros a s A. split; [|split].
  - intros H. destruct (shl_small a s A H) as (l & L & IL). destruct (shr_small a s A H) as (r & R & IR). exists l, r. exact (conj L (conj R (conj IL IR))).
  - intros H. exact (shl_large a s A H).
  - exact (proj1 (shr_large a s A)).
Qed.
Lemma narrow_counts_ok :
  (forall v, 0 < v < 2 ^ 32 -> flog2_32 v = Ok (Z.log2 v) /\ exists t o, zeros_32 v = Ok t /\ 0 <= t < 32 /\ 0 <= o /\ v = 2 ^ t * (2 * o + 1)) /\
  (forall v, 0 < v < 2 ^ 64 -> flog2_64 v = Ok (Z.log2 v) /\ exists t o, zeros_64 v = Ok t /\ 0 <= t < 64 /\ 0 <= o /\ v = 2 ^ t * (2 * o + 1)).
Proof.
  split; intros v H; split.
  - apply (flog2_32_spec v H).
  - apply zeros_32_spec, H.
  - apply flog2_64_spec, H.
  - apply zeros_64_spec, H.
Qed.
