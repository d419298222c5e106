From Coq Require Import String Ascii ZArith NArith Arith Bool Lia ZifyBool List.
From Coq Require Import Floats.SpecFloat.
From Verif Require Import Common JsonNumModel JsonExactProofs RoundProofs Round32Proofs.
From Verif Require Import CastModel CastSpec CastProofs.
Import ListNotations.
Local Open Scope Z_scope.

(** ** Signs *)
Lemma aux_opp : forall s m e l, binary_round_aux 24 128 (negb s) m e l = SFopp (binary_round_aux 24 128 s m e l).
Proof.
  intros s m e l. unfold binary_round_aux. destruct (shr_fexp 24 128 m e l) as [x e1].
  destruct (shr_fexp 24 128 _ e1 loc_Exact) as [y e2]. destruct (shr_m y); [reflexivity| |reflexivity].
  destruct (e2 <=? 128 - 24); reflexivity.
Qed.
Lemma div_opp : forall x y, SFdiv 24 128 (SFopp x) y = SFopp (SFdiv 24 128 x y).
Proof.
  intros [sx|sx| |sx mx ex] [sy|sy| |sy my ey]; cbn [SFopp SFdiv]; try reflexivity;
    try (destruct sx, sy; reflexivity).
  destruct (SFdiv_core_binary 24 128 (Zpos mx) ex (Zpos my) ey) as [[m e] l].
  rewrite <- aux_opp. destruct sx, sy; reflexivity.
Qed.
Lemma div_opp_r : forall x y, SFdiv 24 128 x (SFopp y) = SFopp (SFdiv 24 128 x y).
Proof.
  intros [sx|sx| |sx mx ex] [sy|sy| |sy my ey]; cbn [SFopp SFdiv]; try reflexivity;
    try (destruct sx, sy; reflexivity).
  destruct (SFdiv_core_binary 24 128 (Zpos mx) ex (Zpos my) ey) as [[m e] l].
  rewrite <- aux_opp. destruct sx, sy; reflexivity.
Qed.
Lemma mul_opp : forall x y, SFmul 24 128 (SFopp x) y = SFopp (SFmul 24 128 x y).
Proof.
  intros [sx|sx| |sx mx ex] [sy|sy| |sy my ey]; cbn [SFopp SFmul]; try reflexivity;
    try (destruct sx, sy; reflexivity).
  rewrite <- aux_opp. destruct sx, sy; reflexivity.
Qed.
Lemma toFloat_opp : forall p, toFloat (Zneg p) = SFopp (toFloat (Zpos p)).
Proof. intros p. unfold toFloat. rewrite <- div_opp. reflexivity. Qed.
Lemma truncate_opp : forall f, truncate (SFopp f) = match truncate f with Some z => Some (- z) | None => None end.
Proof.
  intros [s|s| |s m e]; cbn [SFopp truncate]; try reflexivity. destruct s; cbn [negb]; f_equal; lia.
Qed.

(** ** Integer to float *)
Lemma nearest_exact : forall K D R, 0 < D -> nearest (K * D) D R -> R = K.
Proof. intros K D R HD [H _]. assert (2 * (Z.abs (R - K) * D) <= D) by (rewrite <- (Z.abs_eq D) at 1 by lia; rewrite <- Z.abs_mul; lia). nia. Qed.
Lemma toFloat_spec : forall p, Z.log2 (Zpos p) < 64 -> exists R,
  (Z.log2 (Zpos p) <= 23 -> R = Zpos p * 2 ^ (23 - Z.log2 (Zpos p))) /\
  (24 <= Z.log2 (Zpos p) -> nearest (Zpos p) (2 ^ (Z.log2 (Zpos p) - 23)) R) /\
  2 ^ 23 <= R <= 2 ^ 24 /\ toFloat (Zpos p) = pack false R (Z.log2 (Zpos p) - 23).
Proof.
  intros p B. set (L := Z.log2 (Zpos p)) in *. assert (LP : 0 <= L) by apply Z.log2_nonneg.
  destruct (SFdiv_spec false p 0 false 1 0) as (e & s & R & He & Hs & Hp & _ & Hn & E).
  rewrite zdigits_log in He by lia. fold L in He. change (Zdigits2 1) with 1 in He.
  assert (He' : e = Z.min (L - 24) 0) by lia.
  rewrite Z.div_1_r, Z.mul_1_r in *.
  assert (PS : 0 < 2 ^ s) by (apply Z.pow_pos_nonneg; lia).
  assert (Dg : Zdigits2 (Zpos p * 2 ^ s) = L + s + 1).
  { rewrite zdigits_log by nia. rewrite log2_mul_pow2 by lia. reflexivity. }
  rewrite Dg in *. replace (Z.max (L + s + 1 + e - 24) (-149)) with (L - 23) in * by lia.
  pose proof (Z.log2_spec (Zpos p) ltac:(lia)) as [L1 L2]. fold L in L1, L2.
  assert (X1 : L <= 23 -> R = Zpos p * 2 ^ (23 - L)).
  { intros H. apply (nearest_exact _ 2); [lia|].
    replace (L - 23 - e) with 1 in Hn by lia. rewrite Z.pow_1_r in Hn.
    replace (Zpos p * 2 ^ (23 - L) * 2) with (Zpos p * 2 ^ s); [exact Hn|].
    replace s with (Z.succ (23 - L)) by lia. rewrite Z.pow_succ_r by lia. ring. }
  assert (X2 : 24 <= L -> nearest (Zpos p) (2 ^ (L - 23)) R).
  { intros H. assert (s = 0) as -> by lia. assert (e = 0) as -> by lia. rewrite Z.pow_0_r, Z.mul_1_r, Z.sub_0_r in Hn. exact Hn. }
  exists R. split; [exact X1|]. split; [exact X2|]. split; [|exact E].
  destruct (Z.le_gt_cases L 23) as [H|H].
  - rewrite (X1 H). assert (P : 0 < 2 ^ (23 - L)) by (apply Z.pow_pos_nonneg; lia).
    assert (A : 2 ^ 23 = 2 ^ L * 2 ^ (23 - L)) by (rewrite <- Z.pow_add_r by lia; f_equal; lia).
    assert (C : 2 ^ 24 = 2 ^ Z.succ L * 2 ^ (23 - L)) by (rewrite <- Z.pow_add_r by lia; f_equal; lia).
    rewrite A, C. split; [apply Z.mul_le_mono_nonneg_r; lia|apply Z.mul_le_mono_nonneg_r; lia].
  - specialize (X2 ltac:(lia)). destruct X2 as [X2 _].
    assert (A : 2 ^ L = 2 ^ 23 * 2 ^ (L - 23)) by (rewrite <- Z.pow_add_r by lia; f_equal; lia).
    assert (C : 2 ^ Z.succ L = 2 ^ 24 * 2 ^ (L - 23)) by (rewrite <- Z.pow_add_r by lia; f_equal; lia).
    assert (P : 0 < 2 ^ (L - 23)) by (apply Z.pow_pos_nonneg; lia).
    rewrite A in L1. rewrite C in L2. clear A C Hn E Dg. set (D := 2 ^ (L - 23)) in *. clearbody D.
    split.
    + destruct (Z.le_gt_cases (2 ^ 23) R) as [G|G]; [exact G|exfalso]. assert (R * D <= (2 ^ 23 - 1) * D) by (apply Z.mul_le_mono_nonneg_r; lia). lia.
    + destruct (Z.le_gt_cases R (2 ^ 24)) as [G|G]; [exact G|exfalso]. assert ((2 ^ 24 + 1) * D <= R * D) by (apply Z.mul_le_mono_nonneg_r; lia). lia.
Qed.
(** What a packed float is: R * 2^e. *)
Lemma pack_whole : forall R e v, 2 ^ 23 <= R <= 2 ^ 24 -> e < 104 -> 0 < v ->
  (if 0 <=? e then v = R * 2 ^ e else R = v * 2 ^ (- e)) -> whole_value (pack false R e) v /\ truncate (pack false R e) = Some v.
Proof.
  intros R e v B He V H. unfold pack. replace (R =? 0) with false by lia.
  assert (G : forall m e, 0 < m -> (if 0 <=? e then v = m * 2 ^ e else m = v * 2 ^ (- e)) ->
    whole_value (S754_finite false (Z.to_pos m) e) v /\ truncate (S754_finite false (Z.to_pos m) e) = Some v).
  { intros m e0 Hm H0. cbn [whole_value truncate]. rewrite Z2Pos.id by exact Hm. destruct (Z.leb_spec 0 e0) as [L|L].
    - rewrite (Z.max_r 0 e0), (Z.max_l 0 (- e0)) by lia. rewrite Z.pow_0_r. split; [split; lia|]. f_equal. lia.
    - rewrite (Z.max_l 0 e0), (Z.max_r 0 (- e0)) by lia. rewrite Z.pow_0_r, H0. split; [split; [rewrite Z.abs_eq by lia; ring|lia]|].
      rewrite Z.div_mul by (apply Z.pow_nonzero; lia). reflexivity. }
  destruct (Z.eqb_spec R (2 ^ 24)) as [->|N].
  - replace (e + 1 <=? 104) with true by lia. apply G; [lia|].
    destruct (Z.leb_spec 0 e) as [L|L].
    + replace (0 <=? e + 1) with true by lia. rewrite Z.pow_add_r by lia. rewrite H. lia.
    + destruct (Z.leb_spec 0 (e + 1)) as [L2|L2].
      * assert (e = -1) as -> by lia. change (- -1) with 1 in H. change (-1 + 1) with 0. rewrite Z.pow_0_r. lia.
      * replace (- e) with (Z.succ (- (e + 1))) in H by lia. rewrite Z.pow_succ_r in H by lia. lia.
  - replace (e <=? 104) with true by lia. apply G; [lia|exact H].
Qed.
Lemma float_whole_opp : forall v, float_whole v -> float_whole (- v).
Proof. intros v (k & j & H1 & H2 & ->). exists (- k), j. repeat split; try lia. Qed.
Lemma nearest_float_opp : forall z v, nearest_float z v -> nearest_float (- z) (- v).
Proof.
  intros z v [H1 H2]. split; [apply float_whole_opp; exact H1|]. intros w Hw.
  specialize (H2 (- w) (float_whole_opp _ Hw)). lia.
Qed.
Lemma toFloat_pos : forall p, Zpos p < 2 ^ 64 -> exists v,
  whole_value (toFloat (Zpos p)) v /\ truncate (toFloat (Zpos p)) = Some v /\ nearest_float (Zpos p) v /\ 0 < v.
Proof.
  intros p B. assert (LB : Z.log2 (Zpos p) < 64) by (apply Z.log2_lt_pow2; lia).
  destruct (toFloat_spec p LB) as (R & X1 & X2 & RB & E). rewrite E.
  pose proof (Z.log2_nonneg (Zpos p)) as LP. pose proof (Z.log2_spec (Zpos p) ltac:(lia)) as [L1 L2].
  set (L := Z.log2 (Zpos p)) in *. clearbody L.
  destruct (Z.le_gt_cases L 23) as [H|H].
  - specialize (X1 H). exists (Zpos p).
    destruct (pack_whole R (L - 23) (Zpos p) RB ltac:(lia) ltac:(lia)) as [W T].
    { destruct (Z.leb_spec 0 (L - 23)) as [K|K].
      - assert (L = 23) by lia. subst L. rewrite X1. cbn [Z.sub Z.add Z.opp Z.pos_sub]. lia.
      - rewrite X1. do 2 f_equal. lia. }
    split; [exact W|]. split; [exact T|]. split; [|lia]. split; [|intros; lia].
    exists (Zpos p), 0. assert (2 ^ Z.succ L <= 2 ^ 24) by (apply Z.pow_le_mono_r; lia). repeat split; lia.
  - specialize (X2 ltac:(lia)). exists (R * 2 ^ (L - 23)).
    assert (P : 0 < 2 ^ (L - 23)) by (apply Z.pow_pos_nonneg; lia).
    destruct (pack_whole R (L - 23) (R * 2 ^ (L - 23)) RB ltac:(lia) ltac:(apply Z.mul_pos_pos; lia)) as [W T].
    { replace (0 <=? L - 23) with true by lia. reflexivity. }
    split; [exact W|]. split; [exact T|]. split; [|apply Z.mul_pos_pos; lia].
    split; [exists R, (L - 23); repeat split; lia|].
    intros w (k & j & J & K & ->). destruct X2 as [X2 _].
    assert (M : forall y, Z.abs (Zpos p - R * 2 ^ (L - 23)) <= Z.abs (Zpos p - y * 2 ^ (L - 23))).
    { intros y. destruct (Z.eq_dec y R) as [->|NE]; [lia|].
      assert (2 ^ (L - 23) <= Z.abs (R - y) * 2 ^ (L - 23)) by nia.
      rewrite <- (Z.abs_eq (2 ^ (L - 23))) in H0 at 2 by lia. rewrite <- Z.abs_mul in H0. lia. }
    destruct (Z.le_gt_cases (L - 23) j) as [G|G].
    + replace j with (j - (L - 23) + (L - 23)) by lia. rewrite Z.pow_add_r by lia. rewrite Z.mul_assoc. apply M.
    + assert (A : k * 2 ^ j <= 2 ^ L).
      { assert (P2 : 0 < 2 ^ j) by (apply Z.pow_pos_nonneg; lia).
        assert (k * 2 ^ j <= 2 ^ 24 * 2 ^ j) by (apply Z.mul_le_mono_nonneg_r; lia). rewrite <- Z.pow_add_r in H0 by lia.
        assert (2 ^ (24 + j) <= 2 ^ L) by (apply Z.pow_le_mono_r; lia). lia. }
      specialize (M (2 ^ 23)). rewrite <- Z.pow_add_r in M by lia. replace (23 + (L - 23)) with L in M by lia. lia.
Qed.
Lemma whole_opp : forall f v, whole_value f v -> whole_value (SFopp f) (- v).
Proof.
  intros [s|s| |s m e] v; cbn [SFopp whole_value]; try tauto; [lia|]. rewrite Z.abs_opp. destruct s; cbn [negb]; intros [? ?]; split; auto; lia.
Qed.
Lemma toFloat_near : forall z, Z.abs z < 2 ^ 64 -> exists v,
  whole_value (toFloat z) v /\ truncate (toFloat z) = Some v /\ nearest_float z v.
Proof.
  intros [|p|p] B.
  - exists 0. cbn. repeat split; auto; [exists 0, 0; cbn; lia|intros; lia].
  - destruct (toFloat_pos p B) as (v & A & C & D & _). exists v. auto.
  - destruct (toFloat_pos p B) as (v & A & C & D & _). exists (- v). rewrite toFloat_opp. split; [apply whole_opp; exact A|].
    split; [rewrite truncate_opp, C; reflexivity|]. apply nearest_float_opp in D. exact D.
Qed.
Lemma near_self : forall z v, nearest_float z v -> float_whole z -> v = z.
Proof. intros z v [_ H] W. specialize (H z W). lia. Qed.
Lemma float_back : forall t z, In t itypes -> tmin t <= z <= tmax t ->
  (toNum_of_floating t (toFloat z) = Ok z <-> float_whole z).
Proof.
  intros t z I R.
  assert (B : Z.abs z < 2 ^ 64) by (cbn [In itypes] in I; unfold tmin, tmax in R; repeat (destruct I as [<-|I]; [cbn [bits signed i8 u8 i16 u16 i32 u32 i64 u64] in R; lia|]); destruct I).
  destruct (toFloat_near z B) as (v & W & T & N). unfold toNum_of_floating. rewrite T. split.
  - destruct (_ && _); [|discriminate]. intros H. injection H as ->. apply N.
  - intros F. rewrite (near_self z v N F). replace (_ && _) with true by lia. reflexivity.
Qed.
Lemma float_near_top : toNum_of_floating i32 (toFloat 2147483647) = UB.
Proof. vm_compute. reflexivity. Qed.

(** ** Frame time *)
Lemma small_float : forall p, Z.log2 (Zpos p) <= 23 ->
  toFloat (Zpos p) = S754_finite false (Z.to_pos (Zpos p * 2 ^ (23 - Z.log2 (Zpos p)))) (Z.log2 (Zpos p) - 23).
Proof.
  intros p H. destruct (toFloat_spec p ltac:(lia)) as (R & X1 & _ & RB & ->). rewrite <- (X1 H).
  assert (R < 2 ^ 24).
  { rewrite (X1 H). pose proof (Z.log2_spec (Zpos p) ltac:(lia)) as [_ L2]. pose proof (Z.log2_nonneg (Zpos p)) as LP.
    assert (C : 2 ^ 24 = 2 ^ Z.succ (Z.log2 (Zpos p)) * 2 ^ (23 - Z.log2 (Zpos p))) by (rewrite <- Z.pow_add_r by lia; f_equal; lia).
    rewrite C. apply Z.mul_lt_mono_pos_r; [apply Z.pow_pos_nonneg; lia|exact L2]. }
  unfold pack. replace (R =? 0) with false by lia. replace (R =? 2 ^ 24) with false by lia.
  replace (_ <=? 104) with true by lia. reflexivity.
Qed.
Lemma digits_range : forall z k, 0 <= k -> 2 ^ k <= z -> z < 2 ^ (k + 1) -> Zdigits2 z = k + 1.
Proof.
  intros z k K A B. assert (0 < 2 ^ k) by (apply Z.pow_pos_nonneg; lia). rewrite zdigits_log by lia.
  rewrite (Z.log2_unique z k); [reflexivity|exact K|]. unfold Z.succ. lia.
Qed.
(** Truncating a packed value below one unit of place. *)
Lemma pack_truncate : forall R e v, 0 <= R <= 2 ^ 24 -> e < 0 -> v * 2 ^ (- e) <= R < (v + 1) * 2 ^ (- e) ->
  truncate (pack false R e) = Some v.
Proof.
  intros R e v B E H. assert (P : 0 < 2 ^ (- e)) by (apply Z.pow_pos_nonneg; lia).
  assert (Q : R / 2 ^ (- e) = v) by (symmetry; apply (Z.div_unique_pos R (2 ^ (- e)) v (R - 2 ^ (- e) * v)); lia).
  unfold pack. destruct (Z.eqb_spec R 0) as [->|N0]; [cbn [truncate]; rewrite Z.div_0_l in Q by lia; congruence|].
  destruct (Z.eqb_spec R (2 ^ 24)) as [EQ|N1].
  - replace (e + 1 <=? 104) with true by lia. cbn [truncate]. rewrite Z2Pos.id by lia.
    destruct (Z.leb_spec 0 (e + 1)) as [L|L].
    + assert (e = -1) by lia. subst e. f_equal. rewrite <- Q, EQ. reflexivity.
    + f_equal. rewrite <- Q, EQ. replace (- e) with (Z.succ (- (e + 1))) by lia. rewrite Z.pow_succ_r by lia.
      change (2 ^ 24) with (2 * 2 ^ 23). rewrite Z.div_mul_cancel_l; [reflexivity| |lia]. apply Z.pow_nonzero; lia.
  - replace (e <=? 104) with true by lia. cbn [truncate]. rewrite Z2Pos.id by lia. replace (0 <=? e) with false by lia.
    rewrite Q. reflexivity.
Qed.
Lemma nearest_small : forall N D R, 0 < D -> 0 <= N -> nearest N D R -> 0 <= R.
Proof. intros N D R HD HN [H _]. destruct (Z.le_gt_cases 0 R); [assumption|exfalso]. assert (R * D <= -1 * D) by (apply Z.mul_le_mono_nonneg_r; lia). lia. Qed.
Lemma pack_le : forall N D R B, 0 < D -> nearest N D R -> N <= B * D -> R <= B.
Proof. intros N D R B HD [H _] G. destruct (Z.le_gt_cases R B); [assumption|exfalso]. assert ((B + 1) * D <= R * D) by (apply Z.mul_le_mono_nonneg_r; lia). lia. Qed.

Lemma seconds_pos : forall p, Zpos p < 2 ^ 24 -> truncate (getFTToSeconds_f (toFloat (Zpos p))) = Some (Zpos p / 60).
Proof.
  intros p B. assert (LB : Z.log2 (Zpos p) < 24) by (apply Z.log2_lt_pow2; lia).
  rewrite small_float by lia. pose proof (Z.log2_nonneg (Zpos p)) as LP. pose proof (Z.log2_spec (Zpos p) ltac:(lia)) as [L1 L2].
  set (L := Z.log2 (Zpos p)) in *. clearbody L. unfold getFTToSeconds_f, secondsFTRatio.
  set (n := Zpos p) in *. assert (NP : 0 < n) by (unfold n; lia). clearbody n. clear p.
  assert (P : 0 < 2 ^ (23 - L)) by (apply Z.pow_pos_nonneg; lia).
  assert (MP : 0 < n * 2 ^ (23 - L)) by (apply Z.mul_pos_pos; lia).
  assert (M1 : 2 ^ 23 <= n * 2 ^ (23 - L) < 2 ^ 24).
  { assert (A : 2 ^ 23 = 2 ^ L * 2 ^ (23 - L)) by (rewrite <- Z.pow_add_r by lia; f_equal; lia).
    assert (C : 2 ^ 24 = 2 ^ Z.succ L * 2 ^ (23 - L)) by (rewrite <- Z.pow_add_r by lia; f_equal; lia).
    rewrite A, C. split; [apply Z.mul_le_mono_nonneg_r; lia|apply Z.mul_lt_mono_pos_r; lia]. }
  destruct (SFdiv_spec false (Z.to_pos (n * 2 ^ (23 - L))) (L - 23) false 15728640 (-18)) as (e & s & R & He & Hs & Hp & Hle & Hn & E).
  rewrite E. clear E. cbn [xorb]. rewrite Z2Pos.id in * by exact MP.
  rewrite (digits_range _ 23) in He by (try lia; exact (proj2 M1)).
  change (Zdigits2 15728640) with 24 in He.
  assert (He' : e = L - 29) by lia. assert (s = 24) as -> by lia. clear Hs Hp He.
  set (N := n * 2 ^ (23 - L) * 2 ^ 24) in *.
  assert (Q1 : 2 ^ 23 <= N / 15728640) by (apply Z.div_le_lower_bound; unfold N; lia).
  assert (Q2 : N / 15728640 < 2 ^ 25) by (apply Z.div_lt_upper_bound; unfold N; lia).
  assert (Dg : 24 <= Zdigits2 (N / 15728640) <= 25).
  { rewrite zdigits_log by lia. assert (Z.log2 (N / 15728640) < 25) by (apply Z.log2_lt_pow2; lia).
    assert (23 <= Z.log2 (N / 15728640)) by (apply Z.log2_le_pow2; lia). lia. }
  set (e' := Z.max (Zdigits2 (N / 15728640) + e - 24) (-149)) in *.
  assert (He2 : L - 29 <= e' <= L - 28) by lia.
  assert (W : e' - e = Zdigits2 (N / 15728640) - 24) by lia. clearbody e'.
  set (D := 2 ^ (e' - e) * 15728640) in *.
  assert (P2 : 0 < 2 ^ (e' - e)) by (apply Z.pow_pos_nonneg; lia).
  assert (DP : 0 < D) by (unfold D; lia).
  set (G := 2 ^ (- e')). assert (G32 : 32 <= G) by (change 32 with (2 ^ 5); apply Z.pow_le_mono_r; lia).
  assert (K : 60 * N = n * G * D).
  { unfold N, D, G. replace (n * 2 ^ (- e') * (2 ^ (e' - e) * 15728640)) with (n * (2 ^ (- e') * 2 ^ (e' - e)) * 15728640) by ring.
    rewrite <- Z.pow_add_r by lia. replace (- e' + (e' - e)) with (23 - L + 6) by lia. rewrite Z.pow_add_r by lia. change (2 ^ 6) with 64.
    change (2 ^ 24) with 16777216. lia. }
  assert (NB : 0 <= N) by (unfold N; lia).
  assert (A : Z.abs (60 * R - n * G) <= 30).
  { destruct Hn as [Hn _]. assert (T : 60 * (R * D - N) = (60 * R - n * G) * D) by lia.
    assert (T2 : 60 * Z.abs (R * D - N) = Z.abs (60 * R - n * G) * D).
    { rewrite <- (Z.abs_eq D) at 2 by lia. rewrite <- Z.abs_mul, <- T, Z.abs_mul. reflexivity. }
    destruct (Z.le_gt_cases (Z.abs (60 * R - n * G)) 30) as [W1|W1]; [exact W1|exfalso].
    assert (31 * D <= Z.abs (60 * R - n * G) * D) by (apply Z.mul_le_mono_nonneg_r; lia). lia. }
  assert (RP : 0 <= R) by (apply (nearest_small N D R DP NB Hn)).
  assert (RB : R <= 2 ^ 24).
  { apply (pack_le N D R (2 ^ 24) DP Hn).
    pose proof (Z.log2_spec (N / 15728640) ltac:(lia)) as [_ LL]. rewrite zdigits_log in W by lia.
    pose proof (Z.mod_pos_bound N 15728640 ltac:(lia)). pose proof (Z_div_mod_eq_full N 15728640).
    replace (Z.succ (Z.log2 (N / 15728640))) with (e' - e + 24) in LL by lia. rewrite Z.pow_add_r in LL by lia. unfold D. lia. }
  apply pack_truncate; [lia|lia|]. fold G.
  pose proof (Z.mod_pos_bound n 60 ltac:(lia)). pose proof (Z_div_mod_eq_full n 60).
  set (q := n / 60) in *. set (r := n mod 60) in *. clearbody q r.
  assert (n * G = 60 * (q * G) + r * G) by (rewrite H0; ring).
  assert (0 <= r * G) by (apply Z.mul_nonneg_nonneg; lia).
  assert (r * G <= 59 * G) by (apply Z.mul_le_mono_nonneg_r; lia). lia.
Qed.
Lemma frames_pos : forall p, 15 * Zpos p < 2 ^ 24 -> truncate (getSecondsToFT_f (toFloat (Zpos p))) = Some (60 * Zpos p).
Proof.
  intros p B. assert (LB : Z.log2 (Zpos p) < 24) by (apply Z.log2_lt_pow2; lia).
  rewrite small_float by lia. pose proof (Z.log2_nonneg (Zpos p)) as LP. pose proof (Z.log2_spec (Zpos p) ltac:(lia)) as [L1 L2].
  set (L := Z.log2 (Zpos p)) in *. clearbody L. unfold getSecondsToFT_f, secondsFTRatio. cbn [SFmul xorb].
  set (n := Zpos p) in *. assert (NP : 0 < n) by (unfold n; lia). clearbody n. clear p.
  assert (P : 0 < 2 ^ (23 - L)) by (apply Z.pow_pos_nonneg; lia).
  assert (MP : 0 < n * 2 ^ (23 - L)) by (apply Z.mul_pos_pos; lia).
  rewrite Pos2Z.inj_mul, Z2Pos.id by exact MP.
  set (N := n * 2 ^ (23 - L) * 15728640). assert (NN : 0 < N) by (unfold N; lia).
  set (K2 := Z.log2 (15 * n)).
  assert (K2P : 0 <= K2 < 24) by (split; [apply Z.log2_nonneg|apply Z.log2_lt_pow2; lia]).
  assert (EN : N = 15 * n * 2 ^ (43 - L)).
  { unfold N. replace (43 - L) with (23 - L + 20) by lia. rewrite Z.pow_add_r by lia. change (2 ^ 20) with 1048576. lia. }
  assert (Dg : Zdigits2 N = K2 + (43 - L) + 1).
  { rewrite zdigits_log by lia. rewrite EN, log2_mul_pow2 by lia. reflexivity. }
  assert (KL : L <= K2) by (unfold K2; rewrite <- (Z.log2_pow2 L) by lia; apply Z.log2_le_mono; lia).
  destruct (round_aux_spec false N 1 (L - 23 + -18) ltac:(lia) ltac:(lia)) as (R & HR & E).
  { rewrite Z.div_1_r, Dg. lia. }
  rewrite Z.div_1_r, Z.mod_1_r, Dg in *. cbn [new_location] in E.
  assert (E0 : new_location 1 0 = loc_Exact) by reflexivity. rewrite E0 in E. rewrite E. clear E E0.
  replace (Z.max (K2 + (43 - L) + 1 + (L - 23 + -18) - 24) (-149)) with (K2 - 21) in * by lia.
  assert (ER : R = 15 * n * 2 ^ (23 - K2)).
  { apply (nearest_exact _ (2 ^ (K2 - 21 - (L - 23 + -18)) * 1)).
    - rewrite Z.mul_1_r. apply Z.pow_pos_nonneg; lia.
    - replace (15 * n * 2 ^ (23 - K2) * (2 ^ (K2 - 21 - (L - 23 + -18)) * 1)) with N; [exact HR|].
      rewrite EN. replace (43 - L) with (23 - K2 + (K2 - 21 - (L - 23 + -18))) by lia. rewrite Z.pow_add_r by lia. ring. }
  assert (PK : 0 < 2 ^ (23 - K2)) by (apply Z.pow_pos_nonneg; lia).
  pose proof (Z.log2_spec (15 * n) ltac:(lia)) as [S1 S2]. fold K2 in S1, S2.
  assert (A : 2 ^ 23 = 2 ^ K2 * 2 ^ (23 - K2)) by (rewrite <- Z.pow_add_r by lia; f_equal; lia).
  assert (C : 2 ^ 24 = 2 ^ Z.succ K2 * 2 ^ (23 - K2)) by (rewrite <- Z.pow_add_r by lia; f_equal; lia).
  apply pack_whole; [|lia|lia|].
  - rewrite A, C, ER. split; [apply Z.mul_le_mono_nonneg_r; lia|apply Z.mul_le_mono_nonneg_r; lia].
  - destruct (Z.leb_spec 0 (K2 - 21)) as [G|G]; rewrite ER.
    + rewrite <- Z.mul_assoc, <- Z.pow_add_r by lia. replace (23 - K2 + (K2 - 21)) with 2 by lia. change (2 ^ 2) with 4. lia.
    + replace (23 - K2) with (2 + - (K2 - 21)) by lia. rewrite Z.pow_add_r by lia. change (2 ^ 2) with 4. lia.
Qed.
Lemma fps_pos : forall p, 64 <= Zpos p < 2 ^ 64 -> truncate (getFTToFPS_f (toFloat (Zpos p))) = Some 0.
Proof.
  intros p B. assert (LB : Z.log2 (Zpos p) < 64) by (apply Z.log2_lt_pow2; lia).
  assert (L6 : 6 <= Z.log2 (Zpos p)) by (apply Z.log2_le_pow2; lia).
  destruct (toFloat_spec p LB) as (R0 & _ & _ & RB & E). rewrite E. clear E.
  set (L := Z.log2 (Zpos p)) in *. clearbody L. clear p B.
  assert (G : forall m e, 2 ^ 23 <= m < 2 ^ 24 -> -17 <= e <= 42 ->
    truncate (getFTToFPS_f (S754_finite false (Z.to_pos m) e)) = Some 0).
  { intros m e2 M E2. unfold getFTToFPS_f, secondsFTRatio.
    destruct (SFdiv_spec false 15728640 (-18) false (Z.to_pos m) e2) as (e & s & R & He & Hs & Hp & Hle & Hn & E).
    rewrite E. clear E. cbn [xorb]. rewrite Z2Pos.id in * by lia. rewrite (digits_range m 23) in He by (try lia; exact (proj2 M)).
    change (Zdigits2 15728640) with 24 in He. assert (He' : e = -42 - e2) by lia. assert (s = 24) as -> by lia.
    change (15728640 * 2 ^ 24) with 263882790666240 in *. set (N := 263882790666240) in *.
    assert (Q1 : 2 ^ 23 <= N / m) by (apply Z.div_le_lower_bound; unfold N; lia).
    assert (Q2 : N / m < 2 ^ 25) by (apply Z.div_lt_upper_bound; unfold N; lia).
    assert (L25 : Z.log2 (N / m) < 25) by (apply Z.log2_lt_pow2; lia).
    assert (L23 : 23 <= Z.log2 (N / m)) by (apply Z.log2_le_pow2; lia).
    rewrite (zdigits_log (N / m)) in * by lia.
    set (e' := Z.max (Z.log2 (N / m) + 1 + e - 24) (-149)) in *.
    assert (W : e' - e = Z.log2 (N / m) - 23) by lia.
    assert (PD : 0 < 2 ^ (e' - e)) by (apply Z.pow_pos_nonneg; lia).
    assert (DP : 0 < 2 ^ (e' - e) * m) by (apply Z.mul_pos_pos; lia).
    assert (RP : 0 <= R) by (apply (nearest_small N _ R DP ltac:(unfold N; lia) Hn)).
    assert (RB2 : R <= 2 ^ 24).
    { apply (pack_le N _ R (2 ^ 24) DP Hn). pose proof (Z.log2_spec (N / m) ltac:(lia)) as [_ LL].
      replace (Z.succ (Z.log2 (N / m))) with (e' - e + 24) in LL by lia. rewrite Z.pow_add_r in LL by lia.
      pose proof (Z.mod_pos_bound N m ltac:(lia)). pose proof (Z_div_mod_eq_full N m).
      assert ((N / m + 1) * m <= 2 ^ (e' - e) * 2 ^ 24 * m) by (apply Z.mul_le_mono_nonneg_r; lia). lia. }
    apply pack_truncate; [lia|lia|]. rewrite Z.mul_0_l, Z.add_0_l, Z.mul_1_l. split; [lia|].
    destruct (Z.eq_dec e' (-24)) as [Z1|Z1].
    - rewrite Z1. change (2 ^ (- -24)) with 16777216. destruct Hn as [Hn _]. assert (e' - e = 1) by lia. rewrite H in Hn.
      change (2 ^ 1) with 2 in Hn. destruct (Z.lt_ge_cases R 16777216) as [X|X]; [exact X|exfalso].
      assert (16777216 * (2 * m) <= R * (2 * m)) by (apply Z.mul_le_mono_nonneg_r; lia). unfold N in Hn. lia.
    - assert (2 ^ 25 <= 2 ^ (- e')) by (apply Z.pow_le_mono_r; lia). lia. }
  unfold pack. replace (R0 =? 0) with false by lia. destruct (Z.eqb_spec R0 (2 ^ 24)) as [->|N1].
  - replace (L - 23 + 1 <=? 104) with true by lia. apply G; lia.
  - replace (L - 23 <=? 104) with true by lia. apply G; lia.
Qed.

(** Lift a statement about positive operands to all operands. *)
Definition sweep (f : Z -> option Z) (g : Z -> Z) (lo : Z) (k : nat) : bool :=
  forallb (fun i => match f (lo + Z.of_nat i) with Some z => z =? g (lo + Z.of_nat i) | None => false end) (seq 0 k).
Lemma sweep_ok : forall f g lo k, sweep f g lo k = true -> forall n, lo <= n < lo + Z.of_nat k -> f n = Some (g n).
Proof.
  intros f g lo k H n B. unfold sweep in H. rewrite forallb_forall in H. specialize (H (Z.to_nat (n - lo))).
  rewrite Z2Nat.id in H by lia. replace (lo + (n - lo)) with n in H by lia. rewrite in_seq in H.
  specialize (H ltac:(lia)). destruct (f n); [|discriminate]. f_equal. lia.
Qed.
Lemma seconds_all : forall n, Z.abs n < 16777259 -> truncate (getFTToSeconds_f (toFloat n)) = Some (Z.quot n 60).
Proof.
  assert (P : forall p, Zpos p < 16777259 -> truncate (getFTToSeconds_f (toFloat (Zpos p))) = Some (Zpos p / 60)).
  { intros p B. destruct (Z.lt_ge_cases (Zpos p) (2 ^ 24)) as [L|L]; [apply seconds_pos; exact L|].
    apply (sweep_ok (fun n => truncate (getFTToSeconds_f (toFloat n))) (fun n => n / 60) 16777216 43); [vm_compute; reflexivity|lia]. }
  intros [|p|p] B.
  - reflexivity.
  - rewrite P by lia. rewrite Z.quot_div_nonneg by lia. reflexivity.
  - rewrite toFloat_opp. unfold getFTToSeconds_f in *. rewrite div_opp, truncate_opp, P by lia.
    rewrite <- Pos2Z.opp_pos, Z.quot_opp_l, Z.quot_div_nonneg by lia. reflexivity.
Qed.
Lemma frames_all : forall n, Z.abs n <= 1118482 -> truncate (getSecondsToFT_f (toFloat n)) = Some (60 * n).
Proof.
  assert (P : forall p, Zpos p <= 1118482 -> truncate (getSecondsToFT_f (toFloat (Zpos p))) = Some (60 * Zpos p)).
  { intros p B. destruct (Z.eq_dec (Zpos p) 1118482) as [->|N]; [vm_compute; reflexivity|apply frames_pos; lia]. }
  intros [|p|p] B.
  - reflexivity.
  - apply P. lia.
  - rewrite toFloat_opp. unfold getSecondsToFT_f in *. rewrite mul_opp, truncate_opp, P by lia. reflexivity.
Qed.
Lemma fps_all : forall n, n <> 0 -> Z.abs n < 2 ^ 64 -> truncate (getFTToFPS_f (toFloat n)) = Some (Z.quot 60 n).
Proof.
  assert (P : forall p, Zpos p < 2 ^ 64 -> truncate (getFTToFPS_f (toFloat (Zpos p))) = Some (60 / Zpos p)).
  { intros p B. destruct (Z.lt_ge_cases (Zpos p) 64) as [L|L].
    - apply (sweep_ok (fun n => truncate (getFTToFPS_f (toFloat n))) (fun n => 60 / n) 1 63); [vm_compute; reflexivity|lia].
    - rewrite fps_pos by lia. rewrite Z.div_small by lia. reflexivity. }
  intros [|p|p] N B; [congruence| |].
  - rewrite P by exact B. rewrite Z.quot_div_nonneg by lia. reflexivity.
  - rewrite toFloat_opp. unfold getFTToFPS_f in *. rewrite div_opp_r, truncate_opp, P by exact B.
    rewrite <- Pos2Z.opp_pos, Z.quot_opp_r, Z.quot_div_nonneg by lia. reflexivity.
Qed.
Lemma type_cases : forall t n, In t itypes -> tmin t <= n <= tmax t ->
  tmin t <= 0 /\ 60 <= tmax t /\ Z.abs n < 2 ^ 64 /\ (tmin t < 0 -> tmin t <= -60).
Proof.
  intros t n I R. unfold tmin, tmax in *. cbn [In itypes] in I.
  repeat (destruct I as [<-|I]; [cbn [bits signed i8 u8 i16 u16 i32 u32 i64 u64] in *; lia|]); destruct I.
Qed.
Lemma seconds_int : forall t n, In t itypes -> tmin t <= n <= tmax t -> Z.abs n < 16777259 ->
  getFTToSeconds t n = Ok (Z.quot n 60).
Proof.
  intros t n I R B. unfold getFTToSeconds, toNum_of_floating. rewrite seconds_all by exact B.
  destruct (type_cases t n I R) as (A1 & A2 & _).
  pose proof (Z.quot_rem' n 60) as E. pose proof (Z.rem_bound_abs n 60 ltac:(lia)).
  assert (Z.abs (Z.quot n 60) <= Z.abs n) by (rewrite <- (Z.quot_abs n 60) by lia; change (Z.abs 60) with 60; apply Z.quot_le_upper_bound; lia).
  assert (0 <= n -> 0 <= Z.quot n 60) by (intros; apply Z.quot_pos; lia).
  assert (n <= 0 -> Z.quot n 60 <= 0) by (intros; rewrite <- (Z.opp_involutive n), Z.quot_opp_l by lia; assert (0 <= Z.quot (- n) 60) by (apply Z.quot_pos; lia); lia).
  replace (_ && _) with true by lia. reflexivity.
Qed.
Lemma frames_int : forall t n, In t itypes -> tmin t <= n <= tmax t -> Z.abs n <= 1118482 ->
  getSecondsToFT t n = if (tmin t <=? 60 * n) && (60 * n <=? tmax t) then Ok (60 * n) else UB.
Proof. intros t n I R B. unfold getSecondsToFT, toNum_of_floating. rewrite frames_all by exact B. reflexivity. Qed.
Lemma fps_int : forall t n, In t itypes -> tmin t <= n <= tmax t ->
  getFTToFPS t n = if n =? 0 then UB else Ok (Z.quot 60 n).
Proof.
  intros t n I R. destruct (type_cases t n I R) as (A1 & A2 & A3 & A4). unfold getFTToFPS, toNum_of_floating.
  destruct (Z.eqb_spec n 0) as [->|N]; [vm_compute; reflexivity|]. rewrite fps_all by assumption.
  assert (0 < n -> 0 <= Z.quot 60 n <= 60).
  { intros. rewrite Z.quot_div_nonneg by lia. split; [apply Z.div_pos; lia|]. apply Z.div_le_upper_bound; nia. }
  assert (n < 0 -> -60 <= Z.quot 60 n <= 0).
  { intros. rewrite <- (Z.opp_involutive n), Z.quot_opp_r by lia. rewrite Z.quot_div_nonneg by lia.
    assert (0 <= 60 / - n <= 60); [|lia]. split; [apply Z.div_pos; lia|]. apply Z.div_le_upper_bound; nia. }
  replace (_ && _) with true by lia. reflexivity.
Qed.
