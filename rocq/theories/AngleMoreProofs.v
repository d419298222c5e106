(** Cycling, rotating and interpolating in single precision. *)
From Coq Require Import ZArith Arith Bool Lia List QArith Qabs Qround Qpower Lqa.
From Coq Require Import Floats.SpecFloat.
From Verif Require Import Common RealSpec RealProofs FltSpec Flt32Proofs Flt32ReadProofs AngleSpec FloatOpsProofs AngleModel AngleProofs.
Local Open Scope Q_scope.

Lemma float_gap : forall a b, is_float a -> is_float b -> a < b -> times_pow 2 1 (-149) <= b - a.
Proof.
  intros a b (m1 & e1 & B1 & E1) (m2 & e2 & B2 & E2) L.
  rewrite (times_shift 2 m1 (-149) e1) in E1 by lia. rewrite (times_shift 2 m2 (-149) e2) in E2 by lia.
  set (x := (m1 * 2 ^ (e1 - -149))%Z) in *. set (y := (m2 * 2 ^ (e2 - -149))%Z) in *. rewrite E1, E2 in *.
  assert (S : times_pow 2 y (-149) - times_pow 2 x (-149) == times_pow 2 (y - x) (-149)) by (unfold times_pow, Z.sub; rewrite inject_Z_plus, inject_Z_opp; ring).
  rewrite S. apply times_le. assert (x < y)%Z; [|lia]. unfold times_pow in L. rewrite Qmult_lt_r in L by (apply pow_pos'; lia). rewrite <- Zlt_Qlt in L. exact L.
Qed.
Lemma pow_float : forall k, (-149 <= k <= 104)%Z -> is_float (times_pow 2 1 k).
Proof. intros k H. exists 1%Z, k. split; [lia|reflexivity]. Qed.
Lemma bound_range : forall x, Qabs x <= times_pow 2 1 120 -> in_range x.
Proof. intros x H. apply small_in_range. eapply Qle_trans; [exact H|]. unfold Qle. vm_compute. discriminate. Qed.

Definition B100 : Q := times_pow 2 1 100.
Lemma b100_pos : 0 < B100. Proof. reflexivity. Qed.
Lemma b100_mult : forall n, (Zpos n <= 16)%Z -> is_float (inject_Z (Zpos n) * B100).
Proof. intros n H. exists (Zpos n), 100%Z. split; [lia|]. unfold B100, times_pow. change (inject_Z 1) with 1. ring. Qed.
Lemma b100_range : forall x, - (16 * B100) <= x -> x <= 16 * B100 -> in_range x.
Proof.
  intros x L U. apply bound_range. apply abs_le; [eapply Qle_trans; [|exact L]|eapply Qle_trans; [exact U|]]; unfold Qle; vm_compute; discriminate.
Qed.

(** *** Cycling *)
Lemma cycled_is : forall f g h x lo hi, float_is f x -> float_is g lo -> float_is h hi -> lo < hi ->
  Qabs x <= B100 -> Qabs lo <= B100 -> Qabs hi <= B100 ->
  exists d s m k r q, nearest_float (hi - lo) d /\ 0 < d /\ nearest_float (x - lo) s /\ s == m + d * inject_Z k /\ 0 <= m /\ m < d /\
    nearest_float m r /\ (0 <= s -> r == m) /\ r <= d /\ nearest_float (lo + r) q /\ float_is (getCycledValue f g h) q /\ lo <= q.
Proof.
  intros f g h x lo hi Hf Hg Hh L Bx Bl Bh. apply abs_bounds in Bx, Bl, Bh. pose proof b100_pos as P0.
  pose proof (valid_float _ _ Hg) as Fl. pose proof (valid_float _ _ Hh) as Fh.
  destruct (in_range_is (hi - lo) _ ltac:(apply b100_range; lra) (sub_rounds _ _ hi lo Hh Hg)) as (d & D1 & D2).
  assert (D0 : 0 < d).
  { assert (times_pow 2 1 (-149) <= d) by (apply (nearest_above (hi - lo)); [exact D2|apply pow_float; lia|apply float_gap; assumption]).
    assert (0 < times_pow 2 1 (-149)) by reflexivity. lra. }
  assert (D3 : d <= 2 * B100).
  { apply (nearest_below (hi - lo)); [exact D2|exact (b100_mult 2 ltac:(lia))|lra]. }
  destruct (in_range_is (x - lo) _ ltac:(apply b100_range; lra) (sub_rounds _ _ x lo Hf Hg)) as (s & S1 & S2).
  destruct (fmod_is _ _ s d S1 D1 ltac:(lra)) as (r & n & Hr & Er & Br & G1 & _). rewrite (Qabs_pos d) in Br by lra.
  assert (Br' : - d < r /\ r < d) by (revert Br; apply Qabs_case; intros; lra). clear Br.
  unfold getCycledValue. cbv zeta. fold subf in D1, S1, Hr. unfold ltf. destruct (SFltb (fmodf (subf f g) (subf h g)) f0) eqn:E.
  - apply (ltb_value _ _ r 0 Hr f0_is) in E.
    destruct (in_range_is (r + d) _ ltac:(apply b100_range; lra) (add_rounds _ _ r d Hr D1)) as (r' & R1 & R2).
    assert (R0 : 0 <= r') by (apply (nearest_above (r + d)); [exact R2|apply zero_float|lra]).
    assert (R3 : r' <= d) by (apply (nearest_below (r + d)); [exact R2|apply (valid_float _ _ D1)|lra]).
    destruct (in_range_is (lo + r') _ ltac:(apply b100_range; lra) (add_rounds _ _ lo r' Hg R1)) as (q & Q1 & Q2).
    exists d, s, (r + d), (n - 1)%Z, r', q. split; [exact D2|]. split; [exact D0|]. split; [exact S2|].
    split; [rewrite Er; unfold Z.sub; rewrite inject_Z_plus, inject_Z_opp; change (inject_Z 1) with 1; ring|].
    split; [lra|]. split; [lra|]. split; [exact R2|]. split; [intros C; specialize (G1 C); lra|]. split; [exact R3|]. split; [exact Q2|]. split; [exact Q1|].
    apply (nearest_above (lo + r')); [exact Q2|exact Fl|lra].
  - assert (R0 : 0 <= r) by (apply Qnot_lt_le; intros C; apply (ltb_value _ _ r 0 Hr f0_is) in C; congruence).
    destruct (in_range_is (lo + r) _ ltac:(apply b100_range; lra) (add_rounds _ _ lo r Hg Hr)) as (q & Q1 & Q2).
    exists d, s, r, n, r, q. split; [exact D2|]. split; [exact D0|]. split; [exact S2|]. split; [exact Er|]. split; [exact R0|]. split; [lra|].
    split; [apply self_nearest, (valid_float _ _ Hr)|]. split; [reflexivity|]. split; [lra|]. split; [exact Q2|]. split; [exact Q1|].
    apply (nearest_above (lo + r)); [exact Q2|exact Fl|lra].
Qed.
Lemma cycled_exact : forall f g h x lo hi, float_is f x -> float_is g lo -> float_is h hi -> lo < hi ->
  Qabs x <= B100 -> Qabs lo <= B100 -> Qabs hi <= B100 -> is_float (hi - lo) -> exists q, float_is (getCycledValue f g h) q /\ lo <= q /\ q <= hi.
Proof.
  intros f g h x lo hi Hf Hg Hh L Bx Bl Bh Fd.
  destruct (cycled_is f g h x lo hi Hf Hg Hh L Bx Bl Bh) as (d & s & m & k & r & q & D2 & D0 & _ & _ & M0 & M1 & R2 & _ & R3 & Q2 & Q1 & Q0).
  exists q. split; [exact Q1|]. split; [exact Q0|]. apply (nearest_below (lo + r)); [exact Q2|apply (valid_float _ _ Hh)|].
  pose proof (float_self _ _ Fd D2). lra.
Qed.
(** Half turns. *)
Lemma half_is : forall f t, float_is f t -> - (360) <= t -> t <= 360 -> exists q k, float_is (getCycledValue f (SFopp f180) f180) q /\
  - (180) <= q /\ q <= 180 /\ Qabs (q - (t + 360 * inject_Z k)) <= 7 * times_pow 2 1 (-17).
Proof.
  intros f t Hf L U. assert (B : 4096 <= B100) by (unfold Qle; vm_compute; discriminate).
  destruct (cycled_is f _ _ t (-180 # 1) 180 Hf m180_is f180_is ltac:(reflexivity)) as (d & s & m & k & r & q & D2 & D0 & S2 & Es & M0 & M1 & R2 & _ & R3 & Q2 & Q1 & Q0).
  { apply abs_le; lra. } { apply abs_le; lra. } { apply abs_le; lra. }
  assert (E360 : is_float (180 - (-180 # 1))) by exact (int_float 360 ltac:(lia)).
  assert (Ed : d == 360) by (rewrite (float_self _ _ E360 D2); reflexivity).
  exists q, (- k)%Z. split; [exact Q1|]. split; [lra|]. split; [apply (nearest_below ((-180 # 1) + r)); [exact Q2|exact (int_float 180 ltac:(lia))|lra]|].
  assert (H9 : times_pow 2 (2 ^ 24) (-14) == 1024) by reflexivity. assert (H8 : times_pow 2 (2 ^ 24) (-15) == 512) by reflexivity. assert (H7 : times_pow 2 (2 ^ 24) (-16) == 256) by reflexivity.
  assert (R0 : 0 <= r) by (apply (nearest_above m); [exact R2|apply zero_float|exact M0]).
  assert (A1 : Qabs (s - (t - (-180 # 1))) <= times_pow 2 1 (-15)) by (apply (nearest_error _ s (-14)); [lia|rewrite H9; apply abs_le; lra|exact S2]).
  assert (A2 : Qabs (r - m) <= times_pow 2 1 (-16)) by (apply (nearest_error _ r (-15)); [lia|rewrite H8; apply abs_le; lra|exact R2]).
  assert (A3 : Qabs (q - ((-180 # 1) + r)) <= times_pow 2 1 (-17)) by (apply (nearest_error _ q (-16)); [lia|rewrite H7; apply abs_le; lra|exact Q2]).
  assert (T1 : times_pow 2 1 (-15) == 4 * times_pow 2 1 (-17)) by reflexivity. assert (T2 : times_pow 2 1 (-16) == 2 * times_pow 2 1 (-17)) by reflexivity.
  rewrite T1 in A1. rewrite T2 in A2. set (h := times_pow 2 1 (-17)) in *. clearbody h. apply abs_bounds in A1, A2, A3. rewrite Ed in Es. rewrite inject_Z_opp. apply abs_le; lra.
Qed.

(** *** Rotating *)
Lemma rotated_is : forall f g h p e c, float_is f p -> float_is g e -> float_is h c -> exists t k,
  - (180) <= t /\ t <= 180 /\ Qabs (t - (e - p + 360 * inject_Z k)) <= times_pow 2 1 (-13) /\
  (t < - c -> float_of (p - c) (getRotatedDeg f g h)) /\
  (- c <= t -> c < t -> float_of (p + c) (getRotatedDeg f g h)) /\
  (- c <= t -> t <= c -> getRotatedDeg f g h = g).
Proof.
  intros f g h p e c Hf Hg Hh. destruct (wrap_bounds f p Hf) as (wp & W1 & L1 & U1 & k1 & E1). destruct (wrap_bounds g e Hg) as (we & W2 & L2 & U2 & k2 & E2).
  destruct (in_range_is (we - wp) _ ltac:(apply near_range; lra) (sub_rounds _ _ we wp W2 W1)) as (u & V1 & V2).
  assert (Ub : - (360) <= u /\ u <= 360).
  { split; [apply (nearest_above (we - wp)); [exact V2|exact (int_float (-360) ltac:(lia))|lra]|apply (nearest_below (we - wp)); [exact V2|exact (int_float 360 ltac:(lia))|lra]]. }
  assert (E3 : Qabs (u - (we - wp)) <= times_pow 2 1 (-16)).
  { apply (nearest_error _ u (-15)); [lia| |exact V2]. assert (H8 : times_pow 2 (2 ^ 24) (-15) == 512) by reflexivity. rewrite H8. apply abs_le; lra. }
  destruct (half_is _ u V1 (proj1 Ub) (proj2 Ub)) as (t & k & T1 & Lt & Ut & E4). fold (subf (getWrapDeg g) (getWrapDeg f)) in T1.
  exists t, (k2 - k1 + k)%Z. split; [exact Lt|]. split; [exact Ut|]. split.
  - assert (T2 : times_pow 2 1 (-16) == 2 * times_pow 2 1 (-17)) by reflexivity. assert (T3 : times_pow 2 1 (-13) == 16 * times_pow 2 1 (-17)) by reflexivity.
    assert (H0 : 0 < times_pow 2 1 (-17)) by reflexivity.
    rewrite T3. rewrite T2 in E1, E2, E3. set (h' := times_pow 2 1 (-17)) in *. clearbody h'. apply abs_bounds in E1, E2, E3, E4.
    unfold Z.sub. rewrite !inject_Z_plus, inject_Z_opp. apply abs_le; lra.
  - unfold getRotatedDeg. cbv zeta. unfold ltf. pose proof (opp_is _ _ Hh) as Ho.
    split; [|split].
    + intros C. apply (ltb_value _ _ _ _ T1 Ho) in C. rewrite C. apply sub_rounds; assumption.
    + intros C1 C2. destruct (SFltb _ (SFopp h)) eqn:X; [apply (ltb_value _ _ _ _ T1 Ho) in X; lra|].
      apply (ltb_value _ _ _ _ Hh T1) in C2. rewrite C2. apply add_rounds; assumption.
    + intros C1 C2. destruct (SFltb _ (SFopp h)) eqn:X; [apply (ltb_value _ _ _ _ T1 Ho) in X; lra|].
      destruct (SFltb h _) eqn:Y; [apply (ltb_value _ _ _ _ Hh T1) in Y; lra|reflexivity].
Qed.
Lemma rotated_fast : forall f g h p e c, float_is f p -> float_is g e -> float_is h c -> 180 <= c -> getRotatedDeg f g h = g.
Proof.
  intros f g h p e c Hf Hg Hh C. destruct (rotated_is f g h p e c Hf Hg Hh) as (t & k & L & U & _ & _ & _ & H). apply H; lra.
Qed.

(** *** Interpolating *)
Lemma prod_bounds : forall w d, 0 <= w -> w <= 1 -> 0 <= d -> 0 <= w * d /\ w * d <= d.
Proof. intros w d W0 W1 D0. split; [apply Qmult_le_0_compat; assumption|]. rewrite <- (Qmult_1_l d) at 2. apply Qmult_le_compat_r; assumption. Qed.
Lemma lerp_is : forall f g h w a b, float_is f w -> float_is g a -> float_is h b -> 0 <= w -> w <= 1 -> a <= b -> Qabs a <= B100 -> Qabs b <= B100 ->
  exists d m q r, nearest_float (b - a) d /\ 0 <= d /\ d <= 2 * B100 /\ nearest_float (w * d) m /\ 0 <= m /\ m <= d /\ nearest_float (a + m) q /\ a <= q /\
    getLerp f g h = Ok r /\ float_is r q.
Proof.
  intros f g h w a b Hf Hg Hh W0 W1 L Ba Bb. apply abs_bounds in Ba, Bb. pose proof b100_pos as P0.
  destruct (in_range_is (b - a) _ ltac:(apply b100_range; lra) (sub_rounds _ _ b a Hh Hg)) as (d & D1 & D2).
  assert (D0 : 0 <= d) by (apply (nearest_above (b - a)); [exact D2|apply zero_float|lra]).
  assert (D3 : d <= 2 * B100) by (apply (nearest_below (b - a)); [exact D2|exact (b100_mult 2 ltac:(lia))|lra]).
  destruct (prod_bounds w d W0 W1 D0) as [X0 X1].
  destruct (in_range_is (w * d) _ ltac:(apply b100_range; lra) (mul_rounds _ _ w d Hf D1)) as (m & M1 & M2).
  assert (M0 : 0 <= m) by (apply (nearest_above (w * d)); [exact M2|apply zero_float|lra]).
  assert (M3 : m <= d) by (apply (nearest_below (w * d)); [exact M2|apply (valid_float _ _ D1)|lra]).
  destruct (in_range_is (a + m) _ ltac:(apply b100_range; lra) (add_rounds _ _ a m Hg M1)) as (q & Q1 & Q2).
  exists d, m, q, (addf g (mulf f (subf h g))). split; [exact D2|]. split; [exact D0|]. split; [exact D3|]. split; [exact M2|]. split; [exact M0|]. split; [exact M3|].
  split; [exact Q2|]. split; [apply (nearest_above (a + m)); [exact Q2|apply (valid_float _ _ Hg)|lra]|]. split; [|exact Q1].
  unfold getLerp, lef. rewrite (proj2 (leb_value _ _ 0 w f0_is Hf)) by exact W0. rewrite (proj2 (leb_value _ _ w 1 Hf f1_is)) by exact W1. reflexivity.
Qed.
Lemma lerp_mono : forall f f' g h w w' a b, float_is f w -> float_is f' w' -> float_is g a -> float_is h b -> 0 <= w -> w <= w' -> w' <= 1 -> a <= b ->
  Qabs a <= B100 -> Qabs b <= B100 -> exists r r' q q', getLerp f g h = Ok r /\ getLerp f' g h = Ok r' /\ float_is r q /\ float_is r' q' /\ a <= q /\ q <= q' /\
    (w == 0 -> q == a) /\ (a == b -> q' == a).
Proof.
  intros f f' g h w w' a b Hf Hf' Hg Hh W0 WW W1 L Ba Bb.
  destruct (lerp_is f g h w a b Hf Hg Hh W0 ltac:(lra) L Ba Bb) as (d & m & q & r & D2 & D0 & D3 & M2 & M0 & M3 & Q2 & Q0 & R & Q1).
  destruct (lerp_is f' g h w' a b Hf' Hg Hh ltac:(lra) W1 L Ba Bb) as (d' & m' & q' & r' & D2' & D0' & D3' & M2' & M0' & M3' & Q2' & Q0' & R' & Q1').
  apply abs_bounds in Ba, Bb. pose proof b100_pos as P0.
  assert (Ed : d' == d) by (apply (nearest_unique (b - a)); [apply b100_range; lra|exact D2'|exact D2]).
  destruct (prod_bounds w d W0 ltac:(lra) D0) as [X0 X1]. 
  assert (Y : w * d <= w' * d') by (rewrite Ed; apply Qmult_le_compat_r; assumption).
  assert (Mm : m <= m') by (apply (nearest_mono (w * d) (w' * d')); [apply b100_range; lra|exact Y|exact M2|exact M2']).
  exists r, r', q, q'. split; [exact R|]. split; [exact R'|]. split; [exact Q1|]. split; [exact Q1'|]. split; [exact Q0|].
  split; [apply (nearest_mono (a + m) (a + m')); [apply b100_range; lra|lra|exact Q2|exact Q2']|].
  pose proof (valid_float _ _ Hg) as Fa. split.
  - intros E. assert (E0 : w * d == 0) by (rewrite E; ring). assert (m == 0) by (apply (float_self 0 m zero_float), (nearest_wd (w * d)); assumption).
    apply (float_self a q Fa), (nearest_wd (a + m)); [lra|exact Q2].
  - intros E. assert (E0 : b - a == 0) by lra. assert (d' == 0) by (apply (float_self 0 d' zero_float), (nearest_wd (b - a)); assumption).
    apply (float_self a q' Fa), (nearest_wd (a + m')); [lra|exact Q2'].
Qed.

(** *** Mapping *)
Definition B40 : Q := times_pow 2 1 40.
Lemma map_is : forall fi f0' f1' g0 g1 i i0 i1 o0 o1, float_is fi i -> float_is f0' i0 -> float_is f1' i1 -> float_is g0 o0 -> float_is g1 o1 ->
  Qabs i <= B40 -> Qabs i0 <= B40 -> Qabs i1 <= B40 -> Qabs o0 <= B40 -> Qabs o1 <= B40 -> times_pow 2 1 (-20) <= i1 - i0 -> o0 <= o1 ->
  exists s d o m z q r, nearest_float (i - i0) s /\ nearest_float (i1 - i0) d /\ nearest_float (o1 - o0) o /\ nearest_float (s * o) m /\
    nearest_float (m / d) z /\ nearest_float (z + o0) q /\ getMap fi f0' f1' g0 g1 = Ok r /\ float_is r q /\
    in_range (i - i0) /\ in_range (i1 - i0) /\ in_range (o1 - o0) /\ in_range (s * o) /\ in_range (m / d) /\ in_range (z + o0) /\ 0 < d /\ 0 <= o.
Proof.
  intros fi f0' f1' g0 g1 i i0 i1 o0 o1 Hi Hi0 Hi1 Ho0 Ho1 Bi Bi0 Bi1 Bo0 Bo1 Li Lo. apply abs_bounds in Bi, Bi0, Bi1, Bo0, Bo1.
  assert (P0 : 0 < B40) by reflexivity.
  assert (N100 : 4 * B40 <= B100) by (unfold Qle; vm_compute; discriminate).
  assert (F2 : is_float (2 * B40)) by (exists 1%Z, 41%Z; split; [lia|reflexivity]).
  assert (F2' : is_float (- (2 * B40))) by (apply is_float_opp, F2).
  pose proof b100_pos as P1.
  assert (R1 : in_range (i - i0)) by (apply b100_range; lra). assert (R2 : in_range (i1 - i0)) by (apply b100_range; lra). assert (R3 : in_range (o1 - o0)) by (apply b100_range; lra).
  destruct (in_range_is _ _ R1 (sub_rounds _ _ i i0 Hi Hi0)) as (s & S1 & S2). destruct (in_range_is _ _ R2 (sub_rounds _ _ i1 i0 Hi1 Hi0)) as (d & D1 & D2).
  destruct (in_range_is _ _ R3 (sub_rounds _ _ o1 o0 Ho1 Ho0)) as (o & O1 & O2).
  assert (D3 : times_pow 2 1 (-20) <= d) by (apply (nearest_above (i1 - i0)); [exact D2|apply pow_float; lia|exact Li]).
  assert (D0 : 0 < d) by (assert (0 < times_pow 2 1 (-20)) by reflexivity; lra).
  assert (O0 : 0 <= o) by (apply (nearest_above (o1 - o0)); [exact O2|apply zero_float|lra]).
  assert (O3 : o <= 2 * B40) by (apply (nearest_below (o1 - o0)); [exact O2|exact F2|lra]).
  assert (S3 : s <= 2 * B40) by (apply (nearest_below (i - i0)); [exact S2|exact F2|lra]).
  assert (S4 : - (2 * B40) <= s) by (apply (nearest_above (i - i0)); [exact S2|exact F2'|lra]).
  assert (M82 : is_float (times_pow 2 1 82)) by (apply pow_float; lia).
  assert (Pso : Qabs (s * o) <= times_pow 2 1 82).
  { rewrite Qabs_Qmult. rewrite (Qabs_pos o) by exact O0. assert (A : Qabs s <= 2 * B40) by (apply abs_le; assumption).
    apply Qle_trans with (2 * B40 * (2 * B40)); [|unfold Qle; vm_compute; discriminate].
    apply Qle_trans with (2 * B40 * o); [apply Qmult_le_compat_r; assumption|]. rewrite !(Qmult_comm (2 * B40)). apply Qmult_le_compat_r; lra. }
  assert (R4 : in_range (s * o)) by (apply bound_range; eapply Qle_trans; [exact Pso|unfold Qle; vm_compute; discriminate]).
  destruct (in_range_is _ _ R4 (mul_rounds _ _ s o S1 O1)) as (m & M1 & M2). apply abs_bounds in Pso.
  assert (Bm : - times_pow 2 1 82 <= m /\ m <= times_pow 2 1 82).
  { split; [apply (nearest_above (s * o)); [exact M2|apply is_float_opp, M82|lra]|apply (nearest_below (s * o)); [exact M2|exact M82|lra]]. }
  assert (Pz : Qabs (m / d) <= times_pow 2 1 102).
  { unfold Qdiv. rewrite Qabs_Qmult. assert (Id : 0 < / d) by (apply Qinv_lt_0_compat, D0). rewrite (Qabs_pos (/ d)) by lra.
    apply Qle_trans with (times_pow 2 1 82 * / d); [apply Qmult_le_compat_r; [apply abs_le; lra|lra]|].
    apply Qle_shift_div_r; [exact D0|]. apply Qle_trans with (times_pow 2 1 102 * times_pow 2 1 (-20)); [unfold Qle; vm_compute; discriminate|].
    rewrite !(Qmult_comm (times_pow 2 1 102)). apply Qmult_le_compat_r; [exact D3|unfold Qle; vm_compute; discriminate]. }
  assert (R5 : in_range (m / d)) by (apply bound_range; eapply Qle_trans; [exact Pz|unfold Qle; vm_compute; discriminate]).
  destruct (in_range_is _ _ R5 (div_rounds _ _ m d M1 D1 ltac:(lra))) as (z & Z1 & Z2). apply abs_bounds in Pz.
  assert (M102 : is_float (times_pow 2 1 102)) by (apply pow_float; lia).
  assert (Bz : - times_pow 2 1 102 <= z /\ z <= times_pow 2 1 102).
  { split; [apply (nearest_above (m / d)); [exact Z2|apply is_float_opp, M102|lra]|apply (nearest_below (m / d)); [exact Z2|exact M102|lra]]. }
  assert (R6 : in_range (z + o0)).
  { apply bound_range. assert (times_pow 2 1 102 + B40 <= times_pow 2 1 120) by (unfold Qle; vm_compute; discriminate). apply abs_le; lra. }
  destruct (in_range_is _ _ R6 (add_rounds _ _ z o0 Z1 Ho0)) as (q & Q1 & Q2).
  exists s, d, o, m, z, q, (addf (divf (mulf (subf fi f0') (subf g1 g0)) (subf f1' f0')) g0).
  split; [exact S2|]. split; [exact D2|]. split; [exact O2|]. split; [exact M2|]. split; [exact Z2|]. split; [exact Q2|]. split.
  { unfold getMap. assert (X : SFeqb (subf f1' f0') f0 = false); [|rewrite X; reflexivity].
    apply not_true_is_false. intros C. apply (eqb_value _ _ d 0 D1 f0_is) in C. lra. }
  split; [exact Q1|]. split; [exact R1|]. split; [exact R2|]. split; [exact R3|]. split; [exact R4|]. split; [exact R5|]. split; [exact R6|]. split; [exact D0|exact O0].
Qed.
Lemma map_mono : forall fi fj f0' f1' g0 g1 i j i0 i1 o0 o1, float_is fi i -> float_is fj j -> float_is f0' i0 -> float_is f1' i1 -> float_is g0 o0 -> float_is g1 o1 ->
  Qabs i <= B40 -> Qabs j <= B40 -> Qabs i0 <= B40 -> Qabs i1 <= B40 -> Qabs o0 <= B40 -> Qabs o1 <= B40 -> times_pow 2 1 (-20) <= i1 - i0 -> o0 <= o1 -> i <= j ->
  exists r r' q q', getMap fi f0' f1' g0 g1 = Ok r /\ getMap fj f0' f1' g0 g1 = Ok r' /\ float_is r q /\ float_is r' q' /\ q <= q' /\
    (i == i0 -> q == o0) /\ (i0 <= i -> o0 <= q).
Proof.
  intros fi fj f0' f1' g0 g1 i j i0 i1 o0 o1 Hi Hj Hi0 Hi1 Ho0 Ho1 Bi Bj Bi0 Bi1 Bo0 Bo1 Li Lo Lij.
  destruct (map_is fi f0' f1' g0 g1 i i0 i1 o0 o1) as (s & d & o & m & z & q & r & S2 & D2 & O2 & M2 & Z2 & Q2 & R & Q1 & R1 & R2 & R3 & R4 & R5 & R6 & D0 & O0); try assumption.
  destruct (map_is fj f0' f1' g0 g1 j i0 i1 o0 o1) as (s' & d' & o' & m' & z' & q' & r' & S2' & D2' & O2' & M2' & Z2' & Q2' & R' & Q1' & R1' & _ & _ & _ & _ & _ & D0' & O0'); try assumption.
  assert (Ed : d' == d) by (apply (nearest_unique (i1 - i0)); assumption). assert (Eo : o' == o) by (apply (nearest_unique (o1 - o0)); assumption).
  assert (Ls : s <= s') by (apply (nearest_mono (i - i0) (j - i0)); [exact R1|lra|exact S2|exact S2']).
  assert (Lm : m <= m').
  { apply (nearest_mono (s * o) (s' * o')); [exact R4|rewrite Eo; apply Qmult_le_compat_r; assumption|exact M2|exact M2']. }
  assert (Lz : z <= z').
  { apply (nearest_mono (m / d) (m' / d')); [exact R5| |exact Z2|exact Z2']. rewrite Ed. unfold Qdiv. apply Qmult_le_compat_r; [exact Lm|].
    apply Qlt_le_weak, Qinv_lt_0_compat, D0. }
  exists r, r', q, q'. split; [exact R|]. split; [exact R'|]. split; [exact Q1|]. split; [exact Q1'|].
  split; [apply (nearest_mono (z + o0) (z' + o0)); [exact R6|lra|exact Q2|exact Q2']|].
  pose proof (valid_float _ _ Ho0) as Fo. split.
  - intros E. assert (s == 0) by (apply (float_self 0 s zero_float), (nearest_wd (i - i0)); [lra|exact S2]).
    assert (m == 0) by (apply (float_self 0 m zero_float), (nearest_wd (s * o)); [rewrite H; ring|exact M2]).
    assert (z == 0) by (apply (float_self 0 z zero_float), (nearest_wd (m / d)); [rewrite H0; field; lra|exact Z2]).
    apply (float_self o0 q Fo), (nearest_wd (z + o0)); [lra|exact Q2].
  - intros C. assert (0 <= s) by (apply (nearest_above (i - i0)); [exact S2|apply zero_float|lra]).
    assert (0 <= m) by (apply (nearest_above (s * o)); [exact M2|apply zero_float|apply Qmult_le_0_compat; assumption]).
    assert (0 <= z) by (apply (nearest_above (m / d)); [exact Z2|apply zero_float|apply Qle_shift_div_l; lra]).
    apply (nearest_above (z + o0)); [exact Q2|exact Fo|lra].
Qed.

(** *** Degrees and radians *)
Lemma relative_error : forall x q, times_pow 2 1 (-126) <= Qabs x -> in_range x -> nearest_float x q -> Qabs (q - x) * inject_Z (2 ^ 24) <= Qabs x.
Proof.
  intros x q L B N. unfold in_range in B. assert (P : 0 < times_pow 2 1 (-126)) by reflexivity.
  destruct (Qlt_le_dec x 0) as [C|C].
  - assert (A : Qabs x == - x) by (apply Qabs_neg; lra). rewrite A in *. pose proof (near32 (- x) (- q) L B (nearest_opp _ _ N)) as H.
    rewrite <- Qabs_opp. setoid_replace (- (q - x)) with (- q - - x) by ring. exact H.
  - assert (A : Qabs x == x) by (apply Qabs_pos; lra). rewrite A in *. apply near32; assumption.
Qed.
Definition ratio : Q := times_pow 2 9370165 (-29).
Lemma ratio_is : float_is radDegRatio ratio. Proof. split; reflexivity. Qed.
Lemma deg_rad : forall f p, float_is f p -> times_pow 2 1 (-100) <= Qabs p -> Qabs p <= B100 ->
  exists q, float_is (toDeg (toRad f)) q /\ Qabs (q - p) <= times_pow 2 1 (-22) * Qabs p.
Proof.
  intros f p Hf L U. unfold toDeg, toRad.
  assert (Pr : 0 < ratio) by reflexivity. assert (A1 : Qabs (p * ratio) == Qabs p * ratio) by (rewrite Qabs_Qmult, (Qabs_pos ratio) by lra; reflexivity).
  assert (Rr : times_pow 2 1 (-6) <= ratio /\ ratio <= 1) by (split; unfold Qle; vm_compute; discriminate).
  set (u := Qabs p) in *. assert (U0 : 0 <= u) by apply Qabs_nonneg.
  assert (X1 : times_pow 2 1 (-106) <= u * ratio).
  { apply Qle_trans with (times_pow 2 1 (-100) * ratio); [unfold Qle; vm_compute; discriminate|]. apply Qmult_le_compat_r; lra. }
  assert (X2 : u * ratio <= B100).
  { apply Qle_trans with (B100 * ratio); [apply Qmult_le_compat_r; lra|]. unfold Qle. vm_compute. discriminate. }
  assert (R1 : in_range (p * ratio)).
  { apply bound_range. rewrite A1. eapply Qle_trans; [exact X2|]. unfold Qle. vm_compute. discriminate. }
  destruct (in_range_is _ _ R1 (mul_rounds _ _ p ratio Hf ratio_is)) as (m & M1 & M2).
  assert (E1 : Qabs (m - p * ratio) * inject_Z (2 ^ 24) <= u * ratio).
  { rewrite <- A1. apply relative_error; [rewrite A1; eapply Qle_trans; [|exact X1]; unfold Qle; vm_compute; discriminate|exact R1|exact M2]. }
  assert (Ez : m / ratio - p == (m - p * ratio) / ratio) by (field; lra).
  assert (E2 : Qabs (m / ratio - p) * inject_Z (2 ^ 24) <= u).
  { rewrite Ez. unfold Qdiv. rewrite Qabs_Qmult. assert (I : 0 < / ratio) by reflexivity. rewrite (Qabs_pos (/ ratio)) by lra.
    setoid_replace (Qabs (m - p * ratio) * / ratio * inject_Z (2 ^ 24)) with (Qabs (m - p * ratio) * inject_Z (2 ^ 24) / ratio) by (field; lra).
    apply Qle_shift_div_r; assumption. }
  assert (I24 : inject_Z (2 ^ 24) == 16777216) by reflexivity. rewrite I24 in *.
  set (z := m / ratio) in *.
  assert (B1 : Qabs z <= u + Qabs (z - p)).
  { setoid_replace z with (p + (z - p)) at 1 by ring. apply Qabs_triangle. }
  assert (B2 : u <= Qabs z + Qabs (z - p)).
  { unfold u. setoid_replace p with (z + - (z - p)) at 1 by ring. eapply Qle_trans; [apply Qabs_triangle|]. rewrite Qabs_opp. apply Qle_refl. }
  assert (U100 : B100 * 2 <= times_pow 2 1 120) by (unfold Qle; vm_compute; discriminate).
  assert (L100 : times_pow 2 1 (-126) * 2 <= times_pow 2 1 (-100)) by (unfold Qle; vm_compute; discriminate).
  assert (P126 : 0 < times_pow 2 1 (-126)) by reflexivity.
  assert (R2 : in_range z) by (apply bound_range; lra).
  destruct (in_range_is _ _ R2 (div_rounds _ _ m ratio M1 ratio_is ltac:(lra))) as (q & Q1 & Q2).
  exists q. split; [exact Q1|].
  assert (E3 : Qabs (q - z) * 16777216 <= Qabs z) by (rewrite <- I24; apply relative_error; [lra|exact R2|exact Q2]).
  assert (T : Qabs (q - p) <= Qabs (q - z) + Qabs (z - p)).
  { setoid_replace (q - p) with ((q - z) + (z - p)) by ring. apply Qabs_triangle. }
  assert (H22 : times_pow 2 1 (-22) == 1 # 4194304) by reflexivity. rewrite H22.
  set (a := Qabs (q - p)) in *. set (b := Qabs (q - z)) in *. set (c := Qabs (z - p)) in *. set (e := Qabs z) in *. clearbody a b c e u. lra.
Qed.
