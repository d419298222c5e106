(** Angles and ranges in single precision. *)
From Coq Require Import ZArith Arith Bool Lia List QArith Qabs Qround Qpower Lqa.
From Coq Require Import Floats.SpecFloat.
From Verif Require Import Common RealSpec RealProofs FltSpec Flt32Proofs Flt32ReadProofs AngleSpec FloatOpsProofs AngleModel.
Local Open Scope Q_scope.

(** *** The remainder is exact *)
Lemma fmod_is : forall f g p q, float_is f p -> float_is g q -> ~ q == 0 ->
  exists r n, float_is (fmodf f g) r /\ p == r + q * inject_Z n /\ Qabs r < Qabs q /\ (0 <= p -> 0 <= r) /\ (p <= 0 -> r <= 0).
Proof.
  intros f g p q Hf Hg N0.
  assert (PQ : 0 < Qabs q) by (apply Qabs_case; intros; [destruct (Qle_lt_or_eq _ _ H) as [C|C]|destruct (Qle_lt_or_eq _ _ H) as [C|C]]; try lra; exfalso; apply N0; lra).
  destruct f as [s1|s1| |s1 m1 e1], g as [s2|s2| |s2 m2 e2]; try (exfalso; exact (proj2 Hf)); try (exfalso; exact (proj2 Hg));
    try (exfalso; apply N0; exact (proj2 Hg)).
  - exists 0, 0%Z. destruct Hf as [_ A]. cbn [has_value] in A. split; [split; reflexivity|]. split; [rewrite A; ring|].
    split; [exact PQ|]. split; intros; lra.
  - destruct Hf as [V A], Hg as [W B]. cbn [has_value] in A, B. apply valid_iff in V, W. cbn [fmodf].
    set (e := Z.min e1 e2). set (M1 := (Zpos m1 * 2 ^ (e1 - e))%Z). set (M2 := (Zpos m2 * 2 ^ (e2 - e))%Z).
    assert (P1 : (0 < 2 ^ (e1 - e))%Z) by (apply Z.pow_pos_nonneg; lia). assert (P2 : (0 < 2 ^ (e2 - e))%Z) by (apply Z.pow_pos_nonneg; lia).
    assert (H1 : (0 < M1)%Z) by (unfold M1; lia). assert (H2 : (0 < M2)%Z) by (unfold M2; lia).
    pose proof (Z.div_mod M1 M2 ltac:(lia)) as Dm. pose proof (Z.mod_pos_bound M1 M2 H2) as Mb.
    pose proof (Z.div_pos M1 M2 ltac:(lia) H2) as Kp.
    set (r := (M1 mod M2)%Z) in *. set (k := (M1 / M2)%Z) in *.
    assert (A' : p == times_pow 2 (if s1 then - M1 else M1) e).
    { rewrite A. rewrite (times_shift 2 _ e e1) by lia. destruct s1; [change (Zneg m1) with (- Zpos m1)%Z; rewrite Z.mul_opp_l|]; reflexivity. }
    assert (B' : q == times_pow 2 (if s2 then - M2 else M2) e).
    { rewrite B. rewrite (times_shift 2 _ e e2) by lia. destruct s2; [change (Zneg m2) with (- Zpos m2)%Z; rewrite Z.mul_opp_l|]; reflexivity. }
    assert (Rb : (0 <= r < 2 ^ 24)%Z).
    { split; [lia|]. destruct (Z.le_gt_cases e1 e2) as [L|L].
      - assert (M1 = Zpos m1) by (unfold M1; replace (e1 - e)%Z with 0%Z by lia; lia). nia.
      - assert (M2 = Zpos m2) by (unfold M2; replace (e2 - e)%Z with 0%Z by lia; lia). lia. }
    exists (times_pow 2 (if s1 then - r else r) e), (if xorb s1 s2 then - k else k)%Z.
    pose proof (pow_pos' 2 e ltac:(lia)) as G.
    split; [apply exact_is; [|apply normalize_rounds]|]. 
    { exists (if s1 then - r else r)%Z, e. split; [|reflexivity]. split; [destruct s1; lia|lia]. }
    split; [|split; [|split]].
    + rewrite A', B'. unfold times_pow. setoid_replace (inject_Z (if s1 then (- M1)%Z else M1)) with
        (inject_Z (if s1 then (- r)%Z else r) + inject_Z (if s2 then (- M2)%Z else M2) * inject_Z (if xorb s1 s2 then (- k)%Z else k)); [ring|].
      rewrite <- inject_Z_mult, <- inject_Z_plus. apply inject_Z_injective. destruct s1, s2; cbn [xorb]; lia.
    + rewrite B'. assert (X : forall (s : bool) z, (0 <= z)%Z -> Qabs (times_pow 2 (if s then (- z)%Z else z) e) == times_pow 2 z e).
      { intros s z Hz. unfold times_pow. rewrite Qabs_Qmult, (Qabs_pos (_ ^ _)) by lra. apply Qmult_comp; [|reflexivity].
        assert (Qz : 0 <= inject_Z z) by (change 0 with (inject_Z 0); rewrite <- Zle_Qle; exact Hz).
        destruct s; [rewrite inject_Z_opp, Qabs_opp|]; apply Qabs_pos, Qz. }
      rewrite !X by lia. unfold times_pow. apply Qmult_lt_r; [exact G|]. rewrite <- Zlt_Qlt. lia.
    + intros H. rewrite A' in H. destruct s1; [exfalso|].
      * unfold times_pow in H. rewrite inject_Z_opp in H. pose proof (inj_pos M1 H1). pose proof (Qmult_lt_0_compat _ _ H0 G). lra.
      * unfold times_pow. apply Qmult_le_0_compat; [change 0 with (inject_Z 0); rewrite <- Zle_Qle; lia|lra].
    + intros H. rewrite A' in H. destruct s1; [|exfalso].
      * rewrite times_opp. assert (0 <= times_pow 2 r e); [|lra].
        unfold times_pow. apply Qmult_le_0_compat; [change 0 with (inject_Z 0); rewrite <- Zle_Qle; lia|lra].
      * unfold times_pow in H. pose proof (inj_pos M1 H1). pose proof (Qmult_lt_0_compat _ _ H0 G). lra.
Qed.

(** *** Constants *)
Lemma f0_is : float_is f0 0. Proof. split; reflexivity. Qed.
Lemma f1_is : float_is f1 1. Proof. split; reflexivity. Qed.
Lemma f180_is : float_is f180 180. Proof. split; reflexivity. Qed.
Lemma f360_is : float_is f360 360. Proof. split; reflexivity. Qed.
Lemma m180_is : float_is (SFopp f180) (-180 # 1). Proof. split; reflexivity. Qed.
Lemma small_in_range : forall x, Qabs x <= inject_Z (2 ^ 127) -> in_range x.
Proof. intros x H. unfold in_range. eapply Qle_lt_trans; [exact H|]. unfold Qlt. vm_compute. reflexivity. Qed.
Lemma abs_le : forall x a, - a <= x -> x <= a -> Qabs x <= a.
Proof. intros x a L U. apply Qabs_case; intros; lra. Qed.
Lemma abs_bounds : forall x a, Qabs x <= a -> - a <= x /\ x <= a.
Proof. intros x a. apply Qabs_case; intros; split; lra. Qed.
Lemma big127 : 4096 <= inject_Z (2 ^ 127). Proof. unfold Qle. vm_compute. discriminate. Qed.
Lemma near_range : forall x, - (4096) <= x -> x <= 4096 -> in_range x.
Proof. intros x L U. apply small_in_range. pose proof big127. apply abs_le; lra. Qed.
Lemma int_float : forall z, (Z.abs z < 2 ^ 24)%Z -> is_float (inject_Z z).
Proof. intros z H. exists z, 0%Z. split; [lia|]. unfold times_pow. change (inject_Z 2 ^ 0) with 1. ring. Qed.

(** *** Wrapping *)
Lemma gap_360 : forall p, is_float p -> p < 360 -> p <= 360 - times_pow 2 1 (-15).
Proof.
  intros p (m & k & B & E) L. rewrite E in *.
  assert (U : 360 - times_pow 2 1 (-15) == times_pow 2 11796479 (-15)) by reflexivity. rewrite U. clear U.
  destruct (Z.le_gt_cases (-15) k) as [Lk|Lk].
  - rewrite (times_shift 2 m (-15) k) in * by lia. apply times_le.
    assert (V : times_pow 2 (m * 2 ^ (k - -15)) (-15) < times_pow 2 11796480 (-15)) by (eapply Qlt_le_trans; [exact L|apply Qle_lteq; right; reflexivity]).
    unfold times_pow in V. rewrite Qmult_lt_r in V by (apply pow_pos'; lia). rewrite <- Zlt_Qlt in V. lia.
  - rewrite (times_shift 2 11796479 k (-15)) by lia. apply times_le. assert (2 ^ 1 <= 2 ^ (-15 - k))%Z by (apply Z.pow_le_mono_r; lia). nia.
Qed.
Lemma near_360 : forall x, 360 - times_pow 2 1 (-16) <= x -> x < 360 -> nearest_float x 360.
Proof.
  intros x L U. split; [exact (int_float 360 ltac:(lia))|]. intros p Hp N.
  assert (D : times_pow 2 1 (-15) == 2 * times_pow 2 1 (-16)) by reflexivity. set (h := times_pow 2 1 (-16)) in *.
  assert (H0 : 0 < h) by reflexivity.
  rewrite (Qabs_pos (360 - x)) by lra. destruct (Q_dec p 360) as [[C|C]|C]; [|left|exfalso; apply N; exact C].
  - pose proof (gap_360 p Hp C) as G. rewrite D in G. clearbody h. rewrite (Qabs_neg (p - x)) by lra.
    destruct (Qlt_le_dec (360 - x) (- (p - x))) as [T|T]; [left; exact T|right]. split; [lra|].
    exists 11796480%Z, (-15)%Z. split; [lia|]. split; reflexivity.
  - rewrite Qabs_pos by lra. lra.
Qed.
Lemma wrap_is : forall f v, float_is f v -> exists x q, same_direction x v /\ 0 <= x /\ x < 360 /\
  float_is (getWrapDeg f) q /\ nearest_float x q /\ (0 <= v -> q == x) /\ (q == 360 <-> 360 - times_pow 2 1 (-16) <= x).
Proof.
  intros f v Hf. unfold getWrapDeg. destruct (fmod_is f f360 v 360 Hf f360_is ltac:(intros C; discriminate C)) as (r & n & Hr & Er & Br & S1 & S2).
  rewrite (Qabs_pos 360) in Br by lra. assert (Br' : - (360) < r /\ r < 360) by (revert Br; apply Qabs_case; intros; lra). clear Br.
  cbv zeta. unfold ltf. destruct (SFltb (fmodf f f360) f0) eqn:E.
  - apply (ltb_value _ _ r 0 Hr f0_is) in E. pose proof (add_rounds _ _ r 360 Hr f360_is) as Ad.
    destruct (in_range_is (r + 360) _ ltac:(apply near_range; lra) Ad) as (q & Q1 & Q2). exists (r + 360), q.
    split; [exists (1 - n)%Z; rewrite Er; unfold Z.sub; rewrite inject_Z_plus, inject_Z_opp; change (inject_Z 1) with 1; ring|].
    split; [lra|]. split; [lra|]. split; [exact Q1|]. split; [exact Q2|]. split; [intros H; specialize (S1 H); lra|].
    split.
    + intros C. apply Qnot_lt_le. intros L.
      assert (D : times_pow 2 1 (-15) == 2 * times_pow 2 1 (-16)) by reflexivity. set (h := times_pow 2 1 (-16)) in *. assert (H0 : 0 < h) by reflexivity.
      assert (Fp : is_float (360 - times_pow 2 1 (-15))) by (exists 11796479%Z, (-15)%Z; split; [lia|reflexivity]).
      pose proof (nearest_min _ q _ Q2 Fp) as M. rewrite D, C in M. clearbody h. revert M. apply Qabs_case; apply Qabs_case; intros; lra.
    + intros L. apply (nearest_unique (r + 360)); [apply near_range; lra|exact Q2|]. apply near_360; lra.
  - assert (R0 : 0 <= r) by (apply Qnot_lt_le; intros C; apply (ltb_value _ _ r 0 Hr f0_is) in C; congruence).
    exists r, r. split; [exists (- n)%Z; rewrite Er, inject_Z_opp; ring|]. split; [exact R0|]. split; [lra|]. split; [exact Hr|].
    split; [apply self_nearest, (valid_float _ _ Hr)|]. split; [reflexivity|]. split; [intros C; lra|].
    intros L. exfalso. assert (D : times_pow 2 1 (-15) == 2 * times_pow 2 1 (-16)) by reflexivity.
    pose proof (gap_360 r (valid_float _ _ Hr) ltac:(lra)) as G. rewrite D in G. assert (0 < times_pow 2 1 (-16)) by reflexivity. lra.
Qed.
Lemma wrap_bounds : forall f v, float_is f v -> exists q, float_is (getWrapDeg f) q /\ 0 <= q /\ q <= 360 /\
  exists k, Qabs (q - (v + 360 * inject_Z k)) <= times_pow 2 1 (-16).
Proof.
  intros f v Hf. destruct (wrap_is f v Hf) as (x & q & (k & Ek) & L & U & Q1 & Q2 & _). exists q. split; [exact Q1|].
  split; [apply (nearest_above x); [exact Q2|apply zero_float|exact L]|]. split; [apply (nearest_below x); [exact Q2|exact (int_float 360 ltac:(lia))|lra]|].
  exists k. rewrite <- Ek. apply (nearest_error x q (-15)); [lia| |exact Q2]. apply abs_le; [|apply Qle_trans with 360; [lra|unfold Qle; vm_compute; discriminate]].
  apply Qle_trans with 0; [unfold Qle; vm_compute; discriminate|exact L].
Qed.
Lemma wrap_again : forall f q, float_is (getWrapDeg f) q -> 0 <= q -> q <= 360 ->
  float_is (getWrapDeg (getWrapDeg f)) (if Qlt_le_dec q 360 then q else 0).
Proof.
  intros f q Hq L U. destruct (wrap_is _ q Hq) as (x & q' & (k & Ek) & Lx & Ux & Q1 & _ & Q3 & _). specialize (Q3 L).
  apply (float_is_wd _ q'); [|exact Q1]. rewrite Q3.
  destruct (Qlt_le_dec q 360) as [C|C].
  - assert (k = 0)%Z as ->; [|rewrite Ek; change (inject_Z 0) with 0; ring].
    assert (k < 1)%Z by (rewrite Zlt_Qlt; change (inject_Z 1) with 1; lra).
    assert (-1 < k)%Z by (rewrite Zlt_Qlt; change (inject_Z (-1)) with (- (1)); lra). lia.
  - assert (k = -1)%Z as ->; [|rewrite Ek; change (inject_Z (-1)) with (- (1)); lra].
    assert (k < 0)%Z by (rewrite Zlt_Qlt; change (inject_Z 0) with 0; lra).
    assert (-2 < k)%Z by (rewrite Zlt_Qlt; change (inject_Z (-2)) with (- (2)); lra). lia.
Qed.

(** *** Differences of near floats are exact *)
Lemma sterbenz : forall a b, is_float a -> is_float b -> 0 < a -> 0 < b -> a <= 2 * b -> b <= 2 * a -> is_float (a - b).
Proof.
  intros a b (m1 & e1 & B1 & E1) (m2 & e2 & B2 & E2) Pa Pb H1 H2. set (e := Z.min e1 e2).
  assert (F1 : a == times_pow 2 (m1 * 2 ^ (e1 - e)) e) by (rewrite E1; apply times_shift; lia).
  assert (F2 : b == times_pow 2 (m2 * 2 ^ (e2 - e)) e) by (rewrite E2; apply times_shift; lia).
  set (x := (m1 * 2 ^ (e1 - e))%Z) in *. set (y := (m2 * 2 ^ (e2 - e))%Z) in *.
  exists (x - y)%Z, e. split; [|rewrite F1, F2; unfold times_pow, Z.sub; rewrite inject_Z_plus, inject_Z_opp; ring].
  split; [|lia]. assert (G1 : (x <= 2 * y)%Z).
  { apply (times_le_iff _ _ e). rewrite F1, F2 in H1. eapply Qle_trans; [exact H1|]. unfold times_pow. rewrite inject_Z_mult. set (g := inject_Z 2 ^ e). change (inject_Z 2) with 2. apply Qle_lteq. right. ring. }
  assert (G2 : (y <= 2 * x)%Z).
  { apply (times_le_iff _ _ e). rewrite F1, F2 in H2. eapply Qle_trans; [exact H2|]. unfold times_pow. rewrite inject_Z_mult. set (g := inject_Z 2 ^ e). change (inject_Z 2) with 2. apply Qle_lteq. right. ring. }
  destruct (Z.le_gt_cases e1 e2) as [L|L].
  - assert (x = m1) by (unfold x; replace (e1 - e)%Z with 0%Z by lia; lia). lia.
  - assert (y = m2) by (unfold y; replace (e2 - e)%Z with 0%Z by lia; lia). lia.
Qed.

(** *** The angle between two directions *)
Lemma angle_min : forall a b d k, angle_between a b d -> d <= Qabs (a - b - 360 * inject_Z k).
Proof.
  intros a b d k [[L U] H].
  assert (Z1 : forall j : Z, (j <= -1 \/ j = 0 \/ 1 <= j)%Z) by lia.
  assert (G : exists j, a - b - 360 * inject_Z k == d + 360 * inject_Z j \/ a - b - 360 * inject_Z k == - d + 360 * inject_Z j).
  { destruct H as [[j E]|[j E]]; exists (j - k)%Z; unfold Z.sub; rewrite inject_Z_plus, inject_Z_opp; [right|left]; lra. }
  destruct G as [j G]. assert (J : inject_Z j <= - (1) \/ inject_Z j == 0 \/ 1 <= inject_Z j).
  { destruct (Z1 j) as [C|[->|C]]; [left; change (- (1)) with (inject_Z (-1)); rewrite <- Zle_Qle; exact C|right; left; reflexivity|
      right; right; change 1 with (inject_Z 1); rewrite <- Zle_Qle; exact C]. }
  set (w := a - b - 360 * inject_Z k) in *. clearbody w. set (y := inject_Z j) in *. clearbody y.
  destruct J as [J|[J|J]], G as [G|G]; apply Qabs_case; intros; lra.
Qed.
Lemma angle_attained : forall a b d, angle_between a b d -> exists k, d == Qabs (a - b - 360 * inject_Z k).
Proof.
  intros a b d [[L U] [[k E]|[k E]]]; exists k.
  - setoid_replace (a - b - 360 * inject_Z k) with (- d) by lra. rewrite Qabs_opp, Qabs_pos by exact L. reflexivity.
  - setoid_replace (a - b - 360 * inject_Z k) with d by lra. rewrite Qabs_pos by exact L. reflexivity.
Qed.
Lemma angle_unique : forall a b d d', angle_between a b d -> angle_between a b d' -> d == d'.
Proof.
  intros a b d d' H H'. destruct (angle_attained _ _ _ H) as [k E]. destruct (angle_attained _ _ _ H') as [k' E'].
  apply Qle_antisym; [rewrite E'; apply angle_min, H|rewrite E; apply angle_min, H'].
Qed.
Lemma angle_exists : forall a b, exists d, angle_between a b d.
Proof.
  intros a b. set (t := (a - b + 180) / 360). set (k := Qfloor t). pose proof (Qfloor_le t) as A. pose proof (Qlt_floor t) as B. fold k in A, B.
  rewrite inject_Z_plus in B. change (inject_Z 1) with 1 in B. assert (E : a - b + 180 == 360 * t) by (unfold t; field).
  exists (Qabs (a - b - 360 * inject_Z k)). clearbody k t. split; [split; [apply Qabs_nonneg|apply abs_le; lra]|].
  destruct (Qlt_le_dec (a - b - 360 * inject_Z k) 0) as [L|L].
  - left. exists k. rewrite Qabs_neg by lra. ring.
  - right. exists k. rewrite Qabs_pos by lra. ring.
Qed.
(** A change of one direction changes the angle by at most as much. *)
Lemma angle_lipschitz : forall a b a' b' d d', angle_between a b d -> angle_between a' b' d' -> Qabs (d - d') <= Qabs ((a - b) - (a' - b')).
Proof.
  intros a b a' b' d d' H H'. destruct (angle_attained _ _ _ H) as [k E]. destruct (angle_attained _ _ _ H') as [k' E'].
  pose proof (angle_min a b d k' H) as M. pose proof (angle_min a' b' d' k H') as M'.
  set (x := 360 * inject_Z k) in *. set (x' := 360 * inject_Z k') in *. clearbody x x'.
  apply abs_le.
  - rewrite E' in *. revert E M M'. apply Qabs_case; apply Qabs_case; apply Qabs_case; apply Qabs_case; apply Qabs_case; intros; lra.
  - rewrite E in *. revert E' M M'. apply Qabs_case; apply Qabs_case; apply Qabs_case; apply Qabs_case; apply Qabs_case; intros; lra.
Qed.

(** *** Distances *)
Lemma dist_is : forall f g p q, float_is f p -> float_is g q -> in_range (p - q) ->
  exists d D w, nearest_float (p - q) d /\ angle_between d 0 D /\ float_is (getDistDeg f g) w /\ 0 <= w /\ w <= 180 /\
    Qabs (w - D) <= times_pow 2 1 (-17) /\ (same_direction d 0 -> w == 0).
Proof.
  intros f g p q Hf Hg B. unfold getDistDeg. destruct (in_range_is _ _ B (sub_rounds f g p q Hf Hg)) as (d & D1 & D2).
  pose proof (abs_is _ _ D1) as A1. fold (subf f g) in A1. fold (fabsf (subf f g)) in A1.
  destruct (fmod_is _ _ (Qabs d) 360 A1 f360_is ltac:(intros C; discriminate C)) as (r & n & Hr & Er & Br & S1 & _).
  specialize (S1 (Qabs_nonneg d)). rewrite (Qabs_pos 360) in Br by lra. rewrite (Qabs_pos r) in Br by exact S1.
  destruct (in_range_is (r - 180) _ ltac:(apply near_range; lra) (sub_rounds _ _ r 180 Hr f180_is)) as (u & U1 & U2).
  assert (Ub : - (180) <= u /\ u <= 180).
  { split; [apply (nearest_above (r - 180)); [exact U2|exact (int_float (-180) ltac:(lia))|lra]|apply (nearest_below (r - 180)); [exact U2|exact (int_float 180 ltac:(lia))|lra]]. }
  pose proof (abs_is _ _ U1) as A2.
  assert (Ab : 0 <= Qabs u /\ Qabs u <= 180) by (split; [apply Qabs_nonneg|apply abs_le; lra]).
  destruct (in_range_is (180 - Qabs u) _ ltac:(apply near_range; lra) (sub_rounds _ _ 180 (Qabs u) f180_is A2)) as (w & W1 & W2).
  exists d, (180 - Qabs (r - 180)), w. split; [exact D2|]. split; [|split; [exact W1|]].
  { split; [split|].
    - assert (Qabs (r - 180) <= 180) by (apply abs_le; lra). lra.
    - pose proof (Qabs_nonneg (r - 180)). lra.
    - assert (Ed : exists k, d == r + 360 * inject_Z k \/ d == - r + 360 * inject_Z k).
      { revert Er. apply Qabs_case; intros _ Er; [exists n; left|exists (- n)%Z; right; rewrite inject_Z_opp]; lra. }
      destruct Ed as [k Ed]. unfold same_direction. destruct (Qlt_le_dec r 180) as [L|L].
      + assert (Ea : Qabs (r - 180) == - (r - 180)) by (apply Qabs_neg; lra). destruct Ed as [Ed|Ed]; [right|left]; exists k; lra.
      + assert (Ea : Qabs (r - 180) == r - 180) by (apply Qabs_pos; lra). destruct Ed as [Ed|Ed]; [left|right]; [exists (k + 1)%Z|exists (k - 1)%Z; unfold Z.sub];
        rewrite inject_Z_plus; [change (inject_Z 1) with 1|change (inject_Z (- (1))) with (- (1))]; lra. }
  split; [apply (nearest_above (180 - Qabs u)); [exact W2|apply zero_float|lra]|].
  split; [apply (nearest_below (180 - Qabs u)); [exact W2|exact (int_float 180 ltac:(lia))|lra]|].
  assert (H256 : times_pow 2 (2 ^ 24) (-16) == 256) by reflexivity. set (h := times_pow 2 1 (-17)).
  split.
  - destruct (Qlt_le_dec r 90) as [L|L].
    + assert (Eu : Qabs (u - (r - 180)) <= h) by (apply (nearest_error (r - 180) u (-16)); [lia|rewrite H256; apply abs_le; lra|exact U2]).
      assert (U90 : u <= - (90)) by (apply (nearest_below (r - 180)); [exact U2|exact (int_float (-90) ltac:(lia))|lra]).
      assert (Eu' : Qabs u == - u) by (apply Qabs_neg; lra). apply (nearest_wd _ (180 - - u)) in W2; [|lra].
      assert (Ew : w == 180 - - u).
      { apply (float_self (180 - - u) w); [|exact W2]. apply sterbenz; [exact (int_float 180 ltac:(lia))|apply is_float_opp, (valid_float _ _ U1)|lra|lra|lra|lra]. }
      rewrite Ew. rewrite (Qabs_neg (r - 180)) by lra. setoid_replace (180 - - u - (180 - - (r - 180))) with (u - (r - 180)) by ring. exact Eu.
    + assert (Eu : u == r - 180).
      { destruct (Qlt_le_dec 0 r) as [R0|R0]; [|exfalso; lra].
        apply (float_self (r - 180) u); [|exact U2]. apply sterbenz; [apply (valid_float _ _ Hr)|exact (int_float 180 ltac:(lia))|lra|lra|lra|lra]. }
      assert (Ew : Qabs (w - (180 - Qabs u)) <= h) by (apply (nearest_error (180 - Qabs u) w (-16)); [lia|rewrite H256; apply abs_le; lra|exact W2]).
      rewrite Eu in Ew. exact Ew.
  - intros [k Ek]. assert (R0 : r == 0).
    { assert (Z0 : exists j, r == 360 * inject_Z j).
      { revert Er. apply Qabs_case; intros _ Er; [exists (k - n)%Z|exists (- k - n)%Z]; unfold Z.sub; rewrite inject_Z_plus, ?inject_Z_opp; lra. }
      destruct Z0 as [j Ej]. assert (j < 1)%Z by (rewrite Zlt_Qlt; change (inject_Z 1) with 1; lra). assert (-1 < j)%Z by (rewrite Zlt_Qlt; change (inject_Z (-1)) with (- (1)); lra).
      assert (j = 0)%Z as -> by lia. rewrite Ej. change (inject_Z 0) with 0. ring. }
    assert (Eu : u == - (180)).
    { apply (float_self (- (180)) u); [exact (int_float (-180) ltac:(lia))|]. apply (nearest_wd (r - 180)); [lra|exact U2]. }
    assert (Ea : Qabs u == 180) by (rewrite Eu; reflexivity).
    apply (float_self 0 w zero_float). apply (nearest_wd (180 - Qabs u)); [lra|exact W2].
Qed.
Lemma dist_overflow : forall f g p q, float_is f p -> float_is g q -> ~ in_range (p - q) -> getDistDeg f g = S754_nan.
Proof.
  intros f g p q Hf Hg B. unfold getDistDeg, subf. destruct (sub_rounds f g p q Hf Hg) as [[C _]|[_ E]]; [contradiction|]. rewrite E. reflexivity.
Qed.
Lemma abs_round_aux : forall s m e l, SFabs (binary_round_aux 24 128 s m e l) = SFabs (binary_round_aux 24 128 false m e l).
Proof.
  intros s m e l. unfold binary_round_aux. destruct (shr_fexp 24 128 m e l) as [a b]. destruct (shr_fexp 24 128 (round_nearest_even (shr_m a) (loc_of_shr_record a)) b loc_Exact) as [c d].
  destruct (shr_m c); [reflexivity| |reflexivity]. destruct (d <=? 128 - 24)%Z; reflexivity.
Qed.
Lemma abs_sub_comm : forall f g, SFabs (SFsub 24 128 f g) = SFabs (SFsub 24 128 g f).
Proof.
  intros f g. destruct f as [s1|s1| |s1 m1 e1], g as [s2|s2| |s2 m2 e2]; try reflexivity; try (destruct s1, s2; reflexivity).
  unfold SFsub. cbv zeta. rewrite (Z.min_comm e2 e1). set (e := Z.min e1 e2).
  set (a := cond_Zopp s1 (Z.pos (fst (shl_align m1 e1 e)))). set (b := cond_Zopp s2 (Z.pos (fst (shl_align m2 e2 e)))).
  replace (b - a)%Z with (- (a - b))%Z by lia. destruct (a - b)%Z as [|m|m]; cbn [Z.opp binary_normalize]; [reflexivity| |];
  unfold binary_round; destruct (shl_align m e _) as [x y]; [symmetry|]; apply abs_round_aux.
Qed.
Lemma dist_comm : forall f g, getDistDeg f g = getDistDeg g f.
Proof. intros f g. unfold getDistDeg, fabsf, subf. rewrite (abs_sub_comm f g). reflexivity. Qed.
Lemma dist_error : forall f g p q D, float_is f p -> float_is g q -> Qabs (p - q) <= 512 -> angle_between p q D ->
  exists w, float_is (getDistDeg f g) w /\ Qabs (w - D) <= 3 * times_pow 2 1 (-17).
Proof.
  intros f g p q D Hf Hg B HD. pose proof (abs_bounds _ _ B) as B'. 
  destruct (dist_is f g p q Hf Hg ltac:(apply near_range; lra)) as (d & D' & w & N & A & W & _ & _ & E & _). exists w. split; [exact W|].
  assert (E1 : Qabs (d - (p - q)) <= times_pow 2 1 (-16)).
  { apply (nearest_error _ d (-15)); [lia| |exact N]. assert (H8 : times_pow 2 (2 ^ 24) (-15) == 512) by reflexivity. rewrite H8. exact B. }
  pose proof (angle_lipschitz d 0 p q D' D A HD) as E2. assert (T : times_pow 2 1 (-16) == 2 * times_pow 2 1 (-17)) by reflexivity.
  rewrite T in E1. setoid_replace (d - 0 - (p - q)) with (d - (p - q)) in E2 by ring. set (h := times_pow 2 1 (-17)) in *. clearbody h.
  assert (E3 : Qabs (D' - D) <= 2 * h) by (eapply Qle_trans; eassumption). apply abs_bounds in E, E3. apply abs_le; lra.
Qed.
