(** Power curves in single precision: distance from the exact values, and mirrored curves. *)
From Coq Require Import ZArith Arith Bool Lia List QArith Qabs Qround Qpower Lqa.
From Coq Require Import Floats.SpecFloat.
From Verif Require Import Common RealSpec RealProofs FltSpec Flt32Proofs Flt32ReadProofs AngleSpec FloatOpsProofs AngleModel AngleProofs AngleMoreProofs EaseModel EaseSpec EaseFModel EaseFSpec EaseFProofs.
Import ListNotations.
Local Open Scope Q_scope.

Definition W : Q := times_pow 2 1 (-24).
Lemma W_is : W == 1 # 16777216. Proof. reflexivity. Qed.
Lemma W_pos : 0 < W. Proof. reflexivity. Qed.

(** A rounding step is off by at most 2^-24 of a bound of the exact result. *)
Lemma round_err : forall x q S, Qabs x <= S -> times_pow 2 1 (-100) <= S -> S <= 16 * B100 -> nearest_float x q -> Qabs (q - x) <= W * S.
Proof.
  intros x q S H L U N. destruct (Qlt_le_dec (Qabs x) (times_pow 2 1 (-126))) as [C|C].
  - pose proof (nearest_min x q 0 N zero_float) as M. setoid_replace (0 - x) with (- x) in M by ring. rewrite Qabs_opp in M.
    assert (X : times_pow 2 1 (-126) <= W * times_pow 2 1 (-100)) by (unfold Qle; vm_compute; discriminate).
    assert (Y : W * times_pow 2 1 (-100) <= W * S) by (rewrite (Qmult_comm W), (Qmult_comm W); apply Qmult_le_compat_r; [exact L|apply Qlt_le_weak, W_pos]).
    eapply Qle_trans; [exact M|]. eapply Qle_trans; [apply Qlt_le_weak, C|]. eapply Qle_trans; eassumption.
  - assert (R : in_range x) by (apply b100_range; apply abs_bounds in H; lra). pose proof (relative_error x q C R N) as E.
    change (inject_Z (2 ^ 24)) with 16777216 in E. rewrite W_is. lra.
Qed.

(** [f] is within [e] of [v], and not above [M] in size. *)
Definition near (f : fl) (v e : Q) : Prop := exists q, float_is f q /\ Qabs (q - v) <= e.
Definition within (f : fl) (M : Q) : Prop := exists q, float_is f q /\ Qabs q <= M.
Lemma near_self : forall f q, float_is f q -> near f q 0.
Proof. intros f q H. exists q. split; [exact H|]. setoid_replace (q - q) with 0 by ring. apply Qle_refl. Qed.
Lemma near_weak : forall f v e v' e', near f v e -> v == v' -> e <= e' -> near f v' e'.
Proof. intros f v e v' e' (q & H & N) E L. exists q. split; [exact H|]. rewrite <- E. lra. Qed.
Lemma up_within : forall lo hi f f' M, up lo hi f f' -> - M <= lo -> hi <= M -> within f M /\ within f' M.
Proof.
  intros lo hi f f' M (p & p' & P1 & P1' & L & O & U) A B. split; [exists p|exists p']; (split; [assumption|]); apply abs_le; lra.
Qed.
Lemma mul_gap : forall q p r s P R e1 e2, Qabs (q - p) <= e1 -> Qabs (r - s) <= e2 -> Qabs q <= P -> Qabs s <= R -> Qabs (q * r - p * s) <= P * e2 + R * e1.
Proof.
  intros q p r s P R e1 e2 H1 H2 HP HR. setoid_replace (q * r - p * s) with (q * (r - s) + s * (q - p)) by ring.
  eapply Qle_trans; [apply Qabs_triangle|]. rewrite !Qabs_Qmult.
  pose proof (Qabs_nonneg (q - p)). pose proof (Qabs_nonneg (r - s)). pose proof (Qabs_nonneg q). pose proof (Qabs_nonneg s). nra.
Qed.
Lemma near_mul : forall f g p s P R e1 e2, near f p e1 -> near g s e2 -> within f P -> within g R -> Qabs s <= R ->
  times_pow 2 1 (-100) <= P * R -> P * R <= 16 * B100 -> near (mulf f g) (p * s) (P * e2 + R * e1 + W * (P * R)).
Proof.
  intros f g p s P R e1 e2 (q & Hq & Eq) (r & Hr & Er) (q' & Hq' & Bq) (r' & Hr' & Br) HR L U.
  pose proof (value_one _ _ _ Hq' Hq) as V. pose proof (value_one _ _ _ Hr' Hr) as V'. rewrite V in Bq. rewrite V' in Br.
  assert (B : Qabs (q * r) <= P * R) by (rewrite Qabs_Qmult; pose proof (Qabs_nonneg q); pose proof (Qabs_nonneg r); nra).
  destruct (in_range_is (q * r) _ ltac:(apply b100_range; apply abs_bounds in B; lra) (mul_rounds _ _ q r Hq Hr)) as (z & Z1 & Z2).
  exists z. split; [exact Z1|]. pose proof (round_err _ _ _ B L U Z2) as E. pose proof (mul_gap q p r s P R e1 e2 Eq Er Bq HR) as G.
  setoid_replace (z - p * s) with ((z - q * r) + (q * r - p * s)) by ring. eapply Qle_trans; [apply Qabs_triangle|]. lra.
Qed.
Lemma near_add : forall f g p s P R e1 e2, near f p e1 -> near g s e2 -> within f P -> within g R ->
  times_pow 2 1 (-100) <= P + R -> P + R <= 16 * B100 -> near (addf f g) (p + s) (e1 + e2 + W * (P + R)).
Proof.
  intros f g p s P R e1 e2 (q & Hq & Eq) (r & Hr & Er) (q' & Hq' & Bq) (r' & Hr' & Br) L U.
  pose proof (value_one _ _ _ Hq' Hq) as V. pose proof (value_one _ _ _ Hr' Hr) as V'. rewrite V in Bq. rewrite V' in Br.
  assert (B : Qabs (q + r) <= P + R) by (eapply Qle_trans; [apply Qabs_triangle|lra]).
  destruct (in_range_is (q + r) _ ltac:(apply b100_range; apply abs_bounds in B; lra) (add_rounds _ _ q r Hq Hr)) as (z & Z1 & Z2).
  exists z. split; [exact Z1|]. pose proof (round_err _ _ _ B L U Z2) as E.
  setoid_replace (z - (p + s)) with ((z - (q + r)) + ((q - p) + (r - s))) by ring. eapply Qle_trans; [apply Qabs_triangle|].
  pose proof (Qabs_triangle (q - p) (r - s)). lra.
Qed.
Lemma near_sub : forall f g p s P R e1 e2, near f p e1 -> near g s e2 -> within f P -> within g R ->
  times_pow 2 1 (-100) <= P + R -> P + R <= 16 * B100 -> near (subf f g) (p - s) (e1 + e2 + W * (P + R)).
Proof.
  intros f g p s P R e1 e2 (q & Hq & Eq) (r & Hr & Er) (q' & Hq' & Bq) (r' & Hr' & Br) L U.
  pose proof (value_one _ _ _ Hq' Hq) as V. pose proof (value_one _ _ _ Hr' Hr) as V'. rewrite V in Bq. rewrite V' in Br.
  assert (B : Qabs (q - r) <= P + R) by (setoid_replace (q - r) with (q + - r) by ring; eapply Qle_trans; [apply Qabs_triangle|]; rewrite Qabs_opp; lra).
  destruct (in_range_is (q - r) _ ltac:(apply b100_range; apply abs_bounds in B; lra) (sub_rounds _ _ q r Hq Hr)) as (z & Z1 & Z2).
  exists z. split; [exact Z1|]. pose proof (round_err _ _ _ B L U Z2) as E.
  setoid_replace (z - (p - s)) with ((z - (q - r)) + ((q - p) + - (r - s))) by ring. eapply Qle_trans; [apply Qabs_triangle|].
  pose proof (Qabs_triangle (q - p) (- (r - s))) as T. rewrite Qabs_opp in T. lra.
Qed.
Lemma near_div : forall f g p d P, float_is f p -> float_is g d -> 0 < d -> 0 <= p -> p <= d * P -> times_pow 2 1 (-100) <= P -> P <= 16 * B100 -> near (divf f g) (p / d) (W * P).
Proof.
  intros f g p d P Hf Hg D L U B1 B2. assert (X0 : 0 <= p / d) by (apply Qle_shift_div_l; lra). assert (X1 : p / d <= P) by (apply Qle_shift_div_r; [exact D|lra]).
  pose proof small_pos. destruct (in_range_is (p / d) _ ltac:(apply b100_range; lra) (div_rounds _ _ p d Hf Hg ltac:(lra))) as (z & Z1 & Z2).
  exists z. split; [exact Z1|]. apply round_err; auto. rewrite Qabs_pos; assumption.
Qed.

(** *** Powers *)
Lemma unit_mul : forall f g p s e1 e2, near f p e1 -> near g s e2 -> within f 1 -> within g 1 -> Qabs s <= 1 -> near (mulf f g) (p * s) (e1 + e2 + W).
Proof.
  intros f g p s e1 e2 Hf Hg Bf Bg Bs. pose proof one_b100. pose proof (near_mul f g p s 1 1 e1 e2 Hf Hg Bf Bg Bs ltac:(unfold Qle; vm_compute; discriminate) ltac:(lra)) as N.
  apply (near_weak _ _ _ _ _ N); [reflexivity|]. lra.
Qed.
Lemma within_mul : forall f g, within f 1 -> within g 1 -> within (mulf f g) 1.
Proof.
  intros f g (q & Hq & Bq) (r & Hr & Br). pose proof one_b100. apply abs_bounds in Bq. apply abs_bounds in Br.
  destruct (round_up (- (1)) 1 (q * r) (q * r) (mulf f g) (mulf f g)) as ((p & p' & P1 & _ & A & B & C) & _); auto using m1_float, one_float; try (apply mul_rounds; assumption); try lra; try nra.
  exists p. split; [exact P1|]. apply abs_le; lra.
Qed.
Fixpoint pw (n : nat) (y : fl) : fl := match n with 0%nat => y | S n => mulf (pw n y) y end.
Lemma pw_within : forall n y, within y 1 -> within (pw n y) 1.
Proof. induction n as [|n IH]; intros y H; cbn [pw]; [exact H|]. apply within_mul; auto. Qed.
Fixpoint qpw (n : nat) (v : Q) : Q := match n with 0%nat => v | S n => qpw n v * v end.
Lemma qpw_power : forall n v, qpw n v == v ^ Z.of_nat (S n).
Proof.
  induction n as [|n IH]; intros v; [reflexivity|]. cbn [qpw]. rewrite IH. rewrite (Nat2Z.inj_succ (S n)).
  destruct (Qeq_dec v 0) as [E|E]. { rewrite E. rewrite !Qpower_0 by lia. ring. }
  unfold Z.succ. rewrite Qpower_plus by exact E. ring.
Qed.
Lemma pw_near : forall n y v e, near y v e -> within y 1 -> Qabs v <= 1 -> near (pw n y) (qpw n v) (inject_Z (Z.of_nat (S n)) * e + inject_Z (Z.of_nat n) * W).
Proof.
  induction n as [|n IH]; intros y v e H B V; cbn [pw qpw].
  - apply (near_weak _ _ _ _ _ H); [reflexivity|]. change (inject_Z (Z.of_nat 1)) with 1. change (inject_Z (Z.of_nat 0)) with 0. lra.
  - pose proof (unit_mul _ _ _ _ _ _ (IH y v e H B V) H (pw_within n y B) B V) as N. apply (near_weak _ _ _ _ _ N); [reflexivity|].
    rewrite !Nat2Z.inj_succ. unfold Z.succ. rewrite !inject_Z_plus. change (inject_Z 1) with 1. lra.
Qed.
Lemma times_within : forall n c f fc, float_is fc c -> 0 <= c -> c <= 16 * B100 -> up 0 1 f f -> within (times n fc f) c.
Proof. intros n c f fc Hc L U H. destruct (up_within 0 c _ _ c (times_up n c f f fc Hc L U H) ltac:(lra) ltac:(lra)) as [A _]. exact A. Qed.
Lemma times_near : forall n c f fc v e, float_is fc c -> times_pow 2 1 (-100) <= c -> c <= 16 * B100 -> up 0 1 f f -> near f v e -> Qabs v <= 1 ->
  near (times (S n) fc f) (c * qpw n v) (inject_Z (Z.of_nat (S n)) * (c * e + c * W)).
Proof.
  intros n c f fc v e Hc L U Hu N V. pose proof small_pos. destruct (up_within 0 1 f f 1 Hu ltac:(lra) ltac:(lra)) as [Bf _].
  induction n as [|n IH].
  - cbn [times qpw]. pose proof (near_mul fc f c v c 1 0 e (near_self _ _ Hc) N ltac:(exists c; split; [exact Hc|apply abs_le; lra]) Bf V ltac:(lra) ltac:(lra)) as M.
    apply (near_weak _ _ _ _ _ M); [reflexivity|]. change (inject_Z (Z.of_nat 1)) with 1. lra.
  - change (times (S (S n)) fc f) with (mulf (times (S n) fc f) f). cbn [qpw].
    pose proof (near_mul _ f (c * qpw n v) v c 1 _ e IH N (times_within (S n) c f fc Hc ltac:(lra) U Hu) Bf V ltac:(lra) ltac:(lra)) as M.
    apply (near_weak _ _ _ _ _ M); [ring|]. rewrite (Nat2Z.inj_succ (S n)). unfold Z.succ. rewrite inject_Z_plus. change (inject_Z 1) with 1. lra.
Qed.

(** *** From the part without the start to the curve *)
Lemma follows_from : forall (k : fcurve) (g : fl -> fl -> fl -> fl) (R : Q -> Q -> Q -> Q -> Prop) (ex : Q -> Q -> Q -> Q -> Q -> Prop),
  (forall t b c d, R t b c d -> usual t b c d) ->
  (forall t b c d, k t b c d = nzf d (addf (g t c d) b)) ->
  (forall f fc fd t b c d v, float_is f t -> float_is fc c -> float_is fd d -> R t b c d -> ex t b c d v ->
     near (g f fc fd) (v - b) (28 * W * c) /\ Qabs (v - b) <= c) -> follows R k ex.
Proof.
  intros k g R ex RU Ek H f fb fc fd t b c d v Hf Hb Hc Hd Rg Ex. destruct (RU _ _ _ _ Rg) as (L & U & Dd & Dc & Bc & Bb).
  fold B100 in *. pose proof small_pos. pose proof b100_pos. destruct (H f fc fd t b c d v Hf Hc Hd Rg Ex) as [N V].
  assert (Wi : within (g f fc fd) (2 * c)).
  { destruct N as (z & Z1 & Z2). exists z. split; [exact Z1|]. setoid_replace z with ((z - (v - b)) + (v - b)) by ring.
    eapply Qle_trans; [apply Qabs_triangle|]. rewrite W_is in Z2. lra. }
  pose proof (Qabs_nonneg b).
  pose proof (near_add _ fb (v - b) b (2 * c) (Qabs b) _ 0 N (near_self _ _ Hb) Wi ltac:(exists b; split; [exact Hb|lra]) ltac:(lra) ltac:(lra)) as (q & Q1 & Q2).
  exists (addf (g f fc fd) fb), q. rewrite Ek, (nz_ok fd d) by (assumption || lra). split; [reflexivity|]. split; [exact Q1|].
  setoid_replace (v - b + b) with v in Q2 by ring. eapply Qle_trans; [exact Q2|].
  assert (E19 : times_pow 2 1 (-19) == 1 # 524288) by reflexivity. rewrite E19. fold W. rewrite W_is. lra.
Qed.

Lemma usual_id : forall t b c d, usual t b c d -> usual t b c d. Proof. auto. Qed.
Lemma unit_x : forall t d, 0 < d -> 0 <= t -> t <= d -> 0 <= t / d /\ t / d <= 1.
Proof. intros t d D L U. split; [apply Qle_shift_div_l; lra|apply Qle_shift_div_r; lra]. Qed.
Lemma part_near : forall f fd t d, float_is f t -> float_is fd d -> 0 < d -> 0 <= t -> t <= d -> near (divf f fd) (t / d) W /\ up 0 1 (divf f fd) (divf f fd).
Proof.
  intros f fd t d Hf Hd D L U. pose proof one_b100. split.
  - apply (near_weak _ _ _ _ _ (near_div f fd t d 1 Hf Hd D L ltac:(lra) ltac:(unfold Qle; vm_compute; discriminate) ltac:(lra))); [reflexivity|lra].
  - apply (up_div f f fd t t d 1 Hf Hf Hd D L ltac:(lra) ltac:(change (inject_Z 1) with 1; lra) ltac:(lia)).
Qed.
Lemma qpw_unit : forall v, Qabs v <= 1 -> forall m, Qabs (qpw m v) <= 1.
Proof.
  intros v V. induction m as [|m IH]; cbn [qpw]; [exact V|]. rewrite Qabs_Qmult. pose proof (Qabs_nonneg (qpw m v)). pose proof (Qabs_nonneg v). nra.
Qed.
Lemma in_follows : forall n (k : fcurve), (n <= 4)%nat -> (forall t b c d, k t b c d = nzf d (addf (times (S n) c (divf t d)) b)) -> follows usual k (exact_in (Z.of_nat (S n))).
Proof.
  intros n k Bn Ek. apply (follows_from k (fun t c d => times (S n) c (divf t d)) usual); [exact usual_id|exact Ek|].
  intros f fc fd t b c d v Hf Hc Hd (L & U & Dd & Dc & Bc & Bb) Ex. fold B100 in *. pose proof small_pos. pose proof b100_pos.
  destruct (part_near f fd t d Hf Hd ltac:(lra) L U) as [N Up]. destruct (unit_x t d ltac:(lra) L U) as [X0 X1]. split.
  - pose proof (times_near n c (divf f fd) fc (t / d) W Hc Dc ltac:(lra) Up N ltac:(apply abs_le; lra)) as M.
    apply (near_weak _ _ _ _ _ M); [unfold exact_in, eased_in, power in Ex; rewrite Ex, qpw_power; ring|].
    pose proof W_pos. assert (I : inject_Z (Z.of_nat (S n)) <= 5) by (change 5 with (inject_Z 5); rewrite <- Zle_Qle; lia).
    assert (0 <= c * W) by nra. nra.
  - unfold exact_in, eased_in, power in Ex. setoid_replace (v - b) with (c * qpw n (t / d)) by (rewrite Ex, qpw_power; ring).
    rewrite Qabs_Qmult. pose proof (qpw_unit (t / d) ltac:(apply abs_le; lra) n) as Y. pose proof (Qabs_nonneg (qpw n (t / d))). rewrite (Qabs_pos c) by lra. nra.
Qed.

(** *** Out *)
Lemma left_near : forall f fd t d, float_is f t -> float_is fd d -> 0 < d -> 0 <= t -> t <= d ->
  near (subf (divf f fd) one) (t / d - 1) (3 * W) /\ within (subf (divf f fd) one) 1 /\ Qabs (t / d - 1) <= 1.
Proof.
  intros f fd t d Hf Hd D L U. pose proof one_b100. destruct (part_near f fd t d Hf Hd D L U) as [N Up]. destruct (unit_x t d D L U) as [X0 X1].
  destruct (up_within 0 1 _ _ 1 Up ltac:(lra) ltac:(lra)) as [B _]. split; [|split].
  - apply (near_weak _ _ _ _ _ (near_sub _ _ _ _ 1 1 _ _ N (near_self _ _ one_is) B ltac:(exists 1; split; [exact one_is|unfold Qle; vm_compute; discriminate]) ltac:(unfold Qle; vm_compute; discriminate) ltac:(lra))); [reflexivity|lra].
  - destruct (left_up f f fd t t d Hf Hf Hd D L ltac:(lra) U) as (A & _). apply (up_within (- (1)) 0 _ _ 1 A); lra.
  - apply abs_le; lra.
Qed.
Lemma one_within : within one 1. Proof. exists 1. split; [exact one_is|unfold Qle; vm_compute; discriminate]. Qed.
Lemma two_within : within two 2. Proof. exists 2. split; [exact two_is|unfold Qle; vm_compute; discriminate]. Qed.
Lemma q_within : forall f q, float_is f q -> within f (Qabs q). Proof. intros f q H. exists q. split; [exact H|apply Qle_refl]. Qed.
Lemma scaled : forall fa a C f v e M, float_is fa a -> Qabs a <= C -> near f v e -> within f M -> Qabs v <= M -> times_pow 2 1 (-100) <= C * M -> C * M <= 16 * B100 ->
  near (mulf fa f) (a * v) (C * e + W * (C * M)).
Proof.
  intros fa a C f v e M Ha BC N Wi V L U.
  pose proof (near_mul fa f a v C M 0 e (near_self _ _ Ha) N ltac:(exists a; split; assumption) Wi V L U) as R.
  apply (near_weak _ _ _ _ _ R); [reflexivity|lra].
Qed.
Lemma sum_within : forall f g P R S, within f P -> within g R -> P + R <= S -> is_float S -> S <= 16 * B100 -> within (addf f g) S /\ within (subf f g) S.
Proof.
  intros f g P R S (q & Hq & Bq) (r & Hr & Br) L F U. apply abs_bounds in Bq. apply abs_bounds in Br. split.
  - destruct (round_up (- S) S (q + r) (q + r) (addf f g) (addf f g)) as ((p & p' & P1 & _ & A1 & A2 & A3) & _); auto using is_float_opp; try lra; try (apply add_rounds; assumption).
    exists p. split; [exact P1|apply abs_le; lra].
  - destruct (round_up (- S) S (q - r) (q - r) (subf f g) (subf f g)) as ((p & p' & P1 & _ & A1 & A2 & A3) & _); auto using is_float_opp; try lra; try (apply sub_rounds; assumption).
    exists p. split; [exact P1|apply abs_le; lra].
Qed.
Lemma three_float : is_float 3. Proof. exact (int_float 3 ltac:(lia)). Qed.
Ltac num := unfold Qle; vm_compute; discriminate.
(** The power plus or minus a constant, with [y] off by at most [e]. *)
Lemma tail_near : forall n y v e z K, near y v e -> within y 1 -> Qabs v <= 1 -> (n <= 4)%nat -> 0 <= e -> float_is z K -> 1 <= K -> K <= 2 ->
  near (addf (pw n y) z) (qpw n v + K) (5 * e + 7 * W) /\ near (subf (pw n y) z) (qpw n v - K) (5 * e + 7 * W) /\ within (addf (pw n y) z) 3 /\ within (subf (pw n y) z) 3 /\
  Qabs (qpw n v + K) <= 3 /\ Qabs (qpw n v - K) <= 3.
Proof.
  intros n y v e z K N B V Bn E Hz K1 K2. pose proof one_b100. pose proof W_pos. pose proof (pw_near n y v e N B V) as P. pose proof (pw_within n y B) as PB.
  assert (Wz : within z K) by (exists K; split; [exact Hz|apply abs_le; lra]). assert (S0 : times_pow 2 1 (-100) <= 1) by num.
  pose proof (near_add _ _ _ _ 1 K _ _ P (near_self _ _ Hz) PB Wz ltac:(lra) ltac:(lra)) as A.
  pose proof (near_sub _ _ _ _ 1 K _ _ P (near_self _ _ Hz) PB Wz ltac:(lra) ltac:(lra)) as A'.
  destruct (sum_within _ _ 1 K 3 PB Wz ltac:(lra) three_float ltac:(lra)) as [S1 S2]. pose proof (qpw_unit v V n) as Qb. apply abs_bounds in Qb.
  assert (I : inject_Z (Z.of_nat (S n)) <= 5) by (change 5 with (inject_Z 5); rewrite <- Zle_Qle; lia).
  assert (J : inject_Z (Z.of_nat n) <= 4) by (change 4 with (inject_Z 4); rewrite <- Zle_Qle; lia).
  set (i := inject_Z (Z.of_nat (S n))) in *. set (j := inject_Z (Z.of_nat n)) in *. clearbody i j.
  assert (Le : i * e + j * W + 0 + W * (1 + K) <= 5 * e + 7 * W) by nra.
  split; [apply (near_weak _ _ _ _ _ A); [reflexivity|exact Le]|]. split; [apply (near_weak _ _ _ _ _ A'); [reflexivity|exact Le]|].
  split; [exact S1|]. split; [exact S2|]. split; apply abs_le; lra.
Qed.

Lemma odd_out_follows : forall n (k : fcurve), (n = 2 \/ n = 4)%nat -> (forall t b c d, k t b c d = nzf d (addf (mulf c (addf (pw n (subf (divf t d) one)) one)) b)) -> follows usual k (exact_out (Z.of_nat (S n))).
Proof.
  intros n k Bn Ek. apply (follows_from k (fun t c d => mulf c (addf (pw n (subf (divf t d) one)) one)) usual); [exact usual_id|exact Ek|].
  intros f fc fd t b c d v Hf Hc Hd (L & U & Dd & Dc & Bc & Bb) Ex. fold B100 in *. pose proof small_pos. pose proof b100_pos. pose proof W_pos.
  destruct (left_near f fd t d Hf Hd ltac:(lra) L U) as (N & Wi & V). destruct (unit_x t d ltac:(lra) L U) as [X0 X1].
  destruct (tail_near n _ _ _ one 1 N Wi V ltac:(lia) ltac:(lra) one_is ltac:(lra) ltac:(lra)) as (A & _ & B & _ & C & _).
  pose proof (scaled fc c c _ _ _ 3 Hc ltac:(apply abs_le; lra) A B C ltac:(lra) ltac:(lra)) as M.
  assert (Ev : v - b == c * (qpw n (t / d - 1) + 1)).
  { unfold exact_out, eased_out, power in Ex. rewrite <- qpw_power in Ex. rewrite Ex. destruct Bn as [-> | ->]; cbn [qpw]; ring. }
  assert (Ev' : v - b == c * (1 - qpw n (1 - t / d))).
  { unfold exact_out, eased_out, power in Ex. rewrite <- qpw_power in Ex. rewrite Ex. ring. }
  split; [apply (near_weak _ _ _ _ _ M); [symmetry; exact Ev|]; nra|].
  assert (Y : 0 <= qpw n (1 - t / d) /\ qpw n (1 - t / d) <= 1).
  { assert (Z0 : forall m, 0 <= qpw m (1 - t / d)) by (induction m as [|m IH]; cbn [qpw]; [lra|nra]). split; [apply Z0|].
    pose proof (qpw_unit (1 - t / d) ltac:(apply abs_le; lra) n) as Y. apply abs_bounds in Y. lra. }
  rewrite Ev'. apply abs_le; nra.
Qed.
Lemma quart_out_follows : follows usual fquart_out (exact_out 4).
Proof.
  apply (follows_from fquart_out (fun t c d => mulf (negf c) (subf (pw 3 (subf (divf t d) one)) one)) usual); [exact usual_id|reflexivity|].
  intros f fc fd t b c d v Hf Hc Hd (L & U & Dd & Dc & Bc & Bb) Ex. fold B100 in *. pose proof small_pos. pose proof b100_pos. pose proof W_pos.
  destruct (left_near f fd t d Hf Hd ltac:(lra) L U) as (N & Wi & V). destruct (unit_x t d ltac:(lra) L U) as [X0 X1].
  destruct (tail_near 3 _ _ _ one 1 N Wi V ltac:(lia) ltac:(lra) one_is ltac:(lra) ltac:(lra)) as (_ & A & _ & B & _ & C).
  pose proof (scaled (negf fc) (- c) c _ _ _ 3 (opp_is _ _ Hc) ltac:(apply abs_le; lra) A B C ltac:(lra) ltac:(lra)) as M.
  unfold exact_out, eased_out, power in Ex. rewrite <- (qpw_power 3) in Ex.
  assert (Ev : v - b == - c * (qpw 3 (t / d - 1) - 1)) by (rewrite Ex; cbn [qpw]; ring).
  assert (Ev' : v - b == c * (1 - qpw 3 (1 - t / d))) by (rewrite Ex; ring).
  split; [apply (near_weak _ _ _ _ _ M); [symmetry; exact Ev|]; nra|].
  assert (Y : 0 <= qpw 3 (1 - t / d) /\ qpw 3 (1 - t / d) <= 1).
  { assert (Z0 : forall m, 0 <= qpw m (1 - t / d)) by (induction m as [|m IH]; cbn [qpw]; [lra|nra]). split; [apply Z0|].
    pose proof (qpw_unit (1 - t / d) ltac:(apply abs_le; lra) 3%nat) as Y. apply abs_bounds in Y. lra. }
  rewrite Ev'. apply abs_le; nra.
Qed.
Lemma quad_out_follows : follows usual fquad_out (exact_out 2).
Proof.
  apply (follows_from fquad_out (fun t c d => mulf (mulf (negf c) (divf t d)) (subf (divf t d) two)) usual); [exact usual_id|reflexivity|].
  intros f fc fd t b c d v Hf Hc Hd (L & U & Dd & Dc & Bc & Bb) Ex. fold B100 in *. pose proof small_pos. pose proof one_b100. pose proof W_pos.
  destruct (part_near f fd t d Hf Hd ltac:(lra) L U) as [N Up]. destruct (unit_x t d ltac:(lra) L U) as [X0 X1].
  destruct (up_within 0 1 _ _ 1 Up ltac:(lra) ltac:(lra)) as [B _].
  pose proof (scaled (negf fc) (- c) c _ _ _ 1 (opp_is _ _ Hc) ltac:(apply abs_le; lra) N B ltac:(apply abs_le; lra) ltac:(lra) ltac:(lra)) as M.
  pose proof (near_sub _ _ _ _ 1 2 _ _ N (near_self _ _ two_is) B two_within ltac:(num) ltac:(lra)) as S1.
  destruct (sum_within _ _ 1 2 3 B two_within ltac:(lra) three_float ltac:(lra)) as [_ S2].
  assert (MB : within (mulf (negf fc) (divf f fd)) c).
  { destruct B as (z & Z1 & Z2). apply abs_bounds in Z2. destruct (round_up (- c) c (- c * z) (- c * z) (mulf (negf fc) (divf f fd)) (mulf (negf fc) (divf f fd))) as ((p & p' & P1 & _ & A1 & A2 & A3) & _);
      auto using is_float_opp; try lra; try (apply mul_rounds; [apply opp_is|]; assumption); try (apply is_float_opp); try apply (valid_float _ _ Hc); try nra.
    exists p. split; [exact P1|apply abs_le; lra]. }
  pose proof (near_mul _ _ _ _ c 3 _ _ M S1 MB S2 ltac:(apply abs_le; lra) ltac:(lra) ltac:(lra)) as R.
  unfold exact_out, eased_out, power in Ex. rewrite <- (qpw_power 1) in Ex.
  split; [apply (near_weak _ _ _ _ _ R); [rewrite Ex; cbn [qpw]; ring|]; nra|].
  assert (Ev' : v - b == c * (t / d * (2 - t / d))) by (rewrite Ex; cbn [qpw]; ring).
  rewrite Ev'. set (x := t / d) in *. clearbody x. assert (0 <= x * (2 - x)) by nra. assert (x * (2 - x) <= 1) by nra. set (y := x * (2 - x)) in *. clearbody y. apply abs_le; nra.
Qed.

(** *** In and out *)
Lemma follows_halves : forall (k : fcurve) n (g h : fl -> fl -> fl), (n <= 4)%nat ->
  (forall t b c d, k t b c d = nzf d (let t := divf t (divf d two) in if ltf t one then addf (g t c) b else addf (h t c) b)) ->
  (forall f fc c v, float_is fc c -> times_pow 2 1 (-100) <= c -> c <= B100 -> up 0 1 f f -> near f v (2 * W) -> 0 <= v -> v <= 1 -> near (g f fc) (c * (qpw n v / 2)) (28 * W * c)) ->
  (forall f fc c v, float_is fc c -> times_pow 2 1 (-100) <= c -> c <= B100 -> up 1 2 f f -> near f v (2 * W) -> 1 <= v -> v <= 2 -> near (h f fc) (c * (1 - qpw n (2 - v) / 2)) (28 * W * c)) ->
  (forall f fc c, float_is fc c -> times_pow 2 1 (-100) <= c -> c <= B100 -> float_is f 1 -> near (h f fc) (c / 2) (20 * W * c)) ->
  follows usual k (exact_inOut (Z.of_nat (S n))).
Proof.
  intros k n g h Bn Ek G H H1.
  apply (follows_from k (fun t c d => let t := divf t (divf d two) in if ltf t one then g t c else h t c) usual); [exact usual_id| |].
  { intros t b c d. rewrite Ek. cbv zeta. destruct (ltf (divf t (divf d two)) one); reflexivity. }
  intros f fc fd t b c d v Hf Hc Hd (L & U & Dd & Dc & Bc & Bb) Ex. fold B100 in *. cbv zeta. pose proof small_pos. pose proof one_b100. pose proof W_pos. pose proof (half_is' _ _ Hd Dd) as Hh.
  destruct (unit_x t d ltac:(lra) L U) as [X0 X1]. assert (Eh : d / 2 == d * (1 # 2)) by field. assert (Ex2 : t / (d / 2) == 2 * (t / d)) by (field; lra).
  assert (Dh : 0 < d / 2) by lra.
  destruct (up_div f f (divf fd two) t t (d / 2) 2 Hf Hf Hh Dh L ltac:(lra)) as (Up & _ & _); [change (inject_Z 2) with 2; lra|lia|].
  change (inject_Z 2) with 2 in Up.
  pose proof (near_div f (divf fd two) t (d / 2) 2 Hf Hh Dh L ltac:(lra) ltac:(num) ltac:(lra)) as N.
  assert (Nx : exists p, float_is (divf f (divf fd two)) p /\ nearest_float (2 * (t / d)) p).
  { destruct (in_range_is (t / (d / 2)) _ ltac:(apply (in_range_wd (2 * (t / d))); [symmetry; exact Ex2|]; apply b100_range; lra) (div_rounds _ _ t (d / 2) Hf Hh ltac:(lra))) as (p & P1 & P2).
    exists p. split; [exact P1|]. apply (nearest_wd (t / (d / 2))); assumption. }
  assert (N2 : near (divf f (divf fd two)) (2 * (t / d)) (2 * W)) by (apply (near_weak _ _ _ _ _ N); [exact Ex2|lra]). clear N.
  set (x := divf f (divf fd two)) in *. clearbody x. set (u := t / d) in *.
  assert (Pn : forall w, 0 <= w -> w <= 1 -> 0 <= qpw n w /\ qpw n w <= 1).
  { intros w W0 W1. assert (Z0 : forall m, 0 <= qpw m w) by (induction m as [|m IH]; cbn [qpw]; [lra|nra]). split; [apply Z0|].
    pose proof (qpw_unit w ltac:(apply abs_le; lra) n) as Y. apply abs_bounds in Y. lra. }
  destruct Ex as [Ex1 Ex2']. unfold power in *. fold u in Ex1, Ex2'.
  destruct Nx as (p & P1 & P2). destruct Up as (p0 & p0' & Q1 & Q1' & A1 & A2 & A3). pose proof (value_one _ _ _ Q1 P1). pose proof (value_one _ _ _ Q1' P1).
  destruct (Qlt_le_dec u (1 # 2)) as [C|C].
  - specialize (Ex1 C). rewrite <- qpw_power in Ex1. assert (Ev : v - b == c * (qpw n (2 * u) / 2)) by (rewrite Ex1; ring).
    destruct (Pn (2 * u) ltac:(lra) ltac:(lra)) as [Y0 Y1]. split; [|rewrite Ev; assert (E2 : qpw n (2 * u) / 2 == qpw n (2 * u) * (1 # 2)) by field; rewrite E2; set (y := qpw n (2 * u)) in *; clearbody y; apply abs_le; nra].
    destruct (ltf x one) eqn:Lt.
    + apply (ltb_value _ _ p 1 P1 one_is) in Lt. apply (near_weak _ _ _ _ _ (G x fc c (2 * u) Hc Dc Bc ltac:(exists p, p; repeat split; try apply P1; lra) N2 ltac:(lra) ltac:(lra))); [symmetry; exact Ev|lra].
    + assert (P3 : 1 <= p) by (apply Qnot_lt_le; intros X; apply (ltb_value _ _ p 1 P1 one_is) in X; change (ltf x one = true) in X; congruence).
      assert (P4 : p <= 1) by (apply (nearest_below (2 * u)); [exact P2|apply one_float|lra]).
      assert (Pe : p == 1) by lra. assert (F1x : float_is x 1) by (apply (float_is_wd _ p); assumption).
      destruct (H1 x fc c Hc Dc Bc F1x) as (z & Z1 & Z2). exists z. split; [exact Z1|]. rewrite Ev.
      destruct N2 as (p1 & R1 & R2). pose proof (value_one _ _ _ R1 F1x) as V1. rewrite V1 in R2. apply abs_bounds in R2.
      assert (Bern : forall m, (m <= 4)%nat -> 1 - inject_Z (Z.of_nat (S m)) * (2 * W) <= qpw m (2 * u)).
      { induction m as [|m IH]; intros Bm; cbn [qpw]; [change (inject_Z (Z.of_nat 1)) with 1; lra|]. specialize (IH ltac:(lia)). rewrite (Nat2Z.inj_succ (S m)). unfold Z.succ. rewrite inject_Z_plus. change (inject_Z 1) with 1.
        assert (I5 : inject_Z (Z.of_nat (S m)) <= 5) by (change 5 with (inject_Z 5); rewrite <- Zle_Qle; lia).
        assert (I0 : 0 <= inject_Z (Z.of_nat (S m))) by (change 0 with (inject_Z 0); rewrite <- Zle_Qle; lia).
        set (i := inject_Z (Z.of_nat (S m))) in *. set (s := qpw m (2 * u)) in *. clearbody i s. rewrite W_is in *. nra. }
      specialize (Bern n Bn). assert (I5 : inject_Z (Z.of_nat (S n)) <= 5) by (change 5 with (inject_Z 5); rewrite <- Zle_Qle; lia).
      assert (Y2 : 1 - 10 * W <= qpw n (2 * u)) by (set (i := inject_Z (Z.of_nat (S n))) in *; clearbody i; nra).
      assert (E2 : qpw n (2 * u) / 2 == qpw n (2 * u) * (1 # 2)) by field. rewrite E2. assert (Ec : c / 2 == c * (1 # 2)) by field. rewrite Ec in Z2.
      set (y := qpw n (2 * u)) in *. clearbody y.
      setoid_replace (z - c * (y * (1 # 2))) with ((z - c * (1 # 2)) + c * ((1 - y) * (1 # 2))) by ring. eapply Qle_trans; [apply Qabs_triangle|].
      assert (Yc : Qabs (c * ((1 - y) * (1 # 2))) <= 5 * W * c) by (apply abs_le; nra). assert (0 <= c * W) by nra. lra.
  - specialize (Ex2' C). rewrite <- qpw_power in Ex2'. assert (Ev : v - b == c * (1 - qpw n (2 - 2 * u) / 2)).
    { rewrite Ex2'. assert (Ea : forall m, qpw m (2 * (1 - u)) == qpw m (2 - 2 * u)) by (induction m as [|m IH]; cbn [qpw]; [ring|rewrite IH; ring]). rewrite Ea. ring. }
    destruct (Pn (2 - 2 * u) ltac:(lra) ltac:(lra)) as [Y0 Y1]. split; [|rewrite Ev; assert (E2 : qpw n (2 - 2 * u) / 2 == qpw n (2 - 2 * u) * (1 # 2)) by field; rewrite E2; set (y := qpw n (2 - 2 * u)) in *; clearbody y; apply abs_le; nra].
    assert (P3 : 1 <= p) by (apply (nearest_above (2 * u)); [exact P2|apply one_float|lra]).
    destruct (ltf x one) eqn:Lt; [apply (ltb_value _ _ p 1 P1 one_is) in Lt; lra|].
    apply (near_weak _ _ _ _ _ (H x fc c (2 * u) Hc Dc Bc ltac:(exists p, p; repeat split; try apply P1; lra) N2 ltac:(lra) ltac:(lra))); [symmetry; exact Ev|lra].
Qed.
Lemma first_near : forall n f fc c v, (n <= 4)%nat -> float_is fc c -> times_pow 2 1 (-100) <= c -> c <= B100 -> up 0 1 f f -> near f v (2 * W) -> 0 <= v -> v <= 1 -> near (times (S n) (divf fc two) f) (c * (qpw n v / 2)) (28 * W * c).
Proof.
  intros n f fc c v Bn Hc Dc Bc Up N L U. pose proof small_pos. pose proof b100_pos. pose proof W_pos. pose proof (half_is' _ _ Hc Dc) as Hh. assert (E : c / 2 == c * (1 # 2)) by field.
  destruct (up_within 0 1 _ _ 1 Up ltac:(lra) ltac:(lra)) as [Bf _].
  assert (V : Qabs v <= 1) by (apply abs_le; lra).
  assert (M : forall m, (m <= 4)%nat -> near (times (S m) (divf fc two) f) (c / 2 * qpw m v) (inject_Z (Z.of_nat (S m)) * (c / 2 * (2 * W) + c * W))).
  { induction m as [|m IH]; intros Bm.
    - cbn [times qpw]. destruct N as (p & P1 & P2). destruct Bf as (p' & P1' & P2'). pose proof (value_one _ _ _ P1' P1) as Vp. rewrite Vp in P2'.
      assert (B : Qabs (c / 2 * p) <= c) by (rewrite Qabs_Qmult, E, (Qabs_pos (c * (1 # 2))) by lra; pose proof (Qabs_nonneg p); nra).
      destruct (in_range_is (c / 2 * p) _ ltac:(apply b100_range; apply abs_bounds in B; lra) (mul_rounds _ _ (c / 2) p Hh P1)) as (z & Z1 & Z2).
      exists z. split; [exact Z1|]. pose proof (round_err _ _ c B Dc ltac:(lra) Z2) as Er. change (inject_Z (Z.of_nat 1)) with 1.
      setoid_replace (z - c / 2 * v) with ((z - c / 2 * p) + c / 2 * (p - v)) by ring. eapply Qle_trans; [apply Qabs_triangle|]. rewrite Qabs_Qmult, (Qabs_pos (c / 2)) by lra. rewrite E in *. nra.
    - change (times (S (S m)) (divf fc two) f) with (mulf (times (S m) (divf fc two) f) f). cbn [qpw]. specialize (IH ltac:(lia)).
      pose proof (times_within (S m) (c / 2) f (divf fc two) Hh ltac:(lra) ltac:(lra) Up) as Tw.
      destruct IH as (q & Q1 & Q2). destruct N as (p & P1 & P2). destruct Bf as (p' & P1' & P2'). pose proof (value_one _ _ _ P1' P1) as Vp. rewrite Vp in P2'.
      destruct Tw as (q' & Q1' & Q2'). pose proof (value_one _ _ _ Q1' Q1) as Vq. rewrite Vq in Q2'.
      assert (B : Qabs (q * p) <= c) by (rewrite Qabs_Qmult; pose proof (Qabs_nonneg p); pose proof (Qabs_nonneg q); nra).
      destruct (in_range_is (q * p) _ ltac:(apply b100_range; apply abs_bounds in B; lra) (mul_rounds _ _ q p Q1 P1)) as (z & Z1 & Z2).
      exists z. split; [exact Z1|]. pose proof (round_err _ _ c B Dc ltac:(lra) Z2) as Er.
      pose proof (mul_gap q (c / 2 * qpw m v) p v (c / 2) 1 _ _ Q2 P2 Q2' V) as G.
      setoid_replace (z - c / 2 * (qpw m v * v)) with ((z - q * p) + (q * p - c / 2 * qpw m v * v)) by ring. eapply Qle_trans; [apply Qabs_triangle|].
      rewrite (Nat2Z.inj_succ (S m)). unfold Z.succ. rewrite inject_Z_plus. change (inject_Z 1) with 1. lra. }
  specialize (M n Bn). apply (near_weak _ _ _ _ _ M); [field|]. assert (I5 : inject_Z (Z.of_nat (S n)) <= 5) by (change 5 with (inject_Z 5); rewrite <- Zle_Qle; lia).
  set (i := inject_Z (Z.of_nat (S n))) in *. clearbody i. rewrite E. assert (0 <= c * W) by nra. nra.
Qed.
Lemma back_near : forall f v, up 1 2 f f -> near f v (2 * W) -> 1 <= v -> v <= 2 -> near (subf f two) (v - 2) (6 * W) /\ within (subf f two) 1 /\ Qabs (v - 2) <= 1.
Proof.
  intros f v Up N L U. pose proof one_b100. destruct (back_up f f Up) as [A _]. destruct (up_within 1 2 _ _ 2 Up ltac:(lra) ltac:(lra)) as [B _]. split; [|split].
  - apply (near_weak _ _ _ _ _ (near_sub _ _ _ _ 2 2 _ _ N (near_self _ _ two_is) B two_within ltac:(num) ltac:(lra))); [reflexivity|lra].
  - apply (up_within (- (1)) 0 _ _ 1 A); lra.
  - apply abs_le; lra.
Qed.
Lemma quint_inOut_follows : follows usual fquint_inOut (exact_inOut 5).
Proof.
  apply (follows_halves fquint_inOut 4 (fun t c => times 5 (divf c two) t) (fun t c => mulf (divf c two) (addf (pw 4 (subf t two)) two))); [lia|reflexivity| | |].
  - intros f fc c v Hc Dc Bc Up N L U. apply (first_near 4); auto.
  - intros f fc c v Hc Dc Bc Up N L U. pose proof small_pos. pose proof one_b100. pose proof W_pos. assert (E : c / 2 == c * (1 # 2)) by field. assert (D3 : times_pow 2 1 (-100) <= c / 2 * 3) by lra.
    destruct (back_near f v Up N L U) as (N' & Wi & V). destruct (tail_near 4 _ _ _ two 2 N' Wi V ltac:(lia) ltac:(lra) two_is ltac:(lra) ltac:(lra)) as (A & _ & B & _ & C & _).
    pose proof (scaled (divf fc two) (c / 2) (c / 2) _ _ _ 3 (half_is' _ _ Hc Dc) ltac:(apply abs_le; lra) A B C D3 ltac:(lra)) as M.
    apply (near_weak _ _ _ _ _ M); [cbn [qpw]; field|]. rewrite E. nra.
  - intros f fc c Hc Dc Bc F. pose proof (half_is' _ _ Hc Dc) as Hh. pose proof W_pos. pose proof small_pos. exists (c / 2). split; [|setoid_replace (c / 2 - c / 2) with 0 by ring; change (Qabs 0) with 0; nra].
    assert (Y : float_is (subf f two) (- (1))) by (apply (sub_exact _ _ 1 2); auto using two_is, m1_float; reflexivity).
    apply one_mul; [exact Hh|]. apply (add_exact _ _ (- (1)) 2); auto using two_is, one_float; [|reflexivity]. apply (m1_pow _ Y).
Qed.
Lemma quart_inOut_follows : follows usual fquart_inOut (exact_inOut 4).
Proof.
  apply (follows_halves fquart_inOut 3 (fun t c => times 4 (divf c two) t) (fun t c => mulf (divf (negf c) two) (subf (pw 3 (subf t two)) two))); [lia|reflexivity| | |].
  - intros f fc c v Hc Dc Bc Up N L U. apply (first_near 3); auto.
  - intros f fc c v Hc Dc Bc Up N L U. pose proof small_pos. pose proof one_b100. pose proof W_pos. assert (E : c / 2 == c * (1 # 2)) by field. assert (D3 : times_pow 2 1 (-100) <= c / 2 * 3) by lra.
    destruct (back_near f v Up N L U) as (N' & Wi & V). destruct (tail_near 3 _ _ _ two 2 N' Wi V ltac:(lia) ltac:(lra) two_is ltac:(lra) ltac:(lra)) as (_ & A & _ & B & _ & C).
    pose proof (scaled (divf (negf fc) two) (- (c / 2)) (c / 2) _ _ _ 3 (mhalf_is _ _ Hc Dc) ltac:(apply abs_le; lra) A B C D3 ltac:(lra)) as M.
    apply (near_weak _ _ _ _ _ M); [cbn [qpw]; field|]. rewrite E. nra.
  - intros f fc c Hc Dc Bc F. pose proof (half_is' _ _ Hc Dc) as Hh. pose proof W_pos. pose proof small_pos. exists (c / 2). split; [|setoid_replace (c / 2 - c / 2) with 0 by ring; change (Qabs 0) with 0; nra].
    assert (Y : float_is (subf f two) (- (1))) by (apply (sub_exact _ _ 1 2); auto using two_is, m1_float; reflexivity).
    apply (mul_exact _ _ (- (c / 2)) (- (1))); [apply mhalf_is; assumption| |ring|apply (valid_float _ _ Hh)].
    apply (sub_exact _ _ 1 2); auto using two_is, m1_float; [|reflexivity]. apply (m1_pow _ Y).
Qed.
Lemma quad_inOut_follows : follows usual fquad_inOut (exact_inOut 2).
Proof.
  apply (follows_halves fquad_inOut 1 (fun t c => times 2 (divf c two) t) (fun t c => mulf (divf (negf c) two) (subf (mulf (subf t one) (subf (subf t one) two)) one))); [lia|reflexivity| | |].
  - intros f fc c v Hc Dc Bc Up N L U. apply (first_near 1); auto.
  - intros f fc c v Hc Dc Bc (p & p' & P1 & P1' & Lp & Mp & Up) (p1 & P2 & Np) L U. pose proof small_pos. pose proof one_b100. pose proof W_pos. assert (E : c / 2 == c * (1 # 2)) by field. assert (D3 : times_pow 2 1 (-100) <= c / 2 * 3) by lra.
    pose proof (value_one _ _ _ P2 P1) as Vp. pose proof (value_one _ _ _ P1' P1) as Vp'. rewrite Vp in Np. destruct (quad_second f p P1 Lp ltac:(lra)) as [A1 A2].
    assert (N1 : near (subf f one) (v - 1) (2 * W)) by (exists (p - 1); split; [exact A1|]; setoid_replace (p - 1 - (v - 1)) with (p - v) by ring; exact Np).
    assert (N2 : near (subf (subf f one) two) (v - 3) (2 * W)) by (exists (p - 3); split; [exact A2|]; setoid_replace (p - 3 - (v - 3)) with (p - v) by ring; exact Np).
    assert (W1 : within (subf f one) 1) by (exists (p - 1); split; [exact A1|apply abs_le; lra]). assert (W2 : within (subf (subf f one) two) 2) by (exists (p - 3); split; [exact A2|apply abs_le; lra]).
    pose proof (near_mul _ _ _ _ 1 2 _ _ N1 N2 W1 W2 ltac:(apply abs_le; lra) ltac:(num) ltac:(lra)) as N3.
    assert (W3 : within (mulf (subf f one) (subf (subf f one) two)) 2).
    { destruct (round_up (- (2)) 2 ((p - 1) * (p - 3)) ((p - 1) * (p - 3)) (mulf (subf f one) (subf (subf f one) two)) (mulf (subf f one) (subf (subf f one) two))) as ((y & y' & Y1 & _ & B1 & B2 & B3) & _); auto using two_float, is_float_opp; try lra; try (apply mul_rounds; assumption); try nra.
      exists y. split; [exact Y1|apply abs_le; lra]. }
    pose proof (near_sub _ _ _ _ 2 1 _ _ N3 (near_self _ _ one_is) W3 one_within ltac:(num) ltac:(lra)) as N4.
    destruct (sum_within _ _ 2 1 3 W3 one_within ltac:(lra) three_float ltac:(lra)) as [_ W4].
    pose proof (scaled (divf (negf fc) two) (- (c / 2)) (c / 2) _ _ _ 3 (mhalf_is _ _ Hc Dc) ltac:(apply abs_le; lra) N4 W4 ltac:(apply abs_le; nra) D3 ltac:(lra)) as M.
    apply (near_weak _ _ _ _ _ M); [cbn [qpw]; field|]. rewrite E. nra.
  - intros f fc c Hc Dc Bc F. pose proof (half_is' _ _ Hc Dc) as Hh. pose proof W_pos. pose proof small_pos. exists (c / 2). split; [|setoid_replace (c / 2 - c / 2) with 0 by ring; change (Qabs 0) with 0; nra].
    assert (Y : float_is (subf f one) 0) by (apply (sub_exact _ _ 1 1); auto using one_is, zero_float; reflexivity).
    assert (Y2 : float_is (subf (subf f one) two) (- (2))) by (apply (sub_exact _ _ 0 2); auto using two_is; [reflexivity|apply is_float_opp, two_float]).
    apply (mul_exact _ _ (- (c / 2)) (- (1))); [apply mhalf_is; assumption| |ring|apply (valid_float _ _ Hh)].
    apply (sub_exact _ _ 0 1); auto using one_is, m1_float; [|reflexivity]. apply (mul_zero _ _ 0 (- (2))); auto. reflexivity.
Qed.

(** *** Linear *)
Lemma modest_usual : forall t b c d, modest t b c d -> usual t b c d.
Proof.
  intros t b c d (A & B & C & D & E & F & G). unfold usual.
  assert (X1 : times_pow 2 1 (-100) <= times_pow 2 1 (-20)) by num. assert (X2 : times_pow 2 1 (-100) <= times_pow 2 1 (-40)) by num. assert (X3 : times_pow 2 1 40 <= times_pow 2 1 100) by num.
  split; [exact A|]. split; [exact B|]. split; [lra|]. split; [lra|]. split; lra.
Qed.
Lemma linear_follows : follows modest flinear (exact_in 1).
Proof.
  apply (follows_from flinear (fun t c d => divf (mulf c t) d) modest); [exact modest_usual|reflexivity|].
  intros f fc fd t b c d v Hf Hc Hd (L & U & D1 & D2 & C1 & C2 & Bb) Ex. pose proof W_pos.
  assert (P20 : 0 < times_pow 2 1 (-20)) by reflexivity. assert (P40 : 0 < times_pow 2 1 (-40)) by reflexivity.
  assert (X1 : times_pow 2 1 (-100) <= times_pow 2 1 (-40) * times_pow 2 1 (-20)) by num. assert (X2 : times_pow 2 1 40 * times_pow 2 1 20 <= B100) by num.
  assert (X3 : times_pow 2 1 (-100) <= times_pow 2 1 (-40)) by num. assert (X4 : times_pow 2 1 40 <= B100) by num. pose proof b100_pos.
  assert (Q20 : 0 < times_pow 2 1 20) by reflexivity. assert (Q40 : 0 < times_pow 2 1 40) by reflexivity.
  set (s100 := times_pow 2 1 (-100)) in *. set (s40 := times_pow 2 1 (-40)) in *. set (s20 := times_pow 2 1 (-20)) in *. set (e40 := times_pow 2 1 40) in *. set (e20 := times_pow 2 1 20) in *.
  assert (Hs : times_pow 2 1 (-100) == s100) by reflexivity. clearbody s100 s40 s20 e40 e20.
  assert (L1 : s100 <= c * d) by nra. assert (L2 : c * d <= B100) by nra. assert (N0 : ~ d == 0) by lra.
  assert (B : Qabs (c * t) <= c * d) by (apply abs_le; nra). assert (ct0 : 0 <= c * t) by nra.
  destruct (in_range_is (c * t) _ ltac:(apply b100_range; apply abs_bounds in B; lra) (mul_rounds _ _ c t Hc Hf)) as (p & P1 & P2).
  pose proof (round_err _ _ (c * d) B ltac:(rewrite Hs; exact L1) ltac:(lra) P2) as E1. apply abs_bounds in E1.
  assert (p0 : 0 <= p) by (apply (nearest_above (c * t)); auto using zero_float).
  assert (ctd : c * t <= c * d) by nra. assert (cd0 : 0 <= c * d) by nra.
  assert (pU : p <= d * (2 * c)) by (rewrite W_is in E1; lra).
  destruct (near_div _ fd p d (2 * c) P1 Hd ltac:(lra) p0 pU ltac:(rewrite Hs; lra) ltac:(lra)) as (z & Z1 & Z2).
  assert (Ev : v - b == c * t / d) by (unfold exact_in, eased_in, power in Ex; rewrite Ex; change ((t / d) ^ 1) with (t / d); field; exact N0).
  split.
  - exists z. split; [exact Z1|]. rewrite Ev. setoid_replace (z - c * t / d) with ((z - p / d) + (p - c * t) / d) by (field; exact N0). eapply Qle_trans; [apply Qabs_triangle|].
    assert (Y : Qabs ((p - c * t) / d) <= W * c).
    { apply abs_le; [apply Qle_shift_div_l; [lra|]; lra|apply Qle_shift_div_r; [lra|]; lra]. }
    assert (0 <= c * W) by nra. lra.
  - rewrite Ev. apply abs_le; [apply Qle_shift_div_l; [lra|]; nra|apply Qle_shift_div_r; lra].
Qed.

(** *** Mirrored curves *)
Lemma round_aux_opp : forall s m e l, binary_round_aux 24 128 (negb s) m e l = SFopp (binary_round_aux 24 128 s m e l).
Proof.
  intros s m e l. unfold binary_round_aux. destruct (shr_fexp 24 128 m e l) as [mrs' e'].
  destruct (shr_fexp 24 128 (round_nearest_even (shr_m mrs') (loc_of_shr_record mrs')) e' loc_Exact) as [mrs'' e''].
  destruct (shr_m mrs'') as [|q|q]; try reflexivity. destruct (Zle_bool e'' (128 - 24)); reflexivity.
Qed.
Lemma xorb_neg : forall a b, xorb (negb a) b = negb (xorb a b). Proof. intros [] []; reflexivity. Qed.
Lemma mul_opp : forall x y, mulf (SFopp x) y = SFopp (mulf x y).
Proof.
  intros [sx|sx| |sx mx ex] [sy|sy| |sy my ey]; unfold mulf; cbn [SFopp SFmul]; rewrite ?xorb_neg; try reflexivity. apply round_aux_opp.
Qed.
Lemma div_opp : forall x y, divf (SFopp x) y = SFopp (divf x y).
Proof.
  intros [sx|sx| |sx mx ex] [sy|sy| |sy my ey]; unfold divf; cbn [SFopp SFdiv]; rewrite ?xorb_neg; try reflexivity.
  destruct (SFdiv_core_binary 24 128 (Zpos mx) ex (Zpos my) ey) as [[mz ez] lz]. apply round_aux_opp.
Qed.
Lemma add_opp : forall x y, mirrored (Ok (addf x y)) (Ok (addf (SFopp x) (SFopp y))).
Proof.
  assert (M : forall x, mirrored (Ok x) (Ok (SFopp x))) by (intros [s|s| |s m e]; cbn; reflexivity || exact I).
  intros [sx|sx| |sx mx ex] [sy|sy| |sy my ey]; unfold addf; cbn [SFopp SFadd];
    try (destruct sx, sy; cbn; reflexivity || exact I); try exact (M _).
  cbv zeta. rewrite !cond_zval, !zval_opp.
  set (a := zval sx _). set (b := zval sy _). set (ez := Z.min ex ey). clearbody a b ez.
  replace (- a + - b)%Z with (- (a + b))%Z by lia. destruct (a + b)%Z as [|m|m]; cbn [Z.opp binary_normalize]; [exact I| |];
    unfold binary_round; destruct (shl_align m ez (fexp 24 128 (Z.pos (digits2_pos m) + ez))) as [mz e'].
  - pose proof (round_aux_opp false (Z.pos mz) e' loc_Exact) as E. cbn [negb] in E. rewrite E. apply M.
  - pose proof (round_aux_opp true (Z.pos mz) e' loc_Exact) as E. cbn [negb] in E. rewrite E. apply M.
Qed.
Lemma mirror_from : forall (k : fcurve) (g : fl -> fl -> fl -> fl), (forall t b c d, k t b c d = nzf d (addf (g t c d) b)) ->
  (forall t c d, g t (SFopp c) d = SFopp (g t c d)) -> forall t b c d, mirrored (k t b c d) (k t (SFopp b) (SFopp c) d).
Proof.
  intros k g Ek Eg t b c d. rewrite !Ek, Eg. unfold nzf. destruct (SFeqb d f0); [exact I|]. apply add_opp.
Qed.
Ltac mirror g := apply (mirror_from _ g); [reflexivity|]; intros; cbv zeta beta; unfold negf; rewrite ?mul_opp, ?div_opp, ?mul_opp; try reflexivity.
Lemma half_mirror : forall (k : fcurve) (g h : fl -> fl -> fl), (forall t b c d, k t b c d = nzf d (let t := divf t (divf d two) in if ltf t one then addf (g t c) b else addf (h t c) b)) ->
  (forall t c, g t (SFopp c) = SFopp (g t c)) -> (forall t c, h t (SFopp c) = SFopp (h t c)) -> forall t b c d, mirrored (k t b c d) (k t (SFopp b) (SFopp c) d).
Proof.
  intros k g h Ek Eg Eh t b c d. rewrite !Ek. cbv zeta. unfold nzf. destruct (SFeqb d f0); [exact I|].
  destruct (ltf (divf t (divf d two)) one); rewrite ?Eg, ?Eh; apply add_opp.
Qed.
Lemma linear_mirror : forall t b c d, mirrored (flinear t b c d) (flinear t (SFopp b) (SFopp c) d).
Proof. mirror (fun t c d => divf (mulf c t) d). Qed.
Lemma times_opp' : forall n c t, times n (SFopp c) t = SFopp (times n c t).
Proof. induction n as [|n IH]; intros c t; cbn [times]; [reflexivity|]. rewrite IH. apply mul_opp. Qed.
Lemma in_mirror : forall n (k : fcurve), (forall t b c d, k t b c d = nzf d (addf (times n c (divf t d)) b)) -> forall t b c d, mirrored (k t b c d) (k t (SFopp b) (SFopp c) d).
Proof. intros n k Ek. apply (mirror_from k (fun t c d => times n c (divf t d)) Ek). intros. apply times_opp'. Qed.
Lemma curves_mirror : forall k, In k [flinear; fquad_in; fquad_out; fquad_inOut; fcubic_in; fcubic_out; fquart_in; fquart_out; fquart_inOut; fquint_in; fquint_out; fquint_inOut] ->
  forall t b c d, mirrored (k t b c d) (k t (SFopp b) (SFopp c) d).
Proof.
  intros k H. repeat (destruct H as [<-|H]); [..|contradiction H].
  - exact linear_mirror.
  - apply (in_mirror 2). reflexivity.
  - mirror (fun t c d => mulf (mulf (negf c) (divf t d)) (subf (divf t d) two)).
  - apply (half_mirror fquad_inOut (fun t c => times 2 (divf c two) t) (fun t c => let t := subf t one in mulf (divf (negf c) two) (subf (mulf t (subf t two)) one))); [reflexivity| |]; intros; unfold negf; rewrite ?div_opp, ?times_opp', ?mul_opp; reflexivity.
  - apply (in_mirror 3). reflexivity.
  - mirror (fun t c d => mulf c (addf (pw 2 (subf (divf t d) one)) one)).
  - apply (in_mirror 4). reflexivity.
  - mirror (fun t c d => mulf (negf c) (subf (pw 3 (subf (divf t d) one)) one)).
  - apply (half_mirror fquart_inOut (fun t c => times 4 (divf c two) t) (fun t c => mulf (divf (negf c) two) (subf (pw 3 (subf t two)) two))); [reflexivity| |]; intros; unfold negf; rewrite ?div_opp, ?times_opp', ?mul_opp; reflexivity.
  - apply (in_mirror 5). reflexivity.
  - mirror (fun t c d => mulf c (addf (pw 4 (subf (divf t d) one)) one)).
  - apply (half_mirror fquint_inOut (fun t c => times 5 (divf c two) t) (fun t c => mulf (divf c two) (addf (pw 4 (subf t two)) two))); [reflexivity| |]; intros; unfold negf; rewrite ?div_opp, ?times_opp', ?mul_opp; reflexivity.
Qed.
Lemma curves_zero : forall k, In k [flinear; fquad_in; fquad_out; fquad_inOut; fcubic_in; fcubic_out; fquart_in; fquart_out; fquart_inOut; fquint_in; fquint_out; fquint_inOut] ->
  forall t b c d, k t b c d = UB <-> has_value d 0.
Proof.
  assert (Z : forall d v, nzf d v = UB <-> has_value d 0).
  { intros d v. unfold nzf. destruct d as [s|s| |s m e]; cbn [has_value].
    - cbn. split; [reflexivity|]. intros _. destruct s; reflexivity.
    - split; [destruct s; discriminate|contradiction].
    - split; [discriminate|contradiction].
    - split; [destruct s; discriminate|]. intros H. exfalso. destruct s; unfold times_pow in H.
      + pose proof (Qpower_0_lt (inject_Z 2) e ltac:(reflexivity)). assert (inject_Z (Z.neg m) < 0) by reflexivity. nra.
      + pose proof (Qpower_0_lt (inject_Z 2) e ltac:(reflexivity)). assert (0 < inject_Z (Z.pos m)) by reflexivity. nra. }
  intros k H. repeat (destruct H as [<-|H]); [..|contradiction H]; intros t b c d; apply Z.
Qed.

(** *** All together *)
Lemma good_climbs : forall k, good k -> climbs k.
Proof.
  intros k G f f' fb fc fd t t' b c d e Hf Hf' Hb Hc Hd (A1 & A2 & A3 & A4 & A5 & A6) (B1 & B2 & _) M Ne.
  exact (G f f' fb fc fd t t' b c d e Hf Hf' Hb Hc Hd A1 M B2 A3 A4 A5 A6 Ne).
Qed.
Lemma curves_climb : Forall climbs [fquad_in; fquad_inOut; fcubic_in; fcubic_out; fquart_in; fquart_out; fquart_inOut; fquint_in; fquint_out; fquint_inOut].
Proof.
  repeat apply Forall_cons; try apply Forall_nil; apply good_climbs; auto using quad_in_good, quad_inOut_good, cubic_in_good, cubic_out_good, quart_in_good, quart_out_good, quart_inOut_good, quint_in_good, quint_out_good, quint_inOut_good.
Qed.
Lemma linear_climbs : forall f f' fb fc fd t t' b c d, float_is f t -> float_is f' t' -> float_is fb b -> float_is fc c -> float_is fd d ->
  modest t b c d -> modest t' b c d -> t <= t' ->
  exists r r' q q', flinear f fb fc fd = Ok r /\ flinear f' fb fc fd = Ok r' /\ float_is r q /\ float_is r' q' /\ b <= q /\ q <= q' /\ (t == 0 -> q == b).
Proof.
  intros f f' fb fc fd t t' b c d Hf Hf' Hb Hc Hd (A1 & A2 & A3 & A4 & A5 & A6 & A7) (B1 & B2 & _) M.
  assert (0 < times_pow 2 1 (-40)) by reflexivity. apply (linear_is f f' fb fc fd t t' b c d); auto. lra.
Qed.
Lemma quad_out_ends : forall f fb fc fd t b c d e, float_is f t -> float_is fb b -> float_is fc c -> float_is fd d -> usual t b c d -> nearest_float (b + c) e ->
  (t == 0 -> exists r, fquad_out f fb fc fd = Ok r /\ float_is r b) /\ (t == d -> exists r, fquad_out f fb fc fd = Ok r /\ float_is r e).
Proof.
  intros f fb fc fd t b c d e Hf Hb Hc Hd (L & U & Dd & Dc & Bc & Bb) Ne. fold B100 in *. pose proof small_pos. pose proof b100_pos. unfold fquad_out.
  destruct (up_div f f fd t t d 1 Hf Hf Hd ltac:(lra) L ltac:(lra) ltac:(change (inject_Z 1) with 1; lra) ltac:(lia)) as (_ & A & B).
  change (inject_Z 1) with 1 in B. pose proof (opp_is _ _ Hc) as Hn. pose proof (valid_float _ _ Hc) as Fc.
  split; intros E; rewrite (nz_ok fd d) by (assumption || lra); cbv zeta; (eexists; split; [reflexivity|]).
  - apply add_start; auto. specialize (A E). apply (mul_zero _ _ 0 (- (2))); [|apply (sub_exact _ _ 0 2); auto using two_is; [reflexivity|apply is_float_opp, two_float]|ring].
    apply (mul_zero _ _ (- c) 0); auto. ring.
  - apply (add_end _ _ b c); auto. 2: apply abs_bounds in Bb; apply b100_range; lra. specialize (B ltac:(lra)).
    apply (mul_exact _ _ (- c) (- (1))); auto; [apply one_mul; assumption| |ring]. apply (sub_exact _ _ 1 2); auto using two_is, m1_float. reflexivity.
Qed.
Lemma curves_follow : follows modest flinear (exact_in 1) /\
  follows usual fquad_in (exact_in 2) /\ follows usual fquad_out (exact_out 2) /\ follows usual fquad_inOut (exact_inOut 2) /\
  follows usual fcubic_in (exact_in 3) /\ follows usual fcubic_out (exact_out 3) /\
  follows usual fquart_in (exact_in 4) /\ follows usual fquart_out (exact_out 4) /\ follows usual fquart_inOut (exact_inOut 4) /\
  follows usual fquint_in (exact_in 5) /\ follows usual fquint_out (exact_out 5) /\ follows usual fquint_inOut (exact_inOut 5).
Proof.
  refine (conj linear_follows (conj (in_follows 1 _ _ _) (conj quad_out_follows (conj quad_inOut_follows (conj (in_follows 2 _ _ _) (conj (odd_out_follows 2 _ _ _)
    (conj (in_follows 3 _ _ _) (conj quart_out_follows (conj quart_inOut_follows (conj (in_follows 4 _ _ _) (conj (odd_out_follows 4 _ _ _) quint_inOut_follows)))))))))));
    try lia; try reflexivity; auto.
Qed.
Ltac wit := split; [split; reflexivity|].
Lemma linear_end : exists f fb fc fd t c, float_is f t /\ float_is fb 0 /\ float_is fc c /\ float_is fd t /\ modest t 0 c t /\
  exists r q, flinear f fb fc fd = Ok r /\ float_is r q /\ c < q.
Proof.
  set (x := S754_finite false 13421773 (-27)). exists x, f0, x, x, (13421773 # 134217728), (13421773 # 134217728). do 4 wit. split; [repeat split; num|].
  exists (S754_finite false 13421774 (-27)), (13421774 # 134217728). split; [vm_compute; reflexivity|]. wit. reflexivity.
Qed.
Lemma quad_out_back : exists f f' fb fc fd t t', float_is f t /\ float_is f' t' /\ float_is fb 0 /\ float_is fc 1 /\ float_is fd 1 /\
  0 <= t /\ t < t' /\ t' <= 1 /\ exists r r' q q', fquad_out f fb fc fd = Ok r /\ fquad_out f' fb fc fd = Ok r' /\ float_is r q /\ float_is r' q' /\ q' < q.
Proof.
  exists (S754_finite false 16777214 (-24)), (S754_finite false 16777215 (-24)), f0, f1, f1, (16777214 # 16777216), (16777215 # 16777216). do 5 wit. split; [num|]. split; [reflexivity|]. split; [num|].
  exists (S754_finite false 8388608 (-23)), (S754_finite false 16777215 (-24)), 1, (16777215 # 16777216). split; [vm_compute; reflexivity|]. split; [vm_compute; reflexivity|]. do 2 wit. reflexivity.
Qed.
Lemma quad_out_past : exists f fb fc fd t c, float_is f t /\ float_is fb 0 /\ float_is fc c /\ float_is fd 1 /\ 0 <= t /\ t < 1 /\ 1 <= c /\ c <= 2 /\
  exists r q, fquad_out f fb fc fd = Ok r /\ float_is r q /\ c < q.
Proof.
  exists (S754_finite false (16777216 - 39) (-24)), f0, (S754_finite false 8598975 (-23)), f1, (16777177 # 16777216), (8598975 # 8388608). do 4 wit. split; [num|]. split; [reflexivity|]. split; [num|]. split; [num|].
  exists (S754_finite false 8598976 (-23)), (8598976 # 8388608). split; [vm_compute; reflexivity|]. wit. reflexivity.
Qed.
