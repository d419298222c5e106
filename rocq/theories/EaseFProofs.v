(** Power curves in single precision. *)
From Coq Require Import ZArith Arith Bool Lia List QArith Qabs Qround Qpower Lqa.
From Coq Require Import Floats.SpecFloat.
From Verif Require Import Common RealSpec RealProofs FltSpec Flt32Proofs Flt32ReadProofs AngleSpec FloatOpsProofs AngleModel AngleProofs AngleMoreProofs EaseFModel.
Local Open Scope Q_scope.

Lemma two_is : float_is two 2. Proof. split; reflexivity. Qed.
Lemma one_is : float_is one 1. Proof. split; reflexivity. Qed.
Lemma b100_float : is_float B100. Proof. apply pow_float. lia. Qed.
Lemma one_b100 : 16 <= B100. Proof. unfold Qle. vm_compute. discriminate. Qed.
Lemma one_float : is_float 1. Proof. exact (valid_float _ _ one_is). Qed.
Lemma two_float : is_float 2. Proof. exact (valid_float _ _ two_is). Qed.
Lemma m1_float : is_float (- (1)). Proof. apply is_float_opp, one_float. Qed.

(** Two floats, the first not above the second, both between [lo] and [hi]. *)
Definition up (lo hi : Q) (f f' : fl) : Prop := exists p p', float_is f p /\ float_is f' p' /\ lo <= p /\ p <= p' /\ p' <= hi.
(** One rounding step of two exact results in order. *)
Lemma round_up : forall lo hi x x' f f', is_float lo -> is_float hi -> - (16 * B100) <= lo -> hi <= 16 * B100 -> lo <= x -> x <= x' -> x' <= hi ->
  float_of x f -> float_of x' f' -> up lo hi f f' /\ (exists p, float_is f p /\ nearest_float x p) /\ (exists p, float_is f' p /\ nearest_float x' p).
Proof.
  intros lo hi x x' f f' Fl Fh Bl Bh L M U Hf Hf'.
  destruct (in_range_is x f ltac:(apply b100_range; lra) Hf) as (p & P1 & P2). destruct (in_range_is x' f' ltac:(apply b100_range; lra) Hf') as (p' & P1' & P2').
  split; [|split; eauto]. exists p, p'. split; [exact P1|]. split; [exact P1'|].
  split; [apply (nearest_above x); assumption|]. split; [apply (nearest_mono x x'); [apply b100_range; lra|assumption..]|apply (nearest_below x'); assumption].
Qed.
Lemma up_weak : forall lo hi lo' hi' f f', up lo hi f f' -> lo' <= lo -> hi <= hi' -> up lo' hi' f f'.
Proof. intros lo hi lo' hi' f f' (p & p' & A & B & C & D & E) L U. exists p, p'. repeat split; try apply A; try apply B; lra. Qed.

Lemma prod_mono : forall a b p p' q q', 0 <= p -> p <= p' -> p' <= a -> 0 <= q -> q <= q' -> q' <= b -> 0 <= p * q /\ p * q <= p' * q' /\ p' * q' <= a * b.
Proof. intros. assert (0 <= p * q) by (apply Qmult_le_0_compat; assumption). split; [assumption|]. split; nra. Qed.
(** Products of numbers not below 0, the second at most 1. *)
Lemma up_mul : forall a f f' g g', is_float a -> a <= 16 * B100 -> up 0 a f f' -> up 0 1 g g' -> up 0 a (mulf f g) (mulf f' g').
Proof.
  intros a f f' g g' Fa Ba (p & p' & P1 & P1' & L & M & U) (q & q' & Q1 & Q1' & L2 & M2 & U2).
  destruct (prod_mono a 1 p p' q q' L M U L2 M2 U2) as (X0 & X1 & X2). rewrite Qmult_1_r in X2. pose proof one_b100.
  apply (round_up 0 a (p * q) (p' * q')); auto using zero_float; try lra; apply mul_rounds; assumption.
Qed.
Lemma one_mul : forall f g p, float_is f p -> float_is g 1 -> float_is (mulf f g) p.
Proof. intros f g p Hf Hg. apply exact_is; [apply (valid_float _ _ Hf)|]. apply (float_of_wd (p * 1)); [ring|]. apply mul_rounds; assumption. Qed.
Lemma mul_zero : forall f g p q, float_is f p -> float_is g q -> p * q == 0 -> float_is (mulf f g) 0.
Proof. intros f g p q Hf Hg E. apply exact_is; [apply zero_float|]. apply (float_of_wd (p * q)); [exact E|]. apply mul_rounds; assumption. Qed.
Lemma mul_exact : forall f g p q r, float_is f p -> float_is g q -> p * q == r -> is_float r -> float_is (mulf f g) r.
Proof. intros f g p q r Hf Hg E F. apply exact_is; [exact F|]. apply (float_of_wd (p * q)); [exact E|]. apply mul_rounds; assumption. Qed.
Lemma add_exact : forall f g p q r, float_is f p -> float_is g q -> p + q == r -> is_float r -> float_is (addf f g) r.
Proof. intros f g p q r Hf Hg E F. apply exact_is; [exact F|]. apply (float_of_wd (p + q)); [exact E|]. apply add_rounds; assumption. Qed.
Lemma sub_exact : forall f g p q r, float_is f p -> float_is g q -> p - q == r -> is_float r -> float_is (subf f g) r.
Proof. intros f g p q r Hf Hg E F. apply exact_is; [exact F|]. apply (float_of_wd (p - q)); [exact E|]. apply sub_rounds; assumption. Qed.
Lemma div_exact : forall f g p q r, float_is f p -> float_is g q -> ~ q == 0 -> p / q == r -> is_float r -> float_is (divf f g) r.
Proof. intros f g p q r Hf Hg N E F. apply exact_is; [exact F|]. apply (float_of_wd (p / q)); [exact E|]. apply div_rounds; assumption. Qed.

(** The part of the time gone. *)
Lemma up_div : forall f f' g t t' d n, float_is f t -> float_is f' t' -> float_is g d -> 0 < d -> 0 <= t -> t <= t' -> t' <= d * inject_Z (Zpos n) -> (Zpos n <= 16)%Z ->
  up 0 (inject_Z (Zpos n)) (divf f g) (divf f' g) /\ (t == 0 -> float_is (divf f g) 0) /\ (t' == d * inject_Z (Zpos n) -> float_is (divf f' g) (inject_Z (Zpos n))).
Proof.
  intros f f' g t t' d n Hf Hf' Hg D L M U Bn. assert (N0 : ~ d == 0) by lra. pose proof one_b100 as B16.
  assert (Fn : is_float (inject_Z (Zpos n))) by (apply int_float; lia).
  assert (In : inject_Z (Zpos n) <= 16) by (change 16 with (inject_Z 16); rewrite <- Zle_Qle; exact Bn).
  split; [|split].
  - apply (round_up 0 (inject_Z (Zpos n)) (t / d) (t' / d)); auto using zero_float; try lra; try (apply div_rounds; assumption).
    + apply Qle_shift_div_l; lra.
    + apply Qle_shift_div_l; [exact D|]. setoid_replace (t / d * d) with t by (field; exact N0). exact M.
    + apply Qle_shift_div_r; [exact D|]. lra.
  - intros E. apply (div_exact f g t d); auto using zero_float. rewrite E. field. exact N0.
  - intros E. apply (div_exact f' g t' d); auto. rewrite E. field. exact N0.
Qed.

(** Adding the start: from [b] to the float nearest to [b + c]. *)
Lemma up_add : forall f f' g b c e, up 0 c f f' -> float_is g b -> is_float c -> Qabs b <= B100 -> c <= 2 * B100 -> nearest_float (b + c) e ->
  exists q q', float_is (addf f g) q /\ float_is (addf f' g) q' /\ b <= q /\ q <= q' /\ q' <= e.
Proof.
  intros f f' g b c e (p & p' & P1 & P1' & L & M & U) Hg Fc Bb Bc Ne. apply abs_bounds in Bb. pose proof b100_pos.
  destruct (in_range_is (p + b) _ ltac:(apply b100_range; lra) (add_rounds _ _ p b P1 Hg)) as (q & Q1 & Q2).
  destruct (in_range_is (p' + b) _ ltac:(apply b100_range; lra) (add_rounds _ _ p' b P1' Hg)) as (q' & Q1' & Q2').
  exists q, q'. split; [exact Q1|]. split; [exact Q1'|]. split; [apply (nearest_above (p + b)); [exact Q2|apply (valid_float _ _ Hg)|lra]|].
  split; [apply (nearest_mono (p + b) (p' + b)); [apply b100_range; lra|lra|assumption|assumption]|].
  apply (nearest_mono (p' + b) (b + c)); [apply b100_range; lra|lra|assumption|assumption].
Qed.
Lemma add_start : forall f g b, float_is f 0 -> float_is g b -> float_is (addf f g) b.
Proof. intros f g b Hf Hg. apply (add_exact f g 0 b); auto; [ring|apply (valid_float _ _ Hg)]. Qed.
Lemma add_end : forall f g b c e, float_is f c -> float_is g b -> in_range (b + c) -> nearest_float (b + c) e -> float_is (addf f g) e.
Proof.
  intros f g b c e Hf Hg R Ne. destruct (in_range_is (c + b) _ ltac:(apply (in_range_wd (b + c)); [ring|exact R]) (add_rounds _ _ c b Hf Hg)) as (q & Q1 & Q2).
  apply (float_is_wd _ q); [|exact Q1]. apply (nearest_unique (b + c)); [exact R| |exact Ne]. apply (nearest_wd (c + b)); [ring|exact Q2].
Qed.

(** What is to be shown of a curve for two times. *)
Definition good (k : fcurve) : Prop := forall f f' fb fc fd t t' b c d e, float_is f t -> float_is f' t' -> float_is fb b -> float_is fc c -> float_is fd d ->
  0 <= t -> t <= t' -> t' <= d -> times_pow 2 1 (-100) <= d -> times_pow 2 1 (-100) <= c -> c <= B100 -> Qabs b <= B100 -> nearest_float (b + c) e ->
  exists r r' q q', k f fb fc fd = Ok r /\ k f' fb fc fd = Ok r' /\ float_is r q /\ float_is r' q' /\ b <= q /\ q <= q' /\ q' <= e /\
    (t == 0 -> q == b) /\ (t' == d -> q' == e).
Lemma nz_ok : forall fd d v, float_is fd d -> 0 < d -> nzf fd v = Ok v.
Proof.
  intros fd d v H D. unfold nzf. destruct (SFeqb fd f0) eqn:E; [|reflexivity]. apply (eqb_value _ _ d 0 H f0_is) in E. lra.
Qed.
Lemma small_pos : 0 < times_pow 2 1 (-100). Proof. reflexivity. Qed.
(** Putting it together: a curve that is [g t b] with [g] between 0 and [c], 0 at the start and [c] at the end. *)
Lemma good_from : forall (k : fcurve) (g : fl -> fl -> fl -> fl),
  (forall t b c d, k t b c d = nzf d (addf (g t c d) b)) ->
  (forall f f' fc fd t t' c d, float_is f t -> float_is f' t' -> float_is fc c -> float_is fd d ->
    0 <= t -> t <= t' -> t' <= d -> times_pow 2 1 (-100) <= d -> times_pow 2 1 (-100) <= c -> c <= B100 ->
    up 0 c (g f fc fd) (g f' fc fd) /\ (t == 0 -> float_is (g f fc fd) 0) /\ (t' == d -> float_is (g f' fc fd) c)) -> good k.
Proof.
  intros k g Ek H f f' fb fc fd t t' b c d e Hf Hf' Hb Hc Hd L M U Dd Dc Bc Bb Ne. pose proof small_pos as S0. pose proof b100_pos as P0.
  destruct (H f f' fc fd t t' c d Hf Hf' Hc Hd L M U Dd Dc Bc) as (Up & St & En).
  destruct (up_add _ _ fb b c e Up Hb (valid_float _ _ Hc) Bb ltac:(lra) Ne) as (q & q' & Q1 & Q1' & X1 & X2 & X3).
  exists (addf (g f fc fd) fb), (addf (g f' fc fd) fb), q, q'. rewrite !Ek, !(nz_ok fd d) by (assumption || lra).
  split; [reflexivity|]. split; [reflexivity|]. split; [exact Q1|]. split; [exact Q1'|]. split; [exact X1|]. split; [exact X2|]. split; [exact X3|]. split.
  - intros E. apply (value_one _ _ _ Q1). apply add_start; auto.
  - intros E. apply (value_one _ _ _ Q1'). apply (add_end _ _ b c); auto. apply abs_bounds in Bb. apply b100_range; lra.
Qed.

(** *** In *)
Fixpoint times (n : nat) (c t : fl) : fl := match n with 0%nat => c | S n => mulf (times n c t) t end.
Lemma times_up : forall n c f f' fc, float_is fc c -> 0 <= c -> c <= 16 * B100 -> up 0 1 f f' -> up 0 c (times n fc f) (times n fc f').
Proof.
  induction n as [|n IH]; intros c f f' fc Hc L U H; cbn [times].
  - exists c, c. repeat split; try apply Hc; lra.
  - apply up_mul; auto. apply (valid_float _ _ Hc).
Qed.
Lemma times_one : forall n c f fc, float_is fc c -> float_is f 1 -> float_is (times n fc f) c.
Proof. induction n as [|n IH]; intros c f fc Hc H; cbn [times]; [exact Hc|]. apply one_mul; auto. Qed.
Lemma times_zero : forall n c f fc, float_is fc c -> float_is f 0 -> (forall x, float_is f x -> True) -> exists p, float_is (times n fc f) p.
Proof. induction n as [|n IH]; intros c f fc Hc H _; cbn [times]; [eauto|]. destruct (IH c f fc Hc H ltac:(auto)) as [p P]. exists 0. apply (mul_zero _ _ p 0); auto. ring. Qed.
Lemma times_start : forall n c f fc, float_is fc c -> float_is f 0 -> float_is (times (S n) fc f) 0.
Proof. intros n c f fc Hc H. destruct (times_zero n c f fc Hc H ltac:(auto)) as [p P]. cbn [times]. apply (mul_zero _ _ p 0); auto. ring. Qed.
Lemma in_good : forall n f f' fc fd t t' c d, float_is f t -> float_is f' t' -> float_is fc c -> float_is fd d ->
    0 <= t -> t <= t' -> t' <= d -> times_pow 2 1 (-100) <= d -> times_pow 2 1 (-100) <= c -> c <= B100 ->
    up 0 c (times (S n) fc (divf f fd)) (times (S n) fc (divf f' fd)) /\ (t == 0 -> float_is (times (S n) fc (divf f fd)) 0) /\ (t' == d -> float_is (times (S n) fc (divf f' fd)) c).
Proof.
  intros n f f' fc fd t t' c d Hf Hf' Hc Hd L M U Dd Dc Bc. pose proof small_pos. pose proof b100_pos.
  destruct (up_div f f' fd t t' d 1 Hf Hf' Hd ltac:(lra) L M ltac:(change (inject_Z 1) with 1; lra) ltac:(lia)) as (A & B & C).
  change (inject_Z 1) with 1 in *. split; [|split].
  - apply times_up; auto; lra.
  - intros E. apply (times_start n c); auto.
  - intros E. apply times_one; auto. apply C. lra.
Qed.
Lemma quad_in_good : good fquad_in.
Proof. apply (good_from fquad_in (fun t c d => times 2 c (divf t d))); [reflexivity|]. exact (in_good 1). Qed.
Lemma cubic_in_good : good fcubic_in.
Proof. apply (good_from fcubic_in (fun t c d => times 3 c (divf t d))); [reflexivity|]. exact (in_good 2). Qed.
Lemma quart_in_good : good fquart_in.
Proof. apply (good_from fquart_in (fun t c d => times 4 c (divf t d))); [reflexivity|]. exact (in_good 3). Qed.
Lemma quint_in_good : good fquint_in.
Proof. apply (good_from fquint_in (fun t c d => times 5 c (divf t d))); [reflexivity|]. exact (in_good 4). Qed.

(** *** Out *)
Lemma neg_neg : forall f f' g g', up (- (1)) 0 f f' -> up (- (1)) 0 g g' -> up 0 1 (mulf f' g') (mulf f g).
Proof.
  intros f f' g g' (p & p' & P1 & P1' & L & M & U) (q & q' & Q1 & Q1' & L2 & M2 & U2). pose proof one_b100.
  apply (round_up 0 1 (p' * q') (p * q)); auto using zero_float, one_float; try lra; try (apply mul_rounds; assumption); nra.
Qed.
Lemma down_neg : forall f f' g g', up 0 1 f' f -> up (- (1)) 0 g g' -> up (- (1)) 0 (mulf f g) (mulf f' g').
Proof.
  intros f f' g g' (p' & p & P1' & P1 & L & M & U) (q & q' & Q1 & Q1' & L2 & M2 & U2). pose proof one_b100.
  apply (round_up (- (1)) 0 (p * q) (p' * q')); auto using zero_float, m1_float; try lra; try (apply mul_rounds; assumption); nra.
Qed.
Lemma up_plus : forall lo hi lo' hi' f f' g z, up lo hi f f' -> float_is g z -> lo' == lo + z -> hi' == hi + z -> is_float lo' -> is_float hi' ->
  - (16 * B100) <= lo' -> hi' <= 16 * B100 -> up lo' hi' (addf f g) (addf f' g).
Proof.
  intros lo hi lo' hi' f f' g z (p & p' & P1 & P1' & L & M & U) Hz E1 E2 F1 F2 B1 B2.
  apply (round_up lo' hi' (p + z) (p' + z)); auto; try lra; apply add_rounds; assumption.
Qed.
Lemma up_minus : forall lo hi lo' hi' f f' g z, up lo hi f f' -> float_is g z -> lo' == lo - z -> hi' == hi - z -> is_float lo' -> is_float hi' ->
  - (16 * B100) <= lo' -> hi' <= 16 * B100 -> up lo' hi' (subf f g) (subf f' g).
Proof.
  intros lo hi lo' hi' f f' g z (p & p' & P1 & P1' & L & M & U) Hz E1 E2 F1 F2 B1 B2.
  apply (round_up lo' hi' (p - z) (p' - z)); auto; try lra; apply sub_rounds; assumption.
Qed.
(** Scaling by [c] from the left. *)
Lemma scale_up : forall c lo hi lo' hi' f f' fc, up lo hi f f' -> float_is fc c -> 0 <= c -> lo' == c * lo -> hi' == c * hi -> is_float lo' -> is_float hi' ->
  - (16 * B100) <= lo' -> hi' <= 16 * B100 -> up lo' hi' (mulf fc f) (mulf fc f').
Proof.
  intros c lo hi lo' hi' f f' fc (p & p' & P1 & P1' & L & M & U) Hc C E1 E2 F1 F2 B1 B2.
  apply (round_up lo' hi' (c * p) (c * p')); auto; try (apply mul_rounds; assumption); rewrite ?E1, ?E2; nra.
Qed.
Lemma scale_down : forall c lo hi lo' hi' f f' fc, up lo hi f' f -> float_is fc (- c) -> 0 <= c -> lo' == - c * hi -> hi' == - c * lo -> is_float lo' -> is_float hi' ->
  - (16 * B100) <= lo' -> hi' <= 16 * B100 -> up lo' hi' (mulf fc f) (mulf fc f').
Proof.
  intros c lo hi lo' hi' f f' fc (p' & p & P1' & P1 & L & M & U) Hc C E1 E2 F1 F2 B1 B2.
  apply (round_up lo' hi' (- c * p) (- c * p')); auto; try (apply mul_rounds; assumption); rewrite ?E1, ?E2; nra.
Qed.
Lemma pow2_up : forall f f', up (- (1)) 0 f f' -> up 0 1 (mulf f' f') (mulf f f).
Proof. intros. apply neg_neg; assumption. Qed.
Lemma pow3_up : forall f f', up (- (1)) 0 f f' -> up (- (1)) 0 (mulf (mulf f f) f) (mulf (mulf f' f') f').
Proof. intros. apply down_neg; [apply pow2_up|]; assumption. Qed.
Lemma pow4_up : forall f f', up (- (1)) 0 f f' -> up 0 1 (mulf (mulf (mulf f' f') f') f') (mulf (mulf (mulf f f) f) f).
Proof. intros. apply neg_neg; [apply pow3_up|]; assumption. Qed.
Lemma pow5_up : forall f f', up (- (1)) 0 f f' -> up (- (1)) 0 (mulf (mulf (mulf (mulf f f) f) f) f) (mulf (mulf (mulf (mulf f' f') f') f') f').
Proof. intros. apply down_neg; [apply pow4_up|]; assumption. Qed.
Lemma m1_pow : forall f, float_is f (- (1)) -> float_is (mulf f f) 1 /\ float_is (mulf (mulf f f) f) (- (1)) /\
  float_is (mulf (mulf (mulf f f) f) f) 1 /\ float_is (mulf (mulf (mulf (mulf f f) f) f) f) (- (1)).
Proof.
  intros f H. assert (A : float_is (mulf f f) 1) by (apply (mul_exact f f (- (1)) (- (1))); auto using one_float; ring).
  assert (B : float_is (mulf (mulf f f) f) (- (1))) by (apply (mul_exact _ f 1 (- (1))); auto using m1_float; ring).
  assert (C : float_is (mulf (mulf (mulf f f) f) f) 1) by (apply (mul_exact _ f (- (1)) (- (1))); auto using one_float; ring).
  split; [exact A|]. split; [exact B|]. split; [exact C|]. apply (mul_exact _ f 1 (- (1))); auto using m1_float; ring.
Qed.
Lemma zero_pow : forall f, float_is f 0 -> float_is (mulf f f) 0 /\ float_is (mulf (mulf f f) f) 0 /\
  float_is (mulf (mulf (mulf f f) f) f) 0 /\ float_is (mulf (mulf (mulf (mulf f f) f) f) f) 0.
Proof.
  intros f H. assert (A : float_is (mulf f f) 0) by (apply (mul_zero f f 0 0); auto; ring).
  assert (B : float_is (mulf (mulf f f) f) 0) by (apply (mul_zero _ f 0 0); auto; ring).
  assert (C : float_is (mulf (mulf (mulf f f) f) f) 0) by (apply (mul_zero _ f 0 0); auto; ring).
  split; [exact A|]. split; [exact B|]. split; [exact C|]. apply (mul_zero _ f 0 0); auto; ring.
Qed.
(** The part of the time left, with its sign. *)
Lemma left_up : forall f f' fd t t' d, float_is f t -> float_is f' t' -> float_is fd d -> 0 < d -> 0 <= t -> t <= t' -> t' <= d ->
  up (- (1)) 0 (subf (divf f fd) one) (subf (divf f' fd) one) /\ (t == 0 -> float_is (subf (divf f fd) one) (- (1))) /\ (t' == d -> float_is (subf (divf f' fd) one) 0).
Proof.
  intros f f' fd t t' d Hf Hf' Hd D L M U. pose proof one_b100.
  destruct (up_div f f' fd t t' d 1 Hf Hf' Hd D L M ltac:(change (inject_Z 1) with 1; lra) ltac:(lia)) as (A & B & C).
  change (inject_Z 1) with 1 in *. split; [|split].
  - apply (up_minus 0 1 (- (1)) 0 _ _ _ 1); auto using one_is, zero_float, m1_float; try lra; reflexivity.
  - intros E. apply (sub_exact _ _ 0 1); auto using one_is, m1_float. reflexivity.
  - intros E. apply (sub_exact _ _ 1 1); auto using one_is, zero_float; [apply C; lra|reflexivity].
Qed.
Ltac start_of H := destruct H as (?A & ?B & ?C).
Lemma cubic_out_good : good fcubic_out.
Proof.
  apply (good_from fcubic_out (fun t c d => mulf c (addf (mulf (mulf (subf (divf t d) one) (subf (divf t d) one)) (subf (divf t d) one)) one))); [reflexivity|].
  intros f f' fc fd t t' c d Hf Hf' Hc Hd L M U Dd Dc Bc. pose proof small_pos. pose proof one_b100. pose proof (valid_float _ _ Hc) as Fc.
  destruct (left_up f f' fd t t' d Hf Hf' Hd ltac:(lra) L M U) as (A & B & C). split; [|split].
  - apply (scale_up c 0 1); auto using zero_float; try lra. apply (up_plus (- (1)) 0 0 1 _ _ _ 1); auto using pow3_up, one_is, zero_float, one_float; try lra; reflexivity.
  - intros E. apply (mul_zero _ _ c 0); auto; [|ring]. apply (add_exact _ _ (- (1)) 1); auto using one_is, zero_float; [|reflexivity]. apply m1_pow, B, E.
  - intros E. apply one_mul; auto. apply (add_exact _ _ 0 1); auto using one_is, one_float; [|reflexivity]. apply zero_pow, C, E.
Qed.
Lemma quint_out_good : good fquint_out.
Proof.
  apply (good_from fquint_out (fun t c d => let t := subf (divf t d) one in mulf c (addf (mulf (mulf (mulf (mulf t t) t) t) t) one))); [reflexivity|].
  intros f f' fc fd t t' c d Hf Hf' Hc Hd L M U Dd Dc Bc. pose proof small_pos. pose proof one_b100. pose proof (valid_float _ _ Hc) as Fc. cbv zeta.
  destruct (left_up f f' fd t t' d Hf Hf' Hd ltac:(lra) L M U) as (A & B & C). split; [|split].
  - apply (scale_up c 0 1); auto using zero_float; try lra. apply (up_plus (- (1)) 0 0 1 _ _ _ 1); auto using pow5_up, one_is, zero_float, one_float; try lra; reflexivity.
  - intros E. apply (mul_zero _ _ c 0); auto; [|ring]. apply (add_exact _ _ (- (1)) 1); auto using one_is, zero_float; [|reflexivity]. apply m1_pow, B, E.
  - intros E. apply one_mul; auto. apply (add_exact _ _ 0 1); auto using one_is, one_float; [|reflexivity]. apply zero_pow, C, E.
Qed.
Lemma quart_out_good : good fquart_out.
Proof.
  apply (good_from fquart_out (fun t c d => let t := subf (divf t d) one in mulf (negf c) (subf (mulf (mulf (mulf t t) t) t) one))); [reflexivity|].
  intros f f' fc fd t t' c d Hf Hf' Hc Hd L M U Dd Dc Bc. pose proof small_pos. pose proof one_b100. pose proof (valid_float _ _ Hc) as Fc. cbv zeta.
  pose proof (opp_is _ _ Hc) as Hn. fold (negf fc) in Hn.
  destruct (left_up f f' fd t t' d Hf Hf' Hd ltac:(lra) L M U) as (A & B & C). split; [|split].
  - apply (scale_down c (- (1)) 0); auto using zero_float; try lra. apply (up_minus 0 1 (- (1)) 0 _ _ _ 1); auto using pow4_up, one_is, zero_float, m1_float; try lra; reflexivity.
  - intros E. apply (mul_zero _ _ (- c) 0); auto; [|ring]. apply (sub_exact _ _ 1 1); auto using one_is, zero_float; [|reflexivity]. apply m1_pow, B, E.
  - intros E. apply (mul_exact _ _ (- c) (- (1))); auto; [|ring]. apply (sub_exact _ _ 0 1); auto using one_is, m1_float; [|reflexivity]. apply zero_pow, C, E.
Qed.

(** *** In and out *)
Lemma half_float : forall p, is_float p -> times_pow 2 1 (-100) <= p -> is_float (p / 2).
Proof.
  intros p (m & k & B & E) L. assert (K : (-149 < k \/ k = -149)%Z) by lia.
  destruct K as [K| ->].
  - exists m, (k - 1)%Z. split; [lia|]. rewrite E. unfold times_pow. rewrite (Qpower_minus (inject_Z 2) k 1) by discriminate. field.
  - exfalso. rewrite E in L. assert (X : times_pow 2 m (-149) <= times_pow 2 (2 ^ 24) (-149)) by (apply times_le; lia).
    assert (Y : times_pow 2 (2 ^ 24) (-149) < times_pow 2 1 (-100)) by reflexivity. lra.
Qed.
Lemma half_is' : forall f p, float_is f p -> times_pow 2 1 (-100) <= p -> float_is (divf f two) (p / 2).
Proof. intros f p H L. apply (div_exact f two p 2); auto using two_is; [discriminate|reflexivity|]. apply half_float; [apply (valid_float _ _ H)|exact L]. Qed.
Lemma mhalf_is : forall f p, float_is f p -> times_pow 2 1 (-100) <= p -> float_is (divf (negf f) two) (- (p / 2)).
Proof.
  intros f p H L. apply (div_exact (negf f) two (- p) 2); auto using two_is; [apply opp_is, H|discriminate|field|]. apply is_float_opp, half_float; [apply (valid_float _ _ H)|exact L].
Qed.
(** A curve of two branches, the first in [0, c/2] and the second in [c/2, c]. *)
Lemma good_halves : forall (k : fcurve) (g h : fl -> fl -> fl),
  (forall t b c d, k t b c d = nzf d (let t := divf t (divf d two) in if ltf t one then addf (g t c) b else addf (h t c) b)) ->
  (forall f f' fc c, float_is fc c -> times_pow 2 1 (-100) <= c -> c <= B100 -> up 0 1 f f' ->
    up 0 (c / 2) (g f fc) (g f' fc) /\ (float_is f 0 -> float_is (g f fc) 0)) ->
  (forall f f' fc c, float_is fc c -> times_pow 2 1 (-100) <= c -> c <= B100 -> up 1 2 f f' ->
    up (c / 2) c (h f fc) (h f' fc) /\ (float_is f' 2 -> float_is (h f' fc) c)) -> good k.
Proof.
  intros k g h Ek G H.
  apply (good_from k (fun t c d => let t := divf t (divf d two) in if ltf t one then g t c else h t c)).
  { intros t b c d. rewrite Ek. cbv zeta. destruct (ltf (divf t (divf d two)) one); reflexivity. }
  intros f f' fc fd t t' c d Hf Hf' Hc Hd L M U Dd Dc Bc. cbv zeta. pose proof small_pos. pose proof (half_is' _ _ Hd Dd) as Hh.
  destruct (up_div f f' (divf fd two) t t' (d / 2) 2 Hf Hf' Hh) as (A & B & C); [setoid_replace (d / 2) with (d * (1 # 2)) by field; lra|exact L|exact M| |lia|].
  { change (inject_Z 2) with 2. setoid_replace (d / 2 * 2) with d by field. exact U. }
  change (inject_Z 2) with 2 in *. set (x := divf f (divf fd two)) in *. set (x' := divf f' (divf fd two)) in *. clearbody x x'.
  destruct A as (p & p' & P1 & P1' & Lp & Mp & Up).
  assert (Bc2 : c / 2 == c * (1 # 2)) by field.
  assert (S1 : forall y v, float_is y v -> ltf y one = true <-> v < 1) by (intros y v Hy; apply (ltb_value _ _ v 1 Hy one_is)).
  assert (E0 : t == 0 -> float_is (if ltf x one then g x fc else h x fc) 0).
  { intros E. specialize (B E). rewrite (proj2 (S1 _ _ B)) by reflexivity. refine (proj2 (G x x fc c Hc Dc Bc _) B). exists 0, 0. repeat split; try apply B; lra. }
  assert (E1 : t' == d -> float_is (if ltf x' one then g x' fc else h x' fc) c).
  { intros E. assert (E' : t' == d / 2 * 2) by (rewrite E; field). specialize (C E'). destruct (ltf x' one) eqn:W; [apply (S1 _ _ C) in W; lra|].
    refine (proj2 (H x' x' fc c Hc Dc Bc _) C). exists 2, 2. repeat split; try apply C; lra. }
  split; [|split; assumption].
  destruct (ltf x one) eqn:W, (ltf x' one) eqn:W'.
  - apply (S1 _ _ P1) in W. apply (S1 _ _ P1') in W'. refine (up_weak _ _ _ _ _ _ (proj1 (G x x' fc c Hc Dc Bc _)) _ _); [|lra|lra].
    exists p, p'. repeat split; try apply P1; try apply P1'; lra.
  - apply (S1 _ _ P1) in W. assert (V : 1 <= p') by (apply Qnot_lt_le; intros X; apply (S1 _ _ P1') in X; congruence).
    destruct (proj1 (G x x fc c Hc Dc Bc ltac:(exists p, p; repeat split; try apply P1; lra))) as (a & a' & A1 & A1' & La & Ma & Ua).
    destruct (proj1 (H x' x' fc c Hc Dc Bc ltac:(exists p', p'; repeat split; try apply P1'; lra))) as (b & b' & B1 & B1' & Lb & Mb & Ub).
    exists a', b. split; [exact A1'|]. split; [exact B1|]. split; [lra|]. split; lra.
  - exfalso. apply (S1 _ _ P1') in W'. assert (V : 1 <= p) by (apply Qnot_lt_le; intros X; apply (S1 _ _ P1) in X; congruence). lra.
  - assert (V : 1 <= p) by (apply Qnot_lt_le; intros X; apply (S1 _ _ P1) in X; congruence).
    refine (up_weak _ _ _ _ _ _ (proj1 (H x x' fc c Hc Dc Bc _)) _ _); [|lra|lra]. exists p, p'. repeat split; try apply P1; try apply P1'; lra.
Qed.
Lemma first_half : forall n f f' fc c, float_is fc c -> times_pow 2 1 (-100) <= c -> c <= B100 -> up 0 1 f f' ->
    up 0 (c / 2) (times (S n) (divf fc two) f) (times (S n) (divf fc two) f') /\ (float_is f 0 -> float_is (times (S n) (divf fc two) f) 0).
Proof.
  intros n f f' fc c Hc Dc Bc Hu. pose proof small_pos. pose proof b100_pos. pose proof (half_is' _ _ Hc Dc) as Hh. assert (E : c / 2 == c * (1 # 2)) by field. split.
  - apply times_up; auto; lra.
  - intros H0'. apply (times_start n (c / 2)); auto.
Qed.
Lemma back_up : forall f f', up 1 2 f f' -> up (- (1)) 0 (subf f two) (subf f' two) /\ (float_is f' 2 -> float_is (subf f' two) 0).
Proof.
  intros f f' H. pose proof one_b100. split.
  - apply (up_minus 1 2 (- (1)) 0 _ _ _ 2); auto using two_is, zero_float, m1_float; try lra; reflexivity.
  - intros E. apply (sub_exact _ _ 2 2); auto using two_is, zero_float. reflexivity.
Qed.
Lemma quart_inOut_good : good fquart_inOut.
Proof.
  apply (good_halves fquart_inOut (fun t c => times 4 (divf c two) t) (fun t c => let t := subf t two in mulf (divf (negf c) two) (subf (mulf (mulf (mulf t t) t) t) two)));
    [reflexivity|exact (first_half 3)|].
  intros f f' fc c Hc Dc Bc Hu. cbv zeta. destruct (back_up f f' Hu) as [A B]. pose proof small_pos. pose proof one_b100.
  pose proof (mhalf_is _ _ Hc Dc) as Hh. assert (E : c / 2 == c * (1 # 2)) by field. pose proof (valid_float _ _ (half_is' _ _ Hc Dc)) as Fh. pose proof (valid_float _ _ Hc) as Fc. split.
  - apply (scale_down (c / 2) (- (2)) (- (1))); auto; try lra.
    apply (up_minus 0 1 (- (2)) (- (1)) _ _ _ 2); auto using pow4_up, two_is, m1_float; try lra; try reflexivity. apply is_float_opp, two_float.
  - intros E2. apply (mul_exact _ _ (- (c / 2)) (- (2))); auto; [|lra]. apply (sub_exact _ _ 0 2); auto using two_is; [|reflexivity|apply is_float_opp, two_float].
    apply zero_pow, B, E2.
Qed.
Lemma quint_inOut_good : good fquint_inOut.
Proof.
  apply (good_halves fquint_inOut (fun t c => times 5 (divf c two) t) (fun t c => let t := subf t two in mulf (divf c two) (addf (mulf (mulf (mulf (mulf t t) t) t) t) two)));
    [reflexivity|exact (first_half 4)|].
  intros f f' fc c Hc Dc Bc Hu. cbv zeta. destruct (back_up f f' Hu) as [A B]. pose proof small_pos. pose proof one_b100.
  pose proof (half_is' _ _ Hc Dc) as Hh. assert (E : c / 2 == c * (1 # 2)) by field. pose proof (valid_float _ _ Hh) as Fh. pose proof (valid_float _ _ Hc) as Fc. split.
  - apply (scale_up (c / 2) 1 2); auto; try lra.
    apply (up_plus (- (1)) 0 1 2 _ _ _ 2); auto using pow5_up, two_is, one_float, two_float; try lra; try reflexivity.
  - intros E2. apply (mul_exact _ _ (c / 2) 2); auto; [|lra]. apply (add_exact _ _ 0 2); auto using two_is, two_float; [|reflexivity].
    apply zero_pow, B, E2.
Qed.
(** Between 1 and 2 floats are multiples of 2^-23. *)
Lemma grid_12 : forall p, is_float p -> 1 <= p -> p <= 2 -> exists m, p == times_pow 2 m (-23) /\ (2 ^ 23 <= m <= 2 ^ 24)%Z.
Proof.
  intros p (m & k & B & E) L U.
  assert (O1 : 1 == times_pow 2 (2 ^ 23) (-23)) by reflexivity. assert (O2 : 2 == times_pow 2 (2 ^ 24) (-23)) by reflexivity.
  assert (K : (-23 <= k)%Z).
  { destruct (Z.le_gt_cases (-23) k) as [C|C]; [exact C|exfalso]. assert (X : times_pow 2 m k <= times_pow 2 (2 ^ 24 - 1) k) by (apply times_le; lia).
    assert (Y : times_pow 2 (2 ^ 23) (-23) == times_pow 2 (2 ^ 23 * 2 ^ (-23 - k)) k) by (apply times_shift; lia).
    assert (Z0 : (2 ^ 23 * 2 ^ (-23 - k) <= 2 ^ 24 - 1)%Z).
    { apply (times_le_iff _ _ k). rewrite <- Y, <- O1. lra. }
    assert (2 ^ 1 <= 2 ^ (-23 - k))%Z by (apply Z.pow_le_mono_r; lia). lia. }
  exists (m * 2 ^ (k - -23))%Z. rewrite (times_shift 2 m (-23) k) in E by lia. split; [exact E|].
  split; apply (times_le_iff _ _ (-23)); lra.
Qed.
Lemma quad_second : forall f p, float_is f p -> 1 <= p -> p <= 2 -> float_is (subf f one) (p - 1) /\ float_is (subf (subf f one) two) (p - 3).
Proof.
  intros f p H L U. destruct (grid_12 p (valid_float _ _ H) L U) as (m & E & B).
  assert (F1' : is_float (p - 1)).
  { assert (X : p - 1 == times_pow 2 (m - 2 ^ 23) (-23)) by (rewrite E; unfold times_pow, Z.sub; rewrite inject_Z_plus; change (inject_Z 2 ^ -23) with (1 # 8388608); change (inject_Z (- 2 ^ 23)) with (- (8388608)); field).
    destruct (small_grid (m - 2 ^ 23) (-23) ltac:(lia) ltac:(lia)) as (a & b & C & D). exists a, b. split; [exact C|]. rewrite X. exact D. }
  assert (F3 : is_float (p - 3)).
  { assert (X : p - 3 == times_pow 2 (m - 3 * 2 ^ 23) (-23)) by (rewrite E; unfold times_pow, Z.sub; rewrite inject_Z_plus; change (inject_Z 2 ^ -23) with (1 # 8388608); change (inject_Z (- (3 * 2 ^ 23))) with (- (25165824)); field).
    destruct (small_grid (m - 3 * 2 ^ 23) (-23) ltac:(lia) ltac:(lia)) as (a & b & C & D). exists a, b. split; [exact C|]. rewrite X. exact D. }
  assert (A : float_is (subf f one) (p - 1)) by (apply (sub_exact _ _ p 1); auto using one_is; reflexivity).
  split; [exact A|]. apply (sub_exact _ _ (p - 1) 2); auto using two_is. ring.
Qed.
Lemma quad_inOut_good : good fquad_inOut.
Proof.
  apply (good_halves fquad_inOut (fun t c => times 2 (divf c two) t) (fun t c => let t := subf t one in mulf (divf (negf c) two) (subf (mulf t (subf t two)) one)));
    [reflexivity|exact (first_half 1)|].
  intros f f' fc c Hc Dc Bc (p & p' & P1 & P1' & L & M & U). cbv zeta. pose proof small_pos. pose proof one_b100.
  destruct (quad_second f p P1 L ltac:(lra)) as [A1 A2]. destruct (quad_second f' p' P1' ltac:(lra) U) as [A1' A2'].
  pose proof (mhalf_is _ _ Hc Dc) as Hh. assert (E : c / 2 == c * (1 # 2)) by field. pose proof (valid_float _ _ (half_is' _ _ Hc Dc)) as Fh. pose proof (valid_float _ _ Hc) as Fc. split.
  - apply (scale_down (c / 2) (- (2)) (- (1))); auto; try lra.
    apply (up_minus (- (1)) 0 (- (2)) (- (1)) _ _ _ 1); auto using one_is, m1_float; try lra; try reflexivity; [|apply is_float_opp, two_float].
    apply (round_up (- (1)) 0 ((p' - 1) * (p' - 3)) ((p - 1) * (p - 3))); auto using zero_float, m1_float; try lra; try (apply mul_rounds; assumption); nra.
  - intros E2. pose proof (value_one _ _ _ P1' E2) as V. assert (M1 : float_is (mulf (subf f' one) (subf (subf f' one) two)) (- (1))).
    { apply (mul_exact _ _ (p' - 1) (p' - 3)); auto using m1_float. rewrite V. ring. }
    apply (mul_exact _ _ (- (c / 2)) (- (2))); auto; [|lra]. apply (sub_exact _ _ (- (1)) 1); auto using one_is; [reflexivity|apply is_float_opp, two_float].
Qed.

(** *** Linear *)
Lemma linear_is : forall f f' fb fc fd t t' b c d, float_is f t -> float_is f' t' -> float_is fb b -> float_is fc c -> float_is fd d ->
  0 <= t -> t <= t' -> t' <= d -> times_pow 2 1 (-20) <= d -> d <= times_pow 2 1 20 -> 0 <= c -> c <= times_pow 2 1 40 -> Qabs b <= times_pow 2 1 40 ->
  exists r r' q q', flinear f fb fc fd = Ok r /\ flinear f' fb fc fd = Ok r' /\ float_is r q /\ float_is r' q' /\ b <= q /\ q <= q' /\ (t == 0 -> q == b).
Proof.
  intros f f' fb fc fd t t' b c d Hf Hf' Hb Hc Hd L M U D1 D2 C0 C1 Bb. apply abs_bounds in Bb.
  assert (D0 : 0 < times_pow 2 1 (-20)) by reflexivity. assert (X60 : times_pow 2 1 40 * times_pow 2 1 20 <= times_pow 2 1 60) by (unfold Qle; vm_compute; discriminate).
  assert (X80 : times_pow 2 1 60 <= times_pow 2 1 80 * times_pow 2 1 (-20)) by (unfold Qle; vm_compute; discriminate).
  assert (XB : times_pow 2 1 60 + times_pow 2 1 80 + times_pow 2 1 40 <= B100) by (unfold Qle; vm_compute; discriminate).
  assert (F60 : is_float (times_pow 2 1 60)) by (apply pow_float; lia). assert (F80 : is_float (times_pow 2 1 80)) by (apply pow_float; lia).
  assert (Q40 : 0 < times_pow 2 1 40) by reflexivity. assert (Q60 : 0 < times_pow 2 1 60) by reflexivity. assert (Q80 : 0 < times_pow 2 1 80) by reflexivity.
  assert (Q20 : 0 < times_pow 2 1 20) by reflexivity.
  set (e20 := times_pow 2 1 20) in *. set (e40 := times_pow 2 1 40) in *. set (e60 := times_pow 2 1 60) in *. set (e80 := times_pow 2 1 80) in *. set (s20 := times_pow 2 1 (-20)) in *.
  clearbody e20 e40 e60 e80 s20. assert (N0 : ~ d == 0) by lra. pose proof b100_pos.
  destruct (round_up 0 e60 (c * t) (c * t') (mulf fc f) (mulf fc f')) as ((p & p' & P1 & P1' & Lp & Mp & Up) & _); auto using zero_float; try lra; try (apply mul_rounds; assumption); try nra.
  destruct (round_up 0 e80 (p / d) (p' / d) (divf (mulf fc f) fd) (divf (mulf fc f') fd)) as ((v & v' & V1 & V1' & Lv & Mv & Uv) & _); auto using zero_float; try lra; try (apply div_rounds; assumption).
  { apply Qle_shift_div_l; lra. }
  { apply Qle_shift_div_l; [lra|]. setoid_replace (p / d * d) with p by (field; exact N0). exact Mp. }
  { apply Qle_shift_div_r; [lra|]. nra. }
  destruct (in_range_is (v + b) _ ltac:(apply b100_range; lra) (add_rounds _ _ v b V1 Hb)) as (q & Q1 & Q2).
  destruct (in_range_is (v' + b) _ ltac:(apply b100_range; lra) (add_rounds _ _ v' b V1' Hb)) as (q' & Q1' & Q2').
  exists (addf (divf (mulf fc f) fd) fb), (addf (divf (mulf fc f') fd) fb), q, q'. unfold flinear. rewrite !(nz_ok fd d) by (assumption || lra).
  split; [reflexivity|]. split; [reflexivity|]. split; [exact Q1|]. split; [exact Q1'|]. split; [apply (nearest_above (v + b)); [exact Q2|apply (valid_float _ _ Hb)|lra]|].
  split; [apply (nearest_mono (v + b) (v' + b)); [apply b100_range; lra|lra|assumption|assumption]|].
  intros E. apply (value_one _ _ _ Q1). apply add_start; auto. apply (div_exact _ _ 0 d); auto using zero_float; [|field; exact N0]. apply (mul_zero _ _ c t); auto. rewrite E. ring.
Qed.
