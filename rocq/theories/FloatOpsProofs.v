(** The operations on floats round the exact results. *)
From Coq Require Import String Ascii ZArith NArith Arith Bool Lia List QArith Qabs Qround Qpower Lqa.
From Coq Require Import Floats.SpecFloat.
From Verif Require Import Common JsonNumModel JsonExactProofs RoundProofs Round32Proofs RealSpec RealProofs FltSpec RealTextProofs FltGapProofs Flt32Proofs Flt32ReadProofs AngleSpec.
Import ListNotations.
Local Open Scope Q_scope.

(** *** Nearest floats *)
Lemma in_range_wd : forall x y, x == y -> in_range x -> in_range y.
Proof. intros x y E H. unfold in_range in *. rewrite <- E. exact H. Qed.
Lemma nearest_pos_unique : forall x q r, 0 < x -> in_range x -> nearest_float x q -> nearest_float x r -> q == r.
Proof.
  intros x q r Hx Hb Hq Hr. unfold in_range in Hb. rewrite Qabs_pos in Hb by lra.
  destruct (as_ratio x Hx) as (n & d & Ex).
  destruct (ratio_round false n d) as (N & D & R & e & HD & HN & HR' & HR & He & Hc & Er & _). rewrite <- Ex in Er.
  assert (Fits : (e < 104 \/ e = 104 /\ R < 2 ^ 24)%Z) by (apply (fits32 N D R e x); assumption).
  rewrite (rounded_unique N D R e x HD HR' HR He Hc Er Fits q Hq). rewrite (rounded_unique N D R e x HD HR' HR He Hc Er Fits r Hr). reflexivity.
Qed.
Lemma nearest_unique : forall x q r, in_range x -> nearest_float x q -> nearest_float x r -> q == r.
Proof.
  intros x q r Hb Hq Hr. destruct (Q_dec x 0) as [[L|L]|E].
  - assert (- q == - r).
    { apply (nearest_pos_unique (- x)); [lra| |apply nearest_opp, Hq|apply nearest_opp, Hr]. unfold in_range. rewrite Qabs_opp. exact Hb. }
    lra.
  - apply (nearest_pos_unique x); assumption.
  - apply (nearest_wd _ 0 _ E) in Hq, Hr. rewrite (float_self 0 q zero_float Hq), (float_self 0 r zero_float Hr). reflexivity.
Qed.
Lemma nearest_min : forall x q p, nearest_float x q -> is_float p -> Qabs (q - x) <= Qabs (p - x).
Proof.
  intros x q p [Hq Hm] Hp. destruct (Qeq_dec p q) as [E|N]; [rewrite E; apply Qle_refl|].
  destruct (Hm p Hp N) as [C|[C _]]; [apply Qlt_le_weak, C|rewrite C; apply Qle_refl].
Qed.
Lemma nearest_mono : forall x y q r, in_range x -> x <= y -> nearest_float x q -> nearest_float y r -> q <= r.
Proof.
  intros x y q r Hb L Hq Hr. apply Qnot_lt_le. intros C.
  pose proof (nearest_min x q r Hq (proj1 Hr)) as A. pose proof (nearest_min y r q Hr (proj1 Hq)) as B.
  assert (E : x == y).
  { revert A B. apply Qabs_case; apply Qabs_case; apply Qabs_case; apply Qabs_case; intros; lra. }
  assert (q == r) by (apply (nearest_unique x); [exact Hb|exact Hq|apply (nearest_wd y); [symmetry; exact E|exact Hr]]). lra.
Qed.
Lemma nearest_above : forall x q a, nearest_float x q -> is_float a -> a <= x -> a <= q.
Proof.
  intros x q a Hq Ha L. apply Qnot_lt_le. intros C. pose proof (nearest_min x q a Hq Ha) as A.
  revert A. apply Qabs_case; apply Qabs_case; intros; lra.
Qed.
Lemma nearest_below : forall x q a, nearest_float x q -> is_float a -> x <= a -> q <= a.
Proof.
  intros x q a Hq Ha L. apply Qnot_lt_le. intros C. pose proof (nearest_min x q a Hq Ha) as A.
  revert A. apply Qabs_case; apply Qabs_case; intros; lra.
Qed.
(** A multiple of 2^k at most half a step away. *)
Lemma grid_near : forall x k, exists m, Qabs (times_pow 2 m k - x) <= times_pow 2 1 (k - 1).
Proof.
  intros x k. pose proof (pow_pos' 2 k ltac:(lia)) as P. exists (Qfloor (x / inject_Z 2 ^ k + (1 # 2)))%Z.
  pose proof (Qfloor_le (x / inject_Z 2 ^ k + (1 # 2))) as A. pose proof (Qlt_floor (x / inject_Z 2 ^ k + (1 # 2))) as B.
  set (m := Qfloor (x / inject_Z 2 ^ k + (1 # 2))) in *. clearbody m. rewrite inject_Z_plus in B.
  assert (E : times_pow 2 1 (k - 1) == (1 # 2) * inject_Z 2 ^ k).
  { unfold times_pow, Z.sub. rewrite Qpower_plus by (intros C; discriminate C). change (inject_Z 2 ^ (- (1))) with (1 # 2). change (inject_Z 1) with 1. ring. }
  rewrite E. unfold times_pow. set (g := inject_Z 2 ^ k) in *. clearbody g.
  assert (Ex : x == x / g * g) by (field; lra). set (y := x / g) in *. clearbody y.
  rewrite Ex. setoid_replace (inject_Z m * g - y * g) with ((inject_Z m - y) * g) by ring.
  rewrite Qabs_Qmult, (Qabs_pos g) by lra. apply Qmult_le_compat_r; [|lra]. change (inject_Z 1) with 1 in B.
  apply Qabs_case; intros; lra.
Qed.
Lemma small_grid : forall m k, (Z.abs m <= 2 ^ 24)%Z -> (-149 <= k <= 103)%Z -> is_float (times_pow 2 m k).
Proof.
  intros m k Hm Hk. destruct (Z.eq_dec (Z.abs m) (2 ^ 24)) as [E|E]; [|exists m, k; split; [lia|reflexivity]].
  exists (m / 2)%Z, (k + 1)%Z. assert (m = 2 ^ 24 \/ m = - 2 ^ 24)%Z as [-> | ->] by lia; (split; [split; [reflexivity|lia]|]);
  rewrite (times_shift 2 _ k (k + 1)) by lia; replace (k + 1 - k)%Z with 1%Z by lia; reflexivity.
Qed.
Lemma times_le : forall m m' k, (m <= m')%Z -> times_pow 2 m k <= times_pow 2 m' k.
Proof. intros m m' k H. unfold times_pow. apply Qmult_le_compat_r; [rewrite <- Zle_Qle; exact H|]. pose proof (pow_pos' 2 k ltac:(lia)). lra. Qed.
Lemma times_le_iff : forall m m' k, times_pow 2 m k <= times_pow 2 m' k <-> (m <= m')%Z.
Proof.
  intros m m' k. split; [|apply times_le]. intros H. unfold times_pow in H. rewrite Qmult_le_r in H by (apply pow_pos'; lia).
  rewrite Zle_Qle. exact H.
Qed.
(** The error of rounding: at most half a step. *)
Lemma nearest_error : forall x q k, (-149 <= k <= 103)%Z -> Qabs x <= times_pow 2 (2 ^ 24) k -> nearest_float x q ->
  Qabs (q - x) <= times_pow 2 1 (k - 1).
Proof.
  intros x q k Hk Hx Hq. destruct (grid_near x k) as [m Hm].
  eapply Qle_trans; [apply (nearest_min x q (times_pow 2 m k) Hq)|exact Hm]. apply small_grid; [|exact Hk].
  assert (E : times_pow 2 1 (k - 1) == (1 # 2) * times_pow 2 1 k).
  { unfold times_pow, Z.sub. rewrite Qpower_plus by (intros C; discriminate C). change (inject_Z 2 ^ (- (1))) with (1 # 2). change (inject_Z 1) with 1. ring. }
  assert (P : 0 < times_pow 2 1 k) by (unfold times_pow; pose proof (pow_pos' 2 k ltac:(lia)); change (inject_Z 1) with 1; lra).
  assert (U : times_pow 2 m k < times_pow 2 (2 ^ 24 + 1) k).
  { assert (S : times_pow 2 (2 ^ 24 + 1) k == times_pow 2 (2 ^ 24) k + times_pow 2 1 k) by (unfold times_pow; rewrite inject_Z_plus; ring).
    rewrite S. revert Hm Hx. apply Qabs_case; apply Qabs_case; intros; lra. }
  assert (V : times_pow 2 (- (2 ^ 24 + 1)) k < times_pow 2 m k).
  { assert (S : times_pow 2 (- (2 ^ 24 + 1)) k == - times_pow 2 (2 ^ 24) k - times_pow 2 1 k) by (unfold times_pow; rewrite inject_Z_opp, inject_Z_plus; ring).
    rewrite S. revert Hm Hx. apply Qabs_case; apply Qabs_case; intros; lra. }
  unfold times_pow in U, V. rewrite Qmult_lt_r in U, V by (apply pow_pos'; lia). rewrite <- Zlt_Qlt in U, V. lia.
Qed.

(** *** Rounding *)
Lemma sgn_abs : forall s y, 0 <= y -> Qabs (sgn_of s y) == y.
Proof. intros [] y H; cbn [sgn_of]; [rewrite Qabs_opp|]; apply Qabs_pos, H. Qed.
Lemma float_of_wd : forall x y f, x == y -> float_of x f -> float_of y f.
Proof.
  intros x y f E [[B (q & V & N)]|[B F]]; [left|right].
  - split; [apply (in_range_wd x), B; exact E|]. exists q. split; [exact V|apply (nearest_wd x); assumption].
  - split; [intros C; apply B; apply (in_range_wd y), C; symmetry; exact E|]. rewrite F. f_equal.
    destruct (Qlt_le_dec x 0), (Qlt_le_dec y 0); try reflexivity; exfalso; lra.
Qed.
Lemma round_rounds : forall neg N D e, (0 < D)%Z -> (0 < N)%Z -> let q := (N / D)%Z in (e <= Z.max (Zdigits2 q + e - 24) (-149))%Z ->
  float_of (sgn_of neg (inject_Z N / inject_Z D * inject_Z 2 ^ e)) (binary_round_aux 24 128 neg q e (new_location D (N mod D))).
Proof.
  intros neg N D e HD HN q He. destruct (round_aux_spec neg N D e HD ltac:(lia) He) as (R & Hn & Hp). fold q in Hn, Hp. rewrite Hp. clear Hp.
  remember (Z.max (Zdigits2 q + e - 24) (-149)) as e' eqn:Ee'. remember (2 ^ (e' - e) * D)%Z as D' eqn:ED.
  assert (P2 : (0 < 2 ^ (e' - e))%Z) by (apply Z.pow_pos_nonneg; lia).
  assert (HD' : (0 < D')%Z) by (rewrite ED; lia).
  pose proof (Z.div_mod N D ltac:(lia)) as Dm. pose proof (Z.mod_pos_bound N D ltac:(lia)) as Mb. fold q in Dm.
  assert (Hq : (0 <= q)%Z) by (apply Z.div_pos; lia).
  assert (Q2 : (q + 1 <= 2 ^ 24 * 2 ^ (e' - e))%Z).
  { rewrite <- Z.pow_add_r by lia. destruct (Z.eq_dec q 0) as [E|E].
    - assert (1 <= 2 ^ (24 + (e' - e)))%Z by (apply (Z.pow_le_mono_r 2 0); lia). lia.
    - assert (Zdigits2 q <= e' - e + 24)%Z by lia. rewrite zdigits_log in H by lia.
      pose proof (Z.log2_spec q ltac:(lia)) as [_ L].
      assert (2 ^ Z.succ (Z.log2 q) <= 2 ^ (24 + (e' - e)))%Z by (apply Z.pow_le_mono_r; lia). lia. }
  assert (HB : (N < 2 ^ 24 * D')%Z).
  { rewrite ED. assert (N < (q + 1) * D)%Z by lia. nia. }
  assert (R0 : (0 <= R <= 2 ^ 24)%Z).
  { split; [apply (nearest_nonneg N D' R); [exact HD'|lia|exact Hn]|]. destruct Hn as [Hn _]. nia. }
  assert (Hc : (e' = -149 \/ 2 ^ 23 * D' <= N)%Z).
  { destruct (Z.eq_dec e' (-149)) as [E|E]; [left; exact E|right].
    assert (E2 : (e' = Zdigits2 q + e - 24)%Z) by lia.
    destruct (Z.eq_dec q 0) as [Eq|Eq]; [rewrite Eq in E2; cbn [Zdigits2] in E2; lia|].
    rewrite zdigits_log in E2 by lia. pose proof (Z.log2_spec q ltac:(lia)) as [L _].
    rewrite ED. rewrite Z.mul_assoc, <- Z.pow_add_r by lia. replace (23 + (e' - e))%Z with (Z.log2 q) by lia. nia. }
  set (y := inject_Z N / inject_Z D * inject_Z 2 ^ e).
  assert (Hx : y == inject_Z N / inject_Z D' * inject_Z 2 ^ e').
  { unfold y. rewrite ED. rewrite !inject_Z_mult, !Zpower_Qpower by lia.
    unfold Z.sub. rewrite Qpower_plus by (intros E; pose proof (inj_pos 2 ltac:(lia)); lra).
    rewrite !Qpower_opp. pose proof (pow_pos' 2 e ltac:(lia)). pose proof (pow_pos' 2 e' ltac:(lia)).
    pose proof (inj_pos D HD). field. repeat split; lra. }
  assert (Y0 : 0 < y).
  { unfold y. apply Qmult_lt_0_compat; [|apply pow_pos'; lia]. apply Qlt_shift_div_l; [apply inj_pos, HD|]. pose proof (inj_pos N HN). lra. }
  clearbody y.
  pose proof (fits32 N D' R e' y HD' ltac:(lia) Hn R0 ltac:(lia) Hc Hx) as F.
  assert (Hc' : (e' = -149 \/ 2 ^ 23 <= R)%Z) by (destruct Hc as [C|C]; [left; exact C|right; apply (nearest_ge N D' R); assumption]).
  assert (Fd : (e' < 104 \/ e' = 104 /\ R < 2 ^ 24)%Z \/ ~ (e' < 104 \/ e' = 104 /\ R < 2 ^ 24)%Z) by lia.
  destruct Fd as [Fits|Nf]; [left|right].
  - split; [unfold in_range; rewrite sgn_abs by lra; apply F, Fits|].
    pose proof (pack_value neg R e' R0 ltac:(lia) Fits Hc') as V. exists (sgn_of neg (times_pow 2 R e')). split; [exact V|].
    pose proof (rounded_nearest N D' R e' y HD' Hn R0 ltac:(lia) Hc Hx Fits) as Near.
    destruct neg; cbn [sgn_of]; [apply nearest_opp|]; exact Near.
  - split; [unfold in_range; rewrite sgn_abs by lra; intros C; apply Nf, F, C|].
    rewrite pack_overflow; [|lia|exact Nf]. f_equal. destruct neg; cbn [sgn_of]; destruct (Qlt_le_dec _ 0) as [L|L]; try reflexivity; exfalso; lra.
Qed.
Lemma new_location_one : new_location 1 0 = loc_Exact.
Proof. reflexivity. Qed.
Lemma exact_rounds : forall neg m e, (e <= Z.max (Zdigits2 (Zpos m) + e - 24) (-149))%Z ->
  float_of (sgn_of neg (times_pow 2 (Zpos m) e)) (binary_round_aux 24 128 neg (Zpos m) e loc_Exact).
Proof.
  intros neg m e He. pose proof (round_rounds neg (Zpos m) 1 e ltac:(lia) ltac:(lia)) as H. cbv zeta in H.
  rewrite Z.div_1_r, Z.mod_1_r in H. specialize (H He). rewrite new_location_one in H. refine (float_of_wd _ _ _ _ H).
  change (inject_Z 1) with 1. destruct neg; cbn [sgn_of]; unfold times_pow; field.
Qed.
Lemma align_value : forall m e e', let '(mz, ez) := shl_align m e e' in
  times_pow 2 (Zpos mz) ez == times_pow 2 (Zpos m) e /\ ez = Z.min e e' /\ Zpos mz = (Zpos m * 2 ^ (e - ez))%Z.
Proof.
  intros m e e'. unfold shl_align. destruct (e' - e)%Z as [|d|d] eqn:Ed.
  - split; [reflexivity|]. split; [lia|]. rewrite Z.sub_diag. lia.
  - split; [reflexivity|]. split; [lia|]. rewrite Z.sub_diag. lia.
  - assert (S : Zpos (shift_pos d m) = (Zpos m * 2 ^ (e - e'))%Z) by (rewrite shift_pos_correct, Z.mul_comm; replace (e - e')%Z with (Zpos d) by lia; rewrite Zpower_pos_nat, Zpower_nat_Z, positive_nat_Z; reflexivity).
    split; [rewrite (times_shift 2 (Zpos m) e' e) by lia; rewrite S; reflexivity|]. split; [lia|]. exact S.
Qed.
Lemma round_pos_rounds : forall neg m e, float_of (sgn_of neg (times_pow 2 (Zpos m) e)) (binary_round 24 128 neg m e).
Proof.
  intros neg m e. unfold binary_round. pose proof (align_value m e (fexp 24 128 (Z.pos (digits2_pos m) + e))) as A.
  destruct (shl_align m e (fexp 24 128 (Z.pos (digits2_pos m) + e))) as [mz ez]. destruct A as (A1 & A2 & A3).
  apply (float_of_wd (sgn_of neg (times_pow 2 (Zpos mz) ez))); [destruct neg; cbn [sgn_of]; rewrite A1; reflexivity|].
  apply exact_rounds. rewrite zdigits_log by lia. rewrite A3. rewrite log2_mul_pow2 by lia.
  rewrite fexp_bounds in A2. change (Z.pos (digits2_pos m)) with (Zdigits2 (Zpos m)) in A2. rewrite zdigits_log in A2 by lia. lia.
Qed.
Lemma zero_of : forall x s, x == 0 -> float_of x (S754_zero s).
Proof.
  intros x s E. left. split; [apply (in_range_wd 0); [symmetry; exact E|reflexivity]|]. exists 0. split; [split; reflexivity|].
  apply (nearest_wd 0); [symmetry; exact E|]. apply self_nearest, zero_float.
Qed.
Lemma normalize_rounds : forall m e z, float_of (times_pow 2 m e) (binary_normalize 24 128 m e z).
Proof.
  intros [|m|m] e z; cbn [binary_normalize].
  - apply zero_of, times_zero.
  - exact (round_pos_rounds false m e).
  - apply (float_of_wd (sgn_of true (times_pow 2 (Zpos m) e))); [cbn [sgn_of]; rewrite <- times_opp; reflexivity|]. apply round_pos_rounds.
Qed.

(** *** Finite floats *)
Lemma valid_float : forall f q, float_is f q -> is_float q.
Proof.
  intros [s|s| |s m e] q [V H]; cbn [has_value] in H; try contradiction.
  - destruct zero_float as (m & e & B & E). exists m, e. split; [exact B|]. rewrite H. exact E.
  - apply valid_iff in V. exists (if s then Zneg m else Zpos m), e. split; [destruct s; cbn [Z.abs]; lia|exact H].
Qed.
Lemma float_max : forall q, is_float q -> Qabs q <= times_pow 2 (2 ^ 24 - 1) 104.
Proof.
  intros q (m & e & B & E). rewrite E. rewrite (times_shift 2 (2 ^ 24 - 1) e 104) by lia.
  assert (A : Qabs (times_pow 2 m e) == times_pow 2 (Z.abs m) e).
  { unfold times_pow. rewrite Qabs_Qmult, (Qabs_pos (_ ^ _)) by (pose proof (pow_pos' 2 e ltac:(lia)); lra).
    apply Qmult_comp; [|reflexivity]. symmetry. apply inj_abs. }
  rewrite A. apply times_le. assert (1 <= 2 ^ (104 - e))%Z by (apply (Z.pow_le_mono_r 2 0); lia). nia.
Qed.
Lemma float_in_range : forall q, is_float q -> in_range q.
Proof.
  intros q H. unfold in_range. eapply Qle_lt_trans; [apply float_max, H|]. unfold Qlt. vm_compute. reflexivity.
Qed.
Lemma float_of_self : forall f q, float_is f q -> float_of q f.
Proof.
  intros f q H. pose proof (valid_float f q H) as F. left. split; [apply float_in_range, F|]. exists q. split; [exact H|apply self_nearest, F].
Qed.
Lemma float_is_wd : forall f p q, p == q -> float_is f p -> float_is f q.
Proof. intros [s|s| |s m e] p q E [V H]; split; try exact V; cbn [has_value] in *; try contradiction; rewrite <- E; exact H. Qed.
Lemma value_one : forall f p q, float_is f p -> float_is f q -> p == q.
Proof. intros [s|s| |s m e] p q [_ A] [_ B]; cbn [has_value] in *; try contradiction; rewrite A, B; reflexivity. Qed.
(** What is exactly a float is computed exactly. *)
Lemma exact_is : forall x f, is_float x -> float_of x f -> float_is f x.
Proof.
  intros x f H [[_ (q & V & N)]|[B _]]; [|exfalso; apply B, float_in_range, H].
  apply (float_is_wd f q); [apply float_self; assumption|exact V].
Qed.
Lemma in_range_is : forall x f, in_range x -> float_of x f -> exists q, float_is f q /\ nearest_float x q.
Proof. intros x f H [[_ E]|[B _]]; [exact E|contradiction]. Qed.

Definition zval (s : bool) (m : positive) : Z := if s then Zneg m else Zpos m.
Lemma zval_opp : forall s m, zval (negb s) m = (- zval s m)%Z.
Proof. intros [] m; reflexivity. Qed.
Lemma cond_zval : forall s m, cond_Zopp s (Zpos m) = zval s m.
Proof. intros [] m; reflexivity. Qed.
Lemma opp_is : forall f q, float_is f q -> float_is (SFopp f) (- q).
Proof.
  intros [s|s| |s m e] q [V H]; cbn [has_value SFopp] in *; try contradiction; (split; [exact V|]).
  - cbn [has_value]. rewrite H. reflexivity.
  - cbn [has_value]. rewrite H, <- times_opp. destruct s; reflexivity.
Qed.
Lemma abs_is : forall f q, float_is f q -> float_is (SFabs f) (Qabs q).
Proof.
  intros [s|s| |s m e] q [V H]; cbn [has_value SFabs] in *; try contradiction; (split; [exact V|]); cbn [has_value].
  - rewrite H. reflexivity.
  - rewrite H. unfold times_pow. rewrite Qabs_Qmult, (Qabs_pos (_ ^ _)) by (pose proof (pow_pos' 2 e ltac:(lia)); lra).
    apply Qmult_comp; [|reflexivity]. destruct s; reflexivity.
Qed.

(** *** Sums *)
Lemma times_sum : forall s1 m1 e1 s2 m2 e2, let e := Z.min e1 e2 in
  times_pow 2 (cond_Zopp s1 (Zpos (fst (shl_align m1 e1 e))) + cond_Zopp s2 (Zpos (fst (shl_align m2 e2 e)))) e ==
  times_pow 2 (zval s1 m1) e1 + times_pow 2 (zval s2 m2) e2.
Proof.
  intros s1 m1 e1 s2 m2 e2 e. pose proof (align_value m1 e1 e) as A. pose proof (align_value m2 e2 e) as B.
  destruct (shl_align m1 e1 e) as [a x], (shl_align m2 e2 e) as [b y]. cbn [fst]. destruct A as (_ & A2 & A3), B as (_ & B2 & B3).
  assert (Ex : x = e) by lia. assert (Ey : y = e) by lia. rewrite Ex in A3. rewrite Ey in B3. clear A2 B2 Ex Ey. rewrite !cond_zval.
  rewrite (times_shift 2 (zval s1 m1) e e1), (times_shift 2 (zval s2 m2) e e2) by lia.
  assert (F1 : zval s1 a = (zval s1 m1 * 2 ^ (e1 - e))%Z) by (destruct s1; cbn [zval]; [change (Zneg a) with (- Zpos a)%Z; change (Zneg m1) with (- Zpos m1)%Z; rewrite A3; ring|exact A3]).
  assert (F2 : zval s2 b = (zval s2 m2 * 2 ^ (e2 - e))%Z) by (destruct s2; cbn [zval]; [change (Zneg b) with (- Zpos b)%Z; change (Zneg m2) with (- Zpos m2)%Z; rewrite B3; ring|exact B3]).
  rewrite F1, F2. unfold times_pow. rewrite inject_Z_plus. ring.
Qed.
Lemma add_rounds : forall f g p q, float_is f p -> float_is g q -> float_of (p + q) (SFadd 24 128 f g).
Proof.
  intros f g p q Hf Hg. destruct f as [s1|s1| |s1 m1 e1], g as [s2|s2| |s2 m2 e2]; try (exfalso; exact (proj2 Hf)); try (exfalso; exact (proj2 Hg)).
  - destruct Hf as [_ A], Hg as [_ B]. cbn [has_value] in A, B. unfold SFadd. destruct (Bool.eqb s1 s2); apply zero_of; lra.
  - apply (float_of_wd q); [destruct Hf as [_ A]; cbn [has_value] in A; lra|]. apply float_of_self, Hg.
  - apply (float_of_wd p); [destruct Hg as [_ A]; cbn [has_value] in A; lra|]. apply float_of_self, Hf.
  - destruct Hf as [_ A], Hg as [_ B]. cbn [has_value] in A, B. unfold SFadd. cbv zeta.
    eapply float_of_wd; [|apply normalize_rounds]. rewrite times_sum, A, B. reflexivity.
Qed.
Lemma sub_rounds : forall f g p q, float_is f p -> float_is g q -> float_of (p - q) (SFsub 24 128 f g).
Proof.
  intros f g p q Hf Hg. pose proof (add_rounds f (SFopp g) p (- q) Hf (opp_is g q Hg)) as H.
  assert (E : SFsub 24 128 f g = SFadd 24 128 f (SFopp g)).
  { destruct f as [s1|s1| |s1 m1 e1], g as [s2|s2| |s2 m2 e2]; try reflexivity. cbn [SFopp]. unfold SFsub, SFadd. cbv zeta. f_equal.
    rewrite !cond_zval, zval_opp. lia. }
  rewrite E. exact H.
Qed.

(** *** Products and quotients *)
Lemma sgn_xor : forall s1 m1 e1 s2 m2 e2,
  sgn_of (xorb s1 s2) (times_pow 2 (Zpos (m1 * m2)) (e1 + e2)) == times_pow 2 (zval s1 m1) e1 * times_pow 2 (zval s2 m2) e2.
Proof.
  intros s1 m1 e1 s2 m2 e2. assert (E : times_pow 2 (Zpos (m1 * m2)) (e1 + e2) == times_pow 2 (Zpos m1) e1 * times_pow 2 (Zpos m2) e2).
  { unfold times_pow. rewrite Qpower_plus by (intros C; discriminate C). rewrite Pos2Z.inj_mul, inject_Z_mult. ring. }
  assert (O : forall m e, times_pow 2 (Zneg m) e == - times_pow 2 (Zpos m) e) by (intros m e; rewrite <- times_opp; reflexivity).
  destruct s1, s2; cbn [xorb sgn_of zval]; rewrite E, ?O; ring.
Qed.
Lemma mul_rounds : forall f g p q, float_is f p -> float_is g q -> float_of (p * q) (SFmul 24 128 f g).
Proof.
  intros f g p q Hf Hg. destruct f as [s1|s1| |s1 m1 e1], g as [s2|s2| |s2 m2 e2]; try (exfalso; exact (proj2 Hf)); try (exfalso; exact (proj2 Hg)).
  - destruct Hf as [_ A]. cbn [has_value] in A. apply zero_of. rewrite A. ring.
  - destruct Hf as [_ A]. cbn [has_value] in A. apply zero_of. rewrite A. ring.
  - destruct Hg as [_ A]. cbn [has_value] in A. apply zero_of. rewrite A. ring.
  - destruct Hf as [V A], Hg as [W B]. cbn [has_value] in A, B. apply valid_iff in V, W. cbn [SFmul].
    eapply float_of_wd; [|apply exact_rounds].
    + rewrite sgn_xor, A, B. reflexivity.
    + rewrite zdigits_log by lia. rewrite Pos2Z.inj_mul.
      assert (L : forall m, (2 ^ 23 <= Zpos m)%Z -> (23 <= Z.log2 (Zpos m))%Z) by (intros m H; apply Z.log2_le_pow2; lia).
      pose proof (Z.log2_nonneg (Zpos m1)). pose proof (Z.log2_nonneg (Zpos m2)).
      pose proof (Z.log2_mul_below (Zpos m1) (Zpos m2) ltac:(lia) ltac:(lia)).
      destruct V as (V1 & V2 & [V3|V3]), W as (W1 & W2 & [W3|W3]); try apply L in V3; try apply L in W3; lia.
Qed.
Lemma div_rounds : forall f g p q, float_is f p -> float_is g q -> ~ q == 0 -> float_of (p / q) (SFdiv 24 128 f g).
Proof.
  intros f g p q Hf Hg N0. destruct f as [s1|s1| |s1 m1 e1], g as [s2|s2| |s2 m2 e2]; try (exfalso; exact (proj2 Hf)); try (exfalso; exact (proj2 Hg));
    try (destruct Hg as [_ B]; cbn [has_value] in B; contradiction).
  - destruct Hf as [_ A]. cbn [has_value] in A. apply zero_of. rewrite A. field. exact N0.
  - destruct Hf as [_ A], Hg as [_ B]. cbn [has_value] in A, B.
    set (e := Z.min (Z.max (Zdigits2 (Z.pos m1) + e1 - (Zdigits2 (Z.pos m2) + e2) - 24) (-149)) (e1 - e2)).
    destruct (SFdiv_spec s1 m1 e1 s2 m2 e2) as (e'' & s & R & H). cbv zeta in H. destruct H as (E1 & E2 & S0 & He & _ & _). fold e in E1. subst e''.
    assert (P : (0 < 2 ^ s)%Z) by (apply Z.pow_pos_nonneg; lia).
    pose proof (round_rounds (xorb s1 s2) (Zpos m1 * 2 ^ s) (Zpos m2) e ltac:(lia) ltac:(lia) He) as G.
    assert (EF : SFdiv 24 128 (S754_finite s1 m1 e1) (S754_finite s2 m2 e2) =
      binary_round_aux 24 128 (xorb s1 s2) (Zpos m1 * 2 ^ s / Zpos m2) e (new_location (Zpos m2) ((Zpos m1 * 2 ^ s) mod Zpos m2))).
    { unfold SFdiv, SFdiv_core_binary. rewrite fexp_bounds. fold e. rewrite <- E2.
      assert (Em : match s with 0 => Z.pos m1 | Z.pos _ => Z.shiftl (Z.pos m1) s | Z.neg _ => 0 end%Z = (Zpos m1 * 2 ^ s)%Z).
      { destruct s as [|k|k]; [lia| |lia]. rewrite Z.shiftl_mul_pow2 by lia. reflexivity. }
      rewrite Em. unfold Z.div, Z.modulo. destruct (Z.div_eucl (Z.pos m1 * 2 ^ s) (Z.pos m2)) as [a b]. reflexivity. }
    rewrite EF. refine (float_of_wd _ _ _ _ G). rewrite A, B.
    assert (Y : inject_Z (Zpos m1 * 2 ^ s) / inject_Z (Zpos m2) * inject_Z 2 ^ e == times_pow 2 (Zpos m1) e1 / times_pow 2 (Zpos m2) e2).
    { rewrite inject_Z_mult, Zpower_Qpower by lia. unfold times_pow. replace e1 with (s + e + e2)%Z at 1 by lia.
      rewrite !Qpower_plus by (intros C; discriminate C). pose proof (pow_pos' 2 e2 ltac:(lia)). pose proof (inj_pos (Zpos m2) ltac:(lia)). field. lra. }
    pose proof (pow_pos' 2 e2 ltac:(lia)). pose proof (inj_pos (Zpos m2) ltac:(lia)).
    assert (Z0 : ~ times_pow 2 (Zpos m2) e2 == 0) by (unfold times_pow; intros C; apply Qmult_integral in C; destruct C as [C|C]; lra).
    assert (O : forall m k, times_pow 2 (Zneg m) k == - times_pow 2 (Zpos m) k) by (intros m k; rewrite <- times_opp; reflexivity).
    destruct s1, s2; cbn [xorb sgn_of]; rewrite Y, ?O; field; exact Z0.
Qed.

(** *** Comparisons *)
Lemma pos_compare : forall s m1 e1 m2 e2, valid_binary 24 128 (S754_finite s m1 e1) = true -> valid_binary 24 128 (S754_finite s m2 e2) = true ->
  match Z.compare e1 e2 with Lt => Lt | Gt => Gt | Eq => Pcompare m1 m2 Eq end = (times_pow 2 (Zpos m1) e1 ?= times_pow 2 (Zpos m2) e2).
Proof.
  intros s m1 e1 m2 e2 V W. apply valid_iff in V, W.
  assert (Lt1 : forall a x b y, (Zpos a < 2 ^ 24)%Z -> (-149 <= x)%Z -> (2 ^ 23 <= Zpos b \/ y = -149)%Z -> (x < y)%Z -> times_pow 2 (Zpos a) x < times_pow 2 (Zpos b) y).
  { intros a x b y Ha Hx Hb L. rewrite (times_shift 2 (Zpos b) x y) by lia. unfold times_pow. apply Qmult_lt_r; [apply pow_pos'; lia|].
    rewrite <- Zlt_Qlt. assert (2 ^ 1 <= 2 ^ (y - x))%Z by (apply Z.pow_le_mono_r; lia). nia. }
  destruct (Z.compare_spec e1 e2) as [->|L|L].
  - unfold times_pow. change (Pcompare m1 m2 Eq) with (Z.compare (Zpos m1) (Zpos m2)). symmetry.
    destruct (Z.compare_spec (Zpos m1) (Zpos m2)) as [->|C|C].
    + apply Qeq_alt. reflexivity.
    + apply -> Qlt_alt. apply Qmult_lt_r; [apply pow_pos'; lia|]. rewrite <- Zlt_Qlt. exact C.
    + apply -> Qgt_alt. apply Qmult_lt_r; [apply pow_pos'; lia|]. rewrite <- Zlt_Qlt. exact C.
  - symmetry. apply -> Qlt_alt. apply Lt1; lia.
  - symmetry. apply -> Qgt_alt. apply Lt1; lia.
Qed.
Lemma compare_value : forall f g p q, float_is f p -> float_is g q -> SFcompare f g = Some (p ?= q).
Proof.
  intros f g p q [V A] [W B].
  assert (P : forall m e, 0 < times_pow 2 (Zpos m) e).
  { intros m e. unfold times_pow. pose proof (pow_pos' 2 e ltac:(lia)). pose proof (inj_pos (Zpos m) ltac:(lia)). apply Qmult_lt_0_compat; assumption. }
  assert (O : forall m k, times_pow 2 (Zneg m) k == - times_pow 2 (Zpos m) k) by (intros m k; rewrite <- times_opp; reflexivity).
  destruct f as [s1|s1| |s1 m1 e1], g as [s2|s2| |s2 m2 e2]; cbn [has_value] in A, B; try contradiction; cbn [SFcompare]; f_equal; symmetry.
  - apply Qeq_alt. lra.
  - pose proof (P m2 e2). destruct s2; [apply -> Qgt_alt; rewrite O in B|apply -> Qlt_alt]; lra.
  - pose proof (P m1 e1). destruct s1; [apply -> Qlt_alt; rewrite O in A|apply -> Qgt_alt]; lra.
  - pose proof (P m2 e2). pose proof (P m1 e1). destruct s1, s2; try rewrite O in A; try rewrite O in B.
    + rewrite A, B. pose proof (pos_compare true m1 e1 m2 e2 V W) as C.
      replace (match (e1 ?= e2)%Z with Eq => CompOpp (Pos.compare_cont Eq m1 m2) | Lt => Gt | Gt => Lt end) with
        (CompOpp (match (e1 ?= e2)%Z with Eq => Pos.compare_cont Eq m1 m2 | Lt => Lt | Gt => Gt end)) by (destruct (e1 ?= e2)%Z; reflexivity).
      rewrite C. set (x := times_pow 2 (Zpos m1) e1) in *. set (y := times_pow 2 (Zpos m2) e2) in *. clearbody x y.
      destruct (Qcompare_spec x y) as [D|D|D]; cbn [CompOpp]; [apply Qeq_alt|apply -> Qgt_alt|apply -> Qlt_alt]; lra.
    + apply -> Qlt_alt. lra.
    + apply -> Qgt_alt. lra.
    + rewrite A, B. symmetry. exact (pos_compare false m1 e1 m2 e2 V W).
Qed.
Lemma ltb_value : forall f g p q, float_is f p -> float_is g q -> SFltb f g = true <-> p < q.
Proof.
  intros f g p q Hf Hg. unfold SFltb. rewrite (compare_value f g p q Hf Hg). rewrite Qlt_alt. destruct (p ?= q); split; congruence.
Qed.
Lemma leb_value : forall f g p q, float_is f p -> float_is g q -> SFleb f g = true <-> p <= q.
Proof.
  intros f g p q Hf Hg. unfold SFleb. rewrite (compare_value f g p q Hf Hg). rewrite Qle_alt. destruct (p ?= q); split; congruence.
Qed.
Lemma eqb_value : forall f g p q, float_is f p -> float_is g q -> SFeqb f g = true <-> p == q.
Proof.
  intros f g p q Hf Hg. unfold SFeqb. rewrite (compare_value f g p q Hf Hg). rewrite Qeq_alt. destruct (p ?= q); split; congruence.
Qed.
