(** Rounding to floats (the single-precision counterpart of RealProofs). *)
From Coq Require Import String Ascii ZArith NArith Arith Bool Lia List QArith Qabs Qpower Lqa.
From Coq Require Import Floats.SpecFloat.
From Verif Require Import Common JsonExactProofs RoundProofs Round32Proofs RealSpec RealProofs FltSpec.
Import ListNotations.
Local Open Scope Q_scope.

Definition float_ratio (neg : bool) (n d : positive) : spec_float := SFdiv 24 128 (S754_finite neg n 0) (S754_finite false d 0).

(** *** Rounding to floats *)
Lemma ratio_round : forall neg n d, exists N D R e, (0 < D)%Z /\ (0 <= N)%Z /\ nearest N D R /\ (0 <= R <= 2 ^ 24)%Z /\
  (-149 <= e)%Z /\ (e = -149 \/ 2 ^ 23 * D <= N)%Z /\
  inject_Z (Zpos n) / inject_Z (Zpos d) == inject_Z N / inject_Z D * inject_Z 2 ^ e /\ float_ratio neg n d = pack neg R e.
Proof.
  intros neg n d. unfold float_ratio. destruct (SFdiv_spec neg n 0 false d 0) as (e & s & R & H). cbv zeta in H.
  destruct H as (_ & Hs & S0 & He & Hn & Hp). replace s with (- e)%Z in * by lia. clear Hs.
  remember (Zpos n * 2 ^ (- e))%Z as N eqn:EN. remember (N / Zpos d)%Z as q eqn:Eqq.
  remember (Z.max (Zdigits2 q + e - 24) (-149)) as e' eqn:Ee'. remember (2 ^ (e' - e) * Zpos d)%Z as D eqn:ED.
  assert (P1 : (0 < 2 ^ (- e))%Z) by (apply Z.pow_pos_nonneg; lia).
  assert (P2 : (0 < 2 ^ (e' - e))%Z) by (apply Z.pow_pos_nonneg; lia).
  assert (HN : (0 < N)%Z) by (rewrite EN; lia). assert (HD : (0 < D)%Z) by (rewrite ED; lia).
  pose proof (Z.div_mod N (Zpos d) ltac:(lia)) as Dm. pose proof (Z.mod_pos_bound N (Zpos d) ltac:(lia)) as Mb. rewrite <- Eqq in Dm.
  assert (Hq : (0 <= q)%Z) by (rewrite Eqq; apply Z.div_pos; lia).
  assert (Q2 : (q + 1 <= 2 ^ 24 * 2 ^ (e' - e))%Z).
  { rewrite <- Z.pow_add_r by lia. destruct (Z.eq_dec q 0) as [E|E].
    - assert (1 <= 2 ^ (24 + (e' - e)))%Z by (apply (Z.pow_le_mono_r 2 0); lia). lia.
    - assert (Zdigits2 q <= e' - e + 24)%Z by lia. rewrite zdigits_log in H by lia.
      pose proof (Z.log2_spec q ltac:(lia)) as [_ L].
      assert (2 ^ Z.succ (Z.log2 q) <= 2 ^ (24 + (e' - e)))%Z by (apply Z.pow_le_mono_r; lia). lia. }
  assert (HB : (N < 2 ^ 24 * D)%Z).
  { rewrite ED. assert (N < (q + 1) * Zpos d)%Z by lia. nia. }
  pose proof (nearest_nonneg N D R HD ltac:(lia) Hn) as R0.
  exists N, D, R, e'. split; [exact HD|]. split; [lia|]. split; [exact Hn|]. split; [|split; [lia|]].
  - split; [exact R0|]. destruct Hn as [Hn _]. nia.
  - split; [|split].
    + destruct (Z.eq_dec e' (-149)) as [E|E]; [left; exact E|right].
      assert (E2 : (e' = Zdigits2 q + e - 24)%Z) by lia.
      destruct (Z.eq_dec q 0) as [Eq|Eq]; [rewrite Eq in E2; cbn [Zdigits2] in E2; lia|].
      rewrite zdigits_log in E2 by lia. pose proof (Z.log2_spec q ltac:(lia)) as [L _].
      rewrite ED. rewrite Z.mul_assoc, <- Z.pow_add_r by lia. replace (23 + (e' - e))%Z with (Z.log2 q) by lia. nia.
    + rewrite EN, ED. rewrite !inject_Z_mult, !Zpower_Qpower by lia.
      unfold Z.sub. rewrite Qpower_plus by (intros E; pose proof (inj_pos 2 ltac:(lia)); lra).
      rewrite !Qpower_opp. pose proof (pow_pos' 2 e ltac:(lia)). pose proof (pow_pos' 2 e' ltac:(lia)).
      pose proof (inj_pos (Zpos d) ltac:(lia)). field. repeat split; lra.
    + rewrite Hp. now rewrite xorb_false_r.
Qed.


Section Rounded.
  Variables (N D R e : Z) (x : Q).
  Hypotheses (HD : (0 < D)%Z) (HN : (0 <= N)%Z) (Hr : nearest N D R) (HR : (0 <= R <= 2 ^ 24)%Z) (He : (-149 <= e)%Z).
  Hypotheses (Hc : (e = -149 \/ 2 ^ 23 * D <= N)%Z) (Hx : x == inject_Z N / inject_Z D * inject_Z 2 ^ e).
  Hypothesis (Fits : (e < 104 \/ e = 104 /\ R < 2 ^ 24)%Z).

  Lemma rounded_carry : R = (2 ^ 24)%Z -> times_pow 2 R e == times_pow 2 (2 ^ 23) (e + 1).
  Proof.
    intros E. rewrite (times_shift 2 (2 ^ 23) e (e + 1)) by lia. replace (e + 1 - e)%Z with 1%Z by lia. rewrite E. reflexivity.
  Qed.
  Lemma rounded_float : is_float (times_pow 2 R e).
  Proof.
    destruct (Z.eq_dec R (2 ^ 24)) as [E|E].
    - exists (2 ^ 23)%Z, (e + 1)%Z. split; [split; [reflexivity|lia]|]. apply rounded_carry, E.
    - exists R, e. split; [lia|reflexivity].
  Qed.
  Lemma rounded_even : Z.even R = true -> even_float (times_pow 2 R e).
  Proof.
    intros Ev. destruct (Z.eq_dec R (2 ^ 24)) as [E|E].
    - exists (2 ^ 23)%Z, (e + 1)%Z. split; [split; [reflexivity|split; [lia|left; reflexivity]]|]. split; [reflexivity|]. apply rounded_carry, E.
    - exists R, e. split; [split; [lia|split; [lia|]]|split; [exact Ev|reflexivity]].
      destruct Hc as [C|C]; [right; exact C|left]. pose proof (nearest_ge N D R (2 ^ 23) HD Hr C). lia.
  Qed.
  Lemma rounded_cases : forall m k p, (Z.abs m < 2 ^ 24)%Z -> (-149 <= k)%Z -> p == times_pow 2 m k ->
    p == times_pow 2 R e \/ Qabs (times_pow 2 R e - x) < Qabs (p - x) \/
    (Qabs (times_pow 2 R e - x) == Qabs (p - x) /\ Z.even R = true /\
     exists r, p == times_pow 2 r e /\ (r = R + 1 \/ r = R - 1)%Z).
  Proof.
    intros m k p Hm Hk Ep.
    destruct (grid 2 24 e N D x R m k) as [G|[G|[G1 [G2 [r [G3 G4]]]]]]; try lia; try assumption.
    - left. rewrite Ep. exact G.
    - right. left. rewrite Ep. exact G.
    - right. right. split; [rewrite Ep; exact G1|]. split; [exact G2|]. exists r. split; [rewrite Ep; exact G3|exact G4].
  Qed.
  Lemma rounded_nearest : nearest_float x (times_pow 2 R e).
  Proof.
    split; [apply rounded_float|]. intros p (m & k & (Hm & Hk) & Ep) Ne.
    destruct (rounded_cases m k p Hm ltac:(lia) Ep) as [G|[G|[G1 [G2 _]]]]; [contradiction|left; exact G|right].
    split; [exact G1|apply rounded_even, G2].
  Qed.
  Lemma rounded_unique : forall q, nearest_float x q -> q == times_pow 2 R e.
  Proof.
    intros q [(m & k & (Hm & Hk) & Eq) Min].
    destruct (rounded_cases m k q Hm ltac:(lia) Eq) as [G|[G|[G1 [G2 [r [G3 G4]]]]]]; [exact G| |].
    - exfalso. destruct (Min (times_pow 2 R e) rounded_float) as [M|[M _]].
      + intros E. rewrite E in G. lra.
      + lra.
      + lra.
    - exfalso. destruct (Min (times_pow 2 R e) rounded_float) as [M|[_ (m' & k' & (B1 & B2 & B3) & Ev & E')]].
      + intros E. rewrite G3 in E. apply times_inj in E; lia.
      + lra.
      + assert (Or : Z.even r = false).
        { destruct G4 as [-> | ->]; [rewrite Z.even_add, G2; reflexivity|rewrite Z.even_sub, G2; reflexivity]. }
        destruct (Z.le_gt_cases e k') as [L|L].
        * rewrite G3 in E'. rewrite (times_shift 2 m' e k') in E' by lia. apply times_inj in E'; [|lia].
          rewrite E', Z.even_mul, Ev in Or. discriminate.
        * destruct Hc as [C|C]; [lia|]. pose proof (nearest_ge N D R (2 ^ 23) HD Hr C) as RL.
          rewrite G3 in E'. rewrite (times_shift 2 r k' e) in E' by lia. apply times_inj in E'; [|lia].
          assert (2 ^ 1 <= 2 ^ (e - k'))%Z by (apply Z.pow_le_mono_r; lia).
          assert (2 ^ 23 - 1 <= r)%Z by lia.
          assert (r <> 2 ^ 23 - 1)%Z.
          { intros E3. assert (R = 2 ^ 23)%Z by lia. destruct G4 as [G4|G4]; [lia|]. destruct Hr as [Hr1 _].
            assert (T : Qabs (times_pow 2 R e - x) == Qabs (times_pow 2 r e - x)) by (rewrite G1, G3; reflexivity).
            rewrite !(grid_dist 2 e N D x) in T by (lia || exact Hx). apply Qmult_inj_r in T; [|pose proof (grid_unit 2 e D ltac:(lia) HD); lra].
            unfold inject_Z, Qeq in T. cbn [Qnum Qden] in T. subst R. rewrite G4 in T. nia. }
          nia.
  Qed.
End Rounded.

(** *** Values of floats *)
Lemma valid_iff : forall s m e, valid_binary 24 128 (S754_finite s m e) = true <->
  (Zpos m < 2 ^ 24 /\ -149 <= e <= 104 /\ (2 ^ 23 <= Zpos m \/ e = -149))%Z.
Proof.
  intros s m e. cbn [valid_binary]. unfold bounded, canonical_mantissa. rewrite andb_true_iff, zeq_eqb, Z.eqb_eq, Z.leb_le, fexp_bounds.
  rewrite digits2_log. change (128 - 24)%Z with 104%Z.
  assert (P : (Z.log2 (Zpos m) < 24 <-> Zpos m < 2 ^ 24)%Z) by (symmetry; apply Z.log2_lt_pow2; lia).
  assert (P2 : (23 <= Z.log2 (Zpos m) <-> 2 ^ 23 <= Zpos m)%Z) by (symmetry; apply Z.log2_le_pow2; lia).
  rewrite <- P, <- P2. lia.
Qed.
Lemma pack_value : forall neg R e, (0 <= R <= 2 ^ 24)%Z -> (-149 <= e)%Z -> (e < 104 \/ e = 104 /\ R < 2 ^ 24)%Z ->
  (e = -149 \/ 2 ^ 23 <= R)%Z ->
  valid_binary 24 128 (pack neg R e) = true /\ has_value (pack neg R e) (sgn_of neg (times_pow 2 R e)).
Proof.
  intros neg R e HR He Fits Hc. unfold pack. destruct (Z.eqb_spec R 0) as [->|N0].
  - split; [reflexivity|]. cbn [has_value]. destruct neg; cbn [sgn_of]; rewrite times_zero; reflexivity.
  - assert (V : forall M E, (0 < M)%Z -> times_pow 2 R e == times_pow 2 M E ->
      has_value (S754_finite neg (Z.to_pos M) E) (sgn_of neg (times_pow 2 R e))).
    { intros M E HM EM. cbn [has_value]. destruct neg; cbn [sgn_of]; rewrite EM.
      - change (Z.neg (Z.to_pos M)) with (- Z.pos (Z.to_pos M))%Z. rewrite times_opp, Z2Pos.id by lia. reflexivity.
      - rewrite Z2Pos.id by lia. reflexivity. }
    destruct (Z.eqb_spec R (2 ^ 24)) as [->|N1].
    + replace (e + 1 <=? 104)%Z with true by (symmetry; apply Z.leb_le; lia). split.
      * apply valid_iff. rewrite Z2Pos.id by lia. split; [reflexivity|]. split; [lia|left; lia].
      * apply V; [lia|]. rewrite (times_shift 2 (2 ^ 23) e (e + 1)) by lia. replace (e + 1 - e)%Z with 1%Z by lia. reflexivity.
    + replace (e <=? 104)%Z with true by (symmetry; apply Z.leb_le; lia). split.
      * apply valid_iff. rewrite Z2Pos.id by lia. split; [lia|]. split; [lia|]. destruct Hc; auto.
      * apply V; [lia|reflexivity].
Qed.
Lemma pack_overflow : forall neg R e, (0 < R <= 2 ^ 24)%Z -> ~ (e < 104 \/ e = 104 /\ R < 2 ^ 24)%Z -> pack neg R e = S754_infinity neg.
Proof.
  intros neg R e HR Nf. unfold pack. replace (R =? 0)%Z with false by (symmetry; apply Z.eqb_neq; lia).
  destruct (Z.eqb_spec R (2 ^ 24)) as [->|N1].
  - replace (e + 1 <=? 104)%Z with false by (symmetry; apply Z.leb_gt; lia). reflexivity.
  - replace (e <=? 104)%Z with false by (symmetry; apply Z.leb_gt; lia). reflexivity.
Qed.

(** *** Negative numbers *)
Lemma is_float_opp : forall q, is_float q -> is_float (- q).
Proof. intros q (m & e & B & E). exists (- m)%Z, e. split; [lia|]. rewrite times_opp, E. reflexivity. Qed.
Lemma even_float_opp : forall q, even_float q -> even_float (- q).
Proof. intros q (m & e & B & V & E). exists (- m)%Z, e. split; [lia|]. split; [rewrite Z.even_opp; exact V|]. rewrite times_opp, E. reflexivity. Qed.
Lemma nearest_opp : forall x q, nearest_float x q -> nearest_float (- x) (- q).
Proof.
  intros x q [H1 H2]. split; [apply is_float_opp, H1|]. intros p Hp Ne.
  destruct (H2 (- p)) as [C|[C1 C2]].
  - apply is_float_opp, Hp.
  - intros E. apply Ne. rewrite <- E. ring.
  - left. rewrite abs_opp_dist. rewrite <- (abs_opp_dist (- p) x) in C. rewrite Qopp_involutive in C. exact C.
  - right. split; [|apply even_float_opp, C2]. rewrite abs_opp_dist. rewrite <- (abs_opp_dist (- p) x) in C1. rewrite Qopp_involutive in C1. exact C1.
Qed.
Lemma nearest_wd : forall x y q, x == y -> nearest_float x q -> nearest_float y q.
Proof.
  intros x y q E [H1 H2]. split; [exact H1|]. intros p Hp Ne. destruct (H2 p Hp Ne) as [C|[C D]]; rewrite E in C; auto.
Qed.
Lemma nearest_wd2 : forall x q r, q == r -> nearest_float x q -> nearest_float x r.
Proof.
  intros x q r E [(m & e & B & E1) H2]. split.
  - exists m, e. split; [exact B|]. rewrite <- E. exact E1.
  - intros p Hp Ne. destruct (H2 p Hp) as [C|[C (m' & e' & B' & V & D)]].
    + intros C. apply Ne. rewrite C. exact E.
    + left. rewrite <- E. exact C.
    + right. split; [rewrite <- E; exact C|]. exists m', e'. split; [exact B'|]. split; [exact V|]. rewrite <- E. exact D.
Qed.

(** A float is the one nearest to itself. *)
Lemma float_self : forall q r, is_float q -> nearest_float q r -> r == q.
Proof.
  intros q r Hq [Hr Min]. destruct (Qeq_dec q r) as [E|N]; [rewrite E; reflexivity|].
  destruct (Min q Hq N) as [C|[C _]].
  - assert (Z0 : Qabs (q - q) == 0) by (setoid_replace (q - q) with 0 by ring; reflexivity). pose proof (Qabs_nonneg (r - q)). lra.
  - assert (Z0 : Qabs (q - q) == 0) by (setoid_replace (q - q) with 0 by ring; reflexivity). rewrite Z0 in C.
    destruct (Qlt_le_dec (r - q) 0) as [L|L]; [rewrite Qabs_neg in C by lra|rewrite Qabs_pos in C by lra]; lra.
Qed.
Lemma zero_float : is_float 0.
Proof. exists 0%Z, 0%Z. split; [split; [reflexivity|lia]|reflexivity]. Qed.
Lemma self_nearest : forall q, is_float q -> nearest_float q q.
Proof.
  intros q Hq. split; [exact Hq|]. intros p Hp N. left.
  setoid_replace (q - q) with 0 by ring. change (Qabs 0) with 0.
  destruct (Qlt_le_dec (p - q) 0) as [L|L]; [rewrite Qabs_neg by lra; lra|rewrite Qabs_pos by lra].
  destruct (Qle_lt_or_eq _ _ L) as [C|C]; [exact C|]. exfalso. apply N. lra.
Qed.

Lemma same_fields : forall s m e s' m' e', valid_binary 24 128 (S754_finite s m e) = true -> valid_binary 24 128 (S754_finite s' m' e') = true ->
  times_pow 2 (if s then Zneg m else Zpos m) e == times_pow 2 (if s' then Zneg m' else Zpos m') e' -> (e <= e')%Z ->
  S754_finite s m e = S754_finite s' m' e'.
Proof.
  intros s m e s' m' e' V V' E L. apply valid_iff in V, V'. rewrite (times_shift 2 _ e e') in E by lia. apply times_inj in E; [|lia].
  destruct (Z.eq_dec e e') as [->|N].
  - rewrite Z.sub_diag, Z.pow_0_r, Z.mul_1_r in E. destruct s, s'; congruence.
  - exfalso. assert (2 ^ 1 <= 2 ^ (e' - e))%Z by (apply Z.pow_le_mono_r; lia). destruct s, s'; nia.
Qed.
Lemma same_value : forall f g q, valid_binary 24 128 f = true -> valid_binary 24 128 g = true -> has_value f q -> has_value g q -> ~ q == 0 -> f = g.
Proof.
  intros [s|s| |s m e] [s'|s'| |s' m' e'] q V V' H H' N; cbn [has_value] in *; try contradiction.
  rewrite H in H'. destruct (Z.le_ge_cases e e') as [L|L].
  - apply same_fields; assumption.
  - symmetry. apply same_fields; try assumption. symmetry. exact H'.
Qed.
