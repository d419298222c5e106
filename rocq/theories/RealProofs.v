(** Proofs for RealSpec. *)
From Coq Require Import String Ascii ZArith NArith Arith Bool Lia List QArith Qabs Qpower Lqa.
From Coq Require Import Floats.SpecFloat.
From Verif Require Import Common JsonNumModel JsonExactProofs RoundProofs RealSpec.
Import ListNotations.
Local Open Scope Q_scope.

Lemma inj_pos : forall z, (0 < z)%Z -> 0 < inject_Z z.
Proof. intros z H. change 0 with (inject_Z 0). rewrite <- Zlt_Qlt. exact H. Qed.
Lemma inj_abs : forall z, Qabs (inject_Z z) == inject_Z (Z.abs z).
Proof. intros z. unfold inject_Z. cbn [Qabs]. reflexivity. Qed.
Lemma pow_pos' : forall b e, (0 < b)%Z -> 0 < inject_Z b ^ e.
Proof. intros b e H. apply Qpower_0_lt, inj_pos, H. Qed.
Lemma pow_nz : forall b e, (0 < b)%Z -> ~ inject_Z b ^ e == 0.
Proof. intros b e H E. pose proof (pow_pos' b e H). lra. Qed.
Lemma pow_split : forall b e k, (0 < b)%Z -> (e <= k)%Z -> inject_Z b ^ k == inject_Z (b ^ (k - e)) * inject_Z b ^ e.
Proof.
  intros b e k Hb H. rewrite Zpower_Qpower by lia. rewrite <- Qpower_plus.
  - replace (k - e + e)%Z with k by lia. reflexivity.
  - intros E. pose proof (inj_pos b Hb). lra.
Qed.
Lemma times_shift : forall b m e k, (0 < b)%Z -> (e <= k)%Z -> times_pow b m k == times_pow b (m * b ^ (k - e)) e.
Proof. intros b m e k Hb H. unfold times_pow. rewrite (pow_split b e k Hb H), inject_Z_mult. ring. Qed.
Lemma times_inj : forall b m m' e, (0 < b)%Z -> times_pow b m e == times_pow b m' e -> m = m'.
Proof.
  intros b m m' e Hb H. unfold times_pow in H. pose proof (pow_pos' b e Hb) as P. apply Qmult_inj_r in H; [|lra].
  unfold inject_Z, Qeq in H. cbn in H. lia.
Qed.

(** Distances on the grid of multiples of b^e. *)
Lemma grid_dist : forall b e N D x r, (0 < b)%Z -> (0 < D)%Z -> x == inject_Z N / inject_Z D * inject_Z b ^ e ->
  Qabs (times_pow b r e - x) == inject_Z (Z.abs (r * D - N)) * (inject_Z b ^ e / inject_Z D).
Proof.
  intros b e N D x r Hb HD ->. pose proof (pow_pos' b e Hb) as P. pose proof (inj_pos D HD) as PD. unfold times_pow.
  setoid_replace (inject_Z r * inject_Z b ^ e - inject_Z N / inject_Z D * inject_Z b ^ e) with
    (inject_Z (r * D - N) * (inject_Z b ^ e / inject_Z D)).
  - rewrite Qabs_Qmult, inj_abs. rewrite (Qabs_pos (_ / _)); [reflexivity|]. apply Qlt_le_weak. apply Qlt_shift_div_l; [exact PD|lra].
  - unfold Z.sub. rewrite inject_Z_plus, inject_Z_opp, inject_Z_mult. field. lra.
Qed.
Lemma grid_unit : forall b e D, (0 < b)%Z -> (0 < D)%Z -> 0 < inject_Z b ^ e / inject_Z D.
Proof. intros b e D Hb HD. apply Qlt_shift_div_l; [apply inj_pos, HD|]. pose proof (pow_pos' b e Hb). lra. Qed.

Lemma grid : forall b P e N D x R m k, (1 < b)%Z -> (1 <= P)%Z -> (0 < D)%Z ->
  x == inject_Z N / inject_Z D * inject_Z b ^ e -> nearest N D R -> (Z.abs m < b ^ P)%Z ->
  (e <= k \/ b ^ (P - 1) * D <= N)%Z ->
  let p := times_pow b m k in let q := times_pow b R e in
  p == q \/ Qabs (q - x) < Qabs (p - x) \/
  (Qabs (q - x) == Qabs (p - x) /\ Z.even R = true /\ exists r, p == times_pow b r e /\ (r = R + 1 \/ r = R - 1)%Z).
Proof.
  intros b P e N D x R m k Hb HP HD Hx [N1 N2] Hm Hk p q.
  pose proof (grid_unit b e D ltac:(lia) HD) as U.
  destruct (Z.le_gt_cases e k) as [L|L].
  - set (r := (m * b ^ (k - e))%Z). assert (Ep : p == times_pow b r e) by (apply times_shift; lia).
    destruct (Z.eq_dec r R) as [E|E]; [left; rewrite Ep, E; reflexivity|right].
    assert (Dq : Qabs (q - x) == inject_Z (Z.abs (R * D - N)) * (inject_Z b ^ e / inject_Z D)) by (apply grid_dist; lia || exact Hx).
    assert (Dp : Qabs (p - x) == inject_Z (Z.abs (r * D - N)) * (inject_Z b ^ e / inject_Z D)) by (rewrite Ep; apply grid_dist; lia || exact Hx).
    rewrite Dq, Dp. clear Dq Dp.
    assert (A : (Z.abs (R * D - N) <= Z.abs (r * D - N))%Z) by nia.
    destruct (Z.eq_dec (Z.abs (R * D - N)) (Z.abs (r * D - N))) as [Ea|Ea].
    + right. rewrite Ea. split; [reflexivity|]. assert (T : (2 * Z.abs (R * D - N) = D)%Z) by nia.
      split; [apply N2, T|]. exists r. split; [exact Ep|]. assert (2 * (r * D - N) = D \/ 2 * (r * D - N) = - D)%Z by lia.
      assert (2 * (R * D - N) = D \/ 2 * (R * D - N) = - D)%Z by lia.
      assert (((r - R) * D = D \/ (r - R) * D = - D \/ (r - R) * D = 0)%Z) by lia.
      destruct H1 as [H1|[H1|H1]]; [left; apply (Z.mul_cancel_r _ _ D); lia|right; apply (Z.mul_cancel_r _ _ D); lia|].
      exfalso. apply Z.mul_eq_0 in H1. lia.
    + left. apply Qmult_lt_r; [exact U|]. rewrite <- Zlt_Qlt. lia.
  - destruct Hk as [Hk|Hk]; [lia|]. right. left.
    set (l := (b ^ (P - 1))%Z). fold l in Hk. assert (Hl : (0 < l)%Z) by (apply Z.pow_pos_nonneg; lia).
    assert (Dq : Qabs (q - x) == inject_Z (Z.abs (R * D - N)) * (inject_Z b ^ e / inject_Z D)) by (apply grid_dist; lia || exact Hx).
    assert (Dl : Qabs (times_pow b l e - x) == inject_Z (Z.abs (l * D - N)) * (inject_Z b ^ e / inject_Z D)) by (apply grid_dist; lia || exact Hx).
    assert (C1 : Qabs (q - x) <= Qabs (times_pow b l e - x)).
    { rewrite Dq, Dl. apply Qmult_le_r; [exact U|]. rewrite <- Zle_Qle. destruct (Z.eq_dec l R) as [->|Ne]; [lia|nia]. }
    assert (C2 : times_pow b l e <= x).
    { rewrite Hx. unfold times_pow. apply Qmult_le_r; [apply pow_pos'; lia|]. apply Qle_shift_div_l; [apply inj_pos, HD|].
      rewrite <- inject_Z_mult, <- Zle_Qle. exact Hk. }
    assert (C3 : p < times_pow b l e).
    { unfold p. rewrite (times_shift b l k e) by lia. unfold times_pow. apply Qmult_lt_r; [apply pow_pos'; lia|].
      rewrite <- Zlt_Qlt. assert (b ^ P <= l * b ^ (e - k))%Z; [|lia].
      unfold l. rewrite <- Z.pow_add_r by lia. apply Z.pow_le_mono_r; lia. }
    eapply Qle_lt_trans; [exact C1|]. rewrite (Qabs_neg (times_pow b l e - x)) by lra. rewrite (Qabs_neg (p - x)) by lra. lra.
Qed.

(** *** Rounding to doubles *)
Lemma ratio_round : forall neg n d, exists N D R e, (0 < D)%Z /\ (0 <= N)%Z /\ nearest N D R /\ (0 <= R <= 2 ^ 53)%Z /\
  (-1074 <= e)%Z /\ (e = -1074 \/ 2 ^ 52 * D <= N)%Z /\
  inject_Z (Zpos n) / inject_Z (Zpos d) == inject_Z N / inject_Z D * inject_Z 2 ^ e /\ of_ratio neg n d = pack neg R e.
Proof.
  intros neg n d. unfold of_ratio. destruct (SFdiv_spec neg n 0 false d 0) as (e & s & R & H). cbv zeta in H.
  destruct H as (_ & Hs & S0 & He & Hn & Hp). replace s with (- e)%Z in * by lia. clear Hs.
  remember (Zpos n * 2 ^ (- e))%Z as N eqn:EN. remember (N / Zpos d)%Z as q eqn:Eqq.
  remember (Z.max (Zdigits2 q + e - 53) (-1074)) as e' eqn:Ee'. remember (2 ^ (e' - e) * Zpos d)%Z as D eqn:ED.
  assert (P1 : (0 < 2 ^ (- e))%Z) by (apply Z.pow_pos_nonneg; lia).
  assert (P2 : (0 < 2 ^ (e' - e))%Z) by (apply Z.pow_pos_nonneg; lia).
  assert (HN : (0 < N)%Z) by (rewrite EN; lia). assert (HD : (0 < D)%Z) by (rewrite ED; lia).
  pose proof (Z.div_mod N (Zpos d) ltac:(lia)) as Dm. pose proof (Z.mod_pos_bound N (Zpos d) ltac:(lia)) as Mb. rewrite <- Eqq in Dm.
  assert (Hq : (0 <= q)%Z) by (rewrite Eqq; apply Z.div_pos; lia).
  assert (Q2 : (q + 1 <= 2 ^ 53 * 2 ^ (e' - e))%Z).
  { rewrite <- Z.pow_add_r by lia. destruct (Z.eq_dec q 0) as [E|E].
    - assert (1 <= 2 ^ (53 + (e' - e)))%Z by (apply (Z.pow_le_mono_r 2 0); lia). lia.
    - assert (Zdigits2 q <= e' - e + 53)%Z by lia. rewrite zdigits_log in H by lia.
      pose proof (Z.log2_spec q ltac:(lia)) as [_ L].
      assert (2 ^ Z.succ (Z.log2 q) <= 2 ^ (53 + (e' - e)))%Z by (apply Z.pow_le_mono_r; lia). lia. }
  assert (HB : (N < 2 ^ 53 * D)%Z).
  { rewrite ED. assert (N < (q + 1) * Zpos d)%Z by lia. nia. }
  pose proof (nearest_nonneg N D R HD ltac:(lia) Hn) as R0.
  exists N, D, R, e'. split; [exact HD|]. split; [lia|]. split; [exact Hn|]. split; [|split; [lia|]].
  - split; [exact R0|]. destruct Hn as [Hn _]. nia.
  - split; [|split].
    + destruct (Z.eq_dec e' (-1074)) as [E|E]; [left; exact E|right].
      assert (E2 : (e' = Zdigits2 q + e - 53)%Z) by lia.
      destruct (Z.eq_dec q 0) as [Eq|Eq]; [rewrite Eq in E2; cbn [Zdigits2] in E2; lia|].
      rewrite zdigits_log in E2 by lia. pose proof (Z.log2_spec q ltac:(lia)) as [L _].
      rewrite ED. rewrite Z.mul_assoc, <- Z.pow_add_r by lia. replace (52 + (e' - e))%Z with (Z.log2 q) by lia. nia.
    + rewrite EN, ED. rewrite !inject_Z_mult, !Zpower_Qpower by lia.
      unfold Z.sub. rewrite Qpower_plus by (intros E; pose proof (inj_pos 2 ltac:(lia)); lra).
      rewrite !Qpower_opp. pose proof (pow_pos' 2 e ltac:(lia)). pose proof (pow_pos' 2 e' ltac:(lia)).
      pose proof (inj_pos (Zpos d) ltac:(lia)). field. repeat split; lra.
    + rewrite Hp. now rewrite xorb_false_r.
Qed.

Lemma nearest_ge : forall N D R l, (0 < D)%Z -> nearest N D R -> (l * D <= N)%Z -> (l <= R)%Z.
Proof. intros N D R l HD [H _] L. nia. Qed.

Section Rounded.
  Variables (N D R e : Z) (x : Q).
  Hypotheses (HD : (0 < D)%Z) (HN : (0 <= N)%Z) (Hr : nearest N D R) (HR : (0 <= R <= 2 ^ 53)%Z) (He : (-1074 <= e)%Z).
  Hypotheses (Hc : (e = -1074 \/ 2 ^ 52 * D <= N)%Z) (Hx : x == inject_Z N / inject_Z D * inject_Z 2 ^ e).
  Hypothesis (Fits : (e < 971 \/ e = 971 /\ R < 2 ^ 53)%Z).

  Lemma rounded_carry : R = (2 ^ 53)%Z -> times_pow 2 R e == times_pow 2 (2 ^ 52) (e + 1).
  Proof.
    intros E. rewrite (times_shift 2 (2 ^ 52) e (e + 1)) by lia. replace (e + 1 - e)%Z with 1%Z by lia. rewrite E. reflexivity.
  Qed.
  Lemma rounded_double : is_double (times_pow 2 R e).
  Proof.
    destruct (Z.eq_dec R (2 ^ 53)) as [E|E].
    - exists (2 ^ 52)%Z, (e + 1)%Z. split; [split; [reflexivity|lia]|]. apply rounded_carry, E.
    - exists R, e. split; [lia|reflexivity].
  Qed.
  Lemma rounded_even : Z.even R = true -> even_double (times_pow 2 R e).
  Proof.
    intros Ev. destruct (Z.eq_dec R (2 ^ 53)) as [E|E].
    - exists (2 ^ 52)%Z, (e + 1)%Z. split; [split; [reflexivity|split; [lia|left; reflexivity]]|]. split; [reflexivity|]. apply rounded_carry, E.
    - exists R, e. split; [split; [lia|split; [lia|]]|split; [exact Ev|reflexivity]].
      destruct Hc as [C|C]; [right; exact C|left]. pose proof (nearest_ge N D R (2 ^ 52) HD Hr C). lia.
  Qed.
  Lemma rounded_cases : forall m k p, (Z.abs m < 2 ^ 53)%Z -> (-1074 <= k)%Z -> p == times_pow 2 m k ->
    p == times_pow 2 R e \/ Qabs (times_pow 2 R e - x) < Qabs (p - x) \/
    (Qabs (times_pow 2 R e - x) == Qabs (p - x) /\ Z.even R = true /\
     exists r, p == times_pow 2 r e /\ (r = R + 1 \/ r = R - 1)%Z).
  Proof.
    intros m k p Hm Hk Ep.
    destruct (grid 2 53 e N D x R m k) as [G|[G|[G1 [G2 [r [G3 G4]]]]]]; try lia; try assumption.
    - left. rewrite Ep. exact G.
    - right. left. rewrite Ep. exact G.
    - right. right. split; [rewrite Ep; exact G1|]. split; [exact G2|]. exists r. split; [rewrite Ep; exact G3|exact G4].
  Qed.
  Lemma rounded_nearest : nearest_double x (times_pow 2 R e).
  Proof.
    split; [apply rounded_double|]. intros p (m & k & (Hm & Hk) & Ep) Ne.
    destruct (rounded_cases m k p Hm ltac:(lia) Ep) as [G|[G|[G1 [G2 _]]]]; [contradiction|left; exact G|right].
    split; [exact G1|apply rounded_even, G2].
  Qed.
  Lemma rounded_unique : forall q, nearest_double x q -> q == times_pow 2 R e.
  Proof.
    intros q [(m & k & (Hm & Hk) & Eq) Min].
    destruct (rounded_cases m k q Hm ltac:(lia) Eq) as [G|[G|[G1 [G2 [r [G3 G4]]]]]]; [exact G| |].
    - exfalso. destruct (Min (times_pow 2 R e) rounded_double) as [M|[M _]].
      + intros E. rewrite E in G. lra.
      + lra.
      + lra.
    - exfalso. destruct (Min (times_pow 2 R e) rounded_double) as [M|[_ (m' & k' & (B1 & B2 & B3) & Ev & E')]].
      + intros E. rewrite G3 in E. apply times_inj in E; lia.
      + lra.
      + assert (Or : Z.even r = false).
        { destruct G4 as [-> | ->]; [rewrite Z.even_add, G2; reflexivity|rewrite Z.even_sub, G2; reflexivity]. }
        destruct (Z.le_gt_cases e k') as [L|L].
        * rewrite G3 in E'. rewrite (times_shift 2 m' e k') in E' by lia. apply times_inj in E'; [|lia].
          rewrite E', Z.even_mul, Ev in Or. discriminate.
        * destruct Hc as [C|C]; [lia|]. pose proof (nearest_ge N D R (2 ^ 52) HD Hr C) as RL.
          rewrite G3 in E'. rewrite (times_shift 2 r k' e) in E' by lia. apply times_inj in E'; [|lia].
          assert (2 ^ 1 <= 2 ^ (e - k'))%Z by (apply Z.pow_le_mono_r; lia).
          assert (2 ^ 52 - 1 <= r)%Z by lia.
          assert (r <> 2 ^ 52 - 1)%Z.
          { intros E3. assert (R = 2 ^ 52)%Z by lia. destruct G4 as [G4|G4]; [lia|]. destruct Hr as [Hr1 _].
            assert (T : Qabs (times_pow 2 R e - x) == Qabs (times_pow 2 r e - x)) by (rewrite G1, G3; reflexivity).
            rewrite !(grid_dist 2 e N D x) in T by (lia || exact Hx). apply Qmult_inj_r in T; [|pose proof (grid_unit 2 e D ltac:(lia) HD); lra].
            unfold inject_Z, Qeq in T. cbn [Qnum Qden] in T. subst R. rewrite G4 in T. nia. }
          nia.
  Qed.
End Rounded.

(** *** Values of doubles *)
Definition sgn_of (neg : bool) (q : Q) : Q := if neg then - q else q.
Lemma times_opp : forall b m e, times_pow b (- m) e == - times_pow b m e.
Proof. intros. unfold times_pow. rewrite inject_Z_opp. ring. Qed.
Lemma times_zero : forall b e, times_pow b 0 e == 0.
Proof. intros. unfold times_pow. change (inject_Z 0) with 0. ring. Qed.
Lemma valid_iff : forall s m e, valid_binary 53 1024 (S754_finite s m e) = true <->
  (Zpos m < 2 ^ 53 /\ -1074 <= e <= 971 /\ (2 ^ 52 <= Zpos m \/ e = -1074))%Z.
Proof.
  intros s m e. cbn [valid_binary]. unfold bounded, canonical_mantissa. rewrite andb_true_iff, zeq_eqb, Z.eqb_eq, Z.leb_le, fexp_bounds.
  rewrite digits2_log. change (1024 - 53)%Z with 971%Z.
  assert (P : (Z.log2 (Zpos m) < 53 <-> Zpos m < 2 ^ 53)%Z) by (symmetry; apply Z.log2_lt_pow2; lia).
  assert (P2 : (52 <= Z.log2 (Zpos m) <-> 2 ^ 52 <= Zpos m)%Z) by (symmetry; apply Z.log2_le_pow2; lia).
  rewrite <- P, <- P2. lia.
Qed.
Lemma pack_value : forall neg R e, (0 <= R <= 2 ^ 53)%Z -> (-1074 <= e)%Z -> (e < 971 \/ e = 971 /\ R < 2 ^ 53)%Z ->
  (e = -1074 \/ 2 ^ 52 <= R)%Z ->
  valid_binary 53 1024 (pack neg R e) = true /\ has_value (pack neg R e) (sgn_of neg (times_pow 2 R e)).
Proof.
  intros neg R e HR He Fits Hc. unfold pack. destruct (Z.eqb_spec R 0) as [->|N0].
  - split; [reflexivity|]. cbn [has_value]. destruct neg; cbn [sgn_of]; rewrite times_zero; reflexivity.
  - assert (V : forall M E, (0 < M)%Z -> times_pow 2 R e == times_pow 2 M E ->
      has_value (S754_finite neg (Z.to_pos M) E) (sgn_of neg (times_pow 2 R e))).
    { intros M E HM EM. cbn [has_value]. destruct neg; cbn [sgn_of]; rewrite EM.
      - change (Z.neg (Z.to_pos M)) with (- Z.pos (Z.to_pos M))%Z. rewrite times_opp, Z2Pos.id by lia. reflexivity.
      - rewrite Z2Pos.id by lia. reflexivity. }
    destruct (Z.eqb_spec R (2 ^ 53)) as [->|N1].
    + replace (e + 1 <=? 971)%Z with true by (symmetry; apply Z.leb_le; lia). split.
      * apply valid_iff. rewrite Z2Pos.id by lia. split; [reflexivity|]. split; [lia|left; lia].
      * apply V; [lia|]. rewrite (times_shift 2 (2 ^ 52) e (e + 1)) by lia. replace (e + 1 - e)%Z with 1%Z by lia. reflexivity.
    + replace (e <=? 971)%Z with true by (symmetry; apply Z.leb_le; lia). split.
      * apply valid_iff. rewrite Z2Pos.id by lia. split; [lia|]. split; [lia|]. destruct Hc; auto.
      * apply V; [lia|reflexivity].
Qed.
Lemma pack_overflow : forall neg R e, (0 < R <= 2 ^ 53)%Z -> ~ (e < 971 \/ e = 971 /\ R < 2 ^ 53)%Z -> pack neg R e = S754_infinity neg.
Proof.
  intros neg R e HR Nf. unfold pack. replace (R =? 0)%Z with false by (symmetry; apply Z.eqb_neq; lia).
  destruct (Z.eqb_spec R (2 ^ 53)) as [->|N1].
  - replace (e + 1 <=? 971)%Z with false by (symmetry; apply Z.leb_gt; lia). reflexivity.
  - replace (e <=? 971)%Z with false by (symmetry; apply Z.leb_gt; lia). reflexivity.
Qed.

(** *** Negative numbers *)
Lemma is_double_opp : forall q, is_double q -> is_double (- q).
Proof. intros q (m & e & B & E). exists (- m)%Z, e. split; [lia|]. rewrite times_opp, E. reflexivity. Qed.
Lemma even_double_opp : forall q, even_double q -> even_double (- q).
Proof. intros q (m & e & B & V & E). exists (- m)%Z, e. split; [lia|]. split; [rewrite Z.even_opp; exact V|]. rewrite times_opp, E. reflexivity. Qed.
Lemma abs_opp_dist : forall p x, Qabs (- p - - x) == Qabs (p - x).
Proof. intros p x. rewrite <- (Qabs_opp (p - x)). apply Qabs_wd. ring. Qed.
Lemma nearest_opp : forall x q, nearest_double x q -> nearest_double (- x) (- q).
Proof.
  intros x q [H1 H2]. split; [apply is_double_opp, H1|]. intros p Hp Ne.
  destruct (H2 (- p)) as [C|[C1 C2]].
  - apply is_double_opp, Hp.
  - intros E. apply Ne. rewrite <- E. ring.
  - left. rewrite abs_opp_dist. rewrite <- (abs_opp_dist (- p) x) in C. rewrite Qopp_involutive in C. exact C.
  - right. split; [|apply even_double_opp, C2]. rewrite abs_opp_dist. rewrite <- (abs_opp_dist (- p) x) in C1. rewrite Qopp_involutive in C1. exact C1.
Qed.
Lemma nearest_wd : forall x y q, x == y -> nearest_double x q -> nearest_double y q.
Proof.
  intros x y q E [H1 H2]. split; [exact H1|]. intros p Hp Ne. destruct (H2 p Hp Ne) as [C|[C D]]; rewrite E in C; auto.
Qed.
Lemma nearest_wd2 : forall x q r, q == r -> nearest_double x q -> nearest_double x r.
Proof.
  intros x q r E [(m & e & B & E1) H2]. split.
  - exists m, e. split; [exact B|]. rewrite <- E. exact E1.
  - intros p Hp Ne. destruct (H2 p Hp) as [C|[C (m' & e' & B' & V & D)]].
    + intros C. apply Ne. rewrite C. exact E.
    + left. rewrite <- E. exact C.
    + right. split; [rewrite <- E; exact C|]. exists m', e'. split; [exact B'|]. split; [exact V|]. rewrite <- E. exact D.
Qed.

(** A double is the one nearest to itself. *)
Lemma double_self : forall q r, is_double q -> nearest_double q r -> r == q.
Proof.
  intros q r Hq [Hr Min]. destruct (Qeq_dec q r) as [E|N]; [rewrite E; reflexivity|].
  destruct (Min q Hq N) as [C|[C _]].
  - assert (Z0 : Qabs (q - q) == 0) by (setoid_replace (q - q) with 0 by ring; reflexivity). pose proof (Qabs_nonneg (r - q)). lra.
  - assert (Z0 : Qabs (q - q) == 0) by (setoid_replace (q - q) with 0 by ring; reflexivity). rewrite Z0 in C.
    destruct (Qlt_le_dec (r - q) 0) as [L|L]; [rewrite Qabs_neg in C by lra|rewrite Qabs_pos in C by lra]; lra.
Qed.
Lemma zero_double : is_double 0.
Proof. exists 0%Z, 0%Z. split; [split; [reflexivity|lia]|reflexivity]. Qed.
Lemma self_nearest : forall q, is_double q -> nearest_double q q.
Proof.
  intros q Hq. split; [exact Hq|]. intros p Hp N. left.
  setoid_replace (q - q) with 0 by ring. change (Qabs 0) with 0.
  destruct (Qlt_le_dec (p - q) 0) as [L|L]; [rewrite Qabs_neg by lra; lra|rewrite Qabs_pos by lra].
  destruct (Qle_lt_or_eq _ _ L) as [C|C]; [exact C|]. exfalso. apply N. lra.
Qed.

(** *** Rounding the value of a text *)
Definition rounds (x : Q) (f : double) : Prop :=
  exists q, nearest_double x q /\ (forall q', nearest_double x q' -> q' == q) /\ valid_binary 53 1024 f = true /\ has_value f q.
Lemma ratio_rounds : forall neg n d, let x := sgn_of neg (inject_Z (Zpos n) / inject_Z (Zpos d)) in
  rounds x (of_ratio neg n d) \/ (of_ratio neg n d = S754_infinity neg /\ times_pow 2 1 900 <= inject_Z (Zpos n) / inject_Z (Zpos d)).
Proof.
  intros neg n d x. destruct (ratio_round neg n d) as (N & D & R & e & HD & HN & Hr & HR & He & Hc & Hx & Hp). rewrite Hp.
  assert (Hc' : (e = -1074 \/ 2 ^ 52 <= R)%Z) by (destruct Hc as [C|C]; [left; exact C|right; apply (nearest_ge N D R); assumption]).
  assert (Fd : (e < 971 \/ e = 971 /\ R < 2 ^ 53)%Z \/ ~ (e < 971 \/ e = 971 /\ R < 2 ^ 53)%Z) by lia.
  destruct Fd as [Fits|Nf].
  - left. pose proof (pack_value neg R e HR He Fits Hc') as [V1 V2].
    exists (sgn_of neg (times_pow 2 R e)).
    pose proof (rounded_nearest N D R e _ HD Hr HR He Hc Hx Fits) as Near.
    split; [|split; [|split; [exact V1|exact V2]]].
    + unfold x. destruct neg; cbn [sgn_of]; [apply nearest_opp|]; exact Near.
    + intros q' Nq. unfold x in Nq. destruct neg; cbn [sgn_of] in *.
      * apply nearest_opp in Nq. apply (nearest_wd _ (inject_Z (Zpos n) / inject_Z (Zpos d))) in Nq; [|ring].
        pose proof (rounded_unique N D R e _ HD Hr HR He Hc Hx Fits _ Nq) as U. rewrite <- U. ring.
      * exact (rounded_unique N D R e _ HD Hr HR He Hc Hx Fits _ Nq).
  - right. assert (R0 : (0 < R)%Z) by lia. split; [apply pack_overflow; lia|].
    rewrite Hx. destruct Hc as [C|C]; [lia|].
    assert (A : times_pow 2 (2 ^ 52) e <= inject_Z N / inject_Z D * inject_Z 2 ^ e).
    { unfold times_pow. apply Qmult_le_r; [apply pow_pos'; lia|]. apply Qle_shift_div_l; [apply inj_pos, HD|].
      rewrite <- inject_Z_mult, <- Zle_Qle. exact C. }
    eapply Qle_trans; [|exact A]. unfold times_pow.
    apply Qle_trans with (inject_Z 1 * inject_Z 2 ^ e).
    + apply Qmult_le_l; [reflexivity|]. apply Qpower_le_compat_l; [lia|]. unfold Qle. cbn. lia.
    + apply Qmult_le_r; [apply pow_pos'; lia|]. rewrite <- Zle_Qle. lia.
Qed.
Lemma scaled_rounds : forall neg m b e, (1 < b)%Z -> (0 <= m)%Z -> let x := sgn_of neg (times_pow b m e) in
  rounds x (of_scaled neg m b e) \/ (of_scaled neg m b e = S754_infinity neg /\ times_pow 2 1 900 <= times_pow b m e).
Proof.
  intros neg m b e Hb Hm x. unfold of_scaled. destruct m as [|p|p]; [| |lia].
  - left. exists 0. assert (X0 : 0 == x) by (unfold x; destruct neg; cbn [sgn_of]; rewrite times_zero; reflexivity).
    split; [apply (nearest_wd 0); [exact X0|apply self_nearest, zero_double]|]. split; [|split; reflexivity].
    intros q' N. apply (nearest_wd _ 0) in N; [|symmetry; exact X0]. apply double_self; [apply zero_double|exact N].
  - assert (E : exists n d, (if (0 <=? e)%Z then of_ratio neg (p * Z.to_pos (b ^ e)) 1 else of_ratio neg p (Z.to_pos (b ^ (- e)))) =
       of_ratio neg n d /\ times_pow b (Zpos p) e == inject_Z (Zpos n) / inject_Z (Zpos d)).
    { unfold times_pow. destruct (Z.leb_spec 0 e) as [L|L].
      - exists (p * Z.to_pos (b ^ e))%positive, 1%positive. split; [reflexivity|].
        assert (0 < b ^ e)%Z by (apply Z.pow_pos_nonneg; lia).
        rewrite Pos2Z.inj_mul, Z2Pos.id by lia. rewrite inject_Z_mult, Zpower_Qpower by lia. change (inject_Z 1) with 1. field.
      - exists p, (Z.to_pos (b ^ (- e))). split; [reflexivity|]. assert (0 < b ^ (- e))%Z by (apply Z.pow_pos_nonneg; lia).
        rewrite Z2Pos.id by lia. rewrite Zpower_Qpower by lia. rewrite Qpower_opp. field. apply pow_nz. lia. }
    destruct E as (n & d & E1 & E2). rewrite E1. destruct (ratio_rounds neg n d) as [(q & N & U & V & W)|[I O]].
    + left. assert (X : x == sgn_of neg (inject_Z (Zpos n) / inject_Z (Zpos d))) by (unfold x, sgn_of; destruct neg; rewrite E2; reflexivity).
      exists q. split; [apply (nearest_wd _ _ _ (Qeq_sym _ _ X)), N|]. split; [|split; [exact V|exact W]].
      intros q' Nq. apply U. apply (nearest_wd _ _ _ X), Nq.
    + right. split; [exact I|]. rewrite E2. exact O.
Qed.

(** *** Stored numbers *)
Lemma value_nonzero : forall (s : bool) m e, ~ times_pow 2 (if s then Zneg m else Zpos m) e == 0.
Proof.
  intros s m e H. assert (H' : times_pow 2 (if s then Zneg m else Zpos m) e == times_pow 2 0 e) by (rewrite H, times_zero; reflexivity).
  apply times_inj in H'; [|lia]. destruct s; discriminate.
Qed.
Lemma same_fields : forall s m e s' m' e', valid_binary 53 1024 (S754_finite s m e) = true -> valid_binary 53 1024 (S754_finite s' m' e') = true ->
  times_pow 2 (if s then Zneg m else Zpos m) e == times_pow 2 (if s' then Zneg m' else Zpos m') e' -> (e <= e')%Z ->
  S754_finite s m e = S754_finite s' m' e'.
Proof.
  intros s m e s' m' e' V V' E L. apply valid_iff in V, V'. rewrite (times_shift 2 _ e e') in E by lia. apply times_inj in E; [|lia].
  destruct (Z.eq_dec e e') as [->|N].
  - rewrite Z.sub_diag, Z.pow_0_r, Z.mul_1_r in E. destruct s, s'; congruence.
  - exfalso. assert (2 ^ 1 <= 2 ^ (e' - e))%Z by (apply Z.pow_le_mono_r; lia). destruct s, s'; nia.
Qed.
Lemma same_value : forall f g q, valid_binary 53 1024 f = true -> valid_binary 53 1024 g = true -> has_value f q -> has_value g q -> ~ q == 0 -> f = g.
Proof.
  intros [s|s| |s m e] [s'|s'| |s' m' e'] q V V' H H' N; cbn [has_value] in *; try contradiction.
  rewrite H in H'. destruct (Z.le_ge_cases e e') as [L|L].
  - apply same_fields; assumption.
  - symmetry. apply same_fields; try assumption. symmetry. exact H'.
Qed.
Lemma SFeqb_value : forall f g q, SFeqb f g = true -> has_value f q -> has_value g q.
Proof.
  intros [s|s| |s m e] [s'|s'| |s' m' e'] q; unfold SFeqb, SFcompare; cbn [has_value]; intros C H; try contradiction; try exact H;
    try (destruct s; discriminate C); try (destruct s'; discriminate C).
  destruct s, s'; try discriminate C;
  (destruct (Z.compare_spec e e') as [Ee|Ee|Ee]; try discriminate C;
  change (Pos.compare_cont Eq m m') with (Pos.compare m m') in C;
  destruct (Pos.compare_spec m m') as [Em|Em|Em]; try discriminate C; subst; exact H).
Qed.
Lemma trunc_whole : forall f q z, has_value f q -> q == inject_Z z -> truncate f = Some z.
Proof.
  intros [s|s| |s m e] q z H E; cbn [has_value] in H; try contradiction; cbn [truncate].
  - rewrite H in E. f_equal. unfold Qeq, inject_Z in E. cbn in E. lia.
  - rewrite H in E. f_equal. destruct (Z.leb_spec 0 e) as [L|L].
    + rewrite (times_shift 2 _ 0 e) in E by lia. rewrite Z.sub_0_r in E.
      assert (E2 : times_pow 2 ((if s then Z.neg m else Z.pos m) * 2 ^ e) 0 == times_pow 2 z 0) by (rewrite E; unfold times_pow; rewrite Qpower_0_r; ring).
      apply times_inj in E2; [|lia]. destruct s; lia.
    + assert (E2 : times_pow 2 (if s then Z.neg m else Z.pos m) e == times_pow 2 (z * 2 ^ (- e)) e).
      { rewrite E. unfold times_pow. rewrite inject_Z_mult, Zpower_Qpower, Qpower_opp by lia. field. apply pow_nz. lia. }
      apply times_inj in E2; [|lia]. assert (0 < 2 ^ (- e))%Z by (apply Z.pow_pos_nonneg; lia).
      destruct s.
      * replace (Zpos m) with ((- z) * 2 ^ (- e))%Z by lia. rewrite Z.div_mul by lia. lia.
      * rewrite E2, Z.div_mul by lia. reflexivity.
Qed.
Lemma fraction_small : forall f q, valid_binary 53 1024 f = true -> has_value f q -> (forall z, ~ q == inject_Z z) ->
  exists z, truncate f = Some z /\ (Z.abs z <= 2 ^ 53)%Z.
Proof.
  intros [s|s| |s m e] q V H N; cbn [has_value] in H; try contradiction; cbn [truncate].
  - exfalso. apply (N 0%Z). rewrite H. reflexivity.
  - apply valid_iff in V. destruct (Z.leb_spec 0 e) as [L|L].
    + exfalso. apply (N ((if s then Z.neg m else Z.pos m) * 2 ^ e)%Z). rewrite H. unfold times_pow. rewrite inject_Z_mult, Zpower_Qpower by lia. reflexivity.
    + assert (P : (0 < 2 ^ (- e))%Z) by (apply Z.pow_pos_nonneg; lia).
      assert (0 <= Z.pos m / 2 ^ (- e))%Z by (apply Z.div_pos; lia).
      assert (Z.pos m / 2 ^ (- e) <= Z.pos m)%Z by (apply Z.div_le_upper_bound; nia).
      eexists. split; [reflexivity|]. destruct s; lia.
Qed.
Lemma int_sgn : forall z, sgn_of (z <? 0)%Z (times_pow 2 (Z.abs z) 0) == inject_Z z.
Proof.
  intros z. unfold times_pow, sgn_of. destruct (Z.ltb_spec z 0); rewrite Qpower_0_r.
  - replace (Z.abs z) with (- z)%Z by lia. rewrite inject_Z_opp. ring.
  - replace (Z.abs z) with z by lia. ring.
Qed.
Lemma big_900 : forall z, (Z.abs z < 2 ^ 900)%Z -> ~ times_pow 2 1 900 <= times_pow 2 (Z.abs z) 0.
Proof.
  intros z B H. rewrite (times_shift 2 1 0 900) in H by lia. unfold times_pow in H. rewrite Qmult_le_r in H by (apply pow_pos'; lia).
  rewrite <- Zle_Qle in H. lia.
Qed.
Lemma of_int_value : forall z, (Z.abs z < 2 ^ 900)%Z -> is_double (inject_Z z) ->
  valid_binary 53 1024 (of_int z) = true /\ has_value (of_int z) (inject_Z z).
Proof.
  intros z B Hd. unfold of_int. destruct (scaled_rounds (z <? 0)%Z (Z.abs z) 2 0 ltac:(lia) ltac:(lia)) as [(q & N & U & V & W)|[_ O]].
  - split; [exact V|]. assert (E : q == inject_Z z).
    { apply double_self; [exact Hd|]. apply (nearest_wd _ _ _ (int_sgn z) N). }
    destruct (of_scaled (z <? 0)%Z (Z.abs z) 2 0) as [s|s| |s m e]; cbn [has_value] in *; try contradiction; rewrite <- E; exact W.
  - now apply big_900 in O.
Qed.
Lemma whole_is_double : forall z, (Z.abs z <= 2 ^ 53)%Z -> is_double (inject_Z z).
Proof.
  intros z B. destruct (Z.eq_dec (Z.abs z) (2 ^ 53)) as [E|E].
  - exists (if (z <? 0)%Z then - 2 ^ 52 else 2 ^ 52)%Z, 1%Z. split; [split; [destruct (z <? 0)%Z; reflexivity|lia]|].
    rewrite (times_shift 2 _ 0 1) by lia. unfold times_pow. rewrite Qpower_0_r, Qmult_1_r.
    replace z with ((if (z <? 0)%Z then - 2 ^ 52 else 2 ^ 52) * 2 ^ (1 - 0))%Z at 1; [reflexivity|].
    destruct (Z.ltb_spec z 0); lia.
  - exists z, 0%Z. split; [lia|]. unfold times_pow. rewrite Qpower_0_r. ring.
Qed.
Lemma long_iff : forall f z, double_to_long f = Ok z <-> truncate f = Some z /\ (LONG_MIN <= z <= LONG_MAX)%Z.
Proof.
  intros f z. unfold double_to_long. destruct (truncate f) as [y|]; [|split; [discriminate|intros (H & _); discriminate]].
  destruct ((LONG_MIN <=? y) && (y <=? LONG_MAX))%Z eqn:Q.
  - apply andb_true_iff in Q. rewrite !Z.leb_le in Q. split; [intros [= <-]; auto|intros ([= <-] & _); reflexivity].
  - split; [discriminate|]. intros ([= <-] & B). apply andb_false_iff in Q. rewrite !Z.leb_gt in Q. lia.
Qed.
Lemma value_wd : forall f q r, q == r -> has_value f q -> has_value f r.
Proof. intros [s|s| |s m e] q r E H; cbn [has_value] in *; try contradiction; rewrite <- E; exact H. Qed.
Lemma value_unique : forall f q r, has_value f q -> has_value f r -> q == r.
Proof. intros [s|s| |s m e] q r H1 H2; cbn [has_value] in *; try contradiction; rewrite H1, H2; reflexivity. Qed.
Lemma value_double : forall f q, valid_binary 53 1024 f = true -> has_value f q -> is_double q.
Proof.
  intros [s|s| |s m e] q V H; cbn [has_value] in H; try contradiction.
  - destruct zero_double as (m & e & B & E). exists m, e. split; [exact B|]. rewrite H. exact E.
  - apply valid_iff in V. exists (if s then Zneg m else Zpos m), e. split; [destruct s; lia|exact H].
Qed.
Lemma whole_eqb_true : forall f q z, valid_binary 53 1024 f = true -> has_value f q -> q == inject_Z z -> (Z.abs z < 2 ^ 900)%Z ->
  SFeqb (of_int z) f = true.
Proof.
  intros f q z V H E B. assert (Hd : is_double (inject_Z z)) by (apply (value_double f); [exact V|apply (value_wd f q); assumption]).
  destruct (of_int_value z B Hd) as [V2 H2]. destruct (Z.eq_dec z 0) as [->|N].
  - change (of_int 0) with (S754_zero false). destruct f as [s|s| |s m e]; cbn [has_value] in H; try contradiction; [reflexivity|].
    exfalso. apply (value_nonzero s m e). rewrite <- H, E. reflexivity.
  - rewrite (same_value (of_int z) f (inject_Z z)); try assumption.
    + apply SFeqb_refl. intros ->. exact H.
    + apply (value_wd f q); assumption.
    + intros C. unfold Qeq, inject_Z in C. cbn in C. lia.
Qed.

Lemma long_small : forall z, (LONG_MIN <= z <= LONG_MAX)%Z -> (Z.abs z < 2 ^ 900)%Z.
Proof.
  intros z H. unfold LONG_MIN, LONG_MAX in H. assert (2 ^ 64 <= 2 ^ 900)%Z by (apply Z.pow_le_mono_r; lia). lia.
Qed.
Lemma whole_dec : forall f q, has_value f q -> (exists z, q == inject_Z z) \/ (forall z, ~ q == inject_Z z).
Proof.
  intros f q H. destruct (truncate f) as [y|] eqn:T.
  - destruct (Qeq_dec q (inject_Z y)) as [E|N]; [left; exists y; exact E|right]. intros z E.
    rewrite (trunc_whole f q z H E) in T. injection T as ->. contradiction.
  - right. intros z E. rewrite (trunc_whole f q z H E) in T. discriminate.
Qed.
Lemma rounds_stored : forall x f n, rounds x f ->
  (stored x n <-> exists z, double_to_long f = Ok z /\ n = if SFeqb (of_int z) f then NS z else NR f).
Proof.
  intros x f n (q & Nr & U & V & H). split.
  - intros (q' & Nq & Hn). pose proof (U q' Nq) as E. destruct n as [z|z|g]; [| contradiction |].
    + destruct Hn as [Hz B]. assert (Ez : q == inject_Z z) by (rewrite <- E; exact Hz).
      exists z. split; [apply long_iff; split; [apply (trunc_whole f q z H Ez)|exact B]|].
      rewrite (whole_eqb_true f q z V H Ez (long_small z B)). reflexivity.
    + destruct Hn as (Vg & Hg & Nw). assert (Hg' : has_value g q) by (apply (value_wd g q'); assumption).
      assert (Nw' : forall z, ~ q == inject_Z z) by (intros z C; apply (Nw z); rewrite E; exact C).
      assert (g = f) as ->. { apply (same_value g f q); try assumption. intros C. apply (Nw' 0%Z). rewrite C. reflexivity. }
      destruct (fraction_small f q V H Nw') as (z & T & B). exists z. split; [apply long_iff; split; [exact T|unfold LONG_MIN, LONG_MAX; lia]|].
      destruct (SFeqb (of_int z) f) eqn:Q; [exfalso|reflexivity].
      assert (B9 : (Z.abs z < 2 ^ 900)%Z) by (assert (2 ^ 54 <= 2 ^ 900)%Z by (apply Z.pow_le_mono_r; lia); lia).
      destruct (of_int_value z B9 (whole_is_double z B)) as [_ Hi].
      apply (Nw' z). apply (value_unique f); [exact H|]. exact (SFeqb_value _ _ _ Q Hi).
  - intros (z & T & ->). apply long_iff in T. destruct T as [T B]. exists q. split; [exact Nr|].
    destruct (whole_dec f q H) as [[y E]|Nw].
    + pose proof (trunc_whole f q y H E) as T2. rewrite T in T2. injection T2 as <-.
      rewrite (whole_eqb_true f q z V H E (long_small z B)). auto.
    + destruct (SFeqb (of_int z) f) eqn:Q; [exfalso|auto].
      destruct (fraction_small f q V H Nw) as (z' & T' & B'). rewrite T in T'. injection T' as <-.
      destruct (of_int_value z (long_small z B) (whole_is_double z B')) as [_ Hi].
      apply (Nw z). apply (value_unique f); [exact H|]. exact (SFeqb_value _ _ _ Q Hi).
Qed.
Lemma huge_not_stored : forall x n, times_pow 2 1 900 <= Qabs x -> ~ stored x n.
Proof.
  intros x n Hx (q & [Hd Min] & Hn).
  assert (Qs : Qabs q <= times_pow 2 1 64).
  { destruct n as [z|z|f]; [|contradiction|].
    - destruct Hn as [E B]. rewrite E, inj_abs. rewrite (times_shift 2 1 0 64) by lia. unfold times_pow. rewrite Qpower_0_r, Qmult_1_r, <- Zle_Qle.
      unfold LONG_MIN, LONG_MAX in B. lia.
    - destruct Hn as (V & H & Nw). destruct f as [s|s| |s m e]; cbn [has_value] in H; try contradiction.
      + rewrite H. unfold Qle. cbn. lia.
      + apply valid_iff in V. destruct (Z.le_gt_cases 0 e) as [L|L].
        * exfalso. apply (Nw ((if s then Zneg m else Zpos m) * 2 ^ e)%Z). rewrite H. unfold times_pow. rewrite inject_Z_mult, Zpower_Qpower by lia. reflexivity.
        * rewrite H. unfold times_pow. rewrite Qabs_Qmult, inj_abs. rewrite (Qabs_pos (_ ^ _)) by (apply Qlt_le_weak, pow_pos'; lia).
          apply Qle_trans with (inject_Z (Z.abs (if s then Zneg m else Zpos m)) * 1).
          -- apply Qmult_le_compat_nonneg.
             ++ split; [|apply Qle_refl]. change 0 with (inject_Z 0). rewrite <- Zle_Qle. lia.
             ++ split; [apply Qlt_le_weak, pow_pos'; lia|]. rewrite <- (Qpower_0_r (inject_Z 2)). apply Qpower_le_compat_l; [lia|unfold Qle; cbn; lia].
          -- rewrite Qmult_1_r. change (inject_Z 1 * inject_Z 2 ^ 64) with (inject_Z (2 ^ 64)). rewrite <- Zle_Qle. destruct s; lia. }
  assert (Big : times_pow 2 1 64 * 4 <= times_pow 2 1 900).
  { setoid_replace (times_pow 2 1 64 * 4) with (times_pow 2 1 66) by reflexivity. unfold times_pow. apply Qmult_le_l; [reflexivity|].
    apply Qpower_le_compat_l; [lia|unfold Qle; cbn; lia]. }
  set (S := times_pow 2 1 64) in *. assert (S0 : 0 < S) by reflexivity. clearbody S.
  assert (Dd : is_double (times_pow 2 1 900)) by (exists 1%Z, 900%Z; split; [lia|reflexivity]).
  set (T := times_pow 2 1 900) in *. clearbody T.
  pose proof (Qabs_nonneg q) as Q0.
  destruct (Qlt_le_dec x 0) as [L|L].
  - rewrite Qabs_neg in Hx by lra.
    assert (q <= S /\ - S <= q) as [q1 q2] by (apply Qabs_Qle_condition in Qs; lra).
    destruct (Min (- T)) as [C|[C _]]; [apply is_double_opp, Dd|intros E; lra| |];
      rewrite (Qabs_pos (q - x)) in C by lra; rewrite (Qabs_pos (- T - x)) in C by lra; lra.
  - rewrite Qabs_pos in Hx by lra.
    assert (q <= S /\ - S <= q) as [q1 q2] by (apply Qabs_Qle_condition in Qs; lra).
    destruct (Min T) as [C|[C _]]; [exact Dd|intros E; lra| |];
      rewrite (Qabs_neg (q - x)) in C by lra; rewrite (Qabs_neg (T - x)) in C by lra; lra.
Qed.
