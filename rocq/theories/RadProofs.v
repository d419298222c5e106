(** Radians in single precision. *)
From Coq Require Import ZArith Arith Bool Lia List QArith Qabs Qround Qpower Lqa.
From Coq Require Import Floats.SpecFloat.
From Verif Require Import Common RealSpec RealProofs FltSpec Flt32Proofs Flt32ReadProofs AngleSpec FloatOpsProofs AngleModel AngleProofs AngleMoreProofs RadModel RadSpec.
Local Open Scope Q_scope.

Local Notation TT := (13176795 # 2097152).
Local Notation HH := (13176795 # 4194304).
Lemma tau_is : float_is tau TT. Proof. split; reflexivity. Qed.
Lemma pi_is : float_is pi HH. Proof. split; reflexivity. Qed.
Lemma twopi : mulf pi f2 = tau. Proof. reflexivity. Qed.
Lemma tt_float : is_float TT. Proof. exists 13176795%Z, (-21)%Z. split; [lia|reflexivity]. Qed.
Lemma hh_float : is_float HH. Proof. exists 13176795%Z, (-22)%Z. split; [lia|reflexivity]. Qed.

(** *** Wrapping *)
Lemma gap_tau : forall p, is_float p -> p < TT -> p <= TT - times_pow 2 1 (-21).
Proof.
  intros p (m & k & B & E) L. rewrite E in *.
  assert (U : TT - times_pow 2 1 (-21) == times_pow 2 13176794 (-21)) by reflexivity. rewrite U. clear U.
  destruct (Z.le_gt_cases (-21) k) as [Lk|Lk].
  - rewrite (times_shift 2 m (-21) k) in * by lia. apply times_le.
    assert (V : times_pow 2 (m * 2 ^ (k - -21)) (-21) < times_pow 2 13176795 (-21)) by (eapply Qlt_le_trans; [exact L|apply Qle_lteq; right; reflexivity]).
    unfold times_pow in V. rewrite Qmult_lt_r in V by (apply pow_pos'; lia). rewrite <- Zlt_Qlt in V. lia.
  - rewrite (times_shift 2 13176794 k (-21)) by lia. apply times_le. assert (2 ^ 1 <= 2 ^ (-21 - k))%Z by (apply Z.pow_le_mono_r; lia). nia.
Qed.
Lemma near_tau : forall x, TT - times_pow 2 1 (-22) < x -> x < TT -> nearest_float x TT.
Proof.
  intros x L U. split; [exact tt_float|]. intros p Hp N.
  assert (D : times_pow 2 1 (-21) == 2 * times_pow 2 1 (-22)) by reflexivity. set (h := times_pow 2 1 (-22)) in *.
  assert (H0 : 0 < h) by reflexivity.
  rewrite (Qabs_pos (TT - x)) by lra. destruct (Q_dec p TT) as [[C|C]|C]; [|left|exfalso; apply N; exact C].
  - pose proof (gap_tau p Hp C) as G. rewrite D in G. clearbody h. rewrite (Qabs_neg (p - x)) by lra. left. lra.
  - rewrite Qabs_pos by lra. lra.
Qed.
(** Half-way the float below wins: its mantissa is even. *)
Lemma below_tau : forall x, TT - times_pow 2 1 (-21) <= x -> x <= TT - times_pow 2 1 (-22) -> nearest_float x (TT - times_pow 2 1 (-21)).
Proof.
  intros x L U. split; [exists 13176794%Z, (-21)%Z; split; [lia|reflexivity]|]. intros p Hp N.
  assert (D : times_pow 2 1 (-21) == 2 * times_pow 2 1 (-22)) by reflexivity.
  destruct (Qlt_le_dec p TT) as [C|C].
  - pose proof (gap_tau p Hp C) as G. left. set (h := times_pow 2 1 (-22)) in *. rewrite D in *. assert (H0 : 0 < h) by reflexivity. clearbody h.
    assert (p < TT - 2 * h) by (destruct (Qlt_le_dec p (TT - 2 * h)) as [X|X]; [exact X|exfalso; apply N; lra]).
    rewrite (Qabs_neg (p - x)) by lra. rewrite (Qabs_neg (TT - 2 * h - x)) by lra. lra.
  - destruct (Qlt_le_dec (Qabs (TT - times_pow 2 1 (-21) - x)) (Qabs (p - x))) as [X|X]; [left; exact X|right].
    split; [|exists 13176794%Z, (-21)%Z; split; [lia|]; split; reflexivity].
     set (h := times_pow 2 1 (-22)) in *. rewrite D in *. assert (H0 : 0 < h) by reflexivity. clearbody h.
    revert X. rewrite (Qabs_pos (p - x)) by lra. rewrite (Qabs_neg (TT - 2 * h - x)) by lra. lra.
Qed.
Lemma wrap_rad : forall f v, float_is f v -> exists x q, same_upto float_turn x v /\ 0 <= x /\ x < TT /\
  float_is (getWrapRad f) q /\ nearest_float x q /\ (0 <= v -> q == x) /\ (q == TT <-> TT - times_pow 2 1 (-22) < x).
Proof.
  intros f v Hf. unfold getWrapRad. destruct (fmod_is f tau v TT Hf tau_is ltac:(intros C; discriminate C)) as (r & n & Hr & Er & Br & S1 & S2).
  rewrite (Qabs_pos TT) in Br by lra. assert (Br' : - TT < r /\ r < TT) by (revert Br; apply Qabs_case; intros; lra). clear Br.
  cbv zeta. unfold ltf. destruct (SFltb (fmodf f tau) f0) eqn:E.
  - apply (ltb_value _ _ r 0 Hr f0_is) in E. pose proof (add_rounds _ _ r TT Hr tau_is) as Ad.
    destruct (in_range_is (r + TT) _ ltac:(apply near_range; lra) Ad) as (q & Q1 & Q2). exists (r + TT), q.
    split; [exists (1 - n)%Z; rewrite Er; unfold float_turn, Z.sub; rewrite inject_Z_plus, inject_Z_opp; change (inject_Z 1) with 1; ring|].
    split; [lra|]. split; [lra|]. split; [exact Q1|]. split; [exact Q2|]. split; [intros H; specialize (S1 H); lra|].
    split.
    + intros C. apply Qnot_le_lt. intros L.
      destruct (Qlt_le_dec (r + TT) (TT - times_pow 2 1 (-21))) as [X|X].
      * assert (Fp : is_float (TT - times_pow 2 1 (-21))) by (exists 13176794%Z, (-21)%Z; split; [lia|reflexivity]).
        pose proof (nearest_below _ q _ Q2 Fp ltac:(lra)) as M. assert (0 < times_pow 2 1 (-21)) by reflexivity. lra.
      * pose proof (nearest_unique (r + TT) q _ ltac:(apply near_range; lra) Q2 (below_tau _ X L)) as M. assert (0 < times_pow 2 1 (-21)) by reflexivity. lra.
    + intros L. apply (nearest_unique (r + TT)); [apply near_range; lra|exact Q2|]. apply near_tau; lra.
  - assert (R0 : 0 <= r) by (apply Qnot_lt_le; intros C; apply (ltb_value _ _ r 0 Hr f0_is) in C; congruence).
    exists r, r. split; [exists (- n)%Z; rewrite Er, inject_Z_opp; unfold float_turn; ring|]. split; [exact R0|]. split; [lra|]. split; [exact Hr|].
    split; [apply self_nearest, (valid_float _ _ Hr)|]. split; [reflexivity|]. split; [intros C; lra|].
    intros L. exfalso. assert (D : times_pow 2 1 (-21) == 2 * times_pow 2 1 (-22)) by reflexivity.
    pose proof (gap_tau r (valid_float _ _ Hr) ltac:(lra)) as G. rewrite D in G. assert (0 < times_pow 2 1 (-22)) by reflexivity. lra.
Qed.
Lemma wrap_rad_bounds : forall f v, float_is f v -> exists q k, float_is (getWrapRad f) q /\ 0 <= q /\ q <= TT /\
  Qabs (q - (v - TT * inject_Z k)) <= times_pow 2 1 (-22) /\ 0 <= v - TT * inject_Z k /\ v - TT * inject_Z k < TT.
Proof.
  intros f v Hf. destruct (wrap_rad f v Hf) as (x & q & (k & Ek) & L & U & Q1 & Q2 & _). exists q, (- k)%Z. split; [exact Q1|].
  split; [apply (nearest_above x); [exact Q2|apply zero_float|exact L]|]. split; [apply (nearest_below x); [exact Q2|exact tt_float|lra]|].
  assert (Ex : v - TT * inject_Z (- k) == x) by (rewrite Ek, inject_Z_opp; unfold float_turn; ring). rewrite Ex. split; [|split; assumption].
  apply (nearest_error x q (-21)); [lia| |exact Q2]. assert (H8 : times_pow 2 (2 ^ 24) (-21) == 8) by reflexivity. rewrite H8. apply abs_le; lra.
Qed.
(** Against the true full turn: each turn taken off adds 1.75 * 10^-7. *)
Lemma wrap_drift : forall f v t, float_is f v -> full_turn t -> exists q k, float_is (getWrapRad f) q /\
  Qabs (q - (v - t * inject_Z k)) <= (17486 # 100000000000) * Qabs (inject_Z k) + times_pow 2 1 (-22) /\ Qabs (inject_Z k) <= Qabs v / (6 # 1) + 1.
Proof.
  intros f v t Hf [T1 T2]. destruct (wrap_rad_bounds f v Hf) as (q & k & Q1 & L & U & E & X1 & X2). exists q, k. split; [exact Q1|].
  set (y := inject_Z k) in *. set (h := times_pow 2 1 (-22)) in *. clearbody h. split.
  - apply abs_bounds in E. assert (Ty : Qabs (TT * y - t * y) <= (17486 # 100000000000) * Qabs y).
    { setoid_replace (TT * y - t * y) with ((TT - t) * y) by ring. rewrite Qabs_Qmult. apply Qmult_le_compat_r; [|apply Qabs_nonneg]. apply abs_le; lra. }
    apply abs_bounds in Ty. set (a := t * y) in *. set (b := Qabs y) in *. clearbody a b. apply abs_le; lra.
  - assert (K : (k <= -1 \/ 0 <= k)%Z) by lia. assert (J : y <= - (1) \/ 0 <= y).
    { destruct K as [C|C]; [left; change (- (1)) with (inject_Z (-1)); unfold y; rewrite <- Zle_Qle; exact C|right; change 0 with (inject_Z 0); unfold y; rewrite <- Zle_Qle; exact C]. }
    clearbody y. setoid_replace (Qabs v / (6 # 1)) with (Qabs v * (1 # 6)) by (field). destruct J as [J|J]; [rewrite (Qabs_neg y) by lra|rewrite (Qabs_pos y) by lra]; apply Qabs_case; intros; lra.
Qed.
Lemma wrap_rad_again : forall f q, float_is (getWrapRad f) q -> 0 <= q -> q <= TT ->
  float_is (getWrapRad (getWrapRad f)) (if Qlt_le_dec q TT then q else 0).
Proof.
  intros f q Hq L U. destruct (wrap_rad _ q Hq) as (x & q' & (k & Ek) & Lx & Ux & Q1 & _ & Q3 & _). specialize (Q3 L). unfold float_turn in Ek.
  apply (float_is_wd _ q'); [|exact Q1]. rewrite Q3.
  destruct (Qlt_le_dec q TT) as [C|C].
  - assert (k = 0)%Z as ->; [|rewrite Ek; change (inject_Z 0) with 0; ring].
    assert (k < 1)%Z by (rewrite Zlt_Qlt; change (inject_Z 1) with 1; lra).
    assert (-1 < k)%Z by (rewrite Zlt_Qlt; change (inject_Z (-1)) with (- (1)); lra). lia.
  - assert (k = -1)%Z as ->; [|rewrite Ek; change (inject_Z (-1)) with (- (1)); lra].
    assert (k < 0)%Z by (rewrite Zlt_Qlt; change (inject_Z 0) with 0; lra).
    assert (-2 < k)%Z by (rewrite Zlt_Qlt; change (inject_Z (-2)) with (- (2)); lra). lia.
Qed.

(** *** Angles for a full turn *)
Lemma upto_min : forall t a b d k, 0 < t -> angle_upto t a b d -> d <= Qabs (a - b - t * inject_Z k).
Proof.
  intros t a b d k Pt (L & U & H).
  assert (Z1 : forall j : Z, (j <= -1 \/ j = 0 \/ 1 <= j)%Z) by lia.
  assert (G : exists j, a - b - t * inject_Z k == d + t * inject_Z j \/ a - b - t * inject_Z k == - d + t * inject_Z j).
  { destruct H as [[j E]|[j E]]; exists (j - k)%Z; unfold Z.sub; rewrite inject_Z_plus, inject_Z_opp; [right|left]; lra. }
  destruct G as [j G]. assert (J : t * inject_Z j <= - t \/ t * inject_Z j == 0 \/ t <= t * inject_Z j).
  { destruct (Z1 j) as [C|[->|C]]; [left|right; left; change (inject_Z 0) with 0; ring|right; right].
    - assert (X : inject_Z j <= inject_Z (-1)) by (rewrite <- Zle_Qle; exact C). change (inject_Z (-1)) with (- (1)) in X. nra.
    - assert (X : inject_Z 1 <= inject_Z j) by (rewrite <- Zle_Qle; exact C). change (inject_Z 1) with 1 in X. nra. }
  set (w := a - b - t * inject_Z k) in *. clearbody w. set (y := t * inject_Z j) in *. clearbody y.
  destruct J as [J|[J|J]], G as [G|G]; apply Qabs_case; intros; lra.
Qed.
Lemma upto_attained : forall t a b d, angle_upto t a b d -> exists k, d == Qabs (a - b - t * inject_Z k).
Proof.
  intros t a b d (L & U & [[k E]|[k E]]); exists k.
  - setoid_replace (a - b - t * inject_Z k) with (- d) by lra. rewrite Qabs_opp, Qabs_pos by exact L. reflexivity.
  - setoid_replace (a - b - t * inject_Z k) with d by lra. rewrite Qabs_pos by exact L. reflexivity.
Qed.
Lemma upto_exists : forall t a b, 0 < t -> exists d, angle_upto t a b d.
Proof.
  intros t a b Pt. set (y := (a - b) / t + (1 # 2)). set (k := Qfloor y). pose proof (Qfloor_le y) as A. pose proof (Qlt_floor y) as B. fold k in A, B.
  rewrite inject_Z_plus in B. change (inject_Z 1) with 1 in B. assert (E : a - b + t * (1 # 2) == t * y) by (unfold y; field; lra).
  assert (A' : t * inject_Z k <= t * y) by nra. assert (B' : t * y <= t * inject_Z k + t) by nra.
  exists (Qabs (a - b - t * inject_Z k)). clearbody k y. split; [apply Qabs_nonneg|]. 
  split; [|destruct (Qlt_le_dec (a - b - t * inject_Z k) 0) as [L|L]].
  - apply Qabs_case; intros; lra.
  - left. exists k. rewrite Qabs_neg by lra. ring.
  - right. exists k. rewrite Qabs_pos by lra. ring.
Qed.
Lemma abs_move : forall x y, Qabs x <= Qabs y + Qabs (x - y).
Proof. intros x y. apply Qabs_case; apply Qabs_case; apply Qabs_case; intros; lra. Qed.
(** Two directions, two full turns: angles of less than [j] turns differ by at most [j] times the difference, and by the
    change of the directions. *)
Lemma upto_near : forall t u a b a' b' d d' n, 0 < t -> angle_upto t a b d -> angle_upto u a' b' d' -> d' == Qabs (a' - b' - u * inject_Z n) ->
  d <= d' + Qabs ((a - b) - (a' - b')) + Qabs (t - u) * Qabs (inject_Z n).
Proof.
  intros t u a b a' b' d d' n Pt H H' E. pose proof (upto_min t a b d n Pt H) as M. rewrite E.
  pose proof (abs_move (a - b - t * inject_Z n) (a' - b' - u * inject_Z n)) as X.
  assert (Y : Qabs (a - b - t * inject_Z n - (a' - b' - u * inject_Z n)) <= Qabs (a - b - (a' - b')) + Qabs (t - u) * Qabs (inject_Z n)).
  { setoid_replace (a - b - t * inject_Z n - (a' - b' - u * inject_Z n)) with ((a - b - (a' - b')) + - ((t - u) * inject_Z n)) by ring.
    eapply Qle_trans; [apply Qabs_triangle|]. rewrite Qabs_opp, Qabs_Qmult. apply Qle_refl. }
  lra.
Qed.
Lemma few_turns : forall t a b d n, 6 < t -> Qabs (a - b) <= 8 -> angle_upto t a b d -> d == Qabs (a - b - t * inject_Z n) -> Qabs (inject_Z n) <= 1 \/ 16 < t.
Proof.
  intros t a b d n Pt B (L & U & _) E. destruct (Qlt_le_dec 16 t) as [C|C]; [right; exact C|left].
  assert (K : (n <= -2 \/ (-1 <= n <= 1) \/ 2 <= n)%Z) by lia. apply abs_bounds in B.
  assert (X : Qabs (a - b - t * inject_Z n) <= t * (1 # 2)) by lra. apply abs_bounds in X.
  destruct K as [K|[K|K]].
  - exfalso. assert (Y : inject_Z n <= inject_Z (-2)) by (rewrite <- Zle_Qle; exact K). change (inject_Z (-2)) with (- (2)) in Y. nra.
  - apply abs_le; [change (- (1)) with (inject_Z (-1))|change 1 with (inject_Z 1)]; rewrite <- Zle_Qle; lia.
  - exfalso. assert (Y : inject_Z 2 <= inject_Z n) by (rewrite <- Zle_Qle; exact K). change (inject_Z 2) with 2 in Y. nra.
Qed.

(** *** Distances *)
Lemma dist_rad : forall f g p q, float_is f p -> float_is g q -> in_range (p - q) ->
  exists d D w, nearest_float (p - q) d /\ angle_upto float_turn d 0 D /\ float_is (getDistRad f g) w /\ 0 <= w /\ w <= HH /\
    Qabs (w - D) <= times_pow 2 1 (-23) /\ (same_upto float_turn d 0 -> w == 0).
Proof.
  intros f g p q Hf Hg B. unfold getDistRad. rewrite twopi. destruct (in_range_is _ _ B (sub_rounds f g p q Hf Hg)) as (d & D1 & D2).
  pose proof (abs_is _ _ D1) as A1. fold (subf f g) in A1. fold (fabsf (subf f g)) in A1.
  destruct (fmod_is _ _ (Qabs d) TT A1 tau_is ltac:(intros C; discriminate C)) as (r & n & Hr & Er & Br & S1 & _).
  specialize (S1 (Qabs_nonneg d)). rewrite (Qabs_pos TT) in Br by lra. rewrite (Qabs_pos r) in Br by exact S1.
  destruct (in_range_is (r - HH) _ ltac:(apply near_range; lra) (sub_rounds _ _ r HH Hr pi_is)) as (u & U1 & U2).
  assert (Ub : - HH <= u /\ u <= HH).
  { split; [apply (nearest_above (r - HH)); [exact U2|apply is_float_opp, hh_float|lra]|apply (nearest_below (r - HH)); [exact U2|exact hh_float|lra]]. }
  pose proof (abs_is _ _ U1) as A2.
  assert (Ab : 0 <= Qabs u /\ Qabs u <= HH) by (split; [apply Qabs_nonneg|apply abs_le; lra]).
  destruct (in_range_is (HH - Qabs u) _ ltac:(apply near_range; lra) (sub_rounds _ _ HH (Qabs u) pi_is A2)) as (w & W1 & W2).
  exists d, (HH - Qabs (r - HH)), w. split; [exact D2|]. split; [|split; [exact W1|]].
  { unfold angle_upto, same_upto, float_turn. split; [|split].
    - assert (Qabs (r - HH) <= HH) by (apply abs_le; lra). lra.
    - pose proof (Qabs_nonneg (r - HH)). lra.
    - assert (Ed : exists k, d == r + TT * inject_Z k \/ d == - r + TT * inject_Z k).
      { revert Er. apply Qabs_case; intros _ Er; [exists n; left|exists (- n)%Z; right; rewrite inject_Z_opp]; lra. }
      destruct Ed as [k Ed]. destruct (Qlt_le_dec r HH) as [L|L].
      + assert (Ea : Qabs (r - HH) == - (r - HH)) by (apply Qabs_neg; lra). destruct Ed as [Ed|Ed]; [right|left]; exists k; lra.
      + assert (Ea : Qabs (r - HH) == r - HH) by (apply Qabs_pos; lra). destruct Ed as [Ed|Ed]; [left|right]; [exists (k + 1)%Z|exists (k - 1)%Z; unfold Z.sub];
        rewrite inject_Z_plus; [change (inject_Z 1) with 1|change (inject_Z (- (1))) with (- (1))]; lra. }
  split; [apply (nearest_above (HH - Qabs u)); [exact W2|apply zero_float|lra]|].
  split; [apply (nearest_below (HH - Qabs u)); [exact W2|exact hh_float|lra]|].
  assert (H4 : times_pow 2 (2 ^ 24) (-22) == 4) by reflexivity. set (h := times_pow 2 1 (-23)).
  assert (Fq : is_float (HH * (1 # 2))) by (exists 13176795%Z, (-23)%Z; split; [lia|reflexivity]).
  split.
  - destruct (Qlt_le_dec r (HH * (1 # 2))) as [L|L].
    + assert (Eu : Qabs (u - (r - HH)) <= h) by (apply (nearest_error (r - HH) u (-22)); [lia|rewrite H4; apply abs_le; lra|exact U2]).
      assert (U90 : u <= - (HH * (1 # 2))) by (apply (nearest_below (r - HH)); [exact U2|apply is_float_opp, Fq|lra]).
      assert (Eu' : Qabs u == - u) by (apply Qabs_neg; lra). apply (nearest_wd _ (HH - - u)) in W2; [|lra].
      assert (Ew : w == HH - - u).
      { apply (float_self (HH - - u) w); [|exact W2]. apply sterbenz; [exact hh_float|apply is_float_opp, (valid_float _ _ U1)|lra|lra|lra|lra]. }
      rewrite Ew. rewrite (Qabs_neg (r - HH)) by lra. setoid_replace (HH - - u - (HH - - (r - HH))) with (u - (r - HH)) by ring. exact Eu.
    + assert (Eu : u == r - HH).
      { apply (float_self (r - HH) u); [|exact U2]. apply sterbenz; [apply (valid_float _ _ Hr)|exact hh_float|lra|lra|lra|lra]. }
      assert (Ew : Qabs (w - (HH - Qabs u)) <= h) by (apply (nearest_error (HH - Qabs u) w (-22)); [lia|rewrite H4; apply abs_le; lra|exact W2]).
      rewrite Eu in Ew. exact Ew.
  - intros [k Ek]. unfold float_turn in Ek. assert (R0 : r == 0).
    { assert (Z0 : exists j, r == TT * inject_Z j).
      { revert Er. apply Qabs_case; intros _ Er; [exists (k - n)%Z|exists (- k - n)%Z]; unfold Z.sub; rewrite inject_Z_plus, ?inject_Z_opp; lra. }
      destruct Z0 as [j Ej]. assert (j < 1)%Z by (rewrite Zlt_Qlt; change (inject_Z 1) with 1; lra). assert (-1 < j)%Z by (rewrite Zlt_Qlt; change (inject_Z (-1)) with (- (1)); lra).
      assert (j = 0)%Z as -> by lia. rewrite Ej. change (inject_Z 0) with 0. ring. }
    assert (Eu : u == - HH).
    { apply (float_self (- HH) u); [apply is_float_opp, hh_float|]. apply (nearest_wd (r - HH)); [lra|exact U2]. }
    assert (Ea : Qabs u == HH) by (rewrite Eu; reflexivity).
    apply (float_self 0 w zero_float). apply (nearest_wd (HH - Qabs u)); [lra|exact W2].
Qed.
Lemma dist_rad_overflow : forall f g p q, float_is f p -> float_is g q -> ~ in_range (p - q) -> getDistRad f g = S754_nan.
Proof.
  intros f g p q Hf Hg B. unfold getDistRad, subf. destruct (sub_rounds f g p q Hf Hg) as [[C _]|[_ E]]; [contradiction|]. rewrite E. reflexivity.
Qed.
Lemma dist_rad_comm : forall f g, getDistRad f g = getDistRad g f.
Proof. intros f g. unfold getDistRad, fabsf, subf. rewrite (abs_sub_comm f g). reflexivity. Qed.
(** Against the true angle. *)
Lemma dist_rad_error : forall f g p q t D, float_is f p -> float_is g q -> Qabs (p - q) <= 8 -> full_turn t -> angle_upto t p q D ->
  exists w, float_is (getDistRad f g) w /\ Qabs (w - D) <= 5 * times_pow 2 1 (-23).
Proof.
  intros f g p q t D Hf Hg B [T1 T2] HD. pose proof (abs_bounds _ _ B) as B'.
  destruct (dist_rad f g p q Hf Hg ltac:(apply near_range; lra)) as (d & D' & w & N & A & W & _ & _ & E & _). exists w. split; [exact W|].
  assert (E1 : Qabs (d - (p - q)) <= times_pow 2 1 (-22)).
  { apply (nearest_error _ d (-21)); [lia| |exact N]. assert (H8 : times_pow 2 (2 ^ 24) (-21) == 8) by reflexivity. rewrite H8. exact B. }
  assert (Bd : Qabs (d - 0) <= 8).
  { setoid_replace (d - 0) with d by ring. assert (F8 : is_float 8) by (exists 8%Z, 0%Z; split; [lia|reflexivity]).
    apply abs_le; [apply (nearest_above (p - q)); [exact N|apply is_float_opp, F8|lra]|apply (nearest_below (p - q)); [exact N|exact F8|lra]]. }
  destruct (upto_attained _ _ _ _ A) as [k Ek]. destruct (upto_attained _ _ _ _ HD) as [k' Ek'].
  assert (K : Qabs (inject_Z k) <= 1).
  { destruct (few_turns float_turn d 0 D' k ltac:(unfold float_turn; lra) Bd A Ek) as [K|K]; [exact K|unfold float_turn in K; lra]. }
  assert (K' : Qabs (inject_Z k') <= 1).
  { destruct (few_turns t p q D k' ltac:(lra) B HD Ek') as [K'|K']; [exact K'|lra]. }
  pose proof (upto_near t float_turn p q d 0 D D' k ltac:(lra) HD A Ek) as M1.
  pose proof (upto_near float_turn t d 0 p q D' D k' ltac:(unfold float_turn; lra) A HD Ek') as M2.
  assert (G1 : Qabs (t - float_turn) <= times_pow 2 1 (-22)).
  { unfold float_turn. assert (X : times_pow 2 1 (-22) == (1 # 4194304)) by reflexivity. rewrite X. apply abs_le; lra. }
  assert (G2 : Qabs (float_turn - t) <= times_pow 2 1 (-22)).
  { unfold float_turn. assert (X : times_pow 2 1 (-22) == (1 # 4194304)) by reflexivity. rewrite X. apply abs_le; lra. }
  assert (X1 : Qabs (t - float_turn) * Qabs (inject_Z k) <= times_pow 2 1 (-22)).
  { pose proof (Qabs_nonneg (t - float_turn)). pose proof (Qabs_nonneg (inject_Z k)). nra. }
  assert (X2 : Qabs (float_turn - t) * Qabs (inject_Z k') <= times_pow 2 1 (-22)).
  { pose proof (Qabs_nonneg (float_turn - t)). pose proof (Qabs_nonneg (inject_Z k')). nra. }
  assert (Y1 : Qabs (p - q - (d - 0)) <= times_pow 2 1 (-22)).
  { setoid_replace (p - q - (d - 0)) with (- (d - (p - q))) by ring. rewrite Qabs_opp. exact E1. }
  assert (Y2 : Qabs (d - 0 - (p - q)) <= times_pow 2 1 (-22)).
  { setoid_replace (d - 0 - (p - q)) with (d - (p - q)) by ring. exact E1. }
  assert (Tw : times_pow 2 1 (-22) == 2 * times_pow 2 1 (-23)) by reflexivity. rewrite Tw in *. set (h := times_pow 2 1 (-23)) in *. clearbody h.
  apply abs_bounds in E. apply abs_le; lra.
Qed.

(** *** Rotation *)
Lemma sub_self : forall f p, float_is f p -> subf f f = S754_zero false.
Proof.
  intros f p [_ H]. destruct f as [s|s| |s m e]; try contradiction; [destruct s; reflexivity|].
  unfold subf, SFsub. cbv zeta. rewrite Z.sub_diag. reflexivity.
Qed.
Lemma rotated_home : forall f h p c, float_is f p -> float_is h c -> 0 <= c -> getRotatedDeg f f h = f.
Proof.
  intros f h p c Hf Hh C. destruct (wrap_bounds f p Hf) as (q & Q1 & _). unfold getRotatedDeg. rewrite (sub_self _ _ Q1).
  change (getCycledValue (S754_zero false) (SFopp f180) f180) with (S754_zero false). cbv zeta.
  destruct h as [s|s| |s m e]; try (exfalso; exact (proj2 Hh)); [reflexivity|]. destruct s; [|reflexivity].
  exfalso. destruct Hh as [_ V]. cbn [has_value] in V. unfold times_pow in V. pose proof (pow_pos' 2 e ltac:(lia)) as P.
  assert (N : inject_Z (Z.neg m) <= - (1)) by (change (- (1)) with (inject_Z (-1)); rewrite <- Zle_Qle; lia). nra.
Qed.
Lemma rotated_degrees : forall f h p c, float_is f p -> float_is h c -> 0 <= c -> times_pow 2 1 (-100) <= Qabs p -> Qabs p <= times_pow 2 1 100 ->
  exists q, float_is (getRotatedRad f f h) q /\ 57 * Qabs p <= Qabs q.
Proof.
  intros f h p c Hf Hh C L U. unfold getRotatedRad.
  assert (Rp : ~ ratio == 0) by (intros X; discriminate X).
  pose proof (div_rounds f radDegRatio p ratio Hf ratio_is Rp) as Dv.
  assert (Er : p / ratio == p * (536870912 # 9370165)) by (assert (Z0 : ratio == 9370165 # 536870912) by reflexivity; rewrite Z0; field).
  assert (Ea : Qabs (p / ratio) == Qabs p * (536870912 # 9370165)) by (rewrite Er, Qabs_Qmult; reflexivity).
  assert (B120 : 64 * times_pow 2 1 100 <= times_pow 2 1 120) by (unfold Qle; vm_compute; discriminate).
  assert (Rg : in_range (p / ratio)) by (apply bound_range; rewrite Ea; pose proof (Qabs_nonneg p); lra).
  destruct (in_range_is _ _ Rg Dv) as (q & Q1 & Q2). fold (divf f radDegRatio) in Q1. fold (toDeg f) in Q1.
  exists q. rewrite (rotated_home _ _ _ _ Q1 Hh C). split; [exact Q1|].
  assert (B126 : times_pow 2 1 (-126) <= times_pow 2 1 (-100)) by (unfold Qle; vm_compute; discriminate).
  pose proof (relative_error _ q ltac:(rewrite Ea; pose proof (Qabs_nonneg p); lra) Rg Q2) as R. 
  pose proof (abs_move (p / ratio) q) as M. rewrite Ea in *.
  assert (S : Qabs (p / ratio - q) == Qabs (q - p / ratio)) by (setoid_replace (p / ratio - q) with (- (q - p / ratio)) by ring; apply Qabs_opp).
  rewrite S in M. assert (I24 : inject_Z (2 ^ 24) == 16777216) by reflexivity. rewrite I24 in R. pose proof (Qabs_nonneg p). lra.
Qed.
(** *** Many turns: 2^26 is wrapped to 0.84, but points to 2.71. *)
Definition f26 : spec_float := S754_finite false 8388608 3.
Lemma f26_is : float_is f26 (inject_Z (2 ^ 26)). Proof. split; reflexivity. Qed.
Lemma f26_wrap : float_is (getWrapRad f26) (1761263 # 2097152). Proof. split; vm_compute; reflexivity. Qed.
Lemma far_off : forall t k, full_turn t -> 1 < Qabs ((1761263 # 2097152) - (inject_Z (2 ^ 26) - t * inject_Z k)).
Proof.
  intros t k [T1 T2]. apply Qnot_le_lt. intros H. apply abs_bounds in H. destruct H as [L U]. change (inject_Z (2 ^ 26)) with 67108864 in *.
  assert (K : (k <= 10680707 \/ 10680708 <= k)%Z) by lia. destruct K as [K|K].
  - assert (Y : inject_Z k <= 10680707) by (change 10680707 with (inject_Z 10680707); rewrite <- Zle_Qle; exact K).
    destruct (Qlt_le_dec (inject_Z k) 0) as [N|N]; [assert (t * inject_Z k <= 0) by nra; lra|].
    assert (X : t * inject_Z k <= (628318530718 # 100000000000) * inject_Z k) by (apply Qmult_le_compat_r; lra). lra.
  - assert (Y : 10680708 <= inject_Z k) by (change 10680708 with (inject_Z 10680708); rewrite <- Zle_Qle; exact K).
    assert (X : (628318530717 # 100000000000) * inject_Z k <= t * inject_Z k) by (apply Qmult_le_compat_r; lra). lra.
Qed.
Lemma turns_refuted : exists f v q, float_is f v /\ float_is (getWrapRad f) q /\
  forall t k, full_turn t -> 1 < Qabs (q - (v - t * inject_Z k)).
Proof. exists f26, (inject_Z (2 ^ 26)), (1761263 # 2097152). split; [exact f26_is|]. split; [exact f26_wrap|]. intros t k. apply far_off. Qed.
Lemma wrap_rad_nan : forall f, (forall v, ~ has_value f v) -> getWrapRad f = S754_nan.
Proof. intros [s|s| |s m e] H; try reflexivity; exfalso; eapply H; cbn [has_value]; reflexivity. Qed.
Lemma dist_rad' : forall f g p q, float_is f p -> float_is g q -> in_range (p - q) ->
  exists d D w, nearest_float (p - q) d /\ angle_upto float_turn d 0 D /\ float_is (getDistRad f g) w /\ 0 <= w /\ 2 * w <= float_turn /\
    Qabs (w - D) <= times_pow 2 1 (-23) /\ (same_upto float_turn d 0 -> w == 0).
Proof.
  intros f g p q Hf Hg B. destruct (dist_rad f g p q Hf Hg B) as (d & D & w & A & C & W & L & U & E). exists d, D, w.
  refine (conj A (conj C (conj W (conj L (conj _ E))))). unfold float_turn. lra.
Qed.
