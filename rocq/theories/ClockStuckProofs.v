(** Sums of frame times in single precision: how far off they are and where they stop. *)
From Coq Require Import ZArith NArith Arith Bool Lia List QArith Qabs Qround Qpower Lqa.
From Coq Require Import Floats.SpecFloat.
From Verif Require Import Common RealSpec RealProofs FltSpec AngleSpec FloatOpsProofs TickerModel TickerSpec TickerProofs TimelineModel ClockModel ClockSpec ClockProofs.
Import ListNotations.
Local Open Scope Q_scope.

(** *** Powers of two and their neighbours *)
Lemma shift_one : forall j k, (k <= j)%Z -> times_pow 2 1 j == times_pow 2 (2 ^ (j - k)) k.
Proof. intros j k H. rewrite (times_shift 2 1 k j) by lia. rewrite Z.mul_1_l. reflexivity. Qed.
Lemma pow_is_float : forall j, (-149 <= j <= 127)%Z -> is_float (times_pow 2 1 j).
Proof.
  intros j H. destruct (Z_le_gt_dec j 103) as [C|C]; [apply small_grid; [cbn; lia|lia]|].
  exists (2 ^ (j - 104))%Z, 104%Z. split.
  - split; [|lia]. rewrite Z.abs_eq by (apply Z.pow_nonneg; lia). apply Z.pow_lt_mono_r; lia.
  - destruct (Z_le_gt_dec 104 j); [apply shift_one; lia|]. assert (j = 104 - 0)%Z by lia. lia.
Qed.
Lemma one_pos : forall j, 0 < times_pow 2 1 j.
Proof. intros j. unfold times_pow. pose proof (pow_pos' 2 j ltac:(lia)). rewrite Qmult_1_l. exact H. Qed.
Lemma one_mono : forall i j, (i <= j)%Z -> times_pow 2 1 i <= times_pow 2 1 j.
Proof. intros i j H. rewrite (shift_one j i H). apply times_le. pose proof (Z.pow_pos_nonneg 2 (j - i) ltac:(lia) ltac:(lia)). lia. Qed.
Lemma gap_below : forall q j, is_float q -> q < times_pow 2 1 j -> q <= times_pow 2 1 j - times_pow 2 1 (j - 24).
Proof.
  intros q j (m & e & (B & _) & E) L. rewrite E in *. rewrite (shift_one j (j - 24)) in * by lia. replace (j - (j - 24))%Z with 24%Z in * by lia.
  rewrite times_sub. destruct (Z_le_gt_dec (j - 24) e) as [C|C].
  - rewrite (times_shift 2 m (j - 24) e) in * by lia. apply times_lt_iff in L. apply times_le. lia.
  - rewrite (times_shift 2 (2 ^ 24 - 1) e (j - 24)) by lia. apply times_le.
    pose proof (Z.pow_pos_nonneg 2 (j - 24 - e) ltac:(lia) ltac:(lia)). nia.
Qed.
Lemma gap_above : forall q j, is_float q -> times_pow 2 1 j < q -> times_pow 2 1 j + times_pow 2 1 (j - 23) <= q.
Proof.
  intros q j (m & e & (B & _) & E) L. rewrite E in *. rewrite (shift_one j (j - 23)) in * by lia. replace (j - (j - 23))%Z with 23%Z in * by lia.
  rewrite times_add. destruct (Z_le_gt_dec (j - 23) e) as [C|C].
  - rewrite (times_shift 2 m (j - 23) e) in * by lia. apply times_lt_iff in L. apply times_le. lia.
  - exfalso. rewrite (times_shift 2 (2 ^ 23) e (j - 23)) in L by lia. apply times_lt_iff in L.
    assert (2 <= 2 ^ (j - 23 - e))%Z by (change 2%Z with (2 ^ 1)%Z at 1; apply Z.pow_le_mono_r; lia). nia.
Qed.
(** The power of two at or below a positive float. *)
Lemma power_at : forall q, is_float q -> 0 < q -> exists j, (-149 <= j <= 127)%Z /\ times_pow 2 1 j <= q /\ q < times_pow 2 1 (j + 1).
Proof.
  intros q (m & e & (B & He) & E) P.
  assert (Hm : (0 < m)%Z). { rewrite E in P. rewrite <- (times_zero 2 e) in P. apply times_lt_iff in P. exact P. }
  pose proof (Z.log2_spec m Hm) as [L U]. pose proof (Z.log2_nonneg m). assert (Z.log2 m < 24)%Z by (apply Z.log2_lt_pow2; lia).
  exists (Z.log2 m + e)%Z. split; [lia|]. rewrite E. split.
  - rewrite (shift_one _ e) by lia. replace (Z.log2 m + e - e)%Z with (Z.log2 m) by lia. apply times_le. exact L.
  - rewrite (shift_one _ e) by lia. replace (Z.log2 m + e + 1 - e)%Z with (Z.succ (Z.log2 m)) by lia. apply times_lt_iff. exact U.
Qed.
Lemma half_pow : forall j, times_pow 2 1 (j + 1) == 2 * times_pow 2 1 j.
Proof. intros j. rewrite (shift_one (j + 1) j) by lia. replace (j + 1 - j)%Z with 1%Z by lia. unfold times_pow. change (2 ^ 1)%Z with 2%Z. change (inject_Z 1) with 1. change (inject_Z 2) with 2. ring. Qed.
Lemma pow_up : forall j n, (0 <= n)%Z -> times_pow 2 1 (j + n) == inject_Z (2 ^ n) * times_pow 2 1 j.
Proof. intros j n H. rewrite (shift_one (j + n) j) by lia. replace (j + n - j)%Z with n by lia. unfold times_pow. change (inject_Z 1) with 1. ring. Qed.

(** *** Adding less than half a step changes nothing *)
Lemma stuck_above : forall j x q, (-149 <= j <= 127)%Z -> x < times_pow 2 1 j + times_pow 2 1 (j - 24) -> nearest_float x q -> q <= times_pow 2 1 j.
Proof.
  intros j x q Hj L N. pose proof (pow_is_float j Hj) as F. destruct (Qlt_le_dec (times_pow 2 1 j) x) as [C|C]; [|eapply nearest_below; eassumption].
  apply Qnot_lt_le. intros D. pose proof (gap_above q j (proj1 N) D) as G. pose proof (nearest_min x q _ N F) as M.
  assert (E : times_pow 2 1 (j - 23) == 2 * times_pow 2 1 (j - 24)). { replace (j - 23)%Z with (j - 24 + 1)%Z by lia. apply half_pow. }
  revert M. apply Qabs_case; apply Qabs_case; intros; lra.
Qed.
Lemma stuck_below : forall j x q, (-149 <= j <= 127)%Z -> times_pow 2 1 j - times_pow 2 1 (j - 25) < x -> nearest_float x q -> times_pow 2 1 j <= q.
Proof.
  intros j x q Hj L N. pose proof (pow_is_float j Hj) as F. destruct (Qlt_le_dec x (times_pow 2 1 j)) as [C|C]; [|eapply nearest_above; eassumption].
  apply Qnot_lt_le. intros D. pose proof (gap_below q j (proj1 N) D) as G. pose proof (nearest_min x q _ N F) as M.
  assert (E : times_pow 2 1 (j - 24) == 2 * times_pow 2 1 (j - 25)). { replace (j - 24)%Z with (j - 25 + 1)%Z by lia. apply half_pow. }
  revert M. apply Qabs_case; apply Qabs_case; intros; lra.
Qed.

(** *** Sums stop growing *)
Lemma add_upto : forall j f g p q, (-149 <= j <= 126)%Z -> float_is f p -> 0 <= p <= times_pow 2 1 j -> float_is g q -> 0 <= q -> q < times_pow 2 1 (j - 24) ->
  exists r, float_is (SFadd 24 128 f g) r /\ 0 <= r <= times_pow 2 1 j.
Proof.
  intros j f g p q Hj Hf [P1 P2] Hg Q1 Q2. pose proof (add_rounds f g p q Hf Hg) as A.
  assert (R : in_range (p + q)).
  { unfold in_range. rewrite Qabs_pos by lra. pose proof (one_mono j 126 ltac:(lia)) as M. pose proof (one_mono (j - 24) 126 ltac:(lia)) as M2.
    assert (T : times_pow 2 1 126 + times_pow 2 1 126 < times_pow 2 (2 ^ 25 - 1) 103) by reflexivity. lra. }
  destruct (in_range_is _ _ R A) as (r & V & N). exists r. split; [exact V|]. split.
  - eapply nearest_above; [exact N| |lra]. exists 0%Z, 0%Z. split; [cbn; lia|reflexivity].
  - eapply (stuck_above j); [lia| |exact N]. lra.
Qed.
Lemma mulb_is : forall f p (b : bool), float_is f p -> 0 <= p -> exists q, float_is (fmulb float_ft f b) q /\ 0 <= q <= p /\ (b = true -> q == p).
Proof.
  intros f p b Hf Hp. pose proof (valid_float _ _ Hf) as Fl. cbn [float_ft fmulb]. destruct b.
  - exists p. split; [|split; [lra|intros; reflexivity]]. apply exact_is; [exact Fl|]. eapply float_of_wd; [|apply mul_rounds; [exact Hf|exact one_is]]. ring.
  - exists 0. split; [|split; [lra|discriminate]]. apply exact_is; [exists 0%Z, 0%Z; split; [cbn; lia|reflexivity]|].
    eapply float_of_wd; [|apply mul_rounds; [exact Hf|split; [reflexivity|cbn; reflexivity]]]. ring.
Qed.
Definition upto (A : Q) (f : spec_float) : Prop := exists p, float_is f p /\ 0 <= p <= A.
Lemma zero_upto : forall A, 0 <= A -> upto A (S754_zero false).
Proof. intros A H. exists 0. split; [split; reflexivity|lra]. Qed.
Lemma step_upto : forall j B o (t : ticker float_ft), (-149 <= j <= 126)%Z -> B < times_pow 2 1 (j - 24) -> Forall (frame_upto B) (times float_ft [o]) ->
  upto (times_pow 2 1 j) (current t) -> upto (times_pow 2 1 j) (total t) ->
  upto (times_pow 2 1 j) (current (fst (tstep float_ft o t))) /\ upto (times_pow 2 1 j) (total (fst (tstep float_ft o t))).
Proof.
  intros j B o t Hj HB Ho Hc Ht. pose proof (zero_upto (times_pow 2 1 j) ltac:(pose proof (one_pos j); lra)) as Z0.
  assert (U : forall x (u : ticker float_ft), frame_upto B x -> upto (times_pow 2 1 j) (current u) -> upto (times_pow 2 1 j) (total u) ->
    upto (times_pow 2 1 j) (current (fst (TickerModel.update float_ft x u))) /\ upto (times_pow 2 1 j) (total (fst (TickerModel.update float_ft x u)))).
  { intros x u (p & Hp & P0 & P1) (c & Vc & Cc) (d & Vd & Cd). unfold TickerModel.update. destruct (mulb_is x p (running u) Hp P0) as (q & Vq & Bq & _).
    assert (C1 : upto (times_pow 2 1 j) (SFadd 24 128 (current u) (fmulb float_ft x (running u)))) by (eapply (add_upto j _ _ c q); eauto; lra).
    assert (D1 : upto (times_pow 2 1 j) (SFadd 24 128 (total u) (fmulb float_ft x (running u)))) by (eapply (add_upto j _ _ d q); eauto; lra).
    cbn [float_ft fadd flt] in *. destruct (SFltb _ _); cbn [fst current total]; auto. }
  destruct o; cbn [tstep]; try (cbn [fst]; cbn; auto; fail).
  - cbn [times flat_map app] in Ho. inversion_clear Ho. specialize (U ft t H Hc Ht). destruct (TickerModel.update float_ft ft t). exact U.
  - cbn [times flat_map app] in Ho. inversion_clear Ho. specialize (U ft (set_target float_ft x t) H Hc Ht). unfold update2. destruct (TickerModel.update float_ft ft (set_target float_ft x t)). exact U.
Qed.
Lemma run_upto : forall j B ops (t : ticker float_ft), (-149 <= j <= 126)%Z -> B < times_pow 2 1 (j - 24) -> Forall (frame_upto B) (times float_ft ops) ->
  upto (times_pow 2 1 j) (current t) -> upto (times_pow 2 1 j) (total t) ->
  upto (times_pow 2 1 j) (current (fst (trun float_ft ops t))) /\ upto (times_pow 2 1 j) (total (fst (trun float_ft ops t))).
Proof.
  intros j B ops t Hj HB. revert t. induction ops as [|o ops IH]; intros t Ho Hc Ht; [cbn; auto|].
  assert (E : times float_ft (o :: ops) = times float_ft [o] ++ times float_ft ops) by (unfold times; cbn [flat_map]; rewrite app_nil_r; reflexivity).
  rewrite E in Ho. apply Forall_app in Ho. destruct Ho as [H1 H2]. destruct (step_upto j B o t Hj HB H1 Hc Ht) as [A C].
  cbn [trun]. destruct (tstep float_ft o t) as [t1 r]. cbn [fst] in *. specialize (IH t1 H2 A C). destruct (trun float_ft ops t1). exact IH.
Qed.
Lemma total_upto : forall B ops f r, is_float B -> 0 < B -> B < times_pow 2 1 102 -> Forall (frame_upto B) (times float_ft ops) ->
  let t := fst (trun float_ft ops (new_ticker float_ft f r)) in
  upto (inject_Z (2 ^ 25) * B) (total t) /\ upto (inject_Z (2 ^ 25) * B) (current t).
Proof.
  intros B ops f r Hf P U Ho t. destruct (power_at B Hf P) as (j & Hj & L1 & L2).
  assert (J : (j < 102)%Z). { destruct (Z_lt_ge_dec j 102) as [C|C]; [exact C|]. pose proof (one_mono 102 j ltac:(lia)). lra. }
  assert (E : times_pow 2 1 (j + 25) == inject_Z (2 ^ 25) * times_pow 2 1 j) by (apply pow_up; lia).
  assert (I : inject_Z (2 ^ 25) == 33554432) by reflexivity.
  destruct (run_upto (j + 25) B ops (new_ticker float_ft f r)) as [(c & Vc & Cc) (d & Vd & Cd)].
  - lia.
  - replace (j + 25 - 24)%Z with (j + 1)%Z by lia. exact L2.
  - exact Ho.
  - apply zero_upto. pose proof (one_pos (j + 25)). lra.
  - apply zero_upto. pose proof (one_pos (j + 25)). lra.
  - rewrite E, I in Cc. rewrite E, I in Cd. split; [exists d|exists c]; (split; [assumption|]); rewrite I; lra.
Qed.
Lemma never_ticks : forall B l f T, is_float B -> 0 < B -> B < times_pow 2 1 102 -> Forall (frame_upto B) l -> float_is f T -> inject_Z (2 ^ 25) * B < T ->
  snd (trun float_ft (map (TUpdate float_ft) l) (new_ticker float_ft f true)) = map (fun _ => Some false) l.
Proof.
  intros B l f T Hb P U Ho Hf HT. induction l as [|x l IH] using rev_ind; [reflexivity|].
  apply Forall_app in Ho. destruct Ho as [H1 H2]. specialize (IH H1).
  assert (Fa : forall a b t, trun float_ft (a ++ b) t = (let '(t1, r1) := trun float_ft a t in let '(t2, r2) := trun float_ft b t1 in (t2, r1 ++ r2))).
  { induction a as [|o a IHa]; intros b t; [cbn; destruct (trun float_ft b t); reflexivity|]. cbn [app trun]. destruct (tstep float_ft o t) as [t1 r].
    rewrite IHa. destruct (trun float_ft a t1) as [t2 r2]. destruct (trun float_ft b t2). reflexivity. }
  assert (Tm : forall m : list spec_float, times float_ft (map (TUpdate float_ft) m) = m) by (induction m as [|a m IHm]; [reflexivity|cbn; f_equal; exact IHm]).
  pose proof (total_upto B (map (TUpdate float_ft) (l ++ [x])) f true Hb P U) as A. rewrite Tm in A. specialize (A ltac:(apply Forall_app; auto)).
  assert (Tg : forall m t, target (fst (trun float_ft (map (TUpdate float_ft) m) t)) = target t).
  { induction m as [|a m IHm]; intros t; [reflexivity|]. cbn [map trun]. unfold tstep. destruct (TickerModel.update float_ft a t) as [t1 b] eqn:E. specialize (IHm t1).
    destruct (trun float_ft _ t1) as [t2 r2]. cbn [fst] in *. rewrite IHm. unfold TickerModel.update in E. destruct (flt float_ft _ _); inversion E; reflexivity. }
  pose proof (Tg l (new_ticker float_ft f true)) as Tl.
  destruct (total_upto B (map (TUpdate float_ft) l) f true Hb P U ltac:(rewrite Tm; exact H1)) as [_ (c & Vc & Cc)].
  destruct (power_at B Hb P) as (j & Hj & L1 & L2).
  assert (J : (j < 102)%Z). { destruct (Z_lt_ge_dec j 102) as [C|C]; [exact C|]. pose proof (one_mono 102 j ltac:(lia)). lra. }
  assert (E25 : times_pow 2 1 (j + 25) == inject_Z (2 ^ 25) * times_pow 2 1 j) by (apply pow_up; lia).
  assert (I : inject_Z (2 ^ 25) == 33554432) by reflexivity.
  destruct (run_upto (j + 25) B (map (TUpdate float_ft) l) (new_ticker float_ft f true)) as [(c' & Vc' & Cc') _].
  { lia. } { replace (j + 25 - 24)%Z with (j + 1)%Z by lia. exact L2. } { rewrite Tm. exact H1. }
  { apply zero_upto. pose proof (one_pos (j + 25)). lra. } { apply zero_upto. pose proof (one_pos (j + 25)). lra. }
  inversion_clear H2. destruct H as (p & Hp & P0 & P1).
  assert (One : forall t1 : ticker float_ft, float_is (current t1) c' -> target t1 = f -> snd (trun float_ft [TUpdate float_ft x] t1) = [Some false]).
  { intros t1 Vt Et. cbn [trun tstep]. unfold TickerModel.update.
    destruct (mulb_is x p (running t1) Hp P0) as (q & Vq & Bq & _).
    destruct (add_upto (j + 25) (current t1) (fmulb float_ft x (running t1)) c' q) as (r & Vr & Cr); [lia|exact Vt|exact Cc'|exact Vq|lra| |].
    { replace (j + 25 - 24)%Z with (j + 1)%Z by lia. lra. }
    assert (Lt : flt float_ft (fadd float_ft (current t1) (fmulb float_ft x (running t1))) (target t1) = true).
    { rewrite Et. apply (ltb_value _ _ _ _ Vr Hf). rewrite E25, I in Cr. rewrite I in HT. lra. }
    rewrite Lt. reflexivity. }
  specialize (One _ Vc' Tl). rewrite (map_app (TUpdate float_ft)), Fa.
  destruct (trun float_ft (map (TUpdate float_ft) l) (new_ticker float_ft f true)) as [t1 r1]. cbn [fst snd] in *.
  cbn [map]. destruct (trun float_ft [TUpdate float_ft x] t1) as [t2 r2]. cbn [snd] in *. rewrite One, IH, map_app. reflexivity.
Qed.

(** *** How far off sums are *)
Lemma fsum_error : forall k l ps, (-149 <= k <= 103)%Z -> Forall2 float_is l ps -> Forall (fun p => 0 <= p) ps ->
  qsum ps + inject_Z (Z.of_nat (length ps)) * times_pow 2 1 (k - 1) <= times_pow 2 (2 ^ 24) k ->
  exists q, float_is (fsum float_ft l) q /\ Qabs (q - qsum ps) <= inject_Z (Z.of_nat (length ps)) * times_pow 2 1 (k - 1).
Proof.
  intros k l. induction l as [|x l IH] using rev_ind; intros ps Hk H Hp Hs.
  - inversion H. subst. exists 0. split; [split; reflexivity|]. cbn. unfold Qle. cbn. lia.
  - apply Forall2_app_inv_l in H. destruct H as (ps1 & ps2 & H1 & H2 & E). subst ps. inversion H2 as [|? p ? l' Hx H3]. subst. inversion H3. subst. clear H2 H3.
    apply Forall_app in Hp. destruct Hp as [Hp1 Hp2]. inversion_clear Hp2. rename H into P0. clear H0.
    assert (Eq : qsum (ps1 ++ [p]) == qsum ps1 + p).
    { clear. induction ps1 as [|a ps IH]; cbn; [ring|]. unfold qsum in IH. rewrite IH. ring. }
    assert (El : inject_Z (Z.of_nat (length (ps1 ++ [p]))) == inject_Z (Z.of_nat (length ps1)) + 1).
    { rewrite app_length. cbn [length]. rewrite Nat2Z.inj_add, inject_Z_plus. reflexivity. }
    setoid_rewrite Eq. setoid_rewrite El. rewrite Eq, El in Hs. clear El. set (n := inject_Z (Z.of_nat (length ps1))) in *. remember (times_pow 2 1 (k - 1)) as u eqn:Eu in *.
    assert (U0 : 0 < u) by (rewrite Eu; apply one_pos). assert (N0 : 0 <= n) by (unfold n; change 0 with (inject_Z 0); rewrite <- Zle_Qle; lia).
    assert (S0 : 0 <= qsum ps1). { clear - Hp1. induction Hp1; cbn; [lra|]. unfold qsum in IHHp1. lra. }
    assert (En : (n + 1) * u == n * u + u) by ring. setoid_rewrite En. rewrite En in Hs. assert (NU : 0 <= n * u) by (apply Qmult_le_0_compat; lra). 
    destruct (IH ps1 Hk H1 Hp1) as (q & Vq & Eq1); [fold n; try rewrite <- Eu; lra|]. fold n in Eq1; try rewrite <- Eu in Eq1.
    unfold fsum in *. rewrite fold_left_app. cbn [fold_left]. set (f := fold_left (fadd float_ft) l (fzero float_ft)) in *.
    pose proof (add_rounds f x q p Vq Hx) as A.
    assert (Q0 : 0 <= q).
    { clear - H1 Hp1 Vq. revert q Vq. unfold f. clear f. assert (G : forall l ps, Forall2 float_is l ps -> Forall (fun p => 0 <= p) ps -> forall a v, float_is a v -> 0 <= v -> forall q, float_is (fold_left (fadd float_ft) l a) q -> 0 <= q).
      { clear. intros l. induction l as [|y l IH]; intros ps H Hp a v Va V0 q Vq; cbn [fold_left] in Vq.
        - assert (q == v) by (eapply value_one; eassumption). lra.
        - inversion H as [|? py ? ps' Hy Hl]. subst. inversion_clear Hp. pose proof (add_rounds a y v py Va Hy) as A. destruct A as [[R (w & Vw & Nw)]|[R W]].
          + eapply (IH ps' Hl H1 _ w Vw); [|exact Vq]. eapply nearest_above; [exact Nw| |lra]. exists 0%Z, 0%Z. split; [cbn; lia|reflexivity].
          + exfalso. change (fadd float_ft a y) with (SFadd 24 128 a y) in Vq. rewrite W in Vq.
            assert (Inf : forall m s, Forall (fun z => exists w, float_is z w) m -> fold_left (fadd float_ft) m (S754_infinity s) = S754_infinity s).
            { induction m as [|z m IHm]; intros s Hm; [reflexivity|]. inversion_clear Hm. destruct H2 as (wz & Vz). cbn [fold_left]. destruct z; cbn; try (exfalso; exact (proj2 Vz)); apply IHm; assumption. }
            rewrite Inf in Vq; [exact (proj2 Vq)|]. clear - Hl. induction Hl; constructor; eauto. }
      intros q Vq. eapply (G l ps1 H1 Hp1 (S754_zero false) 0); [split; reflexivity|lra|exact Vq]. }
    assert (X : Qabs (q + p) <= times_pow 2 (2 ^ 24) k).
    { rewrite Qabs_pos by lra. revert Eq1. apply Qabs_case; intros; lra. }
    assert (R : in_range (q + p)).
    { unfold in_range. eapply Qle_lt_trans; [exact X|]. eapply Qle_lt_trans; [|instantiate (1 := times_pow 2 (2 ^ 24) 103); reflexivity].
      rewrite (times_shift 2 (2 ^ 24) k 103) by lia. apply times_le. pose proof (Z.pow_pos_nonneg 2 (103 - k) ltac:(lia) ltac:(lia)). lia. }
    destruct (in_range_is _ _ R A) as (r & Vr & Nr). exists r. split; [exact Vr|].
    pose proof (nearest_error (q + p) r k Hk X Nr) as Er. rewrite <- Eu in Er.
    revert Er Eq1. apply Qabs_case; apply Qabs_case; apply Qabs_case; intros; lra.
Qed.
Lemma mul_true : forall x p, float_is x p -> 0 <= p -> fmulb float_ft x true = x.
Proof.
  intros [s|s| |s m e] p H P; try (exfalso; exact (proj2 H)); cbn [float_ft fmulb].
  - destruct s; reflexivity.
  - destruct s.
    + exfalso. destruct H as [_ V]. cbn in V. assert (times_pow 2 (Zneg m) e < times_pow 2 0 e) by (apply times_lt_iff; lia). rewrite times_zero in H. lra.
    + apply (times_one (S754_finite false m e)). split; [exact (proj1 H)|reflexivity].
Qed.
Lemma Forall2_part : forall A B (R : A -> B -> Prop) l m a b, Forall2 R l m -> Forall2 R (skipn a (firstn b l)) (skipn a (firstn b m)).
Proof.
  intros A B R l m a b H. revert a b. induction H as [|x y l m Hx H IH]; intros a b; [rewrite !firstn_nil, !skipn_nil; constructor|].
  destruct b; [cbn; rewrite !skipn_nil; constructor|]. cbn [firstn]. destruct a; [|cbn [skipn]; apply IH]. cbn [skipn]. constructor; [exact Hx|].
  apply (IH 0%nat b).
Qed.
Lemma qsum_app : forall a b, qsum (a ++ b) == qsum a + qsum b.
Proof. intros a b. unfold qsum. induction a as [|x a IH]; cbn [app fold_right]; [ring|]. rewrite IH. ring. Qed.
Lemma qsum_nonneg : forall l, Forall (fun p => 0 <= p) l -> 0 <= qsum l.
Proof. intros l H. unfold qsum. induction H; cbn [fold_right]; lra. Qed.
Lemma part_sum : forall a b l, Forall (fun p => 0 <= p) l -> let m := skipn a (firstn b l) in
  Forall (fun p => 0 <= p) m /\ qsum m <= qsum l /\ (length m <= length l)%nat.
Proof.
  intros a b l H m. pose proof (firstn_skipn b l) as E. pose proof (firstn_skipn a (firstn b l)) as F. fold m in F.
  rewrite <- F in E. rewrite <- E in H. apply Forall_app in H. destruct H as [H1 H2]. apply Forall_app in H1. destruct H1 as [H0 H1].
  split; [exact H1|]. split.
  - rewrite <- E, !qsum_app. pose proof (qsum_nonneg _ H0). pose proof (qsum_nonneg _ H2). lra.
  - rewrite <- E, !app_length. lia.
Qed.
Lemma ticks_near : forall k f T l ps, (-149 <= k <= 103)%Z -> float_is f T -> Forall2 float_is l ps -> Forall (fun p => 0 <= p) ps ->
  let u := times_pow 2 1 (k - 1) in
  qsum ps + inject_Z (Z.of_nat (length ps)) * u <= times_pow 2 (2 ^ 24) k ->
  exists t bs, trun float_ft (map (TUpdate float_ft) l) (new_ticker float_ft f true) = (t, map Some bs) /\ length bs = length l /\
    forall i, (i < length l)%nat -> let since := skipn (last_tick bs i) (firstn (S i) ps) in let off := inject_Z (Z.of_nat (length since)) * u in
      (nth i bs false = true -> T - off <= qsum since) /\ (nth i bs false = false -> qsum since < T + off).
Proof.
  intros k f T l ps Hk Hf H Hp u Hs.
  destruct (tick_times float_ft f l) as (t & bs & E & L & Tk & _).
  { intros x Hx. apply In_nth_error in Hx. destruct Hx as (n & Hn). clear Hs. revert n Hn. induction H as [|y p l ps Hy H IH]; intros n Hn; [destruct n; discriminate|].
    inversion_clear Hp. destruct n; [injection Hn as <-; eapply mul_true; eauto|eapply IH; eauto]. }
  exists t, bs. split; [exact E|]. split; [exact L|]. intros i Hi since off. specialize (Tk i Hi).
  destruct (part_sum (last_tick bs i) (S i) ps Hp) as (A1 & A2 & A3). fold since in A1, A2, A3.
  assert (U0 : 0 < u) by apply one_pos.
  assert (Hoff : off <= inject_Z (Z.of_nat (length ps)) * u).
  { apply Qmult_le_compat_r; [|lra]. rewrite <- Zle_Qle. lia. }
  destruct (fsum_error k (skipn (last_tick bs i) (firstn (S i) l)) since Hk) as (q & Vq & Eq).
  - apply Forall2_part. exact H.
  - exact A1.
  - fold u off. lra.
  - fold u off in Eq. pose proof (ltb_value _ _ _ _ Vq Hf) as Lt. change (SFltb (fsum float_ft (skipn (last_tick bs i) (firstn (S i) l))) f) with (flt float_ft (fsum float_ft (skipn (last_tick bs i) (firstn (S i) l))) f) in Lt.
    destruct (flt float_ft _ f) eqn:Ef; rewrite Tk; cbn [negb].
    + split; [discriminate|]. intros _. apply proj1 in Lt. specialize (Lt eq_refl). revert Eq. apply Qabs_case; intros; lra.
    + split; [|discriminate]. intros _. assert (Ge : T <= q). { apply Qnot_lt_le. intros C. apply Lt in C. discriminate. }
      revert Eq. apply Qabs_case; intros; lra.
Qed.

(** *** One unit per frame *)
Lemma repeat_app' : forall {A} (x : A) a b, repeat x (a + b) = repeat x a ++ repeat x b.
Proof. intros A x a b. induction a; cbn; congruence. Qed.
Lemma fsum_units : forall n, (Z.of_nat n <= 2 ^ 24)%Z -> units 0 (fsum float_ft (repeat f32_1 n)) (Z.of_nat n).
Proof.
  induction n as [|n IH]; intros H; [apply (zero_units 0 false)|].
  replace (S n) with (n + 1)%nat at 1 by lia. unfold fsum. rewrite repeat_app', fold_left_app. cbn [repeat fold_left].
  replace (Z.of_nat (S n)) with (Z.of_nat n + 1)%Z by lia. apply add_units; [lia|apply IH; lia|split; reflexivity|lia].
Qed.
Lemma tie_24 : nearest_float (times_pow 2 (2 ^ 24) 0 + 1) (times_pow 2 (2 ^ 24) 0).
Proof.
  split; [exists (2 ^ 23)%Z, 1%Z; split; [lia|reflexivity]|]. intros p Fp Np.
  assert (E : even_float (times_pow 2 (2 ^ 24) 0)) by (exists (2 ^ 23)%Z, 1%Z; split; [lia|]; split; reflexivity).
  assert (E24 : times_pow 2 (2 ^ 24) 0 == 16777216) by reflexivity. assert (F24 : times_pow 2 1 24 == 16777216) by reflexivity.
  assert (V : Qabs (times_pow 2 (2 ^ 24) 0 - (times_pow 2 (2 ^ 24) 0 + 1)) == 1) by reflexivity. rewrite V. clear V.
  remember (times_pow 2 (2 ^ 24) 0) as x eqn:Ex. clear Ex.
  destruct (Qlt_le_dec p 16777216) as [C|C]; [left; apply Qabs_case; intros; lra|].
  assert (D : times_pow 2 1 24 < p) by (rewrite F24; destruct (Qle_lt_or_eq _ _ C) as [D|D]; [exact D|exfalso; apply Np; lra]).
  pose proof (gap_above p 24 Fp D) as G. assert (T : times_pow 2 1 (24 - 23) == 2) by reflexivity. rewrite T, F24 in G.
  destruct (Qlt_le_dec 16777218 p) as [F|F]; [left; apply Qabs_case; intros; lra|].
  right. split; [|exact E]. apply Qabs_case; intros; lra.
Qed.
Lemma fsum_stops : forall n, units 0 (fsum float_ft (repeat f32_1 n)) (Z.min (Z.of_nat n) (2 ^ 24)).
Proof.
  intros n. destruct (Z_le_gt_dec (Z.of_nat n) (2 ^ 24)) as [C|C]; [rewrite Z.min_l by exact C; apply fsum_units, C|rewrite Z.min_r by lia].
  destruct (Z_of_nat_complete (2 ^ 24) ltac:(discriminate)) as [c Hc].
  assert (G : forall d, units 0 (fsum float_ft (repeat f32_1 (c + d))) (2 ^ 24)).
  { induction d as [|d IH].
    - rewrite Nat.add_0_r, Hc. apply fsum_units. rewrite Hc. apply Z.le_refl.
    - assert (E : fsum float_ft (repeat f32_1 (c + S d)) = SFadd 24 128 (fsum float_ft (repeat f32_1 (c + d))) f32_1).
      { replace (c + S d)%nat with (c + d + 1)%nat by lia. rewrite (repeat_app' f32_1 (c + d) 1). unfold fsum. rewrite fold_left_app. reflexivity. }
      rewrite E. clear E. generalize dependent (fsum float_ft (repeat f32_1 (c + d))). intros s IH. pose proof (add_rounds s f32_1 _ _ IH one_is) as A.
      destruct (in_range_is (times_pow 2 (2 ^ 24) 0 + 1) _ ltac:(reflexivity) A) as (q & V & N).
      eapply float_is_wd; [|exact V]. apply (nearest_unique (times_pow 2 (2 ^ 24) 0 + 1)); [reflexivity|exact N|exact tie_24]. }
  replace n with (c + (n - c))%nat by lia. apply G.
Qed.
Lemma total_error : forall k f l ps, (-149 <= k <= 103)%Z -> Forall2 float_is l ps -> Forall (fun p => 0 <= p) ps ->
  let off := inject_Z (Z.of_nat (length ps)) * times_pow 2 1 (k - 1) in
  qsum ps + off <= times_pow 2 (2 ^ 24) k ->
  exists q, float_is (total (fst (trun float_ft (map (TUpdate float_ft) l) (new_ticker float_ft f true)))) q /\ Qabs (q - qsum ps) <= off.
Proof.
  intros k f l ps Hk H Hp off Hs. destruct (tick_times float_ft f l) as (t & bs & E & L & _ & _ & Tt & _).
  { intros x Hx. apply In_nth_error in Hx. destruct Hx as (n & Hn). clear off Hs. revert n Hn. induction H as [|y p l ps Hy H IH]; intros n Hn; [destruct n; discriminate|].
    inversion_clear Hp. destruct n; [injection Hn as <-; eapply mul_true; eauto|eapply IH; eauto]. }
  cut (exists q, float_is (fsum float_ft l) q /\ Qabs (q - qsum ps) <= off); [|apply fsum_error; assumption].
  intros (q & Vq & Eq). exists q. split; [|exact Eq].
  replace (total (fst (trun float_ft (map (TUpdate float_ft) l) (new_ticker float_ft f true)))) with (fsum float_ft l); [exact Vq|].
  rewrite <- Tt. apply (f_equal (fun p => total (fst p))) in E. cbn [fst] in E. symmetry. exact E.
Qed.
Lemma count_stops : forall f n, units 0 (total (fst (trun float_ft (repeat (TUpdate float_ft f32_1) n) (new_ticker float_ft f true)))) (Z.min (Z.of_nat n) (2 ^ 24)).
Proof.
  intros f n. destruct (tick_times float_ft f (repeat f32_1 n)) as (t & bs & E & L & _ & _ & Tt & _).
  { intros x Hx. apply repeat_spec in Hx. rewrite Hx. reflexivity. }
  assert (M : map (TUpdate float_ft) (repeat f32_1 n) = repeat (TUpdate float_ft f32_1) n) by (clear; induction n as [|n IH]; [reflexivity|]; cbn [repeat map]; f_equal; exact IH).
  assert (E' : trun float_ft (repeat (TUpdate float_ft f32_1) n) (new_ticker float_ft f true) = (t, map Some bs)) by (rewrite <- M; exact E).
  rewrite E'. cbn [fst]. rewrite Tt. apply fsum_stops.
Qed.
