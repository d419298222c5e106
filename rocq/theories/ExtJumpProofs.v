From Coq Require Import String ZArith Bool Lia List Znumtheory.
From Verif Require Import Common PcgModel PcgSpec PcgProofs PcgTopProofs PermModel PermSpec PermProofs PermTopProofs ExtModel ExtSpec ExtCycleProofs ExtProofs ExtDrawProofs ExtPeriodProofs ExtKdProofs.
Import ListNotations.
Local Open Scope Z_scope.

Section MASK.
Variable p : params.
Hypothesis HP : sound p.
Notation step := (one_step (w p) (m p) (c p)).
Notation aft := (after (w p) (m p) (c p)).
Notation isstate := (state (w p) (is_mcg p)).
Notation sh := (sh (is_mcg p)).
Notation low := (low (is_mcg p)).
Notation total := (total p).
Variable k : Z.
Hypothesis K0 : 0 <= k.
Hypothesis KW : k + sh <= w p.
Definition msk : Z := (2 ^ k - 1) * 2 ^ sh.
Lemma land_msk : forall x, Z.land x msk = low k x * 2 ^ sh.
Proof.
  intros x. unfold msk, ExtDrawProofs.low. pose proof (sh_pos (is_mcg p)) as HS. rewrite <- land_mask by lia.
  rewrite <- (Z.shiftr_div_pow2 x) by lia. rewrite <- !Z.shiftl_mul_pow2 by lia. rewrite Z.shiftl_land, <- Z.ldiff_ones_r by lia.
  apply Z.bits_inj'. intros i Hi. rewrite !Z.land_spec, Z.ldiff_spec.
  destruct (Z.lt_ge_cases i sh) as [L|L].
  - rewrite (Z.shiftl_spec_low _ _ i) by lia. now rewrite !andb_false_r.
  - rewrite Z.ones_spec_high by lia. now rewrite andb_true_r.
Qed.
Lemma same_low : forall x y, cg sh x y -> (low k x = low k y <-> cg (k + sh) x y).
Proof.
  intros x y C. pose proof (sh_pos (is_mcg p)) as HS. pose proof (cg_modeq sh x y (proj1 HS) C) as M. unfold ExtDrawProofs.low.
  assert (P : 0 < 2 ^ sh) by (apply Z.pow_pos_nonneg; lia).
  pose proof (Z.div_mod x (2 ^ sh) ltac:(lia)) as E1. pose proof (Z.div_mod y (2 ^ sh) ltac:(lia)) as E2. unfold cg. rewrite Z.pow_add_r by lia. split.
  - intros H. apply (modeq_cg k) in H; [|exact K0]. destruct H as [j J]. exists j. nia.
  - intros [j J]. apply cg_modeq; [exact K0|]. exists j. assert (2 ^ sh * (x / 2 ^ sh - y / 2 ^ sh - j * 2 ^ k) = 0) by nia. nia.
Qed.
Lemma masked_loop_ok : forall fuel s0 i D cur new cm cp, inr (w p) cur -> inr (w p) new -> inr (w p) cm -> inr (w p) cp -> valid (is_mcg p) cur ->
  cg (w p) cm (pa (m p) i) -> cg (w p) cp (pp (m p) (c p) i) -> cg (Z.of_nat i + sh) cur new -> 0 <= D < 2 ^ Z.of_nat i ->
  cg (w p) cur (Nat.iter (Z.to_nat D) (aff (m p) (c p)) s0) -> Z.of_nat i <= k -> k - Z.of_nat i <= Z.of_nat fuel ->
  exists D', masked_loop p (S fuel) cur new cm cp msk (2 ^ (Z.of_nat i + sh) mod 2 ^ w p) (D * 2 ^ sh) = Ok (D' * 2 ^ sh) /\
    0 <= D' < 2 ^ k /\ cg (k + sh) new (Nat.iter (Z.to_nat D') (aff (m p) (c p)) s0).
Proof.
  pose proof (wide_w p HP) as W. pose proof (good_base p HP) as G.
  assert (ENDS : forall fuel s0 i D cur new cm cp tb, cg (k + sh) cur new -> 0 <= D < 2 ^ Z.of_nat i -> Z.of_nat i <= k ->
    cg (w p) cur (Nat.iter (Z.to_nat D) (aff (m p) (c p)) s0) -> 
    exists D', masked_loop p (S fuel) cur new cm cp msk tb (D * 2 ^ sh) = Ok (D' * 2 ^ sh) /\ 0 <= D' < 2 ^ k /\ cg (k + sh) new (Nat.iter (Z.to_nat D') (aff (m p) (c p)) s0)).
  { intros fuel s0 i D cur new cm cp tb C HD Hi CD. pose proof (sh_pos (is_mcg p)) as HS. exists D. cbn [masked_loop]. rewrite !land_msk.
    rewrite (proj2 (same_low cur new (cg_weaken sh (k + sh) cur new ltac:(lia) C)) C). rewrite Z.eqb_refl. split; [reflexivity|]. split.
    - assert (2 ^ Z.of_nat i <= 2 ^ k) by (apply Z.pow_le_mono_r; lia). lia.
    - eapply cg_trans; [apply cg_sym, C|]. apply (cg_weaken _ (w p)); [lia|exact CD]. }
  induction fuel as [|fuel IH]; intros s0 i D cur new cm cp Hcur Hnew Hcm Hcp V Ccm Ccp C HD CD Hi Hf; pose proof (sh_pos (is_mcg p)) as HS.
  - apply (ENDS 0%nat s0 i); auto. replace k with (Z.of_nat i) by lia. exact C.
  - destruct (Z.eq_dec (low k cur) (low k new)) as [E|N].
    { apply (ENDS (S fuel) s0 i); auto. apply same_low; [|exact E]. apply (cg_weaken _ (Z.of_nat i + sh)); [lia|exact C]. }
    assert (L : Z.of_nat i < k).
    { destruct (Z.eq_dec (Z.of_nat i) k) as [E|]; [|lia]. exfalso. apply N. rewrite E in C. apply same_low; [|exact C].
      apply (cg_weaken _ (k + sh)); [lia|exact C]. }
    remember (S fuel) as fu. cbn [masked_loop]. subst fu.
    rewrite !land_msk. assert (PS0 : 0 < 2 ^ sh) by (apply Z.pow_pos_nonneg; lia).
    replace (low k cur * 2 ^ sh =? low k new * 2 ^ sh) with false by nia.
    assert (P : 2 ^ (Z.of_nat i + sh) < 2 ^ w p) by (apply Z.pow_lt_mono_r; lia). assert (P0 : 0 < 2 ^ (Z.of_nat i + sh)) by (apply Z.pow_pos_nonneg; lia).
    rewrite (Z.mod_small (2 ^ (Z.of_nat i + sh))) by lia. rewrite !land_bit by lia.
    assert (Bq : forall x y, (2 ^ (Z.of_nat i + sh) * Z.b2z (Z.testbit x (Z.of_nat i + sh)) =? 2 ^ (Z.of_nat i + sh) * Z.b2z (Z.testbit y (Z.of_nat i + sh))) = Bool.eqb (Z.testbit x (Z.of_nat i + sh)) (Z.testbit y (Z.of_nat i + sh))).
    { intros x y. destruct (Z.testbit x _), (Z.testbit y _); cbn [Z.b2z Bool.eqb]; lia. }
    assert (NB : (2 ^ (Z.of_nat i + sh) * 2) mod 2 ^ w p = 2 ^ (Z.of_nat (S i) + sh) mod 2 ^ w p).
    { f_equal. replace (Z.of_nat (S i) + sh) with (Z.of_nat i + sh + 1) by lia. rewrite (Z.pow_add_r 2 (Z.of_nat i + sh) 1) by lia. reflexivity. }
    assert (W0 : 0 <= w p) by (pose proof (w_big p HP); lia).
    assert (Nm : cg (w p) ((cm * cm) mod 2 ^ w p) (pa (m p) (S i))).
    { eapply cg_trans; [apply cg_mod; exact W0|]. cbn [pa]. apply cg_mul; assumption. }
    assert (Np : cg (w p) (((cm + 1) * cp) mod 2 ^ w p) (pp (m p) (c p) (S i))).
    { eapply cg_trans; [apply cg_mod; exact W0|]. cbn [pp]. apply cg_mul; [apply cg_add; [assumption|apply cg_refl]|assumption]. }
    assert (PS : 2 ^ Z.of_nat (S i) = 2 * 2 ^ Z.of_nat i) by (rewrite Nat2Z.inj_succ; apply Z.pow_succ_r; lia).
    assert (K1 : 0 <= Z.of_nat i + sh) by lia.
    pose proof (inr_mod (w p) W) as IM.
    rewrite Bq. destruct (Bool.eqb (Z.testbit cur (Z.of_nat i + sh)) (Z.testbit new (Z.of_nat i + sh))) eqn:Q.
    + cbn [obind]. rewrite land_bit, Bq, Q by lia. rewrite (expr_suc (w p) W), (expr_mul (w p) W) by assumption. cbn [obind]. rewrite NB.
      apply Bool.eqb_prop in Q. apply (same_bit cur new _ K1 C) in Q.
      apply (IH s0 (S i) D); auto; try lia; try (rewrite PS; lia).
      replace (Z.of_nat (S i) + sh) with (Z.of_nat i + sh + 1) by lia. exact Q.
    + rewrite (expr_mac (w p) W) by assumption. cbn [obind].
      set (cur' := (cur * cm + cp) mod 2 ^ w p).
      assert (Ecur : cg (w p) cur' (aff (pa (m p) i) (pp (m p) (c p) i) cur)).
      { unfold cur'. eapply cg_trans; [apply cg_mod; exact W0|]. apply (aff_cg (w p) cm (pa (m p) i) cp (pp (m p) (c p) i)); auto using cg_refl. }
      assert (Mv : cg (Z.of_nat i + sh + 1) cur' (cur + 2 ^ (Z.of_nat i + sh))).
      { eapply cg_trans; [apply (cg_weaken _ (w p)); [lia|apply Ecur]|]. apply moves; assumption. }
      assert (Agree : cg (Z.of_nat i + sh + 1) cur' new).
      { eapply cg_trans; [exact Mv|].
        assert (C1 : cg (Z.of_nat i + sh) (cur + 2 ^ (Z.of_nat i + sh)) new).
        { replace new with (new + 0) by lia. apply cg_add; [exact C|]. exists 1. lia. }
        apply (same_bit _ _ _ K1 C1).
        assert (C2 : cg (Z.of_nat i + sh) cur (cur + 2 ^ (Z.of_nat i + sh))) by (exists (-1); lia).
        pose proof (same_bit _ _ _ K1 C2) as S2.
        assert (D2 : Z.testbit cur (Z.of_nat i + sh) <> Z.testbit (cur + 2 ^ (Z.of_nat i + sh)) (Z.of_nat i + sh)).
        { intros T. apply S2 in T. destruct T as [j J]. rewrite (Z.pow_add_r 2 (Z.of_nat i + sh) 1) in J by lia. change (2 ^ 1) with 2 in J.
          assert (Z0 : 2 ^ (Z.of_nat i + sh) * (2 * j + 1) = 0) by (transitivity (j * (2 ^ (Z.of_nat i + sh) * 2) - (cur - (cur + 2 ^ (Z.of_nat i + sh)))); [ring|rewrite J; ring]).
          apply Z.mul_eq_0 in Z0. lia. }
        destruct (Z.testbit cur (Z.of_nat i + sh)), (Z.testbit new (Z.of_nat i + sh)), (Z.testbit (cur + 2 ^ (Z.of_nat i + sh)) (Z.of_nat i + sh)); try discriminate; congruence. }
      rewrite !land_bit, Bq by lia.
      assert (CC : cg (Z.of_nat i + sh) cur' new) by (apply (cg_weaken _ (Z.of_nat i + sh + 1)); [lia|exact Agree]).
      rewrite (proj2 (same_bit _ _ _ K1 CC) Agree). rewrite Bool.eqb_reflx. rewrite (expr_suc (w p) W), (expr_mul (w p) W) by assumption. cbn [obind]. rewrite NB.
      assert (DL : Z.lor (D * 2 ^ sh) (2 ^ (Z.of_nat i + sh)) = (D + 2 ^ Z.of_nat i) * 2 ^ sh).
      { assert (PE : 2 ^ (Z.of_nat i + sh) = 2 ^ Z.of_nat i * 2 ^ sh) by (apply Z.pow_add_r; lia).
        rewrite lor_bit by (try lia; rewrite PE; nia). rewrite PE. ring. }
      rewrite DL.
      apply (IH s0 (S i) (D + 2 ^ Z.of_nat i)); auto; try lia; try (rewrite PS; lia).
      * unfold cur'. apply IM.
      * intros M. destruct Ecur as [e Ee]. pose proof (valid_pow (is_mcg p) (m p) (c p) G i cur V M) as VP. 
        assert (EV : exists h, 2 ^ w p = 2 * h) by (exists (2 ^ (w p - 1)); rewrite <- Z.pow_succ_r by (pose proof (w_big p HP); lia); f_equal; lia).
        destruct EV as [h EV]. rewrite EV in Ee.
        replace cur' with (aff (pa (m p) i) (pp (m p) (c p) i) cur + e * h * 2) by lia. rewrite Z.mod_add by lia. exact VP.
      * replace (Z.of_nat (S i) + sh) with (Z.of_nat i + sh + 1) by lia. exact Agree.
      * eapply cg_trans; [exact Ecur|]. rewrite Z2Nat.inj_add by lia. rewrite Nat.add_comm, iter_add.
        assert (E2 : Z.to_nat (2 ^ Z.of_nat i) = (2 ^ i)%nat) by (apply Nat2Z.inj; rewrite pow_nat_Z, Z2Nat.id; lia). rewrite E2, pow_aff.
        apply aff_cg; auto using cg_refl.
Qed.
Lemma masked_distance_ok : forall s z, isstate s -> isstate z -> exists d, masked_distance p s z msk = Ok d /\ 0 <= d < 2 ^ k /\ low k (aft d s) = low k z.
Proof.
  intros s z S Z0. pose proof (sh_pos (is_mcg p)) as HS. pose proof (w_big p HP) as HW. unfold masked_distance.
  assert (SZ : cg sh s z).
  { unfold PcgProofs.sh. unfold state in S, Z0. destruct (is_mcg p).
    - apply modeq_cg; [lia|]. change (2 ^ 2) with 4. now rewrite (proj2 S), (proj2 Z0).
    - exists (s - z). cbn. lia. }
  destruct (masked_loop_ok (Z.to_nat (w p)) s 0 0 s z (m p) (c p)) as (d & E & Hd & C).
  - apply S.
  - apply Z0.
  - apply (m_range p HP).
  - apply (c_range p HP).
  - exact (state_valid _ _ _ S).
  - apply cg_refl.
  - apply cg_refl.
  - exact SZ.
  - change (2 ^ Z.of_nat 0) with 1. lia.
  - apply cg_refl.
  - exact K0.
  - rewrite Z2Nat.id by lia. lia.
  - change (Z.of_nat 0 + sh) with sh in E. rewrite Z.mul_0_l in E.
    assert (Bt : 2 ^ sh mod 2 ^ w p = if is_mcg p then 4 else 1).
    { rewrite Z.mod_small; [unfold PcgProofs.sh; destruct (is_mcg p); reflexivity|]. split; [apply Z.pow_nonneg; lia|]. apply Z.pow_lt_mono_r; lia. }
    rewrite Bt in E. rewrite E. cbn [obind]. exists d. split; [|split; [exact Hd|]].
    + f_equal. unfold PcgProofs.sh. destruct (is_mcg p).
      * rewrite Z.shiftr_div_pow2 by lia. change (2 ^ 2) with 4. apply Z.div_mul. lia.
      * change (2 ^ 0) with 1. lia.
    + assert (H : cg (k + sh) (aft d s) z).
      { eapply cg_trans; [apply (cg_weaken _ (w p)); [lia|apply after_cg, (wide_w p HP)]|]. apply cg_sym. exact C. }
      apply same_low; [|exact H]. apply (cg_weaken _ (k + sh)); [lia|exact H].
Qed.
End MASK.
