From Coq Require Import String ZArith Bool Lia List Znumtheory.
From Verif Require Import Common PcgModel PcgSpec PcgProofs PcgTopProofs PermModel PermSpec PermProofs PermTopProofs ExtModel ExtSpec ExtCycleProofs ExtProofs ExtDrawProofs ExtPeriodProofs ExtKdProofs ExtJumpProofs.
Import ListNotations.
Local Open Scope Z_scope.

Section TOP.
Variable p : params.
Hypothesis HP : sound p.
Let B := 2 ^ xb p.
Notation step := (one_step (w p) (m p) (c p)).
Notation aft := (after (w p) (m p) (c p)).
Notation isstate := (state (w p) (is_mcg p)).
Notation sh := (sh (is_mcg p)).
Notation low := (low (is_mcg p)).
Notation total := (total p).
Notation M := (2 ^ advance_pow2 p).
Notation Pd := (2 ^ (w p - sh)).

Lemma inc_is : forall i, inc p (i + 1) = (ec p + 2 * (i + 1)) mod 2 ^ xb p.
Proof. intros i. unfold inc. apply Zplus_mod_idemp_r. Qed.
Lemma seq_val : forall i k, entry_sequence p i k = Ok (val p (i + 1) k).
Proof. intros i k. unfold entry_sequence. rewrite <- inc_is. apply out_after. exact HP. Qed.
Lemma turned_from : forall t i cy, Forall (entry p) t -> exists t', advance_table_from p i cy t = Ok t' /\ Forall (entry p) t' /\ turned p i (b2 cy) t t' /\
  forall t2, turned p i (b2 cy) t t2 -> t2 = t'.
Proof.
  intros t i cy F. pose proof (B_2 p HP) as B2. rewrite (advance_table_ok p HP t i cy F). eexists. split; [reflexivity|]. fold B in B2 |- *.
  revert i cy. induction F as [|x t X F IH]; intros i cy.
  - split; [constructor|]. split; [exact I|]. intros [|y t2] H; [reflexivity|destruct H].
  - cbn [tpos turn tval]. destruct (pos_facts p HP (i + 1) x X) as (R & _ & V). fold B in R.
    assert (C : b2 cy = 0 \/ b2 cy = 1) by (destruct cy; cbn; auto).
    assert (CY : (pos p (i + 1) x + 1 + b2 cy) / B = b2 (B <=? pos p (i + 1) x + 1 + b2 cy)).
    { destruct (Z.leb_spec B (pos p (i + 1) x + 1 + b2 cy)); cbn [b2]; [|apply Z.div_small; lia].
      symmetry. apply Z.div_unique with (pos p (i + 1) x + 1 + b2 cy - B); [left; lia|lia]. }
    assert (MR : 0 <= (pos p (i + 1) x + 1 + b2 cy) mod B < B) by (apply Z.mod_pos_bound; lia).
    destruct (IH (i + 1) (B <=? pos p (i + 1) x + 1 + b2 cy)) as (I1 & I2 & I3).
    split; [constructor; [apply (val_facts p HP); exact MR|exact I1]|]. split.
    + cbn [turned]. exists (pos p (i + 1) x). split; [exact R|]. rewrite !seq_val. split; [now rewrite V|]. split; [reflexivity|]. fold B. rewrite CY. exact I2.
    + intros [|y t2] H; [destruct H|]. cbn [turned] in H. destruct H as (k & K & E1 & E2 & H). rewrite seq_val in E1, E2. injection E1 as E1. injection E2 as E2.
      fold B in K, E2, H. assert (pos p (i + 1) x = k) as PK by (rewrite <- E1; now apply (val_facts p HP)).
      rewrite PK in *. rewrite CY in H. rewrite (I3 t2 H). now rewrite E2.
Qed.
Lemma turned_ok : forall t, table p t -> exists t', advance_table p t = Ok t' /\ table p t' /\ turned p 0 0 t t' /\ forall t2, turned p 0 0 t t2 -> t2 = t'.
Proof.
  intros t [L F]. destruct (turned_from t 0 false F) as (t' & E & F' & TU & U). exists t'. split; [exact E|]. split; [|split; [exact TU|exact U]].
  split; [|exact F']. unfold advance_table in E. rewrite (advance_table_ok p HP t 0 false F) in E. injection E as <-. rewrite tval_length.
  assert (TL : forall ps cy, length (turn (2 ^ xb p) cy ps) = length ps) by (clear; induction ps; intros; cbn [turn length]; auto).
  now rewrite TL, tpos_length.
Qed.

Lemma turnover_low : forall s, turnover p s <-> low (advance_pow2 p) s = 0.
Proof. intros s. unfold turnover, ExtDrawProofs.low, PcgProofs.sh. destruct (is_mcg p); reflexivity. Qed.
Lemma tick_turnover : forall s, kdd p = true -> may_tick p = true -> (tick p s = true <-> turnover p s).
Proof. intros s K MT. rewrite (tick_low p HP s K MT), turnover_low. apply Z.eqb_eq. Qed.

(** The number of turns in [n] draws. *)
Lemma total_formula : forall s, kdd p = true -> isstate s -> exists dt dk,
  (may_tick p = true -> 0 <= dt < M /\ forall n, 0 <= n -> (low (advance_pow2 p) (aft n s) = 0 <-> (M | n - dt))) /\
  0 <= dk < Pd /\ (forall n, 0 <= n -> (low (w p - sh) (aft n s) = 0 <-> (Pd | n - dk))) /\
  forall n, total n s = (if may_tick p then hits M dt (Z.of_nat n) else 0) + (if may_tock p then hits Pd dk (Z.of_nat n) else 0).
Proof.
  intros s KD S. destruct (phases p HP s S) as [PT (dk & Dk & Hk)]. destruct (may_tick p) eqn:MT.
  - destruct (PT eq_refl) as (dt & Dt & Ht). exists dt, dk. split; [now split|]. split; [exact Dk|]. split; [exact Hk|].
    intros n. rewrite (total_hits p HP s dt dk KD S Dt Dk Ht Hk). now rewrite MT.
  - exists 0, dk. split; [discriminate|]. split; [exact Dk|]. split; [exact Hk|].
    induction n as [|n IH].
    + cbn [ExtDrawProofs.total]. change (Z.of_nat 0) with 0. rewrite hits_zero by exact Dk. destruct (may_tock p); reflexivity.
    + rewrite total_S, IH. unfold adv, tick. rewrite MT. cbn [andb b2]. rewrite Nat2Z.inj_succ. unfold Z.succ. rewrite hits_step by lia.
      specialize (Hk (Z.of_nat n) ltac:(lia)). unfold after in Hk. rewrite Nat2Z.id in Hk.
      pose proof (state_after _ _ _ _ (wide_w p HP) (good_base p HP) (Z.of_nat n) s S) as SN. unfold after in SN. rewrite Nat2Z.id in SN.
      rewrite (tock_low p HP _ KD SN).
      assert (E1 : (low (w p - sh) (Nat.iter n step s) =? 0) = ((Z.of_nat n - dk) mod Pd =? 0)).
      { apply bool_iff. rewrite mod0 by lia. rewrite Z.eqb_eq. exact Hk. }
      rewrite <- E1. generalize (low (w p - sh) (Nat.iter n step s) =? 0) as b1. intros b1. destruct (may_tock p), b1; cbn [andb b2]; lia.
Qed.
Lemma hits_is : forall Q d n, 0 <= d < Q -> hits Q d n = n / Q + (if d <? n mod Q then 1 else 0).
Proof.
  intros Q d n D. unfold hits. pose proof (Z.div_mod n Q ltac:(lia)) as E. pose proof (Z.mod_pos_bound n Q ltac:(lia)) as R.
  set (q := n / Q) in *. set (r := n mod Q) in *. clearbody q r. destruct (Z.ltb_spec d r).
  - symmetry. apply Z.div_unique with (r - d - 1); [left; lia|lia].
  - symmetry. apply Z.div_unique with (r - d + Q - 1); [left; lia|lia].
Qed.
Definition zero (s : Z) : Z := if is_mcg p then Z.land s 3 else 0.
Lemma zero_ok : forall s, isstate s -> isstate (zero s) /\ forall k, 0 <= k -> low k (zero s) = 0.
Proof.
  intros s [S E]. pose proof (w_big p HP) as HW. assert (2 ^ 2 < 2 ^ w p) by (apply Z.pow_lt_mono_r; lia).
  unfold zero, state, ExtDrawProofs.low, PcgProofs.sh. destruct (is_mcg p).
  - change 3 with (2 ^ 2 - 1). rewrite land_mask by lia. change (2 ^ 2) with 4 in *. rewrite (E eq_refl). split; [split; [lia|reflexivity]|].
    intros k K. reflexivity.
  - split; [split; [lia|discriminate]|]. intros k K. reflexivity.
Qed.
Definition amask : Z := if is_mcg p then (tick_mask p * 4) mod 2 ^ w p else tick_mask p.
Lemma amask_is : may_tick p = true -> amask = msk p (advance_pow2 p).
Proof.
  intros MT. unfold amask, msk. rewrite (tick_mask_is p HP MT). destruct (ap_facts p HP) as [A A']. specialize (A' MT). unfold PcgProofs.sh in *. destruct (is_mcg p).
  - change (2 ^ 2) with 4. apply Z.mod_small. assert (0 < M) by (apply Z.pow_pos_nonneg; lia).
    assert (M * 4 <= 2 ^ w p) by (change 4 with (2 ^ 2); rewrite <- Z.pow_add_r by lia; apply Z.pow_le_mono_r; lia). lia.
  - change (2 ^ 0) with 1. lia.
Qed.
(** The distance to the next turn. *)
Lemma next_turn : forall s, isstate s -> may_tick p = true -> exists d, masked_distance p s (zero s) amask = Ok d /\ 0 <= d < M /\ low (advance_pow2 p) (aft d s) = 0.
Proof.
  intros s S MT. destruct (ap_facts p HP) as [A A']. specialize (A' MT). rewrite amask_is by exact MT. destruct (zero_ok s S) as [Z1 Z2].
  destruct (masked_distance_ok p HP (advance_pow2 p) ltac:(lia) ltac:(lia) s (zero s) S Z1) as (d & E & D & L). exists d. split; [exact E|]. split; [exact D|].
  rewrite L. apply Z2. lia.
Qed.
Lemma same_phase : forall Q a b, 0 <= a < Q -> 0 <= b < Q -> (Q | a - b) -> a = b.
Proof. intros Q a b Ha Hb [k K]. assert (k = 0) by nia. lia. Qed.
Lemma shiftr_ap : forall n, Z.shiftr n (advance_pow2 p) = n / M.
Proof. intros n. destruct (ap_facts p HP). apply Z.shiftr_div_pow2. lia. Qed.
Lemma ticks_bound : forall n, may_tick p = true -> 0 <= n < 2 ^ w p -> 0 <= n / M <= 2 ^ (w p - 2) - 1.
Proof.
  intros n MT N. destruct (ap_facts p HP) as [A A']. specialize (A' MT). pose proof (sh_pos (is_mcg p)) as HS. assert (0 < M) by (apply Z.pow_pos_nonneg; lia).
  split; [apply Z.div_pos; lia|]. assert (n / M < 2 ^ (w p - 2)); [|lia]. apply Z.div_lt_upper_bound; [lia|].
  assert (2 ^ w p <= M * 2 ^ (w p - 2)); [|lia]. rewrite <- Z.pow_add_r by lia. apply Z.pow_le_mono_r; lia.
Qed.
Lemma entries_nz : forall t, Forall (entry p) t -> Forall (fun x => x <> 0) t -> Forall (fun x => 0 < x < B) t.
Proof. intros t F N. induction F as [|x t X F IH]; constructor; apply Forall_cons_iff in N; destruct N as [N1 N2]; [unfold entry in X; fold B in X; lia|auto]. Qed.
Lemma pos_nz : forall t i, Forall (entry p) t -> Forall (fun x => x <> 0) t -> Forall (fun x => 0 < x < B) (tpos p i t).
Proof.
  intros t i F. revert i. induction F as [|x t X F IH]; intros i N; cbn [tpos]; [constructor|]. apply Forall_cons_iff in N. destruct N as [N1 N2].
  constructor; [|now apply IH]. destruct (pos_facts p HP (i + 1) x X) as (R & _ & _). fold B in R.
  assert (pos p (i + 1) x <> 0) by (intros Q; apply N1; now apply (pos_zero p HP) in Q). lia.
Qed.
Lemma advance_forward : forall s t n, kdd p = true -> isstate s -> table p t -> 0 <= n < 2 ^ w p -> Forall (fun x => x <> 0) t ->
  may_tock p = false \/ (is_mcg p = false /\ aft n s <> 0) ->
  exists g rs, draws p (Z.to_nat n) (s, t) = Ok (g, rs) /\ advance p (s, t) n true = Ok g.
Proof.
  intros s t n KD S TT N NZ TK. destruct TT as [TL TF]. eexists _, _. split; [apply draws_t; [exact HP|exact S|now split]|].
  unfold advance. rewrite KD. cbn [negb]. fold (zero s). fold amask.
  destruct (total_formula s KD S) as (dt & dk & Ht & Dk & Hk & TOT). pose proof (w_big p HP) as HW. destruct (ap_facts p HP) as [A A'].
  specialize (TOT (Z.to_nat n)). rewrite Z2Nat.id in TOT by lia.
  (* ticks *)
  assert (TI : obind (if may_tick p then
       let ticks := Z.shiftr n (advance_pow2 p) in
       obind (masked_distance p s (zero s) amask) (fun next =>
       let ticks := if next <? Z.land n (tick_mask p) then (ticks + 1) mod 2 ^ w p else ticks in
       if ticks =? 0 then Ok t else advance_table_by p ticks true t) else Ok t) (fun data => Ok data) =
     Ok (T p (tpos p 0 t) (if may_tick p then hits M dt n else 0))).
  { destruct (may_tick p) eqn:MT; [|cbn [obind]; now rewrite T_zero]. specialize (A' eq_refl). destruct (Ht eq_refl) as [Dt Ht'].
    destruct (next_turn s S MT) as (d & E & D & L). cbv zeta. rewrite E. cbn [obind].
    assert (d = dt) as -> by (apply (same_phase M); auto; apply Ht'; [lia|exact L]).
    rewrite (tick_mask_is p HP MT), land_mask by lia. rewrite shiftr_ap.
    pose proof (ticks_bound n MT N) as TB. assert (PW : 2 ^ w p = 4 * 2 ^ (w p - 2)) by (change 4 with (2 ^ 2); rewrite <- Z.pow_add_r by lia; f_equal; lia).
    rewrite (Z.mod_small (n / M + 1)) by lia. rewrite (hits_is M dt n Dt).
    replace (if dt <? n mod M then n / M + 1 else n / M) with (n / M + (if dt <? n mod M then 1 else 0)) by (destruct (dt <? n mod M); lia).
    assert (TB2 : 0 <= n / M + (if dt <? n mod M then 1 else 0) <= 2 ^ (w p - 2)) by (destruct (dt <? n mod M); lia).
    set (ti := n / M + (if dt <? n mod M then 1 else 0)) in *. clearbody ti. destruct (Z.eqb_spec ti 0) as [->|NT]; [cbn [obind]; now rewrite T_zero|].
    unfold advance_table_by. assert (PW1 : 2 ^ (w p - 1) = 2 * 2 ^ (w p - 2)) by (rewrite <- Z.pow_succ_r by lia; f_equal; lia).
    assert (0 < 2 ^ (w p - 2)) by (apply Z.pow_pos_nonneg; lia).
    rewrite (by_forward p HP t 0 0 ti (entries_nz t TF NZ)) by lia. cbn [obind]. rewrite Z.add_0_l. reflexivity. }
  set (X := if may_tick p then _ else Ok t) in *.
  assert (XE : X = Ok (T p (tpos p 0 t) (if may_tick p then hits M dt n else 0))) by (destruct X; cbn [obind] in TI; congruence).
  rewrite XE. cbn [obind]. clear X XE TI.
  assert (BA : PcgModel.advance (w p) (m p) (c p) s n = Ok (aft n s)).
  { apply advance_ok; [apply (wide_w p HP)|apply (m_range p HP)|apply (c_range p HP)|apply S|exact N]. }
  destruct (may_tock p) eqn:MK; cbn [andb].
  - destruct TK as [TK|[NM TK]]; [discriminate|].
    destruct (distance_top (w p) (is_mcg p) (m p) (c p) (wide_w p HP) (good_base p HP) (m_range p HP) (c_range p HP) s (zero s) S (proj1 (zero_ok s S))) as (d & E & D & AD).
    rewrite E. cbn [obind]. rewrite period_is in D by exact p.
    assert (L0 : low (w p - sh) (aft d s) = 0) by (rewrite AD; apply zero_ok; [exact S|unfold PcgProofs.sh; rewrite NM; lia]).
    assert (d = dk) as -> by (apply (same_phase Pd); auto; apply Hk; [lia|exact L0]).
    assert (PE : Pd = 2 ^ w p) by (unfold PcgProofs.sh; rewrite NM, Z.sub_0_r; reflexivity).
    assert (NE : n <> dk) by (intros ->; apply TK; rewrite AD; unfold zero; now rewrite NM).
    rewrite (hits_is Pd dk n Dk) in TOT. rewrite PE in TOT. rewrite (Z.div_small n), (Z.mod_small n) in TOT by lia.
    rewrite TOT. replace (dk <=? n) with (dk <? n) by lia. destruct (dk <? n).
    + rewrite advance_T by exact HP. cbn [obind]. rewrite BA. cbn [obind]. unfold after. reflexivity.
    + cbn [obind]. rewrite BA. cbn [obind]. unfold after. rewrite !Z.add_0_r. reflexivity.
  - cbn [obind]. rewrite BA. cbn [obind]. rewrite TOT, Z.add_0_r. reflexivity.
Qed.
End TOP.
