From Coq Require Import String ZArith Bool Lia List Znumtheory Zpow_facts Permutation.
From Verif Require Import Common PcgModel PcgSpec PcgProofs PcgTopProofs PermModel PermSpec PermProofs PermTopProofs ExtModel ExtSpec ExtCycleProofs ExtProofs ExtDrawProofs.
Import ListNotations.
Local Open Scope Z_scope.

Section PERIOD.
Variable p : params.
Hypothesis HP : sound p.
Let B := 2 ^ xb p.
Notation step := (one_step (w p) (m p) (c p)).
Notation aft := (after (w p) (m p) (c p)).
Notation isstate := (state (w p) (is_mcg p)).
Notation sh := (sh (is_mcg p)).
Notation low := (low (is_mcg p)).
Notation total := (total p).
Lemma sh_is : sh = if is_mcg p then 2 else 0.
Proof. reflexivity. Qed.
Lemma w_big : 32 <= w p.
Proof. apply HP. Qed.
Lemma ap_facts : 2 <= advance_pow2 p /\ (may_tick p = true -> advance_pow2 p + sh < w p).
Proof. destruct HP as (_ & _ & _ & _ & _ & _ & _ & _ & _ & _ & _ & _ & _ & A & B'). split; [exact A|exact B']. Qed.
Lemma m_range : 0 <= m p < 2 ^ w p.
Proof. apply HP. Qed.
Lemma c_range : 0 <= c p < 2 ^ w p.
Proof. apply HP. Qed.
Lemma period_is : period (w p) (is_mcg p) = 2 ^ (w p - sh).
Proof. apply period_sh. Qed.
Lemma st_kdd : forall s, kdd p = true -> st' p s = s / 2 ^ sh.
Proof.
  intros s K. unfold st'. rewrite K. unfold PcgProofs.sh. cbn [andb]. destruct (is_mcg p).
  - now rewrite Z.shiftr_div_pow2 by lia.
  - change (2 ^ 0) with 1. now rewrite Z.div_1_r.
Qed.
Lemma tick_mask_is : may_tick p = true -> tick_mask p = 2 ^ advance_pow2 p - 1.
Proof.
  intros M. unfold tick_mask. rewrite M. destruct ap_facts as [A A']. specialize (A' M). pose proof (sh_pos (is_mcg p)).
  apply Z.mod_small. assert (0 < 2 ^ advance_pow2 p) by (apply Z.pow_pos_nonneg; lia).
  assert (2 ^ advance_pow2 p <= 2 ^ w p) by (apply Z.pow_le_mono_r; lia). lia.
Qed.
Lemma tick_low : forall s, kdd p = true -> may_tick p = true -> tick p s = (low (advance_pow2 p) s =? 0).
Proof.
  intros s K M. unfold tick. rewrite M, K, tick_mask_is, land_mask, st_kdd by (auto; destruct ap_facts; lia). reflexivity.
Qed.
Lemma tock_low : forall s, kdd p = true -> isstate s -> tock p s = may_tock p && (low (w p - sh) s =? 0).
Proof.
  intros s K [S _]. unfold tock. rewrite st_kdd by exact K. unfold ExtDrawProofs.low. pose proof (sh_pos (is_mcg p)) as HS. pose proof w_big as HW.
  rewrite Z.mod_small; [reflexivity|]. apply div_range; try lia. now replace (sh + (w p - sh)) with (w p) by lia.
Qed.
Lemma mod0 : forall M n, M <> 0 -> (n mod M =? 0) = true <-> (M | n).
Proof. intros M n H. rewrite Z.eqb_eq. apply Z.mod_divide. exact H. Qed.
Lemma bool_iff : forall a b : bool, (a = true <-> b = true) -> a = b.
Proof. intros [] [] H; try reflexivity; exfalso; intuition discriminate. Qed.
Lemma total_hits : forall s dt dk, kdd p = true -> isstate s ->
  0 <= dt < 2 ^ advance_pow2 p -> 0 <= dk < 2 ^ (w p - sh) ->
  (forall n, 0 <= n -> (low (advance_pow2 p) (aft n s) = 0 <-> (2 ^ advance_pow2 p | n - dt))) ->
  (forall n, 0 <= n -> (low (w p - sh) (aft n s) = 0 <-> (2 ^ (w p - sh) | n - dk))) ->
  forall n, total n s = (if may_tick p then hits (2 ^ advance_pow2 p) dt (Z.of_nat n) else 0) + (if may_tock p then hits (2 ^ (w p - sh)) dk (Z.of_nat n) else 0).
Proof.
  intros s dt dk K S Dt Dk Ht Hk n. induction n as [|n IH].
  - cbn [ExtDrawProofs.total]. change (Z.of_nat 0) with 0. rewrite !hits_zero by assumption. destruct (may_tick p), (may_tock p); reflexivity.
  - rewrite total_S, IH. unfold adv. rewrite Nat2Z.inj_succ. unfold Z.succ.
    rewrite (hits_step (2 ^ advance_pow2 p) dt (Z.of_nat n)) by lia. rewrite (hits_step (2 ^ (w p - sh)) dk (Z.of_nat n)) by lia.
    specialize (Ht (Z.of_nat n) ltac:(lia)). specialize (Hk (Z.of_nat n) ltac:(lia)). unfold after in Ht, Hk. rewrite Nat2Z.id in Ht, Hk.
    pose proof (state_after _ _ _ _ (wide_w p HP) (good_base p HP) (Z.of_nat n) s S) as SN. unfold after in SN. rewrite Nat2Z.id in SN.
    set (sn := Nat.iter n step s) in *. clearbody sn.
    rewrite (tock_low sn K SN).
    assert (E1 : (low (w p - sh) sn =? 0) = ((Z.of_nat n - dk) mod 2 ^ (w p - sh) =? 0)).
    { apply bool_iff. rewrite mod0 by lia. rewrite Z.eqb_eq. exact Hk. }
    assert (E2 : (low (advance_pow2 p) sn =? 0) = ((Z.of_nat n - dt) mod 2 ^ advance_pow2 p =? 0)).
    { apply bool_iff. rewrite mod0 by lia. rewrite Z.eqb_eq. exact Ht. }
    rewrite <- E1, <- E2. generalize (low (w p - sh) sn =? 0) as b1. intros b1. clear E1 E2 Ht Hk.
    destruct (may_tick p) eqn:MT.
    + rewrite (tick_low sn K MT). generalize (low (advance_pow2 p) sn =? 0) as b2'. intros b2'.
      destruct (may_tock p), b1, b2'; cbn [andb b2]; lia.
    + unfold tick. rewrite MT. destruct (may_tock p), b1; cbn [andb b2]; lia.
Qed.
Lemma phases : forall s, isstate s -> (may_tick p = true -> exists dt, 0 <= dt < 2 ^ advance_pow2 p /\
    (forall n, 0 <= n -> (low (advance_pow2 p) (aft n s) = 0 <-> (2 ^ advance_pow2 p | n - dt)))) /\
  exists dk, 0 <= dk < 2 ^ (w p - sh) /\ (forall n, 0 <= n -> (low (w p - sh) (aft n s) = 0 <-> (2 ^ (w p - sh) | n - dk))).
Proof.
  intros s S. pose proof (sh_pos (is_mcg p)) as HS. pose proof w_big as HW. destruct ap_facts as [A A']. split.
  - intros M. specialize (A' M). apply (phase _ _ _ _ (wide_w p HP) (good_base p HP) m_range c_range _ s 0); [lia|lia|exact S|].
    split; [lia|]. apply Z.pow_pos_nonneg; lia.
  - apply (phase _ _ _ _ (wide_w p HP) (good_base p HP) m_range c_range _ s 0); [lia|lia|exact S|].
    split; [lia|]. apply Z.pow_pos_nonneg; lia.
Qed.

Definition per_period : Z := (if may_tick p then 2 ^ (w p - sh - advance_pow2 p) else 0) + (if may_tock p then 1 else 0).
Lemma total_kdd : forall s K, kdd p = true -> isstate s -> 0 <= K -> total (Z.to_nat (K * 2 ^ (w p - sh))) s = K * per_period.
Proof.
  intros s K KD S HK. destruct (phases s S) as [PT (dk & Dk & Hk)]. pose proof (sh_pos (is_mcg p)) as HS. pose proof w_big as HW. destruct ap_facts as [A A'].
  assert (PP : 0 < 2 ^ (w p - sh)) by (apply Z.pow_pos_nonneg; lia). unfold per_period.
  destruct (may_tick p) eqn:MT.
  - destruct (PT eq_refl) as (dt & Dt & Ht). specialize (A' eq_refl). rewrite (total_hits s dt dk KD S Dt Dk Ht Hk). rewrite MT. rewrite Z2Nat.id by nia.
    rewrite hits_mul by exact Dk. replace (K * 2 ^ (w p - sh)) with (K * 2 ^ (w p - sh - advance_pow2 p) * 2 ^ advance_pow2 p).
    + rewrite hits_mul by exact Dt. destruct (may_tock p); ring.
    + rewrite <- Z.mul_assoc, <- Z.pow_add_r by lia. do 2 f_equal. lia.
  - (* no ticks: any phase will do *)
    assert (E : forall n, total n s = if may_tock p then hits (2 ^ (w p - sh)) dk (Z.of_nat n) else 0).
    { clear HK. induction n as [|n IH].
      - cbn [ExtDrawProofs.total]. change (Z.of_nat 0) with 0. rewrite hits_zero by exact Dk. destruct (may_tock p); reflexivity.
      - rewrite total_S, IH. unfold adv, tick. rewrite MT. cbn [andb b2]. rewrite Nat2Z.inj_succ. unfold Z.succ. rewrite hits_step by lia.
        specialize (Hk (Z.of_nat n) ltac:(lia)). unfold after in Hk. rewrite Nat2Z.id in Hk.
        pose proof (state_after _ _ _ _ (wide_w p HP) (good_base p HP) (Z.of_nat n) s S) as SN. unfold after in SN. rewrite Nat2Z.id in SN.
        rewrite (tock_low _ KD SN).
        assert (E1 : (low (w p - sh) (Nat.iter n step s) =? 0) = ((Z.of_nat n - dk) mod 2 ^ (w p - sh) =? 0)).
        { apply bool_iff. rewrite mod0 by lia. rewrite Z.eqb_eq. exact Hk. }
        rewrite <- E1. generalize (low (w p - sh) (Nat.iter n step s) =? 0) as b1. intros b1. destruct (may_tock p), b1; cbn [andb b2]; lia. }
    rewrite E. rewrite Z2Nat.id by nia. rewrite hits_mul by exact Dk. destruct (may_tock p); ring.
Qed.

(** Without [kdd]: counting over all states. *)
Definition sumZ (l : list Z) : Z := fold_right Z.add 0 l.
Lemma sum_perm : forall l l', Permutation l l' -> sumZ l = sumZ l'.
Proof. induction 1; cbn [sumZ fold_right] in *; unfold sumZ in *; lia. Qed.
Lemma sum_app : forall l l', sumZ (l ++ l') = sumZ l + sumZ l'.
Proof. induction l as [|x l IH]; intros l'; cbn [app sumZ fold_right]; [reflexivity|]. unfold sumZ in *. rewrite IH. lia. Qed.
Lemma total_sum : forall n s, total n s = sumZ (map (fun j => adv p (Nat.iter j step s)) (seq 0 n)).
Proof.
  induction n as [|n IH]; intros s; [reflexivity|]. rewrite total_S, IH, seq_S, map_app, sum_app. cbn [map sumZ fold_right Nat.add]. lia.
Qed.
Definition nth_state (k : nat) : Z := if is_mcg p then 4 * Z.of_nat k + 3 else Z.of_nat k.
Lemma nth_state_ok : forall s, isstate s <-> exists k, (k < Z.to_nat (2 ^ (w p - sh)))%nat /\ nth_state k = s.
Proof.
  intros s. unfold state, nth_state. pose proof w_big as HW. unfold PcgProofs.sh.
  assert (P4 : 2 ^ w p = 4 * 2 ^ (w p - 2)) by (change 4 with (2 ^ 2); rewrite <- Z.pow_add_r by lia; f_equal; lia).
  assert (0 < 2 ^ (w p - 2)) by (apply Z.pow_pos_nonneg; lia). assert (0 < 2 ^ w p) by lia. destruct (is_mcg p).
  - split.
    + intros [S M]. specialize (M eq_refl). pose proof (Z.div_mod s 4 ltac:(lia)). exists (Z.to_nat (s / 4)). assert (0 <= s / 4) by (apply Z.div_pos; lia). lia.
    + intros (k & K & <-). split; [lia|]. intros _. replace (4 * Z.of_nat k + 3) with (3 + Z.of_nat k * 4) by ring. rewrite Z.mod_add by lia. reflexivity.
  - rewrite Z.sub_0_r. split.
    + intros [S _]. exists (Z.to_nat s). lia.
    + intros (k & K & <-). split; [lia|discriminate].
Qed.
Lemma map_nodup : forall (f : nat -> Z) l, (forall a b, In a l -> In b l -> f a = f b -> a = b) -> NoDup l -> NoDup (map f l).
Proof.
  intros f l H N. induction N as [|a l NI N IH]; cbn [map]; constructor.
  - intros I. apply in_map_iff in I. destruct I as (b & E & I). apply NI. replace a with b; [exact I|]. apply H; [now right|now left|exact E].
  - apply IH. intros x y X Y. apply H; now right.
Qed.
Lemma orbit_perm : forall s, isstate s ->
  Permutation (map (fun j => Nat.iter j step s) (seq 0 (Z.to_nat (2 ^ (w p - sh))))) (map nth_state (seq 0 (Z.to_nat (2 ^ (w p - sh))))).
Proof.
  intros s S. pose proof w_big as HW. pose proof (sh_pos (is_mcg p)) as HS. assert (PP : 0 < 2 ^ (w p - sh)) by (apply Z.pow_pos_nonneg; lia).
  assert (AFT : forall j, Nat.iter j step s = aft (Z.of_nat j) s) by (intros j; unfold after; now rewrite Nat2Z.id).
  apply NoDup_Permutation_bis.
  - apply map_nodup; [|apply seq_NoDup]. intros a b Ia Ib E. apply in_seq in Ia, Ib. rewrite !AFT in E.
    apply Nat2Z.inj. apply (same_count _ _ _ _ (wide_w p HP) (good_base p HP) _ _ s S); rewrite ?period_is; lia.
  - now rewrite !map_length.
  - intros x I. apply in_map_iff in I. destruct I as (j & <- & I). rewrite AFT.
    pose proof (state_after _ _ _ _ (wide_w p HP) (good_base p HP) (Z.of_nat j) s S) as SJ. apply nth_state_ok in SJ. destruct SJ as (k & Kk & <-).
    apply in_map. apply in_seq. lia.
Qed.
Lemma count_below : forall n Q, 0 <= Q -> sumZ (map (fun k => b2 (Z.of_nat k <? Q)) (seq 0 n)) = Z.min (Z.of_nat n) Q.
Proof.
  induction n as [|n IH]; intros Q HQ; [cbn; lia|]. rewrite seq_S, map_app, sum_app, IH by exact HQ. cbn [map sumZ fold_right Nat.add].
  destruct (Z.ltb_spec (Z.of_nat n) Q); cbn [b2]; lia.
Qed.
Lemma total_one : forall s, kdd p = false -> is_mcg p = false \/ may_tock p = false -> isstate s -> total (Z.to_nat (2 ^ (w p - sh))) s = per_period.
Proof.
  intros s KD MM S. pose proof w_big as HW. pose proof (sh_pos (is_mcg p)) as HS. assert (PP : 0 < 2 ^ (w p - sh)) by (apply Z.pow_pos_nonneg; lia).
  destruct ap_facts as [A A'].
  rewrite total_sum. rewrite <- map_map with (g := adv p) (f := fun j => Nat.iter j step s).
  rewrite (sum_perm _ _ (Permutation_map (adv p) (orbit_perm s S))). rewrite map_map.
  set (n := Z.to_nat (2 ^ (w p - sh))).
  assert (NN : Z.of_nat n = 2 ^ (w p - sh)) by (unfold n; lia).
  set (Q := 2 ^ (w p - sh - advance_pow2 p)).
  assert (ADV : forall k, (k < n)%nat -> adv p (nth_state k) = (if may_tick p then b2 (Z.of_nat k <? Q) else 0) + (if may_tock p then b2 (Z.of_nat k <? 1) else 0)).
  { intros k Kk. unfold adv, tick, tock, st'. rewrite KD. cbn [andb].
    assert (R1 : may_tick p = true -> (Z.shiftr (nth_state k) (tick_shift p) =? 0) = (Z.of_nat k <? Q)).
    { intros M. specialize (A' M). unfold tick_shift. rewrite Z.shiftr_div_pow2 by lia. apply bool_iff. rewrite Z.eqb_eq, Z.ltb_lt.
      assert (NS : 0 <= nth_state k) by (unfold nth_state; destruct (is_mcg p); lia).
      assert (P0 : 0 < 2 ^ (w p - advance_pow2 p)) by (apply Z.pow_pos_nonneg; lia).
      assert (DV : nth_state k / 2 ^ (w p - advance_pow2 p) = 0 <-> nth_state k < 2 ^ (w p - advance_pow2 p)).
      { split; [intros E|intros L; apply Z.div_small; lia]. apply Z.div_small_iff in E; lia. }
      rewrite DV. unfold Q, nth_state, PcgProofs.sh in *. destruct (is_mcg p).
      - assert (P4 : 2 ^ (w p - advance_pow2 p) = 4 * 2 ^ (w p - 2 - advance_pow2 p)) by (change 4 with (2 ^ 2); rewrite <- Z.pow_add_r by lia; f_equal; lia). lia.
      - rewrite Z.sub_0_r. lia. }
    assert (R2 : may_tock p = true -> (nth_state k =? 0) = (Z.of_nat k <? 1)).
    { intros M. destruct MM as [MM|MM]; [|congruence]. unfold nth_state. rewrite MM. lia. }
    destruct (may_tick p); cbn [andb b2].
    - rewrite R1 by reflexivity. destruct (may_tock p); cbn [andb b2]; [rewrite R2 by reflexivity|]; reflexivity.
    - destruct (may_tock p); cbn [andb b2]; [rewrite R2 by reflexivity|]; reflexivity. }
  assert (SUM : forall f g l, (forall k, In k l -> adv p (nth_state k) = f k + g k) -> sumZ (map (fun k => adv p (nth_state k)) l) = sumZ (map f l) + sumZ (map g l)).
  { clear. intros f g l. induction l as [|a l IH]; intros H; [reflexivity|]. cbn [map sumZ fold_right]. rewrite (H a) by now left. unfold sumZ in *.
    rewrite IH by (intros; apply H; now right). lia. }
  rewrite (SUM _ _ _ (fun k I => ADV k (proj2 (proj1 (in_seq n 0 k) I)))).
  assert (Z0 : forall l : list nat, sumZ (map (fun _ => 0) l) = 0) by (clear; induction l as [|a l IH]; [reflexivity|]; cbn [map sumZ fold_right]; unfold sumZ in *; lia).
  assert (Q0 : 0 <= Q <= 2 ^ (w p - sh)).
  { unfold Q. split; [apply Z.pow_nonneg; lia|]. destruct (Z.le_gt_cases 0 (w p - sh - advance_pow2 p)) as [L|L]; [apply Z.pow_le_mono_r; lia|].
    rewrite Z.pow_neg_r by lia. lia. }
  unfold per_period. fold Q. f_equal.
  - destruct (may_tick p); [rewrite count_below; lia|apply Z0].
  - destruct (may_tock p); [rewrite count_below; lia|apply Z0].
Qed.
Lemma total_add : forall a b s, total (a + b) s = total a s + total b (Nat.iter a step s).
Proof.
  induction a as [|a IH]; intros b s; [reflexivity|]. change (total (S a + b) s) with (adv p s + total (a + b) (step s)). rewrite IH.
  rewrite iter_step. cbn [ExtDrawProofs.total]. lia.
Qed.
Lemma total_all : forall s K, kdd p = true \/ is_mcg p = false \/ may_tock p = false -> isstate s -> 0 <= K ->
  total (Z.to_nat (K * 2 ^ (w p - sh))) s = K * per_period.
Proof.
  intros s K MM S HK. destruct (kdd p) eqn:KD; [now apply total_kdd|]. destruct MM as [MM|MM]; [discriminate|].
  pose proof w_big as HW. pose proof (sh_pos (is_mcg p)) as HS. assert (PP : 0 < 2 ^ (w p - sh)) by (apply Z.pow_pos_nonneg; lia).
  rewrite <- (Z2Nat.id K HK) at 2. replace (Z.to_nat (K * 2 ^ (w p - sh))) with (Z.to_nat K * Z.to_nat (2 ^ (w p - sh)))%nat by (rewrite Z2Nat.inj_mul; lia).
  generalize (Z.to_nat K). clear K HK. intros k. revert s S. induction k as [|k IH]; intros s S; [reflexivity|].
  cbn [Nat.mul]. rewrite total_add, total_one by assumption. rewrite IH.
  - lia.
  - pose proof (state_after _ _ _ _ (wide_w p HP) (good_base p HP) (2 ^ (w p - sh)) s S) as SN. exact SN.
Qed.

Lemma pow_divide : forall a b, 0 <= b <= a -> (2 ^ b | 2 ^ a).
Proof. intros a b H. exists (2 ^ (a - b)). rewrite <- Z.pow_add_r by lia. f_equal. lia. Qed.
Lemma odd_divide : forall e x y, 0 <= e -> y mod 2 = 1 -> (2 ^ e | x * y) -> (2 ^ e | x).
Proof.
  intros e x y E Y D. destruct (Z.eq_dec e 0) as [->|N]; [apply Z.divide_1_l|].
  apply Gauss with y; [now rewrite Z.mul_comm|]. apply rel_prime_sym.
  apply rel_prime_Zpower_r; [lia|]. apply rel_prime_sym. apply prime_rel_prime; [exact prime_2|]. intros [j J].
  rewrite J, Z.mod_mul in Y by lia. discriminate.
Qed.
Lemma period_ext : forall s t N, kdd p = true \/ is_mcg p = false \/ may_tock p = false -> isstate s -> table p t -> 0 <= N ->
  (returns p N (s, t) <-> (2 ^ true_period_pow2 p | N)).
Proof.
  intros s t N MM S T HN. rewrite returns_iff by assumption. rewrite period_is.
  pose proof w_big as HW. pose proof (sh_pos (is_mcg p)) as HS. assert (PP : 0 < 2 ^ (w p - sh)) by (apply Z.pow_pos_nonneg; lia).
  destruct ap_facts as [A A'].
  assert (TP : 0 <= table_pow2 p) by apply HP. assert (TP' : 0 < 2 ^ table_pow2 p) by (apply Z.pow_pos_nonneg; lia).
  assert (XB : 32 <= xb p) by (destruct (xb_cases p HP); lia).
  set (E := xb p * 2 ^ table_pow2 p). assert (E0 : 0 < E) by (unfold E; nia).
  replace ((2 ^ xb p) ^ 2 ^ table_pow2 p) with (2 ^ E) by (unfold E; apply Z.pow_mul_r; lia).
  unfold true_period_pow2. rewrite <- sh_is. fold E. set (b := w p - sh) in *.
  assert (TOT : forall K, N = K * 2 ^ b -> total (Z.to_nat N) s = K * per_period) by (intros K ->; apply total_all; auto; nia).
  unfold per_period in TOT. fold b in TOT.
  destruct (may_tock p) eqn:MK.
  - assert (ODD : ((if may_tick p then 2 ^ (b - advance_pow2 p) else 0) + 1) mod 2 = 1).
    { destruct (may_tick p); [|reflexivity]. specialize (A' eq_refl). replace (b - advance_pow2 p) with (b - advance_pow2 p - 1 + 1) by lia.
      rewrite Z.pow_add_r by lia. change (2 ^ 1) with 2. rewrite Z.add_comm, Z.mod_add by lia. reflexivity. }
    split.
    + intros [[K HK] D]. rewrite (TOT K HK) in D. apply odd_divide in D; [|lia|exact ODD].
      rewrite HK. rewrite Z.pow_add_r by lia. rewrite (Z.mul_comm (2 ^ b)). now apply Z.mul_divide_mono_r.
    + intros D. assert (DB : (2 ^ b | N)) by (eapply Z.divide_trans; [|exact D]; apply pow_divide; lia). split; [exact DB|].
      destruct DB as [K HK]. rewrite (TOT K HK). rewrite HK in D. rewrite Z.pow_add_r, (Z.mul_comm (2 ^ b)) in D by lia.
      apply Z.mul_divide_cancel_r in D; [|lia]. now apply Z.divide_mul_l.
  - destruct (may_tick p) eqn:MT.
    + specialize (A' eq_refl).
      assert (NK : forall K, N = K * 2 ^ b -> N = K * 2 ^ (b - advance_pow2 p) * 2 ^ advance_pow2 p).
      { intros K ->. rewrite <- Z.mul_assoc, <- Z.pow_add_r by lia. do 2 f_equal. lia. }
      assert (AP : 0 < 2 ^ advance_pow2 p) by (apply Z.pow_pos_nonneg; lia).
      split.
      * intros [[K HK] D]. rewrite (TOT K HK), Z.add_0_r in D.
        destruct (Z.max_spec b (advance_pow2 p + E)) as [[_ ->]|[_ ->]]; [|now exists K].
        rewrite (NK K HK). rewrite Z.pow_add_r by lia. rewrite (Z.mul_comm (2 ^ advance_pow2 p)). now apply Z.mul_divide_mono_r.
      * intros D. assert (DB : (2 ^ b | N)) by (eapply Z.divide_trans; [|exact D]; apply pow_divide; lia). split; [exact DB|].
        destruct DB as [K HK]. rewrite (TOT K HK), Z.add_0_r.
        assert (DE : (2 ^ (advance_pow2 p + E) | N)) by (eapply Z.divide_trans; [|exact D]; apply pow_divide; lia).
        rewrite (NK K HK) in DE. rewrite Z.pow_add_r, (Z.mul_comm (2 ^ advance_pow2 p)) in DE by lia.
        apply Z.mul_divide_cancel_r in DE; [exact DE|lia].
    + split.
      * intros [D _]. exact D.
      * intros D. split; [exact D|]. destruct D as [K HK]. rewrite (TOT K HK). rewrite Z.mul_0_r. apply Z.divide_0_r.
Qed.
End PERIOD.
