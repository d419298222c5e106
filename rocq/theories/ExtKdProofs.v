From Coq Require Import String ZArith Bool Lia List Znumtheory.
From Verif Require Import Common PcgModel PcgSpec PcgProofs PcgTopProofs PermModel PermSpec PermProofs PermTopProofs ExtModel ExtSpec ExtCycleProofs ExtProofs ExtDrawProofs ExtPeriodProofs.
Import ListNotations.
Local Open Scope Z_scope.

Lemma choice_nat : forall n (P : nat -> nat -> Prop), (forall i, (i < n)%nat -> exists j, P i j) -> exists f, forall i, (i < n)%nat -> P i (f i).
Proof.
  induction n as [|n IH]; intros P H.
  - exists (fun i => i). intros; lia.
  - destruct (IH P) as [f F]; [intros; apply H; lia|]. destruct (H n ltac:(lia)) as [j J].
    exists (fun i => if Nat.eqb i n then j else f i). intros i I. destruct (Nat.eqb_spec i n) as [->|N]; [exact J|]. apply F. lia.
Qed.
Section KD.
Variable p : params.
Hypothesis HP : sound p.
Let B := 2 ^ xb p.
Notation step := (one_step (w p) (m p) (c p)).
Notation aft := (after (w p) (m p) (c p)).
Notation isstate := (state (w p) (is_mcg p)).
Notation sh := (sh (is_mcg p)).
Notation low := (low (is_mcg p)).
Notation total := (total p).
Lemma tp_facts : 0 <= table_pow2 p /\ table_pow2 p + sh <= w p.
Proof. destruct HP as (_ & _ & _ & _ & _ & _ & _ & _ & _ & _ & _ & T1 & T2 & _). split; [exact T1|exact T2]. Qed.
Lemma idx_low : forall s, kdd p = true -> idx p s = low (table_pow2 p) s.
Proof.
  intros s K. unfold idx, table_mask. rewrite K, land_mask by apply tp_facts. now rewrite (st_kdd p s K).
Qed.
Lemma lhs_range : forall s, isstate s -> 0 <= lhs p s < B.
Proof.
  intros s S. unfold lhs. destruct HP as (W & _ & _ & _ & O & _). apply O. destruct (output_previous p); [apply S|].
  apply (state_step p HP s S).
Qed.
Lemma lxor_B : forall a b, 0 <= a < B -> 0 <= b < B -> 0 <= Z.lxor a b < B.
Proof. intros a b. apply lxor_range. destruct (xb_cases p HP); lia. Qed.
(** Each entry is used once in 2^table_pow2 draws. *)
Lemma index_once : forall s i, kdd p = true -> isstate s -> 0 <= i < 2 ^ table_pow2 p ->
  exists j, (j < Z.to_nat (2 ^ table_pow2 p))%nat /\ idx p (Nat.iter j step s) = i.
Proof.
  intros s i K S I. destruct tp_facts as [T1 T2].
  destruct (phase _ _ _ _ (wide_w p HP) (good_base p HP) (m_range p HP) (c_range p HP) (table_pow2 p) s i T1 T2 S I) as (d & D & H).
  exists (Z.to_nat d). split; [lia|]. rewrite idx_low by exact K. apply (H d); [lia|]. rewrite Z.sub_diag. apply Z.divide_0_r.
Qed.
Lemma index_inj : forall s a b, kdd p = true -> isstate s -> (a < Z.to_nat (2 ^ table_pow2 p))%nat -> (b < Z.to_nat (2 ^ table_pow2 p))%nat ->
  idx p (Nat.iter a step s) = idx p (Nat.iter b step s) -> a = b.
Proof.
  intros s a b K S A Bb E. destruct tp_facts as [T1 T2]. rewrite !idx_low in E by exact K.
  assert (P : 0 < 2 ^ table_pow2 p) by (apply Z.pow_pos_nonneg; lia).
  destruct (phase _ _ _ _ (wide_w p HP) (good_base p HP) (m_range p HP) (c_range p HP) (table_pow2 p) s (low (table_pow2 p) (Nat.iter b step s)) T1 T2 S) as (d & D & H).
  { unfold ExtDrawProofs.low. apply Z.mod_pos_bound. exact P. }
  pose proof (H (Z.of_nat a) ltac:(lia)) as HA. pose proof (H (Z.of_nat b) ltac:(lia)) as HB'. unfold after in HA, HB'. rewrite Nat2Z.id in HA, HB'.
  apply HA in E. assert (E2 : (2 ^ table_pow2 p | Z.of_nat b - d)) by now apply HB'.
  destruct E as [x X], E2 as [y Y]. assert (ZD : Z.of_nat a - Z.of_nat b = (x - y) * 2 ^ table_pow2 p) by lia.
  assert (RA : 0 <= Z.of_nat a < 2 ^ table_pow2 p) by lia. assert (RB : 0 <= Z.of_nat b < 2 ^ table_pow2 p) by lia. clear - ZD RA RB P.
  assert (x - y = 0) by nia. lia.
Qed.
Lemma equi : forall s rs, kdd p = true -> isstate s -> table p rs ->
  exists t, table p t /\ (exists g, draws p (Z.to_nat (2 ^ table_pow2 p)) (s, t) = Ok (g, rs)) /\
  forall t', table p t' -> (exists g, draws p (Z.to_nat (2 ^ table_pow2 p)) (s, t') = Ok (g, rs)) -> t' = t.
Proof.
  intros s rs K HS [RL RF]. destruct tp_facts as [T1 T2]. set (n := Z.to_nat (2 ^ table_pow2 p)).
  assert (P : 0 < 2 ^ table_pow2 p) by (apply Z.pow_pos_nonneg; lia). assert (NN : Z.of_nat n = 2 ^ table_pow2 p) by (unfold n; lia).
  assert (B2 : 2 < B) by apply (B_2 p HP).
  destruct (choice_nat n (fun i j => (j < n)%nat /\ idx p (Nat.iter j step s) = Z.of_nat i)) as [f F].
  { intros i I. apply (index_once s (Z.of_nat i) K HS). lia. }
  assert (SJ : forall j, isstate (Nat.iter j step s)).
  { intros j. pose proof (state_after _ _ _ _ (wide_w p HP) (good_base p HP) (Z.of_nat j) s HS) as Q. unfold after in Q. now rewrite Nat2Z.id in Q. }
  assert (ST : forall j, (j < n)%nat -> exists i, (i < n)%nat /\ f i = j /\ idx p (Nat.iter j step s) = Z.of_nat i).
  { intros j J. pose proof (idx_range p HP _ (SJ j)) as R. exists (Z.to_nat (idx p (Nat.iter j step s))). split; [lia|].
    destruct (F (Z.to_nat (idx p (Nat.iter j step s)))) as [F1 F2]; [lia|]. rewrite Z2Nat.id in F2 by lia. split; [|lia].
    apply (index_inj s _ _ K HS); try assumption. }
  set (q := fun i => pos p (Z.of_nat i + 1) (Z.lxor (nth (f i) rs 0) (lhs p (Nat.iter (f i) step s)))).
  assert (RR : forall j, (j < n)%nat -> 0 <= nth j rs 0 < B).
  { intros j J. rewrite Forall_forall in RF. apply RF. apply nth_In. lia. }
  assert (XR : forall i, (i < n)%nat -> 0 <= Z.lxor (nth (f i) rs 0) (lhs p (Nat.iter (f i) step s)) < B).
  { intros i I. apply lxor_B; [apply RR; apply (F i I)|apply lhs_range, SJ]. }
  destruct (solve B B2 n (fun i => total (S (f i)) s) q) as (ps & L & FB & E & U).
  { intros i I. apply pos_facts; [exact HP|]. now apply XR. }
  (* what the results say about the positions *)
  assert (KEY : forall ps', length ps' = n -> Forall (inB B) ps' ->
    (outs p ps' n 0 s = rs <-> forall i, (i < n)%nat -> nth i (spin B (total (S (f i)) s) (total (S (f i)) s) ps') 0 = q i)).
  { intros ps' L' F'. assert (LN : forall A, Z.of_nat (length (T p ps' A)) = 2 ^ table_pow2 p) by (intros A; rewrite T_length; lia).
    assert (LK : forall i, (i < n)%nat -> look p (T p ps' (total (S (f i)) s)) (Nat.iter (f i) step s) = val p (Z.of_nat i + 1) (nth i (spin B (total (S (f i)) s) (total (S (f i)) s) ps') 0)).
    { intros i I. unfold look. destruct (F i I) as [_ ->]. rewrite Nat2Z.id. unfold T. rewrite nth_tval by (rewrite spin_length; lia). f_equal. lia. }
    split.
    - intros O i I. destruct (F i I) as [F1 F2]. pose proof (outs_nth p ps' n 0 s (f i) F1) as ON. rewrite O in ON. rewrite Z.add_0_l in ON. rewrite (LK i I) in ON.
      unfold q. rewrite ON. rewrite (Z.lxor_comm (lhs p _)), lxor_cancel. symmetry. apply val_facts; [exact HP|].
      assert (SR := spin_range B B2 ps' (total (S (f i)) s) (total (S (f i)) s)). rewrite Forall_forall in SR. apply SR, nth_In. rewrite spin_length. lia.
    - intros H. apply nth_ext with (d := 0) (d' := 0); [rewrite outs_length; lia|]. rewrite outs_length. intros j J. rewrite outs_nth by exact J. rewrite Z.add_0_l.
      destruct (ST j J) as (i & I & FI & _). rewrite <- FI. rewrite (LK i I), (H i I). unfold q.
      destruct (pos_facts p HP (Z.of_nat i + 1) _ (XR i I)) as (_ & _ & ->). rewrite Z.lxor_comm. apply lxor_cancel. }
  assert (DR : forall t', table p t' -> ((exists g, draws p n (s, t') = Ok (g, rs)) <-> outs p (tpos p 0 t') n 0 s = rs)).
  { intros t' T'. rewrite draws_t by assumption. split; [intros [g E']; now injection E'|intros ->; now eexists]. }
  assert (TT : table p (tval p 0 ps)) by (split; [rewrite tval_length; lia|apply tval_range; [exact HP|exact FB]]).
  exists (tval p 0 ps). split; [exact TT|]. split.
  - apply DR; [exact TT|]. rewrite (tpos_tval p HP) by exact FB. now apply KEY.
  - intros t' T' H. apply DR in H; [|exact T']. destruct T' as [TL TF].
    assert (TP1 : length (tpos p 0 t') = n) by (rewrite tpos_length; lia). assert (TP2 : Forall (inB B) (tpos p 0 t')) by now apply tpos_range.
    pose proof (proj1 (KEY _ TP1 TP2) H) as H'.
    rewrite <- (tval_tpos p HP t' 0 TF). f_equal. apply U; [exact TP1|exact TP2|exact H'].
Qed.

(** ** Jumping *)
Lemma by_forward : forall d i carry A, Forall (fun x => 0 < x < B) d -> 0 <= A <= 2 ^ (w p - 2) + 1 -> 0 <= carry -> carry + A <= 2 ^ (w p - 1) ->
  advance_table_by_from p i carry A true d = Ok (tval p i (spin B (carry + A) A (tpos p i d))).
Proof.
  intros d i carry A F. revert i carry. induction F as [|x d X F IH]; intros i carry HA HC HD; [reflexivity|].
  assert (B2 : 2 ^ 32 <= B) by apply (B_big p HP). pose proof (w_big p HP) as HW.
  assert (PW : 2 ^ w p = 2 * 2 ^ (w p - 1)) by (rewrite <- Z.pow_succ_r by lia; f_equal; lia).
  assert (PW2 : 2 ^ (w p - 1) = 2 * 2 ^ (w p - 2)) by (rewrite <- Z.pow_succ_r by lia; f_equal; lia).
  assert (PW3 : 2 ^ 30 <= 2 ^ (w p - 2)) by (apply Z.pow_le_mono_r; lia). change (2 ^ 30) with 1073741824 in PW3. change (2 ^ 32) with 4294967296 in B2.
  cbn [advance_table_by_from tpos spin tval]. set (D := carry + A) in *. assert (D0 : 0 <= D) by (unfold D; lia). clearbody D.
  rewrite (Z.mod_small D) by lia. fold B.
  assert (DM : 0 <= D mod B < B) by (apply Z.mod_pos_bound; lia).
  destruct (advance_elem p HP (i + 1) x (D mod B)) as [E _]; [fold B; lia|exact DM|]. rewrite E. cbn [obind]. fold B.
  destruct (pos_facts p HP (i + 1) x) as (R & _ & _); [fold B; lia|]. fold B in R.
  assert (PN : pos p (i + 1) x <> 0) by (intros Q; apply (pos_zero p HP) in Q; [lia|fold B; lia]).
  set (k := pos p (i + 1) x) in *. clearbody k.
  assert (CR : (if xb p <? w p then Z.shiftr D (xb p) else 0) = D / B).
  { destruct (Z.ltb_spec (xb p) (w p)); [apply Z.shiftr_div_pow2; destruct (xb_cases p HP); lia|]. symmetry. apply Z.div_small.
    assert (2 ^ w p <= B) by (apply Z.pow_le_mono_r; lia). lia. }
  rewrite CR.
  assert (OPP : (- k) mod B = B - k) by (symmetry; apply Z.mod_unique with (-1); [left; lia|lia]). rewrite OPP.
  pose proof (Z.div_mod D B ltac:(lia)) as DD. pose proof (Z.div_pos D B D0 ltac:(lia)) as DP.
  set (q := D / B) in *. set (r := D mod B) in *. clearbody q r.
  assert (CC : q + (if B - k <=? r then 1 else 0) = (k + D) / B).
  { destruct (Z.leb_spec (B - k) r); [apply Z.div_unique with (k + r - B); [left; lia|lia]|apply Z.div_unique with (k + r); [left; lia|lia]]. }
  rewrite CC.
  assert (QB : 0 <= (k + D) / B <= 1 + q) by (rewrite <- CC; destruct (B - k <=? r); lia).
  assert (QS : q <= 2 ^ (w p - 2) / 8) by (apply Z.div_le_lower_bound; nia).
  assert (Q8 : 8 * (2 ^ (w p - 2) / 8) <= 2 ^ (w p - 2)) by (apply Z.mul_div_le; lia).
  rewrite (Z.mod_small ((k + D) / B)) by lia.
  rewrite IH by lia. cbn [obind]. f_equal. f_equal.
  - rewrite DD. replace (k + (B * q + r)) with (k + r + q * B) by ring. now rewrite Z.mod_add by lia.
  - f_equal. f_equal. lia.
Qed.
Lemma by_backward : forall ps i carry A, Forall (fun x => 0 < x < B) ps -> 0 <= A <= 2 ^ (w p - 2) + 1 -> 0 <= carry -> carry + A <= 2 ^ (w p - 1) ->
  advance_table_by_from p i carry A false (tval p i (spin B (carry + A) A ps)) = Ok (tval p i ps).
Proof.
  intros ps i carry A F. revert i carry. induction F as [|k ps X F IH]; intros i carry HA HC HD; [reflexivity|].
  assert (B2 : 2 ^ 32 <= B) by apply (B_big p HP). pose proof (w_big p HP) as HW.
  assert (PW : 2 ^ w p = 2 * 2 ^ (w p - 1)) by (rewrite <- Z.pow_succ_r by lia; f_equal; lia).
  assert (PW2 : 2 ^ (w p - 1) = 2 * 2 ^ (w p - 2)) by (rewrite <- Z.pow_succ_r by lia; f_equal; lia).
  assert (PW3 : 2 ^ 30 <= 2 ^ (w p - 2)) by (apply Z.pow_le_mono_r; lia). change (2 ^ 30) with 1073741824 in PW3. change (2 ^ 32) with 4294967296 in B2.
  cbn [spin tval advance_table_by_from]. set (D := carry + A) in *. assert (D0 : 0 <= D) by (unfold D; lia). clearbody D.
  rewrite (Z.mod_small D) by lia. fold B.
  assert (DM : 0 <= D mod B < B) by (apply Z.mod_pos_bound; lia). assert (KM : 0 <= (k + D) mod B < B) by (apply Z.mod_pos_bound; lia).
  destruct (val_facts p HP (i + 1) _ KM) as [V1 V2].
  destruct (advance_elem p HP (i + 1) _ (D mod B) V1 DM) as [_ E]. rewrite E, V2. cbn [obind]. fold B.
  assert (CR : (if xb p <? w p then Z.shiftr D (xb p) else 0) = D / B).
  { destruct (Z.ltb_spec (xb p) (w p)); [apply Z.shiftr_div_pow2; destruct (xb_cases p HP); lia|]. symmetry. apply Z.div_small.
    assert (2 ^ w p <= B) by (apply Z.pow_le_mono_r; lia). lia. }
  rewrite CR. clear CR E V1 V2.
  pose proof (Z.div_mod D B ltac:(lia)) as DD. pose proof (Z.div_pos D B D0 ltac:(lia)) as DP.
  assert (MM : ((k + D) mod B - D mod B) mod B = k) by (rewrite <- Zminus_mod; replace (k + D - D) with k by ring; apply Z.mod_small; lia).
  rewrite MM.
  set (q := D / B) in *. set (r := D mod B) in *. clearbody q r.
  assert (CC : q + (if (k + D) mod B <=? r then 1 else 0) = (k + D) / B).
  { destruct (Z.le_gt_cases B (k + r)) as [L|L].
    - replace ((k + D) mod B) with (k + r - B) by (apply Z.mod_unique with (q + 1); [left; lia|lia]). replace (k + r - B <=? r) with true by lia.
      apply Z.div_unique with (k + r - B); [left; lia|lia].
    - replace ((k + D) mod B) with (k + r) by (apply Z.mod_unique with q; [left; lia|lia]). replace (k + r <=? r) with false by lia.
      apply Z.div_unique with (k + r); [left; lia|lia]. }
  rewrite CC.
  assert (QB : 0 <= (k + D) / B <= 1 + q) by (rewrite <- CC; destruct ((k + D) mod B <=? r); lia).
  assert (QS : q <= 2 ^ (w p - 2) / 8) by (apply Z.div_le_lower_bound; nia).
  assert (Q8 : 8 * (2 ^ (w p - 2) / 8) <= 2 ^ (w p - 2)) by (apply Z.mul_div_le; lia).
  rewrite (Z.mod_small ((k + D) / B)) by lia.
  rewrite (Z.add_comm A ((k + D) / B)). rewrite IH by lia. reflexivity.
Qed.
End KD.
