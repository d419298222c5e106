From Coq Require Import String ZArith Arith Bool Lia List Znumtheory.
From Verif Require Import Common PcgModel PermModel PcgSpec PermSpec PcgProofs PcgTopProofs EqModel EqSpec.
Import ListNotations.
Local Open Scope Z_scope.

Section EQ.
Variables (w : Z) (mcg : bool) (m c : Z).
Hypothesis W : 33 <= w.
Hypothesis G : good mcg m c.
Hypothesis Hm : 0 <= m < 2 ^ w.
Hypothesis Hc : 0 <= c < 2 ^ w.
Let WW : wide w. Proof. right. lia. Qed.
Let WW1 : wide (w - 1). Proof. right. lia. Qed.
Lemma half_period : forall t, state w mcg t -> after w m c (period w mcg / 2) t = (t + 2 ^ (w - 1)) mod 2 ^ w.
Proof.
  intros t T. pose proof (sh_pos mcg) as SP. assert (SL : sh mcg <= 2) by (unfold sh; destruct mcg; lia).
  assert (PE : period w mcg / 2 = 2 ^ (w - 1 - sh mcg)).
  { rewrite period_sh. replace (w - sh mcg) with (w - 1 - sh mcg + 1) by lia. rewrite Z.pow_add_r by lia. change (2 ^ 1) with 2. apply Z.div_mul. lia. }
  assert (PP : 0 < 2 ^ (w - 1 - sh mcg)) by (apply Z.pow_pos_nonneg; lia).
  rewrite PE. set (h := 2 ^ (w - 1 - sh mcg)) in *.
  assert (C : cg (w - 1) (after w m c h t) t).
  { apply cg_trans with (Nat.iter (Z.to_nat h) (aff m c) t).
    - apply (cg_weaken (w - 1) w); [lia|]. apply after_cg. exact WW.
    - apply (period_ok (w - 1) WW1 mcg m c G); [exact (state_valid _ _ _ T)|]. rewrite Z2Nat.id by lia. exists 1. unfold h. lia. }
  assert (NE : after w m c h t <> t).
  { intros E. apply (period_top w mcg m c WW G h t T) in E; [|lia]. destruct E as (k & K). rewrite period_sh in K. replace (w - sh mcg) with (w - 1 - sh mcg + 1) in K by lia.
    rewrite Z.pow_add_r in K by lia. fold h in K. change (2 ^ 1) with 2 in K. assert (K2 : h * (1 - 2 * k) = 0) by lia. apply Z.mul_eq_0 in K2. lia. }
  assert (R : 0 <= after w m c h t < 2 ^ w) by (apply (after_inr w WW); apply T). destruct T as (T & _). destruct C as (k & K). set (a := after w m c h t) in *. clearbody a.
  assert (E2 : 2 ^ w = 2 * 2 ^ (w - 1)) by (rewrite <- Z.pow_succ_r by lia; f_equal; lia). assert (P1 : 0 < 2 ^ (w - 1)) by (apply Z.pow_pos_nonneg; lia). rewrite E2 in *. set (p := 2 ^ (w - 1)) in *. clearbody p.
  assert (k = 1 \/ k = -1) as [->| ->] by nia.
  - rewrite Z.mod_small; lia.
  - apply (Z.mod_unique _ _ 1); lia.
Qed.
Lemma split_k : forall k, 0 < k < period w mcg -> exists q r, 0 <= q /\ 0 <= r /\ q * k = period w mcg / 2 + r * period w mcg.
Proof.
  intros k K. rewrite period_sh in *. pose proof (sh_pos mcg) as SP. assert (SL : sh mcg <= 2) by (unfold sh; destruct mcg; lia). set (p := w - sh mcg) in *. assert (P0 : 1 <= p) by lia. clearbody p.
  destruct (split2 (Z.to_nat k) ltac:(lia)) as (i & q & E).
  assert (KE : k = 2 ^ Z.of_nat i * (2 * Z.of_nat q + 1)). { rewrite <- (Z2Nat.id k) by lia. rewrite E, Nat2Z.inj_mul, pow_nat_Z. lia. }
  assert (IP : Z.of_nat i < p). { destruct (Z.lt_ge_cases (Z.of_nat i) p) as [L|L]; [exact L|]. pose proof (Z.pow_le_mono_r 2 p (Z.of_nat i) ltac:(lia) L). nia. }
  exists (2 ^ (p - 1 - Z.of_nat i)), (Z.of_nat q). split; [apply Z.pow_nonneg; lia|]. split; [lia|].
  assert (H2 : 2 ^ p = 2 * 2 ^ (p - 1)) by (rewrite <- Z.pow_succ_r by lia; f_equal; lia). rewrite H2. replace (2 * 2 ^ (p - 1) / 2) with (2 ^ (p - 1)) by (rewrite Z.mul_comm, Z.div_mul; lia).
  rewrite KE, Z.mul_assoc, <- Z.pow_add_r by lia. replace (p - 1 - Z.of_nat i + Z.of_nat i) with (p - 1) by lia. ring.
Qed.
Lemma same_numbers : forall f t, state w mcg t -> f t <> (f ((t + 2 ^ (w - 1)) mod 2 ^ w) : Z) -> forall s s', state w mcg s -> state w mcg s' ->
  (forall n, 0 <= n -> f (after w m c n s) = f (after w m c n s')) -> s = s'.
Proof.
  intros f t T NE s s' S S' H. destruct (distance_top w mcg m c WW G Hm Hc s s' S S') as (k & _ & K & E).
  destruct (Z.eq_dec k 0) as [->|NZ]; [exact E|]. exfalso. apply NE. rewrite <- half_period by exact T.
  destruct (distance_top w mcg m c WW G Hm Hc s t S T) as (d & _ & D & ET).
  destruct (split_k k ltac:(lia)) as (q & r & Q & R & QE).
  assert (ALL : forall j, 0 <= j -> f (after w m c d s) = f (after w m c (d + j * k) s)).
  { intros j J. pattern j. apply natlike_ind; [now rewrite Z.mul_0_l, Z.add_0_r| |exact J]. intros x X IH. rewrite IH. rewrite H by nia. f_equal. rewrite <- E, <- after_add by nia. f_equal. lia. }
  specialize (ALL q Q). rewrite <- ET. rewrite ALL. f_equal.
  assert (PP := period_pos w mcg WW). assert (HP : 0 <= period w mcg / 2) by (apply Z.div_pos; lia).
  rewrite <- after_add by lia. rewrite QE. rewrite (after_period w mcg m c WW G (d + _) s S) by nia. rewrite (after_period w mcg m c WW G (_ / 2 + d) s S) by lia.
  f_equal. rewrite Z.add_assoc, Z.mod_add by lia. f_equal. lia.
Qed.
Lemma numbers_are : forall prev f n s, state w mcg s ->
  first_numbers (generate w m c prev f) n s = Ok (map (fun i => f (after w m c (Z.of_nat i + (if prev : bool then 0 else 1)) s)) (seq 0 n)).
Proof.
  assert (GE : forall (prev : bool) f s, generate w m c prev f s = Ok (after w m c 1 s, f (if prev then s else after w m c 1 s))).
  { intros prev f s. unfold generate, bump, expr. replace (w <? 32) with false by (symmetry; apply Z.ltb_ge; lia). cbn [andb obind]. reflexivity. }
  intros prev f n. induction n as [|n IH]; intros s S; [reflexivity|]. cbn [first_numbers]. rewrite GE. cbn [obind].
  rewrite IH by (apply state_after; assumption). cbn [obind]. f_equal. cbn [seq map]. f_equal.
  - destruct prev; reflexivity.
  - rewrite <- seq_shift, map_map. apply map_ext. intros i. rewrite <- after_add by (destruct prev; lia). do 2 f_equal. destruct prev; lia.
Qed.
Lemma equal_iff : forall prev f t, state w mcg t -> f t <> (f ((t + 2 ^ (w - 1)) mod 2 ^ w) : Z) -> forall s s', state w mcg s -> state w mcg s' ->
  (engine_eq (m, c, s) (m, c, s') = true <-> forall n, first_numbers (generate w m c prev f) n s = first_numbers (generate w m c prev f) n s').
Proof.
  intros prev f t T NE s s' S S'. unfold engine_eq. rewrite !Z.eqb_refl. cbn [andb]. rewrite Z.eqb_eq. split; [intros ->; reflexivity|]. intros H.
  assert (K : forall n, 0 <= n -> f (after w m c (n + (if prev : bool then 0 else 1)) s) = f (after w m c (n + (if prev : bool then 0 else 1)) s')).
  { intros n N. specialize (H (Datatypes.S (Z.to_nat n))). rewrite !numbers_are in H by assumption. assert (H0 := f_equal (fun o => match o with Ok l => l | _ => [] end) H). clear H. rename H0 into H. cbv beta iota in H.
    assert (IN : In (Z.to_nat n) (seq 0 (Datatypes.S (Z.to_nat n)))) by (apply in_seq; lia).
    pose proof (proj1 map_ext_in_iff H _ IN) as H1. cbv beta in H1. rewrite Z2Nat.id in H1 by exact N. exact H1. }
  destruct prev.
  - apply (same_numbers f t T NE s s' S S'). intros n N. specialize (K n N). now rewrite Z.add_0_r in K.
  - assert (E : after w m c 1 s = after w m c 1 s').
    { apply (same_numbers f t T NE); [apply state_after; assumption|apply state_after; assumption|]. intros n N. rewrite <- !after_add by lia. now apply K. }
    destruct (distance_top w mcg m c WW G Hm Hc s s' S S') as (k & _ & Kb & Ek). rewrite <- Ek in E. rewrite <- after_add in E by lia.
    destruct (Z.eq_dec k 0) as [->|NZ]; [exact Ek|]. exfalso. replace (1 + k) with (k + 1) in E by lia. rewrite after_add in E by lia. symmetry in E.
    apply (period_top w mcg m c WW G k _) in E; [|apply state_after; assumption|lia]. destruct E as (z & Z0).
    assert (PP := period_pos w mcg WW). set (P := period w mcg) in *. clearbody P. assert (z = 0 \/ 1 <= z \/ z <= -1) as [->|[Z1|Z1]] by lia; nia.
Qed.
End EQ.

Lemma table_same : forall a b, same_table a b = true <-> a = b.
Proof.
  induction a as [|x a IH]; destruct b as [|y b]; cbn; try (split; congruence). rewrite andb_true_iff, Z.eqb_eq, IH. split; [intros (-> & ->); reflexivity|intros H; injection H; auto].
Qed.
Lemma engine_same : forall g h, engine_eq g h = true <-> g = h.
Proof.
  intros [[m c] s] [[m' c'] s']. unfold engine_eq. rewrite !andb_true_iff, !Z.eqb_eq. split; [intros ((-> & ->) & ->); reflexivity|intros H; injection H; auto].
Qed.
Lemma engine_relation : forall g h, (engine_eq g h = true <-> g = h) /\ (engine_ne g h = true <-> g <> h).
Proof.
  intros g h. split; [apply engine_same|]. unfold engine_ne. rewrite negb_true_iff. rewrite <- not_true_iff_false. now rewrite engine_same.
Qed.
Lemma extended_relation : forall g h, extended_eq g h = true <-> g = h.
Proof.
  intros [g a] [h b]. unfold extended_eq. cbn [fst snd]. rewrite andb_true_iff, engine_same, table_same. split; [intros (-> & ->); reflexivity|intros H; injection H; auto].
Qed.
Lemma never : forall g h fuel, extended_ne fuel g h = OutOfFuel.
Proof. intros g h. induction fuel as [|n IH]; [reflexivity|exact IH]. Qed.

Lemma outputs_differ : forall w f, In (w, f) [(64, xsh_rs 64 32); (64, xsh_rr 64 32); (64, xsl_rr 64 32); (64, xsl_rr_rr 64); (128, xsh_rs 128 64); (128, xsh_rr 128 64); (128, xsl_rr 128 64); (128, xsl_rr_rr 128)] ->
  33 <= w /\ 3 < 2 ^ w /\ f 3 <> f ((3 + 2 ^ (w - 1)) mod 2 ^ w).
Proof.
  intros w f H. cbn [In] in H. repeat (destruct H as [H|H]; [injection H as <- <-; split; [lia|]; split; [reflexivity|vm_compute; discriminate]|]). destruct H.
Qed.
Lemma same_for_ever : forall w f prev mcg m c s s', In (w, f) [(64, xsh_rs 64 32); (64, xsh_rr 64 32); (64, xsl_rr 64 32); (64, xsl_rr_rr 64); (128, xsh_rs 128 64); (128, xsh_rr 128 64); (128, xsl_rr 128 64); (128, xsl_rr_rr 128)] ->
  good mcg m c -> 0 <= m < 2 ^ w -> 0 <= c < 2 ^ w -> state w mcg s -> state w mcg s' ->
  (engine_eq (m, c, s) (m, c, s') = true <-> forall n, first_numbers (generate w m c prev f) n s = first_numbers (generate w m c prev f) n s').
Proof.
  intros w f prev mcg m c s s' I G M C S S'. destruct (outputs_differ w f I) as (W & T & D). apply (equal_iff w mcg m c W G M C prev f 3); try assumption. split; [lia|]. reflexivity.
Qed.

