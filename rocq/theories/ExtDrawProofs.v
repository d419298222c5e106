From Coq Require Import String ZArith Bool Lia List Znumtheory.
From Verif Require Import Common PcgModel PcgSpec PcgProofs PcgTopProofs PermModel PermSpec PermProofs PermTopProofs ExtModel ExtSpec ExtCycleProofs ExtProofs.
Import ListNotations.
Local Open Scope Z_scope.

(** ** The low bits of the base *)
Section LOW.
Variables (w : Z) (mcg : bool) (m c : Z).
Hypothesis W : wide w.
Hypothesis G : good mcg m c.
Hypothesis Hm : 0 <= m < 2 ^ w.
Hypothesis Hc : 0 <= c < 2 ^ w.
Notation sh := (sh mcg).
Lemma low_iter : forall k n x, 0 <= k -> valid mcg x -> (cg (k + sh) (Nat.iter n (aff m c) x) x <-> (2 ^ k | Z.of_nat n)).
Proof.
  intros k n x K V. pose proof (sh_pos mcg) as HS. split.
  - intros H. destruct n as [|n']; [exists 0; reflexivity|]. remember (S n') as n. destruct (split2 n) as (i & q & E); [lia|].
    rewrite E in H. rewrite Nat.mul_comm, <- iter_mul in H.
    rewrite (iter_ext _ (Nat.iter (2 ^ i) (aff m c)) (aff (pa m i) (pp m c i)) (2 * q + 1) x (pow_aff m c i)) in H.
    destruct (moves_iter mcg m c G (2 * q + 1) i x V) as [C _].
    destruct (Z.le_gt_cases k (Z.of_nat i)) as [L|L].
    + rewrite E, Nat2Z.inj_mul, pow_nat_Z. replace (Z.of_nat i) with (k + (Z.of_nat i - k)) by lia. rewrite Z.pow_add_r by lia.
      exists (2 ^ (Z.of_nat i - k) * Z.of_nat (2 * q + 1)). ring.
    + exfalso. apply (cg_weaken (Z.of_nat i + sh + 1)) in H; [|lia].
      pose proof (cg_trans _ _ _ _ (cg_sym _ _ _ C) H) as [j J]. rewrite (Z.pow_add_r 2 (Z.of_nat i + sh) 1) in J by lia. change (2 ^ 1) with 2 in J.
      assert (0 < 2 ^ (Z.of_nat i + sh)) by (apply Z.pow_pos_nonneg; lia). set (Q := 2 ^ (Z.of_nat i + sh)) in *.
      assert (Z.of_nat (2 * q + 1) * Q = j * 2 * Q) by lia. assert (Z.of_nat (2 * q + 1) = j * 2) by nia. lia.
  - intros [j E]. assert (P : 0 < 2 ^ k) by (apply Z.pow_pos_nonneg; lia). assert (Hj : 0 <= j) by nia.
    set (i := Z.to_nat k). assert (n = (Z.to_nat j * 2 ^ i)%nat).
    { apply Nat2Z.inj. rewrite E, Nat2Z.inj_mul, pow_nat_Z. unfold i. rewrite !Z2Nat.id by lia. reflexivity. }
    subst n. rewrite <- iter_mul. rewrite (iter_ext _ (Nat.iter (2 ^ i) (aff m c)) (aff (pa m i) (pp m c i)) (Z.to_nat j) x (pow_aff m c i)).
    destruct (moves_iter mcg m c G (Z.to_nat j) i x V) as [C _]. replace (Z.of_nat i + sh) with (k + sh) in C by (unfold i; lia).
    apply (cg_weaken (k + sh)) in C; [|lia]. eapply cg_trans; [apply C|]. exists (Z.of_nat (Z.to_nat j)). ring.
Qed.
Lemma low_after : forall k n s, 0 <= k -> k + sh <= w -> state w mcg s -> 0 <= n -> (cg (k + sh) (after w m c n s) s <-> (2 ^ k | n)).
Proof.
  intros k n s K KW S N. pose proof (sh_pos mcg) as HS. rewrite <- (Z2Nat.id n N) at 2. rewrite <- (low_iter k (Z.to_nat n) s K (state_valid _ _ _ S)).
  assert (C : cg (k + sh) (after w m c n s) (Nat.iter (Z.to_nat n) (aff m c) s)) by (apply (cg_weaken _ w); [lia|]; apply after_cg; exact W).
  split; intros H; [eapply cg_trans; [apply cg_sym, C|exact H]|eapply cg_trans; [exact C|exact H]].
Qed.
Definition low (k s : Z) : Z := (s / 2 ^ sh) mod 2 ^ k.
Lemma low_cg : forall k s t, 0 <= k -> state w mcg s -> state w mcg t -> (low k s = low k t <-> cg (k + sh) s t).
Proof.
  intros k s t K S T. unfold low, PcgProofs.sh. unfold state in S, T. destruct mcg.
  - destruct S as [_ S], T as [_ T]. specialize (S eq_refl). specialize (T eq_refl). change (2 ^ 2) with 4.
    pose proof (Z.div_mod s 4) as E1. pose proof (Z.div_mod t 4) as E2. rewrite S in E1. rewrite T in E2. unfold cg.
    rewrite Z.pow_add_r by lia. change (2 ^ 2) with 4. split.
    + intros H. apply (modeq_cg k) in H; [|exact K]. destruct H as [j J]. exists j. lia.
    + intros [j J]. apply cg_modeq; [exact K|]. exists j. lia.
  - change (2 ^ 0) with 1. rewrite !Z.div_1_r, Z.add_0_r. split; intros H; [apply modeq_cg|apply cg_modeq]; assumption.
Qed.
Lemma phase : forall k s v, 0 <= k -> k + sh <= w -> state w mcg s -> 0 <= v < 2 ^ k -> exists d, 0 <= d < 2 ^ k /\
  forall n, 0 <= n -> (low k (after w m c n s) = v <-> (2 ^ k | n - d)).
Proof.
  intros k s v K KW S V. pose proof (sh_pos mcg) as HS. assert (P : 0 < 2 ^ k) by lia.
  set (t := v * 2 ^ sh + (if mcg then 3 else 0)).
  assert (T : state w mcg t /\ low k t = v).
  { assert (2 ^ k * 2 ^ sh <= 2 ^ w) by (rewrite <- Z.pow_add_r by lia; apply Z.pow_le_mono_r; lia).
    unfold t, low, state. unfold PcgProofs.sh in *. destruct mcg.
    - change (2 ^ 2) with 4 in *. split; [split; [nia|]|].
      + intros _. rewrite Z.add_comm, Z.mod_add by lia. reflexivity.
      + rewrite (Z.add_comm (v * 4) 3), Z.div_add by lia. change (3 / 4) with 0. rewrite Z.mod_small; lia.
    - change (2 ^ 0) with 1 in *. split; [split; [nia|discriminate]|]. rewrite Z.div_1_r, Z.mod_small; lia. }
  destruct T as [T TV]. destruct (distance_top w mcg m c W G Hm Hc s t S T) as (d & _ & D & A).
  exists (d mod 2 ^ k). split; [apply Z.mod_pos_bound; exact P|]. intros n N. rewrite <- TV, <- A.
  assert (E : (2 ^ k | n - d mod 2 ^ k) <-> (2 ^ k | n - d)).
  { pose proof (Z.div_mod d (2 ^ k) ltac:(lia)). split; intros [j J]; [exists (j - d / 2 ^ k)|exists (j + d / 2 ^ k)]; lia. }
  rewrite E. clear E. rewrite low_cg by (auto; apply state_after; auto).
  destruct (Z.le_gt_cases d n) as [L|L].
  - rewrite <- (low_after k (n - d) (after w m c d s)) by (auto; try lia; apply state_after; auto).
    rewrite <- after_add by lia. rewrite Z.sub_add. reflexivity.
  - assert (Q : cg (k + sh) (after w m c n s) (after w m c d s) <-> (2 ^ k | d - n)).
    { rewrite <- (low_after k (d - n) (after w m c n s)) by (auto; try lia; apply state_after; auto).
      rewrite <- after_add by lia. rewrite Z.sub_add. split; apply cg_sym. }
    rewrite Q. split; intros [j J]; exists (- j); lia.
Qed.
End LOW.
(** How many of the first [n] have a given phase. *)
Definition hits (M d n : Z) : Z := (n - d + M - 1) / M.
Lemma hits_step : forall M d n, 0 < M -> hits M d (n + 1) = hits M d n + (if (n - d) mod M =? 0 then 1 else 0).
Proof.
  intros M d n HM. unfold hits. pose proof (Z.div_mod (n - d) M ltac:(lia)) as E. pose proof (Z.mod_pos_bound (n - d) M HM) as R.
  set (q := (n - d) / M) in *. set (r := (n - d) mod M) in *. clearbody q r.
  assert (E1 : n + 1 - d + M - 1 = (q + 1) * M + r) by lia.
  rewrite E1, Z.div_add_l, (Z.div_small r) by lia.
  destruct (Z.eqb_spec r 0) as [->|N].
  - replace (n - d + M - 1) with (q * M + (M - 1)) by lia. rewrite Z.div_add_l, Z.div_small by lia. lia.
  - replace (n - d + M - 1) with ((q + 1) * M + (r - 1)) by lia. rewrite Z.div_add_l, Z.div_small by lia. lia.
Qed.
Lemma hits_zero : forall M d, 0 <= d < M -> hits M d 0 = 0.
Proof. intros M d D. unfold hits. apply Z.div_small. lia. Qed.
Lemma hits_mul : forall M d k, 0 <= d < M -> hits M d (k * M) = k.
Proof. intros M d k D. unfold hits. replace (k * M - d + M - 1) with (M - 1 - d + k * M) by ring. rewrite Z.div_add, Z.div_small by lia. lia. Qed.

(** ** Draws *)
Section DRAW.
Variable p : params.
Hypothesis HP : sound p.
Let B := 2 ^ xb p.
Notation step := (one_step (w p) (m p) (c p)).
Notation aft := (after (w p) (m p) (c p)).
Notation isstate := (state (w p) (is_mcg p)).
Lemma wide_w : wide (w p).
Proof. right. apply HP. Qed.
Lemma good_base : good (is_mcg p) (m p) (c p).
Proof. apply HP. Qed.
Definition st' (s : Z) : Z := if kdd p && is_mcg p then Z.shiftr s 2 else s.
Definition idx (s : Z) : Z := if kdd p then Z.land (st' s) (table_mask p) else Z.shiftr (st' s) (table_shift p).
Definition tick (s : Z) : bool := may_tick p && (if kdd p then Z.land (st' s) (tick_mask p) =? 0 else Z.shiftr (st' s) (tick_shift p) =? 0).
Definition tock (s : Z) : bool := may_tock p && (st' s =? 0).
Definition adv (s : Z) : Z := b2 (tick s) + b2 (tock s).
Lemma gev : forall ps A s, get_extended_value p (s, T p ps A) = Ok (idx s, T p ps (A + adv s)).
Proof.
  intros ps A s. unfold get_extended_value. fold (st' s). fold (idx s). unfold adv, tick, tock.
  destruct (may_tick p); cbn [andb b2].
  - destruct (if kdd p then Z.land (st' s) (tick_mask p) =? 0 else Z.shiftr (st' s) (tick_shift p) =? 0); cbn [b2].
    + rewrite advance_T by exact HP. cbn [obind]. destruct (may_tock p); cbn [andb b2]; [destruct (st' s =? 0); cbn [b2]|].
      * rewrite advance_T by exact HP. cbn [obind]. now rewrite <- Z.add_assoc.
      * reflexivity.
      * reflexivity.
    + cbn [obind]. destruct (may_tock p); cbn [andb b2]; [destruct (st' s =? 0); cbn [b2]|].
      * rewrite advance_T by exact HP. reflexivity.
      * cbn [obind]. now rewrite Z.add_0_r.
      * cbn [obind]. now rewrite Z.add_0_r.
  - cbn [obind]. destruct (may_tock p); cbn [andb b2]; [destruct (st' s =? 0); cbn [b2]|].
    + rewrite advance_T by exact HP. reflexivity.
    + cbn [obind]. now rewrite Z.add_0_r.
    + cbn [obind]. now rewrite Z.add_0_r.
Qed.
Lemma st_range : forall s, isstate s -> 0 <= st' s < 2 ^ w p.
Proof.
  intros s [S _]. unfold st'. destruct (kdd p && is_mcg p); [|exact S]. rewrite Z.shiftr_div_pow2 by lia. change (2 ^ 2) with 4.
  split; [apply Z.div_pos; lia|]. apply Z.div_lt_upper_bound; lia.
Qed.
Lemma idx_range : forall s, isstate s -> 0 <= idx s < 2 ^ table_pow2 p.
Proof.
  intros s S. pose proof (st_range s S) as R. destruct HP as (W & _ & _ & _ & _ & _ & _ & _ & _ & _ & _ & TP & TW & _).
  assert (table_pow2 p <= w p) by (destruct (is_mcg p); lia).
  unfold idx. destruct (kdd p).
  - unfold table_mask. rewrite land_mask by lia. apply Z.mod_pos_bound. apply Z.pow_pos_nonneg; lia.
  - unfold table_shift. rewrite Z.shiftr_div_pow2 by lia. apply div_range; try lia. now replace (w p - table_pow2 p + table_pow2 p) with (w p) by lia.
Qed.
Definition lhs (s : Z) : Z := output p (if output_previous p then s else step s).
Lemma base_ok : forall s, isstate s -> base_draw p s = Ok (step s, lhs s).
Proof.
  intros s [S _]. unfold base_draw, generate, bump. unfold expr. replace (w p <? 32) with false by (destruct HP; lia). cbn [andb obind].
  reflexivity.
Qed.
Lemma state_step : forall s, isstate s -> isstate (step s).
Proof. intros s S. exact (state_after _ _ _ _ wide_w good_base 1 s S). Qed.
Definition look (t : list Z) (s : Z) : Z := nth (Z.to_nat (idx s)) t 0.
Lemma read_ok : forall t s, isstate s -> Z.of_nat (length t) = 2 ^ table_pow2 p -> read t (idx s) = Ok (look t s).
Proof.
  intros t s S L. pose proof (idx_range s S) as R. unfold read. replace (0 <=? idx s) with true by lia.
  rewrite (nth_error_nth' t 0) by lia. reflexivity.
Qed.
Lemma draw_T : forall ps A s, isstate s -> Z.of_nat (length ps) = 2 ^ table_pow2 p ->
  draw p (s, T p ps A) = Ok ((step s, T p ps (A + adv s)), Z.lxor (lhs s) (look (T p ps (A + adv s)) s)).
Proof.
  intros ps A s S L. unfold draw. rewrite gev. cbn [obind fst]. rewrite read_ok by (auto; rewrite T_length; exact L). cbn [obind].
  rewrite base_ok by exact S. reflexivity.
Qed.
Fixpoint total (n : nat) (s : Z) : Z := match n with O => 0 | S n => adv s + total n (step s) end.
Fixpoint outs (ps : list Z) (n : nat) (A s : Z) : list Z :=
  match n with O => [] | S n => Z.lxor (lhs s) (look (T p ps (A + adv s)) s) :: outs ps n (A + adv s) (step s) end.
Lemma iter_step : forall n s, Nat.iter (S n) step s = Nat.iter n step (step s).
Proof. induction n as [|n IH]; intros s; [reflexivity|]. rewrite iter_S, IH. reflexivity. Qed.
Lemma draws_T : forall ps n A s, isstate s -> Z.of_nat (length ps) = 2 ^ table_pow2 p ->
  draws p n (s, T p ps A) = Ok ((Nat.iter n step s, T p ps (A + total n s)), outs ps n A s).
Proof.
  intros ps n. induction n as [|n IH]; intros A s S L.
  - cbn [draws total outs Nat.iter]. rewrite Z.add_0_r. reflexivity.
  - cbn [draws]. rewrite draw_T by assumption. cbn [obind]. rewrite IH by (auto using state_step). cbn [obind total outs].
    rewrite iter_step, Z.add_assoc. reflexivity.
Qed.
Lemma outs_length : forall ps n A s, length (outs ps n A s) = n.
Proof. intros ps n. induction n; intros; cbn [outs length]; auto. Qed.
Lemma total_S : forall n s, total (S n) s = total n s + adv (Nat.iter n step s).
Proof.
  induction n as [|n IH]; intros s; [cbn [total]; change (Nat.iter 0 step s) with s; lia|]. change (total (S (S n)) s) with (adv s + total (S n) (step s)). rewrite IH.
  rewrite iter_step. cbn [total]. lia.
Qed.
Lemma outs_nth : forall ps n A s j, (j < n)%nat ->
  nth j (outs ps n A s) 0 = Z.lxor (lhs (Nat.iter j step s)) (look (T p ps (A + total (S j) s)) (Nat.iter j step s)).
Proof.
  intros ps n. induction n as [|n IH]; intros A s j J; [lia|]. destruct j as [|j].
  - cbn [outs nth Nat.iter total]. now rewrite Z.add_0_r.
  - cbn [outs nth]. rewrite IH by lia. rewrite <- iter_step. change (total (S (S j)) s) with (adv s + total (S j) (step s)). now rewrite Z.add_assoc.
Qed.
Lemma draws_t : forall n s t, isstate s -> table p t ->
  draws p n (s, t) = Ok ((Nat.iter n step s, T p (tpos p 0 t) (total n s)), outs (tpos p 0 t) n 0 s).
Proof.
  intros n s t S [L F]. rewrite <- (T_zero p HP t F) at 1. rewrite draws_T; [reflexivity|exact S|]. now rewrite tpos_length.
Qed.
Lemma returns_iff : forall N s t, isstate s -> table p t -> 0 <= N ->
  (returns p N (s, t) <-> (period (w p) (is_mcg p) | N) /\ (B ^ 2 ^ table_pow2 p | total (Z.to_nat N) s)).
Proof.
  intros N s t S [L F] HN. unfold returns. rewrite <- (period_top _ _ _ _ wide_w good_base N s S HN). unfold after.
  rewrite <- L. unfold B. rewrite <- (T_id p HP t (total (Z.to_nat N) s) F). rewrite draws_t by (auto; split; auto). split.
  - intros [rs E]. injection E as E1 E2 _. now split.
  - intros [E1 E2]. rewrite E1, E2. now eexists.
Qed.
End DRAW.
