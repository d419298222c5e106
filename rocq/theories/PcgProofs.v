From Coq Require Import String ZArith Bool Lia List Znumtheory.
From Verif Require Import Common PcgModel PcgSpec.
Import ListNotations.
Local Open Scope Z_scope.

(** Congruence modulo 2^k. *)
Definition cg (k x y : Z) : Prop := (2 ^ k | x - y).
Lemma cg_refl : forall k x, cg k x x.
Proof. intros. exists 0. lia. Qed.
Lemma cg_sym : forall k x y, cg k x y -> cg k y x.
Proof. intros k x y [a H]. exists (- a). lia. Qed.
Lemma cg_trans : forall k x y z, cg k x y -> cg k y z -> cg k x z.
Proof. intros k x y z [a H] [b G]. exists (a + b). lia. Qed.
Lemma cg_mod : forall k x, 0 <= k -> cg k (x mod 2 ^ k) x.
Proof. intros k x H. exists (- (x / 2 ^ k)). pose proof (Z.div_mod x (2 ^ k)). assert (0 < 2 ^ k) by (apply Z.pow_pos_nonneg; lia). lia. Qed.
Lemma cg_add : forall k a b c d, cg k a b -> cg k c d -> cg k (a + c) (b + d).
Proof. intros k a b c d [x H] [y G]. exists (x + y). lia. Qed.
Lemma cg_mul : forall k a b c d, cg k a b -> cg k c d -> cg k (a * c) (b * d).
Proof. intros k a b c d [x H] [y G]. exists (x * c + b * y). replace (a * c - b * d) with ((a - b) * c + b * (c - d)) by ring. rewrite H, G. ring. Qed.
Lemma cg_eq : forall k x y, 0 <= x < 2 ^ k -> 0 <= y < 2 ^ k -> cg k x y -> x = y.
Proof. intros k x y Hx Hy [a H]. assert (a = 0) by nia. lia. Qed.
Lemma cg_weaken : forall j k x y, 0 <= j <= k -> cg k x y -> cg j x y.
Proof. intros j k x y H [a E]. exists (a * 2 ^ (k - j)). rewrite E, <- Z.mul_assoc, <- Z.pow_add_r by lia. do 2 f_equal. lia. Qed.
Lemma cg_modeq : forall k x y, 0 <= k -> cg k x y -> x mod 2 ^ k = y mod 2 ^ k.
Proof.
  intros k x y H G. assert (0 < 2 ^ k) by (apply Z.pow_pos_nonneg; lia).
  apply (cg_eq k); try (apply Z.mod_pos_bound; lia).
  apply (cg_trans k _ x); [apply cg_mod; lia|]. apply (cg_trans k _ y); [exact G|]. apply cg_sym, cg_mod. lia.
Qed.
Lemma modeq_cg : forall k x y, 0 <= k -> x mod 2 ^ k = y mod 2 ^ k -> cg k x y.
Proof.
  intros k x y H E. apply (cg_trans k _ (x mod 2 ^ k)); [apply cg_sym, cg_mod; lia|]. rewrite E. apply cg_mod; lia.
Qed.

(** Iteration. *)
Lemma iter_add : forall A (f : A -> A) n p x, Nat.iter (n + p) f x = Nat.iter n f (Nat.iter p f x).
Proof. intros A f n p x. induction n as [|n IH]; [reflexivity|]. cbn. f_equal. exact IH. Qed.
Lemma iter_S : forall A (f : A -> A) n x, Nat.iter (S n) f x = f (Nat.iter n f x).
Proof. reflexivity. Qed.
Lemma iter_mul : forall A (f : A -> A) n p x, Nat.iter n (Nat.iter p f) x = Nat.iter (n * p) f x.
Proof. intros A f n p x. induction n as [|n IH]; [reflexivity|]. rewrite iter_S. cbn [Nat.mul]. rewrite iter_add, IH. reflexivity. Qed.
Lemma iter_cg : forall k f g n x y, (forall x y, cg k x y -> cg k (f x) (g y)) -> cg k x y -> cg k (Nat.iter n f x) (Nat.iter n g y).
Proof. intros k f g n x y H G. induction n as [|n IH]; [exact G|]. cbn. apply H, IH. Qed.
Lemma iter_ext : forall A (f g : A -> A) n x, (forall x, f x = g x) -> Nat.iter n f x = Nat.iter n g x.
Proof. intros A f g n x H. induction n as [|n IH]; [reflexivity|]. rewrite !iter_S, IH. apply H. Qed.

Definition aff (a p x : Z) : Z := x * a + p.

Section W.
Variable w : Z.
Hypothesis W : wide w.
Lemma w_pos : 8 <= w.
Proof. destruct W; lia. Qed.
Lemma pw_pos : 256 <= 2 ^ w.
Proof. change 256 with (2 ^ 8). apply Z.pow_le_mono_r; pose proof w_pos; lia. Qed.
Lemma expr_ok : forall x, (w = 8 -> x <= INT_MAX) -> expr w x = Ok (x mod 2 ^ w).
Proof.
  intros x H. unfold expr. destruct (Z.ltb_spec w 32) as [L|L]; [|reflexivity]. destruct W as [E|E]; [|lia].
  replace (INT_MAX <? x) with false; [reflexivity|]. specialize (H E). lia.
Qed.
Definition inr (x : Z) : Prop := 0 <= x < 2 ^ w.
Lemma inr_mod : forall x, inr (x mod 2 ^ w).
Proof. intros. apply Z.mod_pos_bound. pose proof pw_pos. lia. Qed.
Lemma expr_mac : forall a b d, inr a -> inr b -> inr d -> expr w (a * b + d) = Ok ((a * b + d) mod 2 ^ w).
Proof.
  intros a b d A B D. apply expr_ok. intros E. unfold inr in *. rewrite E in *. change (2 ^ 8) with 256 in *. unfold INT_MAX. nia.
Qed.
Lemma expr_mul : forall a b, inr a -> inr b -> expr w (a * b) = Ok ((a * b) mod 2 ^ w).
Proof. intros a b A B. rewrite <- (Z.add_0_r (a * b)). apply expr_mac; auto. pose proof pw_pos. unfold inr. lia. Qed.
Lemma expr_suc : forall a b, inr a -> inr b -> expr w ((a + 1) * b) = Ok (((a + 1) * b) mod 2 ^ w).
Proof.
  intros a b A B. apply expr_ok. intros E. unfold inr in *. rewrite E in *. change (2 ^ 8) with 256 in *. unfold INT_MAX. nia.
Qed.

Lemma aff_cg : forall a b p q, cg w a b -> cg w p q -> forall x y, cg w x y -> cg w (aff a p x) (aff b q y).
Proof. intros. unfold aff. apply cg_add; [apply cg_mul|]; assumption. Qed.
Lemma sq_cg : forall a p x y, cg w x y ->
  cg w (aff ((a * a) mod 2 ^ w) (((a + 1) * p) mod 2 ^ w) x) (aff a p (aff a p y)).
Proof.
  intros a p x y H. assert (0 <= w) by (pose proof w_pos; lia).
  replace (aff a p (aff a p y)) with (aff (a * a) ((a + 1) * p) y) by (unfold aff; ring).
  apply aff_cg; auto; apply cg_mod; assumption.
Qed.

Lemma advance_loop_ok : forall fuel delta am ap cm cp, inr am -> inr ap -> inr cm -> inr cp -> 0 <= delta < 2 ^ Z.of_nat fuel ->
  exists a p, advance_loop w (S fuel) delta am ap cm cp = Ok (a, p) /\ inr a /\ inr p /\
    forall x, cg w (aff a p x) (Nat.iter (Z.to_nat delta) (aff cm cp) (aff am ap x)).
Proof.
  induction fuel as [|fuel IH]; intros delta am ap cm cp Ham Hap Hcm Hcp Hd.
  - change (2 ^ Z.of_nat 0) with 1 in Hd. assert (delta = 0) as -> by lia. exists am, ap. cbn. split; [reflexivity|].
    split; [exact Ham|]. split; [exact Hap|]. intros x. apply cg_refl.
  - remember (S fuel) as fu. cbn [advance_loop]. subst fu. destruct (Z.ltb_spec 0 delta) as [L|L].
    2: { assert (delta = 0) as -> by lia. exists am, ap. split; [reflexivity|]. split; [exact Ham|]. split; [exact Hap|]. intros x. apply cg_refl. }
    assert (Hd' : 0 <= Z.shiftr delta 1 < 2 ^ Z.of_nat fuel).
    { rewrite Z.shiftr_div_pow2 by lia. change (2 ^ 1) with 2. rewrite Nat2Z.inj_succ, Z.pow_succ_r in Hd by lia.
      split; [apply Z.div_pos; lia|apply Z.div_lt_upper_bound; lia]. }
    assert (Hn : Z.to_nat delta = (Z.to_nat (Z.shiftr delta 1) * 2 + Z.to_nat (delta mod 2))%nat).
    { rewrite Z.shiftr_div_pow2 by lia. change (2 ^ 1) with 2. pose proof (Z.div_mod delta 2). pose proof (Z.mod_pos_bound delta 2).
      pose proof (Z.div_pos delta 2). lia. }

    pose proof (Z.mod_pos_bound delta 2 ltac:(lia)) as Hb.
    assert (T : Z.testbit delta 0 = (delta mod 2 =? 1)).
    { rewrite <- Z.bit0_mod. destruct (Z.testbit delta 0); reflexivity. }
    rewrite T. clear T.
    assert (STEP : forall am ap, inr am -> inr ap ->
      exists a p, obind (expr w ((cm + 1) * cp)) (fun cur_plus => obind (expr w (cm * cm)) (fun cur_mult =>
        advance_loop w (S fuel) (Z.shiftr delta 1) am ap cur_mult cur_plus)) = Ok (a, p) /\ inr a /\ inr p /\
      forall x, cg w (aff a p x) (Nat.iter (Z.to_nat (Z.shiftr delta 1) * 2) (aff cm cp) (aff am ap x))).
    { intros am' ap' A P. rewrite expr_suc, expr_mul by assumption. cbn [obind].
      destruct (IH (Z.shiftr delta 1) am' ap' ((cm * cm) mod 2 ^ w) (((cm + 1) * cp) mod 2 ^ w) A P (inr_mod _) (inr_mod _) Hd') as (a & p & E & Ia & Ip & C).
      exists a, p. split; [exact E|]. split; [exact Ia|]. split; [exact Ip|]. intros x. eapply cg_trans; [apply C|].
      rewrite <- iter_mul. apply iter_cg; [|apply cg_refl]. intros y z H. apply (sq_cg cm cp y z H). }
    destruct (Z.eqb_spec (delta mod 2) 1) as [O|O].
    + rewrite expr_mul, expr_mac by assumption. cbn [obind].
      destruct (STEP ((am * cm) mod 2 ^ w) ((ap * cm + cp) mod 2 ^ w) (inr_mod _) (inr_mod _)) as (a & p & E & Ia & Ip & C).
      exists a, p. split; [exact E|]. split; [exact Ia|]. split; [exact Ip|]. intros x. eapply cg_trans; [apply C|].
      rewrite Hn, O. change (Z.to_nat 1) with 1%nat. rewrite iter_add. apply iter_cg.
      * apply aff_cg; apply cg_refl.
      * change (Nat.iter 1 (aff cm cp) (aff am ap x)) with (aff cm cp (aff am ap x)).
        replace (aff cm cp (aff am ap x)) with (aff (am * cm) (ap * cm + cp) x) by (unfold aff; ring).
        assert (0 <= w) by (pose proof w_pos; lia). apply aff_cg; [apply cg_mod|apply cg_mod|apply cg_refl]; assumption.
    + cbn [obind]. destruct (STEP am ap Ham Hap) as (a & p & E & Ia & Ip & C).
      exists a, p. split; [exact E|]. split; [exact Ia|]. split; [exact Ip|]. intros x. eapply cg_trans; [apply C|].
      rewrite Hn. replace (delta mod 2) with 0 by lia. change (Z.to_nat 0) with 0%nat. rewrite Nat.add_0_r. apply cg_refl.
Qed.

Lemma after_inr : forall m c n s, inr s -> inr (after w m c n s).
Proof. intros m c n s H. unfold after. destruct (Z.to_nat n); [exact H|]. apply inr_mod. Qed.
Lemma after_cg : forall m c n s, cg w (after w m c n s) (Nat.iter (Z.to_nat n) (aff m c) s).
Proof.
  intros m c n s. unfold after. apply iter_cg; [|apply cg_refl]. intros x y H. assert (0 <= w) by (pose proof w_pos; lia).
  unfold one_step. eapply cg_trans; [apply cg_mod; assumption|]. apply aff_cg; auto using cg_refl.
Qed.
Lemma advance_ok : forall m c s delta, inr m -> inr c -> inr s -> inr delta -> advance w m c s delta = Ok (after w m c delta s).
Proof.
  intros m c s delta Hm Hc Hs Hd. unfold advance, advance_from.
  assert (I1 : inr 1) by (unfold inr; pose proof pw_pos; lia). assert (I0 : inr 0) by (unfold inr; pose proof pw_pos; lia).
  destruct (advance_loop_ok (Z.to_nat w) delta 1 0 m c I1 I0 Hm Hc) as (a & p & E & Ia & Ip & C).
  { rewrite Z2Nat.id by (pose proof w_pos; lia). exact Hd. }
  rewrite E. cbn [obind]. rewrite expr_mac by assumption. f_equal. apply (cg_eq w); [apply inr_mod|apply after_inr; exact Hs|].
  assert (0 <= w) by (pose proof w_pos; lia). eapply cg_trans; [apply cg_mod; assumption|].
  replace (a * s + p) with (aff a p s) by (unfold aff; ring). eapply cg_trans; [apply C|].
  apply cg_sym. replace (aff 1 0 s) with s by (unfold aff; ring). apply after_cg.
Qed.

(** Powers of the step. *)
Section GOOD.
Variables (mcg : bool) (m c : Z).
Hypothesis G : good mcg m c.
Definition sh : Z := if mcg then 2 else 0.
Definition valid (x : Z) : Prop := mcg = true -> x mod 2 = 1.
Fixpoint pa (i : nat) : Z := match i with O => m | S i => pa i * pa i end.
Fixpoint pp (i : nat) : Z := match i with O => c | S i => (pa i + 1) * pp i end.
Lemma pow_aff : forall i x, Nat.iter (2 ^ i) (aff m c) x = aff (pa i) (pp i) x.
Proof.
  induction i as [|i IH]; intros x; [reflexivity|].
  replace (2 ^ S i)%nat with (2 ^ i + 2 ^ i)%nat by (cbn [Nat.pow]; lia). rewrite iter_add, !IH. cbn [pa pp]. unfold aff. ring.
Qed.
Lemma pa_shape : forall i, exists k, pa i = 1 + 2 ^ (Z.of_nat i + 2) * k /\ (mcg = true -> k mod 2 = 1).
Proof.
  induction i as [|i [k [E H]]].
  - unfold good in G. destruct mcg.
    + destruct G as [Gm _]. exists (1 + 2 * (m / 8)). cbn [pa]. change (2 ^ (Z.of_nat 0 + 2)) with 4. pose proof (Z.div_mod m 8).
      split; [lia|]. intros _. replace (1 + 2 * (m / 8)) with (1 + (m / 8) * 2) by ring. rewrite Z.mod_add by lia. reflexivity.
    + destruct G as [Gm _]. exists (m / 4). cbn [pa]. change (2 ^ (Z.of_nat 0 + 2)) with 4. pose proof (Z.div_mod m 4).
      split; [lia|discriminate].
  - exists (k + 2 ^ (Z.of_nat i + 1) * k * k). cbn [pa]. rewrite E. split.
    + rewrite Nat2Z.inj_succ. replace (Z.succ (Z.of_nat i) + 2) with (Z.of_nat i + 2 + 1) by lia.
      rewrite (Z.pow_add_r 2 (Z.of_nat i + 2) 1) by lia. change (2 ^ 1) with 2.
      assert (Q : 2 ^ (Z.of_nat i + 2) = 2 * 2 ^ (Z.of_nat i + 1)).
      { replace (Z.of_nat i + 2) with (Z.of_nat i + 1 + 1) by lia. rewrite (Z.pow_add_r 2 (Z.of_nat i + 1) 1) by lia. change (2 ^ 1) with 2. lia. }
      rewrite Q. ring.
    + intros M. specialize (H M). replace (Z.of_nat i + 1) with (1 + Z.of_nat i) by lia. rewrite Z.pow_add_r by lia. change (2 ^ 1) with 2.
      replace (k + 2 * 2 ^ Z.of_nat i * k * k) with (k + (2 ^ Z.of_nat i * k * k) * 2) by ring. rewrite Z.mod_add by lia. exact H.
Qed.
Lemma pp_shape : forall i, if mcg then pp i = 0 else exists k, pp i = 2 ^ Z.of_nat i * (2 * k + 1).
Proof.
  induction i as [|i IH].
  - unfold good in G. destruct mcg; [apply G|]. exists (c / 2). cbn [pp]. change (2 ^ Z.of_nat 0) with 1. pose proof (Z.div_mod c 2). lia.
  - destruct (pa_shape i) as [k [E H]]. cbn [pp]. destruct mcg; [rewrite IH; ring|]. destruct IH as [j ->]. rewrite E.
    rewrite Nat2Z.inj_succ, Z.pow_succ_r by lia. rewrite (Z.pow_add_r 2 (Z.of_nat i) 2) by lia. change (2 ^ 2) with 4.
    exists (j + 2 ^ Z.of_nat i * k * (2 * j + 1)). ring.
Qed.
Lemma sh_pos : 0 <= sh <= 2.
Proof using mcg. unfold sh. clear. destruct mcg; lia. Qed.
Lemma moves : forall i x, valid x -> cg (Z.of_nat i + sh + 1) (aff (pa i) (pp i) x) (x + 2 ^ (Z.of_nat i + sh)).
Proof.
  intros i x V. destruct (pa_shape i) as [k [E H]]. pose proof (pp_shape i) as P. unfold aff, cg, sh, valid in *. rewrite E.
  destruct mcg.
  - specialize (V eq_refl). specialize (H eq_refl). rewrite P. rewrite (Z.pow_add_r 2 (Z.of_nat i + 2) 1) by lia. change (2 ^ 1) with 2.
    set (q := 2 ^ (Z.of_nat i + 2)). pose proof (Z.div_mod x 2). pose proof (Z.div_mod k 2). rewrite V in *. rewrite H in *.
    exists (x / 2 * (2 * (k / 2) + 1) + k / 2).
    replace (x * (1 + q * k) + 0 - (x + q)) with (q * (x * k - 1)) by ring.
    replace x with (2 * (x / 2) + 1) at 1 by lia. replace k with (2 * (k / 2) + 1) at 1 by lia. ring.
  - destruct P as [j ->]. rewrite Z.add_0_r. rewrite !(Z.pow_add_r 2 (Z.of_nat i)) by lia. change (2 ^ 1) with 2. change (2 ^ 2) with 4.
    set (q := 2 ^ Z.of_nat i). exists (2 * k * x + j). ring.
Qed.
Lemma valid_aff : forall a p x, (mcg = true -> a mod 2 = 1 /\ p = 0) -> valid x -> valid (aff a p x).
Proof.
  intros a p x H V M. destruct (H M) as [A ->]. specialize (V M). unfold aff. rewrite Z.add_0_r, Z.mul_mod, V, A by lia. reflexivity.
Qed.
Lemma valid_pow : forall i x, valid x -> valid (aff (pa i) (pp i) x).
Proof.
  intros i x V. apply valid_aff; [|exact V]. intros M. destruct (pa_shape i) as [k [E H]]. pose proof (pp_shape i) as P. rewrite M in P.
  split; [|exact P]. rewrite E. replace (Z.of_nat i + 2) with (1 + (Z.of_nat i + 1)) by lia. rewrite Z.pow_add_r by lia. change (2 ^ 1) with 2.
  replace (1 + 2 * 2 ^ (Z.of_nat i + 1) * k) with (1 + (2 ^ (Z.of_nat i + 1) * k) * 2) by ring. rewrite Z.mod_add by lia. reflexivity.
Qed.
Lemma moves_iter : forall n i x, valid x ->
  cg (Z.of_nat i + sh + 1) (Nat.iter n (aff (pa i) (pp i)) x) (x + Z.of_nat n * 2 ^ (Z.of_nat i + sh)) /\ valid (Nat.iter n (aff (pa i) (pp i)) x).
Proof.
  induction n as [|n IH]; intros i x V.
  - split; [|exact V]. replace (x + Z.of_nat 0 * 2 ^ (Z.of_nat i + sh)) with x by lia. apply cg_refl.
  - destruct (IH i x V) as [C V']. rewrite iter_S. split; [|apply valid_pow; exact V'].
    eapply cg_trans; [apply moves; exact V'|].
    replace (x + Z.of_nat (S n) * 2 ^ (Z.of_nat i + sh)) with (x + Z.of_nat n * 2 ^ (Z.of_nat i + sh) + 2 ^ (Z.of_nat i + sh)) by lia.
    apply cg_add; [exact C|apply cg_refl].
Qed.

Lemma split2 : forall n, (0 < n)%nat -> exists i q, n = (2 ^ i * (2 * q + 1))%nat.
Proof.
  induction n as [n IH] using lt_wf_ind. intros H. destruct (Nat.Even_or_Odd n) as [[k E]|[k E]].
  - destruct (IH k) as (i & q & F); [lia|lia|]. exists (S i), q. cbn [Nat.pow]. lia.
  - exists 0%nat, k. cbn [Nat.pow]. lia.
Qed.
Lemma pow_nat_Z : forall i, Z.of_nat (2 ^ i) = 2 ^ Z.of_nat i.
Proof. intros i. rewrite Nat2Z.inj_pow. reflexivity. Qed.
Lemma period_ok : forall n x, valid x -> (cg w (Nat.iter n (aff m c) x) x <-> (2 ^ (w - sh) | Z.of_nat n)).
Proof.
  intros n x V. pose proof w_pos as HW. pose proof sh_pos as HS. split.
  - intros H. destruct n as [|n']; [exists 0; reflexivity|]. remember (S n') as n. destruct (split2 n) as (i & q & E); [lia|].
    rewrite E in H. rewrite Nat.mul_comm, <- iter_mul in H.
    rewrite (iter_ext _ (Nat.iter (2 ^ i) (aff m c)) (aff (pa i) (pp i)) (2 * q + 1) x (pow_aff i)) in H.
    destruct (moves_iter (2 * q + 1) i x V) as [C _].
    destruct (Z.le_gt_cases (w - sh) (Z.of_nat i)) as [L|L].
    + rewrite E, Nat2Z.inj_mul, pow_nat_Z. replace (Z.of_nat i) with (w - sh + (Z.of_nat i - (w - sh))) by lia. rewrite Z.pow_add_r by lia.
      exists (2 ^ (Z.of_nat i - (w - sh)) * Z.of_nat (2 * q + 1)). ring.
    + exfalso. apply (cg_weaken (Z.of_nat i + sh + 1)) in H; [|lia].
      pose proof (cg_trans _ _ _ _ (cg_sym _ _ _ C) H) as [k K]. rewrite (Z.pow_add_r 2 (Z.of_nat i + sh) 1) in K by lia. change (2 ^ 1) with 2 in K.
      assert (0 < 2 ^ (Z.of_nat i + sh)) by (apply Z.pow_pos_nonneg; lia). set (Q := 2 ^ (Z.of_nat i + sh)) in *.
      assert (Z.of_nat (2 * q + 1) * Q = k * 2 * Q) by lia. assert (Z.of_nat (2 * q + 1) = k * 2) by nia. lia.
  - intros [k E]. assert (Hk : 0 <= k). { assert (0 < 2 ^ (w - sh)) by (apply Z.pow_pos_nonneg; lia). nia. }
    set (i := Z.to_nat (w - sh)). assert (n = (Z.to_nat k * 2 ^ i)%nat).
    { apply Nat2Z.inj. rewrite E, Nat2Z.inj_mul, pow_nat_Z. unfold i. rewrite !Z2Nat.id by lia. reflexivity. }
    subst n. rewrite <- iter_mul. rewrite (iter_ext _ (Nat.iter (2 ^ i) (aff m c)) (aff (pa i) (pp i)) (Z.to_nat k) x (pow_aff i)).
    destruct (moves_iter (Z.to_nat k) i x V) as [C _]. replace (Z.of_nat i + sh) with w in C by (unfold i; lia).
    apply (cg_weaken w) in C; [|lia]. eapply cg_trans; [apply C|]. exists (Z.of_nat (Z.to_nat k)). ring.
Qed.

(** The search for the distance. *)
Lemma land_bit : forall x k, 0 <= k -> Z.land x (2 ^ k) = 2 ^ k * Z.b2z (Z.testbit x k).
Proof.
  intros x k H. apply Z.bits_inj'. intros n Hn. rewrite Z.land_spec, Z.mul_comm, Z.mul_pow2_bits, Z.pow2_bits_eqb by lia.
  destruct (Z.eqb_spec k n) as [->|N].
  - rewrite Z.sub_diag, andb_true_r. destruct (Z.testbit x n); reflexivity.
  - rewrite andb_false_r. symmetry. destruct (Z.lt_trichotomy (n - k) 0) as [L|[L|L]]; [apply Z.testbit_neg_r; exact L|lia|].
    destruct (Z.testbit x k); [|apply Z.bits_0]. cbn [Z.b2z]. change 1 with (2 ^ 0). rewrite Z.pow2_bits_eqb by lia. lia.
Qed.
Lemma same_bit : forall x y k, 0 <= k -> cg k x y -> (Z.testbit x k = Z.testbit y k <-> cg (k + 1) x y).
Proof.
  intros x y k Hk C. pose proof (cg_modeq _ _ _ Hk C) as M. assert (P : 0 < 2 ^ k) by (apply Z.pow_pos_nonneg; lia).
  pose proof (Z.testbit_spec' x k Hk) as Bx. pose proof (Z.testbit_spec' y k Hk) as By.
  pose proof (Z.div_mod x (2 ^ k)). pose proof (Z.div_mod y (2 ^ k)).
  pose proof (Z.div_mod (x / 2 ^ k) 2). pose proof (Z.div_mod (y / 2 ^ k) 2).
  unfold cg. rewrite Z.pow_add_r by lia. change (2 ^ 1) with 2.
  split.
  - intros T. rewrite T in Bx. exists (x / 2 ^ k / 2 - y / 2 ^ k / 2). nia.
  - intros [j J]. assert (E : x / 2 ^ k - y / 2 ^ k = 2 * j) by nia.
    assert (F : (x / 2 ^ k) mod 2 = (y / 2 ^ k) mod 2).
    { replace (x / 2 ^ k) with (y / 2 ^ k + j * 2) by lia. apply Z.mod_add. lia. }
    rewrite <- Bx, <- By in F. destruct (Z.testbit x k), (Z.testbit y k); auto; discriminate.
Qed.
Lemma lor_bit : forall d k, 0 <= k -> 0 <= d < 2 ^ k -> Z.lor d (2 ^ k) = d + 2 ^ k.
Proof.
  intros d k Hk Hd. rewrite Z.lor_comm. rewrite (Z.add_comm d). symmetry.
  assert (L : Z.land (2 ^ k) d = 0).
  { rewrite Z.land_comm, land_bit by lia. replace (Z.testbit d k) with false; [cbn; lia|]. symmetry.
    destruct (Z.eq_dec d 0) as [->|N]; [apply Z.bits_0|]. apply Z.bits_above_log2; [lia|]. apply Z.log2_lt_pow2; lia. }
  rewrite (Z.add_nocarry_lxor _ _ L). apply Z.lxor_lor. exact L.
Qed.

Lemma distance_loop_ok : forall fuel s0 i D cur new cm cp, inr cur -> inr new -> inr cm -> inr cp -> valid cur ->
  cg w cm (pa i) -> cg w cp (pp i) -> cg (Z.of_nat i + sh) cur new -> 0 <= D < 2 ^ Z.of_nat i ->
  cg w cur (Nat.iter (Z.to_nat D) (aff m c) s0) -> Z.of_nat i + sh <= w -> w - sh - Z.of_nat i <= Z.of_nat fuel ->
  exists D', distance_loop w (S fuel) cur new cm cp (2 ^ (Z.of_nat i + sh) mod 2 ^ w) (D * 2 ^ sh) = Ok (D' * 2 ^ sh) /\
    0 <= D' < 2 ^ (w - sh) /\ cg w new (Nat.iter (Z.to_nat D') (aff m c) s0).
Proof.
  induction fuel as [|fuel IH]; intros s0 i D cur new cm cp Hcur Hnew Hcm Hcp V Ccm Ccp C HD CD Hi Hf; pose proof sh_pos as HS.
  all: assert (HD' : D < 2 ^ (w - sh)) by (assert (2 ^ Z.of_nat i <= 2 ^ (w - sh)) by (apply Z.pow_le_mono_r; lia); lia).
  - assert (E : cur = new). { apply (cg_eq w); auto. apply (cg_weaken w (Z.of_nat i + sh)); [lia|exact C]. }
    subst new. exists D. cbn [distance_loop]. rewrite Z.eqb_refl. split; [reflexivity|]. split; [lia|exact CD].
  - remember (S fuel) as fu. cbn [distance_loop]. subst fu. destruct (Z.eqb_spec cur new) as [E|N].
    { subst new. exists D. split; [reflexivity|]. split; [lia|exact CD]. }
    assert (L : Z.of_nat i + sh < w).
    { destruct (Z.eq_dec (Z.of_nat i + sh) w) as [E|]; [|lia]. exfalso. apply N. rewrite E in C. apply (cg_eq w); assumption. }
    assert (P : 2 ^ (Z.of_nat i + sh) < 2 ^ w) by (apply Z.pow_lt_mono_r; lia). assert (P0 : 0 < 2 ^ (Z.of_nat i + sh)) by (apply Z.pow_pos_nonneg; lia).
    rewrite (Z.mod_small (2 ^ (Z.of_nat i + sh))) by lia. rewrite !land_bit by lia.
    assert (B : forall x y, (2 ^ (Z.of_nat i + sh) * Z.b2z (Z.testbit x (Z.of_nat i + sh)) =? 2 ^ (Z.of_nat i + sh) * Z.b2z (Z.testbit y (Z.of_nat i + sh))) = Bool.eqb (Z.testbit x (Z.of_nat i + sh)) (Z.testbit y (Z.of_nat i + sh))).
    { intros x y. destruct (Z.testbit x _), (Z.testbit y _); cbn [Z.b2z Bool.eqb]; lia. }
    assert (NB : (2 ^ (Z.of_nat i + sh) * 2) mod 2 ^ w = 2 ^ (Z.of_nat (S i) + sh) mod 2 ^ w).
    { f_equal. replace (Z.of_nat (S i) + sh) with (Z.of_nat i + sh + 1) by lia. rewrite (Z.pow_add_r 2 (Z.of_nat i + sh) 1) by lia. reflexivity. }
    assert (W0 : 0 <= w) by (pose proof w_pos; lia).
    assert (Nm : cg w ((cm * cm) mod 2 ^ w) (pa (S i))).
    { eapply cg_trans; [apply cg_mod; exact W0|]. cbn [pa]. apply cg_mul; assumption. }
    assert (Np : cg w (((cm + 1) * cp) mod 2 ^ w) (pp (S i))).
    { eapply cg_trans; [apply cg_mod; exact W0|]. cbn [pp]. apply cg_mul; [apply cg_add; [assumption|apply cg_refl]|assumption]. }
    assert (PS : 2 ^ Z.of_nat (S i) = 2 * 2 ^ Z.of_nat i) by (rewrite Nat2Z.inj_succ; apply Z.pow_succ_r; lia).
    assert (K0 : 0 <= Z.of_nat i + sh) by lia.
    rewrite B. destruct (Bool.eqb (Z.testbit cur (Z.of_nat i + sh)) (Z.testbit new (Z.of_nat i + sh))) eqn:Q.
    + cbn [obind]. rewrite land_bit, B, Q by lia. rewrite expr_suc, expr_mul by assumption. cbn [obind]. rewrite NB.
      apply Bool.eqb_prop in Q. apply (same_bit cur new _ K0 C) in Q.
      apply (IH s0 (S i) D); auto using inr_mod; try lia; try (rewrite PS; lia).
      replace (Z.of_nat (S i) + sh) with (Z.of_nat i + sh + 1) by lia. exact Q.
    + rewrite expr_mac by assumption. cbn [obind].
      set (cur' := (cur * cm + cp) mod 2 ^ w).
      assert (Ecur : cg w cur' (aff (pa i) (pp i) cur)).
      { unfold cur'. eapply cg_trans; [apply cg_mod; exact W0|]. apply (aff_cg cm (pa i) cp (pp i)); auto using cg_refl. }
      assert (Mv : cg (Z.of_nat i + sh + 1) cur' (cur + 2 ^ (Z.of_nat i + sh))).
      { eapply cg_trans; [apply (cg_weaken _ w); [lia|apply Ecur]|]. apply moves. exact V. }
      assert (Agree : cg (Z.of_nat i + sh + 1) cur' new).
      { eapply cg_trans; [exact Mv|]. 
        assert (C1 : cg (Z.of_nat i + sh) (cur + 2 ^ (Z.of_nat i + sh)) new).
        { replace new with (new + 0) by lia. apply cg_add; [exact C|]. exists 1. lia. }
        apply (same_bit _ _ _ K0 C1). 
        assert (C2 : cg (Z.of_nat i + sh) cur (cur + 2 ^ (Z.of_nat i + sh))) by (exists (-1); lia).
        pose proof (same_bit _ _ _ K0 C2) as S2.
        assert (D2 : Z.testbit cur (Z.of_nat i + sh) <> Z.testbit (cur + 2 ^ (Z.of_nat i + sh)) (Z.of_nat i + sh)).
        { intros T. apply S2 in T. destruct T as [j J]. rewrite (Z.pow_add_r 2 (Z.of_nat i + sh) 1) in J by lia. change (2 ^ 1) with 2 in J.
          assert (Z0 : 2 ^ (Z.of_nat i + sh) * (2 * j + 1) = 0) by (transitivity (j * (2 ^ (Z.of_nat i + sh) * 2) - (cur - (cur + 2 ^ (Z.of_nat i + sh)))); [ring|rewrite J; ring]).
          apply Z.mul_eq_0 in Z0. lia. }
        destruct (Z.testbit cur (Z.of_nat i + sh)), (Z.testbit new (Z.of_nat i + sh)), (Z.testbit (cur + 2 ^ (Z.of_nat i + sh)) (Z.of_nat i + sh)); try discriminate; congruence. }
      assert (T : Z.testbit cur' (Z.of_nat i + sh) = Z.testbit new (Z.of_nat i + sh)).
      { apply same_bit; [lia| |exact Agree]. apply (cg_weaken _ (Z.of_nat i + sh + 1)); [lia|exact Agree]. }
      rewrite land_bit, B, T, Bool.eqb_reflx by lia. rewrite expr_suc, expr_mul by assumption. cbn [obind]. rewrite NB.
      replace (Z.lor (D * 2 ^ sh) (2 ^ (Z.of_nat i + sh))) with ((D + 2 ^ Z.of_nat i) * 2 ^ sh).
      2: { rewrite lor_bit; [rewrite (Z.pow_add_r 2 (Z.of_nat i) sh) by lia; ring|lia|].
           rewrite (Z.pow_add_r 2 (Z.of_nat i) sh) by lia. assert (0 < 2 ^ sh) by (apply Z.pow_pos_nonneg; lia). nia. }
      apply (IH s0 (S i) (D + 2 ^ Z.of_nat i)); auto using inr_mod; try lia; try (rewrite PS; lia).
      * unfold cur'. apply inr_mod.
      * intros M. assert (H1 : cg 1 cur' (aff (pa i) (pp i) cur)) by (apply (cg_weaken 1 w); [pose proof w_pos; lia|exact Ecur]).
        apply (cg_modeq 1) in H1; [|lia]. change (2 ^ 1) with 2 in H1. rewrite H1. apply (valid_pow i cur V M).
      * replace (Z.of_nat (S i) + sh) with (Z.of_nat i + sh + 1) by lia. exact Agree.
      * eapply cg_trans; [exact Ecur|]. rewrite <- pow_aff.
        replace (Z.to_nat (D + 2 ^ Z.of_nat i)) with (2 ^ i + Z.to_nat D)%nat.
        2: { rewrite <- pow_nat_Z. lia. }
        rewrite iter_add. apply iter_cg; [apply aff_cg; apply cg_refl|exact CD].
Qed.
End GOOD.
End W.
