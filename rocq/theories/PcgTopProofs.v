From Coq Require Import String ZArith Bool Lia List Znumtheory.
From Verif Require Import Common PcgModel PcgSpec PcgProofs.
Import ListNotations.
Local Open Scope Z_scope.

Lemma state_valid : forall w mcg s, state w mcg s -> valid mcg s.
Proof.
  intros w mcg s [_ H] M. specialize (H M). pose proof (Z.div_mod s 4). rewrite H in *.
  replace s with (1 + (2 * (s / 4) + 1) * 2) by lia. rewrite Z.mod_add by lia. reflexivity.
Qed.
Lemma period_sh : forall w mcg, period w mcg = 2 ^ (w - sh mcg).
Proof. intros w [|]; unfold period, sh; [reflexivity|]. rewrite Z.sub_0_r. reflexivity. Qed.
Lemma after_add : forall w m c a b s, 0 <= a -> 0 <= b -> after w m c (a + b) s = after w m c a (after w m c b s).
Proof. intros. unfold after. rewrite Z2Nat.inj_add by assumption. apply iter_add. Qed.

Section T.
Variables (w : Z) (mcg : bool) (m c : Z).
Hypothesis W : wide w.
Hypothesis G : good mcg m c.
Hypothesis Hm : 0 <= m < 2 ^ w.
Hypothesis Hc : 0 <= c < 2 ^ w.

Lemma state_after : forall n s, state w mcg s -> state w mcg (after w m c n s).
Proof.
  intros n s S. split; [apply after_inr; [exact W|apply S]|]. intros M. unfold after.
  assert (W2 : 2 <= w) by (destruct W; lia).
  induction (Z.to_nat n) as [|k IH]; [apply S; exact M|]. rewrite iter_S. set (y := Nat.iter k (one_step w m c) s) in *. clearbody y. unfold one_step.
  assert (Q : forall x, (x mod 2 ^ w) mod 4 = x mod 4).
  { intros x. change 4 with (2 ^ 2). apply (cg_modeq 2); [lia|]. apply (cg_weaken 2 w); [lia|]. apply cg_mod. lia. }
  rewrite Q. unfold good in G. rewrite M in G. destruct G as [Gm Gc]. rewrite Gc, Z.add_0_r, Z.mul_mod, IH by lia.
  replace (m mod 4) with 1; [reflexivity|]. pose proof (Z.div_mod m 8). replace m with (1 + (2 * (m / 8) + 1) * 4) by lia.
  rewrite Z.mod_add by lia. reflexivity.
Qed.
Lemma period_top : forall n s, state w mcg s -> 0 <= n -> (after w m c n s = s <-> (period w mcg | n)).
Proof.
  intros n s S Hn. rewrite period_sh. rewrite <- (Z2Nat.id n Hn) at 2. rewrite <- (period_ok w W mcg m c G (Z.to_nat n) s (state_valid _ _ _ S)).
  split.
  - intros E. rewrite <- E at 2. apply cg_sym. apply after_cg. exact W.
  - intros C. apply (cg_eq w); [apply after_inr; [exact W|apply S]|apply S|]. eapply cg_trans; [apply after_cg; exact W|exact C].
Qed.
Lemma period_pos : 0 < period w mcg.
Proof. rewrite period_sh. apply Z.pow_pos_nonneg; [lia|]. pose proof (sh_pos mcg). destruct W; lia. Qed.
Lemma period_div : (period w mcg | 2 ^ w).
Proof.
  rewrite period_sh. exists (2 ^ sh mcg). pose proof (sh_pos mcg). rewrite <- Z.pow_add_r by (destruct W; lia). f_equal. lia.
Qed.
Lemma after_period : forall n s, state w mcg s -> 0 <= n -> after w m c n s = after w m c (n mod period w mcg) s.
Proof.
  intros n s S Hn. pose proof period_pos as P. rewrite (Z.div_mod n (period w mcg)) at 1 by lia.
  rewrite Z.add_comm. pose proof (Z.mod_pos_bound n _ P). assert (0 <= n / period w mcg) by (apply Z.div_pos; lia).
  rewrite after_add by nia. f_equal. apply period_top; [exact S|nia|]. exists (n / period w mcg). ring.
Qed.
Lemma same_count : forall a b s, state w mcg s -> 0 <= a < period w mcg -> 0 <= b < period w mcg ->
  after w m c a s = after w m c b s -> a = b.
Proof.
  assert (H : forall a b s, state w mcg s -> 0 <= a <= b -> b < period w mcg -> after w m c a s = after w m c b s -> a = b).
  { intros a b s S Ha Hb E. replace b with (b - a + a) in E by lia. rewrite after_add in E by lia. symmetry in E.
    apply period_top in E; [|apply state_after; exact S|lia]. destruct E as [k K]. pose proof period_pos. assert (k = 0) by nia. lia. }
  intros a b s S Ha Hb E. destruct (Z.le_ge_cases a b); [apply (H a b s S); auto; lia|symmetry; apply (H b a s S); auto; lia].
Qed.

Lemma backstep_top : forall s n, state w mcg s -> 0 <= n < 2 ^ w ->
  obind (advance w m c s n) (fun t => backstep w m c t n) = Ok s /\ obind (backstep w m c s n) (fun t => advance w m c t n) = Ok s.
Proof.
  intros s n S Hn. assert (P : 0 < 2 ^ w) by lia.
  assert (B : forall t, state w mcg t -> backstep w m c t n = Ok (after w m c ((- n) mod 2 ^ w) t)).
  { intros t St. unfold backstep. change (advance_from w m c t ((- n) mod 2 ^ w)) with (advance w m c t ((- n) mod 2 ^ w)).
    apply advance_ok; auto; [apply St|]. apply Z.mod_pos_bound. exact P. }
  assert (E : (period w mcg | (- n) mod 2 ^ w + n)).
  { destruct period_div as [k K]. rewrite Z.mod_eq by lia. exists (- (- n / 2 ^ w) * k). rewrite K at 1. ring. }
  assert (R : 0 <= (- n) mod 2 ^ w) by (apply Z.mod_pos_bound; exact P).
  split.
  - rewrite advance_ok by (auto; apply S). cbn [obind]. rewrite B by (apply state_after; exact S). f_equal.
    rewrite <- after_add by lia. apply period_top; auto. lia.
  - rewrite B by exact S. cbn [obind]. rewrite advance_ok by (auto; apply (state_after _ _ S)). f_equal.
    rewrite <- after_add by lia. apply period_top; auto; [lia|]. rewrite Z.add_comm. exact E.
Qed.

Lemma distance_top : forall s t, state w mcg s -> state w mcg t ->
  exists d, distance w mcg m c s t = Ok d /\ 0 <= d < period w mcg /\ after w m c d s = t.
Proof.
  intros s t S T. unfold distance, distance_fuel. pose proof (sh_pos mcg) as HS. assert (8 <= w) by (destruct W; lia).
  destruct (distance_loop_ok w W mcg m c G (Z.to_nat w) s 0 0 s t m c) as (d & E & Hd & C).
  - apply S.
  - apply T.
  - exact Hm.
  - exact Hc.
  - exact (state_valid _ _ _ S).
  - apply cg_refl.
  - apply cg_refl.
  - change (Z.of_nat 0) with 0. unfold sh. destruct mcg eqn:M.
    + apply modeq_cg; [lia|]. change (2 ^ (0 + 2)) with 4. rewrite (proj2 S), (proj2 T) by reflexivity. reflexivity.
    + exists (s - t). cbn. lia.
  - change (2 ^ Z.of_nat 0) with 1. lia.
  - apply cg_refl.
  - change (Z.of_nat 0) with 0. lia.
  - rewrite Z2Nat.id by lia. lia.
  - change (Z.of_nat 0 + sh mcg) with (sh mcg) in E. rewrite Z.mul_0_l in E.
    assert (B : 2 ^ sh mcg mod 2 ^ w = if mcg then 4 else 1).
    { rewrite Z.mod_small; [unfold sh; destruct mcg; reflexivity|]. split; [apply Z.pow_nonneg; lia|]. apply Z.pow_lt_mono_r; lia. }
    rewrite B in E. rewrite E. cbn [obind]. exists d. rewrite <- period_sh in Hd. split; [|split; [exact Hd|]].
    + f_equal. unfold sh. destruct mcg.
      * rewrite Z.shiftr_div_pow2 by lia. change (2 ^ 2) with 4. apply Z.div_mul. lia.
      * change (2 ^ 0) with 1. lia.
    + apply (cg_eq w); [apply after_inr; [exact W|apply S]|apply T|]. eapply cg_trans; [apply after_cg; exact W|]. apply cg_sym. exact C.
Qed.
Lemma distance_after : forall s n, state w mcg s -> 0 <= n -> distance w mcg m c s (after w m c n s) = Ok (n mod period w mcg).
Proof.
  intros s n S Hn. destruct (distance_top s (after w m c n s) S (state_after n s S)) as (d & E & Hd & A). rewrite E. f_equal.
  rewrite (after_period n s S Hn) in A. apply (same_count d (n mod period w mcg) s S Hd); [|exact A].
  apply Z.mod_pos_bound. apply period_pos.
Qed.
Lemma minus_top : forall s n k, state w mcg s -> 0 <= k -> 0 <= n -> 
  minus w mcg m c (after w m c (n + k) s) (after w m c k s) = Ok (n mod period w mcg).
Proof. intros s n k S Hk Hn. unfold minus. rewrite after_add by lia. apply distance_after; [apply state_after; exact S|exact Hn]. Qed.
Lemma construct_top : forall s, 0 <= s < 2 ^ w -> exists t, construct w mcg m c s = Ok t /\ state w mcg t.
Proof.
  intros s Hs. unfold construct. destruct mcg eqn:M.
  - exists (Z.lor s 3). split; [reflexivity|]. assert (W8 : 8 <= w) by (destruct W; lia). split.
    + split; [apply Z.lor_nonneg; lia|]. destruct (Z.eq_dec (Z.lor s 3) 0) as [->|N]; [lia|].
      apply Z.log2_lt_pow2; [assert (0 <= Z.lor s 3) by (apply Z.lor_nonneg; lia); lia|]. rewrite Z.log2_lor by lia.
      change (Z.log2 3) with 1. apply Z.max_lub_lt; [|lia]. destruct (Z.eq_dec s 0) as [->|Ns]; [cbn; lia|]. apply Z.log2_lt_pow2; lia.
    + intros _. change 4 with (2 ^ 2). rewrite <- Z.land_ones by lia. rewrite Z.land_lor_distr_l.
      change (Z.land 3 (Z.ones 2)) with 3. rewrite Z.land_ones by lia. change (2 ^ 2) with 4.
      pose proof (Z.mod_pos_bound s 4 ltac:(lia)) as B. assert (C : s mod 4 = 0 \/ s mod 4 = 1 \/ s mod 4 = 2 \/ s mod 4 = 3) by lia.
      destruct C as [-> | [-> | [-> | ->]]]; reflexivity.
  - unfold bump. assert (P : 0 < 2 ^ w) by lia. rewrite (expr_mac w W); [|apply Z.mod_pos_bound; exact P|exact Hm|exact Hc].
    eexists. split; [reflexivity|]. split; [apply Z.mod_pos_bound; exact P|discriminate].
Qed.
Lemma wrapped_once : forall s, state w mcg s -> exists n, 0 <= n < period w mcg /\
  forall k, 0 <= k -> (wrapped mcg (after w m c k s) = true <-> k mod period w mcg = n).
Proof.
  intros s S. pose (t := if mcg then 3 else 0). assert (W8 : 8 <= w) by (destruct W; lia).
  assert (P : 2 ^ 8 <= 2 ^ w) by (apply Z.pow_le_mono_r; lia). change (2 ^ 8) with 256 in P.
  assert (T : state w mcg t). { unfold t. split; [destruct mcg; lia|]. intros ->. reflexivity. }
  destruct (distance_top s t S T) as (d & _ & Hd & A). exists d. split; [exact Hd|]. intros k Hk.
  assert (B : 0 <= k mod period w mcg < period w mcg) by (apply Z.mod_pos_bound, period_pos).
  rewrite (after_period k s S Hk). unfold wrapped. fold t.
  replace (if mcg then after w m c (k mod period w mcg) s =? 3 else after w m c (k mod period w mcg) s =? 0)
    with (after w m c (k mod period w mcg) s =? t) by (unfold t; destruct mcg; reflexivity).
  rewrite Z.eqb_eq, <- A. split; [|intros ->; reflexivity]. intros E. apply (same_count _ _ s S B Hd E).
Qed.
End T.

Lemma advance_top : forall w m c s n, wide w -> 0 <= m < 2 ^ w -> 0 <= c < 2 ^ w -> 0 <= s < 2 ^ w -> 0 <= n < 2 ^ w ->
  advance w m c s n = Ok (after w m c n s) /\ discard w m c s n = Ok (after w m c n s).
Proof. intros. split; apply advance_ok; assumption. Qed.

(** Constants and streams. *)
Lemma constants_ok : forall w m c, In (w, m, c) constants -> good false m c /\ good true m 0 /\ 0 <= m < 2 ^ w /\ 0 <= c < 2 ^ w.
Proof. intros w m c H. cbn in H. repeat (destruct H as [E|H]; [injection E as <- <- <-; vm_compute; intuition discriminate|]). contradiction. Qed.
Lemma lor_one : forall x, Z.lor x 1 mod 2 = 1.
Proof.
  intros x. change 2 with (2 ^ 1). rewrite <- Z.land_ones by lia. rewrite Z.land_lor_distr_l. change (Z.land 1 (Z.ones 1)) with 1.
  rewrite Z.land_ones by lia. change (2 ^ 1) with 2. pose proof (Z.mod_pos_bound x 2 ltac:(lia)) as B.
  assert (C : x mod 2 = 0 \/ x mod 2 = 1) by lia. destruct C as [-> | ->]; reflexivity.
Qed.
Lemma lor_one_range : forall w x, 1 <= w -> 0 <= x < 2 ^ w -> 0 <= Z.lor x 1 < 2 ^ w.
Proof.
  intros w x W H. split; [apply Z.lor_nonneg; lia|]. destruct (Z.eq_dec (Z.lor x 1) 0) as [->|N]; [lia|].
  apply Z.log2_lt_pow2; [assert (0 <= Z.lor x 1) by (apply Z.lor_nonneg; lia); lia|]. rewrite Z.log2_lor by lia. change (Z.log2 1) with 0.
  apply Z.max_lub_lt; [|lia]. destruct (Z.eq_dec x 0) as [->|]; [cbn; lia|]. apply Z.log2_lt_pow2; lia.
Qed.
Lemma streams_ok : forall w m x, 1 <= w -> m mod 4 = 1 ->
  good false m (stream_increment w x) /\ 0 <= stream_increment w x < 2 ^ w /\
  (0 <= x -> good false m (unique_increment w x) /\ 0 <= unique_increment w x < 2 ^ w).
Proof.
  intros w m x Hw Hm. assert (P : 0 < 2 ^ w) by (apply Z.pow_pos_nonneg; lia). unfold stream_increment, unique_increment.
  split; [split; [exact Hm|apply lor_one]|]. split; [apply lor_one_range; [exact Hw|apply Z.mod_pos_bound; exact P]|]. intros Hx.
  split; [|apply Z.mod_pos_bound; exact P]. split; [exact Hm|].
  transitivity (Z.lor x 1 mod 2); [|apply lor_one]. change 2 with (2 ^ 1) at 2 3. apply cg_modeq; [lia|]. apply (cg_weaken 1 w); [lia|]. apply cg_mod. lia.
Qed.
Lemma load_save : forall w m c can s, 1 <= w -> 0 <= c < 2 ^ w -> (can = true -> c mod 2 = 1) ->
  load w m c can (save m c s) = Some (c, s) /\
  forall m' c' s', m' <> m \/ (can = false /\ c' <> c) -> load w m c can (m', c', s') = None.
Proof.
  intros w m c can s Hw Hc H. unfold load, save. split.
  - rewrite Z.eqb_refl. cbn [negb]. destruct can.
    + specialize (H eq_refl). do 2 f_equal. unfold stream_increment. rewrite Z.shiftr_div_pow2 by lia. change (2 ^ 1) with 2.
      pose proof (Z.div_mod c 2). assert (0 <= c / 2) by (apply Z.div_pos; lia). rewrite Z.mod_small by lia.
      change 1 with (2 ^ 0) at 1. replace (c / 2 * 2) with (Z.shiftl (c / 2) 1) by (rewrite Z.shiftl_mul_pow2 by lia; reflexivity).
      rewrite <- Z.add_nocarry_lxor || idtac.
      transitivity (Z.shiftl (c / 2) 1 + 1); [|rewrite Z.shiftl_mul_pow2 by lia; change (2 ^ 1) with 2; lia].
      assert (L : Z.land (Z.shiftl (c / 2) 1) 1 = 0).
      { change 1 with (Z.ones 1) at 2. rewrite Z.land_ones by lia. rewrite Z.shiftl_mul_pow2 by lia. change (2 ^ 1) with 2. apply Z.mod_mul. lia. }
      rewrite (Z.add_nocarry_lxor _ _ L). symmetry. apply Z.lxor_lor. exact L.
    + rewrite Z.eqb_refl. reflexivity.
  - intros m' c' s' [N|[-> N]].
    + replace (m' =? m) with false by lia. reflexivity.
    + destruct (m' =? m); [|reflexivity]. cbn [negb]. replace (c' =? c) with false by lia. reflexivity.
Qed.

(** States of different kinds. *)
Lemma distance_never : forall w m, 32 <= w -> m mod 8 = 5 -> forall fuel s t, s mod 4 <> t mod 4 ->
  forall d, distance_fuel w true m 0 fuel s t <> Ok d.
Proof.
  intros w m W Hm.
  assert (H : forall fuel s t cm b d d', s mod 4 <> t mod 4 -> cm mod 4 = 1 -> distance_loop w fuel s t cm 0 b d <> Ok d').
  { induction fuel as [|fuel IH]; intros s t cm b d d' N C; [discriminate|]. cbn [distance_loop].
    destruct (Z.eqb_spec s t) as [->|_]; [contradiction|].
    assert (X : forall x, expr w x = Ok (x mod 2 ^ w)).
    { intros x. unfold expr. replace (w <? 32) with false by lia. reflexivity. }
    assert (Q : forall x, (x mod 2 ^ w) mod 4 = x mod 4).
    { intros x. change 4 with (2 ^ 2). apply (cg_modeq 2); [lia|]. apply (cg_weaken 2 w); [lia|]. apply cg_mod. lia. }
    rewrite !X. cbn [obind]. rewrite Z.mul_0_r, Z.mod_0_l by (assert (0 < 2 ^ w) by (apply Z.pow_pos_nonneg; lia); lia).
    assert (C2 : ((cm * cm) mod 2 ^ w) mod 4 = 1) by (rewrite Q, Z.mul_mod, C by lia; reflexivity).
    destruct (Z.land s b =? Z.land t b) eqn:E.
    - cbn [obind]. rewrite E. apply IH; assumption.
    - cbn [obind]. destruct (Z.land ((s * cm + 0) mod 2 ^ w) b =? Z.land t b); [|discriminate]. apply IH; [|exact C2].
      rewrite Q, Z.add_0_r, Z.mul_mod, C, Z.mul_1_r, Z.mod_mod by lia. exact N. }
  intros fuel s t N d. unfold distance_fuel. destruct (distance_loop w fuel s t m 0 4 0) as [x| | |] eqn:E; try discriminate.
  exfalso. apply (H fuel s t m 4 0 x N); [|exact E]. pose proof (Z.div_mod m 8). replace m with (1 + (2 * (m / 8) + 1) * 4) by lia.
  rewrite Z.mod_add by lia. reflexivity.
Qed.

(** Seeding with two 32-bit numbers. *)
Lemma fast_seed : forall lo hi, 0 <= lo < 2 ^ 32 -> 0 <= hi < 2 ^ 32 ->
  pcg32_fast_seed lo hi = Ok ((lo + hi * 2 ^ 32) / 4 * 4 + 3) /\ state 64 true ((lo + hi * 2 ^ 32) / 4 * 4 + 3).
Proof.
  intros lo hi Hl Hh. unfold pcg32_fast_seed, construct.
  assert (E1 : Z.lor lo (hi * 2 ^ 32) = lo + hi * 2 ^ 32).
  { rewrite <- Z.shiftl_mul_pow2 by lia. symmetry. rewrite <- Z.lxor_lor, Z.add_nocarry_lxor; try reflexivity;
      (apply Z.bits_inj'; intros n Hn; rewrite Z.land_spec, Z.bits_0; destruct (Z_lt_le_dec n 32);
       [rewrite (Z.shiftl_spec_low hi 32 n) by lia; apply andb_false_r|
        rewrite (Z.bits_above_log2 lo n), andb_false_l; [reflexivity|lia|];
        destruct (Z.eq_dec lo 0) as [->|]; [cbn; lia|]; assert (Z.log2 lo < 32) by (apply Z.log2_lt_pow2; lia); lia]). }
  rewrite E1. set (s := lo + hi * 2 ^ 32). assert (Hs : 0 <= s < 2 ^ 64) by (unfold s; change (2 ^ 64) with (2 ^ 32 * 2 ^ 32); nia).
  clearbody s. pose proof (Z.div_mod s 4 ltac:(lia)) as D. pose proof (Z.mod_pos_bound s 4 ltac:(lia)) as B.
  assert (E2 : Z.lor s 3 = s / 4 * 4 + 3).
  { apply Z.bits_inj'. intros n Hn. rewrite Z.lor_spec.
    assert (F : s / 4 * 4 + 3 = Z.lor (Z.shiftl (s / 4) 2) 3).
    { rewrite <- Z.shiftl_mul_pow2 with (n := 2) by lia. rewrite <- Z.lxor_lor, Z.add_nocarry_lxor; try reflexivity;
      (apply Z.bits_inj'; intros k Hk; rewrite Z.land_spec, Z.bits_0; destruct (Z_lt_le_dec k 2);
       [rewrite (Z.shiftl_spec_low _ 2 k) by lia; apply andb_false_l|
        rewrite (Z.bits_above_log2 3 k), andb_false_r by (cbn; lia); reflexivity]). }
    rewrite F, Z.lor_spec. destruct (Z_lt_le_dec n 2).
    - replace (Z.testbit 3 n) with true by (assert (C : n = 0 \/ n = 1) by lia; destruct C as [-> | ->]; reflexivity). rewrite !orb_true_r. reflexivity.
    - f_equal. rewrite Z.shiftl_spec by lia. change 4 with (2 ^ 2). rewrite Z.div_pow2_bits by lia. f_equal. lia. }
  rewrite E2. split; [reflexivity|]. split.
  - change (2 ^ 64) with (4 * 4611686018427387904) in *. lia.
  - intros _. rewrite Z.add_comm, Z_mod_plus_full. reflexivity.
Qed.
