From Coq Require Import String ZArith Arith Bool Lia List Znumtheory Zpow_facts.
From Verif Require Import Common PcgModel PcgSpec SeedModel SeedSpec SeedProofs SeedEngProofs.
Import ListNotations.
Local Open Scope Z_scope.

Fixpoint words_of (k : nat) (x : Z) : list Z := match k with O => [] | S k => x mod 2 ^ 32 :: words_of k (x / 2 ^ 32) end.
Lemma words_of_ok : forall k x, 0 <= x < 2 ^ (32 * Z.of_nat k) -> numbers 4 k (words_of k x) /\ joined (words_of k x) = x.
Proof.
  induction k as [|k IH]; intros x H; [cbn in *; split; [split; [reflexivity|constructor]|lia]|].
  replace (32 * Z.of_nat (S k)) with (32 + 32 * Z.of_nat k) in H by lia. rewrite Z.pow_add_r in H by lia.
  destruct (IH (x / 2 ^ 32)) as ((L & F) & J). { split; [apply Z.div_pos; lia|apply Z.div_lt_upper_bound; lia]. }
  cbn [words_of joined]. rewrite J. split; [|pose proof (Z.div_mod x (2 ^ 32) ltac:(lia)); lia]. split; [cbn [length]; now rewrite L|]. constructor; [|exact F]. change (256 ^ Z.of_nat 4) with (2 ^ 32). apply Z.mod_pos_bound. lia.
Qed.
Lemma joined_inj : forall l l', Forall word l -> Forall word l' -> length l = length l' -> joined l = joined l' -> l = l'.
Proof.
  intros l l' F. revert l'. induction F as [|x l X F IH]; intros l' F' L J; destruct l' as [|y l']; try discriminate; [reflexivity|]. inversion F' as [|? ? Y F'']; subst. cbn [length] in L. cbn [joined] in J. unfold word in *.
  assert (x = y) by lia. subst y. f_equal. apply IH; [exact F''|lia|lia].
Qed.
Lemma given_fills : forall l, Forall word l -> forall q n, numbers 4 n (snd (given l q n)).
Proof.
  intros l F q n. cbn [given snd]. split; [rewrite firstn_length, app_length, repeat_length; lia|]. apply Forall_forall. intros x Hx.
  assert (IN : In x (l ++ repeat 0 n)) by (rewrite <- (firstn_skipn n (l ++ repeat 0 n)); apply in_or_app; now left). apply in_app_or in IN as [I|I].
  - exact (proj1 (Forall_forall _ _) F x I).
  - apply repeat_spec in I. subst. change (256 ^ Z.of_nat 4) with (2 ^ 32). lia.
Qed.
Lemma given_exact : forall l q, given l q (length l) = (q, l).
Proof. intros l q. unfold given. f_equal. rewrite firstn_app, Nat.sub_diag. cbn [firstn]. rewrite app_nil_r. apply firstn_all. Qed.
Lemma big_words : forall w, In w big_sizes -> In w sizes /\ w <> 16 /\ words_for (Z.to_nat (w / 8)) (Z.to_nat (w / 32)) /\ 32 * Z.of_nat (Z.to_nat (w / 32)) = w.
Proof. intros w H. cbn in H. destruct H as [<-|[<-|[<-|[]]]]; (split; [cbn; tauto|]); (split; [discriminate|]); vm_compute; (split; [split; lia|reflexivity]) || (split; [lia|reflexivity]). Qed.
Lemma seeded : forall w (mcg : bool) m c l, In w big_sizes -> 0 <= m < 2 ^ w -> 0 <= c < 2 ^ w -> numbers 4 (Z.to_nat (w / 32)) l ->
  engine_seed (given l) w mcg m c tt = Ok (tt, if mcg then joined l / 4 * 4 + 3 else ((joined l + c) * m + c) mod 2 ^ w).
Proof.
  intros w mcg m c l H M C (L & F). destruct (big_words w H) as (S & N16 & W & W32). rewrite (engine_ok (given l) (given_fills l F) w mcg m c tt (Z.to_nat (w / 32)) S) by (try assumption; tauto).
  rewrite <- L, given_exact. cbn [fst snd]. rewrite Z.mod_small; [reflexivity|]. pose proof (joined_bound l F) as B. rewrite L, W32 in B. exact B.
Qed.
Lemma mul_cancel : forall w m a b, 0 <= w -> Z.odd m = true -> (a * m) mod 2 ^ w = (b * m) mod 2 ^ w -> a mod 2 ^ w = b mod 2 ^ w.
Proof.
  intros w m a b W O E. assert (R : rel_prime (2 ^ w) m).
  { apply rel_prime_sym, rel_prime_Zpower_r; [exact W|]. apply rel_prime_sym. apply prime_rel_prime; [exact prime_2|]. intros (k & K). rewrite K, Z.odd_mul in O. rewrite andb_false_r in O. discriminate. }
  assert (P : 0 < 2 ^ w) by (apply Z.pow_pos_nonneg; lia).
  assert (D : (2 ^ w | m * (a - b))).
  { exists ((a * m) / 2 ^ w - (b * m) / 2 ^ w). pose proof (Z.div_mod (a * m) (2 ^ w) ltac:(lia)). pose proof (Z.div_mod (b * m) (2 ^ w) ltac:(lia)). nia. }
  apply Gauss in D; [|exact R]. destruct D as (k & K). replace a with (b + k * 2 ^ w) by lia. apply Z.mod_add. lia.
Qed.
Lemma mul_reach : forall w m t, 0 <= w -> Z.odd m = true -> exists a, (a * m) mod 2 ^ w = t mod 2 ^ w.
Proof.
  intros w m t W O. assert (R : rel_prime (2 ^ w) m).
  { apply rel_prime_sym, rel_prime_Zpower_r; [exact W|]. apply rel_prime_sym. apply prime_rel_prime; [exact prime_2|]. intros (k & K). rewrite K, Z.odd_mul in O. rewrite andb_false_r in O. discriminate. }
  destruct (rel_prime_bezout _ _ R) as [u v E]. exists (v * t). replace (v * t * m) with (t + (- u * t) * 2 ^ w) by (transitivity ((u * 2 ^ w + v * m) * t + - u * t * 2 ^ w); [rewrite E; ring|ring]).
  apply Z.mod_add. apply Z.pow_nonzero; lia.
Qed.
Lemma lcg_once : forall w m c t, In w big_sizes -> Z.odd m = true -> 0 <= m < 2 ^ w -> 0 <= c < 2 ^ w -> 0 <= t < 2 ^ w ->
  exists l, (numbers 4 (Z.to_nat (w / 32)) l /\ engine_seed (given l) w false m c tt = Ok (tt, t)) /\
    forall l', numbers 4 (Z.to_nat (w / 32)) l' -> engine_seed (given l') w false m c tt = Ok (tt, t) -> l' = l.
Proof.
  intros w m c t H O M C T. destruct (big_words w H) as (S & N16 & W & W32). assert (W0 : 0 <= w) by (cbn in H; lia). assert (P : 0 < 2 ^ w) by (apply Z.pow_pos_nonneg; lia).
  destruct (mul_reach w m (t - c) W0 O) as (a & A). set (x := (a - c) mod 2 ^ w). assert (X : 0 <= x < 2 ^ w) by (apply Z.mod_pos_bound, P).
  assert (VX : ((x + c) * m + c) mod 2 ^ w = t).
  { assert (XC : (x + c) mod 2 ^ w = a mod 2 ^ w) by (unfold x; rewrite Zplus_mod_idemp_l; f_equal; lia).
    rewrite <- (Zplus_mod_idemp_l ((x + c) * m)), <- (Zmult_mod_idemp_l (x + c)), XC, Zmult_mod_idemp_l, A, Zplus_mod_idemp_l. replace (t - c + c) with t by lia. now apply Z.mod_small. }
  assert (X' : 0 <= x < 2 ^ (32 * Z.of_nat (Z.to_nat (w / 32)))) by (rewrite W32; exact X). destruct (words_of_ok _ x X') as (N & J). exists (words_of (Z.to_nat (w / 32)) x).
  split; [split; [exact N|rewrite seeded by assumption; rewrite J, VX; reflexivity]|].
  intros l' N' E'. rewrite seeded in E' by assumption. injection E' as E'. destruct N as (L & F). destruct N' as (L' & F'). apply joined_inj; try assumption; [lia|]. rewrite J.
  pose proof (joined_bound l' F') as B. rewrite L', W32 in B. rewrite <- (Z.mod_small (joined l') (2 ^ w)), <- (Z.mod_small x (2 ^ w)) by assumption.
  assert (Q : (joined l' + c) mod 2 ^ w = (x + c) mod 2 ^ w).
  { apply (mul_cancel w m); [exact W0|exact O|]. rewrite <- VX in E'.
    apply (f_equal (fun z => (z - c) mod 2 ^ w)) in E'. rewrite !Zminus_mod_idemp_l in E'. now rewrite !Z.add_simpl_r in E'. }
  apply (f_equal (fun z => (z - c) mod 2 ^ w)) in Q. rewrite !Zminus_mod_idemp_l in Q. now rewrite !Z.add_simpl_r in Q.
Qed.
Lemma mcg_four : forall w m t, In w big_sizes -> 0 <= m < 2 ^ w -> state w true t ->
  exists ls, NoDup ls /\ length ls = 4%nat /\ forall l, In l ls <-> numbers 4 (Z.to_nat (w / 32)) l /\ engine_seed (given l) w true m 0 tt = Ok (tt, t).
Proof.
  intros w m t H M (T & T4). specialize (T4 eq_refl). destruct (big_words w H) as (S & N16 & W & W32). assert (W0 : 0 <= w) by (cbn in H; lia). assert (P : 0 < 2 ^ w) by (apply Z.pow_pos_nonneg; lia).
  set (k := Z.to_nat (w / 32)) in *. exists (map (words_of k) [t - 3; t - 2; t - 1; t]).
  assert (T3 : 3 <= t) by (pose proof (Z.mod_le t 4 ltac:(lia) ltac:(lia)); lia). assert (DM := Z.div_mod t 4 ltac:(lia)).
  assert (R : forall x, In x [t - 3; t - 2; t - 1; t] <-> 0 <= x < 2 ^ w /\ x / 4 * 4 + 3 = t).
  { intros x. split.
    - intros I. assert (XB : t - 3 <= x <= t) by (cbn in I; lia). split; [lia|]. pose proof (Z.div_mod x 4 ltac:(lia)). pose proof (Z.mod_pos_bound x 4 ltac:(lia)). lia.
    - intros (X & E). pose proof (Z.div_mod x 4 ltac:(lia)). pose proof (Z.mod_pos_bound x 4 ltac:(lia)). cbn. lia. }
  assert (WO : forall x, In x [t - 3; t - 2; t - 1; t] -> numbers 4 k (words_of k x) /\ joined (words_of k x) = x).
  { intros x I. apply R in I as (X & _). apply words_of_ok. rewrite W32. exact X. }
  split; [|split; [reflexivity|]].
  - assert (ND : NoDup [t - 3; t - 2; t - 1; t]) by (repeat constructor; cbn; lia).
    assert (INJ : forall x y, In x [t - 3; t - 2; t - 1; t] -> In y [t - 3; t - 2; t - 1; t] -> words_of k x = words_of k y -> x = y).
    { intros x y Ix Iy E. rewrite <- (proj2 (WO x Ix)), <- (proj2 (WO y Iy)), E. reflexivity. }
    set (zs := [t - 3; t - 2; t - 1; t]) in *. clearbody zs. clear R. induction ND as [|z zs NI ND IH]; [constructor|]. cbn [map]. constructor.
    + intros I. apply in_map_iff in I as (y & E & I). apply NI. rewrite (INJ z y); [exact I|now left|now right|now symmetry].
    + apply IH; [intros x I; apply WO; now right|intros x y Ix Iy; apply INJ; now right].
  - intros l. split.
    + intros I. apply in_map_iff in I as (x & <- & I). destruct (WO x I) as (N & J). split; [exact N|]. rewrite seeded by (try assumption; lia). rewrite J. do 2 f_equal. now apply R.
    + intros (N & E). rewrite seeded in E by (try assumption; lia). injection E as E. destruct N as (L & F). pose proof (joined_bound l F) as B. rewrite L in B. unfold k in B. fold k in B. rewrite W32 in B.
      assert (I : In (joined l) [t - 3; t - 2; t - 1; t]) by (apply R; split; assumption). replace l with (words_of k (joined l)); [now apply in_map|].
      destruct (WO _ I) as ((L2 & F2) & J2). apply joined_inj; try assumption. lia.
Qed.

(** ** Numbers of a generator *)
Lemma draws_are : forall R (rng : R -> R * Z) n r, draw_words rng r n =
  (Nat.iter n (fun r => fst (rng r)) r, map (fun i => snd (rng (Nat.iter i (fun r => fst (rng r)) r)) mod 2 ^ 32) (seq 0 n)).
Proof.
  intros R rng. assert (IT : forall n r, Nat.iter n (fun r => fst (rng r)) (fst (rng r)) = Nat.iter (S n) (fun r => fst (rng r)) r).
  { induction n as [|n IH]; intros r; [reflexivity|]. cbn [Nat.iter nat_rect] in *. unfold Nat.iter in *. cbn [nat_rect] in *. now rewrite IH. }
  induction n as [|n IH]; intros r; [reflexivity|]. cbn [draw_words]. destruct (rng r) as [r1 x] eqn:E. rewrite IH. f_equal.
  - rewrite <- (IT n r), E. reflexivity.
  - cbn [seq map]. f_equal; [cbn; now rewrite E|]. rewrite <- seq_shift, map_map. apply map_ext. intros i. rewrite <- (IT i r), E. reflexivity.
Qed.
Lemma draws_fill : forall R (rng : R -> R * Z) q n, numbers 4 n (snd (draw_words rng q n)).
Proof.
  intros R rng q n. rewrite draws_are. cbn [snd]. split; [now rewrite map_length, seq_length|]. apply Forall_forall. intros x I. apply in_map_iff in I as (i & <- & _). change (256 ^ Z.of_nat 4) with (2 ^ 32). apply Z.mod_pos_bound. lia.
Qed.
Lemma library_ok : forall R (rng : R -> R * Z) r, let '(r1, a) := rng r in let '(r2, b) := rng r1 in
  library_engine rng r = Ok (r2, (a mod 2 ^ 32 + 2 ^ 32 * (b mod 2 ^ 32)) / 4 * 4 + 3).
Proof.
  intros R rng r. destruct (rng r) as [r1 a] eqn:E1. destruct (rng r1) as [r2 b] eqn:E2. unfold library_engine.
  rewrite (engine_ok _ (draws_fill R rng) 64 true fast_mult 0 r 2); [|cbn; tauto|discriminate|vm_compute; split; congruence|vm_compute; split; congruence|vm_compute; split; lia].
  cbn [draw_words]. rewrite E1, E2. cbn [fst snd joined]. f_equal. f_equal. rewrite Z.mul_0_r, Z.add_0_r. rewrite (Z.mod_small _ (2 ^ 64)); [reflexivity|].
  pose proof (Z.mod_pos_bound a (2 ^ 32) ltac:(lia)). pose proof (Z.mod_pos_bound b (2 ^ 32) ltac:(lia)). change (2 ^ 64) with (2 ^ 32 * 2 ^ 32). lia.
Qed.
Lemma extended_ok : forall Q B (fill : Q -> nat -> Q * list Z) (base : Q -> outcome (Q * B)) D size q q1 b, (forall q n, numbers 4 n (snd (fill q n))) ->
  In D [1; 2; 4; 8; 16]%nat -> base q = Ok (q1, b) -> exists n data, words_for (size * D) n /\
  extended_seed fill base (Z.of_nat D) size q = Ok (fst (fill q1 n), (b, data)) /\ numbers D size data /\ memory D data = firstn (size * D) (memory 4 (snd (fill q1 n))).
Proof.
  intros Q B fill base D size q q1 b F H E. destruct (generate_ok fill F D size q1 H) as (n & data & W & G & N & M). exists n, data. split; [exact W|]. unfold extended_seed. rewrite E. cbn [obind]. rewrite G. auto.
Qed.
Lemma repeatable : forall Q (fill : Q -> nat -> Q * list Z) w m q, (forall q n, numbers 4 n (snd (fill q n))) -> (forall q n, fst (fill q n) = q) ->
  In w sizes -> (w = 16 -> m < 2 ^ 15) -> 0 <= m < 2 ^ w -> engine_seed_stream fill true w m q = engine_seed_stream fill false w m q.
Proof.
  intros Q fill w m q F K H M16 M. assert (EX : exists n, words_for (2 * Z.to_nat (w / 8)) n).
  { cbn in H. destruct H as [<-|[<-|[<-|[<-|[<-|[]]]]]]; [exists 1%nat|exists 1%nat|exists 2%nat|exists 4%nat|exists 8%nat]; vm_compute; lia. }
  destruct EX as (n & W). rewrite !(stream_ok fill F _ w m q n) by assumption. cbv zeta. rewrite !(K q n). rewrite ?K. reflexivity.
Qed.
