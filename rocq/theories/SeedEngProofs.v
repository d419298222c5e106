From Coq Require Import String ZArith Arith Bool Lia List.
From Verif Require Import Common PcgModel PcgSpec PcgProofs PcgTopProofs SeedModel SeedSpec SeedProofs.
Import ListNotations.
Local Open Scope Z_scope.

Lemma bytes_inj : forall D x y, bytes_of D x = bytes_of D y -> x mod 256 ^ Z.of_nat D = y mod 256 ^ Z.of_nat D.
Proof.
  induction D as [|D IH]; intros x y H; [cbn; rewrite !Z.mod_1_r; reflexivity|].
  assert (C : forall z, bytes_of (S D) z = z mod 256 :: bytes_of D (z / 256)).
  { intros z. change (S D) with (1 + D)%nat. rewrite bytes_split. cbn [bytes_of seq map app]. change (256 ^ Z.of_nat 0) with 1. change (256 ^ Z.of_nat 1) with 256. now rewrite Z.div_1_r. }
  rewrite !C in H. injection H as H0 H1. apply IH in H1. replace (Z.of_nat (S D)) with (1 + Z.of_nat D) by lia. rewrite Z.pow_add_r by lia. change (256 ^ 1) with 256.
  assert (P : 0 < 256 ^ Z.of_nat D) by (apply Z.pow_pos_nonneg; lia). rewrite !Z.rem_mul_r by lia. rewrite H0, H1. reflexivity.
Qed.
Lemma firstn_bytes : forall a n x, (a <= n)%nat -> firstn a (bytes_of n x) = bytes_of a x.
Proof.
  intros a n x H. replace n with (a + (n - a))%nat by lia. rewrite bytes_split. rewrite firstn_app, bytes_length, Nat.sub_diag. cbn [firstn]. rewrite app_nil_r. apply firstn_all2. rewrite bytes_length. lia.
Qed.
Lemma dest_values : forall D size dest J, numbers D size dest -> memory D dest = bytes_of (size * D) J ->
  forall i, (i < size)%nat -> nth_error dest i = Some (J / 256 ^ Z.of_nat (i * D) mod 256 ^ Z.of_nat D).
Proof.
  intros D size. induction size as [|size IH]; intros dest J (L & F) M i Hi; [lia|]. destruct dest as [|x dest]; [discriminate|]. inversion F as [|? ? X F']; subst.
  rewrite memory_cons in M. cbn [Nat.mul] in M. rewrite bytes_split in M.
  assert (SP : bytes_of D x = bytes_of D J /\ memory D dest = bytes_of (size * D) (J / 256 ^ Z.of_nat D)).
  { split.
    - apply (f_equal (firstn D)) in M. rewrite !firstn_app, !bytes_length, Nat.sub_diag in M. cbn [firstn] in M. rewrite !app_nil_r in M. rewrite !firstn_all2 in M by (rewrite bytes_length; lia). exact M.
    - apply (f_equal (skipn D)) in M. rewrite !skipn_app, !bytes_length, Nat.sub_diag in M. cbn [skipn] in M. rewrite !skipn_all2 in M by (rewrite bytes_length; lia). exact M. }
  destruct SP as (S1 & S2). apply bytes_inj in S1. rewrite Z.mod_small in S1 by exact X. destruct i as [|i].
  - cbn. rewrite Z.div_1_r. now rewrite S1.
  - cbn [nth_error]. cbn [length] in L. rewrite (IH dest _ (conj (eq_add_S _ _ L) F') S2 i ltac:(lia)). do 2 f_equal. rewrite Z.div_div by (try apply Z.pow_nonzero; try apply Z.pow_pos_nonneg; lia).
    rewrite <- Z.pow_add_r by lia. f_equal. f_equal. lia.
Qed.
Lemma memory_joined : forall l n, Forall word l -> (n <= 4 * length l)%nat -> firstn n (memory 4 l) = bytes_of n (joined l).
Proof. intros l n F H. rewrite <- joined_bytes by exact F. now apply firstn_bytes. Qed.

Lemma size_bytes : forall w, In w sizes -> exists D, w / 8 = Z.of_nat D /\ w = 8 * Z.of_nat D /\ In D [1; 2; 4; 8; 16]%nat.
Proof.
  intros w H. cbn in H. destruct H as [<-|[<-|[<-|[<-|[<-|[]]]]]]; [exists 1%nat|exists 2%nat|exists 4%nat|exists 8%nat|exists 16%nat]; (split; [reflexivity|]); (split; [reflexivity|]); cbn; tauto.
Qed.
Section FILL.
Context {Q : Type} (fill : Q -> nat -> Q * list Z).
Hypothesis fills : forall q n, numbers 4 n (snd (fill q n)).
Lemma one_ok : forall w i N q, In w sizes -> (i < N)%nat -> forall n, words_for (N * Z.to_nat (w / 8)) n ->
  generate_one fill (w / 8) i N q = Ok (fst (fill q n), joined (snd (fill q n)) / 2 ^ (w * Z.of_nat i) mod 2 ^ w).
Proof.
  intros w i N q H I n W. destruct (size_bytes w H) as (D & D8 & WD & HD). rewrite D8 in *. rewrite Nat2Z.id in W.
  destruct (generate_ok fill fills D N q HD) as (n' & dest & W' & E & ND & M).
  assert (n' = n) by (unfold words_for in *; lia). subst n'. unfold generate_one. rewrite E. cbn [obind].
  destruct (fills_word fill fills q n) as (F & L). rewrite memory_joined in M by (try assumption; unfold words_for in W; lia).
  rewrite (dest_values D N dest _ ND M i I). do 2 f_equal. rewrite WD, pow256 by lia. rewrite <- Z.mul_assoc, pow256 by lia. do 2 f_equal. f_equal. lia.
Qed.
Lemma construct_lcg : forall w m c x, In w sizes -> (w = 16 -> m < 2 ^ 15) -> 0 <= m < 2 ^ w -> 0 <= c < 2 ^ w -> 0 <= x < 2 ^ w ->
  construct w false m c x = Ok (((x + c) * m + c) mod 2 ^ w).
Proof.
  intros w m c x H M16 M C X. unfold construct, bump, expr. assert (P : 0 < 2 ^ w) by (apply Z.pow_pos_nonneg; cbn in H; lia). pose proof (Z.mod_pos_bound (x + c) (2 ^ w) P) as B.
  assert (OK : ((w <? 32) && (INT_MAX <? (x + c) mod 2 ^ w * m + c)) = false).
  { destruct (Z.ltb_spec w 32) as [L|L]; [|reflexivity]. apply Z.ltb_ge. cbn in H. destruct H as [<-|[<-|H]]; [| |lia].
    - change (2 ^ 8) with 256 in *. unfold INT_MAX. nia.
    - specialize (M16 eq_refl). change (2 ^ 16) with 65536 in *. change (2 ^ 15) with 32768 in M16. unfold INT_MAX. nia. }
  rewrite OK. f_equal. rewrite Z.add_mod, Z.mul_mod_idemp_l, <- Z.add_mod by lia. reflexivity.
Qed.
Lemma lor3 : forall x, 0 <= x -> Z.lor x 3 = x / 4 * 4 + 3.
Proof.
  intros x H. pose proof (Z.div_mod x 4 ltac:(lia)) as DM. pose proof (Z.mod_pos_bound x 4 ltac:(lia)) as B.
  replace (Z.lor x 3) with (Z.lor 3 (Z.shiftl (x / 4) 2)).
  - rewrite lor_add by lia. lia.
  - apply Z.bits_inj'. intros n N. rewrite !Z.lor_spec. destruct (Z.ltb_spec n 2) as [L|L].
    + assert (n = 0 \/ n = 1) as [->| ->] by lia; [change (Z.testbit 3 0) with true|change (Z.testbit 3 1) with true]; now rewrite orb_true_r.
    + rewrite Z.shiftl_spec by lia. change 4 with (2 ^ 2). rewrite Z.div_pow2_bits by lia. replace (n - 2 + 2) with n by lia. replace (Z.testbit 3 n) with false; [now rewrite orb_false_r|].
      symmetry. change 3 with (3 mod 2 ^ 2). apply Z.mod_pow2_bits_high. lia.
Qed.
Lemma engine_ok : forall w (mcg : bool) m c q n, In w sizes -> (w = 16 -> m < 2 ^ 15) -> 0 <= m < 2 ^ w -> 0 <= c < 2 ^ w -> words_for (Z.to_nat (w / 8)) n ->
  let x := joined (snd (fill q n)) mod 2 ^ w in
  engine_seed fill w mcg m c q = Ok (fst (fill q n), if mcg then x / 4 * 4 + 3 else ((x + c) * m + c) mod 2 ^ w).
Proof.
  intros w mcg m c q n H M16 M C W x. unfold engine_seed. rewrite (one_ok w 0 1 q H ltac:(lia) n) by (rewrite Nat.mul_1_l; exact W). cbn [obind]. rewrite Z.mul_0_r, Z.pow_0_r, Z.div_1_r. fold x.
  assert (B : 0 <= x < 2 ^ w) by (apply Z.mod_pos_bound, Z.pow_pos_nonneg; cbn in H; lia).
  destruct mcg; [unfold construct; rewrite lor3 by lia; reflexivity|]. rewrite construct_lcg by assumption. reflexivity.
Qed.
Lemma stream_inc : forall w y, In w sizes -> 0 <= y < 2 ^ w -> stream_increment w y = (2 * y + 1) mod 2 ^ w.
Proof.
  intros w y H Y. unfold stream_increment. assert (E : 2 ^ w = 2 * 2 ^ (w - 1)) by (rewrite <- Z.pow_succ_r by (cbn in H; lia); f_equal; lia). rewrite E.
  assert (P : 0 < 2 ^ (w - 1)) by (apply Z.pow_pos_nonneg; cbn in H; lia). rewrite (Z.mul_comm y 2), Z.mul_mod_distr_l by lia.
  assert (B := Z.mod_pos_bound y _ P). set (z := y mod 2 ^ (w - 1)) in *. replace (Z.lor (2 * z) 1) with (2 * z + 1).
  - assert (YZ := Z.div_mod y _ (Z.neq_sym _ _ (Z.lt_neq _ _ P))). fold z in YZ. rewrite YZ. replace (2 * (2 ^ (w - 1) * (y / 2 ^ (w - 1)) + z) + 1) with (2 * z + 1 + y / 2 ^ (w - 1) * (2 * 2 ^ (w - 1))) by ring.
    rewrite Z.mod_add by lia. symmetry. apply Z.mod_small. lia.
  - rewrite Z.lor_comm. change (2 * z) with (Z.shiftl z 1) || replace (2 * z) with (Z.shiftl z 1) by (rewrite Z.shiftl_mul_pow2 by lia; lia). rewrite lor_add by lia. rewrite ?Z.shiftl_mul_pow2 by lia. lia.
Qed.
Lemma stream_ok : forall (stream_first : bool) w m q n, In w sizes -> (w = 16 -> m < 2 ^ 15) -> 0 <= m < 2 ^ w -> words_for (2 * Z.to_nat (w / 8)) n ->
  let first := fill q n in let second := fill (fst first) n in
  let x := joined (snd (if stream_first then second else first)) / 2 ^ w mod 2 ^ w in
  let y := joined (snd (if stream_first then first else second)) mod 2 ^ w in
  let c := (2 * y + 1) mod 2 ^ w in
  engine_seed_stream fill stream_first w m q = Ok (fst second, (c, ((x + c) * m + c) mod 2 ^ w)).
Proof.
  intros sf w m q n H M16 M W first second x y c. assert (P : 0 < 2 ^ w) by (apply Z.pow_pos_nonneg; cbn in H; lia).
  assert (X : 0 <= x < 2 ^ w) by (apply Z.mod_pos_bound, P). assert (Y : 0 <= y < 2 ^ w) by (apply Z.mod_pos_bound, P). assert (C : 0 <= c < 2 ^ w) by (apply Z.mod_pos_bound, P).
  unfold engine_seed_stream. destruct sf.
  - rewrite (one_ok w 0 2 q H ltac:(lia) n W). cbn [obind]. rewrite (one_ok w 1 2 _ H ltac:(lia) n W). cbn [obind]. rewrite Z.mul_0_r, Z.pow_0_r, Z.div_1_r. change (w * Z.of_nat 1) with (w * 1). rewrite Z.mul_1_r.
    fold first. fold second. fold x. fold y. rewrite stream_inc by assumption. fold c. rewrite construct_lcg by assumption. reflexivity.
  - rewrite (one_ok w 1 2 q H ltac:(lia) n W). cbn [obind]. rewrite (one_ok w 0 2 _ H ltac:(lia) n W). cbn [obind]. rewrite Z.mul_0_r, Z.pow_0_r, Z.div_1_r. change (w * Z.of_nat 1) with (w * 1). rewrite Z.mul_1_r.
    fold first. fold second. fold x. fold y. rewrite stream_inc by assumption. fold c. rewrite construct_lcg by assumption. reflexivity.
Qed.
End FILL.
