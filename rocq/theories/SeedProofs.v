From Coq Require Import String ZArith Arith Bool Lia List.
From Verif Require Import Common PcgModel PcgSpec PcgProofs PcgTopProofs SeedModel SeedSpec.
Import ListNotations.
Local Open Scope Z_scope.

Definition word (x : Z) : Prop := 0 <= x < 2 ^ 32.
Lemma bytes_length : forall D x, length (bytes_of D x) = D.
Proof. intros. unfold bytes_of. rewrite map_length, seq_length. reflexivity. Qed.
Lemma bytes_split : forall a b x, bytes_of (a + b) x = bytes_of a x ++ bytes_of b (x / 256 ^ Z.of_nat a).
Proof.
  intros a b x. unfold bytes_of. rewrite seq_app, map_app. f_equal. cbn [plus]. rewrite <- (Nat.add_0_r a) at 1.
  assert (H : forall b k, map (fun i => x / 256 ^ Z.of_nat i mod 256) (seq (a + k) b) = map (fun i => x / 256 ^ Z.of_nat a / 256 ^ Z.of_nat i mod 256) (seq k b)).
  { clear b. induction b as [|b IH]; intros k; [reflexivity|]. cbn [seq map]. rewrite plus_n_Sm, IH. f_equal. rewrite Z.div_div by (try apply Z.pow_nonzero; try apply Z.pow_pos_nonneg; lia).
    rewrite <- Z.pow_add_r by lia. now rewrite <- Nat2Z.inj_add. }
  apply H.
Qed.
Lemma bytes_mod : forall a x, bytes_of a (x mod 256 ^ Z.of_nat a) = bytes_of a x.
Proof.
  intros a x. unfold bytes_of. apply map_ext_in. intros i Hi. apply in_seq in Hi.
  replace (Z.of_nat a) with (Z.of_nat i + (1 + (Z.of_nat a - Z.of_nat i - 1))) by lia.
  rewrite !Z.pow_add_r by lia. change (256 ^ 1) with 256.
  assert (P : 0 < 256 ^ Z.of_nat i) by (apply Z.pow_pos_nonneg; lia). assert (P2 : 0 < 256 ^ (Z.of_nat a - Z.of_nat i - 1)) by (apply Z.pow_pos_nonneg; lia).
  rewrite Z.rem_mul_r by lia. rewrite Z.add_comm, Z.mul_comm, Z.div_add_l by lia. rewrite Z.rem_mul_r by lia.
  rewrite (Z.div_small (x mod 256 ^ Z.of_nat i)) by (apply Z.mod_pos_bound; exact P).
  rewrite Z.add_0_r. rewrite Z.mul_comm, Z.mod_add by lia. now rewrite Z.mod_mod by lia.
Qed.
Lemma pow256 : forall D, 0 <= D -> 2 ^ (8 * D) = 256 ^ D.
Proof. intros D H. change 256 with (2 ^ 8). rewrite <- Z.pow_mul_r by lia. reflexivity. Qed.

(** ** Large destinations *)
Lemma lor_add : forall a b k, 0 <= k -> 0 <= a < 2 ^ k -> Z.lor a (Z.shiftl b k) = a + 2 ^ k * b.
Proof.
  intros a b k K A. assert (D : Z.land a (Z.shiftl b k) = 0).
  { apply Z.bits_inj'. intros n N. rewrite Z.land_spec, Z.bits_0. destruct (Z.ltb_spec n k) as [L|L].
    - rewrite Z.shiftl_spec_low by lia. apply andb_false_r.
    - rewrite <- (Z.mod_small a (2 ^ k)) by lia. rewrite Z.mod_pow2_bits_high by lia. reflexivity. }
  rewrite <- Z.lxor_lor by exact D. rewrite <- Z.add_nocarry_lxor by exact D. rewrite Z.shiftl_mul_pow2 by lia. lia.
Qed.
Lemma joined_bound : forall l, Forall word l -> 0 <= joined l < 2 ^ (32 * Z.of_nat (length l)).
Proof.
  induction 1 as [|x l X F IH]; [cbn; lia|]. cbn [joined length]. replace (32 * Z.of_nat (S (length l))) with (32 + 32 * Z.of_nat (length l)) by lia.
  rewrite Z.pow_add_r by lia. unfold word in X. lia.
Qed.
Lemma gather_ok : forall D l r value shift, Forall word l -> 0 <= shift -> shift + 32 * Z.of_nat (length l) <= 8 * D -> 0 <= value < 2 ^ shift ->
  gather D (length l) value shift (l ++ r) = Ok (value + 2 ^ shift * joined l, r).
Proof.
  intros D l r. induction l as [|x l IH]; intros value shift F S B V; cbn [length gather app joined]; [f_equal; f_equal; lia|].
  inversion F as [|? ? X F']; subst. cbn [length] in B. rewrite (Z.mod_small (Z.shiftl x shift)).
  - rewrite lor_add by lia. rewrite IH; try assumption; try lia.
    + f_equal. f_equal. rewrite Z.pow_add_r by lia. lia.
    + rewrite Z.pow_add_r by lia. unfold word in X. nia.
  - rewrite Z.shiftl_mul_pow2 by lia. unfold word in X. split; [nia|]. apply Z.lt_le_trans with (2 ^ (32 + shift)); [rewrite Z.pow_add_r by lia; nia|apply Z.pow_le_mono_r; lia].
Qed.
Lemma joined_bytes : forall l, Forall word l -> bytes_of (4 * length l) (joined l) = memory 4 l.
Proof.
  induction 1 as [|x l X F IH]; [reflexivity|]. cbn [length joined memory flat_map]. replace (4 * S (length l))%nat with (4 + 4 * length l)%nat by lia.
  rewrite bytes_split. change (256 ^ Z.of_nat 4) with (2 ^ 32). unfold word in X. f_equal.
  - rewrite <- bytes_mod. change (256 ^ Z.of_nat 4) with (2 ^ 32). rewrite (Z.mul_comm (2 ^ 32)), Z.mod_add by lia. now rewrite Z.mod_small.
  - rewrite (Z.mul_comm (2 ^ 32)), Z.div_add by lia. rewrite Z.div_small by lia. exact IH.
Qed.
Lemma copy_large_ok : forall k size src r, (0 < k)%nat -> Forall word src -> length src = (size * k)%nat ->
  exists dest, copy_large (4 * Z.of_nat k) size (src ++ r) = Ok dest /\ numbers (4 * k) size dest /\ memory (4 * k) dest = memory 4 src.
Proof.
  intros k size. induction size as [|size IH]; intros src r K F L.
  - destruct src; [|discriminate]. exists []. repeat split; constructor.
  - cbn [copy_large]. replace ((4 * Z.of_nat k + 4 - 1) / 4) with (Z.of_nat k) by (apply (Z.div_unique _ 4 _ 3); lia). rewrite Nat2Z.id.
    assert (SP : exists a b, src = a ++ b /\ length a = k) by (exists (firstn k src), (skipn k src); rewrite firstn_skipn, firstn_length; split; [reflexivity|lia]).
    destruct SP as (a & b & -> & La). rewrite app_length in L.
    apply Forall_app in F as [Fa Fb]. rewrite <- app_assoc. pose proof (gather_ok (4 * Z.of_nat k) a (b ++ r) 0 0 Fa ltac:(lia) ltac:(lia) ltac:(cbn; lia)) as G. rewrite La in G. rewrite G. cbn [obind]. rewrite Z.pow_0_r, Z.mul_1_l, Z.add_0_l.
    destruct (IH b r K Fb ltac:(lia)) as (dest & E & (N1 & N2) & M). rewrite E. cbn [obind]. exists (joined a :: dest). split; [reflexivity|]. split.
    + split; [cbn; now rewrite N1|]. constructor; [|exact N2]. pose proof (joined_bound a Fa) as J. rewrite La in J. rewrite Nat2Z.inj_mul, <- pow256 by lia. replace (8 * (Z.of_nat 4 * Z.of_nat k)) with (32 * Z.of_nat k) by lia. exact J.
    + cbn [memory flat_map]. fold (memory (4 * k) dest). rewrite M. unfold memory at 2. rewrite flat_map_app. f_equal. rewrite <- La. now apply joined_bytes.
Qed.

(** ** Small destinations *)
Definition left_over (D j : nat) (value : Z) : list Z := if (j =? 0)%nat then [] else bytes_of (4 - j * D) (value / 256 ^ Z.of_nat D).
Lemma memory_cons : forall D x l, memory D (x :: l) = bytes_of D x ++ memory D l.
Proof. reflexivity. Qed.
Lemma firstn_app_exact : forall {A} (a b : list A) n m, length a = n -> firstn (n + m) (a ++ b) = a ++ firstn m b.
Proof. intros A a b n m <-. apply firstn_app_2. Qed.
Lemma byte_bits : forall D x, 0 <= x -> x mod 2 ^ (8 * Z.of_nat D) = x mod 256 ^ Z.of_nat D /\ Z.shiftr x (8 * Z.of_nat D) = x / 256 ^ Z.of_nat D.
Proof. intros D x H. rewrite Z.shiftr_div_pow2 by lia. rewrite pow256 by lia. auto. Qed.
Lemma copy_small_ok : forall D k, (k * D = 4)%nat -> (1 < k)%nat -> forall size j count value src, Z.of_nat j = count mod Z.of_nat k -> 0 <= count -> 0 <= value -> Forall word src ->
  (size * D <= length (left_over D j value) + 4 * length src)%nat ->
  exists dest, copy_small (Z.of_nat D) size count value src = Ok dest /\ numbers D size dest /\ memory D dest = firstn (size * D) (left_over D j value ++ memory 4 src).
Proof.
  intros D k KD K size. assert (DP : (0 < D)%nat) by (destruct D; lia). assert (SC : 4 / Z.of_nat D = Z.of_nat k) by (symmetry; apply (Z.div_unique _ _ _ 0); lia).
  assert (PP : 0 < 256 ^ Z.of_nat D) by (apply Z.pow_pos_nonneg; lia).
  induction size as [|size IH]; intros j count value src J C V F L; [exists []; repeat split; constructor|].
  cbn [copy_small]. rewrite SC. destruct (Z.eqb_spec (count mod Z.of_nat k) 0) as [E|E].
  - assert (j = 0)%nat by lia. subst j. cbn [left_over Nat.eqb length app] in *. destruct src as [|x src]; [cbn in L; lia|]. inversion F as [|? ? X F']; subst. cbn [obind].
    assert (X0 : 0 <= x) by (unfold word in X; lia). destruct (byte_bits D x X0) as (BM & _).
    assert (LO : left_over D 1 x = bytes_of (4 - D) (x / 256 ^ Z.of_nat D)) by (cbn [left_over Nat.eqb]; now rewrite Nat.mul_1_l).
    assert (C1 : Z.of_nat 1 = (count + 1) mod Z.of_nat k) by (rewrite Z.add_mod, E, Z.add_0_l, Z.mod_mod by lia; symmetry; apply Z.mod_small; lia).
    destruct (IH 1%nat (count + 1) x src C1 ltac:(lia) X0 F') as (dest & Ed & (N1 & N2) & M).
    { rewrite LO, bytes_length. cbn [length] in L. lia. }
    rewrite Ed. cbn [obind]. exists (x mod 2 ^ (8 * Z.of_nat D) :: dest). split; [reflexivity|]. rewrite BM. split.
    + split; [cbn; now rewrite N1|]. constructor; [apply Z.mod_pos_bound; exact PP|exact N2].
    + rewrite !memory_cons, bytes_mod, M, LO. assert (B4 : bytes_of 4 x = bytes_of D x ++ bytes_of (4 - D) (x / 256 ^ Z.of_nat D)) by (rewrite <- bytes_split; f_equal; lia). rewrite B4, <- app_assoc. cbn [Nat.mul]. now rewrite firstn_app_exact by apply bytes_length.
  - destruct j as [|j]; [lia|]. assert (JK : (S j < k)%nat) by (pose proof (Z.mod_pos_bound count (Z.of_nat k) ltac:(lia)); lia). cbn [obind].
    unfold left_over in L |- *. cbn [Nat.eqb] in *. rewrite bytes_length in L.
    destruct (byte_bits D value V) as (_ & BS). rewrite BS. set (v := value / 256 ^ Z.of_nat D) in *. assert (V0 : 0 <= v) by (apply Z.div_pos; lia).
    destruct (byte_bits D v V0) as (BM & _).
    assert (SPL : bytes_of (4 - S j * D) v = bytes_of D v ++ left_over D (if (S (S j) =? k)%nat then 0 else S (S j)) v).
    { replace (4 - S j * D)%nat with (D + (4 - S (S j) * D))%nat by nia. rewrite bytes_split. f_equal. destruct (Nat.eqb_spec (S (S j)) k) as [->|NE]; [|reflexivity]. rewrite KD. reflexivity. }
    assert (C1 : Z.of_nat (if (S (S j) =? k)%nat then 0 else S (S j)) = (count + 1) mod Z.of_nat k).
    { rewrite Z.add_mod, <- J by lia. rewrite (Z.mod_small 1) by lia. destruct (Nat.eqb_spec (S (S j)) k) as [<-|NE].
      - replace (Z.of_nat (S j) + 1) with (1 * Z.of_nat (S (S j))) by lia. now rewrite Z.mod_mul by lia.
      - rewrite Z.mod_small by lia. lia. }
    destruct (IH _ (count + 1) v src C1 ltac:(lia) V0 F) as (dest & Ed & (N1 & N2) & M).
    { apply (f_equal (@length Z)) in SPL. rewrite app_length, !bytes_length in SPL. lia. }
    rewrite Ed. cbn [obind]. exists (v mod 2 ^ (8 * Z.of_nat D) :: dest). split; [reflexivity|]. rewrite BM. split.
    + split; [cbn; now rewrite N1|]. constructor; [apply Z.mod_pos_bound; exact PP|exact N2].
    + rewrite memory_cons, bytes_mod, M, SPL, <- app_assoc. cbn [Nat.mul]. now rewrite firstn_app_exact by apply bytes_length.
Qed.
Lemma memory_length : forall D l, length (memory D l) = (length l * D)%nat.
Proof. intros D l. induction l as [|x l IH]; [reflexivity|]. rewrite memory_cons, app_length, bytes_length, IH. reflexivity. Qed.

(** ** Filling a table *)
Section FILL.
Context {Q : Type} (fill : Q -> nat -> Q * list Z).
Hypothesis fills : forall q n, numbers 4 n (snd (fill q n)).
Lemma fills_word : forall q n, Forall word (snd (fill q n)) /\ length (snd (fill q n)) = n.
Proof. intros q n. destruct (fills q n) as [L F]. split; [exact F|exact L]. Qed.
Lemma generate_ok : forall D size q, In D [1; 2; 4; 8; 16]%nat -> exists n dest, words_for (size * D) n /\
  generate_to fill (Z.of_nat D) size q = Ok (fst (fill q n), dest) /\ numbers D size dest /\
  memory D dest = firstn (size * D) (memory 4 (snd (fill q n))).
Proof.
  intros D size q H. assert (SM : forall k, (k * D = 4)%nat -> (1 < k)%nat -> exists n dest, words_for (size * D) n /\
    generate_to fill (Z.of_nat D) size q = Ok (fst (fill q n), dest) /\ numbers D size dest /\ memory D dest = firstn (size * D) (memory 4 (snd (fill q n)))).
  { intros k KD K. exists (from_elems (Z.of_nat D) size). set (n := from_elems (Z.of_nat D) size).
    assert (W : words_for (size * D) n).
    { unfold n, from_elems, words_for. destruct (Z.ltb_spec 4 (Z.of_nat D)) as [X|X]; [nia|]. replace (4 / Z.of_nat D) with (Z.of_nat k) by (apply (Z.div_unique _ _ _ 0); lia).
      rewrite Z.add_0_r. pose proof (Z.div_mod (Z.of_nat size + Z.of_nat k - 1) (Z.of_nat k) ltac:(lia)) as DM. pose proof (Z.mod_pos_bound (Z.of_nat size + Z.of_nat k - 1) (Z.of_nat k) ltac:(lia)) as MB.
      assert (0 <= (Z.of_nat size + Z.of_nat k - 1) / Z.of_nat k) by (apply Z.div_pos; lia). set (z := (Z.of_nat size + Z.of_nat k - 1) / Z.of_nat k) in *. set (md := (Z.of_nat size + Z.of_nat k - 1) mod Z.of_nat k) in *. clearbody z md.
      assert (Q4 : Z.of_nat (4 * Z.to_nat z) = Z.of_nat D * (Z.of_nat k * z)) by (rewrite <- KD; rewrite !Nat2Z.inj_mul, Z2Nat.id by lia; ring).
      assert (Q5 : Z.of_nat (size * D) = Z.of_nat D * (Z.of_nat k * z + md + 1 - Z.of_nat k)) by (rewrite Nat2Z.inj_mul; replace (Z.of_nat k * z + md + 1 - Z.of_nat k) with (Z.of_nat size) by lia; ring).
      assert (Q6 : Z.of_nat k * Z.of_nat D = 4) by lia. assert (DP : 0 < Z.of_nat D) by nia. nia. }
    destruct (fills_word q n) as (F & L). destruct (copy_small_ok D k KD K size 0 0 0 (snd (fill q n))) as (dest & E & N & M); [rewrite Z.mod_0_l; lia|lia|lia|exact F| |].
    { cbn [left_over Nat.eqb length]. rewrite L. unfold words_for in W. lia. }
    exists dest. split; [exact W|]. split; [|split; [exact N|exact M]]. unfold generate_to. destruct (Z.eqb_spec (Z.of_nat D) 4) as [X|X]; [nia|]. fold n. rewrite (surjective_pairing (fill q n)).
    unfold uneven_copy. destruct (Z.ltb_spec (Z.of_nat D) 4) as [Y|Y]; [|nia]. rewrite E. reflexivity. }
  assert (LG : forall k, D = (4 * k)%nat -> (1 < k)%nat -> exists n dest, words_for (size * D) n /\
    generate_to fill (Z.of_nat D) size q = Ok (fst (fill q n), dest) /\ numbers D size dest /\ memory D dest = firstn (size * D) (memory 4 (snd (fill q n)))).
  { intros k -> K. exists (from_elems (Z.of_nat (4 * k)) size). set (n := from_elems (Z.of_nat (4 * k)) size).
    assert (N : n = (size * k)%nat).
    { unfold n, from_elems. destruct (Z.ltb_spec 4 (Z.of_nat (4 * k))) as [X|X]; [|lia]. replace ((Z.of_nat (4 * k) + 4 - 1) / 4) with (Z.of_nat k) by (apply (Z.div_unique _ 4 _ 3); lia). lia. }
    destruct (fills_word q n) as (F & L). destruct (copy_large_ok k size (snd (fill q n)) []) as (dest & E & NN & M); [lia|exact F|lia|].
    exists dest. split; [unfold words_for; lia|]. split; [|split; [exact NN|]].
    - unfold generate_to. destruct (Z.eqb_spec (Z.of_nat (4 * k)) 4) as [X|X]; [lia|]. fold n. rewrite (surjective_pairing (fill q n)).
      unfold uneven_copy. destruct (Z.ltb_spec (Z.of_nat (4 * k)) 4) as [Y|Y]; [lia|]. rewrite app_nil_r in E. replace (Z.of_nat (4 * k)) with (4 * Z.of_nat k) by lia. rewrite E. reflexivity.
    - rewrite M. rewrite firstn_all2; [reflexivity|]. rewrite memory_length, L. lia. }
  cbn in H. destruct H as [<-|[<-|[<-|[<-|[<-|[]]]]]]; [apply (SM 4%nat); lia|apply (SM 2%nat); lia| |apply (LG 2%nat); lia|apply (LG 4%nat); lia].
  exists size, (snd (fill q size)). split; [unfold words_for; lia|]. unfold generate_to. cbn [Z.of_nat Z.eqb]. destruct (fills q size) as (L & F).
  split; [change (Z.of_nat 4 =? 4) with true; now rewrite <- surjective_pairing|]. split; [split; assumption|].
  rewrite firstn_all2; [reflexivity|]. rewrite memory_length. lia.
Qed.
End FILL.
