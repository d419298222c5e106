(** Lemmas about the MD5 model. *)
From Coq Require Import String Ascii ZArith NArith Arith Bool Lia List.
From Coq Require Import ZifyBool ZifyNat ZifyN.
From Verif Require Import Common MD5Model MD5Spec.
Import ListNotations.
Local Open Scope N_scope.
Ltac Zify.zify_post_hook ::= Z.div_mod_to_equations.

Lemma pow32 : 2 ^ 32 = 4294967296. Proof. reflexivity. Qed.

Lemma not32_wnot : forall x, x < 4294967296 -> not32 x = wnot x.
Proof.
  intros x H. unfold not32, wnot, W.
  change 4294967295 with (N.ones 32).
  change (N.lxor x (N.ones 32)) with (N.lnot x 32).
  destruct (N.eq_dec x 0) as [->|Hx]; [reflexivity|].
  rewrite N.lnot_sub_low.
  - reflexivity.
  - apply N.log2_lt_pow2; [lia|]. rewrite pow32. exact H.
Qed.

Lemma lor_disjoint_add : forall a b n, a < 2 ^ n -> N.lor a (b * 2 ^ n) = a + b * 2 ^ n.
Proof.
  intros a b n H.
  assert (L : N.land a (b * 2 ^ n) = 0).
  { apply N.bits_inj. intros i. rewrite N.land_spec, N.bits_0.
    destruct (N.lt_ge_cases i n) as [Hi|Hi].
    - rewrite N.mul_pow2_bits_low by exact Hi. apply andb_false_r.
    - destruct (N.eq_dec a 0) as [->|Ha]; [rewrite N.bits_0; reflexivity|].
      rewrite (N.bits_above_log2 a i); [reflexivity|].
      apply N.lt_le_trans with n; [|exact Hi].
      apply N.log2_lt_pow2; [lia|exact H]. }
  rewrite N.add_nocarry_lxor by exact L. rewrite N.lxor_lor by exact L. reflexivity.
Qed.

Lemma rotate_rotl : forall x n, x < 4294967296 -> 0 < n -> n < 32 ->
  ROTATE_LEFT x n = rotl x n.
Proof.
  intros x n Hx H0 H1. unfold ROTATE_LEFT, rotl, M32, W.
  rewrite N.shiftl_mul_pow2, N.shiftr_div_pow2.
  assert (E : 4294967296 = 2 ^ (32 - n) * 2 ^ n).
  { rewrite <- N.pow_add_r. replace (32 - n + n) with 32 by lia. reflexivity. }
  assert (P1 : 2 ^ n <> 0) by (apply N.pow_nonzero; lia).
  assert (P2 : 2 ^ (32 - n) <> 0) by (apply N.pow_nonzero; lia).
  rewrite E. rewrite N.mul_mod_distr_r by assumption.
  rewrite N.lor_comm, lor_disjoint_add.
  - apply N.add_comm.
  - apply N.div_lt_upper_bound; [assumption|]. rewrite <- E. exact Hx.
Qed.

Lemma Decode_words : forall l, Forall (fun b => b < 256) l -> Decode l = words l.
Proof.
  fix IH 1. intros [|b0 [|b1 [|b2 [|b3 r]]]] H; try reflexivity.
  cbn [Decode words].
  inversion H as [|? ? H0 H']; subst. inversion H' as [|? ? H1 H'']; subst.
  inversion H'' as [|? ? H2 H''']; subst. inversion H''' as [|? ? H3 H4]; subst.
  rewrite (IH r H4). f_equal.
  rewrite !N.shiftl_mul_pow2. unfold M32.
  change (2 ^ 8) with 256. change (2 ^ 16) with 65536. change (2 ^ 24) with 16777216.
  rewrite !N.mod_small by lia.
  change 256 with (2 ^ 8) at 1. rewrite lor_disjoint_add by (change (2 ^ 8) with 256; lia).
  change (2 ^ 8) with 256.
  change 65536 with (2 ^ 16) at 1. rewrite lor_disjoint_add by (change (2 ^ 16) with 65536; lia).
  change (2 ^ 16) with 65536.
  change 16777216 with (2 ^ 24) at 1. rewrite lor_disjoint_add by (change (2 ^ 24) with 16777216; lia).
  change (2 ^ 24) with 16777216. lia.
Qed.

Lemma Encode1 : forall w, [ N.land w 0xff; N.land (N.shiftr w 8) 0xff;
                       N.land (N.shiftr w 16) 0xff; N.land (N.shiftr w 24) 0xff ] = le_bytes 4 w.
Proof.
  intros w. cbn [le_bytes].
  change 0xff with (N.ones 8). rewrite !N.land_ones, !N.shiftr_div_pow2.
  rewrite !N.div_div by lia. reflexivity.
Qed.

Lemma Encode_le : forall l, Encode l = flat_map (le_bytes 4) l.
Proof.
  intros l. unfold Encode. induction l as [|w l IH]; [reflexivity|].
  cbn [flat_map]. rewrite IH, Encode1. reflexivity.
Qed.

(** ** The compression function. *)
Definition bnd (v : regs) : Prop :=
  let '(a, b, c, d) := v in a < W /\ b < W /\ c < W /\ d < W.

Lemma add32_lt : forall x y, add32 x y < W.
Proof. intros. unfold add32, M32, W. apply N.mod_lt. lia. Qed.

Definition opf (r : round) : N -> N -> N -> N :=
  match r with FF => auxF | GG => auxG | HH => auxH | II => auxI end.

Lemma mix_aux : forall r x y z, x < W -> y < W -> z < W -> mixfun r x y z = opf r x y z.
Proof.
  intros r x y z Hx Hy Hz. destruct r; cbn [mixfun opf].
  - unfold mF, auxF. rewrite not32_wnot by exact Hx. reflexivity.
  - unfold mG, auxG. rewrite not32_wnot by exact Hz. reflexivity.
  - unfold mH, auxH. apply N.lxor_assoc.
  - unfold mI, auxI. rewrite not32_wnot by exact Hz. reflexivity.
Qed.

(** Register arguments of step i, by i mod 4. *)
Definition rot (i : nat) : reg * reg * reg * reg :=
  match (i mod 4)%nat with
  | 0%nat => (Ra, Rb, Rc, Rd) | 1%nat => (Rd, Ra, Rb, Rc)
  | 2%nat => (Rc, Rd, Ra, Rb) | _ => (Rb, Rc, Rd, Ra)
  end.
Definition view (i : nat) (v : regs) : N * N * N * N :=
  let '(p, q, r, s) := rot i in (getr v p, getr v q, getr v r, getr v s).

Definition round_of (i : nat) : round :=
  match (i / 16)%nat with 0%nat => FF | 1%nat => GG | 2%nat => HH | _ => II end.

Definition expected (i : nat) : instr :=
  let '(p, q, r, s) := rot i in
  mkI (round_of i) p q r s (step_word i) (step_shift i) (nth i Ttable 0).

Lemma program_expected : program = map expected (seq 0 64).
Proof. vm_compute. reflexivity. Qed.

Lemma step_fun_opf : forall i, step_fun i = opf (round_of i).
Proof.
  intros i. unfold step_fun, round_of. destruct (i / 16)%nat as [|[|[|]]]; reflexivity.
Qed.

Lemma step_shift_range : forall i, 0 < step_shift i /\ step_shift i < 32.
Proof.
  intros i. unfold step_shift.
  assert (H : (i mod 4 < 4)%nat) by (apply Nat.mod_upper_bound; lia).
  destruct (i / 16)%nat as [|[|[|]]];
    (destruct (i mod 4)%nat as [|[|[|[|k]]]]; [cbn; lia ..| lia]).
Qed.

Lemma sum_eq : forall a f x t, add32 a (add32 (add32 f x) t) = wadd (wadd (wadd a f) x) t.
Proof.
  intros. unfold add32, wadd, M32, W.
  replace ((a + ((f + x) mod 4294967296 + t) mod 4294967296) mod 4294967296)
    with ((a + f + x + t) mod 4294967296).
  - rewrite (N.add_mod_idemp_l _ t) by lia.
    replace ((a + f) mod 4294967296 + x + t) with ((a + f) mod 4294967296 + (x + t)) by lia.
    rewrite N.add_mod_idemp_l by lia. f_equal. lia.
  - rewrite N.add_mod_idemp_r by lia.
    replace (a + ((f + x) mod 4294967296 + t)) with ((f + x) mod 4294967296 + (t + a)) by lia.
    rewrite N.add_mod_idemp_l by lia. f_equal. lia.
Qed.

Lemma getr_bnd : forall v r, bnd v -> getr v r < W.
Proof. intros [[[a b] c] d] r (?&?&?&?). destruct r; assumption. Qed.

Lemma setr_bnd : forall v r x, bnd v -> x < W -> bnd (setr v r x).
Proof.
  intros [[[a b] c] d] r x (?&?&?&?) Hx. destruct r; cbn; auto.
Qed.

Lemma exec_bnd : forall X v i, bnd v -> bnd (exec X v i).
Proof. intros. unfold exec. apply setr_bnd; [assumption|apply add32_lt]. Qed.

Lemma exec_step : forall X v i, bnd v ->
  view (S i) (exec X v (expected i)) = md5_step X (view i v) i.
Proof.
  intros X v i Hb.
  assert (Hm : (i mod 4 < 4)%nat) by (apply Nat.mod_upper_bound; lia).
  assert (HS : (S i mod 4 = (i mod 4 + 1) mod 4)%nat).
  { rewrite Nat.add_mod_idemp_l by lia. f_equal. lia. }
  pose proof (step_shift_range i) as [Hs0 Hs1].
  unfold md5_step, view, exec, expected, rot. rewrite HS. rewrite step_fun_opf.
  destruct v as [[[a b] c] d]. destruct Hb as (Ha & Hb & Hc & Hd).
  destruct (i mod 4)%nat as [|[|[|[|k]]]]; [| | | | lia];
    cbn [Nat.add Nat.modulo Nat.divmod fst snd Nat.sub i_op i_a i_b i_c i_d i_k i_s i_ac getr setr];
    rewrite mix_aux by assumption; rewrite sum_eq;
    rewrite rotate_rotl by (assumption || (unfold wadd; apply N.mod_lt; unfold W; lia));
    (f_equal; f_equal; f_equal; unfold add32, wadd, M32, W; f_equal; apply N.add_comm).
Qed.

Lemma fold_exec_bnd : forall X l v, bnd v -> bnd (fold_left (exec X) l v).
Proof.
  induction l as [|i l IH]; intros v H; [exact H|]. cbn [fold_left]. apply IH, exec_bnd, H.
Qed.

Lemma fold_exec_step : forall X n k v, bnd v ->
  view (k + n) (fold_left (exec X) (map expected (seq k n)) v) =
  fold_left (md5_step X) (seq k n) (view k v).
Proof.
  induction n as [|n IH]; intros k v Hb.
  - cbn. rewrite Nat.add_0_r. reflexivity.
  - cbn [seq map fold_left]. replace (k + S n)%nat with (S k + n)%nat by lia.
    rewrite IH by (apply exec_bnd; exact Hb). rewrite exec_step by exact Hb. reflexivity.
Qed.

Lemma transform_compress : forall v block, bnd v -> Forall (fun b => b < 256) block ->
  MD5Transform v block = compress v (words block).
Proof.
  intros v block Hb Hl. unfold MD5Transform, compress.
  rewrite Decode_words by exact Hl.
  pose proof (fold_exec_step (words block) 64 0 v Hb) as H.
  rewrite <- program_expected in H. cbn [Nat.add] in H.
  assert (V : forall v, view 0 v = v) by (intros [[[? ?] ?] ?]; reflexivity).
  assert (V' : forall v, view 64 v = v) by (intros [[[? ?] ?] ?]; reflexivity).
  rewrite V, V' in H. destruct v as [[[a b] c] d]. rewrite H.
  destruct (fold_left (md5_step (words block)) (seq 0 64) (a, b, c, d)) as [[[a' b'] c'] d'].
  reflexivity.
Qed.

Lemma transform_bnd : forall v block, bnd (MD5Transform v block).
Proof.
  intros [[[a b] c] d] block. unfold MD5Transform.
  destruct (fold_left _ _ _) as [[[a' b'] c'] d']. cbn. repeat split; apply add32_lt.
Qed.

(** ** Blocks. *)
Lemma chop_app : forall q l l', length l = (64 * q)%nat ->
  forall k, chop (q + k) (l ++ l') = chop q l ++ chop k l'.
Proof.
  induction q as [|q IH]; intros l l' H k.
  - destruct l; [reflexivity|cbn in H; lia].
  - cbn [Nat.add chop app]. 
    rewrite firstn_app, skipn_app.
    replace (64 - length l)%nat with 0%nat by lia.
    rewrite firstn_O, skipn_O, app_nil_r. f_equal.
    apply IH. rewrite skipn_length. lia.
Qed.

Lemma blocks_app : forall q l l', length l = (64 * q)%nat ->
  blocks (l ++ l') = blocks l ++ blocks l'.
Proof.
  intros q l l' H. unfold blocks. rewrite app_length, H.
  replace (64 * q + length l')%nat with (q * 64 + length l')%nat by lia.
  rewrite Nat.div_add_l by lia.
  replace (64 * q / 64)%nat with q
    by (rewrite Nat.mul_comm, Nat.div_mul; lia).
  apply chop_app. exact H.
Qed.

Lemma blocks_short : forall l, (length l < 64)%nat -> blocks l = [].
Proof. intros l H. unfold blocks. rewrite Nat.div_small by exact H. reflexivity. Qed.

Lemma blocks_one : forall l, length l = 64%nat -> blocks l = [l].
Proof.
  intros l H. unfold blocks. rewrite H. change (64 / 64)%nat with 1%nat. cbn [chop].
  rewrite <- H, firstn_all. reflexivity.
Qed.

Definition absorb (v : regs) (l : list N) : regs := fold_left MD5Transform (blocks l) v.

Lemma absorb_app : forall q v l l', length l = (64 * q)%nat ->
  absorb v (l ++ l') = absorb (absorb v l) l'.
Proof. intros. unfold absorb. rewrite (blocks_app q) by assumption. apply fold_left_app. Qed.

Lemma absorb_one : forall v l, length l = 64%nat -> absorb v l = MD5Transform v l.
Proof. intros. unfold absorb. rewrite blocks_one by assumption. reflexivity. Qed.

Lemma absorb_short : forall v l, (length l < 64)%nat -> absorb v l = v.
Proof. intros. unfold absorb. rewrite blocks_short by assumption. reflexivity. Qed.

Definition isbyte (b : N) : Prop := b < 256.

Lemma Forall_firstn' : forall {A} (P : A -> Prop) n l, Forall P l -> Forall P (firstn n l).
Proof.
  intros A P n. induction n as [|n IH]; intros l H; [constructor|].
  destruct H; constructor; auto.
Qed.
Lemma Forall_skipn' : forall {A} (P : A -> Prop) n l, Forall P l -> Forall P (skipn n l).
Proof.
  intros A P n. induction n as [|n IH]; intros l H; [exact H|].
  destruct H; [constructor|cbn; auto].
Qed.

Lemma chop_bytes : forall k l, Forall isbyte l -> Forall (Forall isbyte) (chop k l).
Proof.
  induction k as [|k IH]; intros l H; constructor.
  - apply Forall_firstn'. exact H.
  - apply IH, Forall_skipn', H.
Qed.

Lemma fold_transform : forall bs v, bnd v -> Forall (Forall isbyte) bs ->
  fold_left MD5Transform bs v = fold_left compress (map words bs) v.
Proof.
  induction bs as [|b bs IH]; intros v Hb H; [reflexivity|].
  inversion H; subst. cbn [fold_left map].
  rewrite <- transform_compress by assumption. apply IH; [apply transform_bnd|assumption].
Qed.

(** ** Streaming. *)
Definition IV : regs := (0x67452301, 0xefcdab89, 0x98badcfe, 0x10325476).

Definition rep (ctx : MD5_CTX) (m : list N) : Prop :=
  exists full tail q,
    m = full ++ tail /\ length full = (64 * q)%nat /\ (length tail < 64)%nat /\
    state ctx = absorb IV full /\
    firstn (length tail) (buffer ctx) = tail /\ length (buffer ctx) = 64%nat /\
    count0 ctx < M32 /\ count1 ctx < M32 /\
    (count0 ctx + M32 * count1 ctx) = (8 * N.of_nat (length m)) mod 18446744073709551616.

Lemma index_of_rep : forall ctx m, rep ctx m ->
  N.land (N.shiftr (count0 ctx) 3) 0x3F = N.of_nat (length m) mod 64.
Proof.
  intros ctx m (full & tail & q & Hm & Hf & Ht & Hs & Hbuf & Hlen & Hc0 & Hc1 & Hc).
  change 0x3F with (N.ones 6). rewrite N.land_ones, N.shiftr_div_pow2.
  change (2 ^ 3) with 8. change (2 ^ 6) with 64. unfold M32 in *. lia.
Qed.

Lemma mid_loop_ok : forall fuel st i rest inputLen t,
  i + N.of_nat (length rest) = inputLen -> inputLen + t < 4294967296 ->
  t < 64 -> (i + t) mod 64 = 0 ->
  (length rest < fuel)%nat ->
  exists q r, rest = q ++ r /\ (length r < 64)%nat /\ (exists k, length q = (64 * k)%nat) /\
    mid_loop fuel st i inputLen rest = Ok (absorb st q, i + N.of_nat (length q), r).
Proof.
  induction fuel as [|fuel IH]; intros st i rest inputLen t Hi Hl Ht Hit Hf; [lia|].
  cbn [mid_loop]. rewrite (N.mod_small (i + 63)) by (unfold M32; lia).
  destruct (N.ltb_spec (i + 63) inputLen) as [H|H].
  - destruct (Nat.ltb_spec (length rest) 64) as [H'|H']; [lia|].
    assert (Hsk : length (skipn 64 rest) = (length rest - 64)%nat) by apply skipn_length.
    assert (Hfi : length (firstn 64 rest) = 64%nat) by (rewrite firstn_length; lia).
    rewrite N.mod_small by (unfold M32; lia).
    destruct (IH (MD5Transform st (firstn 64 rest)) (i + 64) (skipn 64 rest) inputLen t)
      as (q & r & E & Hr & (k & Hk) & Heq); [lia|lia|lia|lia|lia|].
    exists (firstn 64 rest ++ q), r. repeat split.
    + rewrite <- app_assoc, <- E. symmetry. apply firstn_skipn.
    + exact Hr.
    + exists (S k). rewrite app_length, Hfi, Hk. lia.
    + rewrite Heq. rewrite (absorb_app 1) by (rewrite Hfi; reflexivity).
      rewrite (absorb_one st _ Hfi). rewrite app_length, Hfi.
      f_equal. f_equal. f_equal. lia.
  - exists [], rest. repeat split.
    + lia.
    + exists 0%nat. reflexivity.
    + rewrite absorb_short by (cbn; lia). cbn [length N.of_nat]. rewrite N.add_0_r. reflexivity.
Qed.

Lemma memcpy_ok : forall buf index src, length buf = 64%nat ->
  N.of_nat (length src) + index <= 64 ->
  exists buf', memcpy_buf buf index src = Some buf' /\ length buf' = 64%nat /\
    firstn (N.to_nat index + length src) buf' = firstn (N.to_nat index) buf ++ src.
Proof.
  intros buf index src Hb Hs. unfold memcpy_buf. rewrite Hb.
  rewrite (proj2 (N.leb_le _ _)) by (cbn; lia).
  eexists. split; [reflexivity|].
  assert (L1 : length (firstn (N.to_nat index) buf) = N.to_nat index)
    by (rewrite firstn_length; lia).
  split.
  - rewrite !app_length, L1, skipn_length. lia.
  - rewrite app_assoc. rewrite firstn_app.
    rewrite app_length, L1.
    replace (N.to_nat index + length src - (N.to_nat index + length src))%nat with 0%nat by lia.
    cbn [firstn]. rewrite app_nil_r. apply firstn_all2. rewrite app_length, L1. lia.
Qed.

Lemma count_update : forall c0 c1 n len,
  c0 < M32 -> c1 < M32 -> len < M32 ->
  c0 + M32 * c1 = (8 * n) mod 18446744073709551616 ->
  let bits := N.shiftl len 3 mod M32 in
  let c0' := add32 c0 bits in
  let c1' := add32 (if c0' <? bits then add32 c1 1 else c1) (N.shiftr len 29) in
  c0' < M32 /\ c1' < M32 /\
  c0' + M32 * c1' = (8 * (n + len)) mod 18446744073709551616.
Proof.
  intros c0 c1 n len H0 H1 Hl Hc. cbv zeta.
  rewrite N.shiftl_mul_pow2, N.shiftr_div_pow2. change (2 ^ 3) with 8.
  change (2 ^ 29) with 536870912.
  split; [apply add32_lt|]. split; [apply add32_lt|].
  unfold add32, M32 in *.
  destruct (N.ltb_spec ((c0 + (len * 8) mod 4294967296) mod 4294967296) ((len * 8) mod 4294967296));
    lia.
Qed.

Lemma update_rep : forall ctx m input,
  rep ctx m -> N.of_nat (length m) mod 64 + N.of_nat (length input) < 4294967296 ->
  exists ctx', MD5Update ctx input (N.of_nat (length input)) = Ok ctx' /\ rep ctx' (m ++ input).
Proof.
  intros ctx m input Hrep Hlen.
  pose proof (index_of_rep _ _ Hrep) as Hidx.
  destruct Hrep as (full & tail & q & Hm & Hf & Ht & Hs & Hbuf & Hbl & Hc0 & Hc1 & Hc).
  assert (Hidx' : N.of_nat (length m) mod 64 = N.of_nat (length tail)).
  { rewrite Hm, app_length, Hf. lia. }
  unfold MD5Update. rewrite Hidx, Hidx'.
  pose proof (count_update (count0 ctx) (count1 ctx) (N.of_nat (length m))
                (N.of_nat (length input)) Hc0 Hc1 ltac:(unfold M32; lia) Hc) as (HC0 & HC1 & HC).
  replace (N.of_nat (length m) + N.of_nat (length input))
    with (N.of_nat (length (m ++ input))) in HC by (rewrite app_length; lia).
  set (c0' := add32 (count0 ctx) (N.shiftl (N.of_nat (length input)) 3 mod M32)) in *.
  set (c1' := add32 _ (N.shiftr (N.of_nat (length input)) 29)) in *.
  destruct (Nat.ltb_spec (length input) (N.to_nat (N.of_nat (length input)))) as [H|_]; [lia|].
  destruct (N.leb_spec (64 - N.of_nat (length tail)) (N.of_nat (length input))) as [H|H].
  - set (p := N.to_nat (64 - N.of_nat (length tail))).
    assert (Hp : length (firstn p input) = p) by (rewrite firstn_length; lia).
    destruct (memcpy_ok (buffer ctx) (N.of_nat (length tail)) (firstn p input) Hbl ltac:(lia))
      as (buf1 & E1 & L1 & F1).
    rewrite E1. rewrite Nnat.Nat2N.id, Hbuf, Hp in F1.
    replace (length tail + p)%nat with 64%nat in F1 by lia.
    assert (B1 : buf1 = tail ++ firstn p input).
    { rewrite <- F1. rewrite <- L1 at 1. symmetry. apply firstn_all. }
    destruct (mid_loop_ok (S (length input)) (MD5Transform (state ctx) buf1)
                (64 - N.of_nat (length tail)) (skipn p input) (N.of_nat (length input)) (N.of_nat (length tail)))
      as (mq & mr & Emr & Hmr & (k & Hk) & Eloop);
      [rewrite skipn_length; lia | lia | lia | lia | rewrite skipn_length; lia |].
    cbv zeta. rewrite Eloop. cbn [obind].
    assert (Lin : length (skipn p input) = (length input - p)%nat) by apply skipn_length.
    assert (Lmr : (length mq + length mr = length input - p)%nat)
      by (rewrite <- Lin, Emr, app_length; reflexivity).
    replace (N.to_nat (N.of_nat (length input) - (64 - N.of_nat (length tail) + N.of_nat (length mq))))
      with (length mr) by lia.
    rewrite firstn_all.
    destruct (memcpy_ok buf1 0 mr L1 ltac:(lia)) as (buf2 & E2 & L2 & F2).
    rewrite E2. eexists. split; [reflexivity|].
    exists (full ++ (buf1 ++ mq)), mr, (q + 1 + k)%nat. cbn [state buffer count0 count1].
    split; [|split; [|split; [|split; [|split; [|split; [|split; [|split]]]]]]]; try assumption.
    + rewrite Hm, B1, <- !app_assoc. do 2 f_equal. rewrite <- Emr. symmetry. apply firstn_skipn.
    + rewrite !app_length, Hf, L1, Hk. lia.
    + rewrite (absorb_app q) by exact Hf. rewrite <- Hs.
      rewrite (absorb_app 1) by (rewrite L1; reflexivity).
      rewrite (absorb_one _ _ L1). reflexivity.
  - destruct (memcpy_ok (buffer ctx) (N.of_nat (length tail)) input Hbl ltac:(lia))
      as (buf2 & E2 & L2 & F2).
    rewrite Nnat.Nat2N.id in *. rewrite firstn_all, E2.
    eexists. split; [reflexivity|].
    exists full, (tail ++ input), q. cbn [state buffer count0 count1].
    rewrite app_length.
    split; [|split; [|split; [|split; [|split; [|split; [|split; [|split]]]]]]]; try assumption.
    + rewrite Hm, <- app_assoc. reflexivity.
    + lia.
    + rewrite F2, Hbuf. reflexivity.
Qed.

Lemma init_rep : forall g, length g = 64%nat -> rep (MD5Init g) [].
Proof.
  intros g Hg. exists [], [], 0%nat. cbn [MD5Init state buffer count0 count1 length].
  repeat split; try reflexivity; try lia.
Qed.

(** [feed] keeps the representation. *)
Lemma feed_rep : forall chunks ctx m, rep ctx m ->
  Forall (fun c : bytes => N.of_nat (length c) <= 4294967232) chunks ->
  exists ctx', feed ctx chunks = Ok ctx' /\ rep ctx' (m ++ values (concat chunks)).
Proof.
  induction chunks as [|c cs IH]; intros ctx m Hrep H.
  - exists ctx. split; [reflexivity|]. cbn. rewrite app_nil_r. exact Hrep.
  - inversion H; subst. cbn [feed].
    rewrite N.mod_small by (unfold M32; lia).
    rewrite <- (map_length N_of_ascii c).
    destruct (update_rep ctx m (map N_of_ascii c) Hrep) as (ctx1 & E1 & R1);
      [rewrite map_length; lia|].
    rewrite E1. cbn [obind].
    destruct (IH ctx1 _ R1 H3) as (ctx2 & E2 & R2).
    exists ctx2. split; [exact E2|].
    unfold values in *. cbn [concat]. rewrite map_app, app_assoc. exact R2.
Qed.

Lemma le_bytes_mod : forall k n, le_bytes k n = le_bytes k (n mod 256 ^ N.of_nat k).
Proof.
  induction k as [|k IH]; intros n; [reflexivity|].
  cbn [le_bytes]. replace (N.of_nat (S k)) with (N.succ (N.of_nat k)) by lia.
  rewrite N.pow_succ_r by lia.
  assert (P : 256 ^ N.of_nat k <> 0) by (apply N.pow_nonzero; lia).
  rewrite N.mod_mul_r by lia.
  f_equal.
  - rewrite N.add_mod by lia. rewrite (N.mul_comm 256), N.mod_mul, N.add_0_r by lia.
    rewrite !N.mod_mod by lia. reflexivity.
  - rewrite (N.mul_comm 256 (_ mod _)), N.div_add by lia.
    rewrite (N.div_small (n mod 256)) by (apply N.mod_lt; lia). rewrite N.add_0_l.
    apply IH.
Qed.

Lemma le_bytes_app : forall a b n, le_bytes (a + b) n = le_bytes a n ++ le_bytes b (n / 256 ^ N.of_nat a).
Proof.
  induction a as [|a IH]; intros b n.
  - cbn [Nat.add le_bytes app N.of_nat N.pow]. rewrite N.div_1_r. reflexivity.
  - cbn [Nat.add le_bytes app]. f_equal. rewrite IH. do 2 f_equal.
    replace (N.of_nat (S a)) with (N.succ (N.of_nat a)) by lia.
    rewrite N.pow_succ_r by lia. rewrite N.div_div by (try apply N.pow_nonzero; lia). reflexivity.
Qed.

Lemma le_bytes_length : forall k n, length (le_bytes k n) = k.
Proof. induction k as [|k IH]; intros n; cbn; [|rewrite IH]; reflexivity. Qed.

Lemma le_bytes_isbyte : forall k n, Forall isbyte (le_bytes k n).
Proof.
  induction k as [|k IH]; intros n; constructor; [|apply IH].
  unfold isbyte. apply N.mod_lt. lia.
Qed.

Lemma bits_le : forall c0 c1 n, c0 < M32 -> c1 < M32 ->
  c0 + M32 * c1 = (8 * n) mod 18446744073709551616 ->
  Encode [c0; c1] = le_bytes 8 (8 * n).
Proof.
  intros c0 c1 n H0 H1 H. rewrite (le_bytes_mod 8).
  change (256 ^ N.of_nat 8) with 18446744073709551616. rewrite <- H.
  rewrite Encode_le. cbn [flat_map]. rewrite app_nil_r.
  rewrite (le_bytes_app 4 4). change (256 ^ N.of_nat 4) with 4294967296. unfold M32 in *.
  f_equal.
  - rewrite (le_bytes_mod 4 (c0 + _)). change (256 ^ N.of_nat 4) with 4294967296.
    f_equal. lia.
  - f_equal. lia.
Qed.

(** Updating with a prefix of a larger array, used for PADDING. *)
Lemma update_firstn : forall ctx input n, n <= 4294967232 ->
  (N.to_nat n <= length input)%nat ->
  (N.to_nat n < 128)%nat ->
  (64 - N.land (N.shiftr (count0 ctx) 3) 0x3F <= n -> n < 64 - N.land (N.shiftr (count0 ctx) 3) 0x3F + 64) ->
  MD5Update ctx input n = MD5Update ctx (firstn (N.to_nat n) input) n.
Proof.
  intros ctx input n Hn Hl Hs Hone. unfold MD5Update.
  set (index := N.land (N.shiftr (count0 ctx) 3) 0x3F) in *.
  assert (Lf : length (firstn (N.to_nat n) input) = N.to_nat n) by (rewrite firstn_length; lia).
  rewrite Lf.
  destruct (Nat.ltb_spec (length input) (N.to_nat n)) as [H|_]; [lia|].
  destruct (Nat.ltb_spec (N.to_nat n) (N.to_nat n)) as [H|_]; [lia|].
  destruct (N.leb_spec (64 - index) n) as [H|H].
  - specialize (Hone H).
    rewrite firstn_firstn. rewrite Nat.min_l by lia.
    destruct (memcpy_buf _ _ _) as [buf1|]; [|reflexivity].
    cbv zeta. cbn [mid_loop].
    rewrite (N.mod_small (64 - index + 63)) by (unfold M32; lia).
    destruct (N.ltb_spec (64 - index + 63) n) as [H'|_]; [lia|].
    cbn [obind]. 
    rewrite <- (firstn_skipn (N.to_nat n) input) at 1.
    rewrite skipn_app. rewrite Lf.
    replace (N.to_nat (64 - index) - N.to_nat n)%nat with 0%nat by lia.
    cbn [skipn]. rewrite firstn_app.
    rewrite skipn_length, Lf.
    replace (N.to_nat (n - (64 - index)) - (N.to_nat n - N.to_nat (64 - index)))%nat with 0%nat by lia.
    cbn [firstn]. rewrite app_nil_r. reflexivity.
  - rewrite firstn_firstn, Nat.min_id. reflexivity.
Qed.

Lemma pad_firstn : forall k, (1 <= k <= 64)%nat -> firstn k PADDING = 128 :: repeat 0 (k - 1).
Proof.
  intros k [H1 H2]. unfold PADDING. destruct k as [|k]; [lia|].
  cbn [firstn]. f_equal. replace (S k - 1)%nat with k by lia.
  replace 63%nat with (k + (63 - k))%nat by lia. rewrite repeat_app.
  rewrite firstn_app, repeat_length, Nat.sub_diag. cbn [firstn].
  rewrite app_nil_r. apply firstn_all2. rewrite repeat_length. lia.
Qed.

Lemma values_bytes : forall s, Forall isbyte (values s).
Proof.
  intros s. unfold values. apply Forall_map, Forall_forall. intros c _.
  unfold isbyte. apply N_ascii_bounded.
Qed.

Lemma isbyte_repeat0 : forall n, Forall isbyte (repeat 0 n).
Proof. induction n; constructor; [unfold isbyte; lia|assumption]. Qed.

Lemma padded_length : forall m, exists q, length (padded m) = (64 * q)%nat.
Proof.
  intros m. unfold padded. rewrite !app_length, repeat_length, le_bytes_length.
  exists (Z.to_nat ((Z.of_nat (length m) + 9 + (55 - Z.of_nat (length m)) mod 64) / 64))%nat.
  cbn [length]. lia.
Qed.

Lemma final_rep : forall ctx m, rep ctx m -> Forall isbyte m -> MD5Final ctx = Ok (md5 m).
Proof.
  intros ctx m Hrep Hby.
  pose proof (index_of_rep _ _ Hrep) as Hidx.
  pose proof Hrep as (full & tail & q & Hm & Hf & Ht & Hs & Hbuf & Hbl & Hc0 & Hc1 & Hc).
  unfold MD5Final.
  rewrite (bits_le _ _ (N.of_nat (length m)) Hc0 Hc1 Hc). cbv zeta.
  rewrite Hidx.
  set (idx := N.of_nat (length m) mod 64) in *.
  assert (Hi : idx < 64) by (apply N.mod_lt; lia).
  set (padLen := if idx <? 56 then 56 - idx else 120 - idx).
  assert (HpL : 1 <= padLen <= 64 /\
     Z.to_nat ((55 - Z.of_nat (length m)) mod 64) = (N.to_nat padLen - 1)%nat).
  { subst padLen idx. destruct (N.ltb_spec (N.of_nat (length m) mod 64) 56); lia. }
  destruct HpL as [[Hp1 Hp2] Hp3].
  rewrite update_firstn; [ | lia | cbn; lia | lia | rewrite Hidx; fold idx ].
  2: { intros _. subst padLen. destruct (N.ltb_spec idx 56); lia. }
  rewrite pad_firstn by lia.
  assert (Hpl : padLen = N.of_nat (length (128 :: repeat 0 (N.to_nat padLen - 1))))
    by (cbn [length]; rewrite repeat_length; lia).
  destruct (update_rep ctx m (128 :: repeat 0 (N.to_nat padLen - 1)) Hrep ltac:(rewrite <- Hpl; fold idx; lia))
    as (ctx1 & E1 & R1).
  rewrite <- Hpl in E1. rewrite E1. cbn [obind].
  destruct (update_rep ctx1 _ (le_bytes 8 (8 * N.of_nat (length m))) R1
              ltac:(rewrite le_bytes_length; lia)) as (ctx2 & E2 & R2).
  rewrite le_bytes_length in E2. change (N.of_nat 8) with 8 in E2. rewrite E2. cbn [obind].
  assert (EP : (m ++ 128 :: repeat 0 (N.to_nat padLen - 1)) ++ le_bytes 8 (8 * N.of_nat (length m))
               = padded m).
  { unfold padded. rewrite Hp3, <- app_assoc. reflexivity. }
  rewrite EP in R2.
  destruct R2 as (full2 & tail2 & q2 & Hm2 & Hf2 & Ht2 & Hs2 & _).
  destruct (padded_length m) as (qp & Hqp).
  assert (tail2 = []).
  { destruct tail2; [reflexivity|]. exfalso.
    rewrite Hm2, app_length, Hf2 in Hqp. cbn [length] in *. lia. }
  subst tail2. rewrite app_nil_r in Hm2. subst full2.
  assert (Hst : state ctx2 = fold_left compress (map words (blocks (padded m))) IV).
  { rewrite Hs2. unfold absorb. apply fold_transform.
    - cbn. unfold W. repeat split; lia.
    - apply chop_bytes. unfold padded. apply Forall_app. split; [exact Hby|].
      apply Forall_app. split; [repeat constructor; unfold isbyte; lia|].
      apply Forall_app. split; [apply isbyte_repeat0|apply le_bytes_isbyte]. }
  rewrite Hst. unfold md5. fold IV.
  destruct (fold_left compress (map words (blocks (padded m))) IV) as [[[a b] c] d].
  rewrite Encode_le. cbn [flat_map]. rewrite app_nil_r. reflexivity.
Qed.

(** Independence of chunking. *)
Lemma feed_digest : forall g chunks, length g = 64%nat ->
  Forall (fun c : bytes => N.of_nat (length c) <= 4294967232) chunks ->
  obind (feed (MD5Init g) chunks) MD5Final = Ok (md5 (values (concat chunks))).
Proof.
  intros g chunks Hg H.
  destruct (feed_rep chunks (MD5Init g) [] (init_rep g Hg) H) as (ctx & E & R).
  rewrite E. cbn [obind]. apply final_rep; [exact R|apply values_bytes].
Qed.

(** ** Hexadecimal text. *)
Lemma hexdigit_eq : forall v, v < 16 -> nth (N.to_nat v) hexdigits "0"%char = hex_digit v.
Proof.
  intros v H.
  assert (Hin : In v (map N.of_nat (seq 0 16))).
  { apply in_map_iff. exists (N.to_nat v). split; [apply Nnat.N2Nat.id|]. apply in_seq. lia. }
  revert Hin. cbn [seq map N.of_nat].
  intros Hin. repeat (destruct Hin as [<-|Hin]; [reflexivity|]). contradiction.
Qed.

Lemma hexstr_hex : forall l, Forall isbyte l -> hexstr l = hex l.
Proof.
  induction l as [|b l IH]; intros H; [reflexivity|].
  inversion H; subst. unfold hexstr, hex in *. cbn [flat_map].
  rewrite (IH H3). f_equal. unfold hex2. unfold isbyte in *.
  rewrite !hexdigit_eq by lia. reflexivity.
Qed.

Lemma md5_bytes : forall m, Forall isbyte (md5 m).
Proof.
  intros m. unfold md5. destruct (fold_left _ _ _) as [[[a b] c] d].
  repeat (apply Forall_app; split); apply le_bytes_isbyte.
Qed.

Lemma md5_length : forall m, length (md5 m) = 16%nat.
Proof.
  intros m. unfold md5. destruct (fold_left _ _ _) as [[[a b] c] d].
  rewrite !app_length, !le_bytes_length. reflexivity.
Qed.

Lemma calculate_md5 : forall g s, length g = 64%nat -> N.of_nat (length s) < 4294967296 ->
  Calculate g s = Ok (hex (md5 (values s))).
Proof.
  intros g s Hg Hs. unfold Calculate. rewrite map_length.
  rewrite N.mod_small by (unfold M32; lia).
  destruct (update_rep (MD5Init g) [] (map N_of_ascii s) (init_rep g Hg)) as (c & E & R).
  { rewrite map_length. cbn [length N.of_nat]. rewrite N.mod_0_l by lia. lia. }
  rewrite map_length in E. rewrite E. cbn [obind].
  cbn [app] in R. rewrite (final_rep c _ R) by apply values_bytes.
  cbn [obind]. f_equal. apply hexstr_hex, md5_bytes.
Qed.

(** Update on a prefix of the memory only reads that prefix (when within the safe range). *)
Lemma firstn_values : forall n s, firstn n (map N_of_ascii s) = map N_of_ascii (firstn n s).
Proof. intros. apply firstn_map. Qed.

(** The wrap-around of i + 63. *)
Lemma mid_loop_wrap : forall fuel st i rest inputLen t,
  i + N.of_nat (length rest) = inputLen -> inputLen < 4294967296 ->
  4294967296 <= inputLen + t -> 0 < t -> t < 64 -> (i + t) mod 64 = 0 ->
  (length rest < fuel)%nat ->
  mid_loop fuel st i inputLen rest = UB.
Proof.
  induction fuel as [|fuel IH]; intros st i rest inputLen t Hi Hl Hw Ht0 Ht Hit Hf; [lia|].
  cbn [mid_loop].
  destruct (N.lt_ge_cases (i + 63) 4294967296) as [Hc|Hc].
  - rewrite (N.mod_small (i + 63)) by (unfold M32; lia).
    destruct (N.ltb_spec (i + 63) inputLen) as [H|H]; [|lia].
    destruct (Nat.ltb_spec (length rest) 64) as [H'|H']; [lia|].
    assert (Hsk : length (skipn 64 rest) = (length rest - 64)%nat) by apply skipn_length.
    rewrite N.mod_small by (unfold M32; lia).
    apply (IH _ _ _ _ t); lia.
  - assert (E : (i + 63) mod M32 = i + 63 - 4294967296) by (unfold M32; lia).
    rewrite E.
    destruct (N.ltb_spec (i + 63 - 4294967296) inputLen) as [H|H]; [|lia].
    destruct (Nat.ltb_spec (length rest) 64) as [H'|H']; [reflexivity|lia].
Qed.

Lemma update_wrap : forall ctx m input,
  rep ctx m -> N.of_nat (length input) < 4294967296 ->
  4294967296 <= N.of_nat (length m) mod 64 + N.of_nat (length input) ->
  MD5Update ctx input (N.of_nat (length input)) = UB.
Proof.
  intros ctx m input Hrep Hlen Hw.
  pose proof (index_of_rep _ _ Hrep) as Hidx.
  destruct Hrep as (full & tail & q & Hm & Hf & Ht & Hs & Hbuf & Hbl & Hc0 & Hc1 & Hc).
  assert (Hidx' : N.of_nat (length m) mod 64 = N.of_nat (length tail)).
  { rewrite Hm, app_length, Hf. lia. }
  unfold MD5Update. rewrite Hidx, Hidx'. rewrite Hidx' in Hw.
  destruct (Nat.ltb_spec (length input) (N.to_nat (N.of_nat (length input)))) as [H|_]; [lia|].
  destruct (N.leb_spec (64 - N.of_nat (length tail)) (N.of_nat (length input))) as [H|H]; [|lia].
  set (p := N.to_nat (64 - N.of_nat (length tail))).
  assert (Hp : length (firstn p input) = p) by (rewrite firstn_length; lia).
  destruct (memcpy_ok (buffer ctx) (N.of_nat (length tail)) (firstn p input) Hbl ltac:(lia))
    as (buf1 & E1 & L1 & F1).
  rewrite E1. cbv zeta.
  rewrite (mid_loop_wrap _ _ _ _ _ (N.of_nat (length tail))); try reflexivity; try lia;
    rewrite skipn_length; lia.
Qed.

(** A context reached from MD5Init by feeding [m]. *)
Lemma feed_update_exact : forall g chunks c, length g = 64%nat ->
  Forall (fun c : bytes => N.of_nat (length c) <= 4294967232) chunks ->
  N.of_nat (length c) < 4294967296 ->
  (4294967296 <= N.of_nat (length (concat chunks)) mod 64 + N.of_nat (length c) ->
     feed (MD5Init g) (chunks ++ [c]) = UB) /\
  (N.of_nat (length (concat chunks)) mod 64 + N.of_nat (length c) < 4294967296 ->
     obind (feed (MD5Init g) (chunks ++ [c])) MD5Final = Ok (md5 (values (concat chunks ++ c)))).
Proof.
  intros g chunks c Hg H Hc.
  destruct (feed_rep chunks (MD5Init g) [] (init_rep g Hg) H) as (ctx & E & R).
  cbn [app] in R.
  assert (F : forall cs ctx0, feed ctx0 (cs ++ [c]) = obind (feed ctx0 cs) (fun x =>
     MD5Update x (map N_of_ascii c) (N.of_nat (length c)))).
  { induction cs as [|d cs IH]; intros ctx0.
    - cbn [app feed obind]. rewrite N.mod_small by (unfold M32; lia).
      destruct (MD5Update _ _ _); reflexivity.
    - cbn [app feed]. destruct (MD5Update _ _ _); cbn [obind]; auto. }
  rewrite F, E. cbn [obind].
  assert (L : length (values (concat chunks)) = length (concat chunks)) by apply map_length.
  rewrite <- (map_length N_of_ascii c).
  split; intros Hcase.
  - apply (update_wrap ctx (values (concat chunks))); rewrite ?L, ?map_length in *; assumption.
  - destruct (update_rep ctx _ (map N_of_ascii c) R) as (ctx2 & E2 & R2).
    { rewrite L. exact Hcase. }
    rewrite E2. cbn [obind]. rewrite (final_rep ctx2 _ R2).
    + unfold values. rewrite map_app. reflexivity.
    + apply Forall_app. split; apply values_bytes.
Qed.

Lemma hex_digit_inj : forall v w, v < 16 -> w < 16 -> hex_digit v = hex_digit w -> v = w.
Proof.
  intros v w Hv Hw H. unfold hex_digit in H.
  assert (E : forall n, n < 256 -> N_of_ascii (ascii_of_N n) = n) by (intros; apply N_ascii_embedding; assumption).
  destruct (N.ltb_spec v 10), (N.ltb_spec w 10);
    apply (f_equal N_of_ascii) in H; rewrite !E in H by lia; lia.
Qed.

Lemma hex_inj : forall l l', Forall isbyte l -> Forall isbyte l' -> hex l = hex l' -> l = l'.
Proof.
  induction l as [|b l IH]; intros [|b' l'] H H' E; try reflexivity; try discriminate.
  inversion H; inversion H'; subst. unfold hex in *. cbn [flat_map app] in E.
  injection E as E1 E2 E3. unfold isbyte in *.
  apply hex_digit_inj in E1; [|lia|lia]. apply hex_digit_inj in E2; [|lia|lia].
  f_equal; [lia|]. apply IH; assumption.
Qed.

Lemma hex_length : forall l, length (hex l) = (2 * length l)%nat.
Proof.
  induction l as [|b l IH]; [reflexivity|]. unfold hex in *. cbn [flat_map app length].
  rewrite IH. lia.
Qed.

Definition is_lower_hex (c : ascii) : Prop := In c (lit "0123456789abcdef").

Lemma hex_chars : forall l, Forall isbyte l -> Forall is_lower_hex (hex l).
Proof.
  assert (D : forall v, v < 16 -> is_lower_hex (hex_digit v)).
  { intros v Hv. rewrite <- hexdigit_eq by exact Hv. unfold is_lower_hex.
    change (lit "0123456789abcdef") with hexdigits. apply nth_In. cbn. lia. }
  induction l as [|b l IH]; intros H; [constructor|].
  inversion H; subst. unfold hex in *. cbn [flat_map app]. unfold isbyte in *.
  constructor; [apply D; lia|]. constructor; [apply D; lia|]. apply IH. assumption.
Qed.

Lemma hexstr_facts : forall l l' : list N,
  Forall (fun b => b < 256) l -> Forall (fun b => b < 256) l' ->
  hexstr l = hex l /\ length (hexstr l) = (2 * length l)%nat /\
  Forall (fun c => In c (lit "0123456789abcdef")) (hexstr l) /\
  (hexstr l = hexstr l' -> l = l').
Proof.
  intros l l' H H'. rewrite !hexstr_hex by assumption.
  split; [reflexivity|]. split; [apply hex_length|]. split; [apply hex_chars, H|].
  apply hex_inj; assumption.
Qed.

Lemma calculate_length : forall (g : list N) (s : bytes),
  length g = 64%nat -> N.of_nat (length s) < 4294967296 ->
  exists t, Calculate g s = Ok t /\ length t = 32%nat.
Proof.
  intros g s Hg Hs. rewrite calculate_md5 by assumption. eexists. split; [reflexivity|].
  rewrite hex_length, md5_length. reflexivity.
Qed.
