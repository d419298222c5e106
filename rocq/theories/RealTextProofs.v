(** Reading and writing doubles in JSON texts. *)
From Coq Require Import String Ascii ZArith NArith Arith Bool Lia List QArith Qabs Qpower Lqa.
From Coq Require Import Floats.SpecFloat.
From Verif Require Import Common ListAux IntToStrModel IntToStrSpec JsonNumModel JsonModel JsonSpec JsonNumProofs JsonExactProofs JsonProofs
  JsonReadProofs JsonTextProofs JsonWriteProofs JsonObjProofs JsonSafeProofs RoundProofs RealSpec RealProofs.
Import ListNotations.
Local Open Scope Q_scope.

Lemma number_parse : forall t neg m e, number_text t neg m e -> (N.of_nat (length t) < 2 ^ 31)%N ->
  parse_text t = match double_to_long (of_scaled neg m 10 e) with
                 | Ok z => Ok (JNum (if SFeqb (of_int z) (of_scaled neg m 10 e) then NS z else NR (of_scaled neg m 10 e)))
                 | _ => UB
                 end.
Proof.
  intros t neg m e T L. pose proof (number_read _ _ _ _ T) as R. destruct (number_start _ _ _ _ T) as (c & r & Et & Sc).
  assert (Sp : spaced t t) by (apply spaced_chars; eapply Forall_impl; [|eapply number_chars; eauto]; exact numchar_plain).
  unfold parse_text. replace (2 ^ 31 <=? N.of_nat (length t))%N with false by (symmetry; apply N.leb_gt; exact L).
  rewrite (purge_spaced t t Sp). cbn [obind]. rewrite skipn_all, app_nil_r.
  replace (2 * length t + 4)%nat with (S (2 * length t + 3)) by lia. cbn [parse_val].
  assert (G : getC t 0 = Ok c) by (rewrite Et; reflexivity). rewrite G. cbn [obind].
  assert (Hc : (c =? "{")%char = false /\ (c =? "[")%char = false /\ (c =? quote)%char = false /\ (c =? "t")%char = false /\
               (c =? "f")%char = false /\ (c =? "n")%char = false).
  { unfold isNumStart in Sc. repeat split; apply Ascii.eqb_neq; intros ->; discriminate Sc. }
  destruct Hc as (H1 & H2 & H3 & H4 & H5 & H6). rewrite H1, H2, H3, H4, H5, H6, Sc. unfold parseNum. cbn [skipn]. rewrite R.
  destruct (double_to_long (of_scaled neg m 10 e)) eqn:Dl; cbn [obind fst]; try reflexivity.
  all: exfalso; unfold double_to_long in Dl; destruct (truncate _); [destruct (_ && _)|]; discriminate.
Qed.
Lemma neg_times : forall (neg : bool) m e, sgn_of neg (times_pow 10 m e) == times_pow 10 (if neg then - m else m) e.
Proof. intros [|] m e; cbn [sgn_of]; [rewrite times_opp|]; reflexivity. Qed.
Lemma stored_wd : forall x y n, x == y -> stored x n -> stored y n.
Proof. intros x y n E (q & H & H2). exists q. split; [apply (nearest_wd x); assumption|exact H2]. Qed.
Lemma read_nearest : forall t neg m e, number_text t neg m e -> (N.of_nat (length t) < 2 ^ 31)%N ->
  let x := times_pow 10 (if neg then - m else m) e in
  (forall v, parse_text t = Ok v <-> exists n, v = JNum n /\ stored x n) /\
  ((forall n, ~ stored x n) -> parse_text t = UB).
Proof.
  intros t neg m e T L x. pose proof (number_parse t neg m e T L) as P. pose proof (number_nonneg _ _ _ _ T) as Hm.
  assert (Hx : sgn_of neg (times_pow 10 m e) == x) by apply neg_times.
  assert (C : forall n, stored x n <-> exists z, double_to_long (of_scaled neg m 10 e) = Ok z /\
    n = if SFeqb (of_int z) (of_scaled neg m 10 e) then NS z else NR (of_scaled neg m 10 e)).
  { intros n. destruct (scaled_rounds neg m 10 e ltac:(lia) Hm) as [Rd|[I O]].
    - rewrite <- (rounds_stored _ _ n Rd). split; apply stored_wd; [symmetry|]; exact Hx.
    - split.
      + intros S. exfalso. apply (huge_not_stored x n); [|exact S]. rewrite <- Hx.
        assert (0 < times_pow 2 1 900) by reflexivity. set (B := times_pow 2 1 900) in *. clearbody B.
        destruct neg; cbn [sgn_of]; [rewrite Qabs_opp|]; rewrite Qabs_pos; lra.
      + intros (z & D & _). rewrite I in D. discriminate. }
  split.
  - intros v. rewrite P. split.
    + intros H. destruct (double_to_long (of_scaled neg m 10 e)) as [z| | |] eqn:D; try discriminate. injection H as <-.
      eexists. split; [reflexivity|]. apply C. exists z. split; reflexivity.
    + intros (n & -> & S). apply C in S. destruct S as (z & D & ->). rewrite D. reflexivity.
  - intros H. rewrite P. destruct (double_to_long (of_scaled neg m 10 e)) as [z| | |] eqn:D; try reflexivity.
    exfalso. eapply H. apply C. exists z. split; reflexivity.
Qed.

(** *** Writing *)
Lemma round_div_nearest : forall n d, (0 < d)%Z -> nearest n d (round_div n d).
Proof.
  intros n d Hd. unfold round_div, nearest. pose proof (Z.div_mod n d ltac:(lia)) as E. pose proof (Z.mod_pos_bound n d Hd) as B.
  set (q := (n / d)%Z) in *. set (r := (n mod d)%Z) in *. clearbody q r.
  assert (E1 : (q * d - n = - r)%Z) by lia. assert (E2 : ((q + 1) * d - n = d - r)%Z) by lia.
  destruct (Z.ltb_spec (2 * r) d); [rewrite E1; split; lia|]. destruct (Z.ltb_spec d (2 * r)); [rewrite E2; split; lia|].
  destruct (Z.even q) eqn:Ev; [rewrite E1; split; [lia|auto]|rewrite E2]. split; [lia|]. intros _. rewrite Z.even_add, Ev. reflexivity.
Qed.
Lemma ge_pow10_iff : forall n d x, (0 < d)%Z -> ge_pow10 n d x = true <-> times_pow 10 1 x <= inject_Z n / inject_Z d.
Proof.
  intros n d x Hd. unfold ge_pow10. pose proof (inj_pos d Hd) as PD.
  assert (C : times_pow 10 1 x <= inject_Z n / inject_Z d <-> times_pow 10 1 x * inject_Z d <= inject_Z n).
  { split; intros H.
    - apply (Qmult_le_compat_r _ _ (inject_Z d)) in H; [|lra]. rewrite Qmult_comm in H. 
      setoid_replace (inject_Z n / inject_Z d * inject_Z d) with (inject_Z n) in H by (field; lra). rewrite Qmult_comm. exact H.
    - apply Qle_shift_div_l; assumption. }
  rewrite C. clear C. unfold times_pow. change (inject_Z 1) with 1. rewrite Qmult_1_l. destruct (Z.leb_spec 0 x) as [L|L].
  - rewrite Z.leb_le, <- Zpower_Qpower, <- inject_Z_mult, <- Zle_Qle by lia. reflexivity.
  - rewrite Z.leb_le. replace (inject_Z 10 ^ x) with (inject_Z 10 ^ (- (- x)))%Q by (f_equal; lia). rewrite Qpower_opp.
    rewrite <- Zpower_Qpower by lia. set (P := (10 ^ (- x))%Z) in *. assert (HP : (0 < P)%Z) by (apply Z.pow_pos_nonneg; lia). clearbody P.
    pose proof (inj_pos P HP) as PP. split; intros H.
    + apply Qle_shift_div_r in H || idtac. setoid_replace (/ inject_Z P * inject_Z d) with (inject_Z d / inject_Z P) by (field; lra).
      apply Qle_shift_div_r; [exact PP|]. rewrite <- inject_Z_mult, <- Zle_Qle. exact H.
    + rewrite Zle_Qle, inject_Z_mult. apply (Qmult_le_compat_r _ _ (inject_Z P)) in H; [|lra].
      setoid_replace (/ inject_Z P * inject_Z d * inject_Z P) with (inject_Z d) in H by (field; lra). exact H.
Qed.
Lemma decimal_exponent_spec : forall fuel x n d, (0 < d)%Z -> times_pow 10 1 (x - Z.of_nat fuel) <= inject_Z n / inject_Z d ->
  let y := decimal_exponent fuel x n d in
  (x - Z.of_nat fuel <= y <= x)%Z /\ times_pow 10 1 y <= inject_Z n / inject_Z d /\ (y = x \/ inject_Z n / inject_Z d < times_pow 10 1 (y + 1)).
Proof.
  induction fuel as [|fuel IH]; intros x n d Hd H; cbn [decimal_exponent].
  - change (Z.of_nat 0) with 0%Z in *. rewrite Z.sub_0_r in *. split; [lia|]. auto.
  - rewrite Nat2Z.inj_succ in *. destruct (ge_pow10 n d x) eqn:G.
    + apply ge_pow10_iff in G; [|exact Hd]. split; [lia|]. auto.
    + assert (L : inject_Z n / inject_Z d < times_pow 10 1 x).
      { apply Qnot_le_lt. intros C. apply ge_pow10_iff in C; [|exact Hd]. congruence. }
      destruct (IH (x - 1)%Z n d Hd) as (B & Lo & Hi).
      { replace (x - 1 - Z.of_nat fuel)%Z with (x - Z.succ (Z.of_nat fuel))%Z by lia. exact H. }
      split; [lia|]. split; [exact Lo|]. right. destruct Hi as [E|Hi]; [|exact Hi].
      replace (decimal_exponent fuel (x - 1) n d + 1)%Z with x by lia. exact L.
Qed.

Lemma strip_zeros_tail : forall s, exists j, s = strip_zeros s ++ repeat "0"%char j /\ last (strip_zeros s) "1"%char <> "0"%char.
Proof.
  induction s as [|c r (j & E & L)]; cbn [strip_zeros].
  - exists 0%nat. split; [reflexivity|discriminate].
  - destruct (strip_zeros r) as [|d r'] eqn:Sr.
    + destruct (Ascii.eqb_spec c "0") as [->|N].
      * exists (S j). split; [cbn [app repeat]; f_equal; exact E|discriminate].
      * exists j. split; [cbn [app]; f_equal; exact E|exact N].
    + exists j. split; [cbn [app]; f_equal; exact E|]. cbn [last] in *. exact L.
Qed.
Lemma zeros_digit : forall j, Forall is_digit (repeat "0"%char j).
Proof. intros j. apply Forall_forall. intros c I. apply repeat_spec in I. subst c. unfold is_digit. cbn. lia. Qed.
Lemma value_snoc_zeros : forall s j, digits_value (s ++ repeat "0"%char j) = (digits_value s * 10 ^ Z.of_nat j)%Z.
Proof.
  intros s j. induction j as [|j IH]; [cbn [repeat]; rewrite app_nil_r; change (Z.of_nat 0) with 0%Z; lia|].
  replace (repeat "0"%char (S j)) with (repeat "0"%char j ++ ["0"%char]) by (symmetry; apply repeat_cons).
  rewrite app_assoc. unfold digits_value in *. rewrite fold_left_app, IH. cbn [fold_left]. rewrite Nat2Z.inj_succ, Z.pow_succ_r by lia.
  change (Z.of_N (N_of_ascii "0")) with 48%Z. lia.
Qed.
Lemma value_zeros_front : forall j s, digits_value (repeat "0"%char j ++ s) = digits_value s.
Proof.
  intros j s. unfold digits_value. rewrite fold_left_app. f_equal. induction j as [|j IH]; [reflexivity|].
  cbn [repeat fold_left]. exact IH.
Qed.
Lemma stripped_value : forall ip fp ev, exists j, fp = strip_zeros fp ++ repeat "0"%char j /\
  times_pow 10 (digits_value (ip ++ fp)) (ev - Z.of_nat (length fp)) ==
  times_pow 10 (digits_value (ip ++ strip_zeros fp)) (ev - Z.of_nat (length (strip_zeros fp))).
Proof.
  intros ip fp ev. destruct (strip_zeros_tail fp) as (j & E & _). exists j. split; [exact E|].
  pose proof (f_equal (@length ascii) E) as LE. rewrite app_length, repeat_length in LE.
  rewrite (times_shift 10 _ (ev - Z.of_nat (length fp)) (ev - Z.of_nat (length (strip_zeros fp)))).
  - rewrite E at 1. rewrite app_assoc, value_snoc_zeros.
    replace (ev - Z.of_nat (length (strip_zeros fp)) - (ev - Z.of_nat (length fp)))%Z with (Z.of_nat j) by lia. reflexivity.
  - lia.
  - lia.
Qed.
Lemma dec_digits_value' : forall k n, (0 <= n < 10 ^ Z.of_nat k)%Z -> digits_value (dec_digits k n) = n.
Proof.
  induction k as [|k IH]; intros n Hn; [change (Z.of_nat 0) with 0%Z in Hn; cbn in *; lia|].
  rewrite Nat2Z.inj_succ, Z.pow_succ_r in Hn by lia. cbn [dec_digits]. unfold digits_value in *.
  rewrite fold_left_app. rewrite IH; [|split; [apply Z.div_pos; lia|apply Z.div_lt_upper_bound; lia]].
  cbn [fold_left]. pose proof (Z.mod_pos_bound n 10 ltac:(lia)). unfold ch. rewrite N_ascii_embedding by lia.
  pose proof (Z_div_mod_eq_full n 10). lia.
Qed.
Lemma dec_digits_head : forall k n, (10 ^ Z.of_nat k <= n < 10 ^ Z.of_nat (S k))%Z -> hd "0"%char (dec_digits (S k) n) <> "0"%char.
Proof.
  induction k as [|k IH]; intros n Hn.
  - cbn [dec_digits app hd]. change (10 ^ Z.of_nat 0)%Z with 1%Z in Hn. change (10 ^ Z.of_nat 1)%Z with 10%Z in Hn.
    rewrite Z.mod_small by lia. intros E. apply (f_equal N_of_ascii) in E. unfold ch in E. rewrite N_ascii_embedding in E by lia. change (N_of_ascii "0") with 48%N in E. lia.
  - rewrite (Nat2Z.inj_succ (S k)), (Nat2Z.inj_succ k) in Hn. rewrite (Z.pow_succ_r 10 (Z.succ _)), (Z.pow_succ_r 10 (Z.of_nat k)) in Hn by lia.
    assert (Hk : (10 ^ Z.of_nat k <= n / 10 < 10 ^ Z.of_nat (S k))%Z).
    { rewrite Nat2Z.inj_succ, Z.pow_succ_r by lia. split; [apply Z.div_le_lower_bound; lia|apply Z.div_lt_upper_bound; lia]. }
    specialize (IH (n / 10)%Z Hk).
    change (dec_digits (S (S k)) n) with (dec_digits (S k) (n / 10) ++ [ch (Z.to_N (48 + n mod 10))]).
    destruct (dec_digits (S k) (n / 10)) as [|c r] eqn:Ed; [exfalso; pose proof (dec_digits_ok (S k) (n / 10)) as (_ & Ln); rewrite Ed in Ln; discriminate|].
    exact IH.
Qed.
Lemma with_point_eq : forall ip fp, with_point ip fp = ip ++ match strip_zeros fp with [] => [] | _ => "."%char :: strip_zeros fp end.
Proof. intros ip fp. unfold with_point. destruct (strip_zeros fp); [rewrite app_nil_r|]; reflexivity. Qed.

(** The text for the digits [D] and the decimal exponent [x]. *)
Definition format (D x : Z) : bytes :=
  let ds := dec_digits 6 D in
  if ((x <? -4) || (6 <=? x))%Z then
    with_point (firstn 1 ds) (skipn 1 ds) ++ lit "e" ++ (if (x <? 0)%Z then lit "-" else lit "+") ++
    dec_digits (if (Z.abs x <? 100)%Z then 2 else 3) (Z.abs x)
  else if (0 <=? x)%Z then with_point (firstn (Z.to_nat (x + 1)) ds) (skipn (Z.to_nat (x + 1)) ds)
  else with_point (lit "0") (repeat "0"%char (Z.to_nat (- x - 1)) ++ ds).
Lemma print_ratio_format : forall n d, print_ratio n d =
  let x := decimal_exponent 632 308 n d in
  let D := if (x <=? 5)%Z then round_div (n * 10 ^ (5 - x)) d else round_div n (d * 10 ^ (x - 5)) in
  if (D =? 1000000)%Z then format 100000 (x + 1) else format D x.
Proof. intros n d. unfold print_ratio. cbv zeta. destruct (_ =? 1000000)%Z; reflexivity. Qed.
Lemma format_printed : forall D x, (10 ^ 5 <= D < 10 ^ 6)%Z -> (-324 <= x <= 309)%Z -> printed (times_pow 10 D (x - 5)) (format D x).
Proof.
  intros D x HD Hx. pose proof (dec_digits_ok 6 D) as (Fd & Ld). pose proof (dec_digits_value' 6 D ltac:(change (Z.of_nat 6) with 6%Z; lia)) as Vd.
  pose proof (dec_digits_head 5 D ltac:(change (Z.of_nat 6) with 6%Z; change (Z.of_nat 5) with 5%Z; lia)) as Hd.
  unfold format. set (ds := dec_digits 6 D) in *. clearbody ds. cbv zeta.
  assert (Rng : (times_pow 10 1 (-4) <= times_pow 10 D (x - 5) /\ times_pow 10 D (x - 5) < times_pow 10 1 6) <-> (-4 <= x <= 5)%Z).
  { assert (A : forall k, times_pow 10 1 k <= times_pow 10 D (x - 5) <-> (k <= x)%Z).
    { intros k. split; intros H.
      - destruct (Z.le_gt_cases k x) as [L|L]; [exact L|exfalso].
        assert (times_pow 10 D (x - 5) < times_pow 10 1 k); [|lra].
        rewrite (times_shift 10 1 (x - 5) k) by lia. unfold times_pow. apply Qmult_lt_r; [apply pow_pos'; lia|]. rewrite <- Zlt_Qlt.
        assert (10 ^ 6 <= 10 ^ (k - (x - 5)))%Z by (apply Z.pow_le_mono_r; lia). lia.
      - apply Qle_trans with (times_pow 10 1 x).
        + unfold times_pow. apply Qmult_le_l; [reflexivity|]. apply Qpower_le_compat_l; [exact H|]. unfold Qle. cbn. lia.
        + rewrite (times_shift 10 1 (x - 5) x) by lia. unfold times_pow. apply Qmult_le_r; [apply pow_pos'; lia|]. rewrite <- Zle_Qle.
          replace (x - (x - 5))%Z with 5%Z by lia. lia. }
    rewrite A. split.
    - intros [H1 H2]. split; [exact H1|]. destruct (Z.le_gt_cases x 5) as [L|L]; [exact L|exfalso]. pose proof (proj2 (A 6%Z) ltac:(lia)). lra.
    - intros [H1 H2]. split; [exact H1|]. apply Qnot_le_lt. intros C. apply A in C. lia. }
  assert (Ne : forall k, (0 < k)%nat -> firstn k ds <> []).
  { intros k K E. apply (f_equal (@length ascii)) in E. rewrite firstn_length, Ld in E. cbn in E. lia. }
  assert (Hh : forall k, (0 < k)%nat -> hd "0"%char (firstn k ds) <> "0"%char).
  { intros k K. destruct ds as [|c r]; [discriminate|]. destruct k; [lia|]. exact Hd. }
  destruct ((x <? -4) || (6 <=? x))%Z eqn:Q.
  - assert (Nx : ~ (-4 <= x <= 5)%Z) by lia. set (k := if (Z.abs x <? 100)%Z then 2%nat else 3%nat).
    destruct (dec_digits_ok k (Z.abs x)) as (Fe & Le).
    assert (Ve : digits_value (dec_digits k (Z.abs x)) = Z.abs x).
    { apply dec_digits_value'. unfold k. destruct (Z.ltb_spec (Z.abs x) 100); [change (Z.of_nat 2) with 2%Z|change (Z.of_nat 3) with 3%Z]; lia. }
    assert (He : k = 2%nat \/ k = 3%nat /\ hd "0"%char (dec_digits k (Z.abs x)) <> "0"%char).
    { unfold k. destruct (Z.ltb_spec (Z.abs x) 100); [left; reflexivity|right]. split; [reflexivity|]. apply dec_digits_head.
      change (Z.of_nat 2) with 2%Z; change (Z.of_nat 3) with 3%Z. lia. }
    clearbody k.
    destruct (stripped_value (firstn 1 ds) (skipn 1 ds) x) as (j & Ej & Ev). destruct (strip_zeros_tail (skipn 1 ds)) as (_ & _ & La).
    exists (firstn 1 ds), (strip_zeros (skipn 1 ds)), (lit "e" ++ (if (x <? 0)%Z then lit "-" else lit "+") ++ dec_digits k (Z.abs x)), x.
    split; [rewrite with_point_eq, <- app_assoc; reflexivity|]. split; [apply Ne; lia|]. split; [apply Forall_firstn', Fd|].
    split; [apply strip_zeros_digits, Forall_skipn', Fd|]. split; [exact La|]. split.
    + rewrite <- Ev, firstn_skipn, Vd, skipn_length, Ld. reflexivity.
    + right. split; [rewrite Rng; exact Nx|]. split; [rewrite firstn_length, Ld; reflexivity|]. split.
      { intros E. apply (Hh 1%nat); [lia|]. rewrite E. reflexivity. }
      exists (dec_digits k (Z.abs x)). split; [destruct (x <? 0)%Z; reflexivity|]. split; [exact Fe|]. split; [exact Ve|].
      rewrite Le. exact He.
  - assert (Nx : (-4 <= x <= 5)%Z) by lia. destruct (Z.leb_spec 0 x) as [L|L].
    + set (k := Z.to_nat (x + 1)). assert (Kk : (Z.of_nat k = x + 1)%Z) by (unfold k; lia). assert (K0 : (0 < k <= 6)%nat) by lia. clearbody k.
      destruct (stripped_value (firstn k ds) (skipn k ds) 0) as (j & Ej & Ev). destruct (strip_zeros_tail (skipn k ds)) as (_ & _ & La).
      exists (firstn k ds), (strip_zeros (skipn k ds)), [], 0%Z.
      split; [rewrite with_point_eq, app_nil_r; reflexivity|]. split; [apply Ne; lia|]. split; [apply Forall_firstn', Fd|].
      split; [apply strip_zeros_digits, Forall_skipn', Fd|]. split; [exact La|]. split.
      * rewrite <- Ev, firstn_skipn, Vd, skipn_length, Ld. replace (0 - Z.of_nat (6 - k))%Z with (x - 5)%Z by lia. reflexivity.
      * left. split; [apply Rng, Nx|]. split; [reflexivity|]. split; [reflexivity|]. right. apply Hh. lia.
    + set (k := Z.to_nat (- x - 1)). assert (Kk : (Z.of_nat k = - x - 1)%Z) by (unfold k; lia). clearbody k.
      set (fp := repeat "0"%char k ++ ds).
      assert (Ff : Forall is_digit fp) by (apply Forall_app; split; [apply zeros_digit|exact Fd]).
      destruct (stripped_value (lit "0") fp 0) as (j & Ej & Ev). destruct (strip_zeros_tail fp) as (_ & _ & La).
      exists (lit "0"), (strip_zeros fp), [], 0%Z.
      split; [rewrite with_point_eq, app_nil_r; reflexivity|]. split; [discriminate|]. split; [apply (zeros_digit 1)|].
      split; [apply strip_zeros_digits, Ff|]. split; [exact La|]. split.
      * rewrite <- Ev. unfold fp. change (lit "0" ++ repeat "0"%char k ++ ds) with (repeat "0"%char (S k) ++ ds).
        rewrite value_zeros_front, Vd, app_length, repeat_length, Ld. replace (0 - Z.of_nat (k + 6))%Z with (x - 5)%Z by lia. reflexivity.
      * left. split; [apply Rng, Nx|]. split; [reflexivity|]. split; [reflexivity|]. left. reflexivity.
Qed.

Lemma six_nearest : forall x N D R e, (0 < D)%Z -> x == inject_Z N / inject_Z D * inject_Z 10 ^ e -> nearest N D R ->
  (10 ^ 5 * D <= N < 10 ^ 6 * D)%Z -> (10 ^ 5 <= R <= 10 ^ 6)%Z /\ nearest_six x (times_pow 10 R e).
Proof.
  intros x N D R e HD Hx Hr B.
  assert (HR : (10 ^ 5 <= R <= 10 ^ 6)%Z).
  { split; [apply (nearest_ge N D R); [exact HD|exact Hr|lia]|]. destruct Hr as [Hr _]. nia. }
  split; [exact HR|].
  assert (Cy : R = (10 ^ 6)%Z -> times_pow 10 R e == times_pow 10 (10 ^ 5) (e + 1)).
  { intros E. rewrite (times_shift 10 (10 ^ 5) e (e + 1)) by lia. replace (e + 1 - e)%Z with 1%Z by lia. rewrite E. reflexivity. }
  split.
  - destruct (Z.eq_dec R (10 ^ 6)) as [E|E].
    + exists (10 ^ 5)%Z, (e + 1)%Z. split; [lia|apply Cy, E].
    + exists R, e. split; [lia|reflexivity].
  - intros p (m & k & Hm & Ep) Ne.
    destruct (grid 10 6 e N D x R m k) as [G|[G|[G1 [G2 _]]]]; try lia; try assumption.
    + exfalso. apply Ne. rewrite Ep. exact G.
    + left. rewrite Ep. exact G.
    + right. split; [rewrite Ep; exact G1|]. destruct (Z.eq_dec R (10 ^ 6)) as [E|E].
      * exists (10 ^ 5)%Z, (e + 1)%Z. split; [lia|]. split; [reflexivity|apply Cy, E].
      * exists R, e. split; [lia|]. split; [exact G2|reflexivity].
Qed.
Lemma print_ratio_spec : forall n d, (0 < d)%Z -> times_pow 10 1 (-324) <= inject_Z n / inject_Z d -> inject_Z n / inject_Z d < times_pow 10 1 309 ->
  exists D x, (10 ^ 5 <= D < 10 ^ 6)%Z /\ (-324 <= x <= 309)%Z /\ print_ratio n d = format D x /\
    nearest_six (inject_Z n / inject_Z d) (times_pow 10 D (x - 5)).
Proof.
  intros n d Hd Lo Hi. rewrite print_ratio_format. cbv zeta.
  destruct (decimal_exponent_spec 632 308 n d Hd) as (B & L & H); [exact Lo|].
  set (x := decimal_exponent 632 308 n d) in *. clearbody x. change (308 - Z.of_nat 632)%Z with (-324)%Z in B.
  assert (Hx : inject_Z n / inject_Z d < times_pow 10 1 (x + 1)) by (destruct H as [->|H]; [exact Hi|exact H]).
  set (v := inject_Z n / inject_Z d) in *.
  assert (E : exists N D, (0 < D)%Z /\ v == inject_Z N / inject_Z D * inject_Z 10 ^ (x - 5) /\
    (if (x <=? 5)%Z then round_div (n * 10 ^ (5 - x)) d else round_div n (d * 10 ^ (x - 5))) = round_div N D).
  { pose proof (inj_pos d Hd) as PD. destruct (Z.leb_spec x 5) as [Q|Q].
    - exists (n * 10 ^ (5 - x))%Z, d. split; [exact Hd|]. split; [|reflexivity]. unfold v. rewrite inject_Z_mult, Zpower_Qpower by lia.
      replace (5 - x)%Z with (- (x - 5))%Z by lia. rewrite Qpower_opp. pose proof (pow_pos' 10 (x - 5) ltac:(lia)). field. split; lra.
    - assert (P : (0 < 10 ^ (x - 5))%Z) by (apply Z.pow_pos_nonneg; lia). exists n, (d * 10 ^ (x - 5))%Z. split; [apply Z.mul_pos_pos; assumption|].
      split; [|reflexivity]. unfold v. rewrite inject_Z_mult, Zpower_Qpower by lia. pose proof (pow_pos' 10 (x - 5) ltac:(lia)). field. split; lra. }
  destruct E as (N & D & HD & Ev & ->). pose proof (round_div_nearest N D HD) as Hr. set (R := round_div N D) in *. clearbody R.
  assert (BN : (10 ^ 5 * D <= N < 10 ^ 6 * D)%Z).
  { pose proof (pow_pos' 10 (x - 5) ltac:(lia)) as P. pose proof (inj_pos D HD) as PD. rewrite (times_shift 10 1 (x - 5) x) in L by lia.
    rewrite (times_shift 10 1 (x - 5) (x + 1)) in Hx by lia. rewrite Ev in L, Hx. unfold times_pow in L, Hx.
    rewrite Qmult_le_r in L by exact P. rewrite Qmult_lt_r in Hx by exact P.
    replace (x - (x - 5))%Z with 5%Z in L by lia. replace (x + 1 - (x - 5))%Z with 6%Z in Hx by lia. rewrite Z.mul_1_l in L, Hx.
    split.
    - rewrite Zle_Qle, inject_Z_mult. apply (Qmult_le_compat_r _ _ (inject_Z D)) in L; [|lra].
      setoid_replace (inject_Z N / inject_Z D * inject_Z D) with (inject_Z N) in L by (field; lra). exact L.
    - rewrite Zlt_Qlt, inject_Z_mult. apply (Qmult_lt_compat_r _ _ (inject_Z D)) in Hx; [|exact PD].
      setoid_replace (inject_Z N / inject_Z D * inject_Z D) with (inject_Z N) in Hx by (field; lra). exact Hx. }
  destruct (six_nearest v N D R (x - 5) HD Ev Hr BN) as [HR Nr].
  destruct (Z.eqb_spec R 1000000) as [E|E].
  - exists 100000%Z, (x + 1)%Z. split; [lia|]. split; [lia|]. split; [reflexivity|].
    assert (Eq : times_pow 10 R (x - 5) == times_pow 10 100000 (x + 1 - 5)).
    { rewrite (times_shift 10 100000 (x - 5) (x + 1 - 5)) by lia. replace (x + 1 - 5 - (x - 5))%Z with 1%Z by lia. rewrite E. reflexivity. }
    destruct Nr as [(m & k & Bm & Em) Min]. split.
    + exists m, k. split; [exact Bm|]. rewrite <- Eq. exact Em.
    + intros p Hp Ne. destruct (Min p Hp) as [C|[C (m' & k' & Bm' & Ev' & Em')]].
      * intros C. apply Ne. rewrite C. exact Eq.
      * left. rewrite <- Eq. exact C.
      * right. split; [rewrite <- Eq; exact C|]. exists m', k'. split; [exact Bm'|]. split; [exact Ev'|]. rewrite <- Eq. exact Em'.
  - exists R, x. split; [lia|]. split; [lia|]. split; [reflexivity|exact Nr].
Qed.

(** *** Decimals of six digits survive *)
Lemma as_ratio : forall x, 0 < x -> exists n d, x == inject_Z (Zpos n) / inject_Z (Zpos d).
Proof.
  intros [[|n|n] d] H; try (unfold Qlt in H; cbn in H; lia). exists n, d. unfold Qeq, Qdiv, Qmult, Qinv, inject_Z. cbn. lia.
Qed.
Lemma rounded_data : forall x q, 0 < x -> x < times_pow 2 1 900 -> nearest_double x q -> exists N D R e,
  (0 < D)%Z /\ nearest N D R /\ (0 <= R <= 2 ^ 53)%Z /\ (-1074 <= e < 900)%Z /\ (e = -1074 \/ 2 ^ 52 * D <= N)%Z /\
  x == inject_Z N / inject_Z D * inject_Z 2 ^ e /\ q == times_pow 2 R e.
Proof.
  intros x q Hx Big Nq. destruct (as_ratio x Hx) as (n & d & Ex).
  destruct (ratio_round false n d) as (N & D & R & e & HD & HN & Hr & HR & He & Hc & Er & _). rewrite <- Ex in Er.
  assert (Le : (e < 900)%Z).
  { destruct Hc as [->|C]; [lia|]. destruct (Z.lt_ge_cases e 900) as [L|L]; [exact L|exfalso].
    assert (times_pow 2 1 900 <= x); [|lra]. rewrite Er, (times_shift 2 1 900 900) by lia.
    apply Qle_trans with (times_pow 2 1 e).
    - unfold times_pow. rewrite Z.sub_diag. apply Qmult_le_l; [reflexivity|]. apply Qpower_le_compat_l; [exact L|]. unfold Qle. cbn. lia.
    - unfold times_pow. apply Qmult_le_r; [apply pow_pos'; lia|]. apply Qle_shift_div_l; [apply inj_pos, HD|].
      rewrite <- inject_Z_mult, <- Zle_Qle. lia. }
  exists N, D, R, e. repeat split; try assumption; try lia; try (apply Hr).
  apply (rounded_unique N D R e x); try assumption. left. lia.
Qed.
Lemma half_dist : forall N D R e x, (0 < D)%Z -> nearest N D R -> x == inject_Z N / inject_Z D * inject_Z 2 ^ e ->
  2 * Qabs (times_pow 2 R e - x) <= times_pow 2 1 e /\ (2 * Qabs (times_pow 2 R e - x) == times_pow 2 1 e -> Z.even R = true).
Proof.
  intros N D R e x HD [Hr1 Hr2] Hx. rewrite (grid_dist 2 e N D x R) by (lia || exact Hx). pose proof (inj_pos D HD) as PD.
  pose proof (grid_unit 2 e D ltac:(lia) HD) as U. set (u := inject_Z 2 ^ e / inject_Z D) in *.
  assert (Eu : times_pow 2 1 e == inject_Z D * u) by (unfold times_pow, u; field; lra). rewrite Eu.
  assert (E2 : 2 * (inject_Z (Z.abs (R * D - N)) * u) == inject_Z (2 * Z.abs (R * D - N)) * u) by (rewrite inject_Z_mult; ring). rewrite E2.
  split.
  - apply Qmult_le_r; [exact U|]. rewrite <- Zle_Qle. exact Hr1.
  - intros E. apply Qmult_inj_r in E; [|lra]. apply Hr2. unfold Qeq, inject_Z in E. cbn [Qnum Qden] in E. lia.
Qed.
Lemma near_normal : forall x q, times_pow 2 1 (-1022) <= x -> x < times_pow 2 1 900 -> nearest_double x q ->
  Qabs (q - x) * inject_Z (2 ^ 53) <= x.
Proof.
  intros x q Lo Hi Nq. assert (X0 : 0 < x) by (assert (0 < times_pow 2 1 (-1022)) by (unfold Qlt; vm_compute; reflexivity); lra).
  destruct (rounded_data x q X0 Hi Nq) as (N & D & R & e & HD & Hr & HR & He & Hc & Ex & Eq).
  destruct (half_dist N D R e x HD Hr Ex) as [Hh _]. rewrite <- Eq in Hh.
  assert (P : times_pow 2 (2 ^ 52) e <= x).
  { destruct Hc as [->|C].
    - eapply Qle_trans; [|exact Lo]. rewrite (times_shift 2 1 (-1074) (-1022)) by lia. apply Qle_refl.
    - rewrite Ex. unfold times_pow. apply Qmult_le_r; [apply pow_pos'; lia|]. apply Qle_shift_div_l; [apply inj_pos, HD|].
      rewrite <- inject_Z_mult, <- Zle_Qle. exact C. }
  unfold times_pow in *. change (inject_Z (2 ^ 53)) with (2 * inject_Z (2 ^ 52)). set (w := inject_Z (2 ^ 52)) in *.
  assert (W : 0 < w) by reflexivity. clearbody w. set (a := Qabs (q - x)) in *. clearbody a. set (g := inject_Z 2 ^ e) in *. clearbody g.
  change (inject_Z 1) with 1 in Hh. apply Qle_trans with (w * g); [|exact P].
  setoid_replace (a * (2 * w)) with (w * (2 * a)) by ring. rewrite Qmult_le_l by exact W. lra.
Qed.
Lemma six_gap : forall m k m' k' x r, (10 ^ 5 <= Z.abs m < 10 ^ 6)%Z -> (10 ^ 5 <= Z.abs m' < 10 ^ 6)%Z -> x == times_pow 10 m k -> r == times_pow 10 m' k' ->
  0 < x -> 0 < r -> Qabs (r - x) * inject_Z (2 ^ 52) <= x -> r == x.
Proof.
  intros m k m' k' x r Bm Bm' Ex Er Px Pr H. destruct (Qeq_dec r x) as [E|N]; [exact E|exfalso].
  assert (M0 : (0 < m)%Z /\ (0 < m')%Z).
  { pose proof (pow_pos' 10 k ltac:(lia)) as P1. pose proof (pow_pos' 10 k' ltac:(lia)) as P2. unfold times_pow in Ex, Er. split.
    - destruct (Z.lt_ge_cases 0 m) as [C|C]; [exact C|exfalso]. assert (inject_Z m <= 0) by (change 0 with (inject_Z 0); rewrite <- Zle_Qle; lia). nra.
    - destruct (Z.lt_ge_cases 0 m') as [C|C]; [exact C|exfalso]. assert (inject_Z m' <= 0) by (change 0 with (inject_Z 0); rewrite <- Zle_Qle; lia). nra. }
  destruct M0 as [M0 M0'].
  assert (G : forall a b j, ~ times_pow 10 a j == times_pow 10 b j -> times_pow 10 1 j <= Qabs (times_pow 10 a j - times_pow 10 b j)).
  { intros a b j Ne. setoid_replace (times_pow 10 a j - times_pow 10 b j) with (inject_Z (a - b) * inject_Z 10 ^ j).
    - rewrite Qabs_Qmult, inj_abs. rewrite (Qabs_pos (_ ^ _)) by (apply Qlt_le_weak, pow_pos'; lia). unfold times_pow.
      apply Qmult_le_r; [apply pow_pos'; lia|]. rewrite <- Zle_Qle. destruct (Z.eq_dec a b) as [->|]; [exfalso; apply Ne; reflexivity|lia].
    - unfold times_pow, Z.sub. rewrite inject_Z_plus, inject_Z_opp. ring. }
  destruct (Z.le_gt_cases k k') as [L|L].
  - assert (Er' : r == times_pow 10 (m' * 10 ^ (k' - k)) k) by (rewrite Er; apply times_shift; lia).
    assert (C : times_pow 10 1 k <= Qabs (r - x)) by (rewrite Er', Ex; apply G; intros C; apply N; rewrite Er', Ex; exact C).
    assert (U : x < times_pow 10 1 k * inject_Z (10 ^ 6)).
    { rewrite Ex. unfold times_pow. setoid_replace (inject_Z 1 * inject_Z 10 ^ k * inject_Z (10 ^ 6)) with (inject_Z (10 ^ 6) * inject_Z 10 ^ k) by (change (inject_Z 1) with 1; ring).
      apply Qmult_lt_r; [apply pow_pos'; lia|]. rewrite <- Zlt_Qlt. lia. }
    change (inject_Z (10 ^ 6)) with 1000000 in U. change (inject_Z (2 ^ 52)) with 4503599627370496 in H. 
    set (a := Qabs (r - x)) in *. clearbody a. set (g := times_pow 10 1 k) in *. clearbody g. lra.
  - assert (Ex' : x == times_pow 10 (m * 10 ^ (k - k')) k') by (rewrite Ex; apply times_shift; lia).
    assert (C : times_pow 10 1 k' <= Qabs (r - x)) by (rewrite Er, Ex'; apply G; intros C; apply N; rewrite Er, Ex'; exact C).
    assert (U : r < times_pow 10 1 k' * inject_Z (10 ^ 6)).
    { rewrite Er. unfold times_pow. setoid_replace (inject_Z 1 * inject_Z 10 ^ k' * inject_Z (10 ^ 6)) with (inject_Z (10 ^ 6) * inject_Z 10 ^ k') by (change (inject_Z 1) with 1; ring).
      apply Qmult_lt_r; [apply pow_pos'; lia|]. rewrite <- Zlt_Qlt. lia. }
    assert (T : x - r <= Qabs (r - x)) by (rewrite <- Qabs_opp; setoid_replace (- (r - x)) with (x - r) by ring; apply Qle_Qabs).
    change (inject_Z (10 ^ 6)) with 1000000 in U. change (inject_Z (2 ^ 52)) with 4503599627370496 in H.
    set (a := Qabs (r - x)) in *. clearbody a. set (g := times_pow 10 1 k') in *. clearbody g. lra.
Qed.
Lemma rounded_even_wd : forall N D R e q, (0 < D)%Z -> nearest N D R -> (0 <= R <= 2 ^ 53)%Z -> (-1074 <= e)%Z -> (e = -1074 \/ 2 ^ 52 * D <= N)%Z ->
  (e < 971)%Z -> q == times_pow 2 R e -> Z.even R = true -> even_double q.
Proof.
  intros N D R e q HD Hr HR He Hc Fits Eq Ev. destruct (rounded_even N D R e HD Hr HR He Hc) as (m & k & B & V & E); [left; exact Fits|exact Ev|].
  exists m, k. split; [exact B|]. split; [exact V|]. rewrite Eq. exact E.
Qed.
Lemma is_six_opp : forall q, is_six q -> is_six (- q).
Proof. intros q (m & e & B & E). exists (- m)%Z, e. split; [lia|]. rewrite times_opp, E. reflexivity. Qed.
Lemma six_nonzero : forall q, is_six q -> ~ q == 0.
Proof.
  intros q (m & e & B & E) H. rewrite H in E. assert (E2 : times_pow 10 m e == times_pow 10 0 e) by (rewrite <- E, times_zero; reflexivity).
  apply times_inj in E2; lia.
Qed.
Lemma nearest_six_pos : forall q r, 0 < q -> nearest_six q r -> 0 < r.
Proof.
  intros q r Hq [Hr Min]. destruct (Qlt_le_dec 0 r) as [L|L]; [exact L|exfalso].
  pose proof (six_nonzero r Hr) as N. assert (L' : r < 0) by (destruct (Qle_lt_or_eq _ _ L); [assumption|contradiction]).
  destruct (Min (- r) (is_six_opp r Hr)) as [C|[C _]]; [lra| |];
    rewrite (Qabs_neg (r - q)) in C by lra; destruct (Qlt_le_dec (- r - q) 0) as [D|D];
    try (rewrite (Qabs_neg (- r - q)) in C by lra; lra); rewrite (Qabs_pos (- r - q)) in C by lra; lra.
Qed.
Lemma abs_sym : forall a b, Qabs (a - b) == Qabs (b - a).
Proof. intros a b. rewrite <- (Qabs_opp (a - b)). apply Qabs_wd. ring. Qed.
Lemma six_back : forall x q r, is_six x -> 0 < x -> x < times_pow 2 1 900 -> nearest_double x q -> 0 < q -> nearest_six q r -> nearest_double r q.
Proof.
  intros x q r Sx Px Big Nq Pq Nr. pose proof (nearest_six_pos q r Pq Nr) as Pr.
  assert (Close : Qabs (r - q) <= Qabs (q - x)).
  { destruct Nr as [_ Min]. rewrite (abs_sym q x). destruct (Qeq_dec x r) as [E|N]; [rewrite E; apply Qle_refl|].
    destruct (Min x Sx N) as [C|[C _]]; lra. }
  destruct (Qlt_le_dec x (times_pow 2 1 (-1022))) as [Sub|Nor].
  - destruct (rounded_data x q Px Big Nq) as (N & D & R & e & HD & Hr & HR & He & Hc & Ex & Eq).
    assert (e = -1074)%Z as ->.
    { destruct Hc as [C|C]; [exact C|]. destruct (Z.eq_dec e (-1074)) as [E|E]; [exact E|exfalso].
      assert (times_pow 2 1 (-1022) <= x); [|lra]. apply Qle_trans with (times_pow 2 (2 ^ 52) e).
      - rewrite (times_shift 2 (2 ^ 52) (-1074) e), (times_shift 2 1 (-1074) (-1022)) by lia. unfold times_pow.
        apply Qmult_le_r; [apply pow_pos'; lia|]. rewrite <- Zle_Qle. assert (2 ^ 0 <= 2 ^ (e - -1074))%Z by (apply Z.pow_le_mono_r; lia). lia.
      - rewrite Ex. unfold times_pow. apply Qmult_le_r; [apply pow_pos'; lia|]. apply Qle_shift_div_l; [apply inj_pos, HD|].
        rewrite <- inject_Z_mult, <- Zle_Qle. exact C. }
    destruct (half_dist N D R (-1074) x HD Hr Ex) as [Hh Hev]. rewrite <- Eq in Hh, Hev.
    split; [apply Nq|]. intros p (m & k & (Bm & Bk) & Ep) Ne.
    assert (Gap : times_pow 2 1 (-1074) <= Qabs (p - q)).
    { set (m1 := (m * 2 ^ (k - -1074))%Z). assert (Ep' : p == times_pow 2 m1 (-1074)) by (rewrite Ep; apply times_shift; lia).
      assert (Nm : m1 <> R) by (intros C; apply Ne; rewrite Ep', Eq, C; reflexivity).
      rewrite Ep', Eq. setoid_replace (times_pow 2 m1 (-1074) - times_pow 2 R (-1074)) with (inject_Z (m1 - R) * inject_Z 2 ^ (-1074)).
      - rewrite Qabs_Qmult, inj_abs. rewrite (Qabs_pos (_ ^ _)) by (apply Qlt_le_weak, pow_pos'; lia). unfold times_pow.
        apply Qmult_le_r; [apply pow_pos'; lia|]. rewrite <- Zle_Qle. lia.
      - unfold times_pow, Z.sub. rewrite inject_Z_plus, inject_Z_opp. ring. }
    assert (Tri : Qabs (p - q) <= Qabs (p - r) + Qabs (r - q)).
    { setoid_replace (p - q) with ((p - r) + (r - q)) by ring. apply Qabs_triangle. }
    rewrite (abs_sym q r). set (g := times_pow 2 1 (-1074)) in *. assert (Pg : 0 < g) by (apply Qmult_lt_0_compat; [reflexivity|apply pow_pos'; lia]). clearbody g.
    destruct (Qlt_le_dec (Qabs (r - q)) (Qabs (p - r))) as [Lt|Ge]; [left; exact Lt|right].
    assert (E1 : Qabs (r - q) == Qabs (p - r)) by lra. split; [exact E1|].
    apply (rounded_even_wd N D R (-1074) q HD Hr HR ltac:(lia) (or_introl eq_refl)); [lia|exact Eq|]. apply Hev. lra.
  - pose proof (near_normal x q Nor Big Nq) as Rel.
    assert (r == x) as E.
    { destruct Sx as (m & k & Bm & Em). destruct (proj1 Nr) as (m' & k' & Bm' & Em'). apply (six_gap m k m' k' x r); try assumption.
      assert (Tri : Qabs (r - x) <= Qabs (r - q) + Qabs (q - x)).
      { setoid_replace (r - x) with ((r - q) + (q - x)) by ring. apply Qabs_triangle. }
      change (inject_Z (2 ^ 53)) with 9007199254740992 in Rel. change (inject_Z (2 ^ 52)) with 4503599627370496.
      set (a := Qabs (r - x)) in *. set (b := Qabs (q - x)) in *. set (c := Qabs (r - q)) in *. clearbody a b c. lra. }
    apply (nearest_wd x); [symmetry; exact E|exact Nq].
Qed.

(** *** The printed text *)
Lemma printed_number : forall r t (neg : bool), printed r t -> exists m e, number_text ((if neg then ["-"%char] else []) ++ t) neg m e /\ r == times_pow 10 m e.
Proof.
  intros r t neg (ip & fp & ex & ev & -> & N & F1 & F2 & _ & V & C).
  exists (digits_value (ip ++ fp)), (ev - Z.of_nat (length fp))%Z. split; [|exact V].
  exists ip, (match fp with [] => [] | _ => "."%char :: fp end), fp, ex, ev. split; [reflexivity|]. split; [exact N|]. split; [exact F1|]. split.
  - destruct fp as [|c fp]; [left; auto|right]. split; [reflexivity|]. split; [discriminate|exact F2].
  - split; [|auto]. destruct C as [(_ & -> & -> & _)|(_ & _ & _ & ds & -> & Fd & Vd & Ld)]; [left; auto|right].
    exists "e"%char, (if (ev <? 0)%Z then ["-"%char] else ["+"%char]), ds. split; [destruct (ev <? 0)%Z; reflexivity|]. split; [left; reflexivity|].
    split; [intros ->; cbn in Ld; lia|]. split; [exact Fd|]. destruct (Z.ltb_spec ev 0) as [L|L].
    + right. right. split; [reflexivity|lia].
    + right. left. split; [reflexivity|lia].
Qed.
Lemma print_value : forall f q, valid_binary 53 1024 f = true -> has_value f q -> ~ q == 0 ->
  exists (neg : bool) r t, (if neg then q < 0 else 0 < q) /\ nearest_six (Qabs q) r /\ printed r t /\ print_double f = (if neg then ["-"%char] else []) ++ t.
Proof.
  intros [s|s| |s m e] q V H Nz; cbn [has_value] in H; try contradiction. exists s.
  pose proof (proj1 (valid_iff s m e) V) as (Bm & Be & _). pose proof (pow_pos' 2 e ltac:(lia)) as P. pose proof (inj_pos (Zpos m) ltac:(lia)) as PM.
  assert (Eq : q == sgn_of s (times_pow 2 (Zpos m) e)).
  { rewrite H. destruct s; cbn [sgn_of]; [|reflexivity]. change (Z.neg m) with (- Z.pos m)%Z. apply times_opp. }
  assert (PV : 0 < times_pow 2 (Zpos m) e) by (apply Qmult_lt_0_compat; assumption).
  assert (Ea : Qabs q == times_pow 2 (Zpos m) e).
  { rewrite Eq. destruct s; cbn [sgn_of]; [rewrite Qabs_opp|]; apply Qabs_pos; lra. }
  cbn [print_double].
  assert (E : exists n d, (0 < d)%Z /\ (if (0 <=? e)%Z then print_ratio (Zpos m * 2 ^ e) 1 else print_ratio (Zpos m) (2 ^ (- e))) = print_ratio n d /\
    times_pow 2 (Zpos m) e == inject_Z n / inject_Z d).
  { destruct (Z.leb_spec 0 e) as [L|L].
    - exists (Zpos m * 2 ^ e)%Z, 1%Z. split; [lia|]. split; [reflexivity|]. unfold times_pow. rewrite inject_Z_mult, Zpower_Qpower by lia. change (inject_Z 1) with 1. field.
    - exists (Zpos m), (2 ^ (- e))%Z. split; [apply Z.pow_pos_nonneg; lia|]. split; [reflexivity|]. unfold times_pow. rewrite Zpower_Qpower, Qpower_opp by lia. field. lra. }
  destruct E as (n & d & Hd & -> & Ev).
  destruct (print_ratio_spec n d Hd) as (D & x & BD & Bx & Ep & Nr).
  - rewrite <- Ev. apply Qle_trans with (times_pow 2 1 (-1074)).
    + unfold Qle. vm_compute. discriminate.
    + rewrite (times_shift 2 (Zpos m) (-1074) e) by lia. unfold times_pow. apply Qmult_le_r; [apply pow_pos'; lia|]. rewrite <- Zle_Qle.
      assert (2 ^ 0 <= 2 ^ (e - -1074))%Z by (apply Z.pow_le_mono_r; lia). lia.
  - rewrite <- Ev. apply Qle_lt_trans with (times_pow 2 (2 ^ 53) 971).
    + rewrite (times_shift 2 (2 ^ 53) e 971) by lia. unfold times_pow. apply Qmult_le_r; [exact P|]. rewrite <- Zle_Qle.
      assert (2 ^ 0 <= 2 ^ (971 - e))%Z by (apply Z.pow_le_mono_r; lia). lia.
    + unfold Qlt. vm_compute. reflexivity.
  - exists (times_pow 10 D (x - 5)), (format D x). split; [|split; [|split; [apply format_printed; assumption|]]].
    + destruct s; cbn [sgn_of] in Eq; rewrite Eq; lra.
    + clear - Nr Ev Ea. destruct Nr as [S Min]. split; [exact S|]. intros p Hp Ne.
      assert (Ez : Qabs q == inject_Z n / inject_Z d) by (rewrite Ea; exact Ev).
      destruct (Min p Hp Ne) as [C|[C C2]]; [left|right; split; [|exact C2]]; rewrite Ez; exact C.
    + rewrite Ep. reflexivity.
Qed.
Lemma write_number : forall pretty n t, write_num n = Ok t -> getWriteToStr pretty (JNum n) = Ok t.
Proof. intros pretty n t E. unfold getWriteToStr. cbn [write_val]. rewrite E. cbn [obind]. unfold wOut. cbn. rewrite andb_false_r. reflexivity. Qed.
Lemma write_real : forall pretty f q, valid_binary 53 1024 f = true -> has_value f q -> ~ q == 0 ->
  exists (neg : bool) r t, (if neg then q < 0 else 0 < q) /\ nearest_six (Qabs q) r /\ printed r t /\
    getWriteToStr pretty (JNum (NR f)) = Ok ((if neg then ["-"%char] else []) ++ t).
Proof.
  intros pretty f q V H N. destruct (print_value f q V H N) as (neg & r & t & S & Nr & P & E). exists neg, r, t.
  repeat split; try assumption; try apply Nr. apply write_number. cbn [write_num]. rewrite E. reflexivity.
Qed.

(** *** Reals that survive *)
Lemma rounds_value : forall x f, rounds x f -> forall g q, valid_binary 53 1024 g = true -> has_value g q -> ~ q == 0 -> nearest_double x q -> f = g.
Proof.
  intros x f (q0 & N & U & V & H) g q Vg Hg Nz Nq. apply (same_value f g q); try assumption. apply (value_wd f q0); [|exact H]. symmetry. apply U, Nq.
Qed.
Lemma real_survives : forall f q, valid_binary 53 1024 f = true -> has_value f q -> (forall z, ~ q == inject_Z z) ->
  (strtod (print_double f) = (f, []) <-> exists x, is_six x /\ nearest_double x q).
Proof.
  intros f q V H Nw. assert (Nz : ~ q == 0) by (intros C; apply (Nw 0%Z); rewrite C; reflexivity).
  destruct (print_value f q V H Nz) as (neg & r & t & Sg & Nr & P & E).
  destruct (printed_number r t neg P) as (m & e & T & Vr). rewrite E, (number_read _ _ _ _ T). pose proof (number_nonneg _ _ _ _ T) as Hm.
  assert (Sq : q == sgn_of neg (Qabs q)) by (destruct neg; cbn [sgn_of]; [rewrite Qabs_neg by lra; ring|rewrite Qabs_pos by lra; reflexivity]).
  assert (Pq : 0 < Qabs q) by (destruct neg; [rewrite Qabs_neg by lra|rewrite Qabs_pos by lra]; lra).
  destruct (scaled_rounds neg m 10 e ltac:(lia) Hm) as [Rd|[I O]].
  - split.
    + intros [= Ef]. rewrite Ef in Rd. destruct Rd as (q0 & N0 & U0 & _ & H0). pose proof (value_unique f q q0 H H0) as Eq.
      exists (sgn_of neg (times_pow 10 m e)). split.
      * destruct Nr as [(m' & e' & B' & E') _]. assert (S0 : is_six (times_pow 10 m e)) by (exists m', e'; split; [exact B'|rewrite <- Vr; exact E']).
        destruct neg; cbn [sgn_of]; [apply is_six_opp|]; exact S0.
      * apply (nearest_wd2 _ q0); [symmetry; exact Eq|exact N0].
    + intros (x & Sx & Nx). f_equal. apply (rounds_value _ _ Rd f q V H Nz).
      assert (Nx' : nearest_double (sgn_of neg x) (Qabs q)).
      { destruct neg; cbn [sgn_of] in *.
        - apply nearest_opp in Nx. apply (nearest_wd2 _ (- q)); [|exact Nx]. rewrite Qabs_neg by lra. reflexivity.
        - apply (nearest_wd2 _ q); [|exact Nx]. rewrite Qabs_pos by lra. reflexivity. }
      assert (Sx' : is_six (sgn_of neg x)) by (destruct neg; cbn [sgn_of]; [apply is_six_opp|]; exact Sx).
      set (y := sgn_of neg x) in *. clearbody y.
      assert (Py : 0 < y).
      { destruct (Qlt_le_dec 0 y) as [L|L]; [exact L|exfalso]. destruct Nx' as [_ Min].
        destruct (Min 0 zero_double) as [C|[C _]]; [intros C; lra| |];
          rewrite (Qabs_pos (Qabs q - y)) in C by lra; rewrite (Qabs_pos (0 - y)) in C by lra; lra. }
      assert (By : y < times_pow 2 1 900).
      { apply Qnot_le_lt. intros C.
        assert (St : stored y (NR (SFabs f))).
        { exists (Qabs q). split; [exact Nx'|]. split; [destruct f; try exact V; reflexivity|]. split.
          - destruct f as [s|s| |s m0 e0]; cbn [has_value SFabs] in *; try contradiction.
            rewrite H. destruct s.
            + change (Z.neg m0) with (- Z.pos m0)%Z. rewrite times_opp, Qabs_opp. apply Qabs_pos. unfold times_pow. apply Qlt_le_weak, Qmult_lt_0_compat; [apply inj_pos; lia|apply pow_pos'; lia].
            + apply Qabs_pos. unfold times_pow. apply Qlt_le_weak, Qmult_lt_0_compat; [apply inj_pos; lia|apply pow_pos'; lia].
          - intros z C2. apply (Nw (if neg then - z else z)%Z). rewrite Sq. destruct neg; cbn [sgn_of]; rewrite C2; [rewrite inject_Z_opp|]; reflexivity. }
        apply (huge_not_stored y (NR (SFabs f))); [rewrite Qabs_pos by lra; exact C|exact St]. }
      pose proof (six_back y (Qabs q) r Sx' Py By Nx' Pq Nr) as Bk.
      apply (nearest_wd2 _ (sgn_of neg (Qabs q))); [symmetry; exact Sq|].
      destruct neg; cbn [sgn_of]; [apply nearest_opp|]; apply (nearest_wd r); try exact Vr; exact Bk.
  - exfalso. rewrite <- Vr in O. destruct (fraction_small f q V H Nw) as (z & Tz & Bz).
    assert (Qs : Qabs q < inject_Z (2 ^ 54)).
    { destruct f as [s|s| |s m0 e0]; cbn [has_value] in H; try contradiction.
      apply valid_iff in V. destruct (Z.le_gt_cases 0 e0) as [L|L].
      - exfalso. apply (Nw ((if s then Zneg m0 else Zpos m0) * 2 ^ e0)%Z). rewrite H. unfold times_pow. rewrite inject_Z_mult, Zpower_Qpower by lia. reflexivity.
      - rewrite H. unfold times_pow. rewrite Qabs_Qmult, inj_abs. rewrite (Qabs_pos (_ ^ _)) by (apply Qlt_le_weak, pow_pos'; lia).
        apply Qle_lt_trans with (inject_Z (Z.abs (if s then Zneg m0 else Zpos m0)) * 1).
        + apply Qmult_le_compat_nonneg.
          * split; [|apply Qle_refl]. change 0 with (inject_Z 0). rewrite <- Zle_Qle. lia.
          * split; [apply Qlt_le_weak, pow_pos'; lia|]. rewrite <- (Qpower_0_r (inject_Z 2)). apply Qpower_le_compat_l; [lia|unfold Qle; cbn; lia].
        + rewrite Qmult_1_r, <- Zlt_Qlt. destruct s; lia. }
    destruct Nr as [Sr Min]. destruct (Min (times_pow 10 (10 ^ 5) 20)) as [C|[C _]].
    + exists (10 ^ 5)%Z, 20%Z. split; [lia|reflexivity].
    + intros C. rewrite <- C in O. revert O. apply Qlt_not_le. unfold Qlt. vm_compute. reflexivity.
    + assert (B1 : times_pow 10 (10 ^ 5) 20 * 4 < times_pow 2 1 900) by (unfold Qlt; vm_compute; reflexivity).
      assert (B2 : inject_Z (2 ^ 54) < times_pow 10 (10 ^ 5) 20) by (unfold Qlt; vm_compute; reflexivity).
      set (T1 := times_pow 10 (10 ^ 5) 20) in *. set (T2 := times_pow 2 1 900) in *. clearbody T1 T2.
      rewrite (Qabs_pos (r - _)) in C by lra. rewrite (Qabs_pos (T1 - _)) in C by lra. lra.
    + assert (B1 : times_pow 10 (10 ^ 5) 20 * 4 < times_pow 2 1 900) by (unfold Qlt; vm_compute; reflexivity).
      assert (B2 : inject_Z (2 ^ 54) < times_pow 10 (10 ^ 5) 20) by (unfold Qlt; vm_compute; reflexivity).
      set (T1 := times_pow 10 (10 ^ 5) 20) in *. set (T2 := times_pow 2 1 900) in *. clearbody T1 T2.
      rewrite (Qabs_pos (r - _)) in C by lra. rewrite (Qabs_pos (T1 - _)) in C by lra. lra.
Qed.

(** *** Through the reader and the writer *)
Lemma strip_length_le : forall s, (length (strip_zeros s) <= length s)%nat.
Proof. intros s. destruct (strip_zeros_tail s) as (j & E & _). rewrite E at 2. rewrite app_length. lia. Qed.
Lemma with_point_length : forall ip fp, (length (with_point ip fp) <= length ip + 1 + length fp)%nat.
Proof.
  intros ip fp. rewrite with_point_eq, app_length. pose proof (strip_length_le fp). destruct (strip_zeros fp); cbn [length] in *; lia.
Qed.
Lemma format_length : forall D x, (length (format D x) <= 20)%nat.
Proof.
  intros D x. destruct (dec_digits_ok 6 D) as (_ & Ld). unfold format. cbv zeta. set (ds := dec_digits 6 D) in *. clearbody ds.
  destruct (_ || _)%bool eqn:Q.
  - rewrite !app_length. pose proof (with_point_length (firstn 1 ds) (skipn 1 ds)) as W. rewrite firstn_length, skipn_length, Ld in W.
    rewrite (proj2 (dec_digits_ok _ (Z.abs x))). change (length (lit "e")) with 1%nat.
    assert (length (if (x <? 0)%Z then lit "-" else lit "+") = 1%nat) as -> by (destruct (x <? 0)%Z; reflexivity).
    change (Init.Nat.min 1 6) with 1%nat in W. destruct (Z.abs x <? 100)%Z; lia.
  - destruct (Z.leb_spec 0 x) as [L|L].
    + pose proof (with_point_length (firstn (Z.to_nat (x + 1)) ds) (skipn (Z.to_nat (x + 1)) ds)) as W. rewrite firstn_length, skipn_length, Ld in W. lia.
    + pose proof (with_point_length (lit "0") (repeat "0"%char (Z.to_nat (- x - 1)) ++ ds)) as W. rewrite app_length, repeat_length, Ld in W. cbn [length] in W.
      change (length (lit "0")) with 1%nat in W. lia.
Qed.
Lemma print_length : forall f, (length (print_double f) <= 21)%nat.
Proof.
  intros [s|s| |s m e]; try (destruct s; cbn; lia); try (cbn; lia). cbn [print_double].
  assert (L : forall n d, (length (print_ratio n d) <= 20)%nat).
  { intros n d. rewrite print_ratio_format. cbv zeta. destruct (_ =? _)%Z; apply format_length. }
  rewrite app_length. destruct (0 <=? e)%Z; (destruct s; cbn [length lit]; [change (length (lit "-")) with 1%nat|]; match goal with |- context [print_ratio ?a ?b] => pose proof (L a b); lia end).
Qed.
Lemma real_read : forall t neg m e f q, number_text t neg m e -> (N.of_nat (length t) < 2 ^ 31)%N ->
  valid_binary 53 1024 f = true -> has_value f q -> (forall z, ~ q == inject_Z z) ->
  (parse_text t = Ok (JNum (NR f)) <-> of_scaled neg m 10 e = f).
Proof.
  intros t neg m e f q T L V H Nw. rewrite (number_parse t neg m e T L). split.
  - destruct (double_to_long _) as [z| | |]; try discriminate. destruct (SFeqb _ _); [discriminate|]. intros [= <-]. reflexivity.
  - intros ->.
    assert (Rd : rounds q f).
    { exists q. pose proof (value_double f q V H) as Dq. split; [apply self_nearest, Dq|]. split; [|auto]. intros q' Nq. apply double_self; assumption. }
    assert (St : stored q (NR f)) by (exists q; split; [apply self_nearest, (value_double f q V H)|auto]).
    apply (rounds_stored q f (NR f) Rd) in St. destruct St as (z & Dl & E). rewrite Dl. f_equal. f_equal. symmetry. exact E.
Qed.
Lemma survives : forall pretty f q, valid_binary 53 1024 f = true -> has_value f q -> (forall z, ~ q == inject_Z z) ->
  exists t, getWriteToStr pretty (JNum (NR f)) = Ok t /\
    (parse_text t = Ok (JNum (NR f)) <-> exists x, is_six x /\ nearest_double x q).
Proof.
  intros pretty f q V H Nw. exists (print_double f). split; [apply write_number; reflexivity|].
  rewrite <- (real_survives f q V H Nw). assert (Nz : ~ q == 0) by (intros C; apply (Nw 0%Z); rewrite C; reflexivity).
  destruct (print_value f q V H Nz) as (neg & r & t & _ & _ & P & E). destruct (printed_number r t neg P) as (m & e & T & _).
  pose proof (print_length f) as Ln. rewrite E in *. rewrite (real_read _ neg m e f q T ltac:(lia) V H Nw), (number_read _ _ _ _ T).
  split; [intros ->; reflexivity|intros [= ->]; reflexivity].
Qed.
Lemma decimal_number : forall z s, decimal z s -> number_text s (z <? 0)%Z (Z.abs z) 0.
Proof.
  intros z s [(P & N & F & _ & V)|(P & t & -> & N & F & _ & V)].
  - replace (z <? 0)%Z with false by lia. exists s, [], [], [], 0%Z. cbn [app]. rewrite app_nil_r. repeat split; auto; [left; auto|lia].
  - replace (z <? 0)%Z with true by lia. exists t, [], [], [], 0%Z. cbn [app]. rewrite !app_nil_r. repeat split; auto; [left; auto|lia].
Qed.
Lemma numeral_length : forall n s, numeral n s -> (n < 10 ^ 18)%Z -> (length s <= 18)%nat.
Proof.
  intros n [|c r] (N & F & H0 & V) B; [now destruct N|]. inversion F as [|? ? Dc Fr]; subst. destruct r as [|d r]; [cbn; lia|].
  pose proof (digits_value_app [c] (d :: r) Fr) as A. change ([c] ++ d :: r) with (c :: d :: r) in A.
  assert (V1 : digits_value [c] = (Z.of_N (N_of_ascii c) - 48)%Z) by (unfold digits_value; cbn [fold_left]; lia). rewrite V1 in A.
  assert (C : (48 < N_of_ascii c)%N).
  { unfold is_digit in Dc. assert (N_of_ascii c <> 48)%N; [|lia]. intros E. assert (c = "0"%char) by (rewrite <- (ascii_N_embedding c), E; reflexivity).
    apply H0 in H. discriminate. }
  destruct (Nat.le_gt_cases (length (c :: d :: r)) 18) as [L|L]; [exact L|exfalso].
  assert (P : (10 ^ 18 <= 10 ^ Z.of_nat (length (d :: r)))%Z) by (apply Z.pow_le_mono_r; cbn [length] in *; lia).
  specialize (A ltac:(lia)). nia.
Qed.
Lemma decimal_length : forall z s, decimal z s -> (Z.abs z < 10 ^ 18)%Z -> (length s <= 19)%nat.
Proof.
  intros z s [(P & N)|(P & t & -> & N)] B; [|cbn [length]]; pose proof (numeral_length _ _ N ltac:(lia)); lia.
Qed.
Lemma six_digit_text : forall pretty t neg m e v, number_text t neg m e -> (N.of_nat (length t) < 2 ^ 31)%N ->
  is_six (times_pow 10 m e) -> times_pow 10 m e < times_pow 10 1 16 -> parse_text t = Ok v ->
  exists t', getWriteToStr pretty v = Ok t' /\ parse_text t' = Ok v.
Proof.
  intros pretty t neg m e v T L Six Small Pv. destruct (read_nearest t neg m e T L) as [Rn _].
  apply Rn in Pv. destruct Pv as (n & -> & q & Nq & Hn). pose proof (number_nonneg _ _ _ _ T) as Hm.
  set (x := times_pow 10 (if neg then - m else m) e) in *.
  assert (Sx : is_six x) by (unfold x; destruct neg; [destruct (is_six_opp _ Six) as (m' & e' & B & E); exists m', e'; split; [exact B|rewrite times_opp; exact E]|exact Six]).
  destruct n as [z|z|f]; [| contradiction |].
  - destruct Hn as [Ez B]. assert (Dz : is_double (inject_Z z)).
    { destruct Nq as [(m' & e' & B' & E') _]. exists m', e'. split; [exact B'|]. rewrite <- Ez. exact E'. }
    assert (Hz : (-100000000000000000 < z < 1000000000000000000)%Z).
    { assert (X : Qabs x < times_pow 10 1 16).
      { assert (P0 : 0 <= times_pow 10 m e) by (apply Qmult_le_0_compat; [change 0 with (inject_Z 0); rewrite <- Zle_Qle; exact Hm|apply Qlt_le_weak, pow_pos'; lia]).
        unfold x. destruct neg; [rewrite times_opp, Qabs_opp|]; rewrite Qabs_pos; assumption. }
      destruct Nq as [_ Min].
      assert (B1 : Qabs q <= times_pow 10 1 16).
      { apply Qnot_lt_le. intros C.
        assert (T17 : is_double (times_pow 10 1 16)) by (exists (5 ^ 16)%Z, 16%Z; split; [vm_compute; intuition discriminate|vm_compute; reflexivity]).
        set (M := times_pow 10 1 16) in *. clearbody M. apply Qabs_Qlt_condition in X. destruct X as [X1 X2].
        destruct (Qlt_le_dec q 0) as [Lq|Lq].
        - rewrite (Qabs_neg q) in C by lra. destruct (Min (- M) (is_double_opp _ T17)) as [D|[D _]]; [intros D; lra| |];
            rewrite (Qabs_neg (q - x)) in D by lra; rewrite (Qabs_neg (- M - x)) in D by lra; lra.
        - rewrite (Qabs_pos q) in C by lra. destruct (Min M T17) as [D|[D _]]; [intros D; lra| |];
            rewrite (Qabs_pos (q - x)) in D by lra; rewrite (Qabs_pos (M - x)) in D by lra; lra. }
      rewrite Ez, inj_abs in B1. setoid_replace (times_pow 10 1 16) with (inject_Z (10 ^ 16)) in B1 by reflexivity. rewrite <- Zle_Qle in B1. lia. }
    destruct (conv_long z B Hz) as (s & Es & Ds). exists s. split; [apply write_number; exact Es|].
    assert (Ls : (N.of_nat (length s) < 2 ^ 31)%N) by (pose proof (decimal_length z s Ds ltac:(lia)); lia).
    destruct (read_nearest s _ _ _ (decimal_number z s Ds) Ls) as [Rs _]. apply Rs. exists (NS z). split; [reflexivity|].
    exists (inject_Z z). split; [|split; [reflexivity|exact B]].
    apply (nearest_wd (inject_Z z)); [|apply self_nearest, Dz]. unfold times_pow. rewrite Qpower_0_r, Qmult_1_r.
    destruct (Z.ltb_spec z 0); [replace (- Z.abs z)%Z with z by lia|replace (Z.abs z) with z by lia]; reflexivity.
  - destruct Hn as (V & H & Nw). destruct (survives pretty f q V H Nw) as (t' & W & I). exists t'. split; [exact W|].
    apply I. exists x. split; assumption.
Qed.
