From Coq Require Import String Ascii ZArith NArith Arith Bool Lia ZifyBool List.
From Coq Require Import Floats.SpecFloat.
From Verif Require Import Common CmdModel CmdSpec CmdProofs JsonNumModel JsonExactProofs RoundProofs Round32Proofs.
From Verif Require IntToStrModel IntToStrSpec IntToStrProofs.
From Verif Require Import CastModel CastSpec.
Import ListNotations.
Local Open Scope Z_scope.

(** ** Texts *)
(** The scan shared by [std::stoi] and [std::stol]. *)
Definition scan (lo hi : Z) (s : bytes) : option Z :=
  let s := skip_space s in
  let '(neg, s) := match s with
                   | c :: r => if Ascii.eqb c "-" then (true, r) else if Ascii.eqb c "+" then (false, r) else (false, s)
                   | [] => (false, s) end in
  match s with
  | c :: _ =>
    if is_digit c then
      let z := digits_value 0 s in
      let z := if neg then - z else z in
      if (lo <=? z) && (z <=? hi) then Some z else None
    else None
  | [] => None
  end.
Lemma scan_some : forall lo hi s z, scan lo hi s = Some z -> number s z /\ lo <= z <= hi.
Proof.
  intros lo hi s z H. destruct (skip_space_spec s) as (bl & H1 & H2 & H3). unfold scan in H.
  remember (skip_space s) as u eqn:Eu. clear Eu. subst s.
  assert (G : forall sg w (neg : bool), u = sg ++ w ->
    match w with [] => None | c :: _ => if is_digit c then
      (if ((lo <=? (if neg then - digits_value 0 w else digits_value 0 w)) && ((if neg then - digits_value 0 w else digits_value 0 w) <=? hi))
       then Some (if neg then - digits_value 0 w else digits_value 0 w) else None) else None end = Some z ->
    ((sg = [] \/ sg = lit "+") /\ neg = false \/ sg = lit "-" /\ neg = true) -> number (bl ++ u) z /\ lo <= z <= hi).
  { intros sg w neg -> E S. destruct w as [|c w]; [discriminate|]. destruct (is_digit c) eqn:D; [|discriminate].
    pose proof (take_digits_spec (c :: w)) as T. destruct (take_digits (c :: w)) as [a b] eqn:TD.
    destruct T as (T1 & T2 & T3). rewrite T1 in E |- *. rewrite (digits_value_spec a b 0 T2 T3) in E.
    destruct (_ && _) eqn:B in E; [|discriminate]. injection E as E.
    split; [|destruct neg; lia].
    exists bl, sg, a, b. split; [reflexivity|]. split; [assumption|]. split; [assumption|]. split.
    { intros ->. cbn in TD. rewrite D in TD. destruct (take_digits w). discriminate. }
    split; [assumption|]. destruct S as [[S ->]|[-> ->]]; [left|right]; split; auto; lia. }
  destruct u as [|c u]; [discriminate|].
  destruct (Ascii.eqb c "-") eqn:E1; [|destruct (Ascii.eqb c "+") eqn:E2].
  - apply Ascii.eqb_eq in E1. subst c. apply (G (lit "-") u true); auto.
  - apply Ascii.eqb_eq in E2. subst c. apply (G (lit "+") u false); auto.
  - apply (G [] (c :: u) false); auto.
Qed.
Lemma scan_of : forall lo hi s z, number s z -> scan lo hi s = if (lo <=? z) && (z <=? hi) then Some z else None.
Proof.
  intros lo hi s z (bl & sg & ds & rest & -> & H1 & H2 & H3 & H4 & H5).
  assert (D : forall c, digit c -> c <> "-"%char /\ c <> "+"%char /\ ~ blank c).
  { intros c Hc. repeat split; try (intros ->); unfold digit, blank in *; cbn in *; try lia. }
  unfold scan. rewrite skip_space_app; [|assumption|].
  2:{ destruct H5 as [[[->| ->] _]|[-> _]]; cbn.
      - destruct ds as [|c ds]; [congruence|]. cbn. inversion H2. apply D. auto.
      - unfold blank. cbn. lia.
      - unfold blank. cbn. lia. }
  assert (V : digits_value 0 (ds ++ rest) = decimal ds) by (rewrite digits_value_spec; auto).
  destruct ds as [|c ds]; [congruence|]. inversion H2 as [|? ? Hc Hd]. subst. destruct (D c Hc) as (N1 & N2 & _).
  apply is_digit_spec in Hc.
  destruct H5 as [[[->| ->] ->]|[-> ->]]; cbn [app lit].
  - cbn [app] in *. apply Ascii.eqb_neq in N1, N2. rewrite N1, N2, Hc, V. reflexivity.
  - cbn -[digits_value] in *. rewrite Hc, V. reflexivity.
  - cbn -[digits_value] in *. rewrite Hc, V. reflexivity.
Qed.
Lemma sToInt_scan : forall s, sToInt s = match scan INT_MIN INT_MAX s with Some z => Ok z | None => terminated end.
Proof. reflexivity. Qed.
Lemma sToSizeT_scan : forall s, sToSizeT s = match scan LONG_MIN LONG_MAX s with Some z => Ok (toNum u64 z) | None => terminated end.
Proof. reflexivity. Qed.

Lemma int_text_ok : forall s,
  (forall z, sToInt s = Ok z <-> number s z /\ -2147483648 <= z <= 2147483647) /\
  ((forall z, number s z -> ~ -2147483648 <= z <= 2147483647) -> sToInt s = terminated).
Proof.
  intros s. rewrite sToInt_scan. split.
  - intros z. split.
    + destruct (scan _ _ s) as [y|] eqn:E; [|discriminate]. intros H. injection H as <-. apply scan_some in E. exact E.
    + intros [N R]. rewrite (scan_of _ _ s z N). unfold INT_MIN, INT_MAX. replace (_ && _) with true by lia. reflexivity.
  - intros H. destruct (scan _ _ s) as [y|] eqn:E; [|reflexivity]. apply scan_some in E. destruct E as [N R].
    destruct (H y N). exact R.
Qed.
Lemma size_num : forall z, LONG_MIN <= z <= LONG_MAX -> toNum u64 z = if z <? 0 then 2 ^ 64 + z else z.
Proof.
  intros z R. unfold LONG_MIN, LONG_MAX in R. unfold toNum. cbn [signed u64 andb bits].
  destruct (Z.ltb_spec z 0) as [L|L]; symmetry.
  - apply (Z.mod_unique_pos z (2 ^ 64) (-1)); lia.
  - apply (Z.mod_unique_pos z (2 ^ 64) 0); lia.
Qed.
Lemma size_text_ok : forall s,
  (forall n, sToSizeT s = Ok n <->
     exists z, number s z /\ LONG_MIN <= z <= LONG_MAX /\ n = if z <? 0 then 2 ^ 64 + z else z) /\
  ((forall z, number s z -> ~ LONG_MIN <= z <= LONG_MAX) -> sToSizeT s = terminated).
Proof.
  intros s. rewrite sToSizeT_scan. split.
  - intros n. split.
    + destruct (scan _ _ s) as [y|] eqn:E; [|discriminate]. intros H. injection H as <-. apply scan_some in E.
      destruct E as [N R]. exists y. split; [exact N|]. split; [exact R|]. apply size_num. exact R.
    + intros (z & N & R & ->). rewrite (scan_of _ _ s z N). replace (_ && _) with true by lia. rewrite size_num by exact R.
      reflexivity.
  - intros H. destruct (scan _ _ s) as [y|] eqn:E; [|reflexivity]. apply scan_some in E. destruct E as [N R].
    destruct (H y N). exact R.
Qed.
Lemma fold_decimal : forall s acc, fold_left (fun acc c => 10 * acc + (Z.of_N (N_of_ascii c) - 48)) s acc =
  acc * 10 ^ Z.of_nat (length s) + decimal s.
Proof.
  induction s as [|c s IH]; intros acc; cbn [fold_left decimal length]; [rewrite Z.pow_0_r; lia|].
  rewrite IH, Nat2Z.inj_succ, Z.pow_succ_r by lia. lia.
Qed.
Lemma numeral_number : forall n s, IntToStrSpec.decimal n s -> number s n.
Proof.
  intros n s [[P (N1 & N2 & _ & V)]|[P (t & -> & (N1 & N2 & _ & V))]];
    unfold IntToStrSpec.digits_value in V; rewrite fold_decimal in V; rewrite Z.mul_0_l, Z.add_0_l in V.
  - exists [], [], s, []. rewrite app_nil_r. repeat split; auto.
  - exists [], (lit "-"), t, []. rewrite app_nil_r. repeat split; auto. right. split; [reflexivity|lia].
Qed.
Lemma numeral_back : forall n s, IntToStrSpec.decimal n s ->
  sToInt s = (if (-2147483648 <=? n) && (n <=? 2147483647) then Ok n else terminated) /\
  sToSizeT s = (if (LONG_MIN <=? n) && (n <=? LONG_MAX) then Ok (if n <? 0 then 2 ^ 64 + n else n) else terminated).
Proof.
  intros n s H. apply numeral_number in H. rewrite sToInt_scan, sToSizeT_scan.
  rewrite (scan_of _ _ s n H), (scan_of _ _ s n H). unfold INT_MIN, INT_MAX. split.
  - destruct (_ && _); reflexivity.
  - destruct ((LONG_MIN <=? n) && (n <=? LONG_MAX)) eqn:E; [|reflexivity]. rewrite size_num by lia. reflexivity.
Qed.
Lemma printed_decimal : forall t lo hi buf n s, In (t, lo, hi) IntToStrSpec.safe_ranges ->
  length buf = IntToStrModel.t_digits10 t -> IntToStrModel.t_min t <= n <= IntToStrModel.t_max t ->
  IntToStrModel.toStr t buf n = Ok s -> IntToStrSpec.decimal n s.
Proof.
  intros t lo hi buf n s I L R E. pose proof IntToStrProofs.conv_ranges as F. rewrite Forall_forall in F.
  specialize (F _ I). cbn beta iota in F. destruct (F buf n L R) as [A B].
  destruct (Z_lt_dec lo n) as [X|X]; [destruct (Z_lt_dec n hi) as [Y|Y]|].
  - destruct (A (conj X Y)) as (s' & E' & D). congruence.
  - rewrite B in E by lia. discriminate.
  - rewrite B in E by lia. discriminate.
Qed.
Lemma print_read : forall buf n s, length buf = 9%nat -> INT_MIN <= n <= INT_MAX ->
  IntToStrModel.toStr IntToStrModel.t_int buf n = Ok s -> sToInt s = Ok n.
Proof.
  intros buf n s L R E. assert (D : IntToStrSpec.decimal n s).
  { eapply (printed_decimal IntToStrModel.t_int); [|exact L|exact R|exact E]. cbn. tauto. }
  destruct (numeral_back n s D) as [-> _]. unfold INT_MIN, INT_MAX in R. replace (_ && _) with true by lia. reflexivity.
Qed.
Lemma print_read_size : forall buf n s, length buf = 19%nat -> 0 <= n < 2 ^ 64 ->
  IntToStrModel.toStr IntToStrModel.t_ulong buf n = Ok s -> sToSizeT s = Ok n.
Proof.
  intros buf n s L R E. assert (D : IntToStrSpec.decimal n s).
  { eapply (printed_decimal IntToStrModel.t_ulong); [|exact L| |exact E]; [cbn; tauto|]. cbn [IntToStrModel.t_min IntToStrModel.t_max IntToStrModel.t_ulong]. lia. }
  pose proof IntToStrProofs.conv_ranges as F. rewrite Forall_forall in F.
  specialize (F (IntToStrModel.t_ulong, -1, 1000000000000000000) ltac:(cbn; tauto)). cbn beta iota in F.
  destruct (F buf n L) as [_ B]; [cbn [IntToStrModel.t_min IntToStrModel.t_max IntToStrModel.t_ulong]; lia|].
  assert (n < 1000000000000000000) by (destruct (Z_lt_dec n 1000000000000000000); [assumption|rewrite B in E by lia; discriminate]).
  destruct (numeral_back n s D) as [_ ->]. unfold LONG_MIN, LONG_MAX. replace (_ && _) with true by lia.
  replace (n <? 0) with false by lia. reflexivity.
Qed.

(** ** Integers to integers *)
Definition sane (t : itype) : Prop := 8 <= bits t.
Lemma sane_types : forall t, In t itypes -> sane t.
Proof. unfold sane. intros t H. cbn in H. intuition (subst; cbn; lia). Qed.
Lemma half_pow : forall t, sane t -> 2 ^ bits t = 2 * 2 ^ (bits t - 1) /\ 128 <= 2 ^ (bits t - 1).
Proof.
  intros t S. split.
  - rewrite <- Z.pow_succ_r by (unfold sane in S; lia). f_equal. lia.
  - change 128 with (2 ^ 7). apply Z.pow_le_mono_r; unfold sane in S; lia.
Qed.
Lemma toNum_ok : forall t x, sane t -> tmin t <= toNum t x <= tmax t /\ same_mod (2 ^ bits t) (toNum t x) x.
Proof.
  intros t x S. destruct (half_pow t S) as [P Q]. unfold tmin, tmax, toNum, same_mod.
  pose proof (Z.mod_pos_bound x (2 ^ bits t) ltac:(lia)) as B. pose proof (Z_div_mod_eq_full x (2 ^ bits t)) as E.
  destruct (signed t); cbn [andb].
  - destruct (Z.leb_spec (2 ^ (bits t - 1)) (x mod 2 ^ bits t)).
    + split; [lia|]. exists (- (x / 2 ^ bits t) - 1). nia.
    + split; [lia|]. exists (- (x / 2 ^ bits t)). nia.
  - split; [lia|]. exists (- (x / 2 ^ bits t)). nia.
Qed.
Lemma range_unique : forall t y z, sane t -> tmin t <= y <= tmax t -> tmin t <= z <= tmax t ->
  same_mod (2 ^ bits t) y z -> y = z.
Proof.
  intros t y z S Y Z [k E]. destruct (half_pow t S) as [P Q]. unfold tmin, tmax in *.
  assert (k = 0) by (destruct (signed t); nia). nia.
Qed.
Lemma toNum_id : forall t x, sane t -> tmin t <= x <= tmax t -> toNum t x = x.
Proof. intros t x S R. destruct (toNum_ok t x S) as [A B]. apply (range_unique t _ _ S A R B). Qed.
Lemma toNum_unique : forall t x y, sane t -> tmin t <= y <= tmax t -> same_mod (2 ^ bits t) y x -> y = toNum t x.
Proof.
  intros t x y S R [k E]. destruct (toNum_ok t x S) as [A [j B]]. apply (range_unique t _ _ S R A). exists (k - j). lia.
Qed.
Lemma toNum_back : forall t u x, sane t -> sane u -> bits t <= bits u -> tmin t <= x <= tmax t -> toNum t (toNum u x) = x.
Proof.
  intros t u x S U L R. symmetry. apply toNum_unique; auto. destruct (toNum_ok u x U) as [_ [k E]].
  assert (W : 2 ^ bits u = 2 ^ (bits u - bits t) * 2 ^ bits t) by (rewrite <- Z.pow_add_r by (unfold sane in *; lia); f_equal; lia).
  rewrite W in E. exists (- k * 2 ^ (bits u - bits t)). nia.
Qed.

(** ** Floats to integers *)
Lemma truncate_toward : forall f z, truncate f = Some z <-> toward_zero f z.
Proof.
  intros [s|s| |s m e] z; cbn [truncate toward_zero]; try (split; [discriminate|tauto]); try (split; [congruence|intros ->; reflexivity]).
  assert (A : forall a, (if 0 <=? e then Zpos m * 2 ^ e else Zpos m / 2 ^ (- e)) = a <->
    a * 2 ^ Z.max 0 (- e) <= Zpos m * 2 ^ Z.max 0 e < (a + 1) * 2 ^ Z.max 0 (- e)).
  { intros a. destruct (Z.leb_spec 0 e) as [L|L].
    - rewrite (Z.max_l 0 (- e)), (Z.max_r 0 e) by lia. rewrite Z.pow_0_r. lia.
    - rewrite (Z.max_r 0 (- e)), (Z.max_l 0 e) by lia. rewrite Z.pow_0_r, Z.mul_1_r.
      assert (P : 0 < 2 ^ (- e)) by (apply Z.pow_pos_nonneg; lia).
      pose proof (Z.mod_pos_bound (Zpos m) (2 ^ (- e)) P). pose proof (Z_div_mod_eq_full (Zpos m) (2 ^ (- e))).
      split; [intros <-; nia|]. intros [X Y]. symmetry. apply (Z.div_unique_pos (Zpos m) (2 ^ (- e)) a (Zpos m - 2 ^ (- e) * a)); lia. }
  split.
  - intros H. injection H as <-. eexists. split; [reflexivity|]. apply A. reflexivity.
  - intros (a & -> & H). apply A in H. rewrite H. reflexivity.
Qed.
Lemma of_floating : forall t f,
  (forall z, toNum_of_floating t f = Ok z <-> toward_zero f z /\ tmin t <= z <= tmax t) /\
  ((forall z, toward_zero f z -> ~ tmin t <= z <= tmax t) -> toNum_of_floating t f = UB).
Proof.
  intros t f. unfold toNum_of_floating. split.
  - intros z. split.
    + destruct (truncate f) as [y|] eqn:E; [|discriminate]. destruct (_ && _) eqn:B; [|discriminate].
      intros H. injection H as <-. apply truncate_toward in E. split; [exact E|lia].
    + intros [A B]. apply truncate_toward in A. rewrite A. replace (_ && _) with true by lia. reflexivity.
  - intros H. destruct (truncate f) as [y|] eqn:E; [|reflexivity]. apply truncate_toward in E. specialize (H y E).
    replace (_ && _) with false by lia. reflexivity.
Qed.
Lemma double_back : forall t z, In t itypes -> tmin t <= z <= tmax t -> Z.abs z <= 2 ^ 53 ->
  toNum_of_floating t (toDouble z) = Ok z.
Proof.
  intros t z I R B. unfold toNum_of_floating, toDouble. rewrite of_int_whole by exact B.
  rewrite truncate_whole by lia. replace (if z <? 0 then - Z.abs z else Z.abs z) with z by (destruct (Z.ltb_spec z 0); lia).
  replace (_ && _) with true by lia. reflexivity.
Qed.
