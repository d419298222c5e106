From Coq Require Import String Ascii ZArith NArith Arith Bool Lia List.
From Verif Require Import Common IntToStrSpec IntToStrModel StrfModel StrfProofs PcgModel U128Model U128Spec U128Proofs PcgIoModel PcgIoSpec.
Import ListNotations.
Local Open Scope Z_scope.

(** ** Reading *)
Lemma isspace_blank : forall c, isspace c = true <-> blank c.
Proof. intros c. unfold isspace, blank. lia. Qed.
Lemma isdigit_digit : forall c, isdigit c = true <-> is_digit c.
Proof. intros c. unfold isdigit, is_digit. lia. Qed.
Lemma digit_not_blank : forall c, is_digit c -> isspace c = false.
Proof. intros c. unfold isspace, is_digit. lia. Qed.
Lemma drop_blanks : forall b r, Forall blank b -> drop_space (b ++ r) = drop_space r.
Proof. induction 1 as [|c b H F IH]; cbn; [reflexivity|]. apply isspace_blank in H. now rewrite H. Qed.
Lemma drop_split : forall s, exists b, s = b ++ drop_space s /\ Forall blank b /\ match drop_space s with c :: _ => ~ blank c | [] => True end.
Proof.
  induction s as [|c s (b & E & F & H)]; cbn; [exists []; auto|]. destruct (isspace c) eqn:S.
  - exists (c :: b). cbn. rewrite <- E. repeat split; auto. constructor; auto. now apply isspace_blank.
  - exists []. repeat split; auto. intros B. apply isspace_blank in B. congruence.
Qed.
Lemma take_digits_ok : forall ds r acc, Forall is_digit ds -> stops r ->
  take_digits acc (ds ++ r) = (fold_left (fun a c => 10 * a + (Z.of_N (N_of_ascii c) - 48)) ds acc, r).
Proof.
  intros ds r acc F. revert acc. induction F as [|c ds D F IH]; intros acc S.
  - destruct r as [|c r]; [reflexivity|]. cbn in *. destruct (isdigit c) eqn:E; [apply isdigit_digit in E; tauto|reflexivity].
  - cbn [app take_digits fold_left]. apply isdigit_digit in D. rewrite D, IH by assumption. do 2 f_equal. lia.
Qed.
Lemma digits_split : forall s, exists ds r, s = ds ++ r /\ Forall is_digit ds /\ stops r.
Proof.
  induction s as [|c s (ds & r & E & F & S)]; [exists [], []; cbn; auto|]. destruct (isdigit c) eqn:D.
  - apply isdigit_digit in D. exists (c :: ds), r. cbn. subst s. auto.
  - exists [], (c :: s). cbn. repeat split; auto. rewrite <- isdigit_digit. congruence.
Qed.
Lemma fold_nonneg : forall ds acc, Forall is_digit ds -> 0 <= acc -> 0 <= fold_left (fun a c => 10 * a + (Z.of_N (N_of_ascii c) - 48)) ds acc.
Proof. intros ds acc F. revert acc. induction F as [|c ds D F IH]; intros acc H; cbn [fold_left]; [exact H|]. apply IH. unfold is_digit in D. lia. Qed.
Lemma value_nonneg : forall ds, Forall is_digit ds -> 0 <= digits_value ds.
Proof. intros ds F. apply fold_nonneg; [exact F|lia]. Qed.
Definition empty_b (r : bytes) : bool := match r with [] => true | _ => false end.
Definition fresh (r : bytes) (f : flags) : istream := mkS r false false f.
Definition after (r : bytes) (f : flags) : istream := mkS r (empty_b r) false f.
Lemma sentry_fresh : forall b c r f, skipws f = true -> Forall blank b -> ~ blank c -> sentry (fresh (b ++ c :: r) f) = (fresh (c :: r) f, true).
Proof.
  intros b c r f K B N. unfold sentry, fresh. cbn [good eofbit failbit negb orb iflags rest]. rewrite K, drop_blanks by exact B. cbn [drop_space].
  destruct (isspace c) eqn:S; [apply isspace_blank in S; tauto|]. reflexivity.
Qed.
Lemma number_head : forall w t n, number_of w t n -> exists c t', t = c :: t' /\ ~ blank c.
Proof.
  intros w t n (sg & ds & -> & N & F & V & [[[->| ->] _]|[-> _]]); cbn [app].
  - destruct ds as [|c ds]; [tauto|]. inversion F as [|? ? D _]; subst. exists c, ds. split; [reflexivity|]. unfold blank, is_digit in *. lia.
  - exists "+"%char, ds. split; [reflexivity|]. unfold blank. cbn. lia.
  - exists "-"%char, ds. split; [reflexivity|]. unfold blank. cbn. lia.
Qed.
Lemma number_bound : forall w t n, 0 < w -> number_of w t n -> 0 <= n < 2 ^ w.
Proof.
  intros w t n W (sg & ds & -> & N & F & V & [[_ ->]|[_ ->]]).
  - split; [now apply value_nonneg|exact V].
  - apply Z.mod_pos_bound. apply Z.pow_pos_nonneg; lia.
Qed.
Lemma extract_word_ok : forall w b t n r f, skipws f = true -> Forall blank b -> number_of w t n -> stops r ->
  extract_unsigned w (fresh (b ++ t ++ r) f) = (after r f, Some n).
Proof.
  intros w b t n r f K B H S. pose proof (number_head _ _ _ H) as (c & t' & E & NB). destruct H as (sg & ds & Et & N & F & V & C).
  unfold extract_unsigned. rewrite E. cbn [app]. rewrite sentry_fresh by assumption. cbn [negb].
  change (rest (fresh (c :: t' ++ r) f)) with ((c :: t') ++ r). rewrite <- E, Et.
  assert (X : match (sg ++ ds) ++ r with c0 :: r0 => if Ascii.eqb c0 "-" then (true, r0) else if Ascii.eqb c0 "+" then (false, r0) else (false, (sg ++ ds) ++ r) | [] => (false, []) end
    = (match sg with ["-"%char] => true | _ => false end, ds ++ r)).
  { destruct C as [[[->| ->] _]|[-> _]]; try reflexivity. cbn [app]. destruct ds as [|d ds]; [tauto|]. inversion F as [|? ? D _]; subst. cbn [app].
    destruct (Ascii.eqb_spec d "-"); [subst; unfold is_digit in D; cbn in D; lia|]. destruct (Ascii.eqb_spec d "+"); [subst; unfold is_digit in D; cbn in D; lia|]. reflexivity. }
  rewrite X. rewrite take_digits_ok by assumption. fold (digits_value ds).
  destruct ds as [|d ds]; [tauto|]. cbn [app]. assert (D : isdigit d = true) by (inversion F; subst; now apply isdigit_digit). rewrite D.
  destruct (Z.ltb_spec (digits_value (d :: ds)) (2 ^ w)); [|lia].
  unfold after, fresh, set_state, set_rest, empty_b. cbn [rest eofbit failbit iflags orb]. f_equal. f_equal. destruct C as [[[->| ->] ->]|[-> ->]]; reflexivity.
Qed.
Lemma extract_word_inv : forall w r0 f i' x, skipws f = true -> extract_unsigned w (fresh r0 f) = (i', x) ->
  failbit i' = false /\ (exists b t n r, r0 = b ++ t ++ r /\ Forall blank b /\ number_of w t n /\ stops r /\ x = Some n /\ i' = after r f) \/
  failbit i' = true /\ iflags i' = f.
Proof.
  intros w r0 f i' x K. destruct (drop_split r0) as (b & E & B & H). destruct (drop_space r0) as [|c s] eqn:DS.
  { unfold extract_unsigned, sentry, fresh. cbn [good eofbit failbit negb orb iflags rest]. rewrite K, DS. cbn. intros [= <- <-]. right. now cbn. }
  subst r0. unfold extract_unsigned. rewrite sentry_fresh by assumption. cbn [negb rest fresh].
  remember (match c :: s with c0 :: r0 => if Ascii.eqb c0 "-" then (true, r0) else if Ascii.eqb c0 "+" then (false, r0) else (false, c :: s) | [] => (false, []) end) as p eqn:P.
  destruct p as [neg u]. destruct (digits_split u) as (ds & r & U & F & S). rewrite U, take_digits_ok by assumption. fold (digits_value ds).
  destruct ds as [|d ds].
  { cbn [app]. destruct r as [|d r]; [intros [= <- <-]; right; now cbn|]. cbn in S. destruct (isdigit d) eqn:D; [apply isdigit_digit in D; tauto|].
    intros [= <- <-]. right. now cbn. }
  cbn [app]. assert (D : isdigit d = true) by (inversion F; subst; now apply isdigit_digit). rewrite D.
  destruct (Z.ltb_spec (digits_value (d :: ds)) (2 ^ w)) as [V|V]; intros [= <- <-]; [left|right; now cbn].
  split; [reflexivity|].
  assert (SG : exists sg, c :: s = sg ++ u /\ ((neg = false /\ (sg = [] \/ sg = ["+"%char])) \/ (neg = true /\ sg = ["-"%char]))).
  { destruct (Ascii.eqb_spec c "-") as [->|N1]; [injection P as -> ->; exists ["-"%char]; auto|].
    destruct (Ascii.eqb_spec c "+") as [->|N2]; [injection P as -> ->; exists ["+"%char]; auto 6|]. injection P as -> ->. exists []. auto. }
  destruct SG as (sg & Es & C). exists b, (sg ++ d :: ds), (if neg then (- digits_value (d :: ds)) mod 2 ^ w else digits_value (d :: ds)), r.
  split. { rewrite Es, U, <- !app_assoc. reflexivity. }
  split; [exact B|]. split; [|split; [exact S|split; reflexivity]].
  exists sg, (d :: ds). split; [reflexivity|]. split; [discriminate|]. split; [exact F|]. split; [exact V|]. destruct C as [[-> C]|[-> C]]; auto.
Qed.
(** A stream that has failed or ended. *)
Lemma extract_dead : forall k i, good i = false -> exists x, extract_num k i = (set_state false true i, x).
Proof.
  intros k i G. destruct k; cbn [extract_num]; unfold extract_char, extract_unsigned, extract_big, sentry; rewrite G; cbn; eauto.
Qed.
Lemma after_good : forall r f, r <> [] -> after r f = fresh r f.
Proof. intros [|c r] f H; [tauto|reflexivity]. Qed.
Lemma blanks_number_nonempty : forall w (b t r : bytes) n, number_of w t n -> b ++ t ++ r <> [].
Proof. intros w b t r n H E. apply number_head in H. destruct H as (c & t' & -> & _). destruct b; discriminate. Qed.
Definition next_increment (settable : bool) (c n : Z) : Z := if settable then 2 * (n / 2) + 1 else c.
Lemma stream_odd : forall w n, 0 < w -> 0 <= n < 2 ^ w -> stream_increment w (Z.shiftr n 1) = 2 * (n / 2) + 1.
Proof.
  intros w n W H. unfold stream_increment. rewrite Z.shiftr_div_pow2 by lia. change (2 ^ 1) with 2.
  rewrite Z.mod_small by (split; [|apply Z.le_lt_trans with n; [|lia]]; pose proof (Z.div_mod n 2 ltac:(lia)); pose proof (Z.mod_pos_bound n 2 ltac:(lia)); lia).
  rewrite (Z.mul_comm (n / 2) 2). remember (n / 2) as q. clear.
  apply Z.bits_inj'. intros i Hi. rewrite Z.lor_spec. destruct (Z.eq_dec i 0) as [->|].
  - rewrite Z.testbit_odd_0, Z.testbit_even_0. reflexivity.
  - replace i with (Z.succ (i - 1)) by lia. rewrite Z.testbit_odd_succ, Z.testbit_even_succ by lia.
    change 1 with (2 * 0 + 1) at 2. rewrite Z.testbit_odd_succ, Z.testbit_0_l by lia. apply orb_false_r.
Qed.
Lemma extract_dead2 : forall k i i' x, good i = false -> extract_num k i = (i', x) -> failbit i' = true /\ iflags i' = iflags i /\ good i' = false.
Proof.
  intros k i i' x G E. destruct (extract_dead k i G) as (y & E2). rewrite E in E2. injection E2 as -> ->. cbn. repeat split; [apply orb_true_r|].
  unfold good. cbn. now rewrite orb_true_r, orb_true_r.
Qed.
Lemma good_fail : forall i, failbit i = true -> good i = false.
Proof. intros i H. unfold good. rewrite H, orb_true_r. reflexivity. Qed.
Lemma read_exact : forall w m settable text f c s, 0 < w -> exists i' g',
  read_engine (KWord w) m settable (fresh text f) (c, s) = Ok (i', g') /\ iflags i' = f /\
  (failbit i' = true -> g' = (c, s)) /\
  (failbit i' = false <-> exists n2 n3 r, three w text m n2 n3 r /\ (settable = false -> n2 = c)) /\
  (forall n2 n3 r, three w text m n2 n3 r -> (settable = false -> n2 = c) ->
     g' = (if settable then 2 * (n2 / 2) + 1 else c, n3) /\ rest i' = r /\ (eofbit i' = true <-> r = [])).
Proof.
  intros w m settable text f c s W. set (d := decimal_skip f). assert (K : skipws d = true) by reflexivity.
  (* what a good text gives *)
  assert (GOOD : forall n2 n3 r, three w text m n2 n3 r -> (settable = false -> n2 = c) ->
    read_engine (KWord w) m settable (fresh text f) (c, s) = Ok (after r f, (if settable then 2 * (n2 / 2) + 1 else c, n3))).
  { intros n2 n3 r (b1 & t1 & b2 & t2 & b3 & t3 & -> & B1 & B2 & B3 & N1 & N2 & N3 & S1 & S2 & S3) HC.
    unfold read_engine. cbn [iflags fresh extract_num]. change (set_iflags (decimal_skip f) (fresh ?t f)) with (fresh t d).
    rewrite (extract_word_ok w b1 t1 m) by assumption. rewrite after_good by (eapply blanks_number_nonempty, N2).
    rewrite (extract_word_ok w b2 t2 n2) by assumption. rewrite after_good by (eapply blanks_number_nonempty, N3).
    rewrite (extract_word_ok w b3 t3 n3) by assumption. cbn [failbit after].
    unfold load. rewrite Z.eqb_refl. cbn [negb bits_of]. destruct settable.
    - rewrite stream_odd by (try exact W; eapply number_bound; eassumption). reflexivity.
    - cbn [fst]. rewrite HC, Z.eqb_refl by reflexivity. reflexivity. }
  (* what any text gives *)
  assert (ANY : exists i' g', read_engine (KWord w) m settable (fresh text f) (c, s) = Ok (i', g') /\ iflags i' = f /\
    ((failbit i' = true /\ g' = (c, s)) \/ (failbit i' = false /\ exists n2 n3 r, three w text m n2 n3 r /\ (settable = false -> n2 = c)))).
  { unfold read_engine. cbn [iflags fresh extract_num]. change (set_iflags (decimal_skip f) (fresh text f)) with (fresh text d).
    destruct (extract_unsigned w (fresh text d)) as [i1 x1] eqn:E1. destruct (extract_unsigned w i1) as [i2 x2] eqn:E2. destruct (extract_unsigned w i2) as [i3 x3] eqn:E3.
    assert (DEAD : failbit i3 = true -> exists i' g', obind (if failbit i3 then Ok (i3, (c, s)) else
       match x1, x2, x3 with Some m', Some c', Some s' => match load (bits_of (KWord w)) m (fst (c, s)) settable (m', c', s') with
         Some g => Ok (i3, g) | None => Ok (mkS (rest i3) false true (iflags i3), (c, s)) end | _, _, _ => UB end)
       (fun p => let '(i, g) := p in Ok (set_iflags f i, g)) = Ok (i', g') /\ iflags i' = f /\
       ((failbit i' = true /\ g' = (c, s)) \/ (failbit i' = false /\ exists n2 n3 r, three w text m n2 n3 r /\ (settable = false -> n2 = c)))).
    { intros H. rewrite H. cbn [obind]. exists (set_iflags f i3), (c, s). split; [reflexivity|]. split; [reflexivity|]. left. split; [exact H|reflexivity]. }
    destruct (extract_word_inv _ _ _ _ _ K E1) as [[F1 (b1 & t1 & n1 & r1 & T1 & B1 & N1 & S1 & -> & ->)]|[F1 L1]].
    2: { apply good_fail in F1. apply (extract_dead2 (KWord w) _ _ _ F1) in E2. destruct E2 as (_ & _ & G2). apply (extract_dead2 (KWord w) _ _ _ G2) in E3. apply DEAD. tauto. }
    destruct r1 as [|a1 r1].
    { assert (G1 : good (after [] d) = false) by reflexivity. apply (extract_dead2 (KWord w) _ _ _ G1) in E2. destruct E2 as (_ & _ & G2). apply (extract_dead2 (KWord w) _ _ _ G2) in E3. apply DEAD. tauto. }
    change (after (a1 :: r1) d) with (fresh (a1 :: r1) d) in E2.
    destruct (extract_word_inv _ _ _ _ _ K E2) as [[F2 (b2 & t2 & n2 & r2 & T2 & B2 & N2 & S2 & -> & ->)]|[F2 L2]].
    2: { apply good_fail in F2. apply (extract_dead2 (KWord w) _ _ _ F2) in E3. apply DEAD. tauto. }
    destruct r2 as [|a2 r2].
    { assert (G2 : good (after [] d) = false) by reflexivity. apply (extract_dead2 (KWord w) _ _ _ G2) in E3. apply DEAD. tauto. }
    change (after (a2 :: r2) d) with (fresh (a2 :: r2) d) in E3.
    destruct (extract_word_inv _ _ _ _ _ K E3) as [[F3 (b3 & t3 & n3 & r3 & T3 & B3 & N3 & S3 & -> & ->)]|[F3 L3]].
    2: { apply DEAD. exact F3. }
    clear DEAD. cbn [failbit after]. unfold load. rewrite T1, T2, T3 in *.
    destruct (Z.eqb_spec n1 m) as [->|NM]; cbn [negb].
    2: { cbn [obind]. eexists _, _. split; [reflexivity|]. split; [reflexivity|]. left. split; reflexivity. }
    destruct settable.
    - cbn [obind]. eexists _, _. split; [reflexivity|]. split; [reflexivity|]. right. split; [reflexivity|]. exists n2, n3, r3. split; [|discriminate].
      exists b1, t1, b2, t2, b3, t3. tauto.
    - cbn [fst]. destruct (Z.eqb_spec n2 c) as [->|NC]; cbn [obind].
      + eexists _, _. split; [reflexivity|]. split; [reflexivity|]. right. split; [reflexivity|]. exists c, n3, r3. split; [|reflexivity].
        exists b1, t1, b2, t2, b3, t3. tauto.
      + eexists _, _. split; [reflexivity|]. split; [reflexivity|]. left. split; reflexivity. }
  destruct ANY as (i' & g' & E & FL & H). exists i', g'. split; [exact E|]. split; [exact FL|].
  split. { intros Fb. destruct H as [[_ ->]|[F2 _]]; [reflexivity|congruence]. }
  split.
  - split; [intros Fb; destruct H as [[F2 _]|[_ H]]; [congruence|exact H]|]. intros (n2 & n3 & r & T & HC). rewrite (GOOD n2 n3 r T HC) in E. injection E as <- _. reflexivity.
  - intros n2 n3 r T HC. rewrite (GOOD n2 n3 r T HC) in E. injection E as <- <-. split; [reflexivity|]. split; [reflexivity|]. cbn. destruct r; cbn; split; congruence.
Qed.
