(** Lemmas on reading numbers. *)
From Coq Require Import String Ascii ZArith NArith Arith Bool Lia List.
From Coq Require Import Floats.SpecFloat.
From Verif Require Import Common ListAux IntToStrModel IntToStrSpec IntToStrProofs JsonNumModel JsonModel JsonSpec.
Import ListNotations.
Local Open Scope Z_scope.

(** ** Characters *)
Lemma ch_eq_dec : forall c d : ascii, c = d \/ c <> d.
Proof. intros c d. destruct (ascii_dec c d); auto. Qed.
Lemma num_of_bound : forall c, 0 <= num_of c < 256.
Proof. intros c. unfold num_of. pose proof (N_ascii_bounded c). lia. Qed.
Lemma num_of_inj : forall c d, num_of c = num_of d -> c = d.
Proof.
  intros c d H. unfold num_of in H. apply N2Z.inj in H.
  rewrite <- (ascii_N_embedding c), <- (ascii_N_embedding d), H. reflexivity.
Qed.
Lemma eqb_num : forall c d, Ascii.eqb c d = (num_of c =? num_of d).
Proof.
  intros c d. destruct (Ascii.eqb_spec c d) as [->|N].
  - symmetry. apply Z.eqb_eq. reflexivity.
  - symmetry. apply Z.eqb_neq. intros E. apply N. now apply num_of_inj.
Qed.
Lemma isDigit_iff : forall c, isDigit c = true <-> is_digit c.
Proof. intros c. unfold isDigit, is_digit, num_of. rewrite andb_true_iff, !Z.leb_le. lia. Qed.

(** Characters a number can contain, with all letters. *)
Definition numchar (c : ascii) : bool :=
  (((48 <=? num_of c) && (num_of c <=? 57)) || ((65 <=? num_of c) && (num_of c <=? 90))
  || ((97 <=? num_of c) && (num_of c <=? 122)) || (num_of c =? 43) || (num_of c =? 45) || (num_of c =? 46)).
Definition stops (tail : bytes) : Prop := match tail with [] => True | c :: _ => numchar c = false end.

Ltac charsolve :=
  repeat match goal with
  | H : context[numchar _] |- _ => unfold numchar in H
  end;
  unfold isHex, isDigit, lower_is in *; rewrite ?eqb_num in *;
  repeat match goal with |- context[num_of (Ascii ?a ?b ?c ?d ?e ?f ?g ?h)] =>
    let v := eval vm_compute in (num_of (Ascii a b c d e f g h)) in change (num_of (Ascii a b c d e f g h)) with v end;
  lia.
Lemma not_digit : forall c, numchar c = false -> isDigit c = false.
Proof. intros. charsolve. Qed.
Lemma not_hex : forall c, numchar c = false -> isHex c = false.
Proof. intros. charsolve. Qed.
Lemma not_is : forall c d, numchar c = false -> numchar d = true -> Ascii.eqb c d = false.
Proof. intros c d H1 H2. destruct (Ascii.eqb_spec c d) as [->|]; congruence. Qed.
Lemma not_lower : forall c d, numchar c = false -> (d = "x" \/ d = "i" \/ d = "n" \/ d = "f" \/ d = "a")%char -> lower_is c d = false.
Proof. intros c d H [->|[->|[->|[->| ->]]]]; charsolve. Qed.

(** ** Scanning stops at the first foreign character *)
Lemma span_app : forall p t tail a r, (forall c, numchar c = false -> p c = false) -> stops tail ->
  span p t = (a, r) -> span p (t ++ tail) = (a, r ++ tail).
Proof.
  induction t as [|c t IH]; intros tail a r Hp St E.
  - cbn in E. injection E as <- <-. destruct tail as [|c tail]; [reflexivity|]. cbn in *. now rewrite (Hp _ St).
  - cbn in E |- *. destruct (p c).
    + destruct (span p t) as [x y] eqn:S. injection E as <- <-. now rewrite (IH tail x y Hp St eq_refl).
    + injection E as <- <-. reflexivity.
Qed.
Lemma span_split : forall p t a r, span p t = (a, r) -> t = a ++ r /\ Forall (fun c => p c = true) a.
Proof.
  induction t as [|c t IH]; intros a r E; cbn in E.
  - injection E as <- <-. auto.
  - destruct (p c) eqn:P.
    + destruct (span p t) as [x y]. injection E as <- <-. destruct (IH x y eq_refl) as (-> & F). auto.
    + injection E as <- <-. auto.
Qed.
Lemma is_char_app : forall t tail d, stops tail -> numchar d = true -> is_char (t ++ tail) d = is_char t d.
Proof.
  intros [|c t] tail d St N; [|reflexivity]. cbn. destruct tail as [|c tail]; [reflexivity|]. cbn in *.
  rewrite Ascii.eqb_sym. now apply not_is.
Qed.
Lemma scan_mantissa_app : forall p t tail ip fp r, (forall c, numchar c = false -> p c = false) -> stops tail ->
  scan_mantissa p t = (ip, fp, r) -> scan_mantissa p (t ++ tail) = (ip, fp, r ++ tail).
Proof.
  intros p t tail ip fp r Hp St E. unfold scan_mantissa in *. destruct (span p t) as [a x] eqn:S.
  rewrite (span_app p t tail a x Hp St S). destruct x as [|c x].
  - injection E as <- <- <-. cbn. destruct tail as [|c tail]; [reflexivity|].
    rewrite (not_is c "." St) by reflexivity. reflexivity.
  - cbn [app]. destruct (Ascii.eqb c ".").
    + destruct (span p x) as [u y] eqn:S2. rewrite (span_app p x tail u y Hp St S2).
      destruct a, u; injection E as <- <- <-; reflexivity.
    + injection E as <- <- <-. reflexivity.
Qed.
Lemma tl_app_nonempty : forall (t tail : bytes), t <> [] -> tl (t ++ tail) = tl t ++ tail.
Proof. intros [|c t] tail N; [now destruct N|reflexivity]. Qed.
Lemma is_char_nonempty : forall t d, is_char t d = true -> t <> [].
Proof. intros [|c t] d H E; discriminate. Qed.
Lemma scan_exponent_app : forall ls t tail e r, Forall (fun c => numchar c = true) ls -> stops tail ->
  scan_exponent ls t = (e, r) -> scan_exponent ls (t ++ tail) = (e, r ++ tail).
Proof.
  intros ls t tail e r Hl St E. unfold scan_exponent in *. destruct t as [|c t].
  - injection E as <- <-. cbn. destruct tail as [|c tail]; [reflexivity|].
    replace (existsb (Ascii.eqb c) ls) with false; [reflexivity|].
    symmetry. apply not_true_iff_false. intros X. apply existsb_exists in X. destruct X as (d & I & X).
    rewrite Forall_forall in Hl. apply Hl in I. rewrite (not_is c d St I) in X. discriminate.
  - cbn [app]. destruct (existsb (Ascii.eqb c) ls); [|injection E as <- <-; reflexivity].
    rewrite !(is_char_app t tail) by (auto; reflexivity).
    destruct (is_char t "-") eqn:M; [|destruct (is_char t "+") eqn:P].
    + rewrite tl_app_nonempty by (eapply is_char_nonempty; eauto).
      destruct (span isDigit (tl t)) as [a x] eqn:S. rewrite (span_app isDigit (tl t) tail a x not_digit St S).
      destruct a; injection E as <- <-; reflexivity.
    + rewrite tl_app_nonempty by (eapply is_char_nonempty; eauto).
      destruct (span isDigit (tl t)) as [a x] eqn:S. rewrite (span_app isDigit (tl t) tail a x not_digit St S).
      destruct a; injection E as <- <-; reflexivity.
    + destruct (span isDigit t) as [a x] eqn:S. rewrite (span_app isDigit t tail a x not_digit St S).
      destruct a; injection E as <- <-; reflexivity.
Qed.
Lemma begins_nocase_app : forall w t tail, stops tail ->
  (forall d c, In d w -> numchar c = false -> lower_is c d = false) ->
  begins_nocase (t ++ tail) w = begins_nocase t w.
Proof.
  unfold begins_nocase. induction w as [|d w IH]; intros t tail St H.
  - destruct t, tail; reflexivity.
  - destruct t as [|c t].
    + cbn. destruct tail as [|c tail]; [reflexivity|]. cbn in *. rewrite (H d c) by auto.
      apply andb_false_r.
    + cbn. specialize (IH t tail St (fun e x I => H e x (or_intror I))).
      destruct (lower_is c d); cbn; [exact IH|now rewrite !andb_false_r].
Qed.
Lemma begins_nocase_len : forall w t, begins_nocase t w = true -> (length w <= length t)%nat.
Proof. intros w t H. unfold begins_nocase in H. apply andb_true_iff in H. destruct H as [H _]. now apply Nat.leb_le in H. Qed.

Lemma inf_app : forall t tail, stops tail -> begins_nocase (t ++ tail) (lit "inf") = begins_nocase t (lit "inf").
Proof. intros. apply begins_nocase_app; [assumption|]. intros d c I N. apply not_lower; [exact N|]. cbn in I. intuition auto. Qed.
Lemma nan_app : forall t tail, stops tail -> begins_nocase (t ++ tail) (lit "nan") = begins_nocase t (lit "nan").
Proof. intros. apply begins_nocase_app; [assumption|]. intros d c I N. apply not_lower; [exact N|]. cbn in I. intuition auto. Qed.

Definition decimal_case (neg : bool) (s whole : bytes) : double * bytes :=
  match scan_mantissa isDigit s with
  | ([], [], _) => (S754_zero false, whole)
  | (ip, fp, r) =>
    let '(e, r') := scan_exponent ["e"%char; "E"%char] r in
    (of_scaled neg (to_number 10 (fun c => num_of c - 48) (ip ++ fp)) 10 (e - Z.of_nat (length fp)), r')
  end.
Lemma strtod_unsigned_eq : forall neg s whole, strtod_unsigned neg s whole =
  match s with
  | c :: x :: h =>
    if Ascii.eqb c "0" && lower_is x "x" then
      match scan_mantissa isHex h with
      | ([], [], _) => (S754_zero neg, x :: h)
      | (ip, fp, r) =>
        let '(e, r') := scan_exponent ["p"%char; "P"%char] r in
        (of_scaled neg (to_number 16 hex_value (ip ++ fp)) 2 (e - 4 * Z.of_nat (length fp)), r')
      end
    else if begins_nocase s (lit "inf") || begins_nocase s (lit "nan") then (S754_nan, skipn 3 s)
    else decimal_case neg s whole
  | _ => decimal_case neg s whole
  end.
Proof. intros. destruct s as [|c [|x h]]; reflexivity. Qed.
Lemma decimal_case_app : forall neg s whole tail f r, stops tail ->
  decimal_case neg s whole = (f, r) -> decimal_case neg (s ++ tail) (whole ++ tail) = (f, r ++ tail).
Proof.
  intros neg s whole tail f r St E. unfold decimal_case in *.
  destruct (scan_mantissa isDigit s) as [[ip fp] x] eqn:M.
  rewrite (scan_mantissa_app isDigit s tail ip fp x not_digit St M).
  destruct ip, fp; try (injection E as <- <-; reflexivity);
    destruct (scan_exponent _ x) as [e y] eqn:X;
    (erewrite scan_exponent_app; [|repeat constructor|exact St|exact X]); injection E as <- <-; reflexivity.
Qed.
Lemma strtod_unsigned_app : forall neg s whole tail f r, stops tail ->
  strtod_unsigned neg s whole = (f, r) -> strtod_unsigned neg (s ++ tail) (whole ++ tail) = (f, r ++ tail).
Proof.
  intros neg s whole tail f r St E. rewrite strtod_unsigned_eq in *.
  destruct s as [|c [|x h]].
  - cbn [app]. destruct tail as [|u [|v tail]].
    + exact (decimal_case_app neg [] whole [] f r St E).
    + exact (decimal_case_app neg [] whole [u] f r St E).
    + rewrite (not_is u "0" St) by reflexivity. cbn [andb].
      replace (begins_nocase (u :: v :: tail) (lit "inf")) with false
        by (symmetry; exact (inf_app [] (u :: v :: tail) St)).
      replace (begins_nocase (u :: v :: tail) (lit "nan")) with false
        by (symmetry; exact (nan_app [] (u :: v :: tail) St)).
      exact (decimal_case_app neg [] whole (u :: v :: tail) f r St E).
  - cbn [app]. destruct tail as [|u tail].
    + exact (decimal_case_app neg [c] whole [] f r St E).
    + rewrite (not_lower u "x" St) by auto. rewrite andb_false_r.
      replace (begins_nocase (c :: u :: tail) (lit "inf")) with false
        by (symmetry; exact (inf_app [c] (u :: tail) St)).
      replace (begins_nocase (c :: u :: tail) (lit "nan")) with false
        by (symmetry; exact (nan_app [c] (u :: tail) St)).
      exact (decimal_case_app neg [c] whole (u :: tail) f r St E).
  - change ((c :: x :: h) ++ tail) with (c :: x :: (h ++ tail)). cbv iota beta.
    destruct (Ascii.eqb c "0" && lower_is x "x").
    + destruct (scan_mantissa isHex h) as [[ip fp] y] eqn:M.
      rewrite (scan_mantissa_app isHex h tail ip fp y not_hex St M).
      destruct ip, fp; try (injection E as <- <-; reflexivity);
        destruct (scan_exponent _ y) as [e z] eqn:X;
        (erewrite scan_exponent_app; [|repeat constructor|exact St|exact X]); injection E as <- <-; reflexivity.
    + change (c :: x :: (h ++ tail)) with ((c :: x :: h) ++ tail).
      rewrite inf_app, nan_app by assumption.
      destruct (begins_nocase (c :: x :: h) (lit "inf")) eqn:B1; [|destruct (begins_nocase (c :: x :: h) (lit "nan")) eqn:B2];
        cbn [orb] in *.
      * apply begins_nocase_len in B1. cbn [lit list_ascii_of_string length] in B1. injection E as <- <-.
        rewrite skipn_app. replace (3 - length (c :: x :: h))%nat with 0%nat by (cbn [length] in *; lia). reflexivity.
      * apply begins_nocase_len in B2. cbn [lit list_ascii_of_string length] in B2. injection E as <- <-.
        rewrite skipn_app. replace (3 - length (c :: x :: h))%nat with 0%nat by (cbn [length] in *; lia). reflexivity.
      * apply decimal_case_app; assumption.
Qed.
(** What follows a number does not matter as long as it cannot continue it. *)
Lemma strtod_app : forall t tail f r, stops tail -> strtod t = (f, r) -> strtod (t ++ tail) = (f, r ++ tail).
Proof.
  intros t tail f r St E. unfold strtod in *. rewrite is_char_app by (auto; reflexivity).
  destruct (is_char t "-") eqn:M.
  - rewrite tl_app_nonempty by (eapply is_char_nonempty; eauto). now apply strtod_unsigned_app.
  - now apply strtod_unsigned_app.
Qed.

(** ** Decimal numbers are read as written *)
Lemma digit_numchar : forall c, is_digit c -> numchar c = true.
Proof. intros c H. apply isDigit_iff in H. unfold numchar, isDigit in *. rewrite H. reflexivity. Qed.
Lemma span_digits : forall a r, Forall is_digit a -> (match r with [] => True | c :: _ => isDigit c = false end) ->
  span isDigit (a ++ r) = (a, r).
Proof.
  induction a as [|c a IH]; intros r F N; cbn.
  - destruct r as [|c r]; [reflexivity|]. cbn. now rewrite N.
  - inversion F as [|? ? D F']; subst. apply isDigit_iff in D. rewrite D. now rewrite (IH r F' N).
Qed.
Lemma to_number_digits : forall s, to_number 10 (fun c => num_of c - 48) s = digits_value s.
Proof.
  intros s. unfold to_number, digits_value, num_of. generalize 0. induction s as [|c s IH]; intros a; cbn [fold_left]; [reflexivity|].
  rewrite IH. f_equal. lia.
Qed.
Lemma exponent_read : forall t v, exponent_text t v -> scan_exponent ["e"%char; "E"%char] t = (v, []).
Proof.
  intros t v [(-> & ->)|(c & sg & ds & -> & Hc & N & F & Hs)]; [reflexivity|].
  unfold scan_exponent.
  replace (existsb (Ascii.eqb c) ["e"%char; "E"%char]) with true by (destruct Hc as [-> | ->]; reflexivity).
  assert (S : span isDigit ds = (ds, [])) by (rewrite <- (app_nil_r ds) at 1; apply span_digits; auto).
  destruct ds as [|d ds]; [now destruct N|].
  destruct Hs as [(-> & ->)|[(-> & ->)|(-> & ->)]].
  - cbn [app is_char]. inversion F as [|? ? D F']; subst.
    assert (Dm : Ascii.eqb "-" d = false) by (unfold is_digit in D; destruct (Ascii.eqb_spec "-" d) as [<-|]; [cbn in D; lia|reflexivity]).
    assert (Dp : Ascii.eqb "+" d = false) by (unfold is_digit in D; destruct (Ascii.eqb_spec "+" d) as [<-|]; [cbn in D; lia|reflexivity]).
    rewrite Dm, Dp, S. now rewrite to_number_digits.
  - cbn [app is_char tl]. change (Ascii.eqb "-" "+") with false. change (Ascii.eqb "+" "+") with true. cbv iota.
    rewrite S. now rewrite to_number_digits.
  - cbn [app is_char tl]. change (Ascii.eqb "-" "-") with true. cbv iota. rewrite S. now rewrite to_number_digits.
Qed.
Lemma digit_not : forall c d, is_digit c -> isDigit d = false -> Ascii.eqb c d = false.
Proof. intros c d D N. apply isDigit_iff in D. destruct (Ascii.eqb_spec c d) as [->|]; congruence. Qed.
Lemma exponent_start : forall t v, exponent_text t v ->
  match t with [] => True | c :: _ => isDigit c = false /\ Ascii.eqb c "." = false /\ lower_is c "x" = false end.
Proof. intros t v [(-> & _)|(c & sg & ds & -> & [-> | ->] & _)]; cbn; auto. Qed.
Lemma mantissa_read : forall ip frac fp ex ev, ip <> [] -> Forall is_digit ip ->
  ((frac = [] /\ fp = []) \/ (frac = "."%char :: fp /\ fp <> [] /\ Forall is_digit fp)) -> exponent_text ex ev ->
  scan_mantissa isDigit (ip ++ frac ++ ex) = (ip, fp, ex).
Proof.
  intros ip frac fp ex ev N F Hf X. pose proof (exponent_start _ _ X) as Xs. unfold scan_mantissa.
  destruct Hf as [(-> & ->)|(-> & Nf & Ff)].
  - cbn [app]. rewrite span_digits by (auto; destruct ex; intuition auto). destruct ex as [|c ex]; [reflexivity|].
    destruct Xs as (_ & D & _). now rewrite D.
  - rewrite span_digits by (auto; reflexivity). cbn [app]. change (Ascii.eqb "." ".") with true. cbv iota.
    rewrite span_digits by (auto; destruct ex; intuition auto). destruct ip; [now destruct N|reflexivity].
Qed.
Lemma digit_not_lower : forall c d, is_digit c -> (d = "x" \/ d = "i" \/ d = "n")%char -> lower_is c d = false.
Proof.
  intros c d D H. apply isDigit_iff in D. unfold isDigit, lower_is in *. rewrite !eqb_num.
  destruct H as [->|[->| ->]];
  repeat match goal with |- context[num_of (Ascii ?a ?b ?c ?d ?e ?f ?g ?h)] =>
    let v := eval vm_compute in (num_of (Ascii a b c d e f g h)) in change (num_of (Ascii a b c d e f g h)) with v end; lia.
Qed.
Lemma begins_digit : forall c s, is_digit c -> begins_nocase (c :: s) (lit "inf") = false /\ begins_nocase (c :: s) (lit "nan") = false.
Proof.
  intros c s D. unfold begins_nocase. cbn [lit list_ascii_of_string combine forallb fst snd].
  rewrite (digit_not_lower c "i" D), (digit_not_lower c "n" D) by auto. now rewrite !andb_false_r.
Qed.
Lemma number_read : forall t neg m e, number_text t neg m e -> strtod t = (of_scaled neg m 10 e, []).
Proof.
  intros t neg m e (ip & frac & fp & ex & ev & -> & N & F & Hf & X & -> & ->).
  pose proof (mantissa_read ip frac fp ex ev N F Hf X) as M. pose proof (exponent_read ex ev X) as R.
  assert (U : forall whole, strtod_unsigned neg (ip ++ frac ++ ex) whole
    = (of_scaled neg (digits_value (ip ++ fp)) 10 (ev - Z.of_nat (length fp)), [])).
  { intros whole. rewrite strtod_unsigned_eq.
    assert (Dc : decimal_case neg (ip ++ frac ++ ex) whole
      = (of_scaled neg (digits_value (ip ++ fp)) 10 (ev - Z.of_nat (length fp)), [])).
    { unfold decimal_case. rewrite M. destruct ip as [|c ip]; [now destruct N|]. rewrite R. now rewrite to_number_digits. }
    destruct ip as [|c ip]; [now destruct N|]. inversion F as [|? ? D F']; subst.
    assert (Lx : match (ip ++ frac ++ ex) with [] => True | x :: _ => lower_is x "x" = false end).
    { destruct ip as [|c2 ip].
      - pose proof (exponent_start _ _ X) as Xs. cbn [app]. destruct Hf as [(-> & _)|(-> & _)]; [|reflexivity].
        cbn [app]. destruct ex; intuition auto.
      - inversion F' as [|? ? D2 F2]; subst. cbn [app]. apply digit_not_lower; auto. }
    change ((c :: ip) ++ frac ++ ex) with (c :: (ip ++ frac ++ ex)) in *.
    destruct (ip ++ frac ++ ex) as [|x h]; [exact Dc|]. rewrite Lx, andb_false_r.
    destruct (begins_digit c (x :: h) D) as (-> & ->). exact Dc. }
  unfold strtod. destruct neg.
  - cbn [app is_char tl]. change (Ascii.eqb "-" "-") with true. cbv iota. apply U.
  - cbn [app]. replace (is_char (ip ++ frac ++ ex) "-") with false; [apply U|].
    destruct ip as [|c ip]; [now destruct N|]. inversion F as [|? ? D F']; subst. cbn [app is_char].
    rewrite Ascii.eqb_sym. symmetry. apply digit_not; [exact D|reflexivity].
Qed.
