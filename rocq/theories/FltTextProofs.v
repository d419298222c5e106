(** Decimal numbers at the start of a text. *)
From Coq Require Import String Ascii ZArith NArith Arith Bool Lia List QArith Qabs Qpower Lqa.
From Coq Require Import Floats.SpecFloat.
From Verif Require Import Common CmdModel CastModel IntToStrSpec JsonNumModel JsonSpec JsonNumProofs JsonReadProofs RealSpec RealProofs FltModel FltSpec.
Import ListNotations.
Local Open Scope Z_scope.

Definition nodigit (r : bytes) : Prop := match r with [] => True | c :: _ => isDigit c = false end.
Lemma digit_iff : forall c, IntToStrSpec.is_digit c <-> isDigit c = true.
Proof. intros c. symmetry. apply isDigit_iff. Qed.
Lemma no_more_nodigit : forall r, no_more r -> nodigit r.
Proof. intros [|c r] H; [exact I|]. destruct H as [H _]. cbn. apply not_true_iff_false. intros C. apply H, digit_iff, C. Qed.
Lemma no_more_char : forall c r d, no_more (c :: r) -> In d ["."; "e"; "E"; "x"; "X"]%char -> Ascii.eqb c d = false.
Proof. intros c r d [_ H] I. apply Ascii.eqb_neq. intros ->. apply H, I. Qed.
Lemma exponent_tail : forall ex ev rest, exponent_text ex ev -> no_more rest -> scan_exponent ["e"%char; "E"%char] (ex ++ rest) = (ev, rest).
Proof.
  intros ex ev rest [(-> & ->)|(c & sg & ds & -> & Hc & N & F & Hs)] Nm.
  - cbn [app]. destruct rest as [|c rest]; [reflexivity|]. unfold scan_exponent. cbn [existsb].
    rewrite !(no_more_char c rest _ Nm) by (cbn; auto). reflexivity.
  - unfold scan_exponent. cbn [app]. replace (existsb (Ascii.eqb c) ["e"%char; "E"%char]) with true by (destruct Hc as [-> | ->]; reflexivity).
    assert (S : span isDigit (ds ++ rest) = (ds, rest)) by (apply span_digits; [exact F|exact (no_more_nodigit _ Nm)]).
    destruct ds as [|d ds]; [now destruct N|].
    destruct Hs as [(-> & ->)|[(-> & ->)|(-> & ->)]].
    + cbn [app is_char]. inversion F as [|? ? D F']; subst.
      rewrite (Ascii.eqb_sym "-" d), (Ascii.eqb_sym "+" d). rewrite !(digit_not d) by (exact D || reflexivity).
      cbn [app] in S. rewrite S. now rewrite to_number_digits.
    + cbn [app is_char tl]. change (Ascii.eqb "-" "+") with false. change (Ascii.eqb "+" "+") with true. cbv iota. cbn [app] in S.
      rewrite S. now rewrite to_number_digits.
    + cbn [app is_char tl]. change (Ascii.eqb "-" "-") with true. cbv iota. cbn [app] in S. rewrite S. now rewrite to_number_digits.
Qed.
Lemma exponent_head : forall ex ev rest, exponent_text ex ev -> no_more rest ->
  match ex ++ rest with [] => True | c :: _ => isDigit c = false /\ Ascii.eqb c "." = false /\ lower_is c "x" = false end.
Proof.
  intros ex ev rest X Nm. pose proof (exponent_start _ _ X) as Xs. destruct ex as [|c ex]; [|exact Xs]. cbn [app].
  destruct rest as [|c rest]; [exact I|]. split; [exact (no_more_nodigit _ Nm)|]. split; [apply (no_more_char c rest); cbn; auto|].
  unfold lower_is. rewrite (no_more_char c rest "x" Nm) by (cbn; auto). cbn [orb]. apply Z.eqb_neq. intros E.
  assert (c = "X"%char); [|apply (proj2 Nm); subst c; cbn; tauto].
  unfold num_of in E. change (Z.of_N (N_of_ascii "x")) with 120 in E.
  rewrite <- (ascii_N_embedding c). replace (N_of_ascii c) with 88%N by lia. reflexivity.
Qed.
Lemma mantissa_tail : forall ip dot fp ex ev rest, (dot = [] /\ fp = [] \/ dot = ["."%char]) -> ip ++ fp <> [] -> Forall IntToStrSpec.is_digit ip -> Forall IntToStrSpec.is_digit fp ->
  exponent_text ex ev -> no_more rest -> scan_mantissa isDigit (ip ++ dot ++ fp ++ ex ++ rest) = (ip, fp, ex ++ rest).
Proof.
  intros ip dot fp ex ev rest Hd N F1 F2 X Nm. pose proof (exponent_head _ _ _ X Nm) as Xs.
  assert (Nd : nodigit (ex ++ rest)) by (destruct (ex ++ rest); [exact I|apply Xs]).
  unfold scan_mantissa. destruct Hd as [(-> & ->)| ->].
  - cbn [app]. rewrite span_digits by (exact F1 || exact Nd). destruct (ex ++ rest) as [|c t]; [reflexivity|].
    destruct Xs as (_ & D & _). now rewrite D.
  - rewrite span_digits by (exact F1 || reflexivity). cbn [app]. change (Ascii.eqb "." ".") with true. cbv iota.
    rewrite span_digits by (exact F2 || exact Nd). destruct ip, fp; try reflexivity. now destruct N.
Qed.
Lemma scan_text : forall d m e rest, decimal_text d m e -> no_more rest -> scan (d ++ rest) = SNum m 10 e.
Proof.
  intros d m e rest (ip & dot & fp & ex & ev & -> & Hd & N & F1 & F2 & X & -> & ->) Nm.
  rewrite <- !app_assoc. pose proof (mantissa_tail ip dot fp ex ev rest Hd N F1 F2 X Nm) as M. pose proof (exponent_tail ex ev rest X Nm) as E.
  pose proof (exponent_head ex ev rest X Nm) as Xs.
  set (s := ip ++ dot ++ fp ++ ex ++ rest) in *.
  assert (Dc : scan_decimal s = SNum (digits_value (ip ++ fp)) 10 (ev - Z.of_nat (length fp))).
  { unfold scan_decimal. rewrite M, E. cbn [fst]. rewrite to_number_digits. destruct ip, fp; try reflexivity. now destruct N. }
  assert (Hc : match s with c :: x :: _ => (IntToStrSpec.is_digit c \/ c = "."%char) /\ (IntToStrSpec.is_digit c -> lower_is x "x" = false) | _ => True end).
  { unfold s. destruct ip as [|c ip].
    - cbn [app]. destruct Hd as [(-> & ->)| ->]; [now destruct N|]. cbn [app]. destruct (fp ++ ex ++ rest); [exact I|]. split; [auto|].
      intros D. exfalso. apply digit_iff in D. discriminate D.
    - inversion F1 as [|? ? D F1']; subst. cbn [app]. destruct ip as [|c2 ip].
      + cbn [app]. destruct Hd as [(-> & ->)| ->].
        * cbn [app]. destruct (ex ++ rest) as [|x t]; [exact I|]. split; [auto|]. intros _. apply Xs.
        * cbn [app]. split; [auto|]. reflexivity.
      + cbn [app]. split; [auto|]. intros _. inversion F1' as [|? ? D2 ?]; subst. apply digit_not_lower; auto. }
  unfold scan. destruct s as [|c [|x h]]; try exact Dc. destruct Hc as [[D|Ec] Lx].
  - rewrite (Lx D), andb_false_r. destruct (begins_digit c (x :: h) D) as (-> & ->). exact Dc.
  - subst c. change (Ascii.eqb "." "0") with false. cbn [andb].
    assert (B : begins_nocase ("."%char :: x :: h) (lit "inf") = false /\ begins_nocase ("."%char :: x :: h) (lit "nan") = false).
    { unfold begins_nocase. cbn [lit list_ascii_of_string combine forallb fst snd]. change (lower_is "." "i") with false. change (lower_is "." "n") with false.
      cbn [andb]. rewrite !andb_false_r. auto. }
    destruct B as [-> ->]. exact Dc.
Qed.
Lemma skip_blanks : forall bl s, Forall c_blank bl -> (match s with [] => True | c :: _ => is_space c = false end) -> skip_space (bl ++ s) = s.
Proof.
  induction bl as [|c bl IH]; intros s F H; cbn [app skip_space].
  - destruct s as [|c s]; [reflexivity|]. cbn. now rewrite H.
  - inversion F as [|? ? B F']; subst. assert (is_space c = true) as ->; [|apply IH; assumption].
    unfold is_space, c_blank in *. destruct B as [->|B]; [reflexivity|]. apply orb_true_iff. right. apply andb_true_iff. rewrite !N.leb_le. exact B.
Qed.
Lemma text_head : forall d m e, decimal_text d m e -> exists c r, d = c :: r /\ is_space c = false /\ Ascii.eqb c "-" = false /\ Ascii.eqb c "+" = false.
Proof.
  intros d m e (ip & dot & fp & ex & ev & -> & Hd & N & F1 & _).
  assert (K : forall c, IntToStrSpec.is_digit c -> is_space c = false /\ Ascii.eqb c "-" = false /\ Ascii.eqb c "+" = false).
  { intros c D. split; [|split; apply digit_not; auto]. unfold IntToStrSpec.is_digit in D. unfold is_space. apply not_true_iff_false.
    rewrite orb_true_iff, andb_true_iff, N.eqb_eq, !N.leb_le. lia. }
  destruct ip as [|c ip].
  - destruct Hd as [(-> & ->)| ->]; [now destruct N|]. exists "."%char. eexists. split; [reflexivity|]. auto.
  - inversion F1 as [|? ? D ?]; subst. exists c. eexists. split; [reflexivity|]. apply K, D.
Qed.
Lemma stofd_text : forall prec emax t neg m e, starts_with t neg m e -> stofd prec emax t = read_scaled prec emax neg m 10 e.
Proof.
  intros prec emax t neg m e (bl & sg & d & rest & -> & Fb & Sg & Td & Nm). pose proof (scan_text d m e rest Td Nm) as Sc.
  destruct (text_head d m e Td) as (c & r & -> & H1 & H2 & H3). unfold stofd.
  destruct Sg as [(-> & ->)|[(-> & ->)|(-> & ->)]]; cbn [app] in *.
  - rewrite (skip_blanks bl (c :: r ++ rest) Fb H1), H2, H3, Sc. reflexivity.
  - rewrite (skip_blanks bl ("+"%char :: c :: r ++ rest) Fb eq_refl). change (Ascii.eqb "+" "-") with false. change (Ascii.eqb "+" "+") with true. cbv iota. rewrite Sc. reflexivity.
  - rewrite (skip_blanks bl ("-"%char :: c :: r ++ rest) Fb eq_refl). change (Ascii.eqb "-" "-") with true. cbv iota. rewrite Sc. reflexivity.
Qed.
Lemma text_nonneg : forall t neg m e, starts_with t neg m e -> (0 <= m)%Z.
Proof.
  intros t neg m e (bl & sg & d & rest & _ & _ & _ & (ip & dot & fp & ex & ev & _ & _ & _ & F1 & F2 & _ & -> & _) & _).
  apply digits_value_nonneg'. apply Forall_app. split; assumption.
Qed.
(** Texts without a number. *)
Lemma no_number : forall prec emax bl sg rest neg, Forall c_blank bl -> sign_text sg neg ->
  match rest with [] => True | c :: _ => ~ IntToStrSpec.is_digit c /\ ~ In c ["."; "i"; "I"; "n"; "N"]%char /\ (sg = [] -> ~ c_blank c /\ ~ In c ["+"; "-"]%char) end ->
  stofd prec emax (bl ++ sg ++ rest) = None.
Proof.
  intros prec emax bl sg rest neg Fb Sg H.
  assert (Sc : rest <> [] \/ sg <> [] -> read_scanned prec emax neg (scan rest) = None).
  { intros _. assert (E : scan rest = SNothing); [|rewrite E; reflexivity].
    destruct rest as [|c r]; [reflexivity|]. destruct H as (H1 & H2 & _).
    assert (Nd : isDigit c = false) by (apply not_true_iff_false; intros C; apply H1, digit_iff, C).
    assert (Dc : scan_decimal (c :: r) = SNothing).
    { unfold scan_decimal, scan_mantissa. cbn [span]. rewrite Nd.
      replace (Ascii.eqb c ".") with false by (symmetry; apply Ascii.eqb_neq; intros ->; apply H2; cbn; auto). reflexivity. }
    assert (L : forall d u, num_of d = num_of u + 32 -> ~ In c [u; d] -> lower_is c d = false).
    { intros d u Ed Nc. unfold lower_is. apply not_true_iff_false. intros C. apply orb_true_iff in C. destruct C as [C|C].
      - apply Ascii.eqb_eq in C. subst c. apply Nc. cbn; auto.
      - apply Z.eqb_eq in C. apply Nc. left. rewrite <- (ascii_N_embedding c), <- (ascii_N_embedding u). f_equal. unfold num_of in *. lia. }
    assert (Li : lower_is c "i" = false) by (apply (L "i" "I")%char; [reflexivity|intros C; apply H2; cbn in *; intuition]).
    assert (Ln : lower_is c "n" = false) by (apply (L "n" "N")%char; [reflexivity|intros C; apply H2; cbn in *; intuition]).
    unfold scan. destruct r as [|x h]; [exact Dc|].
    replace (Ascii.eqb c "0") with false by (symmetry; apply Ascii.eqb_neq; intros ->; discriminate Nd). cbn [andb].
    unfold begins_nocase. cbn [lit list_ascii_of_string combine forallb fst snd]. rewrite Li, Ln. cbn [andb]. rewrite !andb_false_r. exact Dc. }
  unfold stofd. destruct Sg as [(-> & ->)|[(-> & ->)|(-> & ->)]]; cbn [app].
  - destruct rest as [|c r].
    + rewrite (skip_blanks bl [] Fb I). reflexivity.
    + destruct H as (H1 & H2 & H3). destruct (H3 eq_refl) as [H4 H5].
      assert (Sp : is_space c = false).
      { apply not_true_iff_false. intros C. apply H4. unfold is_space, c_blank in *. rewrite orb_true_iff, andb_true_iff, N.eqb_eq, !N.leb_le in C. lia. }
      rewrite (skip_blanks bl (c :: r) Fb Sp).
      replace (Ascii.eqb c "-") with false by (symmetry; apply Ascii.eqb_neq; intros ->; apply H5; cbn; auto).
      replace (Ascii.eqb c "+") with false by (symmetry; apply Ascii.eqb_neq; intros ->; apply H5; cbn; auto).
      apply Sc. left. discriminate.
  - rewrite (skip_blanks bl ("+"%char :: rest) Fb eq_refl). change (Ascii.eqb "+" "-") with false. change (Ascii.eqb "+" "+") with true. cbv iota. apply Sc. right. discriminate.
  - rewrite (skip_blanks bl ("-"%char :: rest) Fb eq_refl). change (Ascii.eqb "-" "-") with true. cbv iota. apply Sc. right. discriminate.
Qed.
