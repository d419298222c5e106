(** Proofs about command line processing. *)
From Coq Require Import String Ascii ZArith NArith Arith Bool Lia List ZifyBool ZifyNat ZifyN.
From Verif Require Import Common ListAux StrModel StrProofs LevModel LevSpec LevProofs CmdModel CmdSpec.
Import ListNotations.
Local Open Scope nat_scope.

(** ** Tokens *)
Lemma beginsAsFlag_dashed : forall t, beginsAsFlag t = dashed t.
Proof.
  intros t. apply Bool.eq_true_iff_eq. unfold beginsAsFlag. rewrite orb_true_iff, !beginsWith_spec. unfold dashed.
  split.
  - intros [[r ->]|[r ->]]; reflexivity.
  - destruct t as [|c t]; [discriminate|]. intros E. apply Ascii.eqb_eq in E. subst c. left. exists t. reflexivity.
Qed.
Lemma find_eq_none : forall t, find_eq t = None <-> has_eq t = false.
Proof.
  induction t as [|c t IH]; cbn; [split; auto|]. destruct (Ascii.eqb c "="); cbn; [split; discriminate|].
  rewrite <- IH. destruct (find_eq t); cbn; split; congruence.
Qed.
Lemma find_eq_some : forall t p, find_eq t = Some p -> assigns t (firstn p t) (skipn (S p) t).
Proof.
  induction t as [|c t IH]; cbn; intros p H; [discriminate|].
  destruct (Ascii.eqb c "=") eqn:E.
  - injection H as <-. apply Ascii.eqb_eq in E. subst c. split; reflexivity.
  - destruct (find_eq t) as [q|] eqn:F; [|discriminate]. cbn in H. injection H as <-.
    destruct (IH q eq_refl) as [H1 H2]. split.
    + cbn [firstn]. cbn [app]. f_equal. exact H1.
    + cbn [firstn]. cbn. rewrite E. exact H2.
Qed.
Lemma assigns_eq : forall t n v n' v', assigns t n v -> assigns t n' v' -> n = n' /\ v = v'.
Proof.
  intros t n v n' v' [-> H] [E H']. revert n' E H'. induction n as [|c n IH]; intros [|c' n'] E H'; cbn in *.
  - injection E as <-. auto.
  - injection E as <- E. cbn in H'. discriminate.
  - injection E as -> E. cbn in H. discriminate.
  - injection E as -> E. destruct (Ascii.eqb c' "="); [discriminate|]. cbn in H, H'.
    destruct (IH H n' E H') as [-> ->]. auto.
Qed.
Lemma assigns_has_eq : forall t n v, assigns t n v -> has_eq t = true.
Proof. intros t n v [-> _]. unfold has_eq. rewrite existsb_app. cbn. apply orb_true_r. Qed.

(** ** Parsing *)
Lemma is_digit_spec : forall c, is_digit c = true <-> digit c.
Proof. intros. unfold is_digit, digit. lia. Qed.
Lemma is_space_spec : forall c, is_space c = true <-> blank c.
Proof. intros. unfold is_space, blank. lia. Qed.
Lemma digits_value_spec : forall ds rest acc, Forall digit ds ->
  match rest with c :: _ => ~ digit c | [] => True end ->
  digits_value acc (ds ++ rest) = (acc * 10 ^ Z.of_nat (length ds) + decimal ds)%Z.
Proof.
  induction ds as [|c ds IH]; intros rest acc H R.
  - cbn [app length decimal]. destruct rest as [|d rest]; cbn.
    + lia.
    + replace (is_digit d) with false; [lia|]. symmetry. apply not_true_iff_false. rewrite is_digit_spec. exact R.
  - inversion H as [|? ? Hc Hd]. subst. cbn [app digits_value].
    replace (is_digit c) with true by (symmetry; apply is_digit_spec; exact Hc).
    rewrite (IH rest _ Hd R). cbn [decimal length]. rewrite Nat2Z.inj_succ, Z.pow_succ_r by lia.
    unfold digit in Hc. nia.
Qed.
Fixpoint take_digits (s : bytes) : bytes * bytes :=
  match s with [] => ([], []) | c :: r => if is_digit c then let '(a, b) := take_digits r in (c :: a, b) else ([], s) end.
Lemma take_digits_spec : forall s, let '(a, b) := take_digits s in
  s = a ++ b /\ Forall digit a /\ match b with c :: _ => ~ digit c | [] => True end.
Proof.
  induction s as [|c s IH]; cbn; [auto|]. destruct (is_digit c) eqn:E.
  - destruct (take_digits s) as [a b]. destruct IH as (-> & H2 & H3). repeat split; auto. constructor; auto. apply is_digit_spec; auto.
  - repeat split; auto. rewrite <- is_digit_spec. congruence.
Qed.
Lemma skip_space_spec : forall s, exists bl, Forall blank bl /\ s = bl ++ skip_space s /\
  match skip_space s with c :: _ => ~ blank c | [] => True end.
Proof.
  induction s as [|c s (bl & H1 & H2 & H3)]; cbn; [exists []; auto|]. destruct (is_space c) eqn:E.
  - exists (c :: bl). repeat split; auto; [constructor; auto; apply is_space_spec; auto|cbn; congruence].
  - exists []. repeat split; auto. rewrite <- is_space_spec. congruence.
Qed.
Lemma skip_space_app : forall bl s, Forall blank bl -> match s with c :: _ => ~ blank c | [] => True end -> skip_space (bl ++ s) = s.
Proof.
  induction bl as [|c bl IH]; intros s H R.
  - destruct s as [|c s]; [reflexivity|]. cbn. destruct (is_space c) eqn:E; auto. apply is_space_spec in E. contradiction.
  - inversion H. subst. cbn. replace (is_space c) with true by (symmetry; apply is_space_spec; auto). auto.
Qed.
Lemma stoi_some : forall s z, stoi s = Some z -> int_text s z.
Proof.
  intros s z H. destruct (skip_space_spec s) as (bl & H1 & H2 & H3). unfold stoi in H.
  remember (skip_space s) as u eqn:Eu. clear Eu. subst s.
  assert (G : forall sg w (neg : bool), u = sg ++ w ->
    match w with [] => None | c :: _ => if is_digit c then
      (if ((INT_MIN <=? (if neg then - digits_value 0 w else digits_value 0 w)) && ((if neg then - digits_value 0 w else digits_value 0 w) <=? INT_MAX))%Z
       then Some (if neg then - digits_value 0 w else digits_value 0 w)%Z else None) else None end = Some z ->
    ((sg = [] \/ sg = lit "+") /\ neg = false \/ sg = lit "-" /\ neg = true) -> int_text (bl ++ u) z).
  { intros sg w neg -> E S. destruct w as [|c w]; [discriminate|]. destruct (is_digit c) eqn:D; [|discriminate].
    pose proof (take_digits_spec (c :: w)) as T. destruct (take_digits (c :: w)) as [a b] eqn:TD.
    destruct T as (T1 & T2 & T3). rewrite T1 in E |- *. rewrite (digits_value_spec a b 0%Z T2 T3) in E.
    destruct (_ && _) eqn:B in E; [|discriminate]. injection E as E.
    apply it_make; auto.
    - intros ->. cbn in TD. rewrite D in TD. destruct (take_digits w). discriminate.
    - destruct S as [[S ->]|[-> ->]]; [left|right]; split; auto; lia.
    - unfold INT_MIN, INT_MAX in B. destruct neg; lia. }
  destruct u as [|c u]; [discriminate|].
  destruct (Ascii.eqb c "-") eqn:E1; [|destruct (Ascii.eqb c "+") eqn:E2].
  - apply Ascii.eqb_eq in E1. subst c. apply (G (lit "-") u true); auto.
  - apply Ascii.eqb_eq in E2. subst c. apply (G (lit "+") u false); auto.
  - apply (G [] (c :: u) false); auto.
Qed.
Lemma stoi_of : forall s z, int_text s z -> stoi s = Some z.
Proof.
  intros s z H. destruct H as [bl sg ds rest z H1 H2 H3 H4 H5 H6].
  assert (D : forall c, digit c -> c <> "-"%char /\ c <> "+"%char /\ ~ blank c).
  { intros c Hc. repeat split; try (intros ->); unfold digit, blank in *; cbn in *; try lia. }
  unfold stoi. rewrite skip_space_app; [|assumption|].
  2:{ destruct H5 as [[[->| ->] _]|[-> _]]; cbn.
      - destruct ds as [|c ds]; [congruence|]. cbn. inversion H2. apply D. auto.
      - unfold blank. cbn. lia.
      - unfold blank. cbn. lia. }
  assert (V : digits_value 0 (ds ++ rest) = decimal ds) by (rewrite digits_value_spec; auto).
  destruct ds as [|c ds]; [congruence|]. inversion H2 as [|? ? Hc Hd]. subst. destruct (D c Hc) as (N1 & N2 & _).
  apply is_digit_spec in Hc.
  destruct H5 as [[[->| ->] ->]|[-> ->]]; cbn [app lit].
  - cbn [app] in *. apply Ascii.eqb_neq in N1, N2. rewrite N1, N2, Hc, V.
    unfold INT_MIN, INT_MAX. replace (_ && _) with true by lia. reflexivity.
  - cbn -[digits_value] in *. rewrite Hc, V. unfold INT_MIN, INT_MAX. replace (_ && _) with true by lia. reflexivity.
  - cbn -[digits_value] in *. rewrite Hc, V. unfold INT_MIN, INT_MAX. replace (_ && _) with true by lia. reflexivity.
Qed.
Lemma char_lower_letter : forall c l, ~ (65 <= N_of_ascii l <= 90)%N -> (char_lower c = l <-> same_letter c l).
Proof.
  intros c l H. unfold char_lower, same_letter.
  pose proof (N_ascii_bounded c) as Bc.
  destruct ((65 <=? N_of_ascii c) && (N_of_ascii c <=? 90))%N eqn:E.
  - assert (X : N_of_ascii (ch (N_of_ascii c + 32)) = (N_of_ascii c + 32)%N) by (apply N_ascii_embedding; lia).
    split.
    + intros <-. right. rewrite X. lia.
    + intros [->|[H1 H2]]; [lia|]. rewrite <- (ascii_N_embedding l). unfold ch. f_equal. lia.
  - split; [auto|]. intros [->|[H1 H2]]; [reflexivity|lia].
Qed.
Lemma toLower_word : forall w s, Forall (fun l => ~ (65 <= N_of_ascii l <= 90)%N) w -> (toLower s = w <-> Forall2 same_letter s w).
Proof.
  induction w as [|l w IH]; intros s H.
  - destruct s; cbn; split; intros X; try discriminate; auto. inversion X.
  - inversion H as [|? ? H1 H2]. subst. destruct s as [|c s]; cbn.
    + split; intros X; [discriminate|inversion X].
    + split; intros X.
      * injection X as X1 X2. constructor; [apply char_lower_letter; auto|apply IH; auto].
      * inversion X. subst. f_equal; [apply char_lower_letter; auto|apply IH; auto].
Qed.
Lemma existsb_one_of : forall s ws, Forall (Forall (fun l => ~ (65 <= N_of_ascii l <= 90)%N)) ws ->
  (existsb (bytes_eqb (toLower s)) ws = true <-> one_of s ws).
Proof.
  intros s ws H. rewrite existsb_exists. rewrite Forall_forall in H. split.
  - intros (w & H1 & H2). exists w. split; auto. apply bytes_eqb_eq in H2. apply toLower_word; auto.
  - intros (w & H1 & H2). exists w. split; auto. apply bytes_eqb_eq. apply toLower_word; auto.
Qed.
Lemma true_words : Forall (Forall (fun l => ~ (65 <= N_of_ascii l <= 90)%N)) [lit "y"; lit "yes"; lit "on"; lit "true"; lit "1"].
Proof. repeat constructor; cbn; lia. Qed.
Lemma false_words : Forall (Forall (fun l => ~ (65 <= N_of_ascii l <= 90)%N)) [lit "n"; lit "no"; lit "off"; lit "false"; lit "0"].
Proof. repeat constructor; cbn; lia. Qed.
Lemma parse_spec : forall k s v, parse k s = PVal v <-> parses k s v.
Proof.
  intros k s v. destruct k; cbn [parse].
  - split; intros H; [injection H as <-; constructor|inversion H; reflexivity].
  - split; intros H.
    + destruct (stoi s) as [z|] eqn:E; [|discriminate]. injection H as <-. constructor. apply stoi_some. exact E.
    + inversion H as [|? z I| |]. subst. rewrite (stoi_of _ _ I). reflexivity.
  - destruct (existsb _ _) eqn:E1.
    + pose proof (proj1 (existsb_one_of s _ true_words) E1) as T. split; intros H.
      * injection H as <-. constructor; exact T.
      * inversion H as [| | |? F]; subst; [reflexivity|].
        exfalso. apply (existsb_one_of s _ false_words) in F.
        apply existsb_exists in E1, F. destruct E1 as (w & I & B), F as (w' & I' & B').
        apply bytes_eqb_eq in B, B'. rewrite B in B'. cbn in I, I'. subst w'.
        repeat (destruct I as [<-|I]; [repeat (destruct I' as [I'|I']; [discriminate I'|]); destruct I'|]). destruct I.
    + destruct (existsb _ [lit "n"; lit "no"; lit "off"; lit "false"; lit "0"]) eqn:E2.
      * pose proof (proj1 (existsb_one_of s _ false_words) E2) as T. split; intros H.
        -- injection H as <-. constructor; exact T.
        -- inversion H as [| |? F|]; subst; [|reflexivity]. apply (existsb_one_of s _ true_words) in F. congruence.
      * split; intros H; [discriminate|]. inversion H as [| |? F|? F]; subst.
        -- apply (existsb_one_of s _ true_words) in F. congruence.
        -- apply (existsb_one_of s _ false_words) in F. congruence.
Qed.
Lemma parse_abort : forall k s, parse k s = PAbort -> k = KInt /\ forall z, ~ int_text s z.
Proof.
  intros k s. destruct k; cbn [parse]; try discriminate.
  - destruct (stoi s) eqn:E; [discriminate|]. intros _. split; auto. intros z I. apply stoi_of in I. congruence.
  - repeat (destruct (existsb _ _)); discriminate.
Qed.

(** ** Setting elements *)
Section SetAll.
  Context {E : Type} (kind_of : E -> kind) (put : E -> value -> E) (R : E -> bytes -> E -> Prop).
  Hypothesis R_iff : forall e t e', R e t e' <-> exists v, parses (kind_of e) t v /\ e' = put e v.
  Lemma set_all_iff : forall ts es es', set_all kind_of put es ts = (es', CDone) <-> assigned R es ts es'.
  Proof.
    induction ts as [|t ts IH]; intros es es'; cbn [set_all].
    - split; intros H; [injection H as <-; constructor|inversion H; reflexivity].
    - destruct es as [|e es].
      + split; intros H; [discriminate|inversion H].
      + split; intros H.
        * destruct (parse (kind_of e) t) as [v| |] eqn:P; try discriminate.
          destruct (set_all kind_of put es ts) as [es1 r] eqn:S. injection H as <- ->.
          constructor; [apply R_iff; exists v; split; auto; apply parse_spec; auto|apply IH; auto].
        * inversion H as [|? ? e1 ? ? es1 HR HA]. subst. apply R_iff in HR. destruct HR as (v & P & ->).
          apply parse_spec in P. rewrite P. apply IH in HA. rewrite HA. reflexivity.
  Qed.
  Lemma set_all_no_ub : forall ts es, length ts <= length es -> snd (set_all kind_of put es ts) <> CUB.
  Proof.
    induction ts as [|t ts IH]; intros es H; cbn [set_all]; [discriminate|].
    destruct es as [|e es]; [cbn in H; lia|]. destruct (parse _ _); try discriminate.
    specialize (IH es ltac:(cbn in H; lia)). destruct (set_all kind_of put es ts). exact IH.
  Qed.
End SetAll.
Lemma arg_gets_iff : forall a t a', arg_gets a t a' <-> exists v, parses (akind a) t v /\ a' = set_arg a v.
Proof.
  intros [k x] t [k' x']. unfold arg_gets, set_arg. cbn. split.
  - intros (-> & v & P & ->). eauto.
  - intros (v & P & E). injection E as -> ->. eauto.
Qed.
Lemma opt_gets_iff : forall a t a', opt_gets a t a' <-> exists v, parses (okind a) t v /\ a' = set_opt a v.
Proof.
  intros [k d x] t [k' d' x']. unfold opt_gets, set_opt. cbn. split.
  - intros (-> & -> & v & P & ->). eauto.
  - intros (v & P & E). injection E as -> -> ->. eauto.
Qed.
Lemma fv_gets_iff : forall a t a', fv_gets a t a' <-> exists v, parses (vkind a) t v /\ a' = set_fv a v.
Proof.
  intros [k d x z] t [k' d' x' z']. unfold fv_gets, set_fv. cbn. split.
  - intros (-> & -> & -> & v & P & ->). eauto.
  - intros (v & P & E). injection E as -> -> -> ->. eauto 6.
Qed.

(** ** Flags *)
Lemma flag_hasName_spec : forall f n, flag_hasName f n = true <-> flag_named f n.
Proof. intros. unfold flag_hasName, flag_named. rewrite orb_true_iff, !bytes_eqb_eq. reflexivity. Qed.
Lemma fv_hasName_spec : forall f n, fv_hasName f n = true <-> fv_named f n.
Proof. intros. unfold fv_hasName, fv_named. rewrite orb_true_iff, !bytes_eqb_eq. reflexivity. Qed.
Definition on (f : flag) : flag := {| fshort := fshort f; flong := flong f; factive := true |}.
Definition same_names (fs gs : list flag) : Prop := Forall2 (fun f g => fshort g = fshort f /\ flong g = flong f) fs gs.
Lemma same_names_refl : forall fs, same_names fs fs.
Proof. induction fs; constructor; auto. Qed.
Lemma first_flag_S : forall f fs n i, ~ flag_named f n -> (first_flag (f :: fs) n (S i) <-> first_flag fs n i).
Proof.
  intros f fs n i N. unfold first_flag. cbn. split; intros [H1 H2]; split; auto.
  - intros j g L. apply (H2 (S j) g). lia.
  - intros [|j] g L; cbn; [intros [= <-]; auto|]. apply H2. lia.
Qed.
Lemma first_flag_0 : forall f fs n i, flag_named f n -> (first_flag (f :: fs) n i <-> i = 0).
Proof.
  intros f fs n i N. unfold first_flag. split.
  - intros [_ H]. destruct i; auto. exfalso. apply (H 0 f); auto. lia.
  - intros ->. split; [exists f; auto|]. intros. lia.
Qed.
Lemma first_flag_nil : forall n i, ~ first_flag [] n i.
Proof. intros n i [(f & H & _) _]. destruct i; discriminate. Qed.
Lemma activate_none : forall fs n, activate fs n = None <-> forall i, ~ first_flag fs n i.
Proof.
  induction fs as [|f fs IH]; intros n; cbn.
  - split; auto using first_flag_nil.
  - destruct (flag_hasName f n) eqn:E.
    + apply flag_hasName_spec in E. split; [discriminate|]. intros H. exfalso. apply (H 0). apply first_flag_0; auto.
    + assert (N : ~ flag_named f n) by (rewrite <- flag_hasName_spec; congruence).
      specialize (IH n). destruct (activate fs n); cbn; split; try discriminate; auto.
      * intros H. assert (@None (list flag) = None) by reflexivity. assert (X : Some l = None); [|discriminate].
        apply IH. intros i F. apply (H (S i)). apply first_flag_S; auto.
      * intros _ [|i] F; [|apply first_flag_S in F; auto; revert F; apply IH; auto].
        destruct F as [(g & G & M) _]. cbn in G. injection G as <-. contradiction.
Qed.
Lemma activate_some : forall fs n fs', activate fs n = Some fs' ->
  (exists i, first_flag fs n i) /\ same_names fs fs' /\
  forall i f, nth_error fs i = Some f -> exists f', nth_error fs' i = Some f' /\
    (factive f' = true <-> factive f = true \/ first_flag fs n i).
Proof.
  induction fs as [|f fs IH]; intros n fs' H; cbn in H; [discriminate|].
  destruct (flag_hasName f n) eqn:E.
  - apply flag_hasName_spec in E. injection H as <-. split; [exists 0; apply first_flag_0; auto|].
    split; [constructor; [auto|apply same_names_refl]|].
    + intros [|i] g G; cbn in *.
      * injection G as <-. eexists. split; [reflexivity|]. cbn. split; [right; apply first_flag_0; auto|auto].
      * exists g. split; auto. split; auto. intros [|F]; auto. apply first_flag_0 in F; auto. discriminate.
  - assert (N : ~ flag_named f n) by (rewrite <- flag_hasName_spec; congruence).
    destruct (activate fs n) as [gs|] eqn:A; [|discriminate]. injection H as <-.
    destruct (IH n gs A) as ((i & Hi) & H2 & H3). split; [exists (S i); apply first_flag_S; auto|]. split; [constructor; auto|].
    intros [|j] g G; cbn in *.
    + injection G as <-. exists f. split; auto. split; auto. intros [|F]; auto.
      destruct F as [(g & G & M) _]. cbn in G. injection G as <-. contradiction.
    + destruct (H3 j g G) as (g' & G1 & G2). exists g'. split; auto. rewrite first_flag_S; auto.
Qed.
Lemma same_names_first : forall fs gs n i, same_names fs gs -> (first_flag gs n i <-> first_flag fs n i).
Proof.
  intros fs gs n i H. revert i. induction H as [|f g fs gs [H1 H2] H IH]; intros i; [reflexivity|].
  assert (M : flag_named g n <-> flag_named f n) by (unfold flag_named; rewrite H1, H2; reflexivity).
  destruct (flag_hasName f n) eqn:E.
  - apply flag_hasName_spec in E. rewrite !first_flag_0; tauto.
  - assert (N : ~ flag_named f n) by (rewrite <- flag_hasName_spec; congruence).
    destruct i as [|i].
    + split; intros [(h & G & K) _]; cbn in G; injection G as <-; tauto.
    + rewrite !first_flag_S by tauto. apply IH.
Qed.
Lemma same_names_length : forall fs gs, same_names fs gs -> length gs = length fs.
Proof. intros fs gs H. induction H; cbn; congruence. Qed.
Lemma nth_ext_error : forall A (l m : list A), (forall i, nth_error l i = nth_error m i) -> l = m.
Proof.
  induction l as [|x l IH]; intros [|y m] H; auto; try (specialize (H 0); discriminate).
  f_equal; [specialize (H 0); cbn in H; congruence|]. apply IH. intros i. apply (H (S i)).
Qed.
Lemma same_names_nth : forall fs gs i f g, same_names fs gs -> nth_error fs i = Some f -> nth_error gs i = Some g ->
  fshort g = fshort f /\ flong g = flong f.
Proof.
  intros fs gs i f g H. revert i. induction H; intros [|i] F G; cbn in *; try discriminate; eauto.
  injection F as <-. injection G as <-. auto.
Qed.
Lemma activate_all_ok : forall ts fs fs', activate_all fs ts = (fs', CDone) -> same_names fs fs' /\ flags_given fs ts fs'.
Proof.
  induction ts as [|t ts IH]; intros fs fs' H; cbn in H.
  - injection H as <-. split; [apply same_names_refl|]. split; [auto|]. split; [intros ? []|].
    intros i f f' H1 H2. rewrite H1 in H2. injection H2 as <-. repeat split; auto. intros [|(t & [] & _)]; auto.
  - destruct (activate fs t) as [gs|] eqn:A; [|discriminate].
    destruct (activate_some _ _ _ A) as (A1 & A2 & A3). destruct (IH _ _ H) as (S & L & F & N). clear IH.
    assert (S' : same_names fs fs').
    { clear - A2 S. revert fs' S. induction A2 as [|f g fs gs [H1 H2] H IH]; intros fs' S; inversion S as [|? ? ? ? [E1 E2] ?]; subst; constructor.
      - split; congruence.
      - apply IH; auto. }
    split; auto. split; [apply same_names_length; auto|]. split.
    + intros u [<-|U]; auto. destruct (F u U) as (i & Hi). exists i. apply (same_names_first fs gs); auto.
    + intros i f f' H1 H2. destruct (same_names_nth _ _ _ _ _ S' H1 H2) as [E1 E2]. split; auto. split; auto.
      destruct (A3 i f H1) as (g & G1 & G2). destruct (N i g f' G1 H2) as (_ & _ & G3).
      rewrite G3, G2. split.
      * intros [[?|?]|(u & U1 & U2)]; eauto using in_eq. right. exists u. split; [right; auto|]. apply (same_names_first fs gs); auto.
      * intros [?|(u & [<-|U1] & U2)]; eauto. right. exists u. split; auto. apply (same_names_first fs gs); auto.
Qed.
Lemma flag_eq : forall f g, fshort f = fshort g -> flong f = flong g -> (factive f = true <-> factive g = true) -> f = g.
Proof. intros [a b c] [a' b' c']. cbn. intros -> -> H. f_equal. destruct c, c'; intuition congruence. Qed.
Lemma flags_given_fun : forall fs ts gs hs, flags_given fs ts gs -> flags_given fs ts hs -> gs = hs.
Proof.
  intros fs ts gs hs (L1 & _ & N1) (L2 & _ & N2). apply nth_ext_error. intros i.
  destruct (nth_error fs i) as [f|] eqn:F.
  - assert (i < length fs) by (apply nth_error_Some; congruence).
    destruct (nth_error gs i) as [g|] eqn:G; [|apply nth_error_None in G; lia].
    destruct (nth_error hs i) as [h|] eqn:H'; [|apply nth_error_None in H'; lia].
    destruct (N1 i f g F G) as (a & b & c), (N2 i f h F H') as (a' & b' & c'). f_equal. apply flag_eq; try congruence. rewrite c, c'. reflexivity.
  - apply nth_error_None in F. rewrite !(proj2 (nth_error_None _ _)); auto; lia.
Qed.
Lemma activate_all_done : forall ts fs, (forall t, In t ts -> exists i, first_flag fs t i) -> exists fs', activate_all fs ts = (fs', CDone).
Proof.
  induction ts as [|t ts IH]; intros fs H; cbn; [eauto|].
  destruct (activate fs t) as [gs|] eqn:A.
  - apply IH. intros u U. destruct (activate_some _ _ _ A) as (_ & S & _). destruct (H u) as (i & Hi); [right; auto|].
    exists i. apply (same_names_first fs gs); auto.
  - exfalso. destruct (H t (or_introl eq_refl)) as (i & Hi). revert Hi. apply activate_none. exact A.
Qed.
Lemma activate_all_iff : forall ts fs fs', activate_all fs ts = (fs', CDone) <-> flags_given fs ts fs'.
Proof.
  intros. split; intros H; [apply activate_all_ok; auto|].
  destruct (activate_all_done ts fs) as (gs & G); [apply H|]. rewrite G. f_equal.
  eapply flags_given_fun; [eapply activate_all_ok; eauto|auto].
Qed.
Lemma activate_all_res : forall ts fs, snd (activate_all fs ts) = CDone \/ exists n, In n ts /\ (forall i, ~ first_flag fs n i) /\
  snd (activate_all fs ts) = CThrow (EFlagNotFound n).
Proof.
  induction ts as [|t ts IH]; intros fs; cbn; auto.
  destruct (activate fs t) as [gs|] eqn:A.
  - destruct (IH gs) as [?|(n & H1 & H2 & H3)]; auto. right. exists n. split; auto. split; auto.
    intros i Hi. apply (H2 i). destruct (activate_some _ _ _ A) as (_ & S & _). apply (same_names_first fs gs); auto.
  - right. exists t. split; auto. split; [|reflexivity]. apply activate_none. exact A.
Qed.

(** ** Packs *)
Lemma pack_set_iff : forall ts p p', pack_set p ts = (p', CDone) <->
  exists vs, Forall2 (parses (pkind p)) ts vs /\ p' = {| pkind := pkind p; pmin := pmin p; pmax := pmax p; pvals := pvals p ++ vs |}.
Proof.
  induction ts as [|t ts IH]; intros p p'; cbn [pack_set].
  - split.
    + intros [= <-]. exists []. split; auto. rewrite app_nil_r. destruct p; reflexivity.
    + intros (vs & H & ->). inversion H. rewrite app_nil_r. destruct p; reflexivity.
  - split.
    + destruct (parse (pkind p) t) as [v| |] eqn:P; try discriminate. intros H. apply IH in H. cbn in H.
      destruct H as (vs & H1 & ->). exists (v :: vs). split; [constructor; auto; apply parse_spec; auto|]. rewrite <- app_assoc. reflexivity.
    + intros (vs & H & ->). inversion H as [|? v ? ws P F]. subst. apply parse_spec in P. rewrite P. apply IH. cbn.
      exists ws. split; auto. rewrite <- app_assoc. reflexivity.
Qed.
Lemma pack_set_no_ub : forall ts p, snd (pack_set p ts) <> CUB.
Proof. induction ts as [|t ts IH]; intros p; cbn [pack_set]; [discriminate|]. destruct (parse _ _); try discriminate. apply IH. Qed.
Lemma is_infinite_spec : forall p, is_infinite p = true <-> pmin p = 0 /\ pmax p = 0.
Proof. intros. unfold is_infinite. lia. Qed.
Lemma do_packs_iff : forall ps ts ps', do_packs ps ts = (ps', [], CDone) <-> exists gs, dealt ps ts gs /\ packs_get ps gs ps'.
Proof.
  induction ps as [|p ps IH]; intros ts ps'; cbn [do_packs].
  - split.
    + intros [= <- ->]. exists []. split; constructor.
    + intros (gs & D & G). inversion D; subst. inversion G; subst. reflexivity.
  - destruct (is_infinite p) eqn:I.
    + apply is_infinite_spec in I. destruct I as [I1 I2]. destruct ps as [|q ps].
      * split.
        -- destruct (pack_set p ts) as [p1 r] eqn:S. destruct r; try discriminate. cbn. intros [= <-].
           exists [ts]. split; [constructor; auto|]. apply pack_set_iff in S. destruct S as (vs & F & ->).
           econstructor; eauto; try reflexivity. constructor.
        -- intros (gs & D & G).
           assert (gs = [ts]) as ->. { inversion D; subst; [reflexivity|]. lia. }
           inversion G as [|? ? p1 ? ? ps1 vs ? ? ? ? ? G']. subst. inversion G'. subst.
           replace (pack_set p ts) with (p1, CDone); [reflexivity|]. symmetry. apply pack_set_iff. exists vs. split; auto.
           destruct p1; cbn in *; congruence.
      * split; [discriminate|]. intros (gs & D & G). inversion D; subst. lia.
    + assert (J : pmin p <> 0 \/ pmax p <> 0) by (pose proof (is_infinite_spec p); destruct (Nat.eq_dec (pmin p) 0), (Nat.eq_dec (pmax p) 0); intuition congruence).
      destruct (length ts <? pmin p) eqn:L.
      * split; [discriminate|]. intros (gs & D & G). inversion D; subst; [lia|]. rewrite app_length in *. lia.
      * set (n := Nat.min (length ts) (pmax p)).
        split.
        -- destruct (pack_set p (firstn n ts)) as [p1 r] eqn:S. destruct r; try discriminate.
           destruct (do_packs ps (skipn n ts)) as [[ps1 e1] r1] eqn:Q. intros [= <- -> ->].
           apply IH in Q. destruct Q as (gs & D & G). exists (firstn n ts :: gs). split.
           ++ rewrite <- (firstn_skipn n ts) at 1. apply d_some; auto.
              ** rewrite firstn_skipn. lia.
              ** rewrite firstn_length. destruct (le_lt_dec (pmax p) (length ts)); [left; lia|right]. split; [lia|].
                 apply skipn_all2. lia.
           ++ apply pack_set_iff in S. destruct S as (vs & F & ->). econstructor; eauto; reflexivity.
        -- intros (gs & D & G). inversion D as [| |? ? g rest ? J' L' M D']; subst; [lia|].
           assert (n = length g) by (unfold n; rewrite app_length; destruct M as [M|[M ->]]; cbn; lia).
           rewrite H. rewrite firstn_app, skipn_app, firstn_all, skipn_all, Nat.sub_diag. cbn [firstn skipn app]. rewrite app_nil_r.
           inversion G as [|? ? p1 ? ? ps1 vs ? ? ? ? ? G']. subst.
           replace (pack_set p g) with (p1, CDone).
           ++ replace (do_packs ps rest) with (ps1, @nil bytes, CDone); [reflexivity|]. symmetry. apply IH. eauto.
           ++ symmetry. apply pack_set_iff. exists vs. split; auto. destruct p1; cbn in *; congruence.
Qed.
Lemma do_packs_no_ub : forall ps ts, snd (do_packs ps ts) <> CUB.
Proof.
  induction ps as [|p ps IH]; intros ts; cbn [do_packs]; [discriminate|].
  destruct (is_infinite p).
  - destruct ps; [|discriminate]. pose proof (pack_set_no_ub ts p). destruct (pack_set p ts) as [p1 r]. destruct r; cbn in *; auto.
  - destruct (_ <? _); [discriminate|]. set (n := Nat.min _ _).
    pose proof (pack_set_no_ub (firstn n ts) p). destruct (pack_set p (firstn n ts)) as [p1 r]. specialize (IH (skipn n ts)).
    destruct r; cbn in *; auto. destruct (do_packs ps (skipn n ts)) as [[? ?] ?]. auto.
Qed.

(** ** Classification *)
Fixpoint req_toks (os : list fvalue) (ts : list bytes) : list (bytes * bytes) :=
  match ts with
  | [] => []
  | t :: r =>
    match find_eq t with
    | Some p => if dashed t && negb (existsb (fun f => fv_hasName f (firstn p t)) os) then (t, skipn (S p) t) :: req_toks os r else req_toks os r
    | None => req_toks os r
    end
  end.
Fixpoint opt_toks (os : list fvalue) (ts : list bytes) : list (bytes * bytes) :=
  match ts with
  | [] => []
  | t :: r =>
    match find_eq t with
    | Some p => if dashed t && existsb (fun f => fv_hasName f (firstn p t)) os then (t, skipn (S p) t) :: opt_toks os r else opt_toks os r
    | None => opt_toks os r
    end
  end.
Lemma values_given_iff : forall os ts r o, values_given os ts r o <-> r = map snd (req_toks os ts) /\ o = map snd (opt_toks os ts).
Proof.
  intros os. induction ts as [|t ts IH]; intros r o.
  - cbn. split; [intros H; inversion H; auto|intros [-> ->]; constructor].
  - cbn [req_toks opt_toks]. destruct (find_eq t) as [p|] eqn:F.
    + pose proof (find_eq_some _ _ F) as A. pose proof (assigns_has_eq _ _ _ A) as HE.
      destruct (dashed t) eqn:D; cbn [andb].
      * destruct (existsb _ os) eqn:X; cbn [negb map snd].
        -- apply existsb_exists in X. destruct X as (f & X1 & X2). apply fv_hasName_spec in X2. split.
           ++ intros H. inversion H; subst.
              ** intuition congruence.
              ** match goal with B : assigns t ?n ?v |- _ => destruct (assigns_eq _ _ _ _ _ A B) as [<- <-] end. match goal with B : values_given os ts _ _ |- _ => apply IH in B; destruct B end. split; congruence.
              ** match goal with B : assigns t ?n ?v |- _ => destruct (assigns_eq _ _ _ _ _ A B) as [<- <-] end. exfalso. match goal with B : forall f, In f os -> ~ _ |- _ => eapply B; eauto end.
           ++ intros [-> ->]. eapply vg_opt; eauto. apply IH. auto.
        -- assert (X' : forall f, In f os -> ~ fv_named f (firstn p t)).
           { intros f I N. apply fv_hasName_spec in N. apply not_true_iff_false in X. apply X. apply existsb_exists. eauto. }
           split.
           ++ intros H. inversion H; subst.
              ** intuition congruence.
              ** match goal with B : assigns t ?n ?v |- _ => destruct (assigns_eq _ _ _ _ _ A B) as [<- <-] end. exfalso. eapply X'; eauto.
              ** match goal with B : assigns t ?n ?v |- _ => destruct (assigns_eq _ _ _ _ _ A B) as [<- <-] end. match goal with B : values_given os ts _ _ |- _ => apply IH in B; destruct B end. split; congruence.
           ++ intros [-> ->]. eapply vg_req; eauto. apply IH. auto.
      * split.
        -- intros H. inversion H; subst; try congruence. apply IH; auto.
        -- intros H. apply vg_skip; auto. apply IH; auto.
    + apply find_eq_none in F. split.
      * intros H. inversion H; subst; [apply IH; auto| |]; exfalso; match goal with A : assigns _ _ _ |- _ => apply assigns_has_eq in A; congruence end.
      * intros H. apply vg_skip; auto. apply IH; auto.
Qed.
Lemma classify_spec : forall c ts st st' r, length (cF st) <= length (flags c) -> length (cFO st) <= length (fopts c) ->
  classify c ts st = (st', r) ->
  (r = CDone /\ length (cF st ++ bare ts) <= length (flags c) /\ length (cFO st ++ map fst (opt_toks (fopts c) ts)) <= length (fopts c) /\
   st' = {| cF := cF st ++ bare ts; cFV := cFV st ++ map fst (req_toks (fopts c) ts); cFVv := cFVv st ++ map snd (req_toks (fopts c) ts);
            cFO := cFO st ++ map fst (opt_toks (fopts c) ts); cFOv := cFOv st ++ map snd (opt_toks (fopts c) ts) |}) \/
  (r = CThrow (EFlags (length (flags c))) /\ length (flags c) < length (cF st ++ bare ts)) \/
  (r = CThrow (EFlagValuesOpt (length (fopts c))) /\ length (fopts c) < length (cFO st ++ map fst (opt_toks (fopts c) ts))).
Proof.
  intros c. induction ts as [|t ts IH]; intros st st' r H1 H2 H.
  - cbn in H. injection H as <- <-. left. cbn. rewrite !app_nil_r. destruct st; auto.
  - cbn [classify] in H. unfold classify_one in H. rewrite beginsAsFlag_dashed in H.
    unfold bare in *. cbn [filter req_toks opt_toks].
    destruct (dashed t) eqn:D; cbn [andb].
    + destruct (find_eq t) as [p|] eqn:F.
      * pose proof (assigns_has_eq _ _ _ (find_eq_some _ _ F)) as HE. rewrite HE. cbn [negb].
        destruct (existsb _ (fopts c)) eqn:X; cbn [negb map fst snd].
        -- cbn [cF cFV cFVv cFO cFOv] in H. destruct (_ <? _) eqn:L.
           ++ injection H as <- <-. right. right. split; auto. clear IH H1 H2. rewrite ?app_length in *. cbn [length map fst] in *. lia.
           ++ apply IH in H; cbn [cF cFV cFVv cFO cFOv]; auto; [|apply Nat.ltb_ge in L; exact L].
              cbn [cF cFV cFVv cFO cFOv] in H. rewrite <- !app_assoc in H. exact H.
        -- apply IH in H; cbn [cF cFV cFVv cFO cFOv]; auto.
           cbn [cF cFV cFVv cFO cFOv] in H. rewrite <- !app_assoc in H. exact H.
      * pose proof (proj1 (find_eq_none _) F) as HE. rewrite HE. cbn [negb].
        cbn [cF cFV cFVv cFO cFOv] in H. destruct (_ <? _) eqn:L.
        -- injection H as <- <-. right. left. split; auto. clear IH H1 H2. rewrite ?app_length in *. cbn [length map fst] in *. lia.
        -- apply IH in H; cbn [cF cFV cFVv cFO cFOv]; auto; [|apply Nat.ltb_ge in L; exact L].
           cbn [cF cFV cFVv cFO cFOv] in H. rewrite <- !app_assoc in H. exact H.
    + apply IH in H; auto. destruct (find_eq t); exact H.
Qed.
Lemma fold_eraseRemove : forall l ts, fold_left eraseRemove l ts = filter (fun t => negb (existsb (bytes_eqb t) l)) ts.
Proof.
  induction l as [|x l IH]; intros ts; cbn [fold_left existsb negb].
  - induction ts; cbn; congruence.
  - rewrite IH. unfold eraseRemove. clear IH. induction ts as [|t ts IH]; cbn; auto.
    destruct (bytes_eqb t x); cbn; rewrite <- IH; reflexivity.
Qed.
Lemma bytes_eqb_refl : forall s, bytes_eqb s s = true.
Proof. intros. apply bytes_eqb_eq. reflexivity. Qed.
Lemma req_toks_dashed : forall os ts t, In t (map fst (req_toks os ts)) -> dashed t = true.
Proof.
  intros os. induction ts as [|u ts IH]; intros t; cbn [req_toks]; [intros []|].
  destruct (find_eq u); auto. destruct (dashed u) eqn:D; cbn [andb]; auto. destruct (existsb _ _); cbn [negb]; auto. intros [<-|H]; auto.
Qed.
Lemma opt_toks_dashed : forall os ts t, In t (map fst (opt_toks os ts)) -> dashed t = true.
Proof.
  intros os. induction ts as [|u ts IH]; intros t; cbn [opt_toks]; [intros []|].
  destruct (find_eq u); auto. destruct (dashed u) eqn:D; cbn [andb]; auto. destruct (existsb _ _); auto. intros [<-|H]; auto.
Qed.
Lemma tok_covered : forall os ts t, In t ts -> dashed t = true ->
  In t (bare ts) \/ In t (map fst (req_toks os ts)) \/ In t (map fst (opt_toks os ts)).
Proof.
  intros os ts t I D. induction ts as [|u ts IH]; [destruct I|]. unfold bare in *. cbn [filter req_toks opt_toks].
  destruct I as [->|I].
  - rewrite D. cbn [andb]. destruct (find_eq t) as [p|] eqn:F.
    + destruct (existsb _ _); cbn [negb map fst]; [right; right|right; left]; left; reflexivity.
    + apply find_eq_none in F. rewrite F. left. left. reflexivity.
  - specialize (IH I). destruct (dashed u && negb (has_eq u)), (find_eq u); cbn [In]; try tauto;
    destruct (dashed u); cbn [andb]; try tauto; destruct (existsb _ _); cbn [negb map In]; tauto.
Qed.
Lemma erase_plain : forall os ts,
  fold_left eraseRemove (map fst (opt_toks os ts)) (fold_left eraseRemove (map fst (req_toks os ts)) (fold_left eraseRemove (bare ts) ts)) = plain ts.
Proof.
  intros os ts. rewrite <- !fold_left_app, fold_eraseRemove. unfold plain. apply filter_ext_in. intros t I. f_equal.
  apply Bool.eq_true_iff_eq. rewrite existsb_exists. split.
  - intros (x & X & E). apply bytes_eqb_eq in E. subst x. rewrite !in_app_iff in X. destruct X as [X|[X|X]].
    + apply filter_In in X. destruct X as [_ X]. apply andb_true_iff in X. tauto.
    + eapply req_toks_dashed; eauto.
    + eapply opt_toks_dashed; eauto.
  - intros D. exists t. split; [|apply bytes_eqb_refl]. rewrite !in_app_iff. apply tok_covered; auto.
Qed.
Lemma take_args_iff : forall n ts a e, take_args n ts = Some (a, e) <-> ts = a ++ e /\ length a = n.
Proof.
  induction n as [|n IH]; intros ts a e; cbn.
  - split; [intros [= <- <-]; auto|]. intros [-> L]. destruct a; [reflexivity|discriminate].
  - destruct ts as [|t ts].
    + split; [discriminate|]. intros [E L]. destruct a; discriminate.
    + destruct (take_args n ts) as [[a1 e1]|] eqn:T.
      * split.
        -- intros [= <- <-]. apply IH in T. destruct T as [-> L]. cbn. auto.
        -- intros [E L]. destruct a as [|x a]; [discriminate|]. cbn in *. injection E as <- E.
           assert (X : take_args n ts = Some (a, e)) by (apply IH; split; auto). congruence.
      * split; [discriminate|]. intros [E L]. destruct a as [|x a]; [discriminate|]. cbn in *. injection E as <- E.
        assert (X : take_args n ts = Some (a, e)) by (apply IH; split; auto). congruence.
Qed.
Lemma take_args_none : forall n ts, take_args n ts = None <-> length ts < n.
Proof.
  induction n as [|n IH]; intros ts; cbn; [split; [discriminate|lia]|]. destruct ts as [|t ts]; cbn; [split; auto; lia|].
  specialize (IH ts). destruct (take_args n ts) as [[? ?]|]; split; intros; try discriminate; auto.
  - assert (Some (l, l0) = None) by (apply IH; lia). discriminate.
  - assert (length ts < n) by (apply IH; auto). lia.
Qed.
Lemma take_opts_iff : forall n ts a e, take_opts n ts = (a, e) <-> ts = a ++ e /\ (length a = n \/ length a < n /\ e = []).
Proof.
  induction n as [|n IH]; intros ts a e; cbn.
  - split; [intros [= <- <-]; auto|]. intros [-> L]. destruct a; [reflexivity|cbn in *; lia].
  - destruct ts as [|t ts].
    + split; [intros [= <- <-]; cbn; split; auto; right; split; auto; lia|]. intros [E L]. destruct a; [|discriminate]. destruct e; [reflexivity|discriminate].
    + destruct (take_opts n ts) as [a1 e1] eqn:T. split.
      * intros [= <- <-]. apply IH in T. destruct T as [-> L]. cbn. split; auto. destruct L as [L|[L1 L2]]; [left; lia|right; split; [lia|auto]].
      * intros [E L]. destruct a as [|x a]; [cbn in *; destruct L as [L|[_ ->]]; [lia|discriminate]|].
        cbn in *. injection E as <- E. assert (X : take_opts n ts = (a, e)) by (apply IH; split; auto; destruct L as [L|[L1 L2]]; [left; lia|right; split; [lia|auto]]). congruence.
Qed.

(** ** One command *)
Lemma assigned_length : forall E (R : E -> bytes -> E -> Prop) es ts es', assigned R es ts es' -> length ts <= length es.
Proof. induction 1; cbn; lia. Qed.
Lemma process_cmd_iff : forall c ts c', process_cmd c ts = (c', CDone) <-> accepts c ts c'.
Proof.
  intros c ts c'. unfold process_cmd.
  destruct (classify c ts _) as [st r] eqn:K. apply classify_spec in K; cbn [cF cFO length]; try lia.
  cbn [cF cFV cFVv cFO cFOv app] in K.
  assert (NA : r <> CDone -> accepts c ts c' -> False).
  { intros NR A. destruct K as [[K _]|[[_ K]|[_ K]]]; [auto| |].
    - destruct (acc_flags _ _ _ A). lia.
    - destruct (acc_values _ _ _ A) as (q & o & V & _ & L & _). apply values_given_iff in V. destruct V as [_ ->].
      rewrite map_length in *. lia. }
  destruct r; try (split; [discriminate|intros A; exfalso; apply NA; auto; discriminate]).
  destruct K as [(_ & L1 & L2 & ->)|[[? _]|[? _]]]; try discriminate. cbn [cF cFV cFVv cFO cFOv].
  rewrite erase_plain. clear NA.
  destruct (negb _) eqn:LV.
  { split; [discriminate|]. intros A. destruct (acc_values _ _ _ A) as (q & o & V & L & _). apply values_given_iff in V.
    destruct V as [-> _]. rewrite map_length in *. lia. }
  assert (LV' : length (req_toks (fopts c) ts) = length (fvals c)) by (rewrite map_length in LV; lia). clear LV.
  destruct (take_args (length (args c)) (plain ts)) as [[a e]|] eqn:T1.
  2:{ split; [discriminate|]. intros A. destruct (acc_plain _ _ _ A) as (a & o & p & gs & E & L & _).
      apply take_args_none in T1. rewrite E, app_length in T1. lia. }
  destruct (take_opts (length (opts c)) e) as [o e2] eqn:T2.
  pose proof (proj1 (take_args_iff _ _ _ _) T1) as [P1 P2]. pose proof (proj1 (take_opts_iff _ _ _ _) T2) as [P3 P4]. subst e.
  assert (U : forall a' o' p', plain ts = a' ++ o' ++ p' -> length a' = length (args c) ->
    (length o' = length (opts c) \/ length o' < length (opts c) /\ p' = []) -> a' = a /\ o' = o /\ p' = e2).
  { intros a' o' p' E E1 E2. assert (X : take_args (length (args c)) (plain ts) = Some (a', o' ++ p')) by (apply take_args_iff; auto).
    rewrite T1 in X. injection X as <- X. assert (Y : take_opts (length (opts c)) (o ++ e2) = (o', p')) by (apply take_opts_iff; auto).
    rewrite T2 in Y. injection Y as <- <-. auto. }
  split.
  - intros H. destruct (do_packs (packs c) e2) as [[ps e3] r] eqn:DP. destruct r; try discriminate.
    destruct e3; [|discriminate]. cbn [names args opts packs flags fvals fopts] in H.
    destruct (set_all akind set_arg (args c) a) as [a' r] eqn:SA. destruct r; try discriminate. cbn [names args opts packs flags fvals fopts] in H.
    destruct (set_all okind set_opt (opts c) o) as [o' r] eqn:SO. destruct r; try discriminate. cbn [names args opts packs flags fvals fopts] in H.
    destruct (activate_all (flags c) (bare ts)) as [f' r] eqn:SF. destruct r; try discriminate. cbn [names args opts packs flags fvals fopts] in H.
    destruct (set_all vkind set_fv (fvals c) _) as [v' r] eqn:SV. destruct r; try discriminate. cbn [names args opts packs flags fvals fopts] in H.
    destruct (set_all vkind set_fv (fopts c) _) as [w' r] eqn:SW. injection H as <- ->.
    apply do_packs_iff in DP. destruct DP as (gs & D & G).
    apply (set_all_iff _ _ _ arg_gets_iff) in SA. apply (set_all_iff _ _ _ opt_gets_iff) in SO.
    apply activate_all_iff in SF. apply (set_all_iff _ _ _ fv_gets_iff) in SV, SW.
    constructor; cbn [names args opts packs flags fvals fopts]; auto.
    + exists a, o, e2, gs. repeat (split; auto).
    + exists (map snd (req_toks (fopts c) ts)), (map snd (opt_toks (fopts c) ts)).
      split; [apply values_given_iff; auto|]. rewrite !map_length in *. auto.
  - intros [A1 A2 A3 A4]. destruct A2 as (a' & o' & p' & gs & E1 & E2 & E3 & SA & SO & D & G).
    destruct (U a' o' p' E1 E2 E3) as (-> & -> & ->).
    destruct A4 as (q & w & V & V1 & V2 & SV & SW). apply values_given_iff in V. destruct V as [-> ->].
    destruct A3 as [_ SF].
    replace (do_packs (packs c) e2) with (packs c', @nil bytes, CDone) by (symmetry; apply do_packs_iff; eauto).
    cbn [names args opts packs flags fvals fopts].
    apply (set_all_iff _ _ _ arg_gets_iff) in SA. rewrite SA. cbn [names args opts packs flags fvals fopts].
    apply (set_all_iff _ _ _ opt_gets_iff) in SO. rewrite SO. cbn [names args opts packs flags fvals fopts].
    apply activate_all_iff in SF. rewrite SF. cbn [names args opts packs flags fvals fopts].
    apply (set_all_iff _ _ _ fv_gets_iff) in SV, SW. rewrite SV. cbn [names args opts packs flags fvals fopts]. rewrite SW.
    rewrite <- A1. destruct c'; reflexivity.
Qed.

(** ** Errors *)
Lemma parse_throw : forall k s, parse k s = PThrow -> forall v, ~ parses KBool s v.
Proof.
  intros k s H v P. destruct k; cbn [parse] in H; try discriminate.
  - destruct (stoi s); discriminate.
  - apply parse_spec in P. cbn [parse] in P. rewrite P in H. discriminate.
Qed.
Definition bad_token (ts : list bytes) (r : cres) : Prop :=
  match r with
  | CThrow (EParse s) => In s ts /\ forall v, ~ parses KBool s v
  | CThrow _ => False
  | CAbort => exists s, In s ts /\ forall z, ~ int_text s z
  | CDone => True
  | CUB => False
  end.
Lemma bad_token_sub : forall ts us r, bad_token ts r -> (forall t, In t ts -> In t us) -> bad_token us r.
Proof. intros ts us [|[]| |] H I; cbn in *; auto; try tauto; firstorder. Qed.
Lemma set_all_bad : forall E (kind_of : E -> kind) put ts es, length ts <= length es -> bad_token ts (snd (set_all kind_of put es ts)).
Proof.
  intros E ko put. induction ts as [|t ts IH]; intros es L; cbn [set_all]; [exact I|].
  destruct es as [|e es]; [cbn in L; lia|]. destruct (parse (ko e) t) eqn:P.
  - specialize (IH es ltac:(cbn in L; lia)). destruct (set_all ko put es ts) as [? r]. cbn [snd] in *.
    eapply bad_token_sub; [exact IH|]. intros; right; auto.
  - cbn. split; auto. eapply parse_throw; eauto.
  - cbn. exists t. split; auto. apply (parse_abort _ _ P).
Qed.
Lemma pack_set_bad : forall ts p, bad_token ts (snd (pack_set p ts)).
Proof.
  induction ts as [|t ts IH]; intros p; cbn [pack_set]; [exact I|]. destruct (parse (pkind p) t) eqn:P.
  - eapply bad_token_sub; [apply IH|]. intros; right; auto.
  - cbn. split; auto. eapply parse_throw; eauto.
  - cbn. exists t. split; auto. apply (parse_abort _ _ P).
Qed.
Lemma pack_set_bounds : forall ts p, let q := fst (pack_set p ts) in pmin q = pmin p /\ pmax q = pmax p /\ pkind q = pkind p.
Proof.
  induction ts as [|t ts IH]; intros p; cbn [pack_set]; [cbn; auto|]. destruct (parse (pkind p) t); cbn; auto.
  specialize (IH {| pkind := pkind p; pmin := pmin p; pmax := pmax p; pvals := pvals p ++ [v] |}). cbn in IH. exact IH.
Qed.
(** What stops the packs, with [ps0] before, and what is left after them. *)
Lemma do_packs_res : forall ps ts, let '(_, e, r) := do_packs ps ts in
  match r with
  | CDone => (exists g, ts = g ++ e) /\ (e <> [] -> total (map pmax ps) + length e = length ts)
  | CThrow EPackPosition => exists a p q qs, ps = a ++ p :: q :: qs /\ pmin p = 0 /\ pmax p = 0
  | CThrow (EPack mn mx) => exists a p qs, ps = a ++ p :: qs /\ pmin p = mn /\ pmax p = mx /\ length ts < total (map pmax a) + mn
  | _ => bad_token ts r
  end.
Proof.
  induction ps as [|p ps IH]; intros ts; cbn [do_packs].
  - split; [exists []; auto|]. cbn. lia.
  - destruct (is_infinite p) eqn:I.
    + apply is_infinite_spec in I. destruct I as [I1 I2]. destruct ps as [|q ps].
      * pose proof (pack_set_bad ts p) as B. destruct (pack_set p ts) as [p1 r]. destruct r as [|e| |]; cbn in B |- *.
        -- split; [exists ts; rewrite app_nil_r; auto|congruence].
        -- destruct e; try destruct B; auto.
        -- auto.
        -- auto.
      * exists [], p, q, ps. auto.
    + destruct (_ <? _) eqn:L.
      * exists [], p, ps. cbn. repeat split; auto. lia.
      * set (n := Nat.min (length ts) (pmax p)). pose proof (pack_set_bad (firstn n ts) p) as B.
        destruct (pack_set p (firstn n ts)) as [p1 r].
        assert (SUB : forall t, In t (firstn n ts) -> In t ts) by (intros t; apply (fun H => eq_ind _ (fun l => In t l) (in_or_app _ (skipn n ts) t (or_introl H)) _ (firstn_skipn n ts))).
        assert (SUB2 : forall t, In t (skipn n ts) -> In t ts) by (intros t; apply (fun H => eq_ind _ (fun l => In t l) (in_or_app (firstn n ts) _ t (or_intror H)) _ (firstn_skipn n ts))).
        destruct r as [|e| |]; cbn [snd] in B.
        -- specialize (IH (skipn n ts)). destruct (do_packs ps (skipn n ts)) as [[ps1 e1] r1]. destruct r1 as [|e| |].
           ++ destruct IH as [(g & G) IH]. split.
              ** exists (firstn n ts ++ g). rewrite <- app_assoc, <- G. symmetry. apply firstn_skipn.
              ** intros NE. specialize (IH NE). rewrite skipn_length in IH.
                 destruct e1; [congruence|]. unfold total in *. cbn [map fold_right length] in *. unfold n in *. lia.
           ++ assert (X := bad_token_sub (skipn n ts) ts (CThrow e)).
              destruct e; auto.
              ** destruct IH as (a & p2 & q & qs & -> & ?). exists (p :: a), p2, q, qs. auto.
              ** destruct IH as (a & p2 & qs & -> & H1 & H2 & H3). exists (p :: a), p2, qs. repeat split; auto.
                 rewrite skipn_length in H3. unfold total in *. cbn [map fold_right] in *. unfold n in *. lia.
           ++ eapply bad_token_sub; eauto.
           ++ eapply bad_token_sub; eauto.
        -- assert (X := bad_token_sub _ ts _ B SUB). destruct e; auto; destruct B.
        -- eapply bad_token_sub; eauto.
        -- destruct B.
Qed.
Lemma plain_in : forall ts t, In t (plain ts) -> In t ts.
Proof. intros ts t H. apply filter_In in H. tauto. Qed.
Lemma req_toks_value : forall os ts v, In v (map snd (req_toks os ts)) -> mentioned ts v.
Proof.
  intros os. induction ts as [|u ts IH]; intros v; cbn [req_toks]; [intros []|].
  assert (W : mentioned ts v -> mentioned (u :: ts) v) by (intros [?|(t & n & ? & ?)]; [left; right; auto|right; exists t, n; split; auto; right; auto]).
  destruct (find_eq u) as [p|] eqn:F; auto. destruct (_ && _); auto. intros [<-|H]; auto.
  right. exists u, (firstn p u). split; [left; auto|]. apply find_eq_some. exact F.
Qed.
Lemma opt_toks_value : forall os ts v, In v (map snd (opt_toks os ts)) -> mentioned ts v.
Proof.
  intros os. induction ts as [|u ts IH]; intros v; cbn [opt_toks]; [intros []|].
  assert (W : mentioned ts v -> mentioned (u :: ts) v) by (intros [?|(t & n & ? & ?)]; [left; right; auto|right; exists t, n; split; auto; right; auto]).
  destruct (find_eq u) as [p|] eqn:F; auto. destruct (_ && _); auto. intros [<-|H]; auto.
  right. exists u, (firstn p u). split; [left; auto|]. apply find_eq_some. exact F.
Qed.
Definition res_means (c : cmd) (ts : list bytes) (r : cres) : Prop :=
  match r with
  | CDone => True
  | CThrow e => error_means c ts e
  | CAbort => exists s, mentioned ts s /\ forall z, ~ int_text s z
  | CUB => False
  end.
Lemma bad_token_means : forall c ts us r, bad_token us r -> (forall t, In t us -> mentioned ts t) -> res_means c ts r.
Proof. intros c ts us [|[]| |] H I; cbn in *; auto; try tauto; firstorder. Qed.
Lemma process_cmd_means : forall c ts, res_means c ts (snd (process_cmd c ts)).
Proof.
  intros c ts. unfold process_cmd.
  destruct (classify c ts _) as [st r] eqn:K. apply classify_spec in K; cbn [cF cFO length]; try lia.
  cbn [cF cFV cFVv cFO cFOv app] in K.
  assert (VG : values_given (fopts c) ts (map snd (req_toks (fopts c) ts)) (map snd (opt_toks (fopts c) ts))) by (apply values_given_iff; auto).
  destruct K as [(-> & L1 & L2 & ->)|[[-> K]|[-> K]]]; cbn [snd].
  2:{ split; auto. }
  2:{ split; auto. exists (map snd (req_toks (fopts c) ts)), (map snd (opt_toks (fopts c) ts)). split; auto. rewrite map_length in *. exact K. }
  cbn [cF cFV cFVv cFO cFOv]. rewrite erase_plain.
  destruct (negb _) eqn:LV.
  { split; auto. exists (map snd (req_toks (fopts c) ts)), (map snd (opt_toks (fopts c) ts)). split; auto. rewrite map_length in *. lia. }
  assert (LV' : length (req_toks (fopts c) ts) = length (fvals c)) by (rewrite map_length in LV; lia). clear LV.
  destruct (take_args (length (args c)) (plain ts)) as [[a e]|] eqn:T1.
  2:{ apply take_args_none in T1. split; auto. }
  destruct (take_opts (length (opts c)) e) as [o e2] eqn:T2.
  apply take_args_iff in T1. destruct T1 as [P1 P2]. apply take_opts_iff in T2. destruct T2 as [P3 P4]. subst e.
  assert (PIN : forall t, In t a \/ In t o \/ In t e2 -> mentioned ts t).
  { intros t H. left. apply plain_in. rewrite P1, !in_app_iff. exact H. }
  assert (PL : length (plain ts) = length (args c) + length o + length e2) by (rewrite P1, !app_length; lia).
  pose proof (do_packs_res (packs c) e2) as D. destruct (do_packs (packs c) e2) as [[ps e3] r].
  cbn [names args opts packs flags fvals fopts].
  destruct r as [|er| |].
  - destruct e3 as [|x e3].
    + cbn [names args opts packs flags fvals fopts].
      pose proof (set_all_bad _ akind set_arg a (args c) ltac:(lia)) as B1.
      destruct (set_all akind set_arg (args c) a) as [a' r]. cbn [snd] in B1.
      cbn [names args opts packs flags fvals fopts].
      destruct r; try (eapply bad_token_means; [exact B1|intros; apply PIN; auto]).
      pose proof (set_all_bad _ okind set_opt o (opts c) ltac:(lia)) as B2.
      destruct (set_all okind set_opt (opts c) o) as [o' r]. cbn [snd] in B2. cbn [names args opts packs flags fvals fopts].
      destruct r; try (eapply bad_token_means; [exact B2|intros; apply PIN; auto]).
      pose proof (activate_all_res (bare ts) (flags c)) as B3.
      destruct (activate_all (flags c) (bare ts)) as [f' r]. cbn [snd] in B3. cbn [names args opts packs flags fvals fopts].
      destruct B3 as [->|(n & N1 & N2 & ->)].
      2:{ cbn. split; auto. intros f F M. clear - F M N2.
          assert (X : activate (flags c) n = None) by (apply activate_none; auto). clear N2.
          induction (flags c) as [|g fs IH]; [destruct F|]. cbn in X. destruct (flag_hasName g n) eqn:E; [discriminate|].
          destruct F as [->|F]; [apply flag_hasName_spec in M; congruence|]. apply IH; auto. destruct (activate fs n); [discriminate|auto]. }
      pose proof (set_all_bad _ vkind set_fv (map snd (req_toks (fopts c) ts)) (fvals c) ltac:(rewrite map_length; lia)) as B4.
      destruct (set_all vkind set_fv (fvals c) _) as [v' r]. cbn [snd] in B4. cbn [names args opts packs flags fvals fopts].
      destruct r; try (eapply bad_token_means; [exact B4|apply req_toks_value]).
      pose proof (set_all_bad _ vkind set_fv (map snd (opt_toks (fopts c) ts)) (fopts c) ltac:(rewrite map_length in *; lia)) as B5.
      destruct (set_all vkind set_fv (fopts c) _) as [w' r]. cbn [snd] in *.
      eapply bad_token_means; [exact B5|apply opt_toks_value].
    + cbn [snd res_means error_means]. destruct D as [(g & G) D]. specialize (D ltac:(discriminate)). cbn [length] in *.
      destruct P4 as [P4|[P4 ->]]; [lia|]. destruct g; discriminate.
  - cbn [snd]. destruct er; try (eapply bad_token_means; [exact D|intros; apply PIN; auto]); try (destruct D; fail).
    + exact D.
    + destruct D as (ps1 & p & qs & H0 & H1 & H2 & H3). exists ps1, p, qs. repeat split; auto. destruct P4 as [P4|[P4 ->]]; lia.
  - cbn [snd]. eapply bad_token_means; [exact D|intros; apply PIN; auto].
  - destruct D.
Qed.

(** ** Whole calls *)
Lemma find_index_spec : forall A (f : A -> bool) l,
  match find_index f l with
  | Some i => (exists x, nth_error l i = Some x /\ f x = true) /\ forall j y, j < i -> nth_error l j = Some y -> f y = false
  | None => forall x, In x l -> f x = false
  end.
Proof.
  intros A f. induction l as [|x l IH]; cbn; [intros ? []|]. destruct (f x) eqn:E.
  - split; [exists x; auto|]. intros. lia.
  - destruct (find_index f l) as [i|]; cbn.
    + destruct IH as [IH1 IH2]. split; auto. intros [|j] y L; cbn; [intros [= <-]; auto|]. apply IH2. lia.
    + intros y [<-|Y]; auto.
Qed.
Lemma hasName_spec : forall c n, hasName c n = true <-> In n (names c).
Proof.
  intros. unfold hasName. rewrite existsb_exists. split.
  - intros (x & X & E). apply bytes_eqb_eq in E. congruence.
  - intros H. exists n. split; auto. apply bytes_eqb_refl.
Qed.
Lemma set_cmd_spec : forall l i c, i < length l -> length (set_cmd l i c) = length l /\ nth_error (set_cmd l i c) i = Some c /\
  forall j, j <> i -> nth_error (set_cmd l i c) j = nth_error l j.
Proof.
  induction l as [|x l IH]; intros i c L; [cbn in L; lia|]. destruct i as [|i]; cbn.
  - repeat split; auto. intros [|j] H; [lia|reflexivity].
  - destruct (IH i c ltac:(cbn in L; lia)) as (H1 & H2 & H3). repeat split; auto. intros [|j] H; cbn; auto.
Qed.
Lemma updated_fun : forall x sel c a b, updated x sel c a -> updated x sel c b -> cmdMain a = cmdMain b /\ cmds a = cmds b.
Proof.
  intros x [i|] c a b; cbn.
  - intros (A1 & A2 & A3 & A4) (B1 & B2 & B3 & B4). split; [congruence|]. apply nth_ext_error. intros j.
    destruct (Nat.eq_dec j i) as [->|N]; [congruence|]. rewrite A4, B4; auto.
  - intros [A1 A2] [B1 B2]. split; congruence.
Qed.
Lemma process_selected : forall x ts sel c rest, selected x ts sel c rest ->
  exists x', process x ts = (x', snd (process_cmd c rest)) /\ updated x sel (fst (process_cmd c rest)) x' /\
    ran x' = match snd (process_cmd c rest) with CDone => ran x ++ [sel] | _ => ran x end.
Proof.
  intros x ts sel c rest H. unfold process. destruct H as [ts H|t ts i c D N I F].
  - replace (match ts with [] => true | t :: _ => beginsAsFlag t end) with true
      by (destruct ts; [reflexivity|rewrite beginsAsFlag_dashed; auto]).
    destruct (process_cmd (cmdMain x) ts) as [c' r]. eexists. split; [reflexivity|]. cbn. destruct r; auto.
  - rewrite beginsAsFlag_dashed, D.
    pose proof (find_index_spec _ (fun c => hasName c t) (cmds x)) as S.
    destruct (find_index _ (cmds x)) as [j|].
    + destruct S as [(c2 & N2 & S2) S3].
      assert (j = i) as ->.
      { destruct (lt_eq_lt_dec i j) as [[L| ->]|L]; auto; exfalso.
        - pose proof (S3 i c L N) as X. cbn in X. apply hasName_spec in I. congruence.
        - apply hasName_spec in S2. eapply F; eauto. }
      rewrite N. assert (L : i < length (cmds x)) by (apply nth_error_Some; congruence).
      destruct (process_cmd c ts) as [c' r]. eexists. split; [reflexivity|].
      destruct (set_cmd_spec (cmds x) i c' L) as (E1 & E2 & E3). cbn. destruct r; auto.
    + exfalso. apply nth_error_In in N. specialize (S c N). cbn in S. apply hasName_spec in I. congruence.
Qed.
Lemma lev_spec : forall a b, edits (lev a b) a b /\ forall k, edits k a b -> lev a b <= k.
Proof. intros a b. unfold lev. destruct (lev_exact a b) as (d & -> & H). exact H. Qed.
Lemma closest_spec : forall t ns, (ns = [] /\ closest t ns = []) \/ nearest ns t (closest t ns).
Proof.
  intros t ns. unfold closest.
  set (f := fun (best : option (nat * bytes)) (x : bytes) => _).
  assert (G : forall l seen best,
    match best with None => seen = [] | Some (d, b) => In b seen /\ d = lev b t /\ forall n, In n seen -> d <= lev n t end ->
    match fold_left f l best with None => seen ++ l = [] | Some (d, b) => In b (seen ++ l) /\ d = lev b t /\ forall n, In n (seen ++ l) -> d <= lev n t end).
  { induction l as [|x l IH]; intros seen best H; cbn [fold_left].
    - rewrite app_nil_r. exact H.
    - specialize (IH (seen ++ [x]) (f best x)). rewrite <- app_assoc in IH. apply IH. clear IH. unfold f.
      destruct best as [[bd b]|].
      + destruct H as (H1 & H2 & H3). destruct (_ <? _) eqn:E.
        * apply Nat.ltb_lt in E. rewrite in_app_iff. split; [right; left; auto|]. split; auto. intros n Hn. apply in_app_iff in Hn.
          destruct Hn as [Hn|[<-|[]]]; [specialize (H3 n Hn)|]; lia.
        * apply Nat.ltb_ge in E. split; [apply in_app_iff; auto|]. split; auto. intros n Hn. apply in_app_iff in Hn.
          destruct Hn as [Hn|[<-|[]]]; [auto|lia].
      + subst seen. split; [left; auto|]. split; auto. intros n [<-|[]]. lia. }
  specialize (G ns [] None eq_refl). cbn [app] in G. destruct (fold_left f ns None) as [[d b]|].
  - right. destruct G as (G1 & G2 & G3). split; auto. exists d. destruct (lev_spec b t) as [L1 L2]. split; [congruence|].
    intros n k Hn E. specialize (G3 n Hn). destruct (lev_spec n t) as [_ L]. specialize (L k E). lia.
  - left. auto.
Qed.
Lemma process_unknown : forall x t ts, dashed t = false -> (forall c, In c (cmds x) -> ~ In t (names c)) ->
  exists s, process x (t :: ts) = (x, CThrow (ECmdNotFound t s)) /\
    (flat_map names (cmds x) = [] /\ s = [] \/ nearest (flat_map names (cmds x)) t s).
Proof.
  intros x t ts D N. unfold process. rewrite beginsAsFlag_dashed, D.
  pose proof (find_index_spec _ (fun c => hasName c t) (cmds x)) as S. destruct (find_index _ (cmds x)) as [j|].
  - destruct S as [(c & S1 & S2) _]. exfalso. apply hasName_spec in S2. apply nth_error_In in S1. eapply N; eauto.
  - eexists. split; [reflexivity|]. apply closest_spec.
Qed.
Lemma select_or_unknown : forall x ts, (exists sel c rest, selected x ts sel c rest) \/
  exists t rest, ts = t :: rest /\ dashed t = false /\ forall c, In c (cmds x) -> ~ In t (names c).
Proof.
  intros x ts. destruct ts as [|t ts]; [left; do 3 eexists; apply sel_main; exact I|].
  destruct (dashed t) eqn:D; [left; do 3 eexists; apply sel_main; exact D|].
  pose proof (find_index_spec _ (fun c => hasName c t) (cmds x)) as S. destruct (find_index _ (cmds x)) as [j|].
  - left. destruct S as [(c & S1 & S2) S3]. exists (Some j), c, ts. apply sel_cmd; auto; [apply hasName_spec; auto|].
    intros i d L E M. specialize (S3 i d L E). cbn in S3. apply hasName_spec in M. congruence.
  - right. exists t, ts. repeat split; auto. intros c C M. apply hasName_spec in M. specialize (S c C). cbn in S. congruence.
Qed.
Lemma process_done_iff : forall x ts x', process x ts = (x', CDone) <->
  exists sel c rest c', selected x ts sel c rest /\ accepts c rest c' /\ updated x sel c' x' /\ ran x' = ran x ++ [sel].
Proof.
  intros x ts x'. split.
  - intros H. destruct (select_or_unknown x ts) as [(sel & c & rest & S)|(t & rest & -> & D & N)].
    + destruct (process_selected _ _ _ _ _ S) as (x2 & P & U & R). rewrite P in H. injection H as -> E. rewrite E in R.
      exists sel, c, rest, (fst (process_cmd c rest)). split; [exact S|]. split; [|auto]. apply process_cmd_iff. rewrite <- E. apply surjective_pairing.
    + destruct (process_unknown x t rest D N) as (s & P & _). congruence.
  - intros (sel & c & rest & c' & S & A & U & R). destruct (process_selected _ _ _ _ _ S) as (x2 & P & U2 & R2).
    apply process_cmd_iff in A. rewrite A in *. cbn [fst snd] in *. rewrite P. f_equal.
    destruct (updated_fun _ _ _ _ _ U U2) as [E1 E2]. destruct x', x2. cbn in *. congruence.
Qed.
(** ** Value flags *)
Lemma assigned_nth : forall E (R : E -> bytes -> E -> Prop) es ts es', assigned R es ts es' ->
  forall i t, nth_error ts i = Some t -> exists e e', nth_error es i = Some e /\ nth_error es' i = Some e' /\ R e t e'.
Proof.
  intros E R es ts es' H. induction H as [|e u e' es ts es' HR HA IH]; intros i t N.
  - destruct i; discriminate.
  - destruct i as [|i]; cbn in *; [injection N as <-; eauto 6|auto].
Qed.
Lemma values_in_order : forall c ts c' vs, fopts c = [] -> accepts c ts c' ->
  filter (fun t => dashed t && has_eq t) ts = map (fun p => fst p ++ lit "=" ++ snd p) vs ->
  Forall (fun p => dashed (fst p) = true /\ has_eq (fst p) = false) vs ->
  forall i n v, nth_error vs i = Some (n, v) ->
    exists f f' w, nth_error (fvals c) i = Some f /\ nth_error (fvals c') i = Some f' /\
      vshort f' = vshort f /\ vlong f' = vlong f /\ vkind f' = vkind f /\ parses (vkind f) v w /\ vval f' = Some w.
Proof.
  intros c ts c' vs NO A F W. destruct (acc_values _ _ _ A) as (r & o & V & L1 & L2 & S1 & S2). rewrite NO in V.
  assert (E : r = map snd vs).
  { clear - V F W. revert vs F W. induction V as [|t ts r o H V IH|t n v ts r o f H1 H2 H3 H4 V IH|t n v ts r o H1 H2 H3 V IH]; intros vs F W.
    - destruct vs; [reflexivity|discriminate].
    - apply IH; auto. cbn [filter] in F. destruct (dashed t), (has_eq t); cbn in F; auto. destruct H; discriminate.
    - destruct H3.
    - cbn [filter] in F. rewrite H1, (assigns_has_eq _ _ _ H2) in F. cbn [andb] in F.
      destruct vs as [|[n' v'] vs]; [discriminate|]. cbn in F. injection F as F1 F2. inversion W as [|? ? [W1 W2] W3]. subst. cbn in *.
      f_equal; [|apply IH; auto]. destruct H2 as [H2 H2'].
      assert (X : assigns (n' ++ lit "=" ++ v') n' v') by (split; auto). assert (Y : assigns (n' ++ lit "=" ++ v') n v) by (split; auto).
      destruct (assigns_eq _ _ _ _ _ X Y). congruence. }
  intros i n v N. subst r. destruct (assigned_nth _ _ _ _ _ S1 i v) as (f & f' & E1 & E2 & G1 & G2 & G3 & w & G4 & G5).
  - rewrite nth_error_map, N. reflexivity.
  - exists f, f', w. auto 8.
Qed.
Lemma process_fails : forall x ts sel c rest, selected x ts sel c rest -> (forall c', ~ accepts c rest c') ->
  exists x' r, process x ts = (x', r) /\ r <> CDone /\ res_means c rest r /\ ran x' = ran x /\ exists c', updated x sel c' x'.
Proof.
  intros x ts sel c rest S N. destruct (process_selected _ _ _ _ _ S) as (x' & P & U & R).
  exists x', (snd (process_cmd c rest)). split; auto.
  assert (ND : snd (process_cmd c rest) <> CDone).
  { intros E. apply (N (fst (process_cmd c rest))). apply process_cmd_iff. rewrite <- E. apply surjective_pairing. }
  split; auto. split; [apply process_cmd_means|]. split; [destruct (snd (process_cmd c rest)); congruence|eauto].
Qed.
Lemma selected_self : forall x ts sel c rest, selected x ts sel c rest -> updated x sel c x.
Proof. intros x ts sel c rest [ts' H|t ts' i c' D N I F]; cbn; auto. Qed.
Lemma unchanged : forall x ts sel c rest e, selected x ts sel c rest -> process_cmd c rest = (c, CThrow e) -> process x ts = (x, CThrow e).
Proof.
  intros x ts sel c rest e S E. destruct (process_selected _ _ _ _ _ S) as (x' & P & U & R). rewrite E in *. cbn [fst snd] in *.
  rewrite P. f_equal. destruct (updated_fun _ _ _ _ _ U (selected_self _ _ _ _ _ S)) as [E1 E2]. destruct x, x'. cbn in *. congruence.
Qed.
Lemma early_errors : forall x ts sel c rest r o, selected x ts sel c rest -> values_given (fopts c) rest r o ->
  length (bare rest) <= length (flags c) -> length o <= length (fopts c) ->
  (length r <> length (fvals c) -> process x ts = (x, CThrow (EFlagValues (length (fvals c))))) /\
  (length r = length (fvals c) -> length (plain rest) < length (args c) -> process x ts = (x, CThrow (EArgs (length (args c))))).
Proof.
  intros x ts sel c rest r o S V L1 L2.
  apply values_given_iff in V. destruct V as [-> ->]. rewrite !map_length in *.
  destruct (classify c rest {| cF := []; cFV := []; cFVv := []; cFO := []; cFOv := [] |}) as [st q] eqn:K0.
  pose proof K0 as K. apply classify_spec in K; cbn [cF cFO length]; try lia.
  cbn [cF cFV cFVv cFO cFOv app] in K. rewrite ?map_length in K.
  destruct K as [(-> & _ & _ & ->)|[[_ K]|[_ K]]]; try lia.
  split.
  - intros N. eapply unchanged; eauto. unfold process_cmd. rewrite K0. cbn [cF cFV cFVv cFO cFOv]. rewrite map_length.
    replace (negb _) with true by lia. reflexivity.
  - intros N M. eapply unchanged; eauto. unfold process_cmd. rewrite K0. cbn [cF cFV cFVv cFO cFOv]. rewrite erase_plain, map_length.
    replace (negb _) with false by lia. apply take_args_none in M. rewrite M. reflexivity.
Qed.
Lemma selected_fun : forall x ts s c r s' c' r', selected x ts s c r -> selected x ts s' c' r' -> s = s' /\ c = c' /\ r = r'.
Proof.
  intros x ts s c r s' c' r' H H'. destruct H as [ts M|t ts i c D N I F]; inversion H' as [ts2 M'|t2 ts2 i2 c2 D' N' I' F']; subst; auto.
  - exfalso. congruence.
  - exfalso. congruence.
  - destruct (lt_eq_lt_dec i i2) as [[L| ->]|L].
    + exfalso. eapply F'; eauto.
    + split; auto. split; [congruence|auto].
    + exfalso. eapply F; eauto.
Qed.
Lemma flags_after : forall x ts x' sel c rest, process x ts = (x', CDone) -> selected x ts sel c rest ->
  exists c', updated x sel c' x' /\ length (flags c') = length (flags c) /\
    length (bare rest) <= length (flags c) /\
    (forall t, In t (bare rest) -> exists f, In f (flags c) /\ flag_named f t) /\
    (forall i f f', nth_error (flags c) i = Some f -> nth_error (flags c') i = Some f' ->
       fshort f' = fshort f /\ flong f' = flong f /\
       (factive f' = true <-> factive f = true \/
          exists t, In t rest /\ dashed t = true /\ has_eq t = false /\ flag_named f t /\
            forall j g, j < i -> nth_error (flags c) j = Some g -> ~ flag_named g t)).
Proof.
  intros x ts x' sel c rest P S. apply process_done_iff in P. destruct P as (sel2 & c2 & rest2 & c' & S2 & A & U & _).
  destruct (selected_fun _ _ _ _ _ _ _ _ S S2) as (<- & <- & <-). exists c'. split; auto.
  destruct (acc_flags _ _ _ A) as (L & G1 & G2 & G3). split; auto. split; auto. split.
  - intros t T. destruct (G2 t T) as (i & (f & F1 & F2) & _). exists f. split; auto. eapply nth_error_In; eauto.
  - intros i f f' N N'. destruct (G3 i f f' N N') as (E1 & E2 & E3). split; auto. split; auto. rewrite E3. split.
    + intros [?|(t & T & (g & Q1 & Q2) & Q3)]; auto. right. exists t. apply filter_In in T. destruct T as [T1 T2].
      apply andb_true_iff in T2. destruct T2 as [T2 T3]. apply negb_true_iff in T3. repeat split; auto. congruence.
    + intros [?|(t & T1 & T2 & T3 & T4 & T5)]; auto. right. exists t. split.
      * apply filter_In. split; auto. rewrite T2, T3. reflexivity.
      * split; auto. exists f. auto.
Qed.
Lemma flag_unknown : forall x ts sel c rest t, selected x ts sel c rest -> In t (bare rest) ->
  (forall f, In f (flags c) -> ~ flag_named f t) -> exists x' r, process x ts = (x', r) /\ r <> CDone /\ r <> CUB.
Proof.
  intros x ts sel c rest t S T N. destruct (process_fails _ _ _ _ _ S) as (x' & r & P & R1 & R2 & _).
  - intros c' A. destruct (acc_flags _ _ _ A) as (_ & _ & G & _). destruct (G t T) as (i & (f & F1 & F2) & _).
    apply (N f); auto. eapply nth_error_In; eauto.
  - exists x', r. split; auto. split; auto. destruct r; cbn in R2; try discriminate. destruct R2.
Qed.
Lemma failed_call : forall x ts x' r, process x ts = (x', r) -> r <> CDone ->
  ran x' = ran x /\ (x' = x \/ exists sel c rest c', selected x ts sel c rest /\ updated x sel c' x').
Proof.
  intros x ts x' r P N. destruct (select_or_unknown x ts) as [(sel & c & rest & S)|(t & rest & -> & D & U)].
  - destruct (process_selected _ _ _ _ _ S) as (x2 & P2 & U & R). rewrite P in P2. injection P2 as <- ->. split.
    + destruct (snd (process_cmd c rest)); congruence.
    + right. eauto 6.
  - destruct (process_unknown x t rest D U) as (s & P2 & _). rewrite P in P2. injection P2 as -> ->. auto.
Qed.
Lemma dispatch : forall x ts,
  (exists sel c rest, selected x ts sel c rest /\
     exists x' r c', process x ts = (x', r) /\ updated x sel c' x' /\
       ran x' = match r with CDone => ran x ++ [sel] | _ => ran x end) \/
  (exists t rest, ts = t :: rest /\ dashed t = false /\ (forall c, In c (cmds x) -> ~ In t (names c)) /\
     exists s, process x ts = (x, CThrow (ECmdNotFound t s)) /\
       (flat_map names (cmds x) = [] /\ s = [] \/ nearest (flat_map names (cmds x)) t s)).
Proof.
  intros x ts. destruct (select_or_unknown x ts) as [(sel & c & rest & S)|(t & rest & -> & D & N)].
  - left. destruct (process_selected _ _ _ _ _ S) as (x' & P & U & R). exists sel, c, rest. split; auto. exists x'. eauto.
  - right. exists t, rest. repeat (split; auto). apply process_unknown; auto.
Qed.
(** ** Optional arguments *)
Lemma assigned_each : forall E (R : E -> bytes -> E -> Prop) es ts es', assigned R es ts es' -> length es' = length es /\
  forall i e, nth_error es i = Some e -> exists e', nth_error es' i = Some e' /\ match nth_error ts i with Some t => R e t e' | None => e' = e end.
Proof.
  induction 1 as [es|e t e' es ts es' H A (L & IH)].
  - split; [reflexivity|]. intros i e H. exists e. split; [exact H|]. destruct i; reflexivity.
  - split; [cbn; congruence|]. intros [|i] f F; cbn [nth_error] in *; [injection F as <-; exists e'; auto|]. exact (IH i f F).
Qed.
Lemma optional_after : forall x ts x' sel c rest, process x ts = (x', CDone) -> selected x ts sel c rest ->
  exists c', updated x sel c' x' /\ length (opts c') = length (opts c) /\
    forall i o, nth_error (opts c) i = Some o -> exists o', nth_error (opts c') i = Some o' /\
      match nth_error (plain rest) (length (args c) + i) with
      | Some t => parses (okind o) t (opt_get o')
      | None => opt_get o' = opt_get o /\ (oval o = None -> opt_get o' = odefault o)
      end.
Proof.
  intros x ts x' sel c rest P S1. apply process_done_iff in P. destruct P as (sel2 & c2 & rest2 & c' & S2 & A & U & _).
  destruct (selected_fun _ _ _ _ _ _ _ _ S1 S2) as (<- & <- & <-). exists c'. split; auto.
  destruct (acc_plain _ _ _ A) as (a & o & p & gs & E & La & Lo & _ & AO & _). destruct (assigned_each _ _ _ _ _ AO) as [L G]. split; auto.
  intros i q Q. destruct (G i q Q) as (q' & Q' & M). exists q'. split; auto.
  assert (I : i < length (opts c)) by (apply nth_error_Some; congruence).
  assert (T : nth_error (plain rest) (length (args c) + i) = nth_error o i).
  { rewrite E, <- La, nth_error_app2 by lia. replace (length a + i - length a) with i by lia.
    destruct Lo as [Lo|[Lo ->]]; [rewrite nth_error_app1 by lia; reflexivity|rewrite app_nil_r; reflexivity]. }
  rewrite T. destruct (nth_error o i) as [t|].
  - destruct M as (_ & _ & v & V & O). unfold opt_get. rewrite O. exact V.
  - subst q'. split; [reflexivity|]. intros N. unfold opt_get. rewrite N. reflexivity.
Qed.
