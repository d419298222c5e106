(** Blanks, comments and what follows a value in the buffer do not matter. *)
From Coq Require Import String Ascii ZArith NArith Arith Bool Lia List.
From Coq Require Import Floats.SpecFloat.
From Verif Require Import Common ListAux VecModel VecSpec VecProofs IntToStrModel IntToStrSpec IntToStrProofs.
From Verif Require Import JsonNumModel JsonModel JsonSpec JsonNumProofs JsonExactProofs JsonProofs JsonReadProofs.
Import ListNotations.
Local Open Scope nat_scope.

(** ** Stripping of spaced texts *)
Definition oapp (a : bytes) (o : option bytes) : option bytes := match o with Some r => Some (a ++ r) | None => None end.
Lemma oapp_cons : forall c a o, oapp (c :: a) o = ocons c (oapp a o).
Proof. intros c a [r|]; reflexivity. Qed.
Lemma final_tail : forall c r, no_final_backslash (c :: r) -> no_final_backslash r.
Proof. intros c r H x E. apply (H (c :: x)). cbn. now rewrite E. Qed.
Lemma final_one : forall c, no_final_backslash [c] -> c <> ch 92.
Proof. intros c H ->. apply (H []). reflexivity. Qed.
Lemma final_flag : forall c r, no_final_backslash (c :: r) -> r = [] -> Ascii.eqb c backslash = false.
Proof. intros c r H ->. apply eqb_neq. now apply final_one. Qed.
Lemma strip_string : forall r d, string_body r d -> forall p s, no_final_backslash r -> (r = [] -> p = false) ->
  strip (InString p) (r ++ quote :: s) = oapp (r ++ [quote]) (strip Plain s).
Proof.
  induction 1 as [|c r d N1 N2 B IH|l c r d I B IH]; intros p s NF Hp.
  - rewrite (Hp eq_refl). cbn [app strip]. rewrite Ascii.eqb_refl. cbn [negb orb]. destruct (strip Plain s); reflexivity.
  - cbn [app strip]. change (Ascii.eqb c quote) with (Ascii.eqb c (ch 34)). rewrite eqb_neq by assumption. cbn [negb orb].
    rewrite IH; [symmetry; apply oapp_cons|eapply final_tail; eauto|]. apply final_flag. exact NF.
  - cbn [app strip]. change (negb (Ascii.eqb (ch 92) quote) || p) with true. cbv iota.
    change (Ascii.eqb (ch 92) backslash) with true. rewrite orb_true_r.
    rewrite IH; [rewrite !oapp_cons; reflexivity|eapply final_tail; eapply final_tail; eauto|]. apply final_flag.
    eapply final_tail; eauto.
Qed.
Lemma strip_comment : forall body s, ~ In (ch 10) body -> strip InComment (body ++ ch 10 :: s) = strip Plain s.
Proof.
  induction body as [|c body IH]; intros s N; cbn [app strip].
  - change (Ascii.eqb (ch 10) newline) with true. reflexivity.
  - change newline with (ch 10). rewrite eqb_neq by (intros ->; apply N; left; reflexivity). apply IH. intros I. apply N. right. exact I.
Qed.
Lemma blank_ws : forall c, blank c <-> isWhitespace c = true.
Proof.
  intros c. unfold blank, isWhitespace, newline. rewrite !orb_true_iff, !Ascii.eqb_eq. tauto.
Qed.
Lemma spaced_strip : forall t s, spaced t s -> strip Plain s = Some t.
Proof.
  induction 1 as [|c t s B S IH|body t s N S IH|r d t s B NF S IH|c t s N1 N2 NB S IH].
  - reflexivity.
  - apply blank_ws in B as W. cbn [strip]. destruct B as [->|[->|[->| ->]]]; exact IH.
  - change (lit "//" ++ body ++ ch 10 :: s) with ("/"%char :: "/"%char :: body ++ ch 10 :: s).
    cbn [strip]. change (Ascii.eqb "/" quote) with false. cbn [is_char]. change (Ascii.eqb "/" "/") with true. cbn [andb].
    change (Ascii.eqb "/" newline) with false. cbv iota. now rewrite strip_comment.
  - cbn [strip]. change (Ascii.eqb (ch 34) quote) with true. cbv iota. rewrite (strip_string r d B) by auto.
    rewrite IH. cbn [oapp ocons]. f_equal. f_equal. rewrite <- app_assoc. reflexivity.
  - cbn [strip]. change quote with (ch 34). rewrite !eqb_neq by assumption. cbn [andb].
    destruct (isWhitespace c) eqn:W; [apply blank_ws in W; contradiction|]. rewrite IH. reflexivity.
Qed.
Lemma spaced_app : forall t s, spaced t s -> forall t' s', spaced t' s' -> spaced (t ++ t') (s ++ s').
Proof.
  induction 1 as [|c t s B S IH|body t s N S IH|r d t s B NF S IH|c t s N1 N2 NB S IH]; intros t' s' S'.
  - exact S'.
  - cbn [app]. apply sp_blank; auto.
  - rewrite <- app_assoc. cbn [app]. rewrite <- app_assoc. cbn [app]. apply sp_comment; auto.
  - cbn [app]. repeat (rewrite <- app_assoc; cbn [app]). eapply sp_string; eauto.
  - cbn [app]. apply sp_char; auto.
Qed.
Lemma spaced_blanks : forall bl t s, Forall blank bl -> spaced t s -> spaced t (bl ++ s).
Proof. induction 1; intros S; cbn [app]; [exact S|]. apply sp_blank; auto. Qed.
Lemma spaced_blank_end : forall bl t s, Forall blank bl -> spaced t s -> spaced t (s ++ bl).
Proof.
  intros bl t s F S. rewrite <- (app_nil_r t). apply spaced_app; [exact S|]. rewrite <- (app_nil_r bl). apply spaced_blanks; [exact F|constructor].
Qed.
Definition plainchar (c : ascii) : Prop := c <> ch 34 /\ c <> "/"%char /\ ~ blank c.
Lemma spaced_chars : forall t, Forall plainchar t -> spaced t t.
Proof. induction 1 as [|c t (H1 & H2 & H3) F IH]; [constructor|]. apply sp_char; auto. Qed.
Lemma numchar_plain : forall c, numchar c = true -> plainchar c.
Proof.
  intros c H. unfold plainchar, blank. repeat split; intros E; try (subst c; discriminate).
  destruct E as [->|[->|[->| ->]]]; discriminate.
Qed.
Lemma number_chars : forall t neg m e, number_text t neg m e -> Forall (fun c => numchar c = true) t.
Proof.
  intros t neg m e (ip & frac & fp & ex & ev & -> & _ & F & Hf & X & _).
  assert (Dg : forall l, Forall is_digit l -> Forall (fun c => numchar c = true) l) by (intros l; apply Forall_impl; apply digit_numchar).
  repeat (apply Forall_app; split).
  - destruct neg; repeat constructor.
  - auto.
  - destruct Hf as [(-> & _)|(-> & _ & Ff)]; [constructor|constructor; [reflexivity|auto]].
  - destruct X as [(-> & _)|(c & sg & ds & -> & Hc & _ & Fd & Hs)]; [constructor|].
    constructor; [destruct Hc as [-> | ->]; reflexivity|]. apply Forall_app. split; [|auto].
    destruct Hs as [(-> & _)|[(-> & _)|(-> & _)]]; repeat constructor.
Qed.
Lemma spaced_join : forall ts ss, Forall2 spaced ts ss -> spaced (join ts) (join ss).
Proof.
  induction 1 as [|t s ts ss S F IH]; [constructor|]. destruct F as [|t2 s2 ts ss S2 F].
  - exact S.
  - change (join (t :: t2 :: ts)) with (t ++ ","%char :: join (t2 :: ts)). change (join (s :: s2 :: ss)) with (s ++ ","%char :: join (s2 :: ss)).
    apply spaced_app; [exact S|]. apply sp_char; auto; try discriminate. intros [E|[E|[E|E]]]; discriminate.
Qed.
Lemma sp_plain1 : forall c t s, plainchar c -> spaced t s -> spaced (c :: t) (c :: s).
Proof. intros c t s (H1 & H2 & H3) S. apply sp_char; auto. Qed.
Lemma punct_plain : forall c, In c (lit "[]{}:,") -> plainchar c.
Proof.
  intros c I. cbn in I. unfold plainchar, blank. repeat split; intros E; repeat destruct E as [E|E]; subst c;
    repeat destruct I as [I|I]; try discriminate; auto.
Qed.
Lemma denotes_spaced : forall n t v, length t <= n -> denotes t v -> spaced t t.
Proof.
  induction n as [|n IH]; intros t v L D; [destruct (denotes_start t v D) as (c & r & -> & _); cbn in L; lia|].
  destruct D as [| | |t neg m e num T M|r d B NB|ts vs F|ms o Dm Sm Ob].
  - apply spaced_chars. repeat (constructor; [apply numchar_plain; reflexivity|]). constructor.
  - apply spaced_chars. repeat (constructor; [apply numchar_plain; reflexivity|]). constructor.
  - apply spaced_chars. repeat (constructor; [apply numchar_plain; reflexivity|]). constructor.
  - apply spaced_chars. eapply Forall_impl; [|eapply number_chars; eauto]. exact numchar_plain.
  - eapply sp_string; eauto. constructor.
  - cbn [length] in L. rewrite len_snoc in L. apply sp_plain1; [apply punct_plain; cbn; auto|].
    apply spaced_app; [|apply sp_plain1; [apply punct_plain; cbn; auto|constructor]].
    apply spaced_join. assert (F2 : Forall (fun t => spaced t t) ts).
    { apply Forall_forall. intros t I.
      assert (exists v, denotes t v) as (v & D).
      { clear - F I. induction F; [contradiction|]. destruct I as [->|I]; eauto. }
      apply (IH t v); [|exact D]. apply join_length in I. lia. }
    clear - F2. induction F2; constructor; auto.
  - cbn [length] in L. rewrite len_snoc in L. apply sp_plain1; [apply punct_plain; cbn; auto|].
    apply spaced_app; [|apply sp_plain1; [apply punct_plain; cbn; auto 8|constructor]].
    apply spaced_join. assert (F2 : Forall (fun t => spaced t t) (map member_text ms)).
    { apply Forall_forall. intros t I. apply join_length in I as Lt. apply in_map_iff in I. destruct I as (m & <- & I).
      rewrite Forall_forall in Dm, Sm. destruct (Sm m I) as (Sb & Nf). unfold member_text. eapply sp_string; eauto.
      apply sp_plain1; [apply punct_plain; cbn; auto 8|]. eapply IH; [|apply Dm; exact I].
      unfold member_text in Lt at 1. cbn [length] in Lt. rewrite app_length in Lt. cbn in Lt. lia. }
    clear - F2. induction F2; constructor; auto.
Qed.

(** ** Success on the stripped text means the same result with anything behind it *)
Lemma span_suffix : forall p t a r, span p t = (a, r) -> exists u, t = u ++ r.
Proof. intros p t a r H. apply span_split in H. destruct H as (-> & _). eauto. Qed.
Lemma mantissa_suffix : forall p t ip fp r, scan_mantissa p t = (ip, fp, r) -> exists u, t = u ++ r.
Proof.
  intros p t ip fp r H. unfold scan_mantissa in H. destruct (span p t) as [a x] eqn:S. destruct (span_suffix _ _ _ _ S) as (u & Eu).
  destruct x as [|c x].
  - injection H as <- <- <-. eauto.
  - destruct (Ascii.eqb c ".").
    + destruct (span p x) as [b y] eqn:S2. destruct (span_suffix _ _ _ _ S2) as (u2 & Eu2).
      assert (X : exists w, t = w ++ y) by (exists (u ++ c :: u2); rewrite <- app_assoc; cbn; rewrite <- Eu2; exact Eu).
      destruct a, b; injection H as <- <- <-; eauto. exists []. reflexivity.
    + injection H as <- <- <-. eauto.
Qed.
Lemma tl_suffix : forall (t : bytes), exists u, t = u ++ tl t.
Proof. intros [|c t]; [exists []|exists [c]]; reflexivity. Qed.
Lemma suffix_trans : forall (t x y : bytes), (exists u, t = u ++ x) -> (exists u, x = u ++ y) -> exists u, t = u ++ y.
Proof. intros t x y (u & ->) (w & ->). exists (u ++ w). now rewrite app_assoc. Qed.
Lemma exponent_suffix : forall ls t e r, scan_exponent ls t = (e, r) -> exists u, t = u ++ r.
Proof.
  intros ls t e r H. unfold scan_exponent in H. destruct t as [|c t]; [injection H as <- <-; exists []; reflexivity|].
  destruct (existsb (Ascii.eqb c) ls); [|injection H as <- <-; exists []; reflexivity].
  assert (G : forall x, (exists u, t = u ++ x) -> forall n, (match span isDigit x with ([], _) => (0%Z, c :: t) | (ds, r') => (n ds, r') end = (e, r)) -> exists u, c :: t = u ++ r).
  { intros x Hx n Q. destruct (span isDigit x) as [a y] eqn:S. destruct a; injection Q as <- <-.
    - exists []. reflexivity.
    - apply (suffix_trans _ t); [exists [c]; reflexivity|]. apply (suffix_trans _ x); [exact Hx|]. eapply span_suffix; eauto. }
  destruct (is_char t "-"); [|destruct (is_char t "+")].
  - eapply G in H; [exact H|apply tl_suffix].
  - eapply G in H; [exact H|apply tl_suffix].
  - eapply G in H; [exact H|exists []; reflexivity].
Qed.
Lemma strtod_suffix : forall t f r, strtod t = (f, r) -> exists u, t = u ++ r.
Proof.
  assert (Dc : forall neg s whole f r, (exists u, whole = u ++ s) -> decimal_case neg s whole = (f, r) -> exists u, whole = u ++ r).
  { intros neg s whole f r Hs H. unfold decimal_case in H. destruct (scan_mantissa isDigit s) as [[ip fp] x] eqn:M.
    apply mantissa_suffix in M.
    assert (G : forall (n : Z -> double), (let '(e, r') := scan_exponent ["e"%char; "E"%char] x in (n e, r')) = (f, r) -> exists u, whole = u ++ r).
    { intros n Q. destruct (scan_exponent _ x) as [e y] eqn:X. injection Q as <- <-. apply exponent_suffix in X.
      apply (suffix_trans _ s); [exact Hs|]. apply (suffix_trans _ x); assumption. }
    destruct ip, fp; try (eapply G; exact H). injection H as <- <-. exists []. reflexivity. }
  assert (U : forall neg s whole f r, (exists u, whole = u ++ s) -> strtod_unsigned neg s whole = (f, r) -> exists u, whole = u ++ r).
  { intros neg s whole f r Hs H. rewrite strtod_unsigned_eq in H. destruct s as [|c [|x h]]; try (eapply Dc; eauto; fail).
    destruct (Ascii.eqb c "0" && lower_is x "x").
    - destruct (scan_mantissa isHex h) as [[ip fp] y] eqn:M. apply mantissa_suffix in M.
      assert (G : forall (n : Z -> double), (let '(e, r') := scan_exponent ["p"%char; "P"%char] y in (n e, r')) = (f, r) -> exists u, whole = u ++ r).
      { intros n Q. destruct (scan_exponent _ y) as [e z] eqn:X. injection Q as <- <-. apply exponent_suffix in X.
        apply (suffix_trans _ (c :: x :: h)); [exact Hs|]. apply (suffix_trans _ h); [exists [c; x]; reflexivity|]. apply (suffix_trans _ y); assumption. }
      destruct ip, fp; try (eapply G; exact H). injection H as <- <-. apply (suffix_trans _ (c :: x :: h)); [exact Hs|]. exists [c]. reflexivity.
    - destruct (begins_nocase _ _ || begins_nocase _ _); [|eapply Dc; eauto].
      injection H as <- <-. apply (suffix_trans _ (c :: x :: h)); [exact Hs|]. exists (firstn 3 (c :: x :: h)). symmetry. apply firstn_skipn. }
  intros t f r H. unfold strtod in H. destruct (is_char t "-"); eapply U; eauto; [apply tl_suffix|exists []; reflexivity].
Qed.

Lemma getC_prefix : forall t tail i c, getC t i = Ok c -> c <> nul -> getC (t ++ tail) i = Ok c /\ i < length t.
Proof.
  intros t tail i c H N. unfold getC in *. destruct (nth_error t i) as [d|] eqn:E.
  - injection H as ->. assert (L : i < length t) by (apply nth_error_Some; congruence). rewrite nth_error_app1 by lia. now rewrite E.
  - destruct (i =? length t); [injection H as <-; now destruct N|discriminate].
Qed.
Lemma getC_lt : forall t tail i, i < length t -> getC (t ++ tail) i = getC t i.
Proof.
  intros t tail i L. unfold getC. rewrite nth_error_app1 by lia. destruct (nth_error t i) eqn:E; [reflexivity|].
  apply nth_error_None in E. lia.
Qed.
Lemma find_end_local : forall t tail fuel fuel' e e', fuel <= fuel' -> find_end t fuel e = Ok e' ->
  find_end (t ++ tail) fuel' e = Ok e' /\ e <= e' < length t.
Proof.
  intros t tail. induction fuel as [|fuel IH]; intros fuel' e e' F H; [discriminate|]. destruct fuel' as [|fuel']; [lia|].
  cbn [find_end] in *. destruct (getC t e) as [c| | |] eqn:G; try discriminate. cbn [obind] in H.
  destruct (Nat.lt_ge_cases e (length t)) as [L|L].
  - rewrite getC_lt, G by lia. cbn [obind]. destruct (Ascii.eqb c quote).
    + injection H as <-. split; [reflexivity|lia].
    + destruct (Ascii.eqb c backslash); apply (IH fuel') in H; try lia; (split; [tauto|lia]).
  - exfalso. assert (E : e = length t).
    { unfold getC in G. rewrite (proj2 (nth_error_None _ _)) in G by lia. destruct (Nat.eqb_spec e (length t)); [assumption|discriminate]. }
    subst e. rewrite getC_end in G. injection G as <-. change (Ascii.eqb nul quote) with false in H. change (Ascii.eqb nul backslash) with false in H.
    cbv iota in H. apply (IH fuel) in H; lia.
Qed.
Lemma decode_local : forall t tail fuel fuel' i e acc s, fuel <= fuel' -> e < length t -> decode t fuel i e acc = Ok s ->
  decode (t ++ tail) fuel' i e acc = Ok s.
Proof.
  intros t tail. induction fuel as [|fuel IH]; intros fuel' i e acc s F L H.
  - cbn [decode] in H. destruct (e <=? i) eqn:E; [|discriminate]. destruct fuel'; cbn [decode]; rewrite E; exact H.
  - cbn [decode] in H. destruct (e <=? i) eqn:E.
    + destruct fuel'; cbn [decode]; rewrite E; exact H.
    + destruct fuel' as [|fuel']; [lia|]. cbn [decode]. rewrite E. apply Nat.leb_gt in E. rewrite getC_lt by lia.
      destruct (getC t i) as [c| | |]; try discriminate. cbn [obind] in *. destruct (Ascii.eqb c backslash).
      * rewrite getC_lt by lia. destruct (getC t (S i)) as [d| | |]; try discriminate. cbn [obind] in *.
        destruct (getEscapeSequence d); try discriminate. cbn [obind] in *. apply IH; auto; lia.
      * apply IH; auto; lia.
Qed.
Lemma readStr_local : forall t tail i s i', readStr t i = Ok (s, i') -> readStr (t ++ tail) i = Ok (s, i') /\ i < i' <= length t.
Proof.
  intros t tail i s i' H. unfold readStr in *. destruct (find_end t (S (S (length t))) (S i)) as [e| | |] eqn:Fe; try discriminate.
  cbn [obind] in H. destruct (decode t (S (length t)) (S i) e []) as [d| | |] eqn:De; try discriminate. cbn [obind] in H. injection H as <- <-.
  assert (Lb : length t <= length (t ++ tail)) by (rewrite app_length; lia).
  destruct (find_end_local t tail (S (S (length t))) (S (S (length (t ++ tail)))) (S i) e ltac:(lia) Fe) as (Fe' & L).
  rewrite Fe'. cbn [obind]. rewrite (decode_local t tail (S (length t)) (S (length (t ++ tail))) (S i) e [] d ltac:(lia) ltac:(lia) De).
  cbn [obind]. split; [reflexivity|lia].
Qed.
Lemma match_kw_local : forall t tail rs rs' w i i', ~ In nul w -> i <= length t -> match_kw t rs w i = Ok i' ->
  match_kw (t ++ tail) rs' w i = Ok i' /\ i <= i' <= length t.
Proof.
  intros t tail rs rs'. induction w as [|c w IH]; intros i i' N Li H; cbn [match_kw] in *.
  - injection H as <-. split; [reflexivity|lia].
  - destruct (getC t i) as [d| | |] eqn:G; try discriminate. cbn [obind] in H. destruct (Ascii.eqb_spec d c) as [->|].
    + destruct (getC_prefix t tail i c G) as (G' & L); [intros ->; apply N; left; reflexivity|]. rewrite G'. cbn [obind]. rewrite Ascii.eqb_refl.
      apply IH in H; [|intros I; apply N; right; exact I|lia]. split; [tauto|lia].
    + unfold throwError in H. destruct (_ || _); discriminate.
Qed.
Lemma throw_ok : forall A rs i m (x : A), throwError rs i m <> Ok x.
Proof. intros. unfold throwError. destruct (_ || _); discriminate. Qed.

(** The character a value ends at is known not to continue a number. *)
Definition closed_at (t : bytes) (i i' : nat) : Prop :=
  (exists c, getC t i = Ok c /\ isNumStart c = true) -> exists c, nth_error t i' = Some c /\ numchar c = false.
Lemma parseNum_local : forall t tail i v i', parseNum t i = Ok (v, i') -> i <= length t ->
  (exists c, nth_error t i' = Some c /\ numchar c = false) -> parseNum (t ++ tail) i = Ok (v, i') /\ i <= i' <= length t.
Proof.
  intros t tail i v i' H Li (c & Hc & Nc). unfold parseNum in *. destruct (strtod (skipn i t)) as [f r] eqn:S.
  destruct (strtod_suffix _ _ _ S) as (u & Eu). destruct (double_to_long f) as [z| | |] eqn:Dl; try discriminate. cbn [obind] in H.
  injection H as <- <-.
  assert (Lr : length (skipn i t) = length u + length r) by (rewrite Eu, app_length; reflexivity). rewrite skipn_length in Lr.
  assert (Er : r = skipn (length t - length r) t).
  { rewrite <- (firstn_skipn i t) at 2. rewrite Eu, app_assoc. rewrite skipn_app.
    assert (Lf : length (firstn i t ++ u) = length t - length r) by (rewrite app_length, firstn_length; lia).
    rewrite <- Lf, skipn_all, Nat.sub_diag. reflexivity. }
  assert (Hd : exists r', r = c :: r').
  { destruct r as [|d r']; [cbn in Hc; replace (length t - 0) with (length t) in Hc by lia; assert (nth_error t (length t) = None) by (apply nth_error_None; lia); congruence|].
    exists r'. f_equal. assert (X : nth_error (skipn (length t - length (d :: r')) t) 0 = Some d) by (rewrite <- Er; reflexivity).
    rewrite nth_error_skip in X. replace (length t - length (d :: r') + 0) with (length t - length (d :: r')) in X by lia. congruence. }
  destruct Hd as (r' & ->).
  destruct (strtod u) as [f1 r1] eqn:Su.
  pose proof (strtod_app u (c :: r') f1 r1 Nc Su) as X. rewrite <- Eu, S in X. injection X as <- Xr.
  assert (r1 = []) as ->.
  { assert (Xl := f_equal (@length ascii) Xr). rewrite app_length in Xl. cbn in Xl. destruct r1; [reflexivity|cbn in Xl; lia]. }
  assert (St2 : stops (c :: r' ++ tail)) by exact Nc.
  pose proof (strtod_app u (c :: r' ++ tail) f [] St2 Su) as Y.
  rewrite skipn_app. replace (i - length t) with 0 by lia. cbn [skipn]. rewrite Eu, <- app_assoc. cbn [app]. rewrite Y. cbn [app]. rewrite Dl. cbn [obind length] in *.
  split; [do 2 f_equal; rewrite !app_length; lia|]. lia.
Qed.
Lemma char_cases : forall c d, isNumStart c = true -> isNumStart d = false -> Ascii.eqb c d = false.
Proof. intros c d H1 H2. destruct (Ascii.eqb_spec c d); congruence. Qed.
Lemma delim_char : forall c d, Ascii.eqb c d = true -> numchar d = false -> d <> nul -> numchar c = false /\ c <> nul.
Proof. intros c d H. apply Ascii.eqb_eq in H. subst. auto. Qed.
Section LOCAL.
Context (t tail : bytes) (rs rs' : nat).
Let b := t ++ tail.
Lemma parse_local : forall fuel,
  (forall fuel' i v i', fuel <= fuel' -> i <= length t -> parse_val t rs fuel i = Ok (v, i') -> closed_at t i i' ->
     parse_val b rs' fuel' i = Ok (v, i') /\ i <= i' <= length t) /\
  (forall fuel' i acc a i', fuel <= fuel' -> i <= length t -> parse_items t rs fuel i acc = Ok (a, i') ->
     parse_items b rs' fuel' i acc = Ok (a, i') /\ i <= i' < length t) /\
  (forall fuel' i o p i', fuel <= fuel' -> i <= length t -> parse_members t rs fuel i o = Ok (p, i') ->
     parse_members b rs' fuel' i o = Ok (p, i') /\ i <= i' < length t).
Proof.
  unfold b. induction fuel as [|fuel (IHv & IHi & IHm)]; (split; [|split]).
  1-3: intros; discriminate.
  - intros fuel' i v i' F Li H Cl. destruct fuel' as [|fuel']; [lia|]. rewrite parse_val_S in *.
    destruct (getC t i) as [c| | |] eqn:G; try discriminate. cbn [obind] in H.
    destruct (ch_eq_dec c nul) as [->|Nn].
    { exfalso. cbn in H. eapply throw_ok; eauto. }
    destruct (getC_prefix t tail i c G Nn) as (G' & L). rewrite G'. cbn [obind].
    destruct (Ascii.eqb c "{").
    { destruct (getC t (S i)) as [d| | |] eqn:G1; try discriminate. cbn [obind] in H.
      destruct (ch_eq_dec d nul) as [->|Nd].
      - exfalso. change (Ascii.eqb nul "}") with false in H. cbv iota in H.
        destruct (parse_members t rs fuel (S i) []) as [[p j]| | |] eqn:Pm; try discriminate.
        destruct fuel as [|fuel0]; [discriminate|]. rewrite parse_members_S, G1 in Pm. cbn in Pm. eapply throw_ok; eauto.
      - destruct (getC_prefix t tail (S i) d G1 Nd) as (G1' & L1). rewrite G1'. cbn [obind]. destruct (Ascii.eqb d "}").
        + injection H as <- <-. split; [reflexivity|lia].
        + destruct (parse_members t rs fuel (S i) []) as [[p j]| | |] eqn:Pm; try discriminate. cbn [obind fst snd] in H. injection H as <- <-.
          destruct (IHm fuel' (S i) [] p j ltac:(lia) ltac:(lia) Pm) as (-> & B). cbn [obind fst snd]. split; [reflexivity|lia]. }
    destruct (Ascii.eqb c "[").
    { destruct (getC t (S i)) as [d| | |] eqn:G1; try discriminate. cbn [obind] in H.
      destruct (ch_eq_dec d nul) as [->|Nd].
      - exfalso. change (Ascii.eqb nul "]") with false in H. cbv iota in H.
        destruct (parse_items t rs fuel (S i) []) as [[p j]| | |] eqn:Pm; try discriminate.
        destruct fuel as [|fuel0]; [discriminate|]. rewrite parse_items_S in Pm. destruct fuel0 as [|fuel1]; [discriminate|].
        rewrite parse_val_S, G1 in Pm. cbn in Pm. unfold throwError in Pm. destruct (_ || _); discriminate.
      - destruct (getC_prefix t tail (S i) d G1 Nd) as (G1' & L1). rewrite G1'. cbn [obind]. destruct (Ascii.eqb d "]").
        + injection H as <- <-. split; [reflexivity|lia].
        + destruct (parse_items t rs fuel (S i) []) as [[p j]| | |] eqn:Pm; try discriminate. cbn [obind fst snd] in H. injection H as <- <-.
          destruct (IHi fuel' (S i) [] p j ltac:(lia) ltac:(lia) Pm) as (-> & B). cbn [obind fst snd]. split; [reflexivity|lia]. }
    destruct (Ascii.eqb c quote).
    { destruct (readStr t i) as [[d j]| | |] eqn:Rd; try discriminate. cbn [obind fst snd] in H. injection H as <- <-.
      destruct (readStr_local t tail i d j Rd) as (-> & B). cbn [obind fst snd]. split; [reflexivity|lia]. }
    assert (Nt : ~ In nul (lit "true")) by (vm_compute; intuition discriminate).
    assert (Nf : ~ In nul (lit "false")) by (vm_compute; intuition discriminate).
    assert (Nu : ~ In nul (lit "null")) by (vm_compute; intuition discriminate).
    destruct (Ascii.eqb c "t").
    { destruct (match_kw t rs (lit "true") i) as [j| | |] eqn:Mk; try discriminate. cbn [obind] in H. injection H as <- <-.
      destruct (match_kw_local t tail rs rs' (lit "true") i j Nt Li Mk) as (-> & B). cbn [obind]. split; [reflexivity|lia]. }
    destruct (Ascii.eqb c "f").
    { destruct (match_kw t rs (lit "false") i) as [j| | |] eqn:Mk; try discriminate. cbn [obind] in H. injection H as <- <-.
      destruct (match_kw_local t tail rs rs' (lit "false") i j Nf Li Mk) as (-> & B). cbn [obind]. split; [reflexivity|lia]. }
    destruct (Ascii.eqb c "n").
    { destruct (match_kw t rs (lit "null") i) as [j| | |] eqn:Mk; try discriminate. cbn [obind] in H. injection H as <- <-.
      destruct (match_kw_local t tail rs rs' (lit "null") i j Nu Li Mk) as (-> & B). cbn [obind]. split; [reflexivity|lia]. }
    destruct (isNumStart c) eqn:Ns.
    { apply parseNum_local; [exact H|exact Li|]. apply Cl. eauto. }
    exfalso. eapply throw_ok; eauto.
  - intros fuel' i acc a i' F Li H. destruct fuel' as [|fuel']; [lia|]. rewrite parse_items_S in *.
    destruct (parse_val t rs fuel i) as [[v j]| | |] eqn:Pv; try discriminate. cbn [obind] in H.
    destruct (getC t j) as [c| | |] eqn:G; try discriminate. cbn [obind] in H.
    assert (D : numchar c = false /\ c <> nul).
    { destruct (Ascii.eqb c ",") eqn:E1; [eapply delim_char; [exact E1|reflexivity|discriminate]|].
      destruct (Ascii.eqb c "]") eqn:E2; [eapply delim_char; [exact E2|reflexivity|discriminate]|]. exfalso. eapply throw_ok; eauto. }
    destruct D as (D1 & D2). destruct (getC_prefix t tail j c G D2) as (G' & L).
    destruct (IHv fuel' i v j ltac:(lia) Li Pv) as (-> & B).
    { intros _. exists c. split; [|exact D1]. unfold getC in G. destruct (nth_error t j) eqn:E; [congruence|].
      apply nth_error_None in E. lia. }
    cbn [obind]. rewrite G'. cbn [obind]. destruct (Ascii.eqb c ",").
    + destruct (IHi fuel' (S j) (acc ++ [v]) a i' ltac:(lia) ltac:(lia) H) as (-> & B2). split; [reflexivity|lia].
    + destruct (Ascii.eqb c "]"); [|exfalso; eapply throw_ok; eauto]. injection H as <- <-. split; [reflexivity|lia].
  - intros fuel' i o p i' F Li H. destruct fuel' as [|fuel']; [lia|]. rewrite parse_members_S in *.
    destruct (getC t i) as [c0| | |] eqn:G0; try discriminate. cbn [obind] in H.
    destruct (Ascii.eqb_spec c0 quote) as [->|]; cbn [negb] in H; [|exfalso; eapply throw_ok; eauto].
    destruct (getC_prefix t tail i quote G0) as (-> & L0); [discriminate|]. cbn [obind]. rewrite Ascii.eqb_refl. cbn [negb].
    destruct (readStr t i) as [[k j0]| | |] eqn:Rd; try discriminate. cbn [obind] in H.
    destruct (readStr_local t tail i k j0 Rd) as (-> & B0). cbn [obind].
    destruct (getC t j0) as [c1| | |] eqn:G1; try discriminate. cbn [obind] in H.
    destruct (Ascii.eqb_spec c1 ":") as [->|]; cbn [negb] in H; [|exfalso; eapply throw_ok; eauto].
    destruct (getC_prefix t tail j0 ":" G1) as (-> & L1); [discriminate|]. cbn [obind]. rewrite Ascii.eqb_refl. cbn [negb].
    destruct (parse_val t rs fuel (S j0)) as [[v j]| | |] eqn:Pv; try discriminate. cbn [obind] in H.
    destruct (vm_step bytes_ltb bytes_eqb JNll o (Assign k v)) as [o1| | |] eqn:Vs; try discriminate. cbn [obind] in H.
    destruct (getC t j) as [c| | |] eqn:G; try discriminate. cbn [obind] in H.
    assert (D : numchar c = false /\ c <> nul).
    { destruct (Ascii.eqb c ",") eqn:E1; [eapply delim_char; [exact E1|reflexivity|discriminate]|].
      destruct (Ascii.eqb c "}") eqn:E2; [eapply delim_char; [exact E2|reflexivity|discriminate]|]. exfalso. eapply throw_ok; eauto. }
    destruct D as (D1 & D2). destruct (getC_prefix t tail j c G D2) as (G' & L).
    destruct (IHv fuel' (S j0) v j ltac:(lia) ltac:(lia) Pv) as (-> & B).
    { intros _. exists c. split; [|exact D1]. unfold getC in G. destruct (nth_error t j) eqn:E; [congruence|].
      apply nth_error_None in E. lia. }
    cbn [obind]. rewrite Vs. cbn [obind]. rewrite G'. cbn [obind]. destruct (Ascii.eqb c ",").
    + destruct (IHm fuel' (S j) o1 p i' ltac:(lia) ltac:(lia) H) as (-> & B2). split; [reflexivity|lia].
    + destruct (Ascii.eqb c "}"); [|exfalso; eapply throw_ok; eauto]. injection H as <- <-. split; [reflexivity|lia].
Qed.
End LOCAL.
Lemma spaced_idem : forall t s, spaced t s -> spaced t t.
Proof. induction 1; auto; [constructor|eapply sp_string; eauto|apply sp_char; auto]. Qed.
Lemma spaced_same_value : forall t s v, spaced t s -> (N.of_nat (length s) < 2 ^ 31)%N -> not_number t ->
  parse_text t = Ok v -> parse_text s = Ok v.
Proof.
  intros t s v Sp L (c & r & Et & N1 & N2) H.
  pose proof (spaced_strip _ _ Sp) as St. pose proof (spaced_strip _ _ (spaced_idem _ _ Sp)) as Stt.
  pose proof (strip_length _ _ _ St) as Lt.
  rewrite parse_text_eq in * by lia. rewrite St. rewrite Stt in H.
  assert (Ot : over t t = t) by (unfold over; rewrite skipn_all; apply app_nil_r). rewrite Ot in H.
  destruct (parse_val t (length t) (2 * length t + 4) 0) as [[v' i']| | |] eqn:P; try discriminate. cbn [obind fst] in H. injection H as ->.
  unfold over. destruct (parse_local t (skipn (length t) s) (length t) (length t) (2 * length t + 4)) as (Pl & _).
  destruct (Pl (2 * length s + 4) 0 v i' ltac:(lia) ltac:(lia) P) as (-> & _); [|reflexivity].
  intros (d & Gd & Nd). exfalso. rewrite Et in Gd. cbn in Gd. injection Gd as <-. unfold isNumStart in Nd. apply orb_true_iff in Nd.
  destruct Nd as [Nd|Nd]; [apply Ascii.eqb_eq in Nd; contradiction|]. apply isDigit_iff in Nd. contradiction.
Qed.
(** Blanks behind a value, whatever its kind. *)
Lemma denoted_spaced : forall t s v, denotes t v -> spaced t s -> (N.of_nat (length s) < 2 ^ 31)%N -> not_number t \/ t = s ->
  parse_text s = Ok v.
Proof.
  intros t s v D Sp L H.
  assert (Self : (N.of_nat (length t) < 2 ^ 31)%N -> parse_text t = Ok v).
  { intros Lt. rewrite parse_text_eq by exact Lt. rewrite (spaced_strip _ _ (spaced_idem _ _ Sp)).
    assert (Ot : over t t = t) by (unfold over; rewrite skipn_all; apply app_nil_r). rewrite Ot.
    pose proof (denotes_reads (length t) t v (le_n _) D [] [] (length t) (2 * length t + 4) I ltac:(lia)) as R.
    cbn [app length Nat.add] in R. rewrite app_nil_r in R. rewrite R. reflexivity. }
  destruct H as [H| ->]; [|auto]. eapply spaced_same_value; eauto. apply Self.
  pose proof (strip_length _ _ _ (spaced_strip _ _ Sp)). lia.
Qed.
