(** The reader returns the value a well-formed text stands for. *)
From Coq Require Import String Ascii ZArith NArith Arith Bool Lia List.
From Coq Require Import Floats.SpecFloat.
From Verif Require Import Common ListAux VecModel VecSpec VecProofs IntToStrModel IntToStrSpec IntToStrProofs.
From Verif Require Import JsonNumModel JsonModel JsonSpec JsonNumProofs JsonExactProofs JsonProofs.
Import ListNotations.
Local Open Scope nat_scope.

(** ** Key order *)
Lemma bytes_ltb_irrefl : forall a, bytes_ltb a a = false.
Proof. induction a as [|x a IH]; cbn; [reflexivity|]. rewrite N.ltb_irrefl, IH. cbn. apply andb_false_r. Qed.
Lemma bytes_order : strict_total bytes_ltb bytes_eqb.
Proof.
  constructor.
  - apply bytes_ltb_irrefl.
  - induction a as [|x a IH]; intros [|y b] [|z c] H1 H2; cbn in *; try discriminate; try reflexivity.
    apply orb_true_iff in H1, H2. apply orb_true_iff.
    destruct H1 as [H1|H1]; destruct H2 as [H2|H2].
    + apply N.ltb_lt in H1, H2. left. apply N.ltb_lt. lia.
    + apply andb_true_iff in H2. destruct H2 as [E _]. apply Ascii.eqb_eq in E. subst. auto.
    + apply andb_true_iff in H1. destruct H1 as [E _]. apply Ascii.eqb_eq in E. subst. auto.
    + apply andb_true_iff in H1, H2. destruct H1 as [E1 L1]. destruct H2 as [E2 L2].
      apply Ascii.eqb_eq in E1, E2. subst. right. rewrite Ascii.eqb_refl. cbn. eauto.
  - induction a as [|x a IH]; intros [|y b]; cbn; auto.
    destruct (N.lt_trichotomy (N_of_ascii x) (N_of_ascii y)) as [L|[E|L]].
    + left. apply N.ltb_lt in L. now rewrite L.
    + assert (x = y) by (rewrite <- (ascii_N_embedding x), <- (ascii_N_embedding y), E; reflexivity). subst.
      rewrite Ascii.eqb_refl, N.ltb_irrefl. cbn. destruct (IH b) as [H|[->|H]]; auto.
    + right. right. apply N.ltb_lt in L. now rewrite L.
  - apply bytes_eqb_eq.
Qed.

(** ** Strings *)
Lemma app_cons_assoc : forall (p : bytes) c s, p ++ c :: s = (p ++ [c]) ++ s.
Proof. intros. rewrite <- app_assoc. reflexivity. Qed.
Lemma len_snoc : forall (p : bytes) c, length (p ++ [c]) = S (length p).
Proof. intros. rewrite app_length. cbn. lia. Qed.
Lemma eqb_neq : forall c d : ascii, c <> d -> Ascii.eqb c d = false.
Proof. intros c d N. destruct (Ascii.eqb_spec c d); [contradiction|reflexivity]. Qed.
Lemma find_end_ok : forall r d, string_body r d -> forall pre tail fuel, length r < fuel ->
  find_end (pre ++ r ++ quote :: tail) fuel (length pre) = Ok (length pre + length r).
Proof.
  induction 1 as [|c r d N1 N2 B IH|l c r d I B IH]; intros pre tail fuel F; (destruct fuel as [|fuel]; [lia|]); cbn [find_end].
  - cbn [app]. rewrite getC_app. cbn [obind]. rewrite Ascii.eqb_refl. f_equal. cbn. lia.
  - cbn [app]. rewrite getC_app. cbn [obind]. change (Ascii.eqb c quote) with (Ascii.eqb c (ch 34)). change (Ascii.eqb c backslash) with (Ascii.eqb c (ch 92)).
    rewrite !eqb_neq by assumption. cbn [length] in F.
    rewrite app_cons_assoc. replace (S (length pre)) with (length (pre ++ [c])) by apply len_snoc.
    rewrite IH by lia. f_equal. rewrite len_snoc. cbn. lia.
  - cbn [app]. rewrite getC_app. cbn [obind]. change (Ascii.eqb (ch 92) quote) with false. change (Ascii.eqb (ch 92) backslash) with true.
    cbv iota. cbn [length] in F. rewrite app_cons_assoc, app_cons_assoc.
    replace (S (S (length pre))) with (length ((pre ++ [ch 92]) ++ [l])) by (rewrite !len_snoc; lia).
    rewrite IH by lia. f_equal. rewrite !len_snoc. cbn. lia.
Qed.
Lemma escape_ok : forall l c, In (l, c) escapes -> getEscapeSequence l = Ok c.
Proof. intros l c I. cbn in I. repeat destruct I as [I|I]; try (injection I as <- <-; reflexivity). contradiction. Qed.
Lemma decode_ok : forall r d, string_body r d -> forall pre tail fuel acc, length r <= fuel ->
  decode (pre ++ r ++ tail) fuel (length pre) (length pre + length r) acc = Ok (acc ++ d).
Proof.
  induction 1 as [|c r d N1 N2 B IH|l c r d I B IH]; intros pre tail fuel acc F.
  - assert (E : (length pre + length (@nil ascii) <=? length pre) = true) by (apply Nat.leb_le; cbn; lia).
    destruct fuel; cbn [decode]; rewrite E; now rewrite app_nil_r.
  - cbn [length] in F. destruct fuel as [|fuel]; [lia|]. cbn [decode].
    replace (length pre + length (c :: r) <=? length pre) with false by (symmetry; apply Nat.leb_gt; cbn; lia).
    cbn [app]. rewrite getC_app. cbn [obind]. change backslash with (ch 92). rewrite eqb_neq by assumption.
    rewrite app_cons_assoc. replace (S (length pre)) with (length (pre ++ [c])) by apply len_snoc.
    replace (length pre + length (c :: r)) with (length (pre ++ [c]) + length r) by (rewrite len_snoc; cbn; lia).
    rewrite IH by lia. f_equal. rewrite <- app_assoc. reflexivity.
  - cbn [length] in F. destruct fuel as [|fuel]; [lia|]. cbn [decode].
    replace (length pre + length (ch 92 :: l :: r) <=? length pre) with false by (symmetry; apply Nat.leb_gt; cbn; lia).
    cbn [app]. rewrite getC_app. cbn [obind]. change (Ascii.eqb (ch 92) backslash) with true. cbv iota.
    rewrite (app_cons_assoc pre). replace (S (length pre)) with (length (pre ++ [ch 92])) by apply len_snoc.
    rewrite getC_app. cbn [obind]. rewrite (escape_ok _ _ I). cbn [obind].
    rewrite app_cons_assoc. replace (S (length (pre ++ [ch 92]))) with (length ((pre ++ [ch 92]) ++ [l])) by (rewrite !len_snoc; lia).
    replace (length pre + length (ch 92 :: l :: r)) with (length ((pre ++ [ch 92]) ++ [l]) + length r) by (rewrite !len_snoc; cbn; lia).
    rewrite IH by lia. f_equal. rewrite <- app_assoc. reflexivity.
Qed.
Lemma readStr_ok : forall r d pre tail, string_body r d ->
  readStr (pre ++ ch 34 :: r ++ ch 34 :: tail) (length pre) = Ok (d, length pre + length r + 2).
Proof.
  intros r d pre tail B. unfold readStr. change (ch 34) with quote. rewrite app_cons_assoc.
  replace (S (length pre)) with (length (pre ++ [quote])) by apply len_snoc.
  rewrite (find_end_ok r d B) by (rewrite !app_length; cbn; lia). cbn [obind].
  rewrite (decode_ok r d B) by (rewrite !app_length; cbn; lia). cbn [obind app]. do 2 f_equal. rewrite len_snoc. lia.
Qed.

(** ** Numbers *)
Lemma parseNum_strtod : forall pre t tail f z, stops tail -> strtod t = (f, []) -> double_to_long f = Ok z ->
  parseNum (pre ++ t ++ tail) (length pre) = Ok (JNum (if SFeqb (of_int z) f then NS z else NR f), length pre + length t).
Proof.
  intros pre t tail f z St E Hz. unfold parseNum.
  rewrite skipn_app, skipn_all, Nat.sub_diag. cbn [app skipn]. rewrite (strtod_app t tail f [] St E), Hz.
  cbn [obind app]. do 2 f_equal. rewrite !app_length. lia.
Qed.
Lemma digits_value_nonneg' : forall s, Forall is_digit s -> (0 <= digits_value s)%Z.
Proof. intros s F. unfold digits_value. apply (digits_value_nonneg s 0 F). lia. Qed.
Lemma number_nonneg : forall t neg m e, number_text t neg m e -> (0 <= m)%Z.
Proof.
  intros t neg m e (ip & frac & fp & ex & ev & _ & _ & F & Hf & _ & -> & _). apply digits_value_nonneg'.
  apply Forall_app. split; [exact F|]. destruct Hf as [(_ & ->)|(_ & _ & H)]; auto.
Qed.
Lemma scaled_nonneg : forall m e k, (0 <= m)%Z -> scaled_is m e k -> (0 <= k)%Z.
Proof.
  intros m e k H S. unfold scaled_is in S. destruct (Z.leb_spec 0 e).
  - assert (0 < 10 ^ e)%Z by (apply Z.pow_pos_nonneg; lia). nia.
  - assert (0 < 10 ^ (- e))%Z by (apply Z.pow_pos_nonneg; lia). nia.
Qed.
Lemma parseNum_ok : forall t neg m e n pre tail, number_text t neg m e -> number_means neg m e n -> stops tail ->
  parseNum (pre ++ t ++ tail) (length pre) = Ok (JNum n, length pre + length t).
Proof.
  intros t neg m e n pre tail T M St. pose proof (number_read _ _ _ _ T) as R. pose proof (number_nonneg _ _ _ _ T) as Hm.
  destruct M as [k S L|z Tr B Q|z Tr B Q].
  - pose proof (scaled_nonneg _ _ _ Hm S) as Hk.
    assert (W : of_scaled neg m 10 e = whole_double neg k) by (apply of_scaled_whole; auto; lia). rewrite W in R.
    rewrite (parseNum_strtod pre t tail _ (if neg then - k else k)%Z St R).
    + now rewrite whole_eqb by lia.
    + unfold double_to_long. rewrite truncate_whole by lia. unfold LONG_MIN, LONG_MAX.
      replace ((_ <=? (if neg then - k else k)) && _)%Z with true by (destruct neg; lia). reflexivity.
  - rewrite (parseNum_strtod pre t tail _ z St R), Q; [reflexivity|].
    unfold double_to_long. rewrite Tr. replace ((LONG_MIN <=? z) && (z <=? LONG_MAX))%Z with true by lia. reflexivity.
  - rewrite (parseNum_strtod pre t tail _ z St R), Q; [reflexivity|].
    unfold double_to_long. rewrite Tr. replace ((LONG_MIN <=? z) && (z <=? LONG_MAX))%Z with true by lia. reflexivity.
Qed.
Lemma number_start : forall t neg m e, number_text t neg m e -> exists c r, t = c :: r /\ isNumStart c = true.
Proof.
  intros t neg m e (ip & frac & fp & ex & ev & -> & N & F & _). destruct neg; [eexists; eexists; split; reflexivity|].
  destruct ip as [|c ip]; [now destruct N|]. inversion F as [|? ? D F']; subst. exists c, (ip ++ frac ++ ex). split; [reflexivity|].
  unfold isNumStart. apply isDigit_iff in D. rewrite D. apply orb_true_r.
Qed.

(** ** Keywords *)
Lemma match_kw_ok : forall w pre tail rs, match_kw (pre ++ w ++ tail) rs w (length pre) = Ok (length pre + length w).
Proof.
  induction w as [|c w IH]; intros pre tail rs; cbn [match_kw].
  - f_equal. cbn. lia.
  - cbn [app]. rewrite getC_app. cbn [obind]. rewrite Ascii.eqb_refl. rewrite app_cons_assoc.
    replace (S (length pre)) with (length (pre ++ [c])) by apply len_snoc. rewrite IH. f_equal. rewrite len_snoc. cbn. lia.
Qed.

(** First characters of values. *)
Definition starter (c : ascii) : Prop := In c (lit "{[tfn") \/ c = quote \/ isNumStart c = true.
Lemma denotes_start : forall t v, denotes t v -> exists c r, t = c :: r /\ starter c.
Proof.
  intros t v D. destruct D as [| | |t neg m e n T M| | |]; try (eexists; eexists; split; [reflexivity|]; unfold starter; cbn; auto 8; fail).
  destruct (number_start _ _ _ _ T) as (c & r & -> & S). exists c, r. split; [reflexivity|]. unfold starter. auto.
Qed.
Lemma starter_not : forall c, starter c -> c <> "]"%char /\ c <> "}"%char.
Proof.
  intros c [I|[->|N]].
  - cbn in I. split; intros ->; intuition discriminate.
  - split; discriminate.
  - split; intros ->; discriminate.
Qed.

(** ** Values *)
Definition reads (t : bytes) (v : jval) : Prop := forall pre tail rs fuel, stops tail -> 2 * length t <= fuel ->
  parse_val (pre ++ t ++ tail) rs fuel (length pre) = Ok (v, length pre + length t).
Lemma stops_delim : forall c s, numchar c = false -> stops (c :: s).
Proof. auto. Qed.
Lemma items_ok : forall ts vs, Forall2 (fun t v => denotes t v /\ reads t v) ts vs -> ts <> [] ->
  forall pre tail rs fuel acc, 2 * length (join ts) + 1 <= fuel ->
  parse_items (pre ++ join ts ++ "]"%char :: tail) rs fuel (length pre) acc = Ok (acc ++ vs, length pre + length (join ts)).
Proof.
  induction 1 as [|t v ts vs (D & R) F IH]; intros N pre tail rs fuel acc Hf; [now destruct N|].
  destruct fuel as [|fuel]; [lia|]. rewrite parse_items_S.
  destruct ts as [|t2 ts].
  - inversion F; subst. cbn [join] in *. rewrite R by (first [apply stops_delim; reflexivity|lia]). cbn [obind].
    rewrite app_assoc. rewrite getC_app_n by (rewrite app_length; reflexivity). cbn [obind].
    change (Ascii.eqb "]" ",") with false. change (Ascii.eqb "]" "]") with true. reflexivity.
  - change (join (t :: t2 :: ts)) with (t ++ ","%char :: join (t2 :: ts)) in *.
    rewrite app_length in Hf. cbn [length] in Hf.
    rewrite <- (app_assoc t). cbn [app]. rewrite R by (first [apply stops_delim; reflexivity|lia]). cbn [obind].
    rewrite app_assoc. rewrite getC_app_n by (rewrite app_length; reflexivity). cbn [obind].
    change (Ascii.eqb "," ",") with true. cbv iota. rewrite app_cons_assoc.
    replace (S (length pre + length t)) with (length ((pre ++ t) ++ [","%char])) by (rewrite len_snoc, app_length; lia).
    rewrite IH by (try discriminate; lia). do 2 f_equal.
    + rewrite <- app_assoc. reflexivity.
    + rewrite len_snoc, !app_length. cbn. lia.
Qed.
Definition assigns (ms : list member) : list (vm_op bytes jval) := map (fun m => Assign (m_key m) (m_val m)) ms.
Lemma members_ok : forall ms, Forall (fun m => denotes (m_text m) (m_val m) /\ reads (m_text m) (m_val m)) ms ->
  Forall (fun m => string_body (m_raw m) (m_key m) /\ no_final_backslash (m_raw m)) ms -> ms <> [] ->
  forall pre tail rs fuel o, 2 * length (join (map member_text ms)) + 1 <= fuel ->
  parse_members (pre ++ join (map member_text ms) ++ "}"%char :: tail) rs fuel (length pre) o =
  obind (vm_run bytes_ltb bytes_eqb JNll o (assigns ms)) (fun o => Ok (o, length pre + length (join (map member_text ms)))).
Proof.
  induction ms as [|m ms IH]; intros D Sb N pre tail rs fuel o Hf; [now destruct N|].
  destruct fuel as [|fuel]; [lia|]. inversion D as [|? ? (Dm & Rm) D']; subst. inversion Sb as [|? ? (Sm & _) S']; subst.
  rewrite parse_members_S.
  assert (Len : length (member_text m) = length (m_raw m) + length (m_text m) + 3) by (unfold member_text; cbn; rewrite app_length; cbn; lia).
  set (rest := match ms with [] => "}"%char :: tail | _ => ","%char :: join (map member_text ms) ++ "}"%char :: tail end).
  assert (Et : pre ++ join (map member_text (m :: ms)) ++ "}"%char :: tail = pre ++ ch 34 :: m_raw m ++ ch 34 :: ":"%char :: m_text m ++ rest).
  { f_equal. unfold rest. destruct ms as [|m2 ms].
    - cbn [map join]. unfold member_text. cbn [app]. rewrite <- app_assoc. reflexivity.
    - change (join (map member_text (m :: m2 :: ms))) with (member_text m ++ ","%char :: join (map member_text (m2 :: ms))).
      unfold member_text at 1. cbn [app]. repeat (rewrite <- app_assoc; cbn [app]). reflexivity. }
  rewrite Et. rewrite getC_app. cbn [obind]. change (Ascii.eqb (ch 34) quote) with true. cbn [negb].
  rewrite (readStr_ok _ _ pre (":"%char :: m_text m ++ rest) Sm). cbn [obind].
  assert (Ec : pre ++ ch 34 :: m_raw m ++ ch 34 :: ":"%char :: m_text m ++ rest = (pre ++ ch 34 :: m_raw m ++ [ch 34]) ++ ":"%char :: m_text m ++ rest)
    by (rewrite <- !app_assoc; cbn [app]; rewrite <- !app_assoc; reflexivity).
  rewrite Ec. assert (Lc : length (pre ++ ch 34 :: m_raw m ++ [ch 34]) = length pre + length (m_raw m) + 2) by (rewrite app_length; cbn; rewrite app_length; cbn; lia).
  rewrite getC_app_n by lia. cbn [obind]. change (Ascii.eqb ":" ":") with true. cbn [negb].
  rewrite app_cons_assoc. set (pre2 := (pre ++ ch 34 :: m_raw m ++ [ch 34]) ++ [":"%char]).
  assert (Lp : S (length pre + length (m_raw m) + 2) = length pre2) by (unfold pre2; rewrite len_snoc; lia).
  rewrite Lp.
  assert (Ft : 2 * length (m_text m) <= fuel).
  { destruct ms; cbn [map join] in Hf; [|change (join (member_text m :: member_text m0 :: map member_text ms)) with (member_text m ++ ","%char :: join (map member_text (m0 :: ms))) in Hf; rewrite app_length in Hf]; lia. }
  assert (St : stops rest) by (unfold rest; destruct ms; reflexivity).
  rewrite (Rm pre2 rest rs fuel St Ft). cbn [obind].
  cbn [assigns map vm_run]. destruct (vm_step bytes_ltb bytes_eqb JNll o (Assign (m_key m) (m_val m))) as [o1| | |] eqn:Vs; cbn [obind]; try reflexivity.
  rewrite app_assoc. unfold rest. destruct ms as [|m2 ms].
  - rewrite getC_app_n by (rewrite app_length; reflexivity). cbn [obind].
    change (Ascii.eqb "}" ",") with false. change (Ascii.eqb "}" "}") with true. cbn [assigns map vm_run obind].
    do 2 f_equal. cbn [map join]. lia.
  - rewrite getC_app_n by (rewrite app_length; reflexivity). cbn [obind].
    change (Ascii.eqb "," ",") with true. cbv iota. rewrite app_cons_assoc.
    replace (S (length pre2 + length (m_text m))) with (length ((pre2 ++ m_text m) ++ [","%char])) by (rewrite len_snoc, app_length; lia).
    change (join (map member_text (m :: m2 :: ms))) with (member_text m ++ ","%char :: join (map member_text (m2 :: ms))) in Hf |- *.
    rewrite app_length in Hf. cbn [length] in Hf.
    rewrite IH by (auto; try discriminate; lia).
    unfold assigns. destruct (vm_run _ _ _ _ _); cbn [obind]; try reflexivity. do 2 f_equal. rewrite len_snoc, !app_length.
    cbn [map] in *. change (join (member_text m :: member_text m2 :: map member_text ms)) with (member_text m ++ ","%char :: join (member_text m2 :: map member_text ms)).
    rewrite app_length. cbn [length] in *. lia.
Qed.
Lemma assigns_meaning : forall ms k, meaning bytes_eqb JNll (rev (assigns ms)) k = last_of k (map (fun m => (m_key m, m_val m)) ms).
Proof.
  assert (G : forall ms h k, meaning bytes_eqb JNll (rev (assigns ms) ++ h) k =
    match last_of k (map (fun m => (m_key m, m_val m)) ms) with Some v => Some v | None => meaning bytes_eqb JNll h k end).
  { induction ms as [|m ms IH]; intros h k; cbn [assigns map rev last_of]; [reflexivity|].
    change (map (fun m0 => Assign (m_key m0) (m_val m0)) ms) with (assigns ms). rewrite <- app_assoc. rewrite IH.
    destruct (last_of k _); [reflexivity|]. cbn [app meaning]. destruct (bytes_eqb (m_key m) k); reflexivity. }
  intros ms k. specialize (G ms [] k). rewrite app_nil_r in G. rewrite G. destruct (last_of k _); reflexivity.
Qed.
Lemma object_run : forall ms o, object_of (map (fun m => (m_key m, m_val m)) ms) o ->
  vm_run bytes_ltb bytes_eqb JNll [] (assigns ms) = Ok o.
Proof.
  intros ms o (O & I). destruct (vecmap_spec bytes_ltb bytes_eqb JNll bytes_order (assigns ms)) as (d & E & Od & Id & _).
  rewrite E. f_equal. apply (ordered_unique bytes_ltb bytes_eqb bytes_order); [exact Od|exact O|].
  intros (k, v). rewrite Id, I, assigns_meaning. reflexivity.
Qed.
Lemma join_length : forall ts t, In t ts -> length t <= length (join ts).
Proof.
  induction ts as [|x ts IH]; intros t I; [contradiction|]. destruct ts as [|y ts].
  - destruct I as [->|[]]. cbn. lia.
  - change (join (x :: y :: ts)) with (x ++ ","%char :: join (y :: ts)). rewrite app_length. cbn [length].
    destruct I as [->|I]; [lia|]. apply IH in I. lia.
Qed.
Lemma Forall2_in : forall A B (P Q : A -> B -> Prop) l m, (forall x y, In x l -> P x y -> Q x y) -> Forall2 P l m -> Forall2 Q l m.
Proof. intros A B P Q l m H F. induction F; constructor; [apply H; [left; reflexivity|assumption]|apply IHF; intros; apply H; [right; assumption|assumption]]. Qed.
Lemma not_starter_bracket : forall c : ascii, c = "["%char \/ c = "{"%char -> Ascii.eqb c "t" = false.
Proof. intros c [-> | ->]; reflexivity. Qed.
Lemma denotes_reads : forall n t v, length t <= n -> denotes t v -> reads t v.
Proof.
  induction n as [|n IH]; intros t v L D; [destruct (denotes_start t v D) as (c & r & -> & _); cbn in L; lia|].
  destruct D as [| | |t neg m e num T M|r d B NB|ts vs F|ms o Dm Sm Ob]; intros pre tail rs fuel St Hf.
  - destruct fuel as [|fuel]; [cbn in Hf; lia|]. rewrite parse_val_S.
    replace (getC (pre ++ lit "null" ++ tail) (length pre)) with (@Ok ascii "n"%char) by (symmetry; exact (getC_app pre "n" (lit "ull" ++ tail))).
    cbn [obind]. cbn -[match_kw lit]. rewrite match_kw_ok. reflexivity.
  - destruct fuel as [|fuel]; [cbn in Hf; lia|]. rewrite parse_val_S.
    replace (getC (pre ++ lit "true" ++ tail) (length pre)) with (@Ok ascii "t"%char) by (symmetry; exact (getC_app pre "t" (lit "rue" ++ tail))).
    cbn [obind]. cbn -[match_kw lit]. rewrite match_kw_ok. reflexivity.
  - destruct fuel as [|fuel]; [cbn in Hf; lia|]. rewrite parse_val_S.
    replace (getC (pre ++ lit "false" ++ tail) (length pre)) with (@Ok ascii "f"%char) by (symmetry; exact (getC_app pre "f" (lit "alse" ++ tail))).
    cbn [obind]. cbn -[match_kw lit]. rewrite match_kw_ok. reflexivity.
  - pose proof (number_start _ _ _ _ T) as (c & r & Et & Hc).
    destruct fuel as [|fuel]; [rewrite Et in Hf; cbn in Hf; lia|]. rewrite parse_val_S.
    pose proof (parseNum_ok t neg m e num pre tail T M St) as P. 
    replace (getC (pre ++ t ++ tail) (length pre)) with (@Ok ascii c) by (rewrite Et; symmetry; apply getC_app). cbn [obind].
    assert (Other : forall x, isNumStart x = false -> Ascii.eqb c x = false) by (intros x Hx; destruct (Ascii.eqb_spec c x); congruence).
    rewrite !Other by reflexivity. rewrite Hc. exact P.
  - destruct fuel as [|fuel]; [cbn in Hf; lia|]. rewrite parse_val_S. cbn [app]. rewrite getC_app. cbn [obind].
    change (Ascii.eqb (ch 34) "{") with false. change (Ascii.eqb (ch 34) "[") with false. change (Ascii.eqb (ch 34) quote) with true. cbv iota.
    cbn [app]. rewrite <- app_assoc. cbn [app]. rewrite (readStr_ok r d pre tail B). cbn [obind fst snd]. do 2 f_equal.
    cbn [length]. rewrite len_snoc. lia.
  - cbn [length] in L, Hf. rewrite len_snoc in L, Hf. destruct fuel as [|fuel]; [lia|]. rewrite parse_val_S. cbn [app]. rewrite getC_app. cbn [obind].
    change (Ascii.eqb "[" "{") with false. change (Ascii.eqb "[" "[") with true. cbv iota.
    assert (F2 : Forall2 (fun t v => denotes t v /\ reads t v) ts vs).
    { eapply Forall2_in; [|exact F]. intros x y I D. split; [exact D|]. apply IH; [|exact D]. apply join_length in I. lia. }
    cbn [app]. rewrite <- app_assoc. cbn [app]. rewrite (app_cons_assoc pre).
    replace (S (length pre)) with (length (pre ++ ["["%char])) by apply len_snoc.
    destruct ts as [|t0 ts].
    + inversion F; subst. cbn [join app]. rewrite getC_app. cbn [obind]. change (Ascii.eqb "]" "]") with true. cbv iota.
      do 2 f_equal. rewrite len_snoc. cbn. lia.
    + assert (H0 : exists c r, join (t0 :: ts) = c :: r /\ starter c).
      { inversion F as [|? v0 ? vs' D0 F']; subst. destruct (denotes_start _ _ D0) as (c & r & -> & Sc).
        destruct ts; [exists c, r|exists c, (r ++ ","%char :: join (l :: ts))]; split; auto. }
      destruct H0 as (c & r & Ej & Sc).
      replace (getC ((pre ++ ["["%char]) ++ join (t0 :: ts) ++ "]"%char :: tail) (length (pre ++ ["["%char]))) with (@Ok ascii c)
        by (rewrite Ej; symmetry; apply getC_app).
      cbn [obind]. rewrite eqb_neq by (apply starter_not in Sc; tauto).
      rewrite (items_ok (t0 :: ts) vs F2) by (try discriminate; lia). cbn [obind fst snd app].
      do 2 f_equal. rewrite len_snoc. cbn [length]. rewrite len_snoc. lia.
  - cbn [length] in L, Hf. rewrite len_snoc in L, Hf. destruct fuel as [|fuel]; [lia|]. rewrite parse_val_S. cbn [app]. rewrite getC_app. cbn [obind].
    change (Ascii.eqb "{" "{") with true. cbv iota.
    assert (F2 : Forall (fun m => denotes (m_text m) (m_val m) /\ reads (m_text m) (m_val m)) ms).
    { apply Forall_forall. intros m I. rewrite Forall_forall in Dm. split; [apply Dm; exact I|].
      apply IH; [|apply Dm; exact I]. assert (I2 : In (member_text m) (map member_text ms)) by (apply in_map; exact I).
      apply join_length in I2. unfold member_text in I2 at 1. cbn [length] in I2. rewrite app_length in I2. cbn in I2. lia. }
    pose proof (object_run ms o Ob) as Run.
    cbn [app]. rewrite <- app_assoc. cbn [app]. rewrite (app_cons_assoc pre).
    replace (S (length pre)) with (length (pre ++ ["{"%char])) by apply len_snoc.
    destruct ms as [|m0 ms].
    + cbn [assigns map vm_run] in Run. injection Run as <-. cbn [map join app]. rewrite getC_app. cbn [obind].
      change (Ascii.eqb "}" "}") with true. cbv iota. do 2 f_equal. rewrite len_snoc. cbn. lia.
    + assert (H0 : exists r, join (map member_text (m0 :: ms)) = ch 34 :: r) by (destruct ms; eexists; reflexivity).
      destruct H0 as (r & Ej).
      replace (getC ((pre ++ ["{"%char]) ++ join (map member_text (m0 :: ms)) ++ "}"%char :: tail) (length (pre ++ ["{"%char]))) with (@Ok ascii (ch 34))
        by (rewrite Ej; symmetry; apply getC_app).
      cbn [obind]. change (Ascii.eqb (ch 34) "}") with false. cbv iota.
      rewrite (members_ok (m0 :: ms) F2 Sm) by (try discriminate; lia). rewrite Run. cbn [obind fst snd].
      do 2 f_equal. rewrite len_snoc. cbn [length]. rewrite len_snoc. lia.
Qed.
