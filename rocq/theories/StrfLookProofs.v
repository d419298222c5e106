(** Proofs about stringified values on a terminal. *)
From Coq Require Import String Ascii ZArith NArith Arith Bool Lia List.
From Verif Require Import Common IntToStrModel MplModel StrfModel StrfSpec StrfProofs ConModel ConSpec ConProofs StrfLookSpec.
Import ListNotations.

Definition is_fresh (s : st) : Prop := sty s = 0 /\ fg s = 0 /\ bg s = 0.
Definition ready (b : bool) (s : st) (p : pen) : Prop := b = true -> is_fresh s /\ p = plain.
Definition reads (d : bytes) (p : pen) (cells : list cell) (p' : pen) : Prop :=
  forall cs, fold_left receive d (mkT Ground p cs (length cs)) = mkT Ground p' (cs ++ cells) (length (cs ++ cells)).
Definition appended (tgt : bool) (s s' : st) (d : bytes) : Prop :=
  if tgt then out s' = out s /\ oss s' = oss s ++ d else out s' = out s ++ d.
Definition draws (pre : bool) (tgt : bool) (m : sm) (cells : list cell) (post : bool) : Prop :=
  forall s p, ready pre s p -> exists s' d p', m s = Ok s' /\ appended tgt s s' d /\ reads d p cells p' /\ ready post s' p'.

Lemma appended_app tgt s s1 s2 d1 d2 : appended tgt s s1 d1 -> appended tgt s1 s2 d2 -> appended tgt s s2 (d1 ++ d2).
Proof.
  unfold appended. destruct tgt.
  - intros [A1 B1] [A2 B2]. split; [congruence|]. rewrite B2, B1, app_assoc. reflexivity.
  - intros W1 W2. rewrite W2, W1, app_assoc. reflexivity.
Qed.
Lemma reads_app d1 d2 p1 p2 p3 c1 c2 : reads d1 p1 c1 p2 -> reads d2 p2 c2 p3 -> reads (d1 ++ d2) p1 (c1 ++ c2) p3.
Proof. intros H1 H2 cs. rewrite fold_left_app, H1, H2, app_assoc. reflexivity. Qed.
Lemma reads_nil p : reads [] p [] p.
Proof. intros cs. cbn. rewrite app_nil_r. reflexivity. Qed.
Lemma appended_nil tgt s : appended tgt s s [].
Proof. unfold appended. destruct tgt; rewrite app_nil_r; auto. Qed.

Lemma draws_seq a tgt m1 c1 b m2 c2 c : draws a tgt m1 c1 b -> draws b tgt m2 c2 c -> draws a tgt (seqm m1 m2) (c1 ++ c2) c.
Proof.
  intros H1 H2 s p R. destruct (H1 s p R) as (s1 & d1 & p1 & E1 & A1 & R1 & Q1).
  destruct (H2 s1 p1 Q1) as (s2 & d2 & p2 & E2 & A2 & R2 & Q2).
  exists s2, (d1 ++ d2), p2. split; [unfold seqm; rewrite E1; exact E2|].
  split; [exact (appended_app _ _ _ _ _ _ A1 A2)|]. split; [exact (reads_app _ _ _ _ _ _ _ R1 R2)|exact Q2].
Qed.
Lemma draws_weak a b a' b' tgt m c : (a = true -> a' = true) -> (b' = true -> b = true) -> draws a tgt m c b -> draws a' tgt m c b'.
Proof.
  intros Ha Hb H s p R. destruct (H s p) as (s1 & d1 & p1 & E1 & A1 & R1 & Q1).
  - intros E. apply R, Ha, E.
  - exists s1, d1, p1. repeat (split; [assumption|]). intros E. apply Q1, Hb, E.
Qed.
Lemma draws_ext a tgt (m m' : sm) c b : (forall s, m s = m' s) -> draws a tgt m c b -> draws a tgt m' c b.
Proof. intros E H s p R. rewrite <- E. exact (H s p R). Qed.
Lemma draws_skip a tgt : draws a tgt skip [] a.
Proof.
  intros s p R. exists s, [], p. split; [reflexivity|]. split; [apply appended_nil|]. split; [apply reads_nil|exact R].
Qed.

Lemma esc_same : esc = ESC. Proof. reflexivity. Qed.
Lemma clean_no_esc t : clean t = true -> ~ In esc t.
Proof.
  unfold clean. intros H K. rewrite forallb_forall in H. specialize (H _ K). rewrite <- esc_same, Ascii.eqb_refl in H. discriminate.
Qed.
Lemma reads_text t p : clean t = true -> reads t p (drawn p t) p.
Proof. intros H cs. apply read_text, clean_no_esc, H. Qed.

Lemma put_appends tgt t s : exists s', put tgt t s = Ok s' /\ appended tgt s s' t /\
  sty s' = sty s /\ fg s' = fg s /\ bg s' = bg s.
Proof. unfold put, appended. destruct tgt; eexists; (split; [reflexivity|]); cbn; auto. Qed.

(** A text printed from a state that is not fresh keeps whatever pen there is. *)
Lemma put_draws tgt t p s : clean t = true -> exists s', put tgt t s = Ok s' /\ appended tgt s s' t /\ reads t p (drawn p t) p /\
  sty s' = sty s /\ fg s' = fg s /\ bg s' = bg s.
Proof.
  intros H. destruct (put_appends tgt t s) as (s' & E & A & B). exists s'. split; [exact E|]. split; [exact A|].
  split; [apply reads_text; exact H|exact B].
Qed.
Lemma draws_put tgt t : clean t = true -> draws true tgt (put tgt t) (drawn plain t) true.
Proof.
  intros H s p R. destruct (R eq_refl) as [F ->]. destruct (put_draws tgt t plain s H) as (s' & E & A & B & C1 & C2 & C3).
  exists s', t, plain. repeat (split; [assumption|]). intros _. unfold is_fresh in *. rewrite C1, C2, C3. auto.
Qed.

Lemma fmt_draws tgt upd y f b s p :
  out (upd s) = out s -> oss (upd s) = oss s -> sty (upd s) = style_int y -> fg (upd s) = color_int f -> bg (upd s) = color_int b ->
  exists s' d, put_fmt Unix tgt upd s = Ok s' /\ appended tgt s s' d /\ reads d p [] (repen y f b p) /\
    sty s' = style_int y /\ fg s' = color_int f /\ bg s' = color_int b.
Proof.
  intros Ho Hs H1 H2 H3. unfold put_fmt.
  assert (E : fmt_str (upd s) = seq_text y f b) by (unfold fmt_str, seq_text; rewrite H1, H2, H3; reflexivity).
  rewrite E. destruct (put_appends tgt (seq_text y f b) (upd s)) as (s' & Ep & A & C1 & C2 & C3).
  exists s', (seq_text y f b). split; [exact Ep|]. split.
  - unfold appended in *. rewrite Ho, Hs in A. exact A.
  - split; [|rewrite C1, C2, C3; auto]. intros cs. rewrite read_seq, app_nil_r. reflexivity.
Qed.

Lemma draws_reset a tgt : draws a tgt (resetFmt Unix tgt) [] true.
Proof.
  intros s p _. destruct (fmt_draws tgt (fun s => mkSt sNone cDefault cDefault (out s) (oss s)) SNone CDefault CDefault s p)
    as (s' & d & E & A & R & C1 & C2 & C3); try reflexivity.
  exists s', d, plain. split; [exact E|]. split; [exact A|]. split; [exact R|]. intros _. repeat split; assumption.
Qed.

(** A pen the stringifier uses: reset, colour and style. *)
Lemma draws_printFmt tgt t x y f yy :
  x = color_int f -> y = style_int yy -> clean t = true ->
  draws false tgt (printFmt Unix true tgt t x y) (drawn (repen yy f CDefault (repen SNone f CDefault plain)) t) false.
Proof.
  intros -> -> H s p _. unfold printFmt, seqm.
  destruct (draws_reset false tgt s p) as (s1 & d1 & p1 & E1 & A1 & R1 & Q1); [discriminate|].
  destruct (Q1 eq_refl) as [(F1 & F2 & F3) ->]. rewrite E1. cbn [obind].
  destruct (fmt_draws tgt (fun s => mkSt (sty s) (color_int f) (bg s) (out s) (oss s)) SNone f CDefault s1 plain)
    as (s2 & d2 & E2 & A2 & R2 & G1 & G2 & G3); try reflexivity; try assumption.
  unfold setColorFG. rewrite E2. cbn [obind].
  destruct (fmt_draws tgt (fun s => mkSt (style_int yy) (fg s) (bg s) (out s) (oss s)) yy f CDefault s2 (repen SNone f CDefault plain))
    as (s3 & d3 & E3 & A3 & R3 & I1 & I2 & I3); try reflexivity; try assumption.
  unfold setStyle. rewrite E3. cbn [obind].
  destruct (put_draws tgt t (repen yy f CDefault (repen SNone f CDefault plain)) s3 H) as (s4 & E4 & A4 & R4 & _).
  rewrite E4. exists s4, (d1 ++ d2 ++ d3 ++ t). eexists. split; [reflexivity|]. split.
  - exact (appended_app _ _ _ _ _ _ A1 (appended_app _ _ _ _ _ _ A2 (appended_app _ _ _ _ _ _ A3 A4))).
  - split; [|discriminate].
    exact (reads_app _ _ _ _ _ [] _ R1 (reads_app _ _ _ _ _ [] _ R2 (reads_app _ _ _ _ _ [] _ R3 R4))).
Qed.
Lemma draws_fmt tfmt tgt t x y f yy :
  x = color_int f -> y = style_int yy -> clean t = true ->
  draws (negb tfmt) tgt (printFmt Unix tfmt tgt t x y)
    (in_pen tfmt (repen yy f CDefault (repen SNone f CDefault plain)) t) (negb tfmt).
Proof.
  intros Hx Hy H. destruct tfmt.
  - apply (draws_printFmt tgt t x y f yy Hx Hy H).
  - apply (draws_seq true tgt skip [] true); [apply draws_skip|]. apply draws_put. exact H.
Qed.
Lemma draws_bold tfmt tgt t : clean t = true ->
  draws (negb tfmt) tgt (printBold Unix tfmt tgt t cDefault) (in_pen tfmt (strong Own) t) (negb tfmt).
Proof. intros H. exact (draws_fmt tfmt tgt t cDefault sBold CDefault SBold eq_refl eq_refl H). Qed.

Lemma draws_base tfmt tgt x y f yy t q : x = color_int f -> y = style_int yy -> clean t = true -> clean q = true ->
  draws true tgt (base_impl Unix tfmt tgt x y t q)
    (in_pen tfmt (repen yy f CDefault (repen yy CDefault CDefault plain)) (t ++ (if tfmt then q else []))) (negb tfmt).
Proof.
  intros -> -> Ht Hq. destruct tfmt.
  - intros s p R. destruct (R eq_refl) as [(F1 & F2 & F3) ->]. unfold base_impl, seqm.
    destruct (fmt_draws tgt (fun s => mkSt (style_int yy) (fg s) (bg s) (out s) (oss s)) yy CDefault CDefault s plain)
      as (s2 & d2 & E2 & A2 & R2 & G1 & G2 & G3); try reflexivity; try assumption.
    unfold setStyle. rewrite E2. cbn [obind].
    destruct (fmt_draws tgt (fun s => mkSt (sty s) (color_int f) (bg s) (out s) (oss s)) yy f CDefault s2 (repen yy CDefault CDefault plain))
      as (s3 & d3 & E3 & A3 & R3 & I1 & I2 & I3); try reflexivity; try assumption.
    unfold setColorFG. rewrite E3. cbn [obind].
    set (pp := repen yy f CDefault (repen yy CDefault CDefault plain)) in *.
    destruct (put_draws tgt t pp s3 Ht) as (s4 & E4 & A4 & R4 & _). rewrite E4. cbn [obind].
    destruct (put_draws tgt q pp s4 Hq) as (s5 & E5 & A5 & R5 & _). rewrite E5.
    exists s5, (d2 ++ d3 ++ t ++ q), pp. split; [reflexivity|]. split.
    + exact (appended_app _ _ _ _ _ _ A2 (appended_app _ _ _ _ _ _ A3 (appended_app _ _ _ _ _ _ A4 A5))).
    + split; [|discriminate]. unfold in_pen. rewrite drawn_app.
      exact (reads_app _ _ _ _ _ [] _ R2 (reads_app _ _ _ _ _ [] _ R3 (reads_app _ _ _ _ _ _ _ R4 R5))).
  - unfold base_impl.
    change (in_pen false (repen yy f CDefault (repen yy CDefault CDefault plain)) (t ++ (if false then q else [])))
      with ([] ++ drawn plain (t ++ [])).
    refine (draws_seq true tgt skip [] true (seqm (put tgt t) skip) (drawn plain (t ++ [])) true (draws_skip _ _) _).
    rewrite drawn_app. exact (draws_seq true tgt (put tgt t) (drawn plain t) true skip [] true (draws_put tgt t Ht) (draws_skip _ _)).
Qed.
Lemma draws_call a tgt m c b : draws true tgt m c b -> draws a tgt (callStringifyImpl Unix tgt m) c true.
Proof.
  intros H. unfold callStringifyImpl. apply (draws_seq a tgt _ [] true); [apply draws_reset|].
  rewrite <- (app_nil_r c). apply (draws_seq true tgt _ c b); [exact H|apply draws_reset].
Qed.

Lemma run_draws q tgt fs sep ts st0 : Forall2 (fun f t => draws q tgt f t q) fs ts -> draws q tgt sep st0 q ->
  draws q tgt (StrfSpec.run (intersperse sep fs)) (separated st0 ts) q.
Proof.
  intros H Hsep. induction H as [|f t fs ts Hf H IH].
  - intros s p R. exact (draws_skip q tgt s p R).
  - destruct H as [|g u fs ts Hg H].
    + cbn [intersperse separated]. eapply draws_ext; [|exact Hf]. intros s. cbn [StrfSpec.run]. destruct (f s); reflexivity.
    + cbn [separated]. apply (draws_seq q tgt f t q (fun s => obind (sep s) (StrfSpec.run (intersperse sep (g :: fs))))); [exact Hf|].
      apply (draws_seq q tgt sep st0 q (StrfSpec.run (intersperse sep (g :: fs)))); [exact Hsep|exact IH].
Qed.

Lemma seq_draws A tfmt tgt bidi (l : list A) (f : A -> sm) (g : A -> list cell) sep :
  countable bidi l = true -> clean sep = true ->
  (forall x, In x l -> draws (negb tfmt) tgt (f x) (g x) (negb tfmt)) ->
  draws (negb tfmt) tgt (seq_impl Unix tfmt tgt bidi (map f l) sep) (in_braces_or_empty tfmt (map g l) sep) (negb tfmt).
Proof.
  intros Hc Hs H. destruct l as [|x l].
  - apply draws_bold. reflexivity.
  - unfold seq_impl, in_braces_or_empty, in_braces. cbn [map].
    change (f x :: map f l) with (map f (x :: l)). change (g x :: map g l) with (map g (x :: l)).
    apply (draws_seq _ tgt _ _ (negb tfmt)); [apply draws_bold; reflexivity|].
    apply (draws_seq _ tgt _ _ (negb tfmt)); [|apply draws_bold; reflexivity].
    eapply draws_ext.
    + intros s. symmetry. apply penultimate_run; [discriminate|].
      unfold countable in *. rewrite map_length. exact Hc.
    + apply run_draws; [apply Forall2_map_same; exact H|apply draws_bold; exact Hs].
Qed.

Definition entry (tfmt : bool) (v : val) : bool := if bracketed v then negb tfmt else true.
Definition exit (tfmt : bool) (v : val) : bool := negb tfmt.

Lemma draws_any q tgt m c : draws false tgt m c true -> draws q tgt m c q.
Proof. apply draws_weak; [discriminate|reflexivity]. Qed.

Lemma separated_plain A (l : list A) f g sep : (forall x, In x l -> f x = drawn plain (g x)) ->
  separated (drawn plain sep) (map f l) = drawn plain (join sep (map g l)).
Proof.
  induction l as [|a l IH]; intros H; [reflexivity|]. destruct l as [|b l].
  - cbn. apply H. left. reflexivity.
  - cbn [map].
    change (f a ++ drawn plain sep ++ separated (drawn plain sep) (map f (b :: l)) =
            drawn plain (g a ++ sep ++ join sep (map g (b :: l)))).
    rewrite !drawn_app, IH by (intros z Hz; apply H; right; exact Hz).
    rewrite (H a) by (left; reflexivity). reflexivity.
Qed.
Lemma braces_plain A (l : list A) f g sep : (forall x, In x l -> f x = drawn plain (g x)) ->
  in_braces false (map f l) sep = drawn plain (braces (map g l) sep).
Proof.
  intros H. unfold in_braces, braces, in_pen. rewrite !drawn_app, (separated_plain A l f g sep H). reflexivity.
Qed.
Lemma braces_empty_plain A (l : list A) f g sep : (forall x, In x l -> f x = drawn plain (g x)) ->
  in_braces_or_empty false (map f l) sep = drawn plain (braces_or_empty (map g l) sep).
Proof.
  intros H. destruct l as [|a l]; [reflexivity|].
  change (in_braces false (map f (a :: l)) sep = drawn plain (braces (map g (a :: l)) sep)).
  apply braces_plain. exact H.
Qed.
Lemma look_plain v : look false v = drawn plain (text false v).
Proof.
  induction v using val_all; cbn [look text]; try reflexivity.
  - unfold in_pen. rewrite !drawn_app. reflexivity.
  - rewrite Forall_forall in H. apply braces_empty_plain. exact H.
  - rewrite Forall_forall in H. apply braces_plain. exact H.
  - rewrite Forall_forall in H. apply braces_empty_plain. intros x Hx. destruct (H x Hx) as [-> ->].
    unfold in_pen. rewrite !drawn_app. reflexivity.
  - rewrite Forall_forall in H. apply braces_empty_plain. intros x Hx. destruct (H x Hx) as [-> ->].
    unfold in_pen. rewrite !drawn_app. reflexivity.
Qed.

Lemma stringify_draws : forall v tfmt tgt, printable tgt v = true ->
  draws (entry tfmt v) tgt (stringify Unix tfmt tgt v) (look tfmt v)
    (match v with VText _ | VUser _ => true | _ => negb tfmt end).
Proof.
  intros v. induction v using val_all; intros tfmt tgt Hp; cbn [printable] in Hp; unfold entry; cbn [bracketed].
  - cbn [stringify look text].
    replace (in_pen tfmt (strong (Bright Blue)) (dec z ++ (if tfmt then letters k else [])))
      with (in_pen tfmt (repen SBold CLightBlue CDefault (repen SBold CDefault CDefault plain)) (dec z ++ (if tfmt then kind_postfix k else [])))
      by (destruct tfmt, k; reflexivity).
    apply draws_base; try reflexivity; [apply dec_clean|destruct k; reflexivity].
  - cbn [stringify look text].
    apply (draws_base tfmt tgt cLightRed sBold CLightRed SBold t (if d then lit "d" else lit "f")); try reflexivity; [exact Hp|destruct d; reflexivity].
  - cbn [stringify look].
    pose proof (draws_base tfmt tgt cLightYellow sNone CLightYellow SNone t [] eq_refl eq_refl Hp eq_refl) as W.
    destruct tfmt; rewrite app_nil_r in W; exact W.
  - apply draws_put. exact Hp.
  - cbn [stringify look]. replace (p =? 0)%Z with false by lia.
    apply (draws_seq _ tgt _ _ (negb tfmt)); [apply (draws_fmt tfmt tgt (lit "[") cBlue sBold CBlue SBold); reflexivity|].
    apply (draws_seq _ tgt _ _ (negb tfmt));
      [apply (draws_fmt tfmt tgt (ptr_text p) cCyan sUnderline CCyan SUnderline); try reflexivity; apply ptr_clean; lia
      |apply (draws_fmt tfmt tgt (lit "]") cBlue sBold CBlue SBold); reflexivity].
  - apply andb_true_iff in Hp. destruct Hp as [Hc Hp]. rewrite forallb_forall in Hp.
    rewrite Forall_forall in H. cbn [stringify look].
    apply seq_draws; [exact Hc|reflexivity|]. intros x Hx. apply draws_any. eapply draws_call.
    eapply draws_weak; [| |apply (H x Hx tfmt tgt); auto]; [reflexivity|intros E; exact E].
  - apply andb_true_iff in Hp. destruct Hp as [Hc Hp]. rewrite forallb_forall in Hp.
    rewrite Forall_forall in H. cbn [stringify look]. unfold in_braces.
    apply (draws_seq _ tgt _ _ (negb tfmt)); [apply draws_bold; reflexivity|].
    apply (draws_seq _ tgt _ _ (negb tfmt)); [|apply draws_bold; reflexivity].
    destruct l as [|x l]; [discriminate|].
    eapply draws_ext.
    + intros s. symmetry. pose proof (tuple_run st (map (fun x => callStringifyImpl Unix tgt (stringify Unix tfmt tgt x)) (x :: l))
         (printBold Unix tfmt tgt (lit ", ") cDefault) 0 s) as T. rewrite map_length in T. exact T.
    + apply run_draws; [|apply draws_bold; reflexivity]. apply Forall2_map_same.
      intros y Hy. apply draws_any. eapply draws_call.
      eapply draws_weak; [| |apply (H y Hy tfmt tgt); auto]; [reflexivity|intros E; exact E].
  - apply andb_true_iff in Hp. destruct Hp as [Hc Hp]. rewrite forallb_forall in Hp.
    rewrite Forall_forall in H. cbn [stringify look].
    apply (seq_draws _ tfmt tgt b l _ (fun p => look tfmt (fst p) ++ in_pen tfmt (strong Own) (lit " -> ") ++ look tfmt (snd p)));
      [exact Hc|reflexivity|]. intros x Hx.
    specialize (Hp x Hx). apply andb_true_iff in Hp. destruct Hp as [P1 P2]. destruct (H x Hx) as [H1 H2].
    apply (draws_seq _ tgt _ _ (negb tfmt)).
    { apply draws_any. eapply draws_call. eapply draws_weak; [| |apply (H1 tfmt tgt P1)]; [reflexivity|intros E; exact E]. }
    apply (draws_seq _ tgt _ _ (negb tfmt)); [apply draws_bold; reflexivity|].
    apply draws_any. eapply draws_call. eapply draws_weak; [| |apply (H2 tfmt tgt P2)]; [reflexivity|intros E; exact E].
  - rewrite forallb_forall in Hp. rewrite Forall_forall in H. cbn [stringify look].
    apply (seq_draws _ tfmt tgt true l _ (fun p => look tfmt (fst p) ++ in_pen tfmt (strong Own) (lit " <-> ") ++ look tfmt (snd p)));
      [reflexivity|reflexivity|]. intros x Hx.
    specialize (Hp x Hx). apply andb_true_iff in Hp. destruct Hp as [P1 P2]. destruct (H x Hx) as [H1 H2].
    apply (draws_seq _ tgt _ _ (negb tfmt)).
    { apply draws_any. eapply draws_call. eapply draws_weak; [| |apply (H1 tfmt tgt P1)]; [reflexivity|intros E; exact E]. }
    apply (draws_seq _ tgt _ _ (negb tfmt)); [apply draws_bold; reflexivity|].
    apply draws_any. eapply draws_call. eapply draws_weak; [| |apply (H2 tfmt tgt P2)]; [reflexivity|intros E; exact E].
  - cbn [stringify look text]. induction l as [|p l IHl]; [apply draws_skip|].
    cbn [forallb] in Hp. apply andb_true_iff in Hp. destruct Hp as [Hp Hl].
    apply andb_true_iff in Hp. destruct Hp as [Hc Hp].
    pose proof (Forall_inv H) as H1. specialize (IHl (Forall_inv_tail H) Hl).
    cbn [fold_right map concat]. rewrite <- app_assoc, !drawn_app.
    apply (draws_seq true tgt _ _ true); [apply draws_put; exact Hc|]. apply (draws_seq true tgt _ _ true); [|exact IHl].
    destruct p as [b x]. cbn [fst snd] in *.
    assert (Hx : (exists k z, x = VInt k z) \/
      (negb tgt && printable true x = true /\ forall body s, toStr_with body x s =
         obind (body (mkSt (sty s) (fg s) (bg s) (out s) [])) (fun s => Ok (oss s, s)))).
    { destruct x; [left; eauto|right..]; (split; [exact Hp|reflexivity]). }
    destruct Hx as [[k [z ->]]|[Hq Hx]].
    + intros s p R. cbn [toStr_with]. rewrite (convertible_ok _ _ Hp). cbn [obind].
      cbn [text]. rewrite app_nil_r. apply draws_put; [apply dec_clean|exact R].
    + apply andb_true_iff in Hq. destruct Hq as [Ht Hq]. destruct tgt; [discriminate|].
      intros s p R. rewrite Hx. destruct (R eq_refl) as [(F1 & F2 & F3) ->].
      destruct (H1 false true Hq (mkSt (sty s) (fg s) (bg s) (out s) []) plain) as (s' & d & p' & E & A & Rd & Q).
      { intros _. repeat split; assumption. }
      rewrite E. cbn [obind]. unfold appended in A. destruct A as [A B]. cbn [out oss app] in A, B.
      exists (mkSt (sty s') (fg s') (bg s') (out s' ++ oss s') (oss s')), d, p'.
      split; [reflexivity|]. split; [unfold appended; cbn; rewrite A, B; reflexivity|].
      rewrite look_plain in Rd. split; [exact Rd|].
      assert (Q' : ready true s' p') by (destruct x; exact Q). exact Q'.
Qed.

(** *** Statements of the property theorems *)
Lemma shown : forall fmt v s p cs, printable false v = true ->
  terminal_after (out s) = mkT Ground p cs (length cs) ->
  exists s', seqm (resetFmt Unix false) (seqm (stringify Unix fmt false v) (resetFmt Unix false)) s = Ok s' /\
    terminal_after (out s') = mkT Ground plain (cs ++ look fmt v) (length (cs ++ look fmt v)).
Proof.
  intros fmt v s p cs Hp Ht.
  destruct (draws_call false false (stringify Unix fmt false v) (look fmt v)
              (match v with VText _ | VUser _ => true | _ => negb fmt end)) with (s := s) (p := p) as (s' & d & p' & E & A & R & Q).
  - eapply draws_weak; [| |apply (stringify_draws v fmt false Hp)]; [reflexivity|intros H; exact H].
  - discriminate.
  - exists s'. split; [exact E|]. unfold appended in A. unfold terminal_after in *.
    rewrite A, fold_left_app, Ht, R. destruct (Q eq_refl) as [_ ->]. reflexivity.
Qed.
Lemma brackets : forall v s p cs, printable false v = true -> bracketed v = true ->
  terminal_after (out s) = mkT Ground p cs (length cs) ->
  exists s' p', stringify Unix true false v s = Ok s' /\
    terminal_after (out s') = mkT Ground p' (cs ++ look true v) (length (cs ++ look true v)).
Proof.
  intros v s p cs Hp Hb Ht. pose proof (stringify_draws v true false Hp) as D.
  unfold entry in D. rewrite Hb in D. destruct (D s p) as (s' & d & p' & E & A & R & _); [discriminate|].
  exists s', p'. split; [exact E|]. unfold appended in A. unfold terminal_after in *.
  rewrite A, fold_left_app, Ht, R. reflexivity.
Qed.

Lemma chars_drawn p t : map fst (drawn p t) = t.
Proof. unfold drawn. rewrite map_map. cbn. apply map_id. Qed.
Lemma chars_pen fmt p t : map fst (in_pen fmt p t) = t.
Proof. apply chars_drawn. Qed.
Lemma separated_chars A (l : list A) f g sepc sep : (forall x, In x l -> map fst (f x) = g x) -> map fst sepc = sep ->
  map fst (separated sepc (map f l)) = join sep (map g l).
Proof.
  intros H Hs. induction l as [|a l IH]; [reflexivity|]. destruct l as [|b l].
  - cbn. apply H. left. reflexivity.
  - cbn [map].
    change (map fst (f a ++ sepc ++ separated sepc (map f (b :: l))) = g a ++ sep ++ join sep (map g (b :: l))).
    rewrite !map_app, IH by (intros z Hz; apply H; right; exact Hz).
    rewrite (H a) by (left; reflexivity). rewrite Hs. reflexivity.
Qed.
Lemma braces_chars A (l : list A) fmt f g sep : (forall x, In x l -> map fst (f x) = g x) ->
  map fst (in_braces fmt (map f l) sep) = braces (map g l) sep.
Proof.
  intros H. unfold in_braces, braces. rewrite !map_app, !chars_pen.
  rewrite (separated_chars A l f g _ sep H) by apply chars_pen. reflexivity.
Qed.
Lemma braces_empty_chars A (l : list A) fmt f g sep : (forall x, In x l -> map fst (f x) = g x) ->
  map fst (in_braces_or_empty fmt (map f l) sep) = braces_or_empty (map g l) sep.
Proof.
  intros H. destruct l as [|a l]; [apply chars_pen|].
  change (map fst (in_braces fmt (map f (a :: l)) sep) = braces (map g (a :: l)) sep).
  apply braces_chars. exact H.
Qed.
Lemma characters : forall fmt v, map fst (look fmt v) = text fmt v.
Proof.
  intros fmt v. induction v using val_all; cbn [look text]; try apply chars_pen; try apply chars_drawn.
  - rewrite !map_app, !chars_pen. reflexivity.
  - rewrite Forall_forall in H. apply braces_empty_chars. exact H.
  - rewrite Forall_forall in H. apply braces_chars. exact H.
  - rewrite Forall_forall in H. apply braces_empty_chars. intros x Hx. destruct (H x Hx) as [H1 H2].
    rewrite (map_app fst (look fmt (fst x))), (map_app fst (in_pen fmt (strong Own) _)), H1, H2, chars_pen. reflexivity.
  - rewrite Forall_forall in H. apply braces_empty_chars. intros x Hx. destruct (H x Hx) as [H1 H2].
    rewrite (map_app fst (look fmt (fst x))), (map_app fst (in_pen fmt (strong Own) _)), H1, H2, chars_pen. reflexivity.
Qed.

Lemma left_on_refuted : exists v t s', printable false v = true /\
  seqm (stringify Unix true false v) (put false t) (mkSt 0 0 0 [] []) = Ok s' /\
  t_cells (terminal_after (out s')) = look true v ++ drawn (strong (Bright Blue)) t /\ t <> [].
Proof.
  exists (VInt KInt 5), (lit " apples"), (match seqm (stringify Unix true false (VInt KInt 5)) (put false (lit " apples")) (mkSt 0 0 0 [] []) with Ok s => s | _ => mkSt 0 0 0 [] [] end).
  vm_compute. repeat split. discriminate.
Qed.
Definition mixed : st :=
  match seqm (setStyle Unix false sUnderline) (stringify Unix true false (VInt KInt 5)) (mkSt 0 0 0 [] []) with
  | Ok s => s | _ => mkSt 0 0 0 [] [] end.
Lemma mixed_cells : t_cells (terminal_after (out mixed)) =
  [("5"%char, mkPen true false OneLine false false false (Bright Blue) Own)].
Proof. vm_compute. reflexivity. Qed.
Lemma styles_mix_refuted : exists v s', printable false v = true /\
  seqm (setStyle Unix false sUnderline) (stringify Unix true false v) (mkSt 0 0 0 [] []) = Ok s' /\
  t_cells (terminal_after (out s')) <> look true v /\ (forall x, In x (t_cells (terminal_after (out s'))) -> under (snd x) = OneLine).
Proof.
  exists (VInt KInt 5), mixed. rewrite mixed_cells. split; [reflexivity|]. split; [vm_compute; reflexivity|].
  split; [vm_compute; discriminate|]. intros x [<-|[]]. reflexivity.
Qed.
Lemma colours_lost_refuted : exists v t s', printable false v = true /\
  seqm (setColorFG Unix false 2) (seqm (stringify Unix false false v) (put false t)) (mkSt 0 0 0 [] []) = Ok s' /\
  t_cells (terminal_after (out s')) =
    drawn (with_ink (Normal Red) plain) (lit "{") ++ drawn plain (lit "5}") ++ drawn plain t /\ t <> [].
Proof.
  exists (VSeq true [VInt KInt 5]), (lit "!"), (match seqm (setColorFG Unix false 2) (seqm (stringify Unix false false (VSeq true [VInt KInt 5])) (put false (lit "!"))) (mkSt 0 0 0 [] []) with Ok s => s | _ => mkSt 0 0 0 [] [] end).
  vm_compute. repeat split. discriminate.
Qed.
