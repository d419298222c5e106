From Coq Require Import String Ascii ZArith NArith Arith Bool Lia List.
From Verif Require Import Common IntToStrModel IntToStrSpec IntToStrProofs HelpModel HelpSpec HelpProofs HelpTextProofs.
Import ListNotations.
Local Open Scope nat_scope.

Lemma listed_in : forall c e, In e (listed c) -> In e (celems c).
Proof. intros c e H. unfold listed in H. apply in_flat_map in H. destruct H as [k [_ H]]. eapply section_in; exact H. Qed.
Lemma listed_forall : forall (P : element -> Prop) c, Forall P (celems c) -> Forall P (listed c).
Proof. intros P c H. rewrite Forall_forall in *. intros e I. apply H, listed_in, I. Qed.
Lemma described_texts : forall e, described e -> texts e = [ename e; ebrief e; edesc e].
Proof.
  intros e [A [B C]]. unfold texts. cbn [filter]. destruct (ename e); [contradiction|]. destruct (ebrief e); [contradiction|].
  destruct (edesc e); [contradiction|]. reflexivity.
Qed.
Lemma elements_same : forall us l l', Forall2 shows l us -> Forall2 shows l' us ->
  Forall tidy l -> Forall tidy l' -> Forall (bounds size_ok) l -> Forall (bounds size_ok) l' ->
  Forall described l -> Forall described l' -> flat_map texts l = flat_map texts l' -> l = l'.
Proof.
  induction us as [|u us IH]; intros l l' H H' T T' B B' D D' E; inversion H; subst; inversion H'; subst; [reflexivity|].
  inversion T; inversion T'; inversion B; inversion B'; inversion D; inversion D'; subst. cbn [flat_map] in E.
  rewrite (described_texts x), (described_texts x0) in E by assumption. injection E as E1 E2 E3 E.
  f_equal; [|apply IH; assumption].
  destruct (shows_unique x x0 u) as [S _]; try assumption. destruct x as [n1 b1 d1 s1], x0 as [n2 b2 d2 s2]. cbn [ename ebrief edesc eshape] in *. congruence.
Qed.
Lemma help_unique : forall buf buf' c c' h, length buf = 19 -> length buf' = 19 ->
  Forall (bounds size_ok) (celems c ++ celems c') -> Forall tidy (celems c ++ celems c') -> Forall on_lines (celems c ++ celems c') ->
  Forall described (celems c ++ celems c') -> line (cdesc c) -> line (cdesc c') ->
  getHelpStr buf c = Ok h -> getHelpStr buf' c' = Ok h -> cdesc c = cdesc c' /\ forall k, section c k = section c' k.
Proof.
  intros buf buf' c c' h L L' B T O D N N' H H'. apply Forall_app in B, T, O, D.
  destruct B as [B B'], T as [T T'], O as [O O'], D as [D D'].
  assert (S : Forall (bounds small) (celems c)).
  { rewrite Forall_forall in *. intros e I. destruct (small_dec e (B e I)) as [X|X]; [exact X|]. exfalso.
    rewrite help_ub in H; [discriminate|exact L|apply Forall_forall; exact B|]. intros F. rewrite Forall_forall in F. exact (X (F e I)). }
  assert (S' : Forall (bounds small) (celems c')).
  { rewrite Forall_forall in *. intros e I. destruct (small_dec e (B' e I)) as [X|X]; [exact X|]. exfalso.
    rewrite help_ub in H'; [discriminate|exact L'|apply Forall_forall; exact B'|]. intros F. rewrite Forall_forall in F. exact (X (F e I)). }
  destruct (help_marks buf c L B S O N) as [h1 [us [E1 [F1 [M1 [M2 [_ M4]]]]]]].
  destruct (help_marks buf' c' L' B' S' O' N') as [h2 [us' [E2 [F2 [M1' [M2' [_ M4']]]]]]].
  assert (h1 = h) by congruence. assert (h2 = h) by congruence. subst h1 h2.
  subst us us'. split.
  - rewrite M4 in M4'. destruct (cdesc c), (cdesc c'); cbn in M4'; congruence.
  - assert (E : listed c = listed c').
    { apply (elements_same (marked (lit "* ") (lines h))); try assumption; try (apply listed_forall; assumption). congruence. }
    assert (X : forall x k, k < 6 -> filter (fun e => section_of e =? k) (listed x) = section x k).
    { intros x k K. unfold listed. cbn [seq flat_map]. rewrite app_nil_r, !filter_app.
      assert (Y : forall j, filter (fun e => section_of e =? k) (section x j) = if j =? k then section x k else []).
      { intros j. unfold section. induction (celems x) as [|e es IH]; [destruct (j =? k); reflexivity|]. cbn [filter].
        destruct (Nat.eqb_spec (section_of e) j) as [J|J].
        - cbn [filter]. rewrite IH. destruct (Nat.eqb_spec j k) as [Q|Q]; destruct (Nat.eqb_spec (section_of e) k); try congruence; try reflexivity; lia.
        - rewrite IH. destruct (Nat.eqb_spec j k) as [Q|Q]; destruct (Nat.eqb_spec (section_of e) k); try congruence; reflexivity. }
      rewrite !Y. do 6 (destruct k as [|k]; [cbn [Nat.eqb app]; rewrite ?app_nil_r; reflexivity|]). lia. }
    intros k. destruct (le_lt_dec 6 k) as [K|K].
    + assert (Z : forall x, section x k = []).
      { intros x. unfold section. induction (celems x) as [|e es IH]; [reflexivity|]. cbn [filter].
        destruct (Nat.eqb_spec (section_of e) k) as [Q|Q]; [|exact IH]. exfalso. unfold section_of in Q. destruct (eshape e); lia. }
      rewrite !Z. reflexivity.
    + rewrite <- (X c k K), <- (X c' k K), E. reflexivity.
Qed.

(** ** Names *)
Lemma joined_unique : forall l l', l <> [] -> l' <> [] -> Forall (fun n => ~ In "|"%char n) l -> Forall (fun n => ~ In "|"%char n) l' ->
  joined (lit " || ") l = joined (lit " || ") l' -> l = l'.
Proof.
  induction l as [|x l IH]; intros l' N N' B B' H; [contradiction|]. destruct l' as [|x' l']; [contradiction|].
  inversion B as [|? ? Bx Bl]; inversion B' as [|? ? Bx' Bl']; subst.
  assert (sp : forall y : bytes, ~ In "|"%char y -> ~ In "|"%char (y ++ [" "%char])).
  { intros y Y I. apply in_app_or in I. destruct I as [I|[I|[]]]; [exact (Y I)|discriminate]. }
  destruct l as [|y l], l' as [|y' l'].
  - cbn [joined] in H. congruence.
  - exfalso. change (x = x' ++ lit " || " ++ joined (lit " || ") (y' :: l')) in H. apply Bx. rewrite H. apply in_or_app. right. cbn. auto.
  - exfalso. change (x ++ lit " || " ++ joined (lit " || ") (y :: l) = x') in H. apply Bx'. rewrite <- H. apply in_or_app. right. cbn. auto.
  - change (x ++ lit " || " ++ joined (lit " || ") (y :: l) = x' ++ lit " || " ++ joined (lit " || ") (y' :: l')) in H.
    assert (A : (x ++ [" "%char]) ++ "|"%char :: (lit "| " ++ joined (lit " || ") (y :: l)) = (x' ++ [" "%char]) ++ "|"%char :: (lit "| " ++ joined (lit " || ") (y' :: l')))
      by (rewrite <- !app_assoc; exact H).
    apply first_char in A; [|apply sp; exact Bx|apply sp; exact Bx']. destruct A as [A C]. apply app_inv_tail in A. subst x'.
    apply app_inv_head in C. f_equal. apply IH; try assumption; discriminate.
Qed.
Lemma names_unique : forall l l', l <> [] -> l' <> [] -> Forall (fun n => ~ In "|"%char n) l -> Forall (fun n => ~ In "|"%char n) l' ->
  getNamesStr l = getNamesStr l' -> l = l'.
Proof.
  intros l l' N N' B B' H. unfold getNamesStr in H. apply app_inv_head in H. apply app_inv_tail in H. apply joined_unique; assumption.
Qed.

(** ** Messages *)
Lemma message_text : forall buf c p, length buf = 19 -> printable size_ok p ->
  (printable small p -> exists m, message buf c p = Ok m) /\ (~ printable small p -> message buf c p = UB).
Proof.
  intros buf c p L R. destruct p; cbn [printable message] in *; unfold mismatch;
    try (split; [intros _; eexists; reflexivity|intros H; exfalso; exact (H I)]).
  1-4: destruct (size_text buf expected L R) as [A B]; split; intros S; [destruct (A S) as [s [-> _]]; eexists; reflexivity|rewrite (B S); reflexivity].
  destruct R as [R1 R2]. destruct (size_text buf min L R1) as [A B]. destruct (size_text buf max L R2) as [A' B']. split.
  - intros [S1 S2]. destruct (A S1) as [s [-> _]]. destruct (A' S2) as [t [-> _]]. eexists. reflexivity.
  - intros S. destruct (Z_lt_dec min (10 ^ 18)) as [X|X].
    + destruct A as [s [-> _]]; [unfold small, size_ok in *; lia|]. cbn [obind]. rewrite B'; [reflexivity|].
      intros Y. apply S. unfold small, size_ok in *. lia.
    + rewrite B; [reflexivity|]. unfold small. lia.
Qed.
Lemma number_back : forall buf n n' s, length buf = 19 -> size_ok n -> size_ok n' -> toStr t_ulong buf n = Ok s -> toStr t_ulong buf n' = Ok s -> n = n'.
Proof.
  intros buf n n' s L R R' H H'.
  assert (X : forall k, size_ok k -> toStr t_ulong buf k = Ok s -> digits_value s = k).
  { intros k Rk E. destruct (size_text buf k L Rk) as [A B]. destruct (Z_lt_dec k (10 ^ 18)) as [Q|Q].
    - destruct A as [t [E' D]]; [unfold small, size_ok in *; lia|]. assert (t = s) by congruence. subst t. apply decimal_value; [unfold size_ok in Rk; lia|exact D].
    - rewrite B in E; [discriminate|]. unfold small. lia. }
  rewrite <- (X n R H), <- (X n' R' H'). reflexivity.
Qed.
Lemma number_digits : forall buf n s, length buf = 19 -> size_ok n -> toStr t_ulong buf n = Ok s -> Forall is_digit s.
Proof.
  intros buf n s L R H. destruct (size_text buf n L R) as [A B]. destruct (Z_lt_dec n (10 ^ 18)) as [Q|Q].
  - destruct A as [t [E' D]]; [unfold small, size_ok in *; lia|]. assert (t = s) by congruence. subst t. eapply decimal_digits; [|exact D]. unfold size_ok in R. lia.
  - rewrite B in H; [discriminate|]. unfold small. lia.
Qed.
Lemma mismatch_back : forall buf c w w' n n' m, length buf = 19 -> size_ok n -> size_ok n' ->
  mismatch buf c w n = Ok m -> mismatch buf c w' n' = Ok m ->
  exists s s', toStr t_ulong buf n = Ok s /\ toStr t_ulong buf n' = Ok s' /\
    w ++ lit " " ++ forCmdPhrase c ++ lit " - expected: " ++ s = w' ++ lit " " ++ forCmdPhrase c ++ lit " - expected: " ++ s'.
Proof.
  intros buf c w w' n n' m L R R' H H'. unfold mismatch in *.
  destruct (toStr t_ulong buf n) as [s| | |]; cbn [obind] in H; try discriminate.
  destruct (toStr t_ulong buf n') as [s'| | |]; cbn [obind] in H'; try discriminate.
  exists s, s'. split; [reflexivity|]. split; [reflexivity|]. injection H as H. injection H' as H'. subst m.
  repeat match goal with E : _ = _ |- _ => progress cbn in E end. repeat (injection H' as H'). cbn. congruence.
Qed.
Lemma lack_digit : forall s c, Forall is_digit s -> (N_of_ascii c <? 48)%N = true -> ~ In c s.
Proof. intros s c H N. apply digits_lack; [exact H|]. intros [X _]. apply N.ltb_lt in N. lia. Qed.
Lemma message_unique : forall buf c p p' m, length buf = 19 -> printable size_ok p -> printable size_ok p' ->
  plain_problem p -> plain_problem p' -> message buf c p = Ok m -> message buf c p' = Ok m -> p = p'.
Proof.
  intros buf c p p' m L R R' P P' H H'.
  assert (mm : forall w w' n n', size_ok n -> size_ok n' -> mismatch buf c w n = Ok m -> mismatch buf c w' n' = Ok m -> (w = w' -> n = n') /\
    (w <> w' -> exists s s', w ++ lit " " ++ s = w' ++ lit " " ++ s')).
  { intros w w' n n' Rn Rn' E E'. destruct (mismatch_back buf c w w' n n' m L Rn Rn' E E') as [s [s' [A [B C]]]]. split.
    - intros ->. apply app_inv_head in C. apply app_inv_head in C. apply app_inv_head in C. apply app_inv_head in C. subst s'.
      eapply number_back; eassumption.
    - intros _. eexists. eexists. exact C. }
  assert (mi : forall w n, mismatch buf c w n = Ok m -> exists s, m = lit "Incorrect number of " ++ w ++ s).
  { intros w n E. unfold mismatch in E. destruct (toStr t_ulong buf n); cbn [obind] in E; try discriminate. injection E as <-. eexists. reflexivity. }
  assert (pk : forall n a b, message buf c (PackCount n a b) = Ok m -> exists s t, toStr t_ulong buf a = Ok s /\ toStr t_ulong buf b = Ok t /\
     m = lit "Incorrect number of parameters for ArgPack `" ++ n ++ lit "` - expected (" ++ s ++ lit " .. " ++ t ++ lit ")").
  { intros n a b E. cbn [message] in E. destruct (toStr t_ulong buf a) as [s| | |]; cbn [obind] in E; try discriminate.
    destruct (toStr t_ulong buf b) as [t| | |]; cbn [obind] in E; try discriminate. injection E as <-. exists s, t. auto. }
  destruct p as [n|n s|n|n|n|n| |n a b| |s], p' as [n'|n' s'|n'|n'|n'|n'| |n' a' b'| |s'];
    cbn [printable plain_problem] in R, R', P, P';
    try (match type of H with message _ _ (PackCount _ _ _) = _ => destruct (pk _ _ _ H) as [s1 [t1 [A1 [B1 C1]]]] end);
    try (match type of H' with message _ _ (PackCount _ _ _) = _ => destruct (pk _ _ _ H') as [s2 [t2 [A2 [B2 C2]]]] end);
    cbn [message] in H, H'; try reflexivity;
    try (match type of H with mismatch _ _ ?w ?k = _ => match type of H' with mismatch _ _ ?w' ?k' = _ =>
           destruct (mm w w' k k' R R' H H') as [D1 D2];
           first [ rewrite (D1 eq_refl); reflexivity
                 | exfalso; destruct D2 as [q [q' Q]]; [discriminate|cbn in Q; discriminate Q] ] end end);
    try (match type of H with mismatch _ _ _ _ = _ => destruct (mi _ _ H) as [q Q] end);
    try (match type of H' with mismatch _ _ _ _ = _ => destruct (mi _ _ H') as [q' Q'] end);
    try (exfalso; clear mm mi pk; cbn in *; congruence).
  - rewrite <- H' in H. injection H as H. apply app_inv_tail in H. congruence.
  - rewrite <- H' in H. injection H as H. apply (first_char ">"%char n _ n') in H; try assumption. destruct H as [-> H].
    apply (app_inv_head (lit " not found - did you mean <")) in H. apply app_inv_tail in H. congruence.
  - rewrite C1 in C2. apply app_inv_head in C2. clear C1 mm mi pk H H'. destruct R as [Ra Rb], R' as [Ra' Rb'].
    assert (G1 := number_digits buf a s1 L Ra A1). assert (G2 := number_digits buf b t1 L Rb B1).
    assert (G3 := number_digits buf a' s2 L Ra' A2). assert (G4 := number_digits buf b' t2 L Rb' B2).
    assert (no : forall u v, Forall is_digit u -> Forall is_digit v -> ~ In "("%char (u ++ lit " .. " ++ v ++ lit ")")).
    { intros u v U V I. apply in_app_or in I. destruct I as [I|I]; [revert I; apply lack_digit; [exact U|reflexivity]|].
      apply in_app_or in I. destruct I as [I|I]; [cbn in I; intuition discriminate|].
      apply in_app_or in I. destruct I as [I|I]; [revert I; apply lack_digit; [exact V|reflexivity]|]. cbn in I; intuition discriminate. }
    assert (K : (n ++ lit "` - expected ") ++ "("%char :: (s1 ++ lit " .. " ++ t1 ++ lit ")") = (n' ++ lit "` - expected ") ++ "("%char :: (s2 ++ lit " .. " ++ t2 ++ lit ")"))
      by (rewrite <- !app_assoc; exact C2).
    apply last_char in K; [|apply no; assumption|apply no; assumption]. destruct K as [K1 K2]. apply app_inv_tail in K1. subst n'.
    apply (first_char " "%char s1 _ s2) in K2; [|apply lack_digit; [exact G1|reflexivity]|apply lack_digit; [exact G3|reflexivity]].
    destruct K2 as [-> K2]. apply (app_inv_head (lit ".. ")) in K2. apply app_inv_tail in K2. subst t2.
    rewrite (number_back buf a a' s2 L Ra Ra' A1 A2), (number_back buf b b' t1 L Rb Rb' B1 B2). reflexivity.
  - rewrite <- H' in H. injection H as H. apply app_inv_tail in H. congruence.
Qed.
From Verif Require CmdModel.
Lemma flag_tokens : forall buf n b d s l, exists x y,
  usage buf {| ename := n; ebrief := b; edesc := d; eshape := SFlag s l |} = Ok (lit "[" ++ x ++ lit " || " ++ y ++ lit "]") /\
  usage buf {| ename := n; ebrief := b; edesc := d; eshape := SFlagValue s l |} = Ok (lit "[" ++ x ++ lit "=(...) || " ++ y ++ lit "=(...)]") /\
  (forall t, CmdModel.flag_hasName (CmdModel.new_flag s l) t = true <-> t = x \/ t = y) /\
  (forall k t, CmdModel.fv_hasName (CmdModel.new_fvalue s l k) t = true <-> t = x \/ t = y).
Proof.
  intros buf n b d s l. exists (lit "-" ++ s), (lit "--" ++ l). split; [reflexivity|]. split; [reflexivity|]. split.
  - intros t. unfold CmdModel.flag_hasName, CmdModel.new_flag. cbn [CmdModel.fshort CmdModel.flong]. rewrite orb_true_iff, !bytes_eqb_eq. tauto.
  - intros k t. unfold CmdModel.fv_hasName, CmdModel.new_fvalue. cbn [CmdModel.vshort CmdModel.vlong]. rewrite orb_true_iff, !bytes_eqb_eq. tauto.
Qed.
