(** What the writer produces. *)
From Coq Require Import String Ascii ZArith NArith Arith Bool Lia List.
From Coq Require Import Floats.SpecFloat.
From Verif Require Import Common ListAux VecModel VecSpec VecProofs CInt IntToStrModel IntToStrSpec IntToStrProofs.
From Verif Require Import JsonNumModel JsonModel JsonSpec JsonNumProofs JsonExactProofs JsonProofs JsonReadProofs JsonTextProofs.
Import ListNotations.
Local Open Scope Z_scope.

(** ** Numbers *)
Lemma dec_digits_ok : forall k n, Forall is_digit (dec_digits k n) /\ length (dec_digits k n) = k.
Proof.
  induction k as [|k IH]; intros n; cbn [dec_digits]; [split; [constructor|reflexivity]|].
  destruct (IH (n / 10)) as (F & L). split; [|rewrite app_length, L; cbn; lia].
  apply Forall_app. split; [exact F|]. constructor; [|constructor]. unfold is_digit, ch.
  pose proof (Z.mod_pos_bound n 10 ltac:(lia)) as B. rewrite N_ascii_embedding by lia. lia.
Qed.
Lemma strip_zeros_digits : forall s, Forall is_digit s -> Forall is_digit (strip_zeros s).
Proof.
  induction 1 as [|c r D F IH]; cbn [strip_zeros]; [constructor|]. destruct (strip_zeros r) as [|d r'].
  - destruct (Ascii.eqb c "0"); [constructor|]. constructor; [exact D|constructor].
  - constructor; assumption.
Qed.
Lemma point_text : forall (neg : bool) ip fp ex ev, ip <> [] -> Forall is_digit ip -> Forall is_digit fp -> exponent_text ex ev ->
  exists m e, number_text ((if neg then ["-"%char] else []) ++ with_point ip fp ++ ex) neg m e.
Proof.
  intros neg ip fp ex ev N F1 F2 X. unfold with_point. pose proof (strip_zeros_digits fp F2) as F3.
  destruct (strip_zeros fp) as [|f fr].
  - eexists. eexists. exists ip, [], [], ex, ev. repeat split; auto.
  - eexists. eexists. exists ip, (lit "." ++ f :: fr), (f :: fr), ex, ev.
    split; [rewrite <- app_assoc; reflexivity|]. repeat split; auto. right. repeat split; [discriminate|exact F3].
Qed.
Lemma Forall_firstn' : forall A (P : A -> Prop) n l, Forall P l -> Forall P (firstn n l).
Proof. intros A P n l F. rewrite <- (firstn_skipn n l) in F. apply Forall_app in F. tauto. Qed.
Lemma Forall_skipn' : forall A (P : A -> Prop) n l, Forall P l -> Forall P (skipn n l).
Proof. intros A P n l F. rewrite <- (firstn_skipn n l) in F. apply Forall_app in F. tauto. Qed.
Lemma print_ratio_text : forall (neg : bool) n d, exists m e, number_text ((if neg then ["-"%char] else []) ++ print_ratio n d) neg m e.
Proof.
  intros neg n d. unfold print_ratio. set (x0 := decimal_exponent 632 308 n d). clearbody x0.
  set (D0 := if x0 <=? 5 then _ else _). clearbody D0.
  destruct (if D0 =? 1000000 then _ else _) as [D x].
  destruct (dec_digits_ok 6 D) as (Fd & Ld). set (ds := dec_digits 6 D) in *. clearbody ds.
  assert (Ne : forall k, (0 < k)%nat -> firstn k ds <> []).
  { intros k K E. apply (f_equal (@length ascii)) in E. rewrite firstn_length, Ld in E. cbn in E. lia. }
  destruct ((x <? -4) || (6 <=? x)) eqn:Q.
  - set (k := if Z.abs x <? 100 then 2%nat else 3%nat). destruct (dec_digits_ok k (Z.abs x)) as (Fe & Le).
    assert (Ke : dec_digits k (Z.abs x) <> []) by (intros E; rewrite E in Le; cbn in Le; unfold k in Le; destruct (Z.abs x <? 100); lia).
    apply (point_text neg (firstn 1 ds) (skipn 1 ds)
      (lit "e" ++ (if x <? 0 then lit "-" else lit "+") ++ dec_digits k (Z.abs x))
      (if x <? 0 then - digits_value (dec_digits k (Z.abs x)) else digits_value (dec_digits k (Z.abs x)))).
    + apply Ne. lia.
    + now apply Forall_firstn'.
    + now apply Forall_skipn'.
    + right. exists "e"%char, (if x <? 0 then lit "-" else lit "+"), (dec_digits k (Z.abs x)).
      repeat split; auto. destruct (x <? 0); auto.
  - destruct (0 <=? x) eqn:Q2.
    + rewrite <- (app_nil_r (with_point _ _)). apply (point_text neg _ _ [] 0).
      * apply Ne. lia.
      * now apply Forall_firstn'.
      * now apply Forall_skipn'.
      * left. auto.
    + rewrite <- (app_nil_r (with_point _ _)). apply (point_text neg _ _ [] 0).
      * discriminate.
      * constructor; [unfold is_digit; cbn; lia|constructor].
      * apply Forall_app. split; [|exact Fd]. apply Forall_forall. intros c I. apply repeat_spec in I. subst c. unfold is_digit. cbn. lia.
      * left. auto.
Qed.
Lemma print_double_text : forall f z, truncate f = Some z -> exists neg m e, number_text (print_double f) neg m e.
Proof.
  intros [s|s| |s m e] z T; try discriminate; cbn [print_double].
  - exists s.
    destruct (point_text s (lit "0") [] [] 0) as (m & e & H); [discriminate|constructor; [unfold is_digit; cbn; lia|constructor]|constructor|left; auto|].
    exists m, e. destruct s; exact H.
  - exists s. destruct (0 <=? e).
    + destruct (print_ratio_text s (Zpos m * 2 ^ e) 1) as (m' & e' & H). exists m', e'. destruct s; exact H.
    + destruct (print_ratio_text s (Zpos m) (2 ^ (- e))) as (m' & e' & H). exists m', e'. destruct s; exact H.
Qed.
Lemma to_long_some : forall f z, double_to_long f = Ok z <-> truncate f = Some z /\ LONG_MIN <= z <= LONG_MAX.
Proof.
  intros f z. unfold double_to_long. destruct (truncate f) as [y|]; [|split; [discriminate|intros (H & _); discriminate]].
  destruct ((LONG_MIN <=? y) && (y <=? LONG_MAX)) eqn:Q.
  - apply andb_true_iff in Q. rewrite !Z.leb_le in Q. split; [intros [= <-]; auto|intros ([= <-] & _); reflexivity].
  - split; [discriminate|]. intros ([= <-] & B). apply andb_false_iff in Q. rewrite !Z.leb_gt in Q. lia.
Qed.
Lemma decimal_text : forall z s, decimal z s -> Z.abs z <= 2 ^ 53 -> denotes s (JNum (NS z)).
Proof.
  intros z s [(P & N & F & _ & V)|(P & t & -> & N & F & _ & V)] B.
  - apply (d_number s false z 0); [|apply (whole false z 0 z); [unfold scaled_is; cbn; lia|lia]].
    exists s, [], [], [], 0. cbn [app]. rewrite app_nil_r. repeat split; auto. left. auto.
  - apply (d_number _ true (- z) 0); [|rewrite <- (Z.opp_involutive z) at 2; apply (whole true (- z) 0 (- z)); [unfold scaled_is; cbn; lia|lia]].
    exists t, [], [], [], 0. cbn [app]. rewrite !app_nil_r. repeat split; auto. left. auto.
Qed.
Lemma long_range : t_min t_long = LONG_MIN /\ t_max t_long = LONG_MAX /\ t_min t_ulong = 0 /\ LONG_MAX < t_max t_ulong.
Proof. vm_compute. auto. Qed.
Lemma conv_long : forall z, LONG_MIN <= z <= LONG_MAX -> -100000000000000000 < z < 1000000000000000000 ->
  exists s, toStr t_long (repeat "0"%char 18) z = Ok s /\ decimal z s.
Proof.
  intros z B R. pose proof conv_ranges as C. unfold safe_ranges in C. do 4 apply Forall_inv_tail in C. apply Forall_inv in C.
  destruct (C (repeat "0"%char 18) z eq_refl) as (C1 & _); [|exact (C1 R)].
  destruct long_range as (-> & -> & _). exact B.
Qed.
Lemma conv_ulong : forall z, -1 < z < 1000000000000000000 ->
  exists s, toStr t_ulong (repeat "0"%char 19) z = Ok s /\ decimal z s.
Proof.
  intros z R. pose proof conv_ranges as C. unfold safe_ranges in C. do 5 apply Forall_inv_tail in C. apply Forall_inv in C.
  destruct (C (repeat "0"%char 19) z eq_refl) as (C1 & _); [|exact (C1 R)].
  destruct long_range as (_ & _ & -> & M). unfold LONG_MAX in M. lia.
Qed.
Lemma write_num_ok : forall n, writable_num n -> exists t m, write_num n = Ok t /\ denotes t (JNum m) /\ same_num n m.
Proof.
  intros [z|z|f] W; cbn [writable_num write_num] in *.
  - destruct (conv_long z) as (s & E & D); [unfold LONG_MIN, LONG_MAX; lia|lia|].
    exists s, (NS z). split; [exact E|]. split; [apply decimal_text; assumption|constructor].
  - destruct (conv_ulong z) as (s & E & D); [lia|].
    exists s, (NS z). split; [exact E|]. split; [apply decimal_text; [assumption|lia]|constructor].
  - destruct W as (R & z & L). apply to_long_some in L. destruct L as (T & B).
    destruct (print_double_text f z T) as (neg & m & e & N). pose proof (number_read _ _ _ _ N) as R2. rewrite R in R2. injection R2 as Ef.
    exists (print_double f). destruct (SFeqb (of_int z) f) eqn:Q.
    + exists (NS z). split; [reflexivity|]. split; [|now constructor]. apply (d_number _ neg m e); [exact N|].
      apply rounded_whole; rewrite <- ?Ef; assumption.
    + exists (NR f). split; [reflexivity|]. split; [|constructor]. apply (d_number _ neg m e); [exact N|].
      pose proof (fractional neg m e z) as X. rewrite <- Ef in X. auto.
Qed.

(** ** Strings *)
Lemma plain_body : forall s, plain s -> string_body s s /\ no_final_backslash s.
Proof.
  intros s (P1 & P2). split.
  - induction s as [|c s IH]; [constructor|]. constructor.
    + intros ->. apply P1. left. reflexivity.
    + intros ->. apply P2. left. reflexivity.
    + apply IH; intros I; [apply P1|apply P2]; right; exact I.
  - intros r' ->. apply P2. apply in_or_app. right. left. reflexivity.
Qed.

(** ** Output *)
Definition extends (w w' : wst) (t : bytes) : Prop := exists s, out w' = out w ++ s /\ spaced t s.
Lemma extends_refl : forall w, extends w w [].
Proof. intros w. exists []. rewrite app_nil_r. split; [reflexivity|constructor]. Qed.
Lemma extends_trans : forall w w1 w2 a b, extends w w1 a -> extends w1 w2 b -> extends w w2 (a ++ b).
Proof.
  intros w w1 w2 a b (s1 & E1 & S1) (s2 & E2 & S2). exists (s1 ++ s2). rewrite E2, E1, app_assoc. split; [reflexivity|].
  now apply spaced_app.
Qed.
Lemma blanks_repeat : forall k, Forall blank (repeat (ch 32) k).
Proof. intros k. apply Forall_forall. intros c I. apply repeat_spec in I. subst c. left. reflexivity. Qed.
Lemma wOut_extends : forall p s w, spaced s s -> extends w (wOut p s w) s.
Proof.
  intros p s w S. unfold wOut, extends. cbn [out]. destruct (p && needIndent w).
  - cbn [indent out]. exists (repeat (ch 32) (4 * depth w) ++ s). rewrite app_assoc. split; [reflexivity|].
    apply spaced_blanks; [apply blanks_repeat|exact S].
  - exists s. auto.
Qed.
Lemma wOut_exact : forall p s w, (p && needIndent w)%bool = false -> out (wOut p s w) = out w ++ s.
Proof. intros p s w H. unfold wOut. now rewrite H. Qed.
Lemma wNL_extends : forall p w, extends w (wNL p w) [].
Proof.
  intros [|] w; cbn [wNL]; [|apply extends_refl]. exists [newline]. split; [reflexivity|]. apply sp_blank; [unfold blank; auto 6|constructor].
Qed.
Lemma wWS_extends : forall p w, extends w (wWS p w) [].
Proof.
  intros [|] w; cbn [wWS]; [|apply extends_refl]. exists [ch 32]. split; [reflexivity|]. apply sp_blank; [unfold blank; auto 6|constructor].
Qed.
Lemma deeper_extends : forall w, extends w (deeper w) [].
Proof. intros w. exists []. rewrite app_nil_r. split; [reflexivity|constructor]. Qed.
Lemma shallower_extends : forall w, extends w (shallower w) [].
Proof. intros w. exists []. rewrite app_nil_r. split; [reflexivity|constructor]. Qed.
Lemma quoted_spaced : forall s, plain s -> spaced (quoted s) (quoted s).
Proof. intros s P. destruct (plain_body s P) as (B & N). unfold quoted. cbn [app]. eapply sp_string; eauto. constructor. Qed.
Lemma punct_spaced : forall c, In c (lit "[]{}:,") -> spaced [c] [c].
Proof. intros c I. apply spaced_chars. constructor; [now apply punct_plain|constructor]. Qed.

Section LOOPS.
Context (p : bool).
Fixpoint write_items (a : list jval) (w : wst) : outcome wst :=
  match a with
  | [] => Ok w
  | x :: a' => obind (write_val p x w) (fun w => match a' with [] => Ok w | _ => write_items a' (wNL p (wWS p (wOut p (lit ",") w))) end)
  end.
Fixpoint write_members (o : list (bytes * jval)) (w : wst) : outcome wst :=
  match o with
  | [] => Ok w
  | (k, x) :: o' =>
    let w := wWS p (wOut p (lit ":") (wOut p (quoted k) w)) in
    let w := if isObjOrArr x then wNL p w else w in
    obind (write_val p x w) (fun w => match o' with [] => Ok w | _ => write_members o' (wNL p (wWS p (wOut p (lit ",") w))) end)
  end.
End LOOPS.
Lemma write_arr : forall p a w, write_val p (JArr a) w =
  obind (write_items p a (deeper (wNL p (wOut p (lit "[") w)))) (fun w => Ok (wOut p (lit "]") (wNL p (shallower w)))).
Proof. reflexivity. Qed.
Lemma write_obj : forall p o w, write_val p (JObj o) w =
  obind (write_members p o (deeper (wNL p (wOut p (lit "{") w)))) (fun w => Ok (wOut p (lit "}") (wNL p (shallower w)))).
Proof. reflexivity. Qed.

(** ** Induction over values *)
Section JIND.
Context (P : jval -> Prop) (Ho : forall o, Forall P (map snd o) -> P (JObj o)) (Ha : forall a, Forall P a -> P (JArr a))
  (Hs : forall s, P (JStr s)) (Hn : forall n, P (JNum n)) (Hb : forall b, P (JBln b)) (H0 : P JNll).
Fixpoint jval_nested (v : jval) : P v :=
  match v with
  | JObj o => Ho o ((fix go (o : list (bytes * jval)) : Forall P (map snd o) :=
      match o with [] => Forall_nil P | (k, x) :: o' => Forall_cons x (jval_nested x) (go o') end) o)
  | JArr a => Ha a ((fix go (a : list jval) : Forall P a :=
      match a with [] => Forall_nil P | x :: a' => Forall_cons x (jval_nested x) (go a') end) a)
  | JStr s => Hs s | JNum n => Hn n | JBln b => Hb b | JNll => H0
  end.
End JIND.

Definition writes (v : jval) : Prop := exists t v', denotes t v' /\ same v v' /\ forall p w, exists w',
  write_val p v w = Ok w' /\ extends w w' t /\ ((p && needIndent w)%bool = false -> isObjOrArr v = false -> out w' = out w ++ t).

Lemma items_written : forall a, Forall writes a -> exists ts vs, Forall2 denotes ts vs /\ Forall2 same a vs /\
  forall p w, exists w', write_items p a w = Ok w' /\ extends w w' (join ts).
Proof.
  induction 1 as [|x a (t & v & D & Sm & W) F (ts & vs & Ds & Ss & IH)].
  - exists [], []. repeat split; try constructor. intros p w. exists w. split; [reflexivity|apply extends_refl].
  - exists (t :: ts), (v :: vs). repeat split; try (constructor; assumption). intros p w. cbn [write_items].
    destruct (W p w) as (w1 & -> & E1 & _). cbn [obind]. inversion Ss; subst.
    + inversion Ds; subst. exists w1. split; [reflexivity|exact E1].
    + inversion Ds; subst. destruct (IH p (wNL p (wWS p (wOut p (lit ",") w1)))) as (w2 & E & E2). exists w2. split; [exact E|].
      change (join (t :: x1 :: l0)) with (t ++ lit "," ++ [] ++ [] ++ join (x1 :: l0)).
      eapply extends_trans; [exact E1|]. eapply extends_trans; [apply wOut_extends; apply punct_spaced; cbn; auto 10|].
      eapply extends_trans; [apply wWS_extends|]. eapply extends_trans; [apply wNL_extends|]. exact E2.
Qed.
Lemma members_written : forall o, Forall writes (map snd o) -> Forall plain (map fst o) -> exists ms,
  Forall (fun m => denotes (m_text m) (m_val m)) ms /\
  Forall (fun m => string_body (m_raw m) (m_key m) /\ no_final_backslash (m_raw m)) ms /\
  map fst o = map m_key ms /\ Forall2 same (map snd o) (map m_val ms) /\
  forall p w, exists w', write_members p o w = Ok w' /\ extends w w' (join (map member_text ms)).
Proof.
  induction o as [|[k x] o IH]; cbn [map fst snd]; intros F P.
  - exists []. repeat split; try constructor. intros p w. exists w. split; [reflexivity|apply extends_refl].
  - inversion F as [|? ? (t & v & D & Sm & W) F']; inversion P as [|? ? Pk P']; subst. destruct (IH F' P') as (ms & Dm & Bm & Ek & Sv & Wm).
    destruct (plain_body k Pk) as (B & Nf).
    exists ({| m_raw := k; m_key := k; m_text := t; m_val := v |} :: ms).
    split; [constructor; assumption|]. split; [constructor; [split; assumption|assumption]|]. cbn [map m_key m_val].
    split; [now rewrite Ek|]. split; [constructor; assumption|]. intros p w. cbn [write_members]. cbv zeta.
    set (w0 := if isObjOrArr x then _ else _).
    assert (E0 : extends w w0 (quoted k ++ lit ":")).
    { rewrite <- (app_nil_r (lit ":")). change (lit ":" ++ []) with (lit ":" ++ [] ++ []).
      eapply extends_trans; [apply wOut_extends; now apply quoted_spaced|].
      eapply extends_trans; [apply wOut_extends; apply punct_spaced; cbn; auto 10|]. eapply extends_trans; [apply wWS_extends|].
      unfold w0. destruct (isObjOrArr x); [apply wNL_extends|apply extends_refl]. }
    clearbody w0. destruct (W p w0) as (w1 & -> & E1 & _). cbn [obind].
    assert (E2 : extends w w1 (member_text {| m_raw := k; m_key := k; m_text := t; m_val := v |})).
    { unfold member_text. cbn [m_raw m_text]. replace (ch 34 :: k ++ ch 34 :: ":"%char :: t) with ((quoted k ++ lit ":") ++ t).
      - eapply extends_trans; eauto.
      - unfold quoted. cbn [app]. rewrite <- !app_assoc. reflexivity. }
    destruct o as [|[k2 x2] o].
    + destruct ms as [|m ms]; [|discriminate]. exists w1. split; [reflexivity|exact E2].
    + destruct ms as [|m ms]; [discriminate|]. destruct (Wm p (wNL p (wWS p (wOut p (lit ",") w1)))) as (w2 & E & E3). exists w2. split; [exact E|].
      cbn [map join] in *. set (mt := member_text {| m_raw := k; m_key := k; m_text := t; m_val := v |}) in *.
      change (mt ++ ","%char :: ?r) with (mt ++ lit "," ++ [] ++ [] ++ r).
      eapply extends_trans; [exact E2|]. eapply extends_trans; [apply wOut_extends; apply punct_spaced; cbn; auto 10|].
      eapply extends_trans; [apply wWS_extends|]. eapply extends_trans; [apply wNL_extends|]. exact E3.
Qed.
Definition kltp (p q : bytes * jval) : Prop := bytes_ltb (fst p) (fst q) = true.
Lemma ordered_keys : forall (o l : list (bytes * jval)), map fst o = map fst l -> ordered kltp o -> ordered kltp l.
Proof.
  induction o as [|[k x] o IH]; intros [|[j y] l] E H; try discriminate; [exact I|]. cbn [map fst] in E. injection E as <- E.
  cbn [ordered] in *. destruct H as (H1 & H2). split; [|eapply IH; eauto]. intros (j, z) Ij. unfold kltp. cbn [fst].
  assert (I2 : In j (map fst o)) by (rewrite E; apply in_map_iff; exists (j, z); auto). apply in_map_iff in I2. destruct I2 as ((j', u) & Ej & Iu).
  cbn in Ej. subst j'. apply (H1 _ Iu).
Qed.
Lemma last_of_none : forall k l, last_of k l = None -> ~ In k (map fst l).
Proof.
  induction l as [|[j v] l IH]; cbn [last_of map fst]; intros H I; [contradiction|].
  destruct (last_of k l); [discriminate|]. destruct (bytes_eqb j k) eqn:E; [discriminate|]. destruct I as [->|I].
  - rewrite (proj2 (bytes_eqb_eq k k) eq_refl) in E. discriminate.
  - now apply IH.
Qed.
Lemma ordered_object : forall l, ordered kltp l -> object_of l l.
Proof.
  intros l O. split; [exact O|]. induction l as [|[j w] l IH]; intros k v; [cbn; split; [contradiction|discriminate]|].
  destruct O as (O1 & O2). specialize (IH O2). cbn [last_of].
  assert (Nj : forall x, ~ In (j, x) l).
  { intros x Ix. apply O1 in Ix. unfold kltp in Ix. cbn in Ix. rewrite (st_irrefl _ _ bytes_order) in Ix. discriminate. }
  destruct (last_of k l) as [u|] eqn:L.
  - assert (Iu : In (k, u) l) by (apply IH; exact L). split.
    + intros [E|I]; [injection E as -> ->; exfalso; eapply Nj; eauto|]. apply IH in I. congruence.
    + intros [= <-]. right. exact Iu.
  - destruct (bytes_eqb j k) eqn:E.
    + apply bytes_eqb_eq in E. subst j. split.
      * intros [[= <-]|I]; [reflexivity|]. exfalso. eapply Nj; eauto.
      * intros [= <-]. left. reflexivity.
    + split; [|discriminate]. intros [[= -> ->]|I].
      * rewrite (proj2 (bytes_eqb_eq k k) eq_refl) in E. discriminate.
      * apply IH in I. congruence.
Qed.
Lemma writable_written : forall v, writable v -> writes v.
Proof.
  induction v as [o IH|a IH|s|n|b|] using jval_nested; intros W; inversion W as [|x|s' Ps|n' Wn|a' Wa|o' Wo Pk Or]; subst.
  - assert (F : Forall writes (map snd o)) by (rewrite Forall_forall in *; auto).
    destruct (members_written o F Pk) as (ms & Dm & Bm & Ek & Sv & Wm).
    exists ("{"%char :: join (map member_text ms) ++ ["}"%char]), (JObj (map (fun m => (m_key m, m_val m)) ms)).
    assert (Ef : map fst (map (fun m => (m_key m, m_val m)) ms) = map m_key ms) by (rewrite map_map; reflexivity).
    assert (Es : map snd (map (fun m => (m_key m, m_val m)) ms) = map m_val ms) by (rewrite map_map; reflexivity).
    split; [|split].
    + apply d_object; [exact Dm|exact Bm|]. apply ordered_object. eapply ordered_keys; [|exact Or]. now rewrite Ef.
    + constructor; [now rewrite Ef|now rewrite Es].
    + intros p w. rewrite write_obj. destruct (Wm p (deeper (wNL p (wOut p (lit "{") w)))) as (w1 & -> & E1). cbn [obind].
      eexists. split; [reflexivity|]. split; [|cbn; discriminate].
      change ("{"%char :: join (map member_text ms) ++ ["}"%char]) with (lit "{" ++ [] ++ [] ++ join (map member_text ms) ++ [] ++ [] ++ lit "}").
      eapply extends_trans; [apply wOut_extends; apply punct_spaced; cbn; auto 10|]. eapply extends_trans; [apply wNL_extends|].
      eapply extends_trans; [apply deeper_extends|]. eapply extends_trans; [exact E1|]. eapply extends_trans; [apply shallower_extends|].
      eapply extends_trans; [apply wNL_extends|]. apply wOut_extends; apply punct_spaced; cbn; auto 10.
  - assert (F : Forall writes a) by (rewrite Forall_forall in *; auto).
    destruct (items_written a F) as (ts & vs & D & Sm & Wi). exists ("["%char :: join ts ++ ["]"%char]), (JArr vs).
    split; [now constructor|]. split; [now constructor|]. intros p w. rewrite write_arr.
    destruct (Wi p (deeper (wNL p (wOut p (lit "[") w)))) as (w1 & -> & E1). cbn [obind].
    eexists. split; [reflexivity|]. split; [|cbn; discriminate].
    change ("["%char :: join ts ++ ["]"%char]) with (lit "[" ++ [] ++ [] ++ join ts ++ [] ++ [] ++ lit "]").
    eapply extends_trans; [apply wOut_extends; apply punct_spaced; cbn; auto 10|]. eapply extends_trans; [apply wNL_extends|].
    eapply extends_trans; [apply deeper_extends|]. eapply extends_trans; [exact E1|]. eapply extends_trans; [apply shallower_extends|].
    eapply extends_trans; [apply wNL_extends|]. apply wOut_extends; apply punct_spaced; cbn; auto 10.
  - destruct (plain_body s Ps) as (B & N). exists (quoted s), (JStr s). split; [apply (d_string s s); assumption|]. split; [constructor|].
    intros p w. eexists. split; [reflexivity|]. split; [apply wOut_extends; now apply quoted_spaced|]. intros H _. now apply wOut_exact.
  - destruct (write_num_ok n Wn) as (t & m & E & D & Sm). exists t, (JNum m). split; [exact D|]. split; [now constructor|].
    intros p w. cbn [write_val]. rewrite E. cbn [obind]. eexists. split; [reflexivity|].
    split; [apply wOut_extends; eapply denotes_spaced; eauto|]. intros H _. now apply wOut_exact.
  - exists (if b then lit "true" else lit "false"), (JBln b). assert (D : denotes (if b then lit "true" else lit "false") (JBln b)) by (destruct b; constructor).
    split; [exact D|]. split; [constructor|]. intros p w. eexists. split; [reflexivity|].
    split; [apply wOut_extends; eapply denotes_spaced; eauto|]. intros H _. now apply wOut_exact.
  - exists (lit "null"), JNll. split; [constructor|]. split; [constructor|]. intros p w. eexists. split; [reflexivity|].
    split; [apply wOut_extends; eapply denotes_spaced; [apply le_n|constructor]|]. intros H _. now apply wOut_exact.
Qed.

(** ** Equality *)
Lemma SFeqb_sym : forall f g, SFeqb f g = SFeqb g f.
Proof.
  intros f g. unfold SFeqb, SFcompare. destruct f as [s|s| |s m e], g as [s'|s'| |s' m' e']; try reflexivity;
    try (destruct s; reflexivity); try (destruct s'; reflexivity); try (destruct s, s'; reflexivity).
  change (Pos.compare_cont Eq m m') with (Pos.compare m m'). change (Pos.compare_cont Eq m' m) with (Pos.compare m' m).
  destruct s, s'; try reflexivity; destruct (Z.compare_spec e e'), (Z.compare_spec e' e); try lia; try reflexivity;
    destruct (Pos.compare_spec m m'), (Pos.compare_spec m' m); try lia; reflexivity.
Qed.
Lemma same_num_eq : forall m n, same_num m n -> writable_num m -> num_eq m n = Ok true /\ num_eq n m = Ok true.
Proof.
  intros m n [z|z|f|f z T Q] W; cbn [num_eq getIntS getIntU getReal obind writable_num] in *.
  - rewrite Z.eqb_refl. auto.
  - unfold to_u64, to_i64, ULONG_MOD. rewrite !(Z.mod_small z) by lia.
    assert (L : z <=? LONG_MAX = true) by (unfold LONG_MAX; lia).
    split; [rewrite Z.eqb_refl; reflexivity|]. 
    destruct (z <=? LONG_MAX) eqn:E; [rewrite Z.eqb_refl; reflexivity|discriminate].
  - destruct W as (_ & z & L). rewrite SFeqb_refl; [auto|]. intros ->. cbn in L. discriminate.
  - destruct W as (_ & y & L). apply to_long_some in L as L2. destruct L2 as (T2 & B). assert (y = z) by congruence. subst y.
    rewrite SFeqb_sym, Q, L. cbn [obind]. rewrite Z.eqb_refl. auto.
Qed.
Fixpoint items_eq (x y : list jval) : outcome bool :=
  match x, y with
  | u :: x, v :: y => obind (val_eq u v) (fun r => if r then items_eq x y else Ok false)
  | _, _ => Ok true
  end.
Fixpoint members_eq (x y : list (bytes * jval)) : outcome bool :=
  match x, y with
  | (k, u) :: x, (l, v) :: y => if bytes_eqb k l then obind (val_eq u v) (fun r => if r then members_eq x y else Ok false) else Ok false
  | _, _ => Ok true
  end.
Lemma val_eq_arr : forall x y, val_eq (JArr x) (JArr y) = if negb (length x =? length y)%nat then Ok false else items_eq x y.
Proof. reflexivity. Qed.
Lemma val_eq_obj : forall x y, val_eq (JObj x) (JObj y) = if negb (length x =? length y)%nat then Ok false else members_eq x y.
Proof. reflexivity. Qed.
Lemma bytes_eqb_same : forall s, bytes_eqb s s = true.
Proof. intros s. now apply bytes_eqb_eq. Qed.
Lemma Forall2_len : forall A B (R : A -> B -> Prop) x y, Forall2 R x y -> length x = length y.
Proof. induction 1; cbn; congruence. Qed.
Lemma same_eq : forall v v', same v v' -> writable v -> val_eq v v' = Ok true /\ val_eq v' v = Ok true.
Proof.
  induction v as [o IH|a IH|s|n|b|] using jval_nested; intros v' Sm W;
    inversion Sm as [|x1|s1|m1 n1 Sn|a1 b1 F2|o1 p Ek F2]; subst; inversion W as [|x2|s2 Ps|n2 Wn|a2 Wa|o2 Wo Pk Or]; subst.
  - rewrite !val_eq_obj. assert (L : length o = length p) by (rewrite <- (map_length fst o), Ek; apply map_length).
    rewrite L, Nat.eqb_refl. cbn [negb]. clear Sm W L Pk Or. revert p Ek F2.
    induction o as [|[k x] o IHo]; intros [|[j y] p] E F; try discriminate; [auto|].
    cbn [map fst snd members_eq] in *. injection E as <- E. inversion F as [|? ? ? ? Sx F']; subst.
    inversion IH as [|? ? IHx IH']; subst. inversion Wo as [|? ? Wx Wo']; subst. rewrite bytes_eqb_same.
    destruct (IHx y Sx Wx) as (-> & ->). cbn [obind]. apply IHo; auto.
  - rewrite !val_eq_arr. rewrite (Forall2_len _ _ _ _ _ F2), Nat.eqb_refl. cbn [negb]. clear Sm W.
    revert b1 F2. induction a as [|x a IHa]; intros [|y b] F; inversion F as [|? ? ? ? Sx F']; subst; [auto|]. cbn [items_eq] in *.
    inversion IH as [|? ? IHx IH']; subst. inversion Wa as [|? ? Wx Wa']; subst. destruct (IHx y Sx Wx) as (-> & ->). cbn [obind]. apply IHa; auto.
  - cbn [val_eq]. rewrite bytes_eqb_same. auto.
  - cbn [val_eq]. apply same_num_eq; assumption.
  - cbn [val_eq]. rewrite Bool.eqb_reflx. auto.
  - auto.
Qed.
Lemma container_not_number : forall t v v', denotes t v' -> same v v' -> isObjOrArr v = true -> not_number t.
Proof.
  intros t v v' D Sm C. inversion Sm; subst; try discriminate; inversion D; subst; eexists; eexists; (split; [reflexivity|]);
    (split; [discriminate|]); unfold is_digit; vm_compute; intuition congruence.
Qed.
Lemma round_trip : forall p v, writable v -> exists t, getWriteToStr p v = Ok t /\
  ((N.of_nat (length t) < 2 ^ 31)%N -> exists v', parse_text t = Ok v' /\ same v v' /\ val_eq v v' = Ok true /\ val_eq v' v = Ok true).
Proof.
  intros p v W. destruct (writable_written v W) as (t & v' & D & Sm & Wr).
  destruct (Wr p {| out := []; depth := 0; needIndent := false |}) as (w' & E & (s & Es & Sp) & Ex).
  exists s. unfold getWriteToStr. rewrite E. cbn [obind]. rewrite Es. cbn [out app]. split; [reflexivity|]. intros L.
  exists v'. destruct (same_eq v v' Sm W) as (Q1 & Q2). split; [|auto]. eapply denoted_spaced; eauto.
  destruct (isObjOrArr v) eqn:C; [left; eapply container_not_number; eauto|]. right.
  cbn [needIndent out app] in Ex. rewrite andb_false_r in Ex. rewrite Es in Ex. cbn [out app] in Ex. symmetry. now apply Ex.
Qed.
