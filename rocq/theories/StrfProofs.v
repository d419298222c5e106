(** Lemmas about stringification. *)
From Coq Require Import String Ascii ZArith NArith Arith Bool Lia List.
From Coq Require Import ZifyBool ZifyNat.
From Verif Require Import Common IntToStrModel IntToStrSpec IntToStrProofs MplModel StrfModel StrfSpec.
Import ListNotations.
Local Open Scope Z_scope.

(** *** Numerals *)
Lemma digit_char_dchar : forall k, digit_char k = dchar k.
Proof. reflexivity. Qed.

Lemma udec_numeral : forall fuel n, 0 <= n < 2 ^ Z.of_nat fuel -> (0 < fuel)%nat -> numeral n (udec fuel n).
Proof.
  induction fuel as [|fuel IH]; intros n Hn Hf; [lia|].
  cbn [udec]. destruct (Z.ltb_spec n 10) as [H|H].
  - rewrite digit_char_dchar. apply numeral_small1. lia.
  - assert (Hd : 0 < n / 10 < 2 ^ Z.of_nat fuel).
    { rewrite Nat2Z.inj_succ, Z.pow_succ_r in Hn by lia. split.
      - apply Z.div_str_pos; lia.
      - apply Z.div_lt_upper_bound; lia. }
    assert (Hf' : (0 < fuel)%nat) by (destruct fuel; [change (2 ^ Z.of_nat 0) with 1 in Hd; lia|lia]).
    pose proof (numeral_snoc (n / 10) (udec fuel (n / 10)) (n mod 10) (IH (n / 10) (conj (Z.lt_le_incl _ _ (proj1 Hd)) (proj2 Hd)) Hf')
                  (proj1 Hd) (Z.mod_pos_bound n 10 eq_refl)) as P.
    rewrite digit_char_dchar.
    replace (10 * (n / 10) + n mod 10) with n in P by (rewrite <- Z.div_mod; lia). exact P.
Qed.

Lemma fuel_ok : forall n, 0 <= n -> 0 <= n < 2 ^ Z.of_nat (S (Z.to_nat (Z.log2 n))).
Proof.
  intros n Hn. rewrite Nat2Z.inj_succ, Z2Nat.id by apply Z.log2_nonneg.
  split; [lia|]. destruct (Z.eq_dec n 0) as [->|Z0]; [cbn; lia|].
  apply Z.log2_spec. lia.
Qed.

Lemma dec_decimal : forall n, decimal n (dec n).
Proof.
  intros n. unfold dec, decimal. destruct (Z.ltb_spec n 0) as [H|H].
  - right. split; [lia|]. eexists. split; [reflexivity|]. apply udec_numeral; [|lia]. apply fuel_ok. lia.
  - left. split; [lia|]. apply udec_numeral; [|lia]. apply fuel_ok. lia.
Qed.

Lemma decimal_value : forall n m s, decimal n s -> decimal m s -> n = m.
Proof.
  intros n m s [[Hn [N1 [N2 [N3 N4]]]]|[Hn [t [E [N1 [N2 [N3 N4]]]]]]]
    [[Hm [M1 [M2 [M3 M4]]]]|[Hm [t' [E' [M1 [M2 [M3 M4]]]]]]]; try subst s.
  - congruence.
  - apply Forall_inv in N2. exfalso. red in N2. cbn in N2. lia.
  - apply Forall_inv in M2. exfalso. red in M2. cbn in M2. lia.
  - inversion E'; subst. lia.
Qed.

Lemma dec_inj : forall n m, dec n = dec m -> n = m.
Proof. intros n m E. eapply decimal_value; [apply dec_decimal|rewrite E; apply dec_decimal]. Qed.

(** Characters that can occur in a numeral. *)
Definition numchar (c : ascii) : bool := Ascii.eqb c "-" || ((48 <=? N_of_ascii c) && (N_of_ascii c <=? 57))%N.
Lemma digit_numchar : forall c, is_digit c -> numchar c = true.
Proof. intros c H. unfold numchar. red in H. apply orb_true_iff. right. lia. Qed.
Lemma dec_chars : forall n, Forall (fun c => numchar c = true) (dec n).
Proof.
  intros n. destruct (dec_decimal n) as [[_ [_ [H _]]]|[_ [t [E [_ [H _]]]]]].
  - eapply Forall_impl; [|exact H]. exact digit_numchar.
  - rewrite E. constructor; [reflexivity|]. eapply Forall_impl; [|exact H]. exact digit_numchar.
Qed.
Lemma dec_nonempty : forall n, dec n <> [].
Proof.
  intros n. destruct (dec_decimal n) as [[_ [H _]]|[_ [t [E _]]]]; [exact H|rewrite E; discriminate].
Qed.
Lemma numchar_ordinary : forall c, numchar c = true -> Ascii.eqb c "m" = false /\ Ascii.eqb c ESC = false.
Proof.
  intros c H. split.
  - destruct (Ascii.eqb_spec c "m"); [subst; discriminate|reflexivity].
  - destruct (Ascii.eqb_spec c ESC); [subst; discriminate|reflexivity].
Qed.

(** *** Visibility *)
Lemma clean_visible : forall t r, clean t = true -> visible (t ++ r) = t ++ visible r.
Proof.
  unfold visible. induction t as [|x t IH]; intros r H; [reflexivity|].
  change (clean (x :: t)) with (negb (Ascii.eqb x ESC) && clean t) in H.
  apply andb_true_iff in H. destruct H as [H1 H2].
  cbn [app visible_from]. apply negb_true_iff in H1. rewrite H1. f_equal. apply IH. exact H2.
Qed.
Lemma esc_skip : forall t r, Forall (fun c => numchar c = true) t ->
  visible_from true (t ++ r) = visible_from true r.
Proof.
  induction t as [|x t IH]; intros r H; [reflexivity|].
  cbn [app visible_from]. destruct (numchar_ordinary x (Forall_inv H)) as [E _]. rewrite E. cbn.
  apply IH. exact (Forall_inv_tail H).
Qed.
Lemma fmt_visible : forall s r, visible (fmt_str s ++ r) = visible r.
Proof.
  intros s r. unfold fmt_str, visible. rewrite <- !app_assoc.
  cbn [app]. cbn [visible_from]. change (Ascii.eqb (ch 27) ESC) with true. cbv iota.
  cbn [visible_from]. change (Ascii.eqb "[" "m") with false. cbn [negb].
  rewrite (esc_skip _ _ (dec_chars _)). cbn [lit list_ascii_of_string app visible_from].
  change (Ascii.eqb ";" "m") with false. cbn [negb].
  rewrite (esc_skip _ _ (dec_chars _)). cbn [app visible_from].
  change (Ascii.eqb ";" "m") with false. cbn [negb].
  rewrite (esc_skip _ _ (dec_chars _)). cbn [app visible_from].
  change (Ascii.eqb "m" "m") with true. cbn [negb]. reflexivity.
Qed.
Lemma dec_clean : forall n, clean (dec n) = true.
Proof.
  intros n. unfold clean. apply forallb_forall. intros x Hx.
  pose proof (dec_chars n) as H. rewrite Forall_forall in H.
  destruct (numchar_ordinary x (H x Hx)) as [_ E]. rewrite E. reflexivity.
Qed.
Lemma clean_app : forall a b, clean (a ++ b) = clean a && clean b.
Proof. intros. apply forallb_app. Qed.
Lemma hex_clean1 : forall k, 0 <= k < 16 -> negb (Ascii.eqb (hex_char k) ESC) = true.
Proof.
  intros k Hk. assert (C : forallb (fun k => negb (Ascii.eqb (hex_char k) ESC)) (map Z.of_nat (seq 0 16)) = true) by reflexivity.
  rewrite forallb_forall in C. apply C. apply in_map_iff. exists (Z.to_nat k). split; [lia|]. apply in_seq. lia.
Qed.
Lemma uhex_clean : forall fuel n, 0 <= n -> clean (uhex fuel n) = true.
Proof.
  induction fuel as [|fuel IH]; intros n Hn; [reflexivity|].
  cbn [uhex]. destruct (Z.ltb_spec n 16) as [H|H].
  - unfold clean. cbn [forallb]. rewrite hex_clean1 by lia. reflexivity.
  - rewrite clean_app, IH by (apply Z.div_pos; lia).
    unfold clean. cbn [forallb]. rewrite hex_clean1 by (apply Z.mod_pos_bound; lia). reflexivity.
Qed.
Lemma ptr_clean : forall p, 0 <= p -> clean (ptr_text p) = true.
Proof. intros p Hp. unfold ptr_text. rewrite clean_app, uhex_clean by exact Hp. reflexivity. Qed.

(** *** What an action writes *)
Definition shows (c : console) (d t : bytes) : Prop :=
  match c with NullConsole => d = t | Unix => forall r, visible (d ++ r) = t ++ visible r end.
Definition writes (c : console) (tgt : bool) (m : sm) (t : bytes) : Prop :=
  forall s, exists s' d, m s = Ok s' /\ shows c d t /\
    (if tgt then out s' = out s /\ oss s' = oss s ++ d else out s' = out s ++ d).

Lemma shows_app : forall c d1 t1 d2 t2, shows c d1 t1 -> shows c d2 t2 -> shows c (d1 ++ d2) (t1 ++ t2).
Proof.
  intros [|] d1 t1 d2 t2 H1 H2; cbn in *.
  - intros r. rewrite <- app_assoc, H1, H2, app_assoc. reflexivity.
  - congruence.
Qed.
Lemma writes_seq : forall c tgt m1 m2 t1 t2, writes c tgt m1 t1 -> writes c tgt m2 t2 ->
  writes c tgt (seqm m1 m2) (t1 ++ t2).
Proof.
  intros c tgt m1 m2 t1 t2 H1 H2 s.
  destruct (H1 s) as [s1 [d1 [E1 [S1 W1]]]]. destruct (H2 s1) as [s2 [d2 [E2 [S2 W2]]]].
  exists s2, (d1 ++ d2). split; [|split].
  - unfold seqm. rewrite E1. cbn. exact E2.
  - apply shows_app; assumption.
  - destruct tgt.
    + destruct W1 as [A1 B1], W2 as [A2 B2]. split; [congruence|]. rewrite B2, B1, app_assoc. reflexivity.
    + rewrite W2, W1, app_assoc. reflexivity.
Qed.
Lemma writes_skip : forall c tgt, writes c tgt skip [].
Proof.
  intros c tgt s. exists s, []. split; [reflexivity|]. split; [destruct c; [intros r|]; reflexivity|].
  destruct tgt; rewrite app_nil_r; auto.
Qed.
Lemma writes_put : forall c tgt t, clean t = true -> writes c tgt (put tgt t) t.
Proof.
  intros c tgt t H s. unfold put. destruct tgt; eexists; exists t; (split; [reflexivity|]);
    (split; [destruct c; [intros r; apply clean_visible; exact H|reflexivity]|]); cbn; auto.
Qed.
Lemma writes_fmt : forall c tgt upd,
  (forall s, out (upd s) = out s /\ oss (upd s) = oss s) -> writes c tgt (put_fmt c tgt upd) [].
Proof.
  intros c tgt upd H s. destruct c.
  - destruct (H s) as [A B]. unfold put_fmt, put.
    destruct tgt; eexists; exists (fmt_str (upd s)); (split; [reflexivity|]); cbn; rewrite ?A, ?B;
      (split; [intros r; apply fmt_visible|]); auto.
  - exists s, []. split; [reflexivity|]. split; [reflexivity|]. destruct tgt; rewrite app_nil_r; auto.
Qed.
Lemma writes_reset : forall c tgt, writes c tgt (resetFmt c tgt) [].
Proof. intros. apply writes_fmt. intros; split; reflexivity. Qed.
Lemma writes_style : forall c tgt y, writes c tgt (setStyle c tgt y) [].
Proof. intros. apply writes_fmt. intros; split; reflexivity. Qed.
Lemma writes_fg : forall c tgt y, writes c tgt (setColorFG c tgt y) [].
Proof. intros. apply writes_fmt. intros; split; reflexivity. Qed.
Lemma writes_printFmt : forall c tfmt tgt t x y, clean t = true ->
  writes c tgt (printFmt c tfmt tgt t x y) t.
Proof.
  intros c tfmt tgt t x y H. unfold printFmt. change t with ([] ++ t) at 2. apply writes_seq; [|apply writes_put; exact H].
  destruct tfmt; [|apply writes_skip].
  apply (writes_seq c tgt _ _ [] []); [apply writes_reset|].
  apply (writes_seq c tgt _ _ [] []); [apply writes_fg|apply writes_style].
Qed.
Lemma writes_bold : forall c tfmt tgt t x, clean t = true -> writes c tgt (printBold c tfmt tgt t x) t.
Proof. intros. apply writes_printFmt. assumption. Qed.
Lemma writes_base : forall c tfmt tgt x y t p, clean t = true -> clean p = true ->
  writes c tgt (base_impl c tfmt tgt x y t p) (t ++ (if tfmt then p else [])).
Proof.
  intros c tfmt tgt x y t p Ht Hp. unfold base_impl.
  apply (writes_seq c tgt _ _ []).
  - destruct tfmt; [|apply writes_skip].
    apply (writes_seq c tgt _ _ [] []); [apply writes_style|apply writes_fg].
  - apply writes_seq; [apply writes_put; exact Ht|]. destruct tfmt; [apply writes_put; exact Hp|apply writes_skip].
Qed.
Lemma writes_call : forall c tgt m t, writes c tgt m t -> writes c tgt (callStringifyImpl c tgt m) t.
Proof.
  intros c tgt m t H. unfold callStringifyImpl.
  apply (writes_seq c tgt _ _ []); [apply writes_reset|].
  rewrite <- (app_nil_r t). apply writes_seq; [exact H|apply writes_reset].
Qed.

(** *** The separator helper *)
Lemma bidi_run : forall S (fs : list (S -> outcome S)) sep s, fs <> [] ->
  penultimate_bidi fs sep s = run (intersperse sep fs) s.
Proof.
  intros S fs sep. induction fs as [|f fs IH]; intros s H; [congruence|].
  destruct fs as [|g fs].
  - cbn. destruct (f s); reflexivity.
  - cbn [penultimate_bidi intersperse run]. destruct (f s); try reflexivity. cbn [obind].
    cbn [run]. destruct (sep a); try reflexivity. cbn [obind]. apply IH. discriminate.
Qed.
Lemma fwd_run : forall S (fs : list (S -> outcome S)) sep i s, 0 <= i ->
  i + Z.of_nat (length fs) <= INT_MAX ->
  penultimate_fwd_loop i (i + Z.of_nat (length fs)) fs sep s = run (intersperse sep fs) s.
Proof.
  intros S fs sep. induction fs as [|f fs IH]; intros i s Hi Hl.
  - cbn. replace (i + 0) with i by lia. rewrite Z.ltb_irrefl. reflexivity.
  - cbn [penultimate_fwd_loop]. cbn [length] in *. rewrite (proj2 (Z.ltb_lt _ _)) by lia.
    destruct fs as [|g fs].
    + cbn [length intersperse run]. destruct (f s); try reflexivity. cbn [obind].
      rewrite (proj2 (Z.ltb_ge _ _)) by lia. cbn [obind].
      rewrite (proj2 (Z.eqb_neq _ _)) by (cbn in Hl; lia). cbn [penultimate_fwd_loop].
      rewrite (proj2 (Z.ltb_ge _ _)) by (cbn; lia). reflexivity.
    + cbn [intersperse run]. destruct (f s); try reflexivity. cbn [obind].
      rewrite (proj2 (Z.ltb_lt _ _)) by (cbn [length]; lia).
      cbn [run]. destruct (sep a); try reflexivity. cbn [obind].
      rewrite (proj2 (Z.eqb_neq _ _)) by (cbn [length] in Hl; lia).
      replace (i + Z.of_nat (Datatypes.S (length (g :: fs)))) with (i + 1 + Z.of_nat (length (g :: fs))) by lia.
      apply IH; lia.
Qed.
Lemma penultimate_run : forall S bidi (fs : list (S -> outcome S)) sep s,
  fs <> [] -> countable bidi fs = true ->
  repeatPenultimate bidi fs sep s = run (intersperse sep fs) s.
Proof.
  intros S bidi fs sep s Hn Hc. unfold repeatPenultimate. destruct bidi; [apply bidi_run; exact Hn|].
  unfold penultimate_fwd. apply (fwd_run S fs sep 0 s); [lia|]. cbn in Hc. lia.
Qed.
Lemma fwd_overflow : forall S (fs : list (S -> outcome S)) sep i n s,
  (forall f t, In f fs -> exists t', f t = Ok t') -> (forall t, exists t', sep t = Ok t') ->
  0 <= i <= INT_MAX -> INT_MAX < n -> n <= i + Z.of_nat (length fs) ->
  penultimate_fwd_loop i n fs sep s = UB.
Proof.
  intros S fs sep. induction fs as [|f fs IH]; intros i n s Hf Hsep Hi Hn Hl; [cbn in Hl; lia|].
  cbn [penultimate_fwd_loop]. rewrite (proj2 (Z.ltb_lt _ _)) by lia.
  destruct (Hf f s (or_introl eq_refl)) as [t ->]. cbn [obind].
  destruct (i <? n - 1).
  - destruct (Hsep t) as [t' ->]. cbn [obind]. destruct (Z.eqb_spec i INT_MAX) as [E|E]; [reflexivity|].
    apply IH; try assumption; try lia; [intros; apply Hf; right; assumption|cbn in Hl; lia].
  - cbn [obind]. destruct (Z.eqb_spec i INT_MAX) as [E|E]; [reflexivity|].
    apply IH; try assumption; try lia; [intros; apply Hf; right; assumption|cbn in Hl; lia].
Qed.
Lemma tuple_run : forall S (fs : list (S -> outcome S)) sep i s,
  tuple_loop i (i + length fs) fs sep s = run (intersperse sep fs) s.
Proof.
  intros S fs sep. induction fs as [|f fs IH]; intros i s; [reflexivity|].
  cbn [tuple_loop length]. destruct fs as [|g fs].
  - cbn [length intersperse run]. destruct (f s); try reflexivity. cbn [obind].
    rewrite (proj2 (Nat.ltb_ge _ _)) by lia. reflexivity.
  - cbn [intersperse run]. destruct (f s); try reflexivity. cbn [obind].
    rewrite (proj2 (Nat.ltb_lt _ _)) by (cbn [length]; lia).
    cbn [run]. destruct (sep a); try reflexivity. cbn [obind].
    replace (i + Datatypes.S (length (g :: fs)))%nat with (Datatypes.S i + length (g :: fs))%nat by lia. apply IH.
Qed.

Lemma run_writes : forall c tgt fs sep ts st, Forall2 (writes c tgt) fs ts -> writes c tgt sep st ->
  writes c tgt (run (intersperse sep fs)) (join st ts).
Proof.
  intros c tgt fs sep ts st H Hsep. induction H as [|f t fs ts Hf H IH].
  - intros s. apply writes_skip.
  - destruct H as [|g u fs ts Hg H].
    + cbn [intersperse join]. intros s. destruct (Hf s) as [s' [d [E R]]].
      exists s', d. split; [cbn [run]; rewrite E; reflexivity|exact R].
    + cbn [join]. apply (writes_seq c tgt f (fun s => obind (sep s) (run (intersperse sep (g :: fs))))); [exact Hf|].
      apply (writes_seq c tgt sep (run (intersperse sep (g :: fs)))); [exact Hsep|exact IH].
Qed.

Lemma writes_ext : forall c tgt (m m' : sm) t, (forall s, m s = m' s) -> writes c tgt m t -> writes c tgt m' t.
Proof. intros c tgt m m' t E H s. destruct (H s) as [s' [d [A R]]]. exists s', d. rewrite <- E. auto. Qed.

Lemma Forall2_map_same : forall A B C (R : B -> C -> Prop) (f : A -> B) (g : A -> C) l,
  (forall x, In x l -> R (f x) (g x)) -> Forall2 R (map f l) (map g l).
Proof.
  induction l as [|x l IH]; intros H; constructor.
  - apply H. left. reflexivity.
  - apply IH. intros y Hy. apply H. right. exact Hy.
Qed.

Lemma seq_writes : forall A c tfmt tgt bidi (l : list A) (f : A -> sm) (g : A -> bytes) sep,
  countable bidi l = true -> clean sep = true -> (forall x, In x l -> writes c tgt (f x) (g x)) ->
  writes c tgt (seq_impl c tfmt tgt bidi (map f l) sep) (braces_or_empty (map g l) sep).
Proof.
  intros A c tfmt tgt bidi l f g sep Hc Hs H. destruct l as [|x l].
  - apply writes_bold. reflexivity.
  - unfold seq_impl, braces_or_empty, braces. cbn [map].
    change (f x :: map f l) with (map f (x :: l)). change (g x :: map g l) with (map g (x :: l)).
    apply writes_seq; [apply writes_bold; reflexivity|].
    apply writes_seq; [|apply writes_bold; reflexivity].
    eapply writes_ext.
    + intros s. symmetry. apply penultimate_run; [discriminate|].
      unfold countable in *. rewrite map_length. exact Hc.
    + apply run_writes; [apply Forall2_map_same; exact H|apply writes_bold; exact Hs].
Qed.

(** Induction over values. *)
Section ValInd.
  Variable P : val -> Prop.
  Hypothesis HInt : forall k z, P (VInt k z).
  Hypothesis HReal : forall d t, P (VReal d t).
  Hypothesis HStr : forall t, P (VStr t).
  Hypothesis HText : forall t, P (VText t).
  Hypothesis HPtr : forall p, P (VPtr p).
  Hypothesis HSeq : forall b l, Forall P l -> P (VSeq b l).
  Hypothesis HTuple : forall l, Forall P l -> P (VTuple l).
  Hypothesis HMap : forall b l, Forall (fun p => P (fst p) /\ P (snd p)) l -> P (VMap b l).
  Hypothesis HBimap : forall l, Forall (fun p => P (fst p) /\ P (snd p)) l -> P (VBimap l).
  Hypothesis HUser : forall l, Forall (fun p => P (snd p)) l -> P (VUser l).
  Fixpoint val_all (v : val) : P v :=
    let each := fix each (l : list val) : Forall P l :=
      match l with [] => Forall_nil _ | x :: l => Forall_cons x (val_all x) (each l) end in
    let each2 := fix each2 (l : list (val * val)) : Forall (fun p => P (fst p) /\ P (snd p)) l :=
      match l with [] => Forall_nil _
      | p :: l => Forall_cons p (conj (val_all (fst p)) (val_all (snd p))) (each2 l) end in
    let each3 := fix each3 (l : list (bytes * val)) : Forall (fun p => P (snd p)) l :=
      match l with [] => Forall_nil _ | p :: l => Forall_cons p (val_all (snd p)) (each3 l) end in
    match v with
    | VInt k z => HInt k z
    | VReal d t => HReal d t
    | VStr t => HStr t
    | VText t => HText t
    | VPtr p => HPtr p
    | VSeq b l => HSeq b l (each l)
    | VTuple l => HTuple l (each l)
    | VMap b l => HMap b l (each2 l)
    | VBimap l => HBimap l (each2 l)
    | VUser l => HUser l (each3 l)
    end.
End ValInd.

Lemma convertible_ok : forall k z, convertible k z = true ->
  IntToStrModel.toStr (kind_type k) (repeat "0"%char (t_digits10 (kind_type k))) z = Ok (dec z).
Proof.
  intros k z H. pose proof conv_ranges as R. unfold safe_ranges in R.
  assert (E : exists s, IntToStrModel.toStr (kind_type k)
                (repeat "0"%char (t_digits10 (kind_type k))) z = Ok s /\ decimal z s).
  { repeat rewrite Forall_cons_iff in R. destruct R as [_ [_ [Ri [Ru [Rl [Rul _]]]]]].
    destruct k; cbn [kind_type] in *; cbn in H.
    - destruct (Ri (repeat "0"%char (t_digits10 t_int)) z) as [A _];
        [apply repeat_length|cbn; unfold INT_MIN, INT_MAX; lia|apply A; lia].
    - destruct (Rl (repeat "0"%char (t_digits10 t_long)) z) as [A _];
        [apply repeat_length|cbn; unfold LONG_MIN, LONG_MAX; lia|apply A; lia].
    - destruct (Ru (repeat "0"%char (t_digits10 t_uint)) z) as [A _];
        [apply repeat_length|cbn; lia|apply A; lia].
    - destruct (Rul (repeat "0"%char (t_digits10 t_ulong)) z) as [A _];
        [apply repeat_length|cbn; lia|apply A; lia]. }
  destruct E as [s [E D]]. rewrite E. f_equal. exact (decimal_unique _ _ _ D (dec_decimal z)).
Qed.


Lemma stringify_writes : forall c v tfmt tgt, printable tgt v = true ->
  writes c tgt (stringify c tfmt tgt v) (text tfmt v).
Proof.
  intros c v. induction v using val_all; intros tfmt tgt Hp; cbn [printable] in Hp.
  - cbn [stringify text]. apply writes_base; [apply dec_clean|destruct k; reflexivity].
  - cbn [stringify text]. apply writes_base; [exact Hp|destruct d; reflexivity].
  - cbn [stringify text]. pose proof (writes_base c tfmt tgt cLightYellow sNone t [] Hp eq_refl) as W.
    destruct tfmt; rewrite app_nil_r in W; exact W.
  - apply writes_put. exact Hp.
  - cbn [stringify text]. replace (p =? 0) with false by lia.
    apply writes_seq; [apply writes_bold; reflexivity|].
    apply writes_seq; [apply writes_printFmt, ptr_clean; lia|apply writes_bold; reflexivity].
  - apply andb_true_iff in Hp. destruct Hp as [Hc Hp]. rewrite forallb_forall in Hp.
    rewrite Forall_forall in H. cbn [stringify text].
    apply seq_writes; [exact Hc|reflexivity|]. intros x Hx. apply writes_call. apply H; auto.
  - apply andb_true_iff in Hp. destruct Hp as [Hc Hp]. rewrite forallb_forall in Hp.
    rewrite Forall_forall in H. cbn [stringify text]. unfold braces.
    apply writes_seq; [apply writes_bold; reflexivity|].
    apply writes_seq; [|apply writes_bold; reflexivity].
    destruct l as [|x l]; [discriminate|].
    eapply writes_ext.
    + intros s. symmetry. pose proof (tuple_run st (map (fun x => callStringifyImpl c tgt (stringify c tfmt tgt x)) (x :: l))
         (printBold c tfmt tgt (lit ", ") cDefault) 0 s) as T. rewrite map_length in T. exact T.
    + apply run_writes; [|apply writes_bold; reflexivity]. apply Forall2_map_same.
      intros y Hy. apply writes_call. apply H; auto.
  - apply andb_true_iff in Hp. destruct Hp as [Hc Hp]. rewrite forallb_forall in Hp.
    rewrite Forall_forall in H. cbn [stringify text].
    apply (seq_writes _ c tfmt tgt b l _ (fun p => text tfmt (fst p) ++ lit " -> " ++ text tfmt (snd p)));
      [exact Hc|reflexivity|]. intros x Hx.
    specialize (Hp x Hx). apply andb_true_iff in Hp. destruct Hp as [P1 P2]. destruct (H x Hx) as [H1 H2].
    apply writes_seq; [apply writes_call; apply H1; exact P1|].
    apply writes_seq; [apply writes_bold; reflexivity|apply writes_call; apply H2; exact P2].
  - rewrite forallb_forall in Hp. rewrite Forall_forall in H. cbn [stringify text].
    apply (seq_writes _ c tfmt tgt true l _ (fun p => text tfmt (fst p) ++ lit " <-> " ++ text tfmt (snd p)));
      [reflexivity|reflexivity|]. intros x Hx.
    specialize (Hp x Hx). apply andb_true_iff in Hp. destruct Hp as [P1 P2]. destruct (H x Hx) as [H1 H2].
    apply writes_seq; [apply writes_call; apply H1; exact P1|].
    apply writes_seq; [apply writes_bold; reflexivity|apply writes_call; apply H2; exact P2].
  - cbn [stringify text]. induction l as [|p l IHl]; [apply writes_skip|].
    cbn [forallb] in Hp. apply andb_true_iff in Hp. destruct Hp as [Hp Hl].
    apply andb_true_iff in Hp. destruct Hp as [Hc Hp].
    pose proof (Forall_inv H) as H1. specialize (IHl (Forall_inv_tail H) Hl).
    cbn [fold_right map concat]. rewrite <- app_assoc.
    apply writes_seq; [apply writes_put; exact Hc|]. apply writes_seq; [|exact IHl].
    destruct p as [b x]. cbn [fst snd] in *.
    assert (Hx : (exists k z, x = VInt k z) \/
      (negb tgt && printable true x = true /\ forall body s, toStr_with body x s =
         obind (body (mkSt (sty s) (fg s) (bg s) (out s) [])) (fun s => Ok (oss s, s)))).
    { destruct x; [left; eauto|right..]; (split; [exact Hp|reflexivity]). }
    destruct Hx as [[k [z ->]]|[Hq Hx]].
    + intros s. cbn [toStr_with]. rewrite (convertible_ok _ _ Hp). cbn [obind].
      cbn [text]. rewrite app_nil_r. apply writes_put. apply dec_clean.
    + apply andb_true_iff in Hq. destruct Hq as [Ht Hq]. destruct tgt; [discriminate|].
      intros s. rewrite Hx.
      destruct (H1 false true Hq (mkSt (sty s) (fg s) (bg s) (out s) [])) as [s' [d [E [Sh [A B]]]]].
      rewrite E. cbn [obind]. cbn [out oss app] in A, B.
      eexists. exists d. split; [reflexivity|]. split; [exact Sh|]. cbn. rewrite A, B. reflexivity.
Qed.

(** *** Statements of the property theorems *)
Lemma stringify_text : forall c tfmt v s, printable false v = true ->
  exists s' d, stringify c tfmt false v s = Ok s' /\ out s' = out s ++ d /\
    (c = NullConsole -> d = text tfmt v) /\ (c = Unix -> visible d = text tfmt v).
Proof.
  intros c tfmt v s H. destruct (stringify_writes c v tfmt false H s) as [s' [d [E [Sh W]]]].
  exists s', d. split; [exact E|]. split; [exact W|]. split; intros ->; cbn in Sh; [exact Sh|].
  specialize (Sh []). rewrite !app_nil_r in Sh. exact Sh.
Qed.

Lemma toStr_text : forall c v s, printable true v = true ->
  (forall k z, v = VInt k z -> convertible k z = true) ->
  exists s' d, toStr c v s = Ok (d, s') /\ out s' = out s /\
    (c = NullConsole -> d = text false v) /\ (c = Unix -> visible d = text false v).
Proof.
  intros c v s H HI. unfold toStr.
  assert (Hx : (exists k z, v = VInt k z) \/ (forall body, toStr_with body v s =
         obind (body (mkSt (sty s) (fg s) (bg s) (out s) [])) (fun s => Ok (oss s, s)))).
  { destruct v; [left; eauto|right; reflexivity..]. }
  destruct Hx as [[k [z ->]]|Hx].
  - specialize (HI k z eq_refl). cbn [toStr_with]. rewrite (convertible_ok _ _ HI). cbn [obind].
    exists s, (dec z). split; [reflexivity|]. split; [reflexivity|]. cbn [text]. rewrite app_nil_r.
    split; intros _; [reflexivity|]. pose proof (clean_visible (dec z) [] (dec_clean z)) as V.
    rewrite !app_nil_r in V. exact V.
  - rewrite Hx. destruct (stringify_writes c v false true H (mkSt (sty s) (fg s) (bg s) (out s) [])) as [s' [d [E [Sh [A B]]]]].
    rewrite E. cbn [obind]. cbn in A, B. exists s', d. rewrite B. split; [reflexivity|]. split; [exact A|].
    split; intros ->; cbn in Sh; [exact Sh|]. specialize (Sh []). rewrite !app_nil_r in Sh. exact Sh.
Qed.

Lemma fmt_str_esc : forall s, In ESC (fmt_str s).
Proof. intros s. left. reflexivity. Qed.

Lemma seq_escapes : forall bidi x l s, printable false (VSeq bidi (x :: l)) = true ->
  exists s' d, stringify Unix false false (VSeq bidi (x :: l)) s = Ok s' /\ out s' = out s ++ d /\ In ESC d.
Proof.
  intros bidi x l s H. pose proof H as H0. cbn [printable] in H. apply andb_true_iff in H. destruct H as [Hc Hp].
  rewrite forallb_forall in Hp.
  set (f := fun x => callStringifyImpl Unix false (stringify Unix false false x)).
  set (sep := printBold Unix false false (lit ", ") cDefault).
  assert (W : forall y, In y (x :: l) -> writes Unix false (f y) (text false y)).
  { intros y Hy. apply writes_call. apply stringify_writes. apply Hp. exact Hy. }
  (* the first element starts with the reset sequence *)
  assert (F : exists rest, (forall s, run (intersperse sep (map f (x :: l))) s =
      obind (resetFmt Unix false s) rest) /\ forall s, exists s' d, rest s = Ok s' /\ out s' = out s ++ d).
  { exists (fun s => obind (seqm (stringify Unix false false x) (resetFmt Unix false) s)
       (run (match map f l with [] => [] | y :: r => sep :: intersperse sep (y :: r) end))).
    split.
    - intros s0. cbn [map]. destruct (map f l) as [|y r]; cbn [intersperse run].
      + unfold f, callStringifyImpl, seqm. destruct (resetFmt Unix false s0); reflexivity.
      + unfold f, callStringifyImpl, seqm. destruct (resetFmt Unix false s0); reflexivity.
    - intros s0.
      assert (W1 : writes Unix false (seqm (stringify Unix false false x) (resetFmt Unix false)) (text false x ++ [])).
      { apply writes_seq; [apply stringify_writes, Hp; left; reflexivity|apply writes_reset]. }
      destruct (W1 s0) as [s1 [d1 [E1 [_ O1]]]]. rewrite E1. cbn [obind].
      assert (W2 : exists t, writes Unix false (run (match map f l with [] => [] | y :: r => sep :: intersperse sep (y :: r) end)) t).
      { destruct l as [|y r]; [exists []; exact (writes_skip Unix false)|].
        exists (lit ", " ++ join (lit ", ") (map (text false) (y :: r))).
        change (map f (y :: r)) with (f y :: map f r).
        apply (writes_seq Unix false sep (run (intersperse sep (map f (y :: r))))); [apply writes_bold; reflexivity|].
        apply run_writes; [|apply writes_bold; reflexivity]. apply Forall2_map_same. intros w Hw. apply W. right. exact Hw. }
      destruct W2 as [t W2]. destruct (W2 s1) as [s2 [d2 [E2 [_ O2]]]]. exists s2, (d1 ++ d2).
      split; [exact E2|]. rewrite O2, O1, app_assoc. reflexivity. }
  destruct F as [rest [F1 F2]].
  destruct (writes_bold Unix false false (lit "{") cDefault eq_refl s) as [s1 [d1 [E1 [_ O1]]]].
  set (s2 := mkSt sNone cDefault cDefault (out s1 ++ fmt_str (mkSt sNone cDefault cDefault (out s1) (oss s1))) (oss s1)).
  assert (E2 : resetFmt Unix false s1 = Ok s2) by reflexivity.
  destruct (F2 s2) as [s3 [d3 [E3 O3]]].
  destruct (writes_bold Unix false false (lit "}") cDefault eq_refl s3) as [s4 [d4 [E4 [_ O4]]]].
  exists s4. eexists. split; [|split].
  - change (stringify Unix false false (VSeq bidi (x :: l)) s) with
      (seqm (printBold Unix false false (lit "{") cDefault)
        (seqm (repeatPenultimate bidi (map f (x :: l)) sep)
              (printBold Unix false false (lit "}") cDefault)) s).
    unfold seqm. rewrite E1. cbn [obind].
    rewrite penultimate_run; [|discriminate|unfold countable in *; rewrite map_length; exact Hc].
    rewrite F1, E2. cbn [obind]. rewrite E3. cbn [obind]. exact E4.
  - rewrite O4, O3. unfold s2. cbn [out]. rewrite O1. rewrite <- !app_assoc. reflexivity.
  - rewrite !in_app_iff. right. left. left. reflexivity.
Qed.

Lemma null_pointer : forall c tfmt s, exists s' d, stringify c tfmt false (VPtr 0) s = Ok s' /\
  out s' = out s ++ d /\ visible d = lit "[" ++ ptr_text nullptr_literal ++ lit "]".
Proof.
  intros c tfmt s.
  assert (W : writes c false (stringify c tfmt false (VPtr 0)) (lit "[" ++ ptr_text nullptr_literal ++ lit "]")).
  { cbn [stringify]. apply writes_seq; [apply writes_bold; reflexivity|].
    apply writes_seq; [apply writes_printFmt, ptr_clean; unfold nullptr_literal; lia|apply writes_bold; reflexivity]. }
  destruct (W s) as [s' [d [E [Sh O]]]]. exists s', d. split; [exact E|]. split; [exact O|].
  destruct c; cbn in Sh.
  - specialize (Sh []). rewrite !app_nil_r in Sh. exact Sh.
  - rewrite Sh. reflexivity.
Qed.

Lemma null_pointer_wrong : forall c tfmt s, exists s' d, stringify c tfmt false (VPtr 0) s = Ok s' /\
  out s' = out s ++ d /\ visible d = lit "[" ++ ptr_text nullptr_literal ++ lit "]" /\
  visible d <> text tfmt (VPtr 0).
Proof.
  intros c tfmt s. destruct (null_pointer c tfmt s) as [s' [d [A [B C]]]]. exists s', d.
  split; [exact A|]. split; [exact B|]. split; [exact C|]. rewrite C. destruct tfmt; vm_compute; discriminate.
Qed.

Lemma nested_toStr : forall c a b s, exists s',
  toStr c (VUser [(a, VStr b)]) s = Ok (b ++ b, s').
Proof. intros c a b s. eexists. reflexivity. Qed.

(** *** The text determines the value *)
Definition notnum (r : bytes) : Prop := match r with [] => True | c :: _ => numchar c = false end.

Lemma num_split : forall a b r r', Forall (fun c => numchar c = true) a -> Forall (fun c => numchar c = true) b ->
  notnum r -> notnum r' -> a ++ r = b ++ r' -> a = b /\ r = r'.
Proof.
  induction a as [|x a IH]; intros [|y b] r r' Ha Hb Hr Hr' E; cbn in E.
  - auto.
  - subst r. cbn in Hr. pose proof (Forall_inv Hb). cbn in *. congruence.
  - subst r'. cbn in Hr'. pose proof (Forall_inv Ha). cbn in *. congruence.
  - inversion E; subst. destruct (IH b r r' (Forall_inv_tail Ha) (Forall_inv_tail Hb) Hr Hr' H1) as [-> ->]. auto.
Qed.

Definition uniq (t : ty) : Prop := forall v w r r', has_type t v -> has_type t w -> notnum r -> notnum r' ->
  text false v ++ r = text false w ++ r' -> v = w /\ r = r'.
(** Texts of values never start with '}' or a blank. *)
Lemma head_ok : forall t v, has_type t v -> exists c r, text false v = c :: r /\ c <> "}"%char /\ c <> " "%char.
Proof.
  intros t v H. destruct t, v; try (destruct H; fail).
  - cbn [text]. rewrite app_nil_r. destruct (dec z) as [|c r] eqn:E; [exfalso; exact (dec_nonempty z E)|].
    exists c, r. split; [reflexivity|]. pose proof (dec_chars z) as C. rewrite E in C. apply Forall_inv in C.
    split; intros ->; discriminate.
  - cbn [text]. destruct l; cbn; eexists; eexists; (split; [reflexivity|split; discriminate]).
  - cbn [text]. cbn; eexists; eexists; (split; [reflexivity|split; discriminate]).
  - cbn [text]. destruct l; cbn; eexists; eexists; (split; [reflexivity|split; discriminate]).
  - cbn [text]. destruct l; cbn; eexists; eexists; (split; [reflexivity|split; discriminate]).
Qed.

(** Lists of items with unique texts, separated by a text that starts with a non-numeral character
    other than '}' . *)
Lemma join_uniq : forall A (R : A -> Prop) (g : A -> bytes) c0 sep0,
  numchar c0 = false -> c0 <> "}"%char ->
  (forall x y r r', R x -> R y -> notnum r -> notnum r' -> g x ++ r = g y ++ r' -> x = y /\ r = r') ->
  forall l m r r', Forall R l -> Forall R m -> l <> [] -> m <> [] ->
  join (c0 :: sep0) (map g l) ++ "}"%char :: r = join (c0 :: sep0) (map g m) ++ "}"%char :: r' ->
  l = m /\ r = r'.
Proof.
  intros A R g c0 sep0 Hc0 Hc1 U. induction l as [|x l IH]; intros m r r' Hl Hm Nl Nm E; [congruence|].
  destruct m as [|y m]; [congruence|].
  assert (J : forall x l r, join (c0 :: sep0) (map g (x :: l)) ++ "}"%char :: r =
     g x ++ match l with [] => "}"%char :: r | _ => c0 :: sep0 ++ join (c0 :: sep0) (map g l) ++ "}"%char :: r end).
  { intros x0 [|x1 l0] r0; [reflexivity|]. cbn [map join]. rewrite <- app_assoc. f_equal.
    cbn [app]. f_equal. rewrite <- app_assoc. reflexivity. }
  rewrite (J x l r), (J y m r') in E.
  apply U in E; [|exact (Forall_inv Hl)|exact (Forall_inv Hm)|destruct l; [reflexivity|exact Hc0]|destruct m; [reflexivity|exact Hc0]].
  destruct E as [-> E]. destruct l as [|x1 l], m as [|y1 m].
  - inversion E. auto.
  - inversion E. subst. exfalso. apply Hc1. reflexivity.
  - inversion E. subst. exfalso. apply Hc1. reflexivity.
  - injection E as E1. apply app_inv_head in E1.
    apply (IH (y1 :: m) r r') in E1; [|exact (Forall_inv_tail Hl)|exact (Forall_inv_tail Hm)|discriminate|discriminate].
    destruct E1 as [-> ->]. auto.
Qed.

Lemma braces_uniq : forall A (R : A -> Prop) (g : A -> bytes) c0 sep0,
  numchar c0 = false -> c0 <> "}"%char ->
  (forall x, R x -> exists c t, g x = c :: t /\ c <> "}"%char /\ c <> " "%char) ->
  (forall x y r r', R x -> R y -> notnum r -> notnum r' -> g x ++ r = g y ++ r' -> x = y /\ r = r') ->
  forall l m r r', Forall R l -> Forall R m ->
  braces_or_empty (map g l) (c0 :: sep0) ++ r = braces_or_empty (map g m) (c0 :: sep0) ++ r' ->
  l = m /\ r = r'.
Proof.
  intros A R g c0 sep0 H0 H1 Hh U l m r r' Hl Hm E.
  assert (B : forall x l r, Forall R (x :: l) -> exists c t, c <> " "%char /\
    braces_or_empty (map g (x :: l)) (c0 :: sep0) ++ r = "{"%char :: c :: t).
  { intros x l0 r0 H. destruct (Hh x (Forall_inv H)) as [c [t [Eg [_ Hc]]]].
    exists c. destruct l0 as [|y l0]; cbn [map braces_or_empty]; unfold braces; cbn [join map]; rewrite Eg; cbn; eauto. }
  destruct l as [|x l], m as [|y m].
  - cbn in E. inversion E. auto.
  - destruct (B y m r' Hm) as [c [t [Hc Eb]]]. rewrite Eb in E. cbn in E. inversion E. congruence.
  - destruct (B x l r Hl) as [c [t [Hc Eb]]]. rewrite Eb in E. cbn in E. inversion E. congruence.
  - unfold braces_or_empty, braces in E. cbn [map] in E.
    change (g x :: map g l) with (map g (x :: l)) in E. change (g y :: map g m) with (map g (y :: m)) in E.
    rewrite <- !app_assoc in E. apply app_inv_head in E. cbn [lit list_ascii_of_string app] in E.
    eapply join_uniq; try eassumption; discriminate.
Qed.

Section TyInd.
  Variable P : ty -> Prop.
  Hypothesis H1 : forall k, P (TInt k).
  Hypothesis H2 : forall b t, P t -> P (TSeq b t).
  Hypothesis H3 : forall l, Forall P l -> P (TTuple l).
  Hypothesis H4 : forall b k v, P k -> P v -> P (TMap b k v).
  Hypothesis H5 : forall k v, P k -> P v -> P (TBimap k v).
  Fixpoint ty_all (t : ty) : P t :=
    match t with
    | TInt k => H1 k
    | TSeq b t => H2 b t (ty_all t)
    | TTuple l => H3 l ((fix each (l : list ty) : Forall P l :=
        match l with [] => Forall_nil _ | x :: l => Forall_cons x (ty_all x) (each l) end) l)
    | TMap b k v => H4 b k v (ty_all k) (ty_all v)
    | TBimap k v => H5 k v (ty_all k) (ty_all v)
    end.
End TyInd.

Lemma pair_uniq : forall k v sep0, uniq k -> uniq v -> forall (p q : val * val) r r',
  has_type k (fst p) /\ has_type v (snd p) -> has_type k (fst q) /\ has_type v (snd q) ->
  notnum r -> notnum r' ->
  (text false (fst p) ++ (" "%char :: sep0) ++ text false (snd p)) ++ r =
  (text false (fst q) ++ (" "%char :: sep0) ++ text false (snd q)) ++ r' -> p = q /\ r = r'.
Proof.
  intros k v sep0 Uk Uv [p1 p2] [q1 q2] r r' [A B] [C D] Hr Hr' E. cbn [fst snd] in *.
  rewrite <- !app_assoc in E. apply Uk in E; [|assumption|assumption|reflexivity|reflexivity].
  destruct E as [-> E]. cbn [app] in E. inversion E as [E1]. apply app_inv_head in E1.
  apply Uv in E1; try assumption. destruct E1 as [-> ->]. auto.
Qed.

Definition each_type := fix each (ts : list ty) (l : list val) : Prop :=
  match ts, l with
  | [], [] => True
  | t :: ts, x :: l => has_type t x /\ each ts l
  | _, _ => False
  end.
Lemma tuple_join_uniq : forall ts, Forall uniq ts -> forall l m r r', each_type ts l -> each_type ts m ->
  l <> [] -> m <> [] ->
  join (lit ", ") (map (text false) l) ++ "}"%char :: r = join (lit ", ") (map (text false) m) ++ "}"%char :: r' ->
  l = m /\ r = r'.
Proof.
  induction ts as [|t ts IH]; intros U l m r r' Hl Hm Nl Nm E; destruct l as [|x l]; try congruence;
    try (destruct Hl; fail); destruct m as [|y m]; try congruence; try (destruct Hm; fail).
  destruct Hl as [Hx Hl], Hm as [Hy Hm].
  assert (J : forall x l r, join (lit ", ") (map (text false) (x :: l)) ++ "}"%char :: r =
     text false x ++ match l with [] => "}"%char :: r
        | _ => lit ", " ++ join (lit ", ") (map (text false) l) ++ "}"%char :: r end).
  { intros x0 [|x1 l0] r0; [reflexivity|]. cbn [map join]. rewrite <- !app_assoc. reflexivity. }
  rewrite (J x l r), (J y m r') in E.
  apply (Forall_inv U) in E; [|assumption|assumption|destruct l; reflexivity|destruct m; reflexivity].
  destruct E as [-> E]. destruct l as [|x1 l], m as [|y1 m].
  - inversion E. auto.
  - cbn in E. inversion E.
  - cbn in E. inversion E.
  - apply app_inv_head in E.
    apply (IH (Forall_inv_tail U)) in E; try assumption; try discriminate. destruct E as [-> ->]. auto.
Qed.

Lemma text_uniq : forall t, uniq t.
Proof.
  intros t. induction t using ty_all; intros v w r r' Hv Hw Hr Hr' E.
  - destruct v; try (destruct Hv; fail). destruct w; try (destruct Hw; fail). cbn in Hv, Hw. subst.
    cbn [text] in E. rewrite !app_nil_r in E.
    apply num_split in E; [|apply dec_chars|apply dec_chars|assumption|assumption].
    destruct E as [E ->]. apply dec_inj in E. subst. auto.
  - destruct v; try (destruct Hv; fail). destruct w; try (destruct Hw; fail).
    cbn in Hv, Hw. destruct Hv as [<- Hv], Hw as [<- Hw]. cbn [text] in E.
    apply (braces_uniq _ (has_type t)) in E; try assumption; try discriminate; try reflexivity.
    + destruct E as [-> ->]. auto.
    + intros x Hx. eapply head_ok. exact Hx.
  - destruct v; try (destruct Hv; fail). destruct w; try (destruct Hw; fail).
    cbn [has_type] in Hv, Hw. destruct Hv as [Nv Hv], Hw as [Nw Hw]. cbn [text] in E. unfold braces in E.
    rewrite <- !app_assoc in E. apply app_inv_head in E.
    apply (tuple_join_uniq l H) in E; try assumption. destruct E as [-> ->]. auto.
  - destruct v; try (destruct Hv; fail). destruct w; try (destruct Hw; fail).
    cbn in Hv, Hw. destruct Hv as [<- Hv], Hw as [<- Hw]. cbn [text] in E.
    apply (braces_uniq _ (fun p => has_type t1 (fst p) /\ has_type t2 (snd p))
             (fun p => text false (fst p) ++ lit " -> " ++ text false (snd p))) in E;
      try assumption; try discriminate; try reflexivity.
    + destruct E as [-> ->]. auto.
    + intros x [Hx _]. destruct (head_ok _ _ Hx) as [c [q [-> R]]]. cbn. eauto.
    + intros x y q q' Hx Hy Hq Hq' E'. exact (pair_uniq t1 t2 _ IHt1 IHt2 x y q q' Hx Hy Hq Hq' E').
  - destruct v; try (destruct Hv; fail). destruct w; try (destruct Hw; fail).
    cbn in Hv, Hw. cbn [text] in E.
    apply (braces_uniq _ (fun p => has_type t1 (fst p) /\ has_type t2 (snd p))
             (fun p => text false (fst p) ++ lit " <-> " ++ text false (snd p))) in E;
      try assumption; try discriminate; try reflexivity.
    + destruct E as [-> ->]. auto.
    + intros x [Hx _]. destruct (head_ok _ _ Hx) as [c [q [-> R]]]. cbn. eauto.
    + intros x y q q' Hx Hy Hq Hq' E'. exact (pair_uniq t1 t2 _ IHt1 IHt2 x y q q' Hx Hy Hq Hq' E').
Qed.

Lemma text_determines : forall t v w, has_type t v -> has_type t w -> text false v = text false w -> v = w.
Proof.
  intros t v w Hv Hw E. assert (E2 : text false v ++ [] = text false w ++ []) by (rewrite E; reflexivity).
  apply (text_uniq t) in E2; try assumption; try exact I. apply E2.
Qed.

Lemma strings_ambiguous : exists l m, l <> m /\
  text false (VSeq true (map VStr l)) = text false (VSeq true (map VStr m)).
Proof. exists [lit "a, b"], [lit "a"; lit "b"]. split; [discriminate|reflexivity]. Qed.
