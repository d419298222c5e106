From Coq Require Import String Ascii ZArith NArith Arith Bool Lia List.
From Coq Require Import Floats.SpecFloat.
From Verif Require Import Common IntToStrModel IntToStrSpec JsonSpec JsonNumModel JsonExactProofs JsonWriteProofs RoundProofs StrfModel StrfSpec StrfProofs LogModel BenchModel BenchSpec.
Import ListNotations.
Local Open Scope Z_scope.

(** *** The text of a duration *)
Lemma round_div_near : forall n d v, 0 < d -> 2 * Z.abs (n - v * d) < d -> round_div n d = v.
Proof.
  intros n d v Hd H. unfold round_div. pose proof (Z_div_mod_eq_full n d) as E. pose proof (Z.mod_pos_bound n d Hd) as B.
  set (q := n / d) in *. set (r := n mod d) in *. clearbody q r.
  assert (C : q = v \/ q + 1 = v) by nia.
  destruct (Z.ltb_spec (2 * r) d); [nia|]. destruct (Z.ltb_spec d (2 * r)); [nia|]. nia.
Qed.

Definition limit : Z := 8589934592000000.
Lemma million : whole_double false 1000000 = S754_finite false (Z.to_pos 8589934592000000) (-33).
Proof. vm_compute. reflexivity. Qed.
Lemma of_million : of_int 1000000 = S754_finite false (Z.to_pos 8589934592000000) (-33).
Proof. vm_compute. reflexivity. Qed.

Lemma quotient : forall v, 0 < v < limit ->
  exists M E, SFdiv 53 1024 (of_int v) (of_int 1000000) = S754_finite false M E /\ E < 0 /\
    2 * Z.abs (Zpos M * 1000000 - v * 2 ^ (- E)) < 2 ^ (- E).
Proof.
  intros v Hv. unfold limit in Hv. rewrite of_million.
  rewrite of_int_whole by lia. replace (v <? 0) with false by lia. rewrite Z.abs_eq by lia.
  unfold whole_double. replace (v =? 0) with false by lia.
  destruct (whole_mant_spec v ltac:(lia)) as [HM HL]. destruct (log2_53 v ltac:(lia)) as [LB LE].
  assert (L52 : Z.log2 v <= 52) by (destruct (Z.eq_dec (Z.log2 v) 53) as [C|C]; [apply LE in C|]; lia).
  unfold whole_exp. set (e1 := Z.log2 v - 52) in *. set (m1 := whole_mant v) in *.
  assert (He1 : -52 <= e1 <= 0) by lia.
  assert (Hm1 : Zpos m1 = v * 2 ^ (- e1)).
  { assert (2 * Zpos m1 = 2 * (v * 2 ^ (- e1))); [|lia]. rewrite HM.
    replace (53 - Z.log2 v) with (Z.succ (- e1)) by lia. rewrite Z.pow_succ_r by lia. ring. }
  destruct (SFdiv_spec false m1 e1 false (Z.to_pos 8589934592000000) (-33)) as [e [s [R X]]].
  cbv zeta in X. destruct X as [Ee [Es [Hs [He [HN HR]]]]].
  change (Z.pos (Z.to_pos 8589934592000000)) with 8589934592000000 in *.
  rewrite (zdigits_log (Zpos m1)), HL in Ee by lia. change (Zdigits2 8589934592000000) with 53 in Ee.
  assert (e = e1 - 20) as -> by lia. assert (s = 53) as -> by lia. clear Ee Es.
  assert (M1 : 2 ^ 52 <= Zpos m1 < 2 ^ 53) by (pose proof (Z.log2_spec (Zpos m1) ltac:(lia)) as S; rewrite HL in S; exact S).
  set (q := Zpos m1 * 2 ^ 53 / 8589934592000000) in *.
  assert (Qb : 2 ^ 52 <= q < 2 ^ 54).
  { split; [apply Z.div_le_lower_bound; lia|apply Z.div_lt_upper_bound; lia]. }
  assert (Qs : q < 2 ^ 53 \/ (2 ^ 53 <= q /\ e1 <= -1)).
  { destruct (Z.lt_ge_cases q (2 ^ 53)) as [C|C]; [left; exact C|right]. split; [exact C|].
    assert (G : 8589934592000000 <= Zpos m1).
    { destruct (Z.le_gt_cases 8589934592000000 (Zpos m1)) as [G|G]; [exact G|exfalso].
      assert (q < 2 ^ 53) by (apply Z.div_lt_upper_bound; lia). lia. }
    destruct (Z.eq_dec e1 0) as [Z0|Z0]; [|lia]. rewrite Z0 in Hm1. change (2 ^ (- 0)) with 1 in Hm1. lia. }
  set (t := Z.max (Zdigits2 q + (e1 - 20) - 53) (-1074) - (e1 - 20)) in *.
  assert (Ht : (t = 0 /\ q < 2 ^ 53) \/ (t = 1 /\ e1 <= -1 /\ 2 ^ 53 <= q)).
  { assert (Q0 : 0 < q) by lia. pose proof (zdigits_log q Q0) as Dq.
    destruct Qs as [C|[C D]].
    - left. assert (Z.log2 q = 52) by (apply Z.log2_unique; [lia|change (2 ^ Z.succ 52) with (2 ^ 53); lia]). unfold t. lia.
    - right. assert (Z.log2 q = 53) by (apply Z.log2_unique; [lia|change (2 ^ Z.succ 53) with (2 ^ 54); lia]). unfold t. lia. }
  assert (E0 : Z.max (Zdigits2 q + (e1 - 20) - 53) (-1074) = e1 - 20 + t) by (unfold t; lia).
  rewrite E0 in HR. rewrite HR. clearbody t. clear E0 He HR.
  destruct HN as [NR _].
  assert (B : 2 ^ 52 <= R <= 2 ^ 53).
  { assert (Dq := Z_div_mod_eq_full (Zpos m1 * 2 ^ 53) 8589934592000000). fold q in Dq.
    assert (Bq := Z.mod_pos_bound (Zpos m1 * 2 ^ 53) 8589934592000000 ltac:(lia)).
    destruct Ht as [[-> C]|[-> [_ C]]]; [change (2 ^ 0) with 1 in NR|change (2 ^ 1) with 2 in NR];
      clear - NR Qb C Dq Bq; lia. }
  set (E := e1 - 20 + t) in *. assert (HE : -80 <= E <= -20 /\ 2 ^ 20 <= 2 ^ (- E)).
  { split; [lia|]. apply Z.pow_le_mono_r; lia. }
  assert (A : 2 * Z.abs (R * 1000000 - v * 2 ^ (- E)) <= 1000000).
  { assert (X1 : R * (2 ^ t * 8589934592000000) - Z.pos m1 * 2 ^ 53 = 2 ^ (33 + t) * (R * 1000000 - v * 2 ^ (- E))).
    { rewrite Hm1. replace (2 ^ (33 + t)) with (2 ^ t * 8589934592) by (rewrite Z.add_comm, Z.pow_add_r by lia; reflexivity).
      replace (v * 2 ^ (- e1) * 2 ^ 53) with (v * 2 ^ (- E) * (2 ^ t * 8589934592)); [ring|].
      change 8589934592 with (2 ^ 33). rewrite <- !Z.mul_assoc. f_equal. rewrite <- !Z.pow_add_r by lia. f_equal. lia. }
    rewrite X1 in NR. rewrite Z.abs_mul in NR.
    assert (P : 0 < 2 ^ (33 + t)) by (apply Z.pow_pos_nonneg; lia). rewrite (Z.abs_eq (2 ^ (33 + t))) in NR by lia.
    replace (2 ^ t * 8589934592000000) with (2 ^ (33 + t) * 1000000) in NR.
    - clear - NR P. nia.
    - rewrite Z.add_comm, Z.pow_add_r by lia. change (2 ^ 33) with 8589934592. ring. }
  unfold pack. replace (R =? 0) with false by lia. destruct (Z.eqb_spec R (2 ^ 53)) as [ER|ER].
  - replace (E + 1 <=? 971) with true by lia. eexists. eexists. split; [reflexivity|]. split; [lia|].
    rewrite Z2Pos.id by lia. assert (Ep : 2 ^ (- E) = 2 * 2 ^ (- (E + 1))) by (rewrite <- Z.pow_succ_r by lia; f_equal; lia).
    rewrite Ep in *. rewrite ER in A. clear - A HE. destruct HE as [_ HE]. set (p := 2 ^ (- (E + 1))) in *. clearbody p. lia.
  - replace (E <=? 971) with true by lia. eexists. eexists. split; [reflexivity|]. split; [lia|].
    rewrite Z2Pos.id by lia. lia.
Qed.
Lemma quotient_text : forall v, 0 <= v < limit ->
  getString v = dec (v / 1000000) ++ lit "." ++ dec_digits 6 (v mod 1000000) ++ lit " ms".
Proof.
  intros v Hv. unfold getString. destruct (Z.eq_dec v 0) as [->|N]; [vm_compute; reflexivity|].
  destruct (quotient v ltac:(lia)) as [M [E [EQ [HE A]]]]. rewrite EQ. unfold print_f.
  replace (0 <=? E) with false by lia.
  rewrite (round_div_near _ _ v); [|apply Z.pow_pos_nonneg; lia|exact A]. unfold pad6.
  cbn [app]. rewrite <- !app_assoc. reflexivity.
Qed.
Lemma dec_digits_value : forall k n, 0 <= n < 10 ^ Z.of_nat k -> digits_value (dec_digits k n) = n.
Proof.
  induction k as [|k IH]; intros n Hn; [cbn in *; lia|].
  rewrite Nat2Z.inj_succ, Z.pow_succ_r in Hn by lia. cbn [dec_digits]. unfold digits_value in *.
  rewrite fold_left_app. rewrite IH; [|split; [apply Z.div_pos; lia|apply Z.div_lt_upper_bound; lia]].
  cbn [fold_left]. pose proof (Z.mod_pos_bound n 10 ltac:(lia)). unfold ch. rewrite N_ascii_embedding by lia.
  pose proof (Z_div_mod_eq_full n 10). lia.
Qed.
Lemma duration_text : forall v, 0 <= v < limit -> ms_text v (getString v).
Proof.
  intros v Hv. rewrite quotient_text by exact Hv. eexists. eexists. split; [reflexivity|].
  split; [apply dec_decimal|]. destruct (dec_digits_ok 6 (v mod 1000000)) as [F L].
  split; [exact L|]. split; [exact F|]. apply dec_digits_value. apply Z.mod_pos_bound. lia.
Qed.

(** *** Stack *)
Lemma run_app : forall a b s, run (a ++ b) s = obind (run a s) (fun '(o, s) => obind (run b s) (fun '(o2, s) => Ok (o ++ o2, s))).
Proof.
  induction a as [|c a IH]; intros b s; cbn [run app obind].
  - destruct (run b s) as [[o t]| | |]; reflexivity.
  - destruct (run1 c s) as [[o t]| | |]; cbn [obind]; try reflexivity. rewrite IH.
    destruct (run a t) as [[o2 t2]| | |]; cbn [obind]; try reflexivity.
    destruct (run b t2) as [[o3 t3]| | |]; cbn [obind]; try reflexivity. rewrite app_assoc. reflexivity.
Qed.

Lemma run1_stack : forall c s o s', run1 c s = Ok (o, s') ->
  stack s' = match c with Start now t => (now, t) :: stack s | GetEnd | EndLo _ => tl (stack s) | _ => stack s end /\
  (match c with GetEnd | EndLo _ => stack s <> [] | _ => True end).
Proof.
  intros [now t| |now|now g|now g|now g|now g] s o s' H; cbn [run1] in H.
  - injection H as <- <-. split; [reflexivity|exact I].
  - unfold getEndData in H. destruct (stack s) as [|d st] eqn:E; [discriminate|]. injection H as <- <-. split; [reflexivity|discriminate].
  - unfold endLo, getEndData in H. destruct (stack s) as [|d st] eqn:E; [discriminate|]. cbn [obind stack nested] in H.
    destruct (getDuration d now) as [ns| | |]; try discriminate. cbn [obind] in H.
    split; [|discriminate]. destruct st as [|d2 st], (nested s); injection H as <- <-; reflexivity.
  - injection H as <- <-. split; [reflexivity|exact I].
  - injection H as <- <-. split; [reflexivity|exact I].
  - unfold groupPause in H. destruct (i64 _) as [d| | |]; try discriminate. cbn [obind] in H.
    destruct (i64 _) as [d2| | |]; try discriminate. injection H as <- <-. split; [reflexivity|exact I].
  - injection H as <- <-. split; [reflexivity|exact I].
Qed.

Lemma run_snoc : forall cs c s o s', run (cs ++ [c]) s = Ok (o, s') ->
  exists o1 s1 o2, run cs s = Ok (o1, s1) /\ run1 c s1 = Ok (o2, s') /\ o = o1 ++ o2.
Proof.
  intros cs c s o s' H. rewrite run_app in H. destruct (run cs s) as [[o1 s1]| | |]; try discriminate. cbn [obind run] in H.
  destruct (run1 c s1) as [[o2 s2]| | |] eqn:E; try discriminate. cbn [obind] in H. injection H as <- <-.
  exists o1, s1, o2. rewrite app_nil_r. auto.
Qed.

Lemma stack_unfinished : forall h o s, run (rev h) fresh = Ok (o, s) ->
  length (stack s) = running h /\ forall n, nth_error (stack s) n = unfinished n h.
Proof.
  induction h as [|c h IH]; intros o s H.
  - cbn in H. injection H as <- <-. split; [reflexivity|]. intros [|n]; reflexivity.
  - cbn [rev] in H. apply run_snoc in H. destruct H as [o1 [s1 [o2 [H1 [H2 _]]]]].
    destruct (IH _ _ H1) as [L U]. apply run1_stack in H2. destruct H2 as [E N].
    destruct c; cbn [running unfinished]; rewrite E; try (split; [exact L|exact U]).
    + split; [cbn; congruence|]. intros [|n]; [reflexivity|exact (U n)].
    + destruct (stack s1) as [|d st]; [congruence|]. cbn in L |- *. split; [rewrite <- L; reflexivity|]. intros n. exact (U (S n)).
    + destruct (stack s1) as [|d st]; [congruence|]. cbn in L |- *. split; [rewrite <- L; reflexivity|]. intros n. exact (U (S n)).
Qed.

Lemma end_is_latest : forall h o s, run (rev h) fresh = Ok (o, s) ->
  match unfinished 0 h with
  | None => getEndData s = UB
  | Some d => exists s', getEndData s = Ok (d, s') /\ length (stack s') = pred (running h)
  end.
Proof.
  intros h o s H. destruct (stack_unfinished h o s H) as [L U]. specialize (U 0%nat). unfold getEndData.
  destruct (stack s) as [|d st]; cbn in U; rewrite <- U; [reflexivity|]. eexists. split; [reflexivity|]. cbn in *. rewrite <- L. reflexivity.
Qed.

Lemma report_line : forall h o s now o2 s', run (rev h) fresh = Ok (o, s) -> endLo now s = Ok (o2, s') ->
  exists from name rest, unfinished 0 h = Some (from, name) /\
    o2 = Title (lit "Benchmark #" ++ depth_mark (pred (running h)) ++ name) :: Insert (VStr (getString (now - from))) :: newline :: rest /\
    (rest = [] \/ (rest = [newline] /\ running h = 1%nat)).
Proof.
  intros h o s now o2 s' H HE. destruct (stack_unfinished h o s H) as [L U]. specialize (U 0%nat).
  unfold endLo, getEndData in HE. destruct (stack s) as [|[from name] st]; [discriminate|]. cbn in U, L.
  cbn [obind stack nested] in HE. unfold getDuration, i64 in HE. cbn [fst snd] in HE.
  destruct ((LONG_MIN <=? now - from) && (now - from <=? LONG_MAX)); [|discriminate]. cbn [obind] in HE.
  exists from, name. rewrite <- U, <- L. cbn [pred].
  destruct st as [|d st]; [destruct (nested s)|]; injection HE as <- <-; eexists; (split; [reflexivity|]);
    (split; [unfold depth_mark; cbn [length]; reflexivity|]); auto.
Qed.

(** *** Scopes *)
Lemma scope_ind2 : forall P : scope -> Prop,
  (forall n a b l, Forall P l -> P (Scope n a b l)) -> forall s, P s.
Proof.
  intros P H. fix IH 1. intros [n a b l]. apply H. induction l as [|x l IHl]; constructor; [apply IH|exact IHl].
Qed.

Lemma run_list : forall k l,
  Forall (fun x => timed x = true -> forall st ng gs, length st = S k ->
     exists ng', run (calls x) (mkBench st ng gs) = Ok (report (S k) x, mkBench st ng' gs) /\ ng' = true) l ->
  forallb timed l = true -> forall st ng gs, length st = S k ->
  run (flat_map calls l) (mkBench st ng gs) =
    Ok (flat_map (report (S k)) l, mkBench st (match l with [] => ng | _ => true end) gs).
Proof.
  intros k l F. induction F as [|x l Hx F IH]; intros Ht st ng gs Hs; [reflexivity|].
  cbn [forallb flat_map] in *. apply andb_true_iff in Ht. destruct Ht as [Ht1 Ht2].
  rewrite run_app. destruct (Hx Ht1 st ng gs Hs) as [ng' [E ->]]. rewrite E. cbn [obind].
  rewrite (IH Ht2 st true gs Hs). cbn [obind]. destruct l; reflexivity.
Qed.

Lemma in_range : forall a b, 0 <= a -> a <= b -> b <= LONG_MAX -> i64 (b - a) = Ok (b - a).
Proof.
  intros a b A B C. unfold i64. unfold LONG_MIN, LONG_MAX in *.
  match goal with |- (if ?x then _ else _) = _ => replace x with true by lia end. reflexivity.
Qed.

Lemma run_scope : forall x, timed x = true -> forall st ng gs k, length st = S k ->
  exists ng', run (calls x) (mkBench st ng gs) = Ok (report (S k) x, mkBench st ng' gs) /\ ng' = true.
Proof.
  induction x as [n a b l IH] using scope_ind2. intros Ht st ng gs k Hs. exists true. split; [|reflexivity].
  cbn [timed] in Ht. rewrite !andb_true_iff in Ht. destruct Ht as [[[A B] C] D].
  cbn [calls run run1 obind]. unfold start. cbn [stack nested groups].
  match goal with |- context [(1 <? ?x)%nat] => replace (1 <? x)%nat with true by (destruct st; [discriminate|reflexivity]) end.
  rewrite run_app. rewrite (run_list (S k) l).
  - cbn [obind run run1]. unfold endLo, getEndData. cbn [stack obind nested groups].
    unfold getDuration. cbn [fst snd]. rewrite in_range by lia. cbn [obind].
    destruct st as [|d st]; [discriminate|].
    replace (match l with [] => true | _ => true end) with true by (destruct l; reflexivity).
    cbn [obind app]. cbn [report]. rewrite <- Hs. cbn [length depth_mark app]. reflexivity.
  - eapply Forall_impl; [|exact IH]. intros y Hy Hty st2 ng2 gs2 Hs2. apply Hy; assumption.
  - exact D.
  - cbn [length]. congruence.
Qed.

Lemma run_top : forall x, timed x = true -> forall gs,
  run (calls x) (mkBench [] false gs) = Ok (report 0 x, mkBench [] false gs).
Proof.
  intros [n a b l] Ht gs. cbn [timed] in Ht. rewrite !andb_true_iff in Ht. destruct Ht as [[[A B] C] D].
  cbn [calls run run1 obind]. unfold start. cbn [stack nested groups length]. change (1 <? 1)%nat with false. cbn [obind].
  rewrite run_app. rewrite (run_list 0 l).
  - cbn [obind run run1]. unfold endLo, getEndData. cbn [stack obind nested groups].
    unfold getDuration. cbn [fst snd]. rewrite in_range by lia. cbn [obind].
    destruct l as [|y l]; cbn [obind app report depth_mark]; rewrite ?app_nil_r; reflexivity.
  - apply Forall_forall. intros y _ Hy st ng gs2 Hs. apply run_scope; assumption.
  - exact D.
  - reflexivity.
Qed.

Lemma scopes_report : forall l, forallb timed l = true ->
  run (flat_map calls l) fresh = Ok (flat_map (report 0) l, fresh).
Proof.
  unfold fresh. induction l as [|x l IH]; intros H; [reflexivity|]. cbn [forallb flat_map] in *.
  apply andb_true_iff in H. destruct H as [H1 H2]. rewrite run_app, run_top by exact H1. cbn [obind].
  rewrite IH by exact H2. reflexivity.
Qed.

(** *** Groups *)
Lemma run1_group : forall c s o s' g, run1 c s = Ok (o, s') ->
  let x := find_group g (groups s) in let y := find_group g (groups s') in
  match c with
  | Reset t k | EndGroup t k => if bytes_eqb k g then y = mkGroup t 0 else y = x
  | Resume t k => if bytes_eqb k g then y = mkGroup t (duration x) else y = x
  | Pause t k => if bytes_eqb k g then y = mkGroup (tp x) (duration x + (t - tp x)) else y = x
  | _ => y = x
  end.
Proof.
  intros [now t| |now|now k|now k|now k|now k] s o s' g H; cbn [run1] in H; cbv zeta.
  - injection H as <- <-. reflexivity.
  - unfold getEndData in H. destruct (stack s) as [|d st] eqn:E; [discriminate|]. injection H as <- <-. reflexivity.
  - unfold endLo, getEndData in H. destruct (stack s) as [|d st] eqn:E; [discriminate|]. cbn [obind stack nested] in H.
    destruct (getDuration d now) as [ns| | |]; try discriminate. cbn [obind] in H.
    destruct st as [|d2 st], (nested s); injection H as <- <-; reflexivity.
  - injection H as <- <-. cbn. destruct (bytes_eqb k g); reflexivity.
  - injection H as <- <-. cbn. destruct (bytes_eqb k g) eqn:E; [|reflexivity]. apply bytes_eqb_eq in E. subst. reflexivity.
  - unfold groupPause, i64 in H.
    destruct ((LONG_MIN <=? now - tp (find_group k (groups s))) && (now - tp (find_group k (groups s)) <=? LONG_MAX)); [|discriminate].
    cbn [obind] in H. destruct (_ && _); [|discriminate]. injection H as <- <-. cbn.
    destruct (bytes_eqb k g) eqn:E; [|reflexivity]. apply bytes_eqb_eq in E. subst. reflexivity.
  - injection H as <- <-. cbn. destruct (bytes_eqb k g); reflexivity.
Qed.

Lemma group_state : forall g h o s, run (rev h) fresh = Ok (o, s) ->
  find_group g (groups s) = mkGroup (since g h) (accumulated g h).
Proof.
  intros g. induction h as [|c h IH]; intros o s H.
  - cbn in H. injection H as <- <-. reflexivity.
  - cbn [rev] in H. apply run_snoc in H. destruct H as [o1 [s1 [o2 [H1 [H2 _]]]]].
    specialize (IH _ _ H1). apply (run1_group c s1 o2 s g) in H2. cbv zeta in H2. rewrite IH in H2.
    destruct c; cbn [since accumulated]; try exact H2; destruct (bytes_eqb _ g); exact H2.
Qed.

Lemma group_line : forall cs g now o s, run (cs ++ [EndGroup now g]) fresh = Ok (o, s) ->
  exists o1 s1, run cs fresh = Ok (o1, s1) /\ o = o1 ++ group_report g (accumulated g (rev cs)).
Proof.
  intros cs g now o s H. apply run_snoc in H. destruct H as [o1 [s1 [o2 [H1 [H2 ->]]]]].
  exists o1, s1. split; [exact H1|]. cbn [run1] in H2. unfold groupEndLo in H2. injection H2 as <- <-.
  pose proof H1 as G. rewrite <- (rev_involutive cs) in G. apply (group_state g) in G. rewrite G. reflexivity.
Qed.

Lemma since_filter : forall g h, since g h = since g (filter (concerns g) h).
Proof.
  induction h as [|c h IH]; [reflexivity|]. destruct c; cbn [filter concerns]; try (cbn [since]; exact IH);
    cbn [since]; destruct (bytes_eqb g0 g) eqn:E; cbn [since]; rewrite ?E; auto.
Qed.
Lemma accumulated_filter : forall g h, accumulated g h = accumulated g (filter (concerns g) h).
Proof.
  induction h as [|c h IH]; [reflexivity|]. destruct c; cbn [filter concerns]; try (cbn [accumulated]; exact IH);
    cbn [accumulated]; destruct (bytes_eqb g0 g) eqn:E; cbn [accumulated]; rewrite ?E; auto.
  rewrite <- since_filter. congruence.
Qed.
Lemma filter_rev : forall A (f : A -> bool) l, filter f (rev l) = rev (filter f l).
Proof.
  induction l as [|x l IH]; [reflexivity|]. cbn. rewrite filter_app, IH. cbn. destruct (f x); [reflexivity|apply app_nil_r].
Qed.
Lemma same_group : forall g : bytes, bytes_eqb g g = true.
Proof. intros g. apply bytes_eqb_eq. reflexivity. Qed.

Lemma alternate_total : forall g l h, accumulated g (rev (alternate g l) ++ h) = accumulated g h + total l.
Proof.
  intros g. induction l as [|[a b] l IH] using rev_ind; intros h; [cbn; lia|].
  unfold alternate in *. rewrite flat_map_app, rev_app_distr. cbn [flat_map app rev fst snd].
  cbn [accumulated since]. rewrite same_group. cbn [accumulated]. rewrite IH.
  unfold total. rewrite fold_right_app. cbn [fold_right fst snd].
  assert (G : forall l z, fold_right (fun (p : Z * Z) s => snd p - fst p + s) z l = fold_right (fun (p : Z * Z) s => snd p - fst p + s) 0 l + z).
  { clear. induction l as [|p l IH]; intros z; cbn [fold_right]; [lia|]. rewrite IH. lia. }
  rewrite (G l (b - a + 0)). lia.
Qed.

Lemma group_alternating : forall g before t cs l now o s,
  filter (concerns g) cs = alternate g l ->
  run (before ++ Reset t g :: cs ++ [EndGroup now g]) fresh = Ok (o, s) ->
  exists o1, o = o1 ++ group_report g (total l).
Proof.
  intros g before t cs l now o s F H.
  replace (before ++ Reset t g :: cs ++ [EndGroup now g]) with ((before ++ Reset t g :: cs) ++ [EndGroup now g]) in H
    by (rewrite <- app_assoc; reflexivity).
  apply group_line in H. destruct H as [o1 [s1 [_ ->]]]. exists o1. f_equal. f_equal.
  rewrite rev_app_distr. cbn [rev]. rewrite <- app_assoc. rewrite accumulated_filter. rewrite !filter_app, filter_rev, F.
  rewrite alternate_total. cbn [app filter concerns]. rewrite same_group. cbn [app accumulated]. rewrite same_group. reflexivity.
Qed.

Lemma nested_group : forall g a b c d,
  accumulated g (rev [Reset 0 g; Resume a g; Resume b g; Pause c g; Pause d g]) = (c - b) + (d - b).
Proof. intros. cbn [rev app accumulated since]. rewrite same_group. lia. Qed.
Lemma pause_first : forall g t, 0 <= t <= LONG_MAX ->
  exists s, run [Pause t g; EndGroup t g] fresh = Ok (group_report g t, s).
Proof.
  intros g t H. cbn [run run1]. unfold groupPause. cbn [find_group groups fresh tp duration].
  rewrite in_range by lia. cbn [obind].
  replace (0 + (t - 0)) with (t - 0) by lia. rewrite in_range by lia. cbn [obind].
  unfold groupEndLo, set_group. cbn [groups find_group]. rewrite same_group. cbn [duration obind app].
  rewrite Z.sub_0_r. eexists. reflexivity.
Qed.
