(** Lemmas about obfuscated values. *)
From Coq Require Import String Ascii ZArith NArith Arith Bool Lia List.
From Coq Require Import ZifyBool ZifyNat ZifyN.
From Verif Require Import Common ListAux Base64Model Base64Spec Base64Proofs
  IntToStrModel IntToStrSpec IntToStrProofs ObfModel ObfSpec.
Import ListNotations.
Local Open Scope Z_scope.

Lemma is_digit_isdigit : forall c, is_digit c -> isdigit c = true.
Proof. intros c H. unfold is_digit, isdigit in *. lia. Qed.

Lemma read_digits_value : forall s acc, Forall is_digit s ->
  read_digits acc s = fold_left (fun acc c => 10 * acc + (Z.of_N (N_of_ascii c) - 48)) s acc.
Proof.
  induction s as [|c s IH]; intros acc H; [reflexivity|].
  inversion H; subst. cbn [read_digits fold_left]. rewrite is_digit_isdigit by assumption.
  apply IH. assumption.
Qed.

Lemma digit_not_special : forall c, is_digit c ->
  isspace c = false /\ Ascii.eqb c "-" = false /\ Ascii.eqb c "+" = false.
Proof.
  intros c H. unfold is_digit in H. repeat split.
  - unfold isspace. lia.
  - apply Ascii.eqb_neq. intros ->. cbn in H. lia.
  - apply Ascii.eqb_neq. intros ->. cbn in H. lia.
Qed.

Lemma fromStr_decimal : forall t n s, decimal n s -> t_min t <= n <= t_max t -> fromStr t s = n.
Proof.
  intros t n s Hd Hr. destruct Hd as [[H0 (Hne & Hdig & _ & Hv)]|[H0 (u & -> & (Hne & Hdig & _ & Hv))]].
  - destruct s as [|c s]; [contradiction|]. unfold fromStr. 
    inversion Hdig; subst.
    destruct (digit_not_special c) as (E1 & E2 & E3); [assumption|].
    cbn [skip_ws]. rewrite E1, E2, E3.
    rewrite read_digits_value by assumption.
    unfold digits_value in *. unfold clamp_to. lia.
  - unfold fromStr. cbn [skip_ws isspace]. 
    change (isspace "-") with false. cbv iota. rewrite Ascii.eqb_refl.
    rewrite read_digits_value by assumption. unfold digits_value in Hv. rewrite Hv.
    unfold clamp_to. lia.
Qed.

Lemma numeral_bound : forall s n, numeral n s -> n < 10 ^ Z.of_nat (length s).
Proof.
  intros s n (_ & Hd & _ & Hv). rewrite <- Hv. clear n Hv. unfold digits_value.
  induction s as [|c s IH] using rev_ind; [cbn; lia|].
  apply Forall_app in Hd. destruct Hd as [Hs Hc]. inversion Hc as [|? ? Hc' _]; subst.
  specialize (IH Hs). rewrite digits_value_app. cbn [fold_left]. unfold is_digit in Hc'.
  rewrite app_length. cbn [length]. replace (Z.of_nat (length s + 1)) with (Z.succ (Z.of_nat (length s))) by lia.
  rewrite Z.pow_succ_r by lia. lia.
Qed.

Definition fits_t (t : inttype) (v : Z) : Prop :=
  t_min t <= v <= t_max t /\ fits (t_digits10 t) v.

Lemma result_length : forall buf n s, conv buf n = Ok s -> (length s <= length buf)%nat.
Proof.
  assert (R : forall b it s, result b it = Ok s -> (length s <= length b)%nat).
  { intros b it s H. unfold result in H. destruct (_ && _); [|discriminate].
    injection H as <-. rewrite skipn_length. lia. }
  assert (S1 : forall b it c b', store b it c = Ok b' -> length b' = length b).
  { intros b it c b' H. unfold store in H.
    destruct ((0 <=? it) && (it <? Z.of_nat (length b))) eqn:E; [|discriminate].
    assert (Hb' : b' = firstn (Z.to_nat it) b ++ c :: skipn (S (Z.to_nat it)) b) by congruence.
    rewrite Hb', app_length, firstn_length, len_cons, skipn_length. lia. }
  assert (M : forall b it k b', memcpy2 b it k = Ok b' -> length b' = length b).
  { intros b it k b' H. unfold memcpy2 in H. destruct (k <? 0); [discriminate|].
    destruct (nth_error digits (Z.to_nat k)); [|discriminate].
    destruct (nth_error digits (Z.to_nat (k + 1))); [|discriminate].
    destruct (store b it a) eqn:E; cbn [obind] in H; try discriminate.
    apply S1 in H. apply S1 in E. congruence. }
  assert (P : forall fuel sgn b it v b' it' v', pairs fuel sgn b it v = Ok (b', it', v') -> length b' = length b).
  { induction fuel as [|fuel IH]; intros sgn b it v b' it' v' H; [discriminate|].
    rewrite pairs_step in H. destruct (Z.quot v 100 =? 0); [injection H; congruence|].
    destruct (memcpy2 b it _) eqn:E; cbn [obind] in H; try discriminate.
    apply IH in H. apply M in E. congruence. }
  intros buf n s H. unfold conv in H. destruct (0 <=? n).
  - unfold conv_nonneg in H. cbv zeta in H.
    destruct (pairs _ _ _ _ _) as [[[b it] v]| | | ] eqn:E; cbn [obind] in H; try discriminate.
    destruct (memcpy2 _ _ _) eqn:E2; cbn [obind] in H; try discriminate.
    apply P in E. apply M in E2. apply R in H. lia.
  - unfold conv_neg in H. cbv zeta in H.
    destruct (pairs _ _ _ _ _) as [[[b it] v]| | | ] eqn:E; cbn [obind] in H; try discriminate.
    destruct (memcpy2 _ _ _) eqn:E2; cbn [obind] in H; try discriminate.
    destruct (store _ _ _) eqn:E3; cbn [obind] in H; try discriminate.
    apply P in E. apply M in E2. apply S1 in E3. apply R in H. lia.
Qed.

Lemma set_get : forall t buf v, In t all_types -> length buf = t_digits10 t -> fits_t t v ->
  exists o, obf_set t buf v = Ok o /\ obf_get t o = Ok v.
Proof.
  intros t buf v Ht Hb [Hr Hf].
  destruct (conv_types t buf v Ht Hb) as [H _]. destruct (H Hf) as (s & E & Hd).
  unfold obf_set. rewrite E. cbn [obind].
  assert (L : (length s <= 19)%nat).
  { apply result_length in E. rewrite Hb in E.
    cbn in Ht. repeat (destruct Ht as [<-|Ht]; [cbn in *; lia|]). contradiction. }
  pose proof (roundtrip s ltac:(lia)) as R.
  destruct (Base64Encode s) as [o| | | ]; cbn [obind] in R; try discriminate.
  exists o. split; [reflexivity|]. unfold obf_get. rewrite R. cbn [obind]. f_equal.
  apply fromStr_decimal; assumption.
Qed.

Lemma set_ub : forall t buf v, In t all_types -> length buf = t_digits10 t -> ~ fits (t_digits10 t) v ->
  obf_set t buf v = UB.
Proof.
  intros t buf v Ht Hb Hf. destruct (conv_types t buf v Ht Hb) as [_ H].
  unfold obf_set. rewrite (H Hf). reflexivity.
Qed.

Lemma run_same : forall t h v o vs, In t all_types ->
  Forall (fun x : obf_op * bytes => length (snd x) = t_digits10 t) h ->
  obf_get t o = Ok v ->
  plain_run t v (map fst h) = Ok vs -> Forall (fits_t t) vs ->
  exists ws, vs = v :: ws /\ obf_run t o h = Ok ws.
Proof.
  intros t h. induction h as [|[op buf] h IH]; intros v o vs Ht Hb Hg Hp Hf.
  - cbn in Hp. injection Hp as <-. exists []. split; reflexivity.
  - inversion Hb as [|? ? Hb1 Hb2]; subst. cbn [snd] in Hb1. cbn [map fst plain_run] in Hp.
    assert (Hstep : exists v' vs', plain_run t v' (map fst h) = Ok vs' /\ vs = v :: vs' /\
        exists o', obf_step t buf o op = Ok o' /\ obf_get t o' = Ok v').
    { destruct op as [w|b w].
      - destruct (plain_run t w (map fst h)) as [vs'| | | ] eqn:E; cbn [obind] in Hp; try discriminate.
        injection Hp as <-. exists w, vs'. split; [exact E|]. split; [reflexivity|].
        cbn [obf_step]. apply set_get; [assumption|assumption|].
        inversion Hf as [|? ? _ Hf']; subst.
        destruct h as [|[op2 b2] h].
        + cbn in E. injection E as <-. inversion Hf'. assumption.
        + cbn [map fst plain_run] in E. destruct op2.
          * destruct (plain_run t v0 _); cbn [obind] in E; try discriminate.
            injection E as <-. inversion Hf'. assumption.
          * destruct (machine_op t o0 w v0); cbn [obind] in E; try discriminate.
            destruct (plain_run t a _); cbn [obind] in E; try discriminate.
            injection E as <-. inversion Hf'. assumption.
      - destruct (machine_op t b v w) as [v'| | | ] eqn:Em; cbn [obind] in Hp; try discriminate.
        destruct (plain_run t v' (map fst h)) as [vs'| | | ] eqn:E; cbn [obind] in Hp; try discriminate.
        injection Hp as <-. exists v', vs'. split; [exact E|]. split; [reflexivity|].
        cbn [obf_step]. rewrite Hg. cbn [obind]. rewrite Em. cbn [obind].
        apply set_get; [assumption|assumption|].
        inversion Hf as [|? ? _ Hf']; subst.
        destruct h as [|[op2 b2] h].
        + cbn in E. injection E as <-. inversion Hf'. assumption.
        + cbn [map fst plain_run] in E. destruct op2.
          * destruct (plain_run t v0 _); cbn [obind] in E; try discriminate.
            injection E as <-. inversion Hf'. assumption.
          * destruct (machine_op t o0 v' v0); cbn [obind] in E; try discriminate.
            destruct (plain_run t a _); cbn [obind] in E; try discriminate.
            injection E as <-. inversion Hf'. assumption. }
    destruct Hstep as (v' & vs' & E & -> & o' & E1 & E2).
    inversion Hf as [|? ? _ Hf']; subst.
    destruct (IH v' o' vs' Ht Hb2 E2 E Hf') as (ws & -> & R).
    exists (v' :: ws). split; [reflexivity|]. cbn [obf_run].
    rewrite E1. cbn [obind]. rewrite E2. cbn [obind]. rewrite R. reflexivity.
Qed.

Lemma start_same : forall t buf v h vs, In t all_types -> length buf = t_digits10 t ->
  Forall (fun x : obf_op * bytes => length (snd x) = t_digits10 t) h ->
  plain_run t v (map fst h) = Ok vs -> Forall (fits_t t) vs ->
  obf_start t buf v h = Ok vs.
Proof.
  intros t buf v h vs Ht Hb Hh Hp Hf.
  assert (Hv : exists ws, vs = v :: ws).
  { destruct h as [|[op b] h]; cbn in Hp; [injection Hp as <-; eexists; reflexivity|].
    destruct op as [w|o w].
    - destruct (plain_run t w _); cbn in Hp; try discriminate. injection Hp as <-. eexists; reflexivity.
    - destruct (machine_op t o v w); cbn in Hp; try discriminate.
      destruct (plain_run t a _); cbn in Hp; try discriminate. injection Hp as <-. eexists; reflexivity. }
  destruct Hv as (ws & ->). inversion Hf as [|? ? Hfv _]; subst.
  destruct (set_get t buf v Ht Hb Hfv) as (o & E1 & E2).
  destruct (run_same t h v o _ Ht Hh E2 Hp Hf) as (ws' & E & R). injection E as ->.
  unfold obf_start. rewrite E1. cbn [obind]. rewrite E2. cbn [obind]. rewrite R. reflexivity.
Qed.

(** The fitting condition is exactly the printable interval of the type. *)
Lemma start_ranges : Forall (fun '(t, lo, hi) => forall buf v h vs,
    length buf = t_digits10 t ->
    Forall (fun x : obf_op * bytes => length (snd x) = t_digits10 t) h ->
    plain_run t v (map fst h) = Ok vs ->
    Forall (fun v => t_min t <= v <= t_max t /\ lo < v < hi) vs ->
    obf_start t buf v h = Ok vs) safe_ranges.
Proof.
  eapply Forall_impl; [|exact ranges_exact].
  intros [[t lo] hi] [Ht H] buf v h vs Hb Hh Hp Hf.
  apply start_same; try assumption.
  eapply Forall_impl; [|exact Hf]. intros x [Hx1 Hx2]. split; [exact Hx1|].
  apply (H x Hx1). exact Hx2.
Qed.

Lemma set_out_of_range : Forall (fun '(t, lo, hi) => forall buf v,
    length buf = t_digits10 t -> t_min t <= v <= t_max t -> ~ lo < v < hi ->
    obf_set t buf v = UB) safe_ranges.
Proof.
  eapply Forall_impl; [|exact ranges_exact].
  intros [[t lo] hi] [Ht H] buf v Hb Hr Hn. apply set_ub; try assumption.
  rewrite <- (H v Hr). exact Hn.
Qed.

(** What the operators of the type give. *)
Lemma wrap_is : forall t z, t_min t <= t_max t -> t_min t <= wrap t z <= t_max t /\ exists k, wrap t z = z + k * (t_max t - t_min t + 1).
Proof.
  intros t z H. unfold wrap. pose proof (Z.mod_pos_bound (z - t_min t) (t_max t - t_min t + 1) ltac:(lia)) as Hb. split; [lia|].
  exists (- ((z - t_min t) / (t_max t - t_min t + 1))). pose proof (Z.div_mod (z - t_min t) (t_max t - t_min t + 1) ltac:(lia)). lia.
Qed.
Lemma machine_arith : Forall (fun '(t, lo, hi) => forall o a b, t_min t <= a <= t_max t -> t_min t <= b <= t_max t ->
    let exact := match o with Add => a + b | Sub => a - b | Mul => a * b | Div => Z.quot a b end in
    let undefined := o = Div /\ b = 0 \/ In t [t_int; t_long] /\ ~ t_min t <= exact <= t_max t \/
      In t [t_short; t_ushort] /\ ~ -2147483648 <= exact <= 2147483647 in
    (undefined -> machine_op t o a b = UB) /\
    (~ undefined -> exists z, machine_op t o a b = Ok z /\ t_min t <= z <= t_max t /\ exists k, z = exact + k * (t_max t - t_min t + 1))) safe_ranges.
Proof.
  assert (HD : forall t, In t [t_short; t_ushort; t_int; t_uint; t_long; t_ulong] -> forall o a b,
    let undefined := o = Div /\ b = 0 \/ In t [t_int; t_long] /\ ~ t_min t <= exact_op o a b <= t_max t \/
      In t [t_short; t_ushort] /\ ~ -2147483648 <= exact_op o a b <= 2147483647 in
    (undefined -> machine_op t o a b = UB) /\
    (~ undefined -> exists z, machine_op t o a b = Ok z /\ t_min t <= z <= t_max t /\ exists k, z = exact_op o a b + k * (t_max t - t_min t + 1))).
  { intros t Ht o a b. unfold machine_op, in_type. cbv zeta. generalize (exact_op o a b). intros e.
    destruct ((match o with Div => true | _ => false end) && (b =? 0)) eqn:E0.
    { split; [reflexivity|]. intros H. exfalso. apply H. left. destruct o; try discriminate. split; [reflexivity|]. apply Z.eqb_eq. exact E0. }
    assert (Hn : ~ (o = Div /\ b = 0)) by (intros [-> ->]; discriminate).
    assert (Hm : t_min t <= t_max t) by (destruct Ht as [<-|[<-|[<-|[<-|[<-|[<-|[]]]]]]]; vm_compute; discriminate).
    pose proof (wrap_is t e Hm) as Hw.
    assert (Hk : In t [t_short; t_ushort] /\ (t_digits10 t =? 4)%nat = true \/ In t [t_int; t_long] /\ (t_digits10 t =? 4)%nat = false /\ (t_min t =? 0) = false \/ In t [t_uint; t_ulong] /\ (t_digits10 t =? 4)%nat = false /\ (t_min t =? 0) = true).
    { destruct Ht as [<-|[<-|[<-|[<-|[<-|[<-|[]]]]]]]; cbn [In]; tauto. }
    assert (Hd : (In t [t_short; t_ushort] -> ~ In t [t_int; t_long]) /\ (In t [t_uint; t_ulong] -> ~ In t [t_int; t_long] /\ ~ In t [t_short; t_ushort])).
    { destruct Ht as [<-|[<-|[<-|[<-|[<-|[<-|[]]]]]]]; cbn [In]; (split; [intros H1 H2|intros H1; split; intros H2]); repeat match goal with H : _ \/ _ |- _ => destruct H end; try discriminate; contradiction. }
    destruct Hk as [[Hk E4]|[(Hk & E4 & E5)|(Hk & E4 & E5)]]; rewrite E4; try rewrite E5.
    - change (t_min t_int) with (-2147483648). change (t_max t_int) with 2147483647.
      destruct ((-2147483648 <=? e) && (e <=? 2147483647)) eqn:E1.
      + split; [|eauto]. intros [H|[[H _]|[_ H]]]; exfalso; [tauto|exact (proj1 Hd Hk H)|]. apply andb_true_iff in E1. destruct E1 as [E1 E2]. apply Z.leb_le in E1. apply Z.leb_le in E2. lia.
      + split; [reflexivity|]. intros H. exfalso. apply H. right. right. split; [exact Hk|]. apply andb_false_iff in E1. destruct E1 as [E1|E1]; apply Z.leb_gt in E1; lia.
    - destruct ((t_min t <=? e) && (e <=? t_max t)) eqn:E1.
      + apply andb_true_iff in E1. destruct E1 as [E1 E2]. apply Z.leb_le in E1. apply Z.leb_le in E2.
        split; [|intros _; exists e; split; [reflexivity|]; split; [lia|]; exists 0; lia]. intros [H|[[_ H]|[H _]]]; exfalso; [tauto|lia|exact (proj1 Hd H Hk)].
      + split; [reflexivity|]. intros H. exfalso. apply H. right. left. split; [exact Hk|]. apply andb_false_iff in E1. destruct E1 as [E1|E1]; apply Z.leb_gt in E1; lia.
    - split; [|eauto]. intros [H|[[H _]|[H _]]]; exfalso; destruct (proj2 Hd Hk) as [Hx Hy]; tauto. }
  unfold safe_ranges. repeat (constructor; [intros o a b _ _; apply HD; cbn [In]; tauto|]). constructor.
Qed.
