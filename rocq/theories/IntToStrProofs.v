(** Lemmas about the integer to string conversion. *)
From Coq Require Import String Ascii ZArith NArith Arith Bool Lia List.
From Coq Require Import ZifyBool ZifyNat ZifyN.
From Verif Require Import Common ListAux IntToStrModel IntToStrSpec.
Import ListNotations.
Local Open Scope Z_scope.
Ltac Zify.zify_post_hook ::= Z.div_mod_to_equations.

Definition dchar (k : Z) : ascii := ascii_of_N (Z.to_N (48 + k)).

Lemma table_ok : forall k, 0 <= k < 100 ->
  nth_error digits (Z.to_nat (2 * k)) = Some (dchar (k / 10)) /\
  nth_error digits (Z.to_nat (2 * k + 1)) = Some (dchar (k mod 10)).
Proof.
  intros k Hk.
  set (chk := fun k => match nth_error digits (Z.to_nat (2 * k)), nth_error digits (Z.to_nat (2 * k + 1)) with
     | Some a, Some b => Ascii.eqb a (dchar (k / 10)) && Ascii.eqb b (dchar (k mod 10))
     | _, _ => false end).
  assert (H : forallb chk (map Z.of_nat (seq 0 100)) = true) by (vm_compute; reflexivity).
  rewrite forallb_forall in H.
  assert (Hin : In k (map Z.of_nat (seq 0 100))).
  { apply in_map_iff. exists (Z.to_nat k). split; [lia|]. apply in_seq. lia. }
  specialize (H k Hin). unfold chk in H.
  destruct (nth_error digits (Z.to_nat (2 * k))), (nth_error digits (Z.to_nat (2 * k + 1)));
    try discriminate.
  apply andb_true_iff in H. destruct H as [H1 H2].
  apply Ascii.eqb_eq in H1. apply Ascii.eqb_eq in H2. subst. split; reflexivity.
Qed.

Lemma dchar_digit : forall k, 0 <= k < 10 -> is_digit (dchar k) /\ Z.of_N (N_of_ascii (dchar k)) = 48 + k.
Proof.
  intros k Hk. unfold is_digit, dchar. rewrite N_ascii_embedding by lia. rewrite Z2N.id by lia.
  split; [split|]; lia.
Qed.

Lemma dchar_zero : forall k, 0 <= k < 10 -> dchar k = "0"%char -> k = 0.
Proof.
  intros k Hk E. pose proof (dchar_digit k Hk) as [_ H]. rewrite E in H.
  change (Z.of_N (N_of_ascii "0"%char)) with 48 in H. lia.
Qed.

Lemma len_cons : forall {A} (c : A) l, length (c :: l) = S (length l).
Proof. reflexivity. Qed.

(** Buffer with a prefix of [n] cells and a known suffix. *)
Definition has_suffix (buf : bytes) (n : Z) (suf : bytes) : Prop :=
  0 <= n /\ skipn (Z.to_nat n) buf = suf /\ Z.of_nat (length buf) = n + Z.of_nat (length suf).

Lemma store_suffix : forall buf n suf c, has_suffix buf n suf -> 0 < n ->
  exists b', store buf (n - 1) c = Ok b' /\ has_suffix b' (n - 1) (c :: suf) /\ length b' = length buf.
Proof.
  intros buf n suf c (H0 & H1 & H2) Hn. unfold store.
  rewrite (proj2 (Z.leb_le _ _)) by lia. rewrite (proj2 (Z.ltb_lt _ _)) by lia. cbn [andb].
  eexists. split; [reflexivity|].
  assert (L : length (firstn (Z.to_nat (n - 1)) buf) = Z.to_nat (n - 1))
    by (rewrite firstn_length; lia).
  replace (S (Z.to_nat (n - 1))) with (Z.to_nat n) by lia. rewrite H1.
  split.
  - split; [lia|]. split.
    + rewrite skipn_app, L, Nat.sub_diag, skipn_O.
      rewrite skipn_all2 by lia. reflexivity.
    + rewrite app_length, L. cbn [length]. lia.
  - rewrite app_length, L. cbn [length]. lia.
Qed.

(** Two-character store in front of a suffix. *)
Lemma store2_suffix : forall buf n suf c0 c1, has_suffix buf n suf -> 2 <= n ->
  exists b', obind (store buf (n - 2) c0) (fun b => store b (n - 2 + 1) c1) = Ok b' /\
    has_suffix b' (n - 2) (c0 :: c1 :: suf) /\ length b' = length buf.
Proof.
  intros buf n suf c0 c1 (H0 & H1 & H2) Hn.
  assert (Hfirst : exists b1, store buf (n - 2) c0 = Ok b1 /\ length b1 = length buf /\
     nth_error b1 (Z.to_nat (n - 2)) = Some c0 /\ skipn (Z.to_nat n) b1 = suf).
  { unfold store. rewrite (proj2 (Z.leb_le _ _)) by lia. rewrite (proj2 (Z.ltb_lt _ _)) by lia.
    cbn [andb]. eexists. split; [reflexivity|].
    assert (L : length (firstn (Z.to_nat (n - 2)) buf) = Z.to_nat (n - 2))
      by (rewrite firstn_length; lia).
    repeat split.
    - rewrite app_length, L, len_cons, skipn_length. lia.
    - rewrite nth_error_app2 by lia. rewrite L, Nat.sub_diag. reflexivity.
    - rewrite skipn_app, L. rewrite skipn_all2 by lia. cbn [app].
      replace (Z.to_nat n - Z.to_nat (n - 2))%nat with 2%nat by lia.
      change (skipn 2 (c0 :: skipn (S (Z.to_nat (n - 2))) buf))
        with (skipn 1 (skipn (S (Z.to_nat (n - 2))) buf)).
      rewrite skipn_skipn. rewrite <- H1. f_equal. lia. }
  destruct Hfirst as (b1 & E1 & L1 & N1 & S1).
  rewrite E1. cbn [obind].
  destruct (store_suffix b1 n suf c1) as (b2 & E2 & (A1 & A2 & A3) & L2); [|lia|].
  { split; [lia|]. split; [exact S1|lia]. }
  replace (n - 2 + 1) with (n - 1) by lia.
  exists b2. split; [exact E2|]. split; [|lia].
  split; [lia|]. split; [|cbn [length] in *; lia].
  assert (N2 : nth_error b2 (Z.to_nat (n - 2)) = Some c0).
  { unfold store in E2.
    rewrite (proj2 (Z.leb_le _ _)) in E2 by lia. rewrite (proj2 (Z.ltb_lt _ _)) in E2 by lia.
    cbn [andb] in E2. injection E2 as <-.
    rewrite nth_error_app1 by (rewrite firstn_length; lia).
    rewrite <- N1. rewrite <- (firstn_skipn (Z.to_nat (n - 1)) b1) at 2.
    rewrite nth_error_app1 by (rewrite firstn_length; lia). reflexivity. }
  assert (G : forall (l : bytes) k x, nth_error l k = Some x -> skipn k l = x :: skipn (S k) l).
  { induction l as [|y l IH]; intros [|k] x H; cbn in H; try discriminate.
    - injection H as ->. reflexivity.
    - cbn [skipn]. rewrite (IH k x H). reflexivity. }
  rewrite (G _ _ _ N2). f_equal.
  replace (S (Z.to_nat (n - 2))) with (Z.to_nat (n - 1)) by lia. exact A2.
Qed.

Lemma store_ub : forall buf it c, it < 0 -> store buf it c = UB.
Proof.
  intros. unfold store. rewrite (proj2 (Z.leb_gt _ _)) by lia. reflexivity.
Qed.

Lemma memcpy2_ok : forall buf n suf k, has_suffix buf n suf -> 2 <= n -> 0 <= k < 100 ->
  exists b', memcpy2 buf (n - 2) (2 * k) = Ok b' /\
    has_suffix b' (n - 2) (dchar (k / 10) :: dchar (k mod 10) :: suf) /\ length b' = length buf.
Proof.
  intros buf n suf k Hs Hn Hk. unfold memcpy2.
  rewrite (proj2 (Z.ltb_ge _ _)) by lia.
  destruct (table_ok k Hk) as [-> ->]. apply store2_suffix; assumption.
Qed.

Lemma memcpy2_ub : forall buf it k, it < 0 -> memcpy2 buf it k = UB.
Proof.
  intros buf it k H. unfold memcpy2. destruct (k <? 0); [reflexivity|].
  destruct (nth_error digits (Z.to_nat k)); [|reflexivity].
  destruct (nth_error digits (Z.to_nat (k + 1))); [|reflexivity].
  rewrite store_ub by exact H. reflexivity.
Qed.

(** ** Numerals. *)
Lemma digits_value_app : forall s t acc,
  fold_left (fun acc c => 10 * acc + (Z.of_N (N_of_ascii c) - 48)) (s ++ t) acc =
  fold_left (fun acc c => 10 * acc + (Z.of_N (N_of_ascii c) - 48)) t
    (fold_left (fun acc c => 10 * acc + (Z.of_N (N_of_ascii c) - 48)) s acc).
Proof. intros. apply fold_left_app. Qed.

Lemma numeral_small1 : forall k, 0 <= k < 10 -> numeral k [dchar k].
Proof.
  intros k Hk. pose proof (dchar_digit k Hk) as [D V].
  repeat split.
  - discriminate.
  - repeat constructor; apply D.
  - cbn [hd]. congruence.
  - unfold digits_value. cbn [fold_left]. lia.
Qed.

Lemma numeral_snoc : forall n s k, numeral n s -> 0 < n -> 0 <= k < 10 ->
  numeral (10 * n + k) (s ++ [dchar k]).
Proof.
  intros n s k (Hne & Hd & Hz & Hv) Hn Hk. pose proof (dchar_digit k Hk) as [D V].
  repeat split.
  - destruct s; discriminate.
  - apply Forall_app. split; [exact Hd|]. repeat constructor; apply D.
  - destruct s as [|c s]; [contradiction|]. cbn [app hd] in *. intros E.
    specialize (Hz E). injection Hz as -> ->. cbn in Hv. lia.
  - unfold digits_value in *. rewrite digits_value_app, Hv. cbn [fold_left]. lia.
Qed.

Lemma numeral_pair : forall n s k, numeral n s -> 0 < n -> 0 <= k < 100 ->
  numeral (100 * n + k) (s ++ [dchar (k / 10); dchar (k mod 10)]).
Proof.
  intros n s k H Hn Hk.
  replace (s ++ [dchar (k / 10); dchar (k mod 10)]) with ((s ++ [dchar (k / 10)]) ++ [dchar (k mod 10)])
    by (rewrite <- app_assoc; reflexivity).
  replace (100 * n + k) with (10 * (10 * n + k / 10) + k mod 10) by lia.
  apply numeral_snoc; [|lia|lia]. apply numeral_snoc; [exact H|lia|lia].
Qed.

Lemma numeral_two : forall k, 10 <= k < 100 -> numeral k [dchar (k / 10); dchar (k mod 10)].
Proof.
  intros k Hk. replace k with (10 * (k / 10) + k mod 10) at 1 by lia.
  change [dchar (k / 10); dchar (k mod 10)] with ([dchar (k / 10)] ++ [dchar (k mod 10)]).
  apply numeral_snoc; [apply numeral_small1; lia|lia|lia].
Qed.

Lemma digits_value_nonneg : forall s acc, Forall is_digit s -> 0 <= acc ->
  acc <= fold_left (fun acc c => 10 * acc + (Z.of_N (N_of_ascii c) - 48)) s acc.
Proof.
  induction s as [|c s IH]; intros acc H Ha; [cbn; lia|].
  inversion H as [|? ? Hc Hs]; subst. cbn [fold_left]. unfold is_digit in Hc.
  etransitivity; [|apply IH; [exact Hs|lia]]. lia.
Qed.

Lemma numeral_unique : forall s t n, numeral n s -> numeral n t -> s = t.
Proof.
  intros s. induction s as [|c s IH] using rev_ind; intros t n (Hne & Hd & Hz & Hv) Ht; [contradiction|].
  destruct Ht as (Hne' & Hd' & Hz' & Hv').
  destruct (exists_last Hne') as (t' & c' & ->).
  apply Forall_app in Hd. destruct Hd as [Hds Hdc].
  apply Forall_app in Hd'. destruct Hd' as [Hds' Hdc'].
  assert (Hc : is_digit c) by (inversion Hdc; assumption).
  assert (Hc' : is_digit c') by (inversion Hdc'; assumption).
  unfold digits_value in Hv, Hv'. rewrite digits_value_app in Hv, Hv'. cbn [fold_left] in Hv, Hv'.
  unfold is_digit in Hc, Hc'.
  pose proof (digits_value_nonneg s 0 Hds ltac:(lia)) as P.
  pose proof (digits_value_nonneg t' 0 Hds' ltac:(lia)) as P'.
  assert (Ev : digits_value s = digits_value t' /\ N_of_ascii c = N_of_ascii c').
  { unfold digits_value. lia. }
  destruct Ev as [Ev Ec].
  assert (c = c') by (rewrite <- (ascii_N_embedding c), Ec, ascii_N_embedding; reflexivity).
  subst c'. f_equal.
  assert (Z0 : forall (u : bytes) , Forall is_digit u -> (hd " "%char (u ++ [c]) = "0"%char -> u ++ [c] = ["0"%char]) ->
     u = [] \/ (u <> [] /\ hd " "%char u <> "0"%char)).
  { intros u Hu Hzu. destruct u as [|x u]; [left; reflexivity|]. right. split; [discriminate|].
    cbn [hd app] in *. intros E. specialize (Hzu E). destruct u; discriminate. }
  destruct (Z0 s Hds Hz) as [->|[Hs1 Hs2]]; destruct (Z0 t' Hds' Hz') as [->|[Ht1 Ht2]].
  - reflexivity.
  - exfalso. destruct t' as [|x t']; [contradiction|]. unfold digits_value in Ev. cbn [fold_left] in Ev.
    inversion Hds' as [|? ? Hx Hr]; subst. unfold is_digit in Hx. cbn [hd] in Ht2.
    pose proof (digits_value_nonneg t' (10 * 0 + (Z.of_N (N_of_ascii x) - 48)) Hr ltac:(lia)).
    assert (N_of_ascii x = 48%N) by lia.
    apply Ht2. rewrite <- (ascii_N_embedding x), H0. reflexivity.
  - exfalso. destruct s as [|x s]; [contradiction|]. unfold digits_value in Ev. cbn [fold_left] in Ev.
    inversion Hds as [|? ? Hx Hr]; subst. unfold is_digit in Hx. cbn [hd] in Hs2.
    pose proof (digits_value_nonneg s (10 * 0 + (Z.of_N (N_of_ascii x) - 48)) Hr ltac:(lia)).
    assert (N_of_ascii x = 48%N) by lia.
    apply Hs2. rewrite <- (ascii_N_embedding x), H0. reflexivity.
  - apply (IH t' (digits_value s)).
    + repeat split; auto. intros E. contradiction.
    + repeat split; auto. intros E. contradiction.
Qed.

Lemma decimal_unique : forall n s t, decimal n s -> decimal n t -> s = t.
Proof.
  intros n s t [[H1 H2]|[H1 (s' & -> & H2)]] [[H3 H4]|[H3 (t' & -> & H4)]]; try lia.
  - apply (numeral_unique _ _ n); assumption.
  - f_equal. apply (numeral_unique _ _ (- n)); assumption.
Qed.

(** ** The loop. *)
Lemma pairs_step : forall fuel sgn buf it val,
  pairs (S fuel) sgn buf it val =
  if Z.quot val 100 =? 0 then Ok (buf, it, val)
  else obind (memcpy2 buf it (sgn * 2 * (val - Z.quot val 100 * 100)))
             (fun b => pairs fuel sgn b (it - 2) (Z.quot val 100)).
Proof. reflexivity. Qed.

(** Non-negative branch after the loop. *)
Definition fin_pos (x : bytes * Z * Z) : outcome bytes :=
  let '(b, it, val) := x in
  obind (memcpy2 b it (2 * val)) (fun b =>
  let it := if val <? 10 then it + 1 else it in result b it).

Lemma result_suffix : forall b n suf, has_suffix b n suf -> result b n = Ok suf.
Proof.
  intros b n suf (H0 & H1 & H2). unfold result.
  rewrite (proj2 (Z.leb_le _ _)) by lia. rewrite (proj2 (Z.leb_le _ _)) by lia.
  cbn [andb]. rewrite H1. reflexivity.
Qed.

Lemma has_suffix_tl : forall b n c suf, has_suffix b n (c :: suf) -> has_suffix b (n + 1) suf.
Proof.
  intros b n c suf (H0 & H1 & H2). cbn [length] in H2. split; [lia|]. split; [|lia].
  replace (Z.to_nat (n + 1)) with (1 + Z.to_nat n)%nat by lia.
  rewrite <- skipn_skipn, H1. reflexivity.
Qed.

Lemma pos_loop : forall j fuel buf n suf val p,
  n = 2 * Z.of_nat j + p -> 0 <= p <= 1 -> (j < fuel)%nat ->
  has_suffix buf n suf -> 0 <= val ->
  (val < 100 ^ Z.of_nat j ->
     exists ds, obind (pairs fuel 1 buf (n - 2) val) fin_pos = Ok (ds ++ suf) /\ numeral val ds) /\
  (100 ^ Z.of_nat j <= val -> obind (pairs fuel 1 buf (n - 2) val) fin_pos = UB) \/ j = O.
Proof.
  induction j as [|j IH]; intros fuel buf n suf val p Hn Hp Hf Hs Hv; [right; reflexivity|].
  left. destruct fuel as [|fuel]; [lia|].
  assert (Hpow : 100 ^ Z.of_nat (S j) = 100 * 100 ^ Z.of_nat j).
  { rewrite Nat2Z.inj_succ, Z.pow_succ_r by lia. reflexivity. }
  assert (Hpj : 0 < 100 ^ Z.of_nat j) by (apply Z.pow_pos_nonneg; lia).
  rewrite pairs_step. rewrite Z.quot_div_nonneg by lia.
  destruct (Z.eqb_spec (val / 100) 0) as [Hd|Hd].
  - (* last pair *)
    assert (Hv' : 0 <= val < 100) by lia. cbn [obind fin_pos].
    destruct (memcpy2_ok buf n suf val Hs ltac:(lia) Hv') as (b' & E & S' & L').
    rewrite E. cbn [obind]. split; intros Hc.
    + destruct (Z.ltb_spec val 10) as [H10|H10].
      * rewrite (result_suffix b' (n - 2 + 1) (dchar (val mod 10) :: suf))
          by (eapply has_suffix_tl; exact S').
        exists [dchar (val mod 10)]. split; [reflexivity|].
        rewrite Z.mod_small by lia. apply numeral_small1. lia.
      * rewrite (result_suffix b' (n - 2) _ S').
        exists [dchar (val / 10); dchar (val mod 10)]. split; [reflexivity|].
        apply numeral_two. lia.
    + exfalso. assert (1 <= 100 ^ Z.of_nat j) by lia. lia.
  - assert (Hk : 0 <= val mod 100 < 100) by lia.
    replace (1 * 2 * (val - val / 100 * 100)) with (2 * (val mod 100)) by lia.
    destruct (memcpy2_ok buf n suf (val mod 100) Hs ltac:(lia) Hk) as (b' & E & S' & L').
    rewrite E. cbn [obind].
    destruct (IH fuel b' (n - 2) _ (val / 100) p ltac:(lia) Hp ltac:(lia) S' ltac:(lia)) as [[I1 I2]| -> ].
    + split; intros Hc.
      * destruct (I1 ltac:(lia)) as (ds & E' & Hds).
        exists (ds ++ [dchar (val mod 100 / 10); dchar ((val mod 100) mod 10)]).
        split; [rewrite E', <- app_assoc; reflexivity|].
        replace val with (100 * (val / 100) + val mod 100) at 1 by lia.
        apply numeral_pair; [exact Hds|lia|lia].
      * apply I2. lia.
    + (* no room left *)
      split; intros Hc.
      * exfalso. rewrite Hpow in Hc. cbn [Z.of_nat] in Hc. rewrite Z.pow_0_r in Hc. lia.
      * cbn [Z.of_nat] in Hn. destruct fuel as [|fuel]; [lia|].
        rewrite pairs_step.
        destruct (Z.quot (val / 100) 100 =? 0).
        -- cbn [obind fin_pos]. rewrite memcpy2_ub by lia. reflexivity.
        -- rewrite memcpy2_ub by lia. reflexivity.
Qed.

Definition fin_neg (x : bytes * Z * Z) : outcome bytes :=
  let '(b, it, val) := x in
  obind (memcpy2 b it (-2 * val)) (fun b =>
  let it := if val <=? -10 then it - 1 else it in
  obind (store b it "-"%char) (fun b => result b it)).

Lemma neg_loop : forall j fuel buf n suf m p,
  n = 2 * Z.of_nat j + p -> 0 <= p <= 1 -> (j < fuel)%nat ->
  has_suffix buf n suf -> 0 < m ->
  (10 * m < 100 ^ Z.of_nat j * 10 ^ p ->
     exists ds, obind (pairs fuel (-1) buf (n - 2) (- m)) fin_neg = Ok ("-"%char :: ds ++ suf) /\ numeral m ds) /\
  (100 ^ Z.of_nat j * 10 ^ p <= 10 * m -> obind (pairs fuel (-1) buf (n - 2) (- m)) fin_neg = UB) \/ j = O.
Proof.
  induction j as [|j IH]; intros fuel buf n suf m p Hn Hp Hf Hs Hv; [right; reflexivity|].
  left. destruct fuel as [|fuel]; [lia|].
  assert (Hpow : 100 ^ Z.of_nat (S j) = 100 * 100 ^ Z.of_nat j).
  { rewrite Nat2Z.inj_succ, Z.pow_succ_r by lia. reflexivity. }
  assert (Hpj : 0 < 100 ^ Z.of_nat j) by (apply Z.pow_pos_nonneg; lia).
  assert (H10 : p = 0 /\ 10 ^ p = 1 \/ p = 1 /\ 10 ^ p = 10).
  { assert (p = 0 \/ p = 1) as [->| ->] by lia; [left|right]; split; reflexivity. }
  rewrite pairs_step.
  assert (Q : Z.quot (- m) 100 = - (m / 100)).
  { rewrite Z.quot_opp_l by lia. rewrite Z.quot_div_nonneg by lia. reflexivity. }
  rewrite Q.
  destruct (Z.eqb_spec (- (m / 100)) 0) as [Hd|Hd].
  - assert (Hv' : 0 <= m < 100) by lia. cbn [obind fin_neg].
    replace (-2 * - m) with (2 * m) by lia.
    destruct (memcpy2_ok buf n suf m Hs ltac:(lia) Hv') as (b' & E & S' & L').
    rewrite E. cbn [obind]. cbv zeta.
    destruct (Z.leb_spec (- m) (-10)) as [Hm|Hm].
    + split; intros Hc.
      * assert (0 < n - 2).
        { destruct j as [|j]; [|lia]. rewrite Hpow in Hc. change (100 ^ Z.of_nat 0) with 1 in *.
          destruct H10 as [[E0 E10]|[E0 E10]]; rewrite E10 in Hc; lia. }
        destruct (store_suffix b' (n - 2) _ "-"%char S' ltac:(lia)) as (b2 & E2 & S2 & L2).
        rewrite E2. cbn [obind]. rewrite (result_suffix _ _ _ S2).
        exists [dchar (m / 10); dchar (m mod 10)]. split; [reflexivity|]. apply numeral_two. lia.
      * assert (n - 2 = 0).
        { destruct j as [|j].
          - rewrite Hpow in Hc. change (100 ^ Z.of_nat 0) with 1 in *.
            destruct H10 as [[E0 E10]|[E0 E10]]; rewrite E10 in Hc; lia.
          - exfalso. rewrite Hpow in Hc. rewrite Nat2Z.inj_succ, Z.pow_succ_r in Hc by lia.
            assert (0 < 100 ^ Z.of_nat j) by (apply Z.pow_pos_nonneg; lia).
            destruct H10 as [[E0 E10]|[E0 E10]]; rewrite E10 in Hc; lia. }
        rewrite store_ub by lia. reflexivity.
    + split; intros Hc.
      * assert (S1 : has_suffix b' (n - 2 + 1) (dchar (m mod 10) :: suf))
          by (eapply has_suffix_tl; exact S').
        destruct (store_suffix b' (n - 2 + 1) _ "-"%char S1 ltac:(lia)) as (b2 & E2 & S2 & L2).
        replace (n - 2 + 1 - 1) with (n - 2) in * by lia.
        rewrite E2. cbn [obind]. rewrite (result_suffix _ _ _ S2).
        exists [dchar (m mod 10)]. split; [reflexivity|].
        rewrite Z.mod_small by lia. apply numeral_small1. lia.
      * exfalso. rewrite Hpow in Hc.
        destruct H10 as [[E0 E10]|[E0 E10]]; rewrite E10 in Hc; lia.
  - assert (Hk : 0 <= m mod 100 < 100) by lia.
    replace (-1 * 2 * (- m - - (m / 100) * 100)) with (2 * (m mod 100)) by lia.
    destruct (memcpy2_ok buf n suf (m mod 100) Hs ltac:(lia) Hk) as (b' & E & S' & L').
    rewrite E. cbn [obind].
    destruct (IH fuel b' (n - 2) _ (m / 100) p ltac:(lia) Hp ltac:(lia) S' ltac:(lia)) as [[I1 I2]| -> ];
      [destruct j as [|j0]; [clear I1 I2|set (j := S j0) in *]|].
    + split; intros Hc.
      * exfalso. rewrite Hpow in Hc. change (100 ^ Z.of_nat 0) with 1 in Hc.
        destruct H10 as [[E0 E10]|[E0 E10]]; rewrite E10 in Hc; lia.
      * cbn [Z.of_nat] in Hn. destruct fuel as [|fuel]; [lia|].
        rewrite pairs_step.
        destruct (Z.quot (- (m / 100)) 100 =? 0).
        -- cbn [obind fin_neg]. rewrite memcpy2_ub by lia. reflexivity.
        -- rewrite memcpy2_ub by lia. reflexivity.
    + assert (Hj0 : 100 ^ Z.of_nat j = 100 * 100 ^ Z.of_nat j0).
      { subst j. rewrite Nat2Z.inj_succ, Z.pow_succ_r by lia. reflexivity. }
      split; intros Hc.
      * destruct I1 as (ds & E' & Hds);
          [rewrite Hpow in Hc; destruct H10 as [[E0 E10]|[E0 E10]]; rewrite E10 in *; lia|].
        exists (ds ++ [dchar (m mod 100 / 10); dchar ((m mod 100) mod 10)]).
        split; [rewrite E', <- app_assoc; reflexivity|].
        replace m with (100 * (m / 100) + m mod 100) at 1 by lia.
        apply numeral_pair; [exact Hds|lia|lia].
      * apply I2. rewrite Hpow in Hc. destruct H10 as [[E0 E10]|[E0 E10]]; rewrite E10 in *; lia.
    + split; intros Hc.
      * exfalso. rewrite Hpow in Hc. change (100 ^ Z.of_nat 0) with 1 in Hc.
        destruct H10 as [[E0 E10]|[E0 E10]]; rewrite E10 in Hc; lia.
      * cbn [Z.of_nat] in Hn. destruct fuel as [|fuel]; [lia|].
        rewrite pairs_step.
        destruct (Z.quot (- (m / 100)) 100 =? 0).
        -- cbn [obind fin_neg]. rewrite memcpy2_ub by lia. reflexivity.
        -- rewrite memcpy2_ub by lia. reflexivity.
Qed.

Lemma start_suffix : forall buf : bytes, has_suffix buf (Z.of_nat (length buf)) [].
Proof.
  intros buf. split; [lia|]. split; [|cbn; lia]. rewrite Nat2Z.id. apply skipn_all.
Qed.

Lemma conv_exact : forall buf n, (2 <= length buf)%nat ->
  (fits (length buf) n -> exists s, conv buf n = Ok s /\ decimal n s) /\
  (~ fits (length buf) n -> conv buf n = UB).
Proof.
  intros buf n HB. set (B := length buf) in *.
  set (j := (B / 2)%nat). set (p := Z.of_nat B mod 2).
  assert (HBj : Z.of_nat B = 2 * Z.of_nat j + p) by (subst j p; lia).
  assert (Hj : j <> O) by (subst j; lia).
  assert (Hp : 0 <= p <= 1) by (subst p; lia).
  assert (E100 : forall k, 100 ^ Z.of_nat k = 10 ^ (2 * Z.of_nat k)).
  { intros k. rewrite Z.pow_mul_r by lia. reflexivity. }
  assert (HB2 : Z.of_nat B / 2 = Z.of_nat j) by lia.
  unfold conv. destruct (Z.leb_spec 0 n) as [Hn|Hn].
  - destruct (pos_loop j (S B) buf (Z.of_nat B) [] n p HBj Hp ltac:(lia) (start_suffix buf) Hn)
      as [[I1 I2]|]; [|contradiction].
    unfold conv_nonneg. fold B. cbv zeta.
    change (fun '(b, it, val) => obind (memcpy2 b it (2 * val)) (fun b0 : bytes =>
       let it0 := if val <? 10 then it + 1 else it in result b0 it0)) with fin_pos.
    unfold fits. rewrite HB2, <- E100. split.
    + intros [[_ H]|[H _]]; [|lia]. destruct (I1 H) as (ds & E & Hd).
      rewrite app_nil_r in E. exists ds. split; [exact E|]. left. split; [lia|exact Hd].
    + intros H. apply I2. lia.
  - replace n with (- (- n)) by lia. set (m := - n) in *.
    destruct (neg_loop j (S B) buf (Z.of_nat B) [] m p HBj Hp ltac:(lia) (start_suffix buf) ltac:(lia))
      as [[I1 I2]|]; [|contradiction].
    unfold conv_neg. fold B. cbv zeta.
    change (fun '(b, it, val) => obind (memcpy2 b it (-2 * val)) (fun b0 : bytes =>
       let it0 := if val <=? -10 then it - 1 else it in
       obind (store b0 it0 "-"%char) (fun b1 : bytes => result b1 it0))) with fin_neg.
    assert (EP : 100 ^ Z.of_nat j * 10 ^ p = 10 * 10 ^ (Z.of_nat B - 1)).
    { rewrite E100, <- Z.pow_add_r by lia. rewrite <- HBj.
      rewrite <- Z.pow_succ_r by lia. f_equal. lia. }
    unfold fits. rewrite EP in *. split.
    + intros [[H _]|[_ H]]; [lia|]. destruct (I1 ltac:(lia)) as (ds & E & Hd).
      rewrite app_nil_r in E. exists ("-"%char :: ds). split; [exact E|]. right. split; [lia|].
      exists ds. split; [reflexivity|]. rewrite Z.opp_involutive. exact Hd.
    + intros H. apply I2. lia.
Qed.


Lemma conv_types : forall t buf n, In t all_types -> length buf = t_digits10 t ->
  (fits (t_digits10 t) n -> exists s, toStr t buf n = Ok s /\ decimal n s) /\
  (~ fits (t_digits10 t) n -> toStr t buf n = UB).
Proof.
  intros t buf n Ht Hb. unfold toStr. rewrite <- Hb. apply conv_exact.
  rewrite Hb. cbn in Ht.
  repeat (destruct Ht as [<-|Ht]; [cbn; lia|]). contradiction.
Qed.

Lemma ranges_exact : Forall (fun '(t, lo, hi) => In t all_types /\
    forall n, t_min t <= n <= t_max t -> (lo < n < hi <-> fits (t_digits10 t) n)) safe_ranges.
Proof.
  unfold safe_ranges.
  repeat (apply Forall_cons; [split; [cbn; tauto|
    intros n Hn; unfold fits; cbn [t_digits10 t_min t_max t_short t_ushort t_int t_uint t_long t_ulong] in *;
    match goal with |- context [10 ^ (2 * ?a)] => let v := eval vm_compute in (10 ^ (2 * a)) in
      change (10 ^ (2 * a)) with v end;
    match goal with |- context [10 ^ ?a] => let v := eval vm_compute in (10 ^ a) in
      change (10 ^ a) with v end;
    lia]|]).
  constructor.
Qed.

Lemma conv_ranges : Forall (fun '(t, lo, hi) => forall buf n,
    length buf = t_digits10 t -> t_min t <= n <= t_max t ->
    (lo < n < hi -> exists s, toStr t buf n = Ok s /\ decimal n s) /\
    (~ lo < n < hi -> toStr t buf n = UB)) safe_ranges.
Proof.
  eapply Forall_impl; [|exact ranges_exact].
  intros [[t lo] hi] [Ht H] buf n Hb Hn.
  destruct (conv_types t buf n Ht Hb) as [A B]. specialize (H n Hn).
  split; intros K; [apply A|apply B]; tauto.
Qed.

Lemma unsafe_all : Forall (fun t => exists n, t_min t <= n <= t_max t /\
    forall buf, length buf = t_digits10 t -> toStr t buf n = UB) all_types.
Proof.
  assert (H : forall t, In t all_types -> ~ fits (t_digits10 t) (t_max t) -> t_min t <= t_max t ->
    exists n, t_min t <= n <= t_max t /\ forall buf, length buf = t_digits10 t -> toStr t buf n = UB).
  { intros t Ht Hf Hle. exists (t_max t). split; [lia|]. intros buf Hb.
    apply (conv_types t buf (t_max t) Ht Hb). exact Hf. }
  unfold all_types.
  repeat (apply Forall_cons; [apply H; [cbn; tauto|intros [[_ K]|[K _]]; vm_compute in K; discriminate K|vm_compute; discriminate]|]). apply Forall_nil.
Qed.
