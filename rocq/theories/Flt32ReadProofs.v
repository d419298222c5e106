(** Reading and writing floats as text: rounding, range errors and six-digit decimals. *)
From Coq Require Import String Ascii ZArith NArith Arith Bool Lia List QArith Qabs Qpower Lqa.
From Coq Require Import Floats.SpecFloat.
From Verif Require Import Common JsonNumModel JsonExactProofs RoundProofs Round32Proofs RealSpec RealProofs RealTextProofs FltModel FltSpec Flt32Proofs FltGapProofs.
Import ListNotations.
Local Open Scope Q_scope.

Lemma fits32 : forall N D R e x, (0 < D)%Z -> (0 <= N)%Z -> nearest N D R -> (0 <= R <= 2 ^ 24)%Z -> (-149 <= e)%Z -> (e = -149 \/ 2 ^ 23 * D <= N)%Z ->
  x == inject_Z N / inject_Z D * inject_Z 2 ^ e ->
  ((e < 104 \/ e = 104 /\ R < 2 ^ 24)%Z <-> x < times_pow 2 (2 ^ 25 - 1) 103).
Proof.
  intros N D R e x HD HN Hr HR He Hc Hx. pose proof (inj_pos D HD) as PD. pose proof (pow_pos' 2 e ltac:(lia)) as Pe.
  assert (UB : forall k, (2 * N <= k * D)%Z -> x <= times_pow 2 k (e - 1)).
  { intros k Hk. rewrite Hx. unfold times_pow, Z.sub. rewrite Qpower_plus by discriminate. change (inject_Z 2 ^ (-1)) with (1 # 2).
    setoid_replace (inject_Z k * (inject_Z 2 ^ e * (1 # 2))) with (inject_Z k * (1 # 2) * inject_Z 2 ^ e) by ring.
    apply Qmult_le_r; [exact Pe|]. apply Qle_shift_div_r; [exact PD|].
    rewrite Zle_Qle, !inject_Z_mult in Hk. change (inject_Z 2) with 2 in Hk. lra. }
  assert (LB : forall k, (k * D <= 2 * N)%Z -> times_pow 2 k (e - 1) <= x).
  { intros k Hk. rewrite Hx. unfold times_pow, Z.sub. rewrite Qpower_plus by discriminate. change (inject_Z 2 ^ (-1)) with (1 # 2).
    setoid_replace (inject_Z k * (inject_Z 2 ^ e * (1 # 2))) with (inject_Z k * (1 # 2) * inject_Z 2 ^ e) by ring.
    apply Qmult_le_r; [exact Pe|]. apply Qle_shift_div_l; [exact PD|].
    rewrite Zle_Qle, !inject_Z_mult in Hk. change (inject_Z 2) with 2 in Hk. lra. }
  destruct Hr as [Hr1 Hr2].
  assert (Mono : forall a b k l, (0 <= a)%Z -> (a <= b)%Z -> (k <= l)%Z -> times_pow 2 a k <= times_pow 2 b l).
  { intros a b k l Ha Hab Hkl. rewrite (times_shift 2 b k l) by lia. unfold times_pow. apply Qmult_le_r; [apply pow_pos'; lia|].
    rewrite <- Zle_Qle. assert (1 <= 2 ^ (l - k))%Z by (apply (Z.pow_le_mono_r 2 0); lia). nia. }
  split.
  - intros [L|[-> L]].
    + eapply Qle_lt_trans; [apply (UB (2 ^ 25 + 1)%Z); nia|].
      apply Qle_lt_trans with (times_pow 2 (2 ^ 25 + 1) (103 - 1)); [apply Mono; lia|].
      rewrite (times_shift 2 (2 ^ 25 - 1) (103 - 1) 103) by lia. unfold times_pow. apply Qmult_lt_r; [apply pow_pos'; lia|]. rewrite <- Zlt_Qlt. reflexivity.
    + apply Qnot_le_lt. intros C. assert (C2 : x <= times_pow 2 (2 ^ 25 - 1) 103) by (apply (UB (2 ^ 25 - 1)%Z); nia).
      assert (E : x == times_pow 2 (2 ^ 25 - 1) 103) by (apply Qle_antisym; assumption).
      assert (E2 : (2 * N = (2 ^ 25 - 1) * D)%Z).
      { destruct (Z.lt_trichotomy (2 * N) ((2 ^ 25 - 1) * D)) as [T|[T|T]]; [exfalso|exact T|exfalso; nia].
        rewrite Hx in E. unfold times_pow in E. change 103%Z with (104 + -1)%Z in E. rewrite Qpower_plus in E by discriminate.
        change (inject_Z 2 ^ (-1)) with (1 # 2) in E.
        setoid_replace (inject_Z (2 ^ 25 - 1) * (inject_Z 2 ^ 104 * (1 # 2))) with (inject_Z (2 ^ 25 - 1) * (1 # 2) * inject_Z 2 ^ 104) in E by ring.
        apply Qmult_inj_r in E; [|lra].
        assert (E3 : inject_Z N == inject_Z (2 ^ 25 - 1) * (1 # 2) * inject_Z D) by (rewrite <- E; field; lra).
        rewrite Zlt_Qlt, !inject_Z_mult in T. change (inject_Z 2) with 2 in T. lra. }
      assert (Rv : R = (2 ^ 24 - 1)%Z) by nia. rewrite Rv in Hr2. assert (Ev : Z.even (2 ^ 24 - 1) = true) by (apply Hr2; lia). discriminate Ev.
  - intros L. destruct (Z.lt_ge_cases e 104) as [C|C]; [left; exact C|]. destruct (Z.eq_dec e 104) as [->|Ne].
    + right. split; [reflexivity|]. destruct (Z.lt_ge_cases R (2 ^ 24)) as [D2|D2]; [exact D2|exfalso].
      assert (R = 2 ^ 24)%Z as -> by lia. apply (Qlt_not_le _ _ L). apply (LB (2 ^ 25 - 1)%Z). lia.
    + exfalso. apply (Qlt_not_le _ _ L). destruct Hc as [Hc|Hc]; [lia|].
      apply Qle_trans with (times_pow 2 (2 ^ 24) (e - 1)); [|apply LB; lia].
      apply Qle_trans with (times_pow 2 (2 ^ 24) (103 + 1)); [|apply Mono; lia].
      rewrite (times_shift 2 (2 ^ 24) 103 (103 + 1)) by lia. unfold times_pow. apply Qmult_le_r; [apply pow_pos'; lia|]. rewrite <- Zle_Qle. discriminate.
Qed.

(** *** Reading *)
Definition reads32 (x : Q) (neg : bool) (o : option spec_float) : Prop :=
  (float_range x -> exists f q, o = Some f /\ nearest_float x q /\ (forall q', nearest_float x q' -> q' == q) /\
    valid_binary 24 128 f = true /\ has_value f q /\ has_sign f neg) /\
  (~ float_range x -> o = None).
Lemma range_wd32 : forall x y, x == y -> float_range x -> float_range y.
Proof.
  intros x y E [A B]. split; [rewrite <- E; exact A|]. destruct B as [B|(m & e & B & C)]; [left; rewrite <- E; exact B|right].
  exists m, e. split; [exact B|]. rewrite <- E. exact C.
Qed.
Lemma reads_wd32 : forall x y neg o, x == y -> reads32 x neg o -> reads32 y neg o.
Proof.
  intros x y neg o E [A B]. split.
  - intros Rg. destruct (A (range_wd32 y x (Qeq_sym _ _ E) Rg)) as (f & q & E1 & N & U & V). exists f, q. split; [exact E1|].
    split; [apply (nearest_wd x); assumption|]. split; [|exact V]. intros q' N'. apply U. apply (nearest_wd y); [symmetry; exact E|exact N'].
  - intros Rg. apply B. intros C. apply Rg. apply (range_wd32 x); assumption.
Qed.
Lemma tiny_spec32 : forall n d, tiny 24 128 n d = true <-> inject_Z (Zpos n) / inject_Z (Zpos d) < times_pow 2 (2 ^ 25 - 1) (-151).
Proof.
  intros n d. unfold tiny. rewrite Z.ltb_lt. change (128 + 24 - 1)%Z with 151%Z. change (24 + 1)%Z with 25%Z.
  pose proof (inj_pos (Zpos d) ltac:(lia)) as PD. pose proof (pow_pos' 2 151 ltac:(lia)) as PT.
  unfold times_pow. change (-151)%Z with (- (151))%Z. rewrite (Qpower_opp (inject_Z 2) 151). rewrite Zlt_Qlt, !inject_Z_mult, Zpower_Qpower by lia.
  set (w := inject_Z 2 ^ 151) in *. set (k := inject_Z (2 ^ 25 - 1)). set (D := inject_Z (Zpos d)) in *. set (N := inject_Z (Zpos n)). clearbody w k D N.
  split; intros H.
  - apply Qlt_shift_div_r; [exact PD|]. apply (Qmult_lt_r _ _ w); [exact PT|]. setoid_replace (k * / w * D * w) with (k * D) by (field; lra). exact H.
  - assert (H2 : N < k * / w * D).
    { apply (Qmult_lt_r _ _ D) in H; [|exact PD]. setoid_replace (N / D * D) with N in H by (field; lra). exact H. }
    apply (Qmult_lt_r _ _ w) in H2; [|exact PT]. setoid_replace (k * / w * D * w) with (k * D) in H2 by (field; lra). exact H2.
Qed.
Lemma exact_spec32 : forall f s q n d, valid_binary 24 128 f = true -> has_value f q -> has_sign f s ->
  (exact f n d = true <-> q == sgn_of s (inject_Z (Zpos n) / inject_Z (Zpos d))).
Proof.
  intros f s q n d V H Sg. pose proof (inj_pos (Zpos d) ltac:(lia)) as PD. pose proof (inj_pos (Zpos n) ltac:(lia)) as PN.
  assert (PX : 0 < inject_Z (Zpos n) / inject_Z (Zpos d)) by (apply Qlt_shift_div_l; [exact PD|lra]).
  destruct f as [z|z| |z m e]; cbn [has_value has_sign exact] in *; try contradiction.
  - split; [discriminate|]. rewrite H. intros E. destruct s; cbn [sgn_of] in E; lra.
  - subst z. rewrite H. assert (E : (times_pow 2 (if s then Z.neg m else Z.pos m) e == sgn_of s (inject_Z (Zpos n) / inject_Z (Zpos d))) <-> 
      times_pow 2 (Zpos m) e * inject_Z (Zpos d) == inject_Z (Zpos n)).
    { destruct s; cbn [sgn_of].
      - change (Z.neg m) with (- Z.pos m)%Z. rewrite times_opp. split; intros E.
        + assert (E2 : times_pow 2 (Zpos m) e == inject_Z (Zpos n) / inject_Z (Zpos d)) by lra. rewrite E2. field. lra.
        + rewrite <- E. field. lra.
      - split; intros E; [rewrite E; field; lra|rewrite <- E; field; lra]. }
    rewrite E. unfold times_pow. destruct (Z.leb_spec 0 e) as [L|L].
    + rewrite Z.eqb_eq. rewrite <- Zpower_Qpower, <- !inject_Z_mult by lia. split; [intros ->; reflexivity|]. unfold Qeq, inject_Z. cbn [Qnum Qden]. lia.
    + rewrite Z.eqb_eq. pose proof (pow_pos' 2 (- e) ltac:(lia)) as PT. replace e with (- (- e))%Z at 2 by lia. rewrite Qpower_opp. split; intros C.
      * assert (C2 : inject_Z (Z.pos m) * inject_Z (Z.pos d) == inject_Z (Z.pos n) * inject_Z 2 ^ (- e)).
        { rewrite <- inject_Z_mult, C, inject_Z_mult, Zpower_Qpower by lia. reflexivity. }
        setoid_replace (inject_Z (Z.pos m) * / inject_Z 2 ^ (- e) * inject_Z (Z.pos d)) with (inject_Z (Z.pos m) * inject_Z (Z.pos d) / inject_Z 2 ^ (- e)) by (field; lra).
        rewrite C2. field. lra.
      * assert (C2 : inject_Z (Z.pos m * Z.pos d) == inject_Z (Z.pos n * 2 ^ (- e))).
        { rewrite !inject_Z_mult, Zpower_Qpower by lia. rewrite <- C. field. lra. }
        unfold Qeq, inject_Z in C2. cbn [Qnum Qden] in C2. lia.
Qed.
Lemma pack_sign32 : forall neg R e, has_sign (pack neg R e) neg.
Proof. intros neg R e. unfold pack. repeat (match goal with |- context [if ?b then _ else _] => destruct b end; try reflexivity). Qed.
Lemma sgn_abs32 : forall (s : bool) y, 0 < y -> Qabs (sgn_of s y) == y.
Proof. intros s y H. destruct s; cbn [sgn_of]; [rewrite Qabs_opp|]; apply Qabs_pos; lra. Qed.
Lemma read_ratio_spec32 : forall neg n d, reads32 (sgn_of neg (inject_Z (Zpos n) / inject_Z (Zpos d))) neg (read_ratio 24 128 neg n d).
Proof.
  intros neg n d. set (y := inject_Z (Zpos n) / inject_Z (Zpos d)). pose proof (inj_pos (Zpos d) ltac:(lia)) as PD. pose proof (inj_pos (Zpos n) ltac:(lia)) as PN.
  assert (PX : 0 < y) by (apply Qlt_shift_div_l; [exact PD|lra]).
  unfold read_ratio. change (SFdiv 24 128 (S754_finite neg n 0) (S754_finite false d 0)) with (float_ratio neg n d).
  destruct (ratio_round neg n d) as (N & D & R & e & HD & HN & Hr & HR & He & Hc & Hx & Hp). rewrite Hp. cbv zeta. fold y in Hx.
  assert (Hc' : (e = -149 \/ 2 ^ 23 <= R)%Z) by (destruct Hc as [C|C]; [left; exact C|right; apply (nearest_ge N D R); assumption]).
  pose proof (fits32 N D R e y HD HN Hr HR He Hc Hx) as Fi.
  assert (Fd : (e < 104 \/ e = 104 /\ R < 2 ^ 24)%Z \/ ~ (e < 104 \/ e = 104 /\ R < 2 ^ 24)%Z) by lia.
  destruct Fd as [Fits|Nf].
  - pose proof (pack_value neg R e HR He Fits Hc') as [V1 V2]. pose proof (pack_sign32 neg R e) as Sg.
    pose proof (rounded_nearest N D R e _ HD Hr HR He Hc Hx Fits) as Near.
    pose proof (rounded_unique N D R e _ HD Hr HR He Hc Hx Fits) as Un.
    set (f := pack neg R e) in *. set (q := times_pow 2 R e) in *. clearbody f. clear Hp.
    assert (NearS : nearest_float (sgn_of neg y) (sgn_of neg q)) by (destruct neg; cbn [sgn_of]; [apply nearest_opp|]; exact Near).
    assert (UnS : forall q', nearest_float (sgn_of neg y) q' -> q' == sgn_of neg q).
    { intros q' Nq. destruct neg; cbn [sgn_of] in *; [|apply Un, Nq]. apply nearest_opp in Nq. apply (nearest_wd _ y) in Nq; [|ring]. rewrite <- (Un _ Nq). ring. }
    assert (Ex : exact f n d = true <-> is_float (sgn_of neg y)).
    { rewrite (exact_spec32 f neg _ n d V1 V2 Sg). fold y. split.
      - intros E. apply (proj1 (nearest_wd2 _ _ _ E NearS)).
      - intros I. apply float_self; assumption. }
    assert (Ti : tiny 24 128 n d = false <-> times_pow 2 (2 ^ 25 - 1) (-151) <= y).
    { pose proof (tiny_spec32 n d) as T. fold y in T. destruct (tiny 24 128 n d).
      - split; [discriminate|]. intros C. exfalso. apply (Qlt_not_le y (times_pow 2 (2 ^ 25 - 1) (-151))); [apply T; reflexivity|exact C].
      - split; [intros _|reflexivity]. apply Qnot_lt_le. intros C. apply T in C. discriminate. }
    assert (Fin : (match f with S754_infinity _ => (@None spec_float) | _ => if tiny 24 128 n d && negb (exact f n d) then (@None spec_float) else @Some spec_float f end) =
                  (if tiny 24 128 n d && negb (exact f n d) then (@None spec_float) else @Some spec_float f)) by (destruct f; try reflexivity; contradiction).
    rewrite Fin. pose proof (sgn_abs32 neg y PX) as Ab. split.
    + intros [_ Rg]. exists f, (sgn_of neg q).
      assert (E : tiny 24 128 n d && negb (exact f n d) = false).
      { destruct Rg as [Rg|Rg]; [apply andb_false_iff; left; apply Ti; rewrite <- Ab; exact Rg|apply andb_false_iff; right]. apply Ex in Rg. rewrite Rg. reflexivity. }
      rewrite E. repeat split; try assumption; try apply NearS.
    + intros Rg. destruct (tiny 24 128 n d) eqn:T; [destruct (exact f n d) eqn:X|]; [exfalso|reflexivity|exfalso]; apply Rg; split; try (rewrite Ab; apply Fi, Fits).
      * right. apply Ex. reflexivity.
      * left. rewrite Ab. apply Ti. reflexivity.
  - assert (R0 : (0 < R)%Z) by lia. rewrite (pack_overflow neg R e ltac:(lia) Nf). split; [|reflexivity].
    intros [C _]. exfalso. apply Nf, Fi. rewrite <- (sgn_abs32 neg y PX). exact C.
Qed.
Lemma zero_reads32 : forall x neg, x == 0 -> reads32 x neg (Some (S754_zero neg)).
Proof.
  intros x neg E. apply (reads_wd32 0); [symmetry; exact E|]. split.
  - intros _. exists (S754_zero neg), 0. split; [reflexivity|]. split; [apply self_nearest, zero_float|]. split; [|repeat split; reflexivity].
    intros q' N. apply float_self; [apply zero_float|exact N].
  - intros C. exfalso. apply C. split; [|right; apply zero_float]. change (Qabs 0) with 0. unfold times_pow. apply Qmult_lt_0_compat; [reflexivity|apply pow_pos'; lia].
Qed.
Lemma read_scaled_spec32 : forall neg m b e, (1 < b)%Z -> (0 <= m)%Z -> reads32 (sgn_of neg (times_pow b m e)) neg (read_scaled 24 128 neg m b e).
Proof.
  intros neg m b e Hb Hm. unfold read_scaled. destruct m as [|p|p]; [| |lia].
  - apply zero_reads32. destruct neg; cbn [sgn_of]; rewrite times_zero; reflexivity.
  - assert (E : exists n d, (if (0 <=? e)%Z then read_ratio 24 128 neg (p * Z.to_pos (b ^ e)) 1 else read_ratio 24 128 neg p (Z.to_pos (b ^ (- e)))) =
       read_ratio 24 128 neg n d /\ times_pow b (Zpos p) e == inject_Z (Zpos n) / inject_Z (Zpos d)).
    { unfold times_pow. destruct (Z.leb_spec 0 e) as [L|L].
      - exists (p * Z.to_pos (b ^ e))%positive, 1%positive. split; [reflexivity|].
        assert (0 < b ^ e)%Z by (apply Z.pow_pos_nonneg; lia).
        rewrite Pos2Z.inj_mul, Z2Pos.id by lia. rewrite inject_Z_mult, Zpower_Qpower by lia. change (inject_Z 1) with 1. field.
      - exists p, (Z.to_pos (b ^ (- e))). split; [reflexivity|]. assert (0 < b ^ (- e))%Z by (apply Z.pow_pos_nonneg; lia).
        rewrite Z2Pos.id by lia. rewrite Zpower_Qpower by lia. rewrite Qpower_opp. field. apply pow_nz. lia. }
    destruct E as (n & d & E1 & E2). rewrite E1. apply (reads_wd32 (sgn_of neg (inject_Z (Zpos n) / inject_Z (Zpos d)))); [|apply read_ratio_spec32].
    destruct neg; cbn [sgn_of]; rewrite E2; reflexivity.
Qed.

(** *** Six digits *)
Lemma data32 : forall x q, 0 < x -> x < times_pow 2 (2 ^ 25 - 1) 103 -> nearest_float x q -> exists N D R e,
  (0 < D)%Z /\ nearest N D R /\ (0 <= R <= 2 ^ 24)%Z /\ (-149 <= e)%Z /\ (e = -149 \/ 2 ^ 23 * D <= N)%Z /\
  x == inject_Z N / inject_Z D * inject_Z 2 ^ e /\ q == times_pow 2 R e.
Proof.
  intros x q Hx Big Nq. destruct (as_ratio x Hx) as (n & d & Ex).
  destruct (ratio_round false n d) as (N & D & R & e & HD & HN & Hr & HR & He & Hc & Er & _). rewrite <- Ex in Er.
  assert (Fits : (e < 104 \/ e = 104 /\ R < 2 ^ 24)%Z) by (apply (fits32 N D R e x); assumption).
  exists N, D, R, e. split; [exact HD|]. split; [exact Hr|]. split; [exact HR|]. split; [exact He|]. split; [exact Hc|]. split; [exact Er|].
  apply (rounded_unique N D R e x); assumption.
Qed.
Lemma near32 : forall x q, times_pow 2 1 (-126) <= x -> x < times_pow 2 (2 ^ 25 - 1) 103 -> nearest_float x q ->
  Qabs (q - x) * inject_Z (2 ^ 24) <= x.
Proof.
  intros x q Lo Hi Nq. assert (X0 : 0 < x) by (assert (0 < times_pow 2 1 (-126)) by (unfold Qlt; vm_compute; reflexivity); lra).
  destruct (data32 x q X0 Hi Nq) as (N & D & R & e & HD & Hr & HR & He & Hc & Ex & Eq).
  destruct (half_dist N D R e x HD Hr Ex) as [Hh _]. rewrite <- Eq in Hh.
  assert (P : times_pow 2 (2 ^ 23) e <= x).
  { destruct Hc as [->|C].
    - eapply Qle_trans; [|exact Lo]. rewrite (times_shift 2 1 (-149) (-126)) by lia. apply Qle_refl.
    - rewrite Ex. unfold times_pow. apply Qmult_le_r; [apply pow_pos'; lia|]. apply Qle_shift_div_l; [apply inj_pos, HD|].
      rewrite <- inject_Z_mult, <- Zle_Qle. exact C. }
  unfold times_pow in *. change (inject_Z (2 ^ 24)) with (2 * inject_Z (2 ^ 23)). set (w := inject_Z (2 ^ 23)) in *.
  assert (W : 0 < w) by reflexivity. clearbody w. set (a := Qabs (q - x)) in *. clearbody a. set (g := inject_Z 2 ^ e) in *. clearbody g.
  change (inject_Z 1) with 1 in Hh. apply Qle_trans with (w * g); [|exact P].
  setoid_replace (a * (2 * w)) with (w * (2 * a)) by ring. rewrite Qmult_le_l by exact W. lra.
Qed.
Lemma six_same32 : forall x q r, is_six x -> times_pow 2 1 (-126) <= x -> x < times_pow 2 (2 ^ 25 - 1) 103 -> nearest_float x q -> 0 < q -> nearest_six q r -> r == x.
Proof.
  intros x q r Sx Nor Big Nq Pq Nr. pose proof (nearest_six_pos q r Pq Nr) as Pr.
  assert (Px : 0 < x) by (assert (0 < times_pow 2 1 (-126)) by (unfold Qlt; vm_compute; reflexivity); lra).
  assert (Close : Qabs (r - q) <= Qabs (q - x)).
  { destruct Nr as [_ Min]. rewrite (abs_sym q x). destruct (Qeq_dec x r) as [E|N]; [rewrite E; apply Qle_refl|].
    destruct (Min x Sx N) as [C|[C _]]; lra. }
  pose proof (near32 x q Nor Big Nq) as Rel.
  destruct Sx as (m & k & Bm & Em). destruct (proj1 Nr) as (m' & k' & Bm' & Em'). apply (six_gap20 m k m' k' x r); try assumption.
  assert (Tri : Qabs (r - x) <= Qabs (r - q) + Qabs (q - x)).
  { setoid_replace (r - x) with ((r - q) + (q - x)) by ring. apply Qabs_triangle. }
  assert (A0 : 0 <= Qabs (q - x)) by apply Qabs_nonneg.
  assert (B0 : Qabs (q - x) * inject_Z (2 ^ 24) <= x).
  { eapply Qle_trans; [|exact Rel]. rewrite !(Qmult_comm (Qabs (q - x))). apply Qmult_le_compat_r; [|exact A0]. rewrite <- Zle_Qle. discriminate. }
  change (inject_Z (2 ^ 24)) with 16777216 in B0. change (inject_Z (10 ^ 6)) with 1000000.
  set (a := Qabs (r - x)) in *. set (b := Qabs (q - x)) in *. set (c := Qabs (r - q)) in *. clearbody a b c. lra.
Qed.
