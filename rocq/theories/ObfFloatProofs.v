(** Obfuscated floats. *)
From Coq Require Import String Ascii ZArith NArith Arith Bool Lia List QArith Qabs Qround Qpower Lqa.
From Coq Require Import Floats.SpecFloat.
From Verif Require Import Common Base64Model Base64Proofs CmdModel CastModel JsonNumModel JsonSpec JsonNumProofs JsonReadProofs JsonExactProofs RoundProofs Round32Proofs RealSpec RealProofs RealTextProofs FltModel FltSpec Flt32Proofs FltGapProofs FltTextProofs Flt32ReadProofs Flt32TopProofs ObfModel AngleModel AngleSpec FloatOpsProofs ObfFloatModel ObfFloatSpec.
Import ListNotations.
Local Open Scope Q_scope.

(** *** Reading from a stream *)
Lemma stream_text : forall t neg m e, starts_with t neg m e -> stream_float t = stream_scaled neg m e.
Proof.
  intros t neg m e (bl & sg & d & rest & -> & Fb & Sg & Td & Nm).
  assert (Sc : forall b, stream_number b (d ++ rest) = stream_scaled b m e).
  { intros b. destruct Td as (ip & dot & fp & ex & ev & -> & Hd & N & F1 & F2 & X & -> & ->). rewrite <- !app_assoc.
    unfold stream_number. rewrite (mantissa_tail ip dot fp ex ev rest Hd N F1 F2 X Nm), (exponent_tail ex ev rest X Nm).
    assert (Ch : is_char rest "e" || is_char rest "E" = false).
    { destruct rest as [|c rest]; [reflexivity|]. cbn [is_char]. rewrite (Ascii.eqb_sym "e" c), (Ascii.eqb_sym "E" c).
      rewrite !(no_more_char c rest _ Nm) by (cbn; auto). reflexivity. }
    rewrite Ch, to_number_digits. destruct ip, fp; try reflexivity. now destruct N. }
  destruct (text_head d m e Td) as (c & r & -> & H1 & H2 & H3). unfold stream_float.
  destruct Sg as [(-> & ->)|[(-> & ->)|(-> & ->)]]; cbn [app] in *.
  - rewrite (skip_blanks bl (c :: r ++ rest) Fb H1), H2, H3. apply Sc.
  - rewrite (skip_blanks bl ("+"%char :: c :: r ++ rest) Fb eq_refl). change (Ascii.eqb "+" "-") with false. change (Ascii.eqb "+" "+") with true. cbv iota. apply Sc.
  - rewrite (skip_blanks bl ("-"%char :: c :: r ++ rest) Fb eq_refl). change (Ascii.eqb "-" "-") with true. cbv iota. apply Sc.
Qed.
Lemma stream_ratio_near : forall neg n d, let y := inject_Z (Zpos n) / inject_Z (Zpos d) in in_range y ->
  exists q, float_is (stream_ratio neg n d) q /\ nearest_float (sgn_of neg y) q /\ has_sign (stream_ratio neg n d) neg.
Proof.
  intros neg n d y Rg. pose proof (inj_pos (Zpos d) ltac:(lia)) as PD. pose proof (inj_pos (Zpos n) ltac:(lia)) as PN.
  assert (PX : 0 < y) by (apply Qlt_shift_div_l; [exact PD|lra]). unfold in_range in Rg. rewrite Qabs_pos in Rg by lra.
  destruct (ratio_round neg n d) as (N & D & R & e & HD & HN & Hr & HR & He & Hc & Hx & Hp). fold y in Hx.
  assert (Hc' : (e = -149 \/ 2 ^ 23 <= R)%Z) by (destruct Hc as [C|C]; [left; exact C|right; apply (nearest_ge N D R); assumption]).
  pose proof (proj2 (fits32 N D R e y HD HN Hr HR He Hc Hx) Rg) as Fits.
  pose proof (pack_value neg R e HR He Fits Hc') as [V1 V2]. pose proof (pack_sign32 neg R e) as Sg.
  pose proof (rounded_nearest N D R e _ HD Hr HR He Hc Hx Fits) as Near.
  set (f := pack neg R e) in *. clearbody f. exists (sgn_of neg (times_pow 2 R e)).
  assert (Fin : stream_ratio neg n d = f).
  { unfold stream_ratio. change (SFdiv 24 128 (S754_finite neg n 0) (S754_finite false d 0)) with (float_ratio neg n d). rewrite Hp.
    destruct f; try reflexivity; contradiction. }
  rewrite Fin. refine (conj (conj V1 V2) (conj _ Sg)). apply sgn_nearest32, Near.
Qed.
Lemma stream_scaled_near : forall neg m e, (0 <= m)%Z -> let y := times_pow 10 m e in in_range y ->
  exists q, float_is (stream_scaled neg m e) q /\ nearest_float (sgn_of neg y) q /\ has_sign (stream_scaled neg m e) neg.
Proof.
  intros neg m e Hm y Rg. unfold y in *. clear y. unfold stream_scaled. destruct m as [|p|p]; [| |lia].
  - exists 0. refine (conj (conj eq_refl _) (conj _ eq_refl)); [reflexivity|].
    apply (nearest_wd 0); [destruct neg; cbn [sgn_of]; rewrite times_zero; reflexivity|apply self_nearest, zero_float].
  - assert (E : exists n d, (if (0 <=? e)%Z then stream_ratio neg (p * Z.to_pos (10 ^ e)) 1 else stream_ratio neg p (Z.to_pos (10 ^ (- e)))) =
       stream_ratio neg n d /\ times_pow 10 (Zpos p) e == inject_Z (Zpos n) / inject_Z (Zpos d)).
    { unfold times_pow. destruct (Z.leb_spec 0 e) as [L|L].
      - exists (p * Z.to_pos (10 ^ e))%positive, 1%positive. split; [reflexivity|].
        assert (0 < 10 ^ e)%Z by (apply Z.pow_pos_nonneg; lia).
        rewrite Pos2Z.inj_mul, Z2Pos.id by lia. rewrite inject_Z_mult, Zpower_Qpower by lia. change (inject_Z 1) with 1. field.
      - exists p, (Z.to_pos (10 ^ (- e))). split; [reflexivity|]. assert (0 < 10 ^ (- e))%Z by (apply Z.pow_pos_nonneg; lia).
        rewrite Z2Pos.id by lia. rewrite Zpower_Qpower by lia. rewrite Qpower_opp. field. apply pow_nz. lia. }
    destruct E as (n & d & E1 & E2). rewrite E1.
    destruct (stream_ratio_near neg n d) as (q & H1 & H2 & H3).
    { apply (in_range_wd _ _ E2), Rg. }
    exists q. refine (conj H1 (conj _ H3)). apply (nearest_wd (sgn_of neg (inject_Z (Zpos n) / inject_Z (Zpos d)))); [|exact H2].
    destruct neg; cbn [sgn_of]; rewrite E2; reflexivity.
Qed.

(** *** Six digits *)
Lemma six_above : forall m k r s, (10 ^ 5 <= m < 10 ^ 6)%Z -> r == times_pow 10 m k -> is_six s -> r < s -> times_pow 10 (m + 1) k <= s.
Proof.
  intros m k r s Bm Er (m' & k' & Bm' & Es) L. pose proof (pow_pos' 10 k ltac:(lia)) as P. pose proof (pow_pos' 10 k' ltac:(lia)) as P'.
  assert (Pr : 0 < r).
  { rewrite Er. unfold times_pow. apply Qmult_lt_0_compat; [|exact P]. change 0 with (inject_Z 0). rewrite <- Zlt_Qlt. lia. }
  assert (Pm : (0 < m')%Z).
  { destruct (Z.lt_ge_cases 0 m') as [C|C]; [exact C|exfalso]. assert (s <= 0); [|lra]. rewrite Es. unfold times_pow.
    setoid_replace 0 with (0 * inject_Z 10 ^ k') by ring. apply Qmult_le_r; [exact P'|]. change 0 with (inject_Z 0). rewrite <- Zle_Qle. exact C. }
  destruct (Z.le_gt_cases k k') as [C|C].
  - rewrite (times_shift 10 m' k k') in Es by lia. rewrite Er, Es in L. rewrite Es. unfold times_pow in *. rewrite Qmult_lt_r in L by exact P.
    rewrite Qmult_le_r by exact P. rewrite <- Zlt_Qlt in L. rewrite <- Zle_Qle. lia.
  - exfalso. rewrite (times_shift 10 m k' k) in Er by lia. rewrite Er, Es in L. unfold times_pow in L. rewrite Qmult_lt_r in L by exact P'.
    rewrite <- Zlt_Qlt in L. assert (10 ^ 1 <= 10 ^ (k - k'))%Z by (apply Z.pow_le_mono_r; lia). nia.
Qed.
Lemma six_min : forall q r s, nearest_six q r -> is_six s -> Qabs (r - q) <= Qabs (s - q).
Proof.
  intros q r s [_ Min] Hs. destruct (Qeq_dec s r) as [E|N]; [rewrite E; apply Qle_refl|]. destruct (Min s Hs N) as [C|[C _]]; lra.
Qed.
Lemma six_unique_lt : forall q r s, 0 < q -> nearest_six q r -> nearest_six q s -> r < s -> False.
Proof.
  intros q r s Pq Hr Hs L. pose proof (nearest_six_pos q r Pq Hr) as Pr. pose proof (nearest_six_pos q s Pq Hs) as Ps.
  pose proof (six_min q r s Hr (proj1 Hs)) as L1. pose proof (six_min q s r Hs (proj1 Hr)) as L2.
  assert (Er : even_six r).
  { destruct Hs as [Hs1 Hs2], Hr as [Hr1 Hr2]. destruct (Hr2 s Hs1) as [C|[_ C]]; [intros E; lra|lra|exact C]. }
  assert (Es : even_six s).
  { destruct Hs as [Hs1 Hs2], Hr as [Hr1 Hr2]. destruct (Hs2 r Hr1) as [C|[_ C]]; [intros E; lra|lra|exact C]. }
  destruct Er as (m & k & Bm & Ev & Er). pose proof (pow_pos' 10 k ltac:(lia)) as P.
  assert (Pm : (0 < m)%Z).
  { destruct (Z.lt_ge_cases 0 m) as [C|C]; [exact C|exfalso]. assert (r <= 0); [|lra]. rewrite Er. unfold times_pow.
    setoid_replace 0 with (0 * inject_Z 10 ^ k) by ring. apply Qmult_le_r; [exact P|]. change 0 with (inject_Z 0). rewrite <- Zle_Qle. exact C. }
  assert (Bm2 : (m + 1 < 10 ^ 6)%Z) by (destruct (Z.eq_dec m 999999) as [->|]; [discriminate Ev|lia]).
  pose proof (six_above m k r s ltac:(lia) Er (proj1 Hs) L) as G.
  assert (Sx : is_six (times_pow 10 (m + 1) k)) by (exists (m + 1)%Z, k; split; [lia|reflexivity]).
  pose proof (six_min q r _ Hr Sx) as L3.
  assert (G2 : r < times_pow 10 (m + 1) k).
  { rewrite Er. unfold times_pow. apply Qmult_lt_r; [exact P|]. rewrite <- Zlt_Qlt. lia. }
  assert (Eq : s == times_pow 10 (m + 1) k).
  { set (x := times_pow 10 (m + 1) k) in *. clearbody x. revert L1 L2 L3. repeat apply Qabs_case; intros; lra. }
  destruct Es as (m' & k' & Bm' & Ev' & Es). rewrite Es in Eq.
  destruct (Z.le_gt_cases k k') as [C|C].
  - rewrite (times_shift 10 m' k k') in Eq by lia. apply times_inj in Eq; [|lia]. destruct (Z.eq_dec k k') as [->|Nk].
    + rewrite Z.sub_diag, Z.pow_0_r, Z.mul_1_r in Eq. subst m'. rewrite Z.even_add, Ev in Ev'. discriminate Ev'.
    + assert (10 ^ 1 <= 10 ^ (k' - k))%Z by (apply Z.pow_le_mono_r; lia). nia.
  - rewrite (times_shift 10 (m + 1) k' k) in Eq by lia. apply times_inj in Eq; [|lia].
    assert (10 ^ 1 <= 10 ^ (k - k'))%Z by (apply Z.pow_le_mono_r; lia). nia.
Qed.
Lemma six_unique : forall q r s, 0 < q -> nearest_six q r -> nearest_six q s -> r == s.
Proof.
  intros q r s Pq Hr Hs. destruct (Q_dec r s) as [[L|L]|E]; [exfalso|exfalso|exact E].
  - exact (six_unique_lt q r s Pq Hr Hs L).
  - exact (six_unique_lt q s r Pq Hs Hr L).
Qed.
Lemma six_in_range : forall q r, 0 < q -> q <= times_pow 2 (2 ^ 24 - 1) 104 -> nearest_six q r -> in_range r.
Proof.
  intros q r Pq Hq Hr. pose proof (nearest_six_pos q r Pq Hr) as Pr. unfold in_range. rewrite Qabs_pos by lra.
  assert (A : 2 * times_pow 2 (2 ^ 24 - 1) 104 < times_pow 10 340282 33 + times_pow 10 340283 33) by (vm_compute; reflexivity).
  assert (B : times_pow 10 340282 33 < times_pow 2 (2 ^ 25 - 1) 103) by (vm_compute; reflexivity).
  assert (Sx : is_six (times_pow 10 340282 33)) by (exists 340282%Z, 33%Z; split; [lia|reflexivity]).
  pose proof (six_min q r _ Hr Sx) as Mn.
  assert (U : times_pow 10 340282 33 < r -> times_pow 10 340283 33 <= r).
  { intros L. apply (six_above 340282 33 (times_pow 10 340282 33)); [lia|reflexivity|exact (proj1 Hr)|exact L]. }
  set (a := times_pow 10 340282 33) in *. set (b := times_pow 10 340283 33) in *. set (c := times_pow 2 (2 ^ 24 - 1) 104) in *. clearbody a b c.
  destruct (Qlt_le_dec a r) as [L|L]; [|lra]. exfalso. specialize (U L). revert Mn. repeat apply Qabs_case; intros; lra.
Qed.

(** *** What is kept *)
Lemma get_set : forall f, obind (obff_set f) obff_get = Ok (stream_float (toStr_float f)).
Proof.
  intros f. unfold obff_set, obff_get. pose proof (print_length (widen f)) as Ln. pose proof (roundtrip (toStr_float f)) as R.
  destruct (Base64Encode (toStr_float f)) as [o| | |]; cbn [obind] in *; try (specialize (R ltac:(unfold toStr_float; lia)); discriminate R).
  rewrite R by (unfold toStr_float; lia). reflexivity.
Qed.
Definition keep (f : spec_float) : spec_float := stream_float (toStr_float f).
Lemma keep_zero : forall s, keep (S754_zero s) = S754_zero s.
Proof. intros []; vm_compute; reflexivity. Qed.
Lemma keep_value : forall f q, float_is f q -> ~ q == 0 -> exists (neg : bool) r y, (if neg then q < 0 else 0 < q) /\ nearest_six (Qabs q) r /\ in_range r /\
  nearest_float (sgn_of neg r) y /\ float_is (keep f) y /\ has_sign (keep f) neg.
Proof.
  intros f q [V H] Nz. destruct (write_float f q V H Nz) as (neg & r & t & Sn & Nr & P & Et).
  destruct (printed_starts32 r t neg P) as (m & e & T & Er).
  assert (Pq : 0 < Qabs q) by (destruct neg; [rewrite Qabs_neg by lra|rewrite Qabs_pos by lra]; lra).
  assert (Rg : in_range r) by (apply (six_in_range (Qabs q)); [exact Pq|apply float_max, (valid_float f), (conj V H)|exact Nr]).
  unfold keep. rewrite Et, (stream_text _ neg m e T).
  destruct (stream_scaled_near neg m e (text_nonneg _ _ _ _ T) (in_range_wd _ _ Er Rg)) as (y & H1 & H2 & H3).
  exists neg, r, y. refine (conj Sn (conj Nr (conj Rg (conj _ (conj H1 H3))))).
  apply (nearest_wd (sgn_of neg (times_pow 10 m e))); [destruct neg; cbn [sgn_of]; rewrite Er; reflexivity|exact H2].
Qed.
Lemma finite_value : forall s m e, valid_binary 24 128 (S754_finite s m e) = true ->
  exists q, float_is (S754_finite s m e) q /\ (if s then q < 0 else 0 < q).
Proof.
  intros s m e V. exists (times_pow 2 (if s then Zneg m else Zpos m) e). split; [split; [exact V|reflexivity]|].
  pose proof (pow_pos' 2 e ltac:(lia)) as P. pose proof (inj_pos (Zpos m) ltac:(lia)) as PM. unfold times_pow. destruct s; [|nra].
  change (Z.neg m) with (- Z.pos m)%Z. rewrite inject_Z_opp. nra.
Qed.
Lemma keep_kept : forall f, valid_binary 24 128 f = true -> kept f (keep f) /\ valid_binary 24 128 (keep f) = true.
Proof.
  intros f V. destruct f as [s|s| |s m e].
  - rewrite keep_zero. split; reflexivity.
  - split; [destruct s; vm_compute; reflexivity|destruct s; vm_compute; reflexivity].
  - split; vm_compute; reflexivity.
  - destruct (finite_value s m e V) as (q & F & Sq). assert (Nz : ~ q == 0) by (intros C; destruct s; lra).
    destruct (keep_value _ q F Nz) as (neg & r & y & Sn & Nr & _ & Ny & Fy & Sg).
    assert (neg = s) as -> by (destruct neg, s; try reflexivity; lra).
    split; [|exact (proj1 Fy)]. cbn [kept]. exists q, r, y. exact (conj (proj2 F) (conj Nr (conj Ny (conj Fy Sg)))).
Qed.
Lemma has_zero : forall f, has_value f 0 -> valid_binary 24 128 f = true -> exists s, f = S754_zero s.
Proof.
  intros [s|s| |s m e] H V; try contradiction; [exists s; reflexivity|exfalso].
  destruct (finite_value s m e V) as (q & F & Sq). pose proof (value_one _ _ _ F (conj V H)) as E. destruct s; lra.
Qed.
Lemma same_signed : forall f g q s, float_is f q -> float_is g q -> has_sign f s -> has_sign g s -> f = g.
Proof.
  intros f g q s F G Sf Sg. destruct (Qeq_dec q 0) as [E|Nz].
  - destruct (has_zero f) as [a ->]; [apply (float_is_wd f q 0 E F)|apply F|]. destruct (has_zero g) as [b ->]; [apply (float_is_wd g q 0 E G)|apply G|].
    cbn [has_sign] in *. congruence.
  - apply (same_value f g q); [apply F|apply G|apply F|apply G|exact Nz].
Qed.
Lemma kept_one : forall f g h, valid_binary 24 128 f = true -> kept f g -> kept f h -> g = h.
Proof.
  intros [s|s| |s m e] g h V; cbn [kept]; try (intros -> ->; reflexivity).
  intros (q & r & y & H & N & M & F & S) (q' & r' & y' & H' & N' & M' & F' & S').
  destruct (finite_value s m e V) as (p & Fp & Sp).
  pose proof (value_one _ _ _ Fp (conj V H)) as E1. pose proof (value_one _ _ _ Fp (conj V H')) as E2.
  assert (Pq : 0 < Qabs q) by (rewrite <- E1; destruct s; [rewrite Qabs_neg by lra|rewrite Qabs_pos by lra]; lra).
  assert (Er : r == r').
  { apply (six_unique (Qabs q)); [exact Pq|exact N|]. assert (E : Qabs q == Qabs q') by (rewrite <- E1, <- E2; reflexivity).
    destruct N' as [N1 N2]. split; [exact N1|]. intros x Hx Ne. destruct (N2 x Hx Ne) as [C|[C D]]; [left; rewrite E; exact C|right; split; [rewrite E; exact C|exact D]]. }
  assert (Rg : in_range (if s then - r else r)).
  { assert (R0 : in_range r) by (apply (six_in_range (Qabs q)); [exact Pq|apply float_max, (valid_float (S754_finite s m e)), (conj V H)|exact N]).
    unfold in_range in *. destruct s; [rewrite Qabs_opp|]; exact R0. }
  assert (Ey : y == y').
  { apply (nearest_unique (if s then - r else r)); [exact Rg|exact M|]. apply (nearest_wd (if s then - r' else r')); [|exact M']. destruct s; rewrite Er; reflexivity. }
  apply (same_signed g h y s); [exact F|apply (float_is_wd h y'); [symmetry; exact Ey|exact F']|exact S|exact S'].
Qed.
