(** Division of doubles rounds to nearest, ties to even. *)
From Coq Require Import String Ascii ZArith NArith Arith Bool Lia List.
From Coq Require Import Floats.SpecFloat.
From Verif Require Import Common JsonNumModel JsonExactProofs.
Import ListNotations.
Local Open Scope Z_scope.

(** [R] is a whole number nearest to N/D, the even one of two. *)
Definition nearest (N D R : Z) : Prop :=
  2 * Z.abs (R * D - N) <= D /\ (2 * Z.abs (R * D - N) = D -> Z.even R = true).

(** What a shift record says about N/D. *)
Definition rep (x : shr_record) (N D : Z) : Prop :=
  let k := N - shr_m x * D in
  0 <= k < D /\ (shr_r x = true <-> D <= 2 * k) /\ (shr_s x = true <-> (2 * k <> 0 /\ 2 * k <> D)).

Lemma zeq_eqb : forall a b, Zeq_bool a b = (a =? b).
Proof. intros a b. pose proof (Zeq_is_eq_bool a b). destruct (Zeq_bool a b), (Z.eqb_spec a b); intuition congruence. Qed.
Lemma rep_div : forall N D, 0 < D -> 0 <= N -> rep (shr_record_of_loc (N / D) (new_location D (N mod D))) N D.
Proof.
  intros N D HD HN. pose proof (Z_div_mod_eq_full N D) as E. pose proof (Z.mod_pos_bound N D HD) as B.
  set (q := N / D) in *. set (r := N mod D) in *. clearbody q r.
  assert (Ek : N - q * D = r) by lia.
  assert (K : forall l, (let x := shr_record_of_loc q l in
     (shr_r x = true <-> D <= 2 * r) /\ (shr_s x = true <-> (2 * r <> 0 /\ 2 * r <> D))) -> rep (shr_record_of_loc q l) N D).
  { intros l H. unfold rep. assert (Em : shr_m (shr_record_of_loc q l) = q) by (destruct l as [|[]]; reflexivity).
    rewrite Em, Ek. split; [exact B|exact H]. }
  apply K. clear K Ek E. cbv zeta. unfold new_location.
  destruct (Z.even D) eqn:Ev.
  - unfold new_location_even. rewrite zeq_eqb. destruct (Z.eqb_spec r 0) as [->|Hr];
      [|destruct (Z.compare_spec (2 * r) D) as [C|C|C]]; cbn [shr_record_of_loc shr_r shr_s];
      repeat split; intros; try reflexivity; try discriminate; lia.
  - apply (f_equal negb) in Ev. rewrite Z.negb_even in Ev. apply Z.odd_spec in Ev. destruct Ev as [h Ev].
    unfold new_location_odd. rewrite zeq_eqb. destruct (Z.eqb_spec r 0) as [->|Hr];
      [|destruct (Z.compare_spec (2 * r + 1) D) as [C|C|C]]; cbn [shr_record_of_loc shr_r shr_s];
      repeat split; intros; try reflexivity; try discriminate; lia.
Qed.

Lemma shr_1_half : forall x, 0 <= shr_m x ->
  shr_m (shr_1 x) = shr_m x / 2 /\ shr_r (shr_1 x) = Z.odd (shr_m x) /\ shr_s (shr_1 x) = (shr_r x || shr_s x).
Proof.
  intros [m r s] H. cbn [shr_m] in H. destruct m as [|p|p]; [cbn; auto| |lia].
  destruct p as [p|p|]; cbn [shr_1 shr_m shr_r shr_s Z.odd]; (split; [|split; reflexivity]).
  - rewrite (Pos2Z.inj_xI p). rewrite Z.add_comm, Z.mul_comm, Z_div_plus_full by lia. reflexivity.
  - rewrite (Pos2Z.inj_xO p). rewrite Z.mul_comm, Z_div_mult_full by lia. reflexivity.
  - reflexivity.
Qed.
Lemma rep_shr_1 : forall x N D, 0 < D -> 0 <= N -> rep x N D -> rep (shr_1 x) N (2 * D).
Proof.
  intros x N D HD HN R. pose proof R as R0. unfold rep in R. destruct R as [B [Hr Hs]].
  assert (Hm : 0 <= shr_m x) by nia. destruct (shr_1_half x Hm) as [E1 [E2 E3]].
  unfold rep. rewrite E1, E2, E3. pose proof (Z.div_mod (shr_m x) 2 ltac:(lia)) as Dm.
  rewrite Zmod_odd in Dm. set (h := shr_m x / 2) in *. clearbody h.
  destruct (Z.odd (shr_m x)) eqn:Eo.
  - assert (Ek : N - h * (2 * D) = N - shr_m x * D + D) by (rewrite Dm; ring).
    split; [lia|]. split; [split; [lia|reflexivity]|].
    destruct (shr_r x) eqn:Er, (shr_s x) eqn:Es; cbn [orb]; lia.
  - assert (Ek : N - h * (2 * D) = N - shr_m x * D) by (rewrite Dm; ring).
    split; [lia|]. split; [split; [discriminate|lia]|].
    destruct (shr_r x) eqn:Er, (shr_s x) eqn:Es; cbn [orb]; lia.
Qed.
Lemma rep_iter : forall p x N D, 0 < D -> 0 <= N -> rep x N D -> rep (iter_pos shr_1 p x) N (2 ^ Zpos p * D).
Proof.
  induction p as [p IH|p IH|]; intros x N D HD HN R; cbn [iter_pos].
  - pose proof (IH (shr_1 x) N (2 * D) ltac:(lia) HN (rep_shr_1 _ _ _ HD HN R)) as R1.
    assert (P : 0 < 2 ^ Zpos p) by lia.
    pose proof (IH _ N (2 ^ Zpos p * (2 * D)) ltac:(nia) HN R1) as R2.
    replace (2 ^ Zpos p~1 * D) with (2 ^ Zpos p * (2 ^ Zpos p * (2 * D))); [exact R2|].
    rewrite (Pos2Z.inj_xI p). rewrite Z.pow_add_r, Z.pow_twice_r by lia. ring.
  - pose proof (IH x N D HD HN R) as R1. assert (P : 0 < 2 ^ Zpos p) by lia.
    pose proof (IH _ N (2 ^ Zpos p * D) ltac:(nia) HN R1) as R2.
    replace (2 ^ Zpos p~0 * D) with (2 ^ Zpos p * (2 ^ Zpos p * D)); [exact R2|].
    rewrite (Pos2Z.inj_xO p). rewrite Z.pow_twice_r by lia. ring.
  - change (2 ^ 1) with 2. apply rep_shr_1; assumption.
Qed.
Lemma rep_shr : forall x e n N D, 0 < D -> 0 <= N -> 0 <= n -> rep x N D ->
  rep (fst (shr x e n)) N (2 ^ n * D) /\ snd (shr x e n) = e + n.
Proof.
  intros x e n N D HD HN Hn R. destruct n as [|p|p]; [| |lia]; cbn [shr fst snd].
  - rewrite Z.mul_1_l. split; [exact R|lia].
  - split; [apply rep_iter; assumption|reflexivity].
Qed.
Lemma rep_round : forall x N D, 0 < D -> rep x N D ->
  nearest N D (round_nearest_even (shr_m x) (loc_of_shr_record x)).
Proof.
  intros [m r s] N D HD R. unfold rep in R. cbn [shr_m shr_r shr_s] in R. cbv zeta in R. destruct R as [B [Hr Hs]].
  cbn [shr_m]. unfold nearest. set (k := N - m * D) in *.
  assert (Ed : m * D - N = - k) by lia. assert (Eu : (m + 1) * D - N = D - k) by lia. clearbody k.
  destruct r, s; cbn [loc_of_shr_record round_nearest_even].
  - rewrite Eu. lia.
  - destruct (Z.even m) eqn:Ev.
    + rewrite Ed. split; [lia|auto].
    + rewrite Eu. split; [lia|]. intros _. rewrite Z.even_add, Ev. reflexivity.
  - rewrite Ed. lia.
  - rewrite Ed. lia.
Qed.

(** The double for R * 2^e, with at most 53 bits in [R] and one more when it is a power of two. *)
Definition pack (neg : bool) (R e : Z) : double :=
  if R =? 0 then S754_zero neg
  else if R =? 2 ^ 53 then if e + 1 <=? 971 then S754_finite neg (Z.to_pos (2 ^ 52)) (e + 1) else S754_infinity neg
  else if e <=? 971 then S754_finite neg (Z.to_pos R) e else S754_infinity neg.

Lemma log2_lt53 : forall R, 0 < R < 2 ^ 53 -> Z.log2 R <= 52.
Proof. intros R H. assert (Z.log2 R < 53) by (apply Z.log2_lt_pow2; lia). lia. Qed.
Lemma nearest_nonneg : forall N D R, 0 < D -> 0 <= N -> nearest N D R -> 0 <= R.
Proof. intros N D R HD HN [H _]. nia. Qed.

Lemma fexp_bounds : forall x, fexp 53 1024 x = Z.max (x - 53) (-1074).
Proof. intros x. unfold fexp, emin. lia. Qed.

Lemma pack_shift : forall neg R e e0, 0 <= R <= 2 ^ 53 -> e = Z.max e0 (-1074) ->
  (let '(y, e2) := shr_fexp 53 1024 R e loc_Exact in
   match shr_m y with
   | 0 => S754_zero neg
   | Z.pos m => if e2 <=? 1024 - 53 then S754_finite neg m e2 else S754_infinity neg
   | Z.neg _ => S754_nan
   end) = pack neg R e.
Proof.
  intros neg R e e0 B He. unfold shr_fexp, pack. rewrite fexp_bounds.
  destruct (Z.eqb_spec R 0) as [->|N0].
  - cbn [Zdigits2 shr_record_of_loc]. destruct (Z.max (0 + e - 53) (-1074) - e) as [|p|p] eqn:En; [reflexivity|lia|reflexivity].
  - destruct (Z.eqb_spec R (2 ^ 53)) as [->|N1].
    + rewrite zdigits_log by lia. rewrite Z.log2_pow2 by lia.
      replace (Z.max (53 + 1 + e - 53) (-1074) - e) with 1 by lia. reflexivity.
    + rewrite zdigits_log by lia. pose proof (log2_lt53 R ltac:(lia)) as L.
      destruct (Z.max (Z.log2 R + 1 + e - 53) (-1074) - e) as [|p|p] eqn:En; [|lia|]; cbn [shr shr_record_of_loc shr_m];
      destruct R as [|q|q]; try lia; reflexivity.
Qed.

Lemma round_aux_spec : forall neg N D e, 0 < D -> 0 <= N ->
  let q := N / D in let e' := Z.max (Zdigits2 q + e - 53) (-1074) in
  e <= e' ->
  exists R, nearest N (2 ^ (e' - e) * D) R /\
    binary_round_aux 53 1024 neg q e (new_location D (N mod D)) = pack neg R e'.
Proof.
  intros neg N D e HD HN q e' He. unfold binary_round_aux.
  assert (Es : shr_fexp 53 1024 q e (new_location D (N mod D)) =
    shr (shr_record_of_loc q (new_location D (N mod D))) e (e' - e)).
  { unfold shr_fexp. rewrite fexp_bounds. reflexivity. }
  rewrite Es. pose proof (rep_shr _ e (e' - e) N D HD HN ltac:(lia) (rep_div N D HD HN)) as [R1 R2]. fold q in R1, R2.
  destruct (shr (shr_record_of_loc q (new_location D (N mod D))) e (e' - e)) as [x e1] eqn:Ex.
  cbn [fst snd] in R1, R2. assert (e1 = e') as -> by lia.
  assert (PD : 0 < 2 ^ (e' - e)) by (apply Z.pow_pos_nonneg; lia).
  assert (PDD : 0 < 2 ^ (e' - e) * D) by (apply Z.mul_pos_pos; assumption).
  pose proof (rep_round x N (2 ^ (e' - e) * D) PDD R1) as NR.
  set (R := round_nearest_even (shr_m x) (loc_of_shr_record x)) in *. exists R. split; [exact NR|].
  pose proof (nearest_nonneg _ _ _ PDD HN NR) as RP.
  assert (Hq : N < (q + 1) * D) by (pose proof (Z.mod_pos_bound N D HD); pose proof (Z_div_mod_eq_full N D); unfold q; nia).
  assert (Q2 : q + 1 <= 2 ^ (e' - e) * 2 ^ 53).
  { rewrite <- Z.pow_add_r by lia. assert (0 <= q) by (apply Z.div_pos; lia).
    destruct (Z.eq_dec q 0) as [->|Nq]; [assert (1 <= 2 ^ (e' - e + 53)) by (apply (Z.pow_le_mono_r 2 0); lia); lia|].
    assert (Zdigits2 q <= e' - e + 53) by lia. rewrite zdigits_log in H0 by lia.
    pose proof (Z.log2_spec q ltac:(lia)) as [_ L].
    assert (2 ^ Z.succ (Z.log2 q) <= 2 ^ (e' - e + 53)) by (apply Z.pow_le_mono_r; lia). lia. }
  assert (RB : R <= 2 ^ 53).
  { destruct NR as [NR _]. set (P := 2 ^ (e' - e)) in *. clearbody P R q.
    assert (N < P * D * 2 ^ 53) by nia.
    destruct (Z.le_gt_cases R (2 ^ 53)) as [L|L]; [exact L|exfalso].
    assert (P * D * (2 ^ 53 + 1) <= R * (P * D)) by nia. lia. }
  rewrite (pack_shift neg R e' (Zdigits2 q + e - 53)); [reflexivity|lia|reflexivity].
Qed.

Lemma digits_div : forall a b, 0 < a -> 0 < b -> Zdigits2 a - Zdigits2 b <= Zdigits2 (a / b).
Proof.
  intros a b Ha Hb. rewrite (zdigits_log a), (zdigits_log b) by lia.
  assert (Q0 : 0 <= a / b) by (apply Z.div_pos; lia).
  destruct (Z.eq_dec (a / b) 0) as [E|E].
  - rewrite E. cbn [Zdigits2]. apply Z.div_small_iff in E; [|lia].
    assert (Z.log2 a <= Z.log2 b) by (apply Z.log2_le_mono; lia). lia.
  - rewrite zdigits_log by lia.
    pose proof (Z.log2_spec a Ha) as [A1 A2]. pose proof (Z.log2_spec b Hb) as [B1 B2].
    pose proof (Z.log2_spec (a / b) ltac:(lia)) as [C1 C2].
    pose proof (Z.log2_nonneg a). pose proof (Z.log2_nonneg b). pose proof (Z.log2_nonneg (a / b)).
    destruct (Z.le_gt_cases (Z.log2 a - Z.log2 b) (Z.log2 (a / b) + 1)) as [L|L]; [lia|exfalso].
    assert (Hm : a < (a / b + 1) * b).
    { pose proof (Z.mod_pos_bound a b Hb). pose proof (Z_div_mod_eq_full a b). nia. }
    assert (X : (a / b + 1) * b <= 2 ^ Z.succ (Z.log2 (a / b)) * 2 ^ Z.succ (Z.log2 b)) by (apply Z.mul_le_mono_nonneg; lia).
    rewrite <- Z.pow_add_r in X by lia.
    assert (2 ^ (Z.succ (Z.log2 (a / b)) + Z.succ (Z.log2 b)) <= 2 ^ Z.log2 a) by (apply Z.pow_le_mono_r; lia). lia.
Qed.

(** The quotient of two doubles: the exact quotient as N/D * 2^e, rounded at e'. *)
Lemma SFdiv_spec : forall s1 m1 e1 s2 m2 e2, exists e s R,
  let N := Zpos m1 * 2 ^ s in let q := N / Zpos m2 in let e' := Z.max (Zdigits2 q + e - 53) (-1074) in
  e = Z.min (Z.max (Zdigits2 (Zpos m1) + e1 - (Zdigits2 (Zpos m2) + e2) - 53) (-1074)) (e1 - e2) /\
  s = e1 - e2 - e /\ 0 <= s /\ e <= e' /\
  nearest N (2 ^ (e' - e) * Zpos m2) R /\
  SFdiv 53 1024 (S754_finite s1 m1 e1) (S754_finite s2 m2 e2) = pack (xorb s1 s2) R e'.
Proof.
  intros s1 m1 e1 s2 m2 e2. unfold SFdiv, SFdiv_core_binary. rewrite fexp_bounds.
  set (e := Z.min (Z.max (Zdigits2 (Z.pos m1) + e1 - (Zdigits2 (Z.pos m2) + e2) - 53) (-1074)) (e1 - e2)).
  set (s := e1 - e2 - e). assert (Hs : 0 <= s) by lia.
  assert (Em : match s with 0 => Z.pos m1 | Z.pos _ => Z.shiftl (Z.pos m1) s | Z.neg _ => 0 end = Zpos m1 * 2 ^ s).
  { destruct s as [|p|p]; [lia| |lia]. rewrite Z.shiftl_mul_pow2 by lia. reflexivity. }
  rewrite Em. clear Em.
  assert (P : 0 < 2 ^ s) by (apply Z.pow_pos_nonneg; lia).
  assert (PN : 0 < Zpos m1 * 2 ^ s) by (apply Z.mul_pos_pos; lia).
  pose proof (digits_div (Zpos m1 * 2 ^ s) (Zpos m2) PN ltac:(lia)) as Dg.
  rewrite (zdigits_log (Zpos m1 * 2 ^ s)) in Dg by lia. rewrite log2_mul_pow2 in Dg by lia.
  assert (He : e <= Z.max (Zdigits2 (Zpos m1 * 2 ^ s / Zpos m2) + e - 53) (-1074)).
  { pose proof (zdigits_log (Zpos m1) ltac:(lia)). lia. }
  destruct (round_aux_spec (xorb s1 s2) (Zpos m1 * 2 ^ s) (Zpos m2) e ltac:(lia) ltac:(lia) He) as [R [HR ER]].
  exists e, s, R. split; [reflexivity|]. split; [reflexivity|]. split; [exact Hs|]. split; [exact He|]. split; [exact HR|].
  unfold Z.div, Z.modulo in ER. unfold Z.div. destruct (Z.div_eucl (Z.pos m1 * 2 ^ s) (Z.pos m2)) as [q r]. exact ER.
Qed.
