(** Single precision (24 bits, largest exponent 128): division and multiplication round to nearest, ties to even. *)
From Coq Require Import String Ascii ZArith NArith Arith Bool Lia List.
From Coq Require Import Floats.SpecFloat.
From Verif Require Import Common JsonNumModel JsonExactProofs RoundProofs.
Import ListNotations.
Local Open Scope Z_scope.

Definition pack (neg : bool) (R e : Z) : spec_float :=
  if R =? 0 then S754_zero neg
  else if R =? 2 ^ 24 then if e + 1 <=? 104 then S754_finite neg (Z.to_pos (2 ^ 23)) (e + 1) else S754_infinity neg
  else if e <=? 104 then S754_finite neg (Z.to_pos R) e else S754_infinity neg.

Lemma log2_lt24 : forall R, 0 < R < 2 ^ 24 -> Z.log2 R <= 23.
Proof. intros R H. assert (Z.log2 R < 24) by (apply Z.log2_lt_pow2; lia). lia. Qed.
Lemma fexp_bounds : forall x, fexp 24 128 x = Z.max (x - 24) (-149).
Proof. intros x. unfold fexp, emin. lia. Qed.

Lemma pack_shift : forall neg R e e0, 0 <= R <= 2 ^ 24 -> e = Z.max e0 (-149) ->
  (let '(y, e2) := shr_fexp 24 128 R e loc_Exact in
   match shr_m y with
   | 0 => S754_zero neg
   | Z.pos m => if e2 <=? 128 - 24 then S754_finite neg m e2 else S754_infinity neg
   | Z.neg _ => S754_nan
   end) = pack neg R e.
Proof.
  intros neg R e e0 B He. unfold shr_fexp, pack. rewrite fexp_bounds.
  destruct (Z.eqb_spec R 0) as [->|N0].
  - cbn [Zdigits2 shr_record_of_loc]. destruct (Z.max (0 + e - 24) (-149) - e) as [|p|p] eqn:En; [reflexivity|lia|reflexivity].
  - destruct (Z.eqb_spec R (2 ^ 24)) as [->|N1].
    + rewrite zdigits_log by lia. rewrite Z.log2_pow2 by lia.
      replace (Z.max (24 + 1 + e - 24) (-149) - e) with 1 by lia. reflexivity.
    + rewrite zdigits_log by lia. pose proof (log2_lt24 R ltac:(lia)) as L.
      destruct (Z.max (Z.log2 R + 1 + e - 24) (-149) - e) as [|p|p] eqn:En; [|lia|]; cbn [shr shr_record_of_loc shr_m];
      destruct R as [|q|q]; try lia; reflexivity.
Qed.

Lemma round_aux_spec : forall neg N D e, 0 < D -> 0 <= N ->
  let q := N / D in let e' := Z.max (Zdigits2 q + e - 24) (-149) in
  e <= e' ->
  exists R, nearest N (2 ^ (e' - e) * D) R /\
    binary_round_aux 24 128 neg q e (new_location D (N mod D)) = pack neg R e'.
Proof.
  intros neg N D e HD HN q e' He. unfold binary_round_aux.
  assert (Es : shr_fexp 24 128 q e (new_location D (N mod D)) =
    shr (shr_record_of_loc q (new_location D (N mod D))) e (e' - e)).
  { unfold shr_fexp. rewrite fexp_bounds. reflexivity. }
  rewrite Es. pose proof (rep_shr _ e (e' - e) N D HD HN ltac:(lia) (rep_div N D HD HN)) as [R1 R2]. fold q in R1, R2.
  destruct (shr (shr_record_of_loc q (new_location D (N mod D))) e (e' - e)) as [x e1] eqn:Ex.
  cbn [fst snd] in R1, R2. assert (e1 = e') as -> by lia.
  assert (PD : 0 < 2 ^ (e' - e)) by (apply Z.pow_pos_nonneg; lia).
  assert (PDD : 0 < 2 ^ (e' - e) * D) by (apply Z.mul_pos_pos; assumption).
  pose proof (rep_round x N (2 ^ (e' - e) * D) PDD R1) as NR.
  set (R := round_nearest_even (shr_m x) (loc_of_shr_record x)) in *. exists R. split; [exact NR|].
  pose proof (nearest_nonneg _ _ _ PDD HN NR) as RP.
  assert (Hq : N < (q + 1) * D) by (pose proof (Z.mod_pos_bound N D HD); pose proof (Z_div_mod_eq_full N D); unfold q; nia).
  assert (Q2 : q + 1 <= 2 ^ (e' - e) * 2 ^ 24).
  { rewrite <- Z.pow_add_r by lia. assert (0 <= q) by (apply Z.div_pos; lia).
    destruct (Z.eq_dec q 0) as [->|Nq]; [assert (1 <= 2 ^ (e' - e + 24)) by (apply (Z.pow_le_mono_r 2 0); lia); lia|].
    assert (Zdigits2 q <= e' - e + 24) by lia. rewrite zdigits_log in H0 by lia.
    pose proof (Z.log2_spec q ltac:(lia)) as [_ L].
    assert (2 ^ Z.succ (Z.log2 q) <= 2 ^ (e' - e + 24)) by (apply Z.pow_le_mono_r; lia). lia. }
  assert (RB : R <= 2 ^ 24).
  { destruct NR as [NR _]. set (P := 2 ^ (e' - e)) in *. clearbody P R q.
    assert (N < P * D * 2 ^ 24) by nia.
    destruct (Z.le_gt_cases R (2 ^ 24)) as [L|L]; [exact L|exfalso].
    assert (P * D * (2 ^ 24 + 1) <= R * (P * D)) by nia. lia. }
  rewrite (pack_shift neg R e' (Zdigits2 q + e - 24)); [reflexivity|lia|reflexivity].
Qed.

(** The quotient of two floats: the exact quotient as N/D * 2^e, rounded at e'. *)
Lemma SFdiv_spec : forall s1 m1 e1 s2 m2 e2, exists e s R,
  let N := Zpos m1 * 2 ^ s in let q := N / Zpos m2 in let e' := Z.max (Zdigits2 q + e - 24) (-149) in
  e = Z.min (Z.max (Zdigits2 (Zpos m1) + e1 - (Zdigits2 (Zpos m2) + e2) - 24) (-149)) (e1 - e2) /\
  s = e1 - e2 - e /\ 0 <= s /\ e <= e' /\
  nearest N (2 ^ (e' - e) * Zpos m2) R /\
  SFdiv 24 128 (S754_finite s1 m1 e1) (S754_finite s2 m2 e2) = pack (xorb s1 s2) R e'.
Proof.
  intros s1 m1 e1 s2 m2 e2. unfold SFdiv, SFdiv_core_binary. rewrite fexp_bounds.
  set (e := Z.min (Z.max (Zdigits2 (Z.pos m1) + e1 - (Zdigits2 (Z.pos m2) + e2) - 24) (-149)) (e1 - e2)).
  set (s := e1 - e2 - e). assert (Hs : 0 <= s) by lia.
  assert (Em : match s with 0 => Z.pos m1 | Z.pos _ => Z.shiftl (Z.pos m1) s | Z.neg _ => 0 end = Zpos m1 * 2 ^ s).
  { destruct s as [|p|p]; [lia| |lia]. rewrite Z.shiftl_mul_pow2 by lia. reflexivity. }
  rewrite Em. clear Em.
  assert (P : 0 < 2 ^ s) by (apply Z.pow_pos_nonneg; lia).
  assert (PN : 0 < Zpos m1 * 2 ^ s) by (apply Z.mul_pos_pos; lia).
  pose proof (digits_div (Zpos m1 * 2 ^ s) (Zpos m2) PN ltac:(lia)) as Dg.
  rewrite (zdigits_log (Zpos m1 * 2 ^ s)) in Dg by lia. rewrite log2_mul_pow2 in Dg by lia.
  assert (He : e <= Z.max (Zdigits2 (Zpos m1 * 2 ^ s / Zpos m2) + e - 24) (-149)).
  { pose proof (zdigits_log (Zpos m1) ltac:(lia)). lia. }
  destruct (round_aux_spec (xorb s1 s2) (Zpos m1 * 2 ^ s) (Zpos m2) e ltac:(lia) ltac:(lia) He) as [R [HR ER]].
  exists e, s, R. split; [reflexivity|]. split; [reflexivity|]. split; [exact Hs|]. split; [exact He|]. split; [exact HR|].
  unfold Z.div, Z.modulo in ER. unfold Z.div. destruct (Z.div_eucl (Z.pos m1 * 2 ^ s) (Z.pos m2)) as [q r]. exact ER.
Qed.
