(** Obfuscated floats: what survives, how much is lost, histories. *)
From Coq Require Import String Ascii ZArith NArith Arith Bool Lia List QArith Qabs Qround Qpower Lqa.
From Coq Require Import Floats.SpecFloat.
From Verif Require Import Common Base64Model CmdModel CastModel JsonNumModel JsonSpec JsonExactProofs RealSpec RealProofs RealTextProofs FltModel FltSpec Flt32Proofs FltTextProofs Flt32ReadProofs Flt32TopProofs ObfModel AngleModel AngleSpec FloatOpsProofs ObfFloatModel ObfFloatSpec ObfFloatProofs.
Import ListNotations.
Local Open Scope Q_scope.

(** *** What survives *)
Lemma ratio_stream : forall neg n d f, read_ratio 24 128 neg n d = Some f -> stream_ratio neg n d = f.
Proof.
  intros neg n d f. unfold read_ratio, stream_ratio. destruct (SFdiv 24 128 (S754_finite neg n 0) (S754_finite false d 0)); try discriminate;
    destruct (_ && _); congruence.
Qed.
Lemma stof_stream : forall t neg m e f, starts_with t neg m e -> sToFloat t = Ok f -> stream_float t = f.
Proof.
  intros t neg m e f T. unfold sToFloat. rewrite (stofd_text 24 128 t neg m e T), (stream_text t neg m e T). unfold read_scaled, stream_scaled.
  destruct m as [|p|p]; try congruence. destruct (0 <=? e)%Z; destruct (read_ratio _ _ _ _ _) eqn:E; try discriminate; intros [= <-]; apply ratio_stream, E.
Qed.
Definition unit : Q := times_pow 2 1 (-149).
Lemma float_units : forall q, is_float q -> exists n, q == times_pow 2 n (-149).
Proof. intros q (m & e & B & E). exists (m * 2 ^ (e - -149))%Z. rewrite E. apply times_shift; lia. Qed.
Lemma times_plus : forall a b k, times_pow 2 (a + b) k == times_pow 2 a k + times_pow 2 b k.
Proof. intros a b k. unfold times_pow. rewrite inject_Z_plus. ring. Qed.
Lemma small_near : forall a x r, 0 < a -> a <= times_pow 2 1 (-126) -> nearest_float x a -> Qabs (r - a) <= Qabs (x - a) -> nearest_float r a.
Proof.
  intros a x r Pa La [Fa Min] Hr. destruct (float_units a Fa) as [n En].
  assert (U0 : 0 < unit) by (unfold unit, Qlt; vm_compute; reflexivity).
  assert (Bn : (0 < n <= 2 ^ 23)%Z).
  { rewrite En in Pa, La. rewrite (times_shift 2 1 (-149) (-126)) in La by lia. apply times_le_iff in La. split; [|exact La].
    destruct (Z.lt_ge_cases 0 n) as [C|C]; [exact C|exfalso]. apply (times_le _ _ (-149)) in C. rewrite times_zero in C. lra. }
  assert (Up : is_float (a + unit)).
  { destruct (small_grid (n + 1) (-149) ltac:(lia) ltac:(lia)) as (m & e & B & E). exists m, e. split; [exact B|]. rewrite En. unfold unit. rewrite <- times_plus. exact E. }
  assert (Dn : is_float (a - unit)).
  { destruct (small_grid (n + -1) (-149) ltac:(lia) ltac:(lia)) as (m & e & B & E). exists m, e. split; [exact B|]. rewrite En. unfold unit.
    rewrite <- E, times_plus. change (-1)%Z with (- (1))%Z. rewrite times_opp. ring. }
  assert (Nu : ~ a + unit == a) by lra. assert (Nd : ~ a - unit == a) by lra.
  assert (Half : 2 * Qabs (x - a) < unit \/ 2 * Qabs (x - a) == unit /\ even_float a).
  { rewrite (abs_sym x a). destruct (Min _ Up Nu) as [C|[C D]]; destruct (Min _ Dn Nd) as [C'|[C' D']].
    - left. revert C C'. repeat apply Qabs_case; intros; lra.
    - assert (2 * Qabs (a - x) == unit \/ 2 * Qabs (a - x) < unit) by (revert C C'; repeat apply Qabs_case; intros; lra). tauto.
    - assert (2 * Qabs (a - x) == unit \/ 2 * Qabs (a - x) < unit) by (revert C C'; repeat apply Qabs_case; intros; lra). tauto.
    - left. revert C C'. repeat apply Qabs_case; intros; lra. }
  split; [exact Fa|]. intros p Hp Ne. destruct (float_units p Hp) as [n' En'].
  assert (Far : unit <= Qabs (p - a)).
  { assert (Nn : (n' <> n)%Z) by (intros ->; apply Ne; rewrite En', En; reflexivity).
    destruct (Z.lt_ge_cases n n') as [C|C].
    - assert (C1 : (n + 1 <= n')%Z) by lia. apply (times_le _ _ (-149)) in C1. rewrite times_plus in C1. rewrite <- En, <- En' in C1. fold unit in C1. rewrite Qabs_pos by lra. lra.
    - assert (C1 : (n' + 1 <= n)%Z) by lia. apply (times_le _ _ (-149)) in C1. rewrite times_plus in C1. rewrite <- En, <- En' in C1. fold unit in C1. rewrite Qabs_neg by lra. lra. }
  assert (Tri : Qabs (p - a) <= Qabs (p - r) + Qabs (r - a)).
  { setoid_replace (p - a) with ((p - r) + (r - a)) by ring. apply Qabs_triangle. }
  rewrite (abs_sym a r). destruct Half as [H|[H E]]; [left; lra|]. destruct (Qlt_le_dec (Qabs (r - a)) (Qabs (p - r))) as [L|L]; [left; exact L|right].
  split; [|exact E]. lra.
Qed.
Lemma sgn_twice : forall (s : bool) q, sgn_of s (sgn_of s q) == q.
Proof. intros [] q; cbn [sgn_of]; ring. Qed.
Lemma keep_same : forall f q, float_is f q -> ~ q == 0 -> (keep f = f <-> exists x, is_six x /\ in_range x /\ nearest_float x q).
Proof.
  intros f q F Nz. destruct (keep_value f q F Nz) as (neg & r & y & Sn & Nr & Rg & Ny & Fy & Sg). split.
  - intros E. rewrite E in Fy. exists (sgn_of neg r). split; [apply sgn_six32, Nr|].
    split; [unfold in_range in *; destruct neg; cbn [sgn_of]; [rewrite Qabs_opp|]; exact Rg|].
    apply (nearest_wd2 _ y); [exact (value_one _ _ _ Fy F)|exact Ny].
  - intros (x & Sx & Bx & Nx). destruct (Qlt_le_dec (times_pow 2 1 (-126)) (Qabs q)) as [L|L].
    + assert (B : sToFloat (toStr_float f) = Ok f) by (apply (back_float f q (proj1 F) (proj2 F) L); exists x; exact (conj Sx (conj Bx Nx))).
      destruct (write_float f q (proj1 F) (proj2 F) Nz) as (neg' & r' & t & _ & _ & P & Et). destruct (printed_starts32 r' t neg' P) as (m & e & T & _).
      unfold keep. rewrite Et in *. exact (stof_stream _ _ _ _ _ T B).
    + assert (Eq : sgn_of neg q == Qabs q) by (destruct neg; cbn [sgn_of]; [rewrite Qabs_neg by lra|rewrite Qabs_pos by lra]; reflexivity).
      assert (Pq : 0 < Qabs q) by (rewrite <- Eq; destruct neg; cbn [sgn_of]; lra).
      pose proof (nearest_wd2 _ _ _ Eq (sgn_nearest32 neg _ _ Nx)) as N1.
      assert (C : Qabs (r - Qabs q) <= Qabs (sgn_of neg x - Qabs q)) by (apply six_min; [exact Nr|apply sgn_six32, Sx]).
      pose proof (small_near _ _ _ Pq L N1 C) as N2. apply (sgn_nearest32 neg) in N2.
      assert (Eq2 : sgn_of neg (Qabs q) == q) by (destruct neg; cbn [sgn_of] in *; lra).
      apply (nearest_wd2 _ _ _ Eq2) in N2.
      assert (Ey : y == q).
      { apply (nearest_unique (sgn_of neg r)); [|exact Ny|exact N2]. unfold in_range in *. destruct neg; cbn [sgn_of]; [rewrite Qabs_opp|]; exact Rg. }
      apply (same_value _ _ q); [apply Fy|apply F|apply (float_is_wd _ y q Ey Fy)|apply F|exact Nz].
Qed.
Lemma keep_six : forall f, six_float_value f -> keep f = f.
Proof.
  intros f (q & F & H). destruct (Qeq_dec q 0) as [E|Nz].
  - destruct (has_zero f) as [s ->]; [apply (float_is_wd f q 0 E F)|apply F|apply keep_zero].
  - destruct H as [H|H]; [contradiction|]. apply (keep_same f q F Nz), H.
Qed.
Lemma keep_again : forall f, valid_binary 24 128 f = true -> keep (keep f) = keep f.
Proof.
  intros f V. destruct f as [s|s| |s m e]; [rewrite !keep_zero; reflexivity|destruct s; vm_compute; reflexivity|vm_compute; reflexivity|].
  destruct (finite_value s m e V) as (q & F & Sq). assert (Nz : ~ q == 0) by (intros C; destruct s; lra).
  destruct (keep_value _ q F Nz) as (neg & r & y & Sn & Nr & Rg & Ny & Fy & Sg). apply keep_six. exists y. split; [exact Fy|right].
  exists (sgn_of neg r). split; [apply sgn_six32, Nr|]. split; [unfold in_range in *; destruct neg; cbn [sgn_of]; [rewrite Qabs_opp|]; exact Rg|exact Ny].
Qed.
Lemma keep_six_iff : forall f, valid_binary 24 128 f = true -> (keep f = f <-> six_float_value f).
Proof.
  intros f V. split; [|apply keep_six]. intros E. destruct f as [s|s| |s m e].
  - exists 0. split; [split; reflexivity|left; reflexivity].
  - exfalso. destruct s; vm_compute in E; discriminate E.
  - exfalso. vm_compute in E. discriminate E.
  - destruct (finite_value s m e V) as (q & F & Sq). assert (Nz : ~ q == 0) by (intros C; destruct s; lra).
    exists q. split; [exact F|right]. apply (keep_same _ q F Nz), E.
Qed.
Lemma whole_six : forall z, (0 < Z.abs z <= 10 ^ 6)%Z -> is_six (inject_Z z).
Proof.
  assert (D : forall k z, (10 ^ (5 - k) <= Z.abs z < 10 ^ (6 - k))%Z -> (0 <= k <= 5)%Z -> is_six (inject_Z z)).
  { intros k z H Hk. exists (z * 10 ^ k)%Z, (- k)%Z. split.
    - rewrite Z.abs_mul, (Z.abs_eq (10 ^ k)) by (apply Z.pow_nonneg; lia).
      replace 5%Z with (5 - k + k)%Z at 1 by lia. replace 6%Z with (6 - k + k)%Z at 1 by lia. rewrite !Z.pow_add_r by lia.
      assert (0 < 10 ^ k)%Z by (apply Z.pow_pos_nonneg; lia). split; [apply Z.mul_le_mono_nonneg_r; lia|apply Z.mul_lt_mono_pos_r; lia].
    - unfold times_pow. rewrite inject_Z_mult, Zpower_Qpower by lia. rewrite Qpower_opp. field. apply pow_nz. lia. }
  intros z H. destruct (Z.lt_ge_cases (Z.abs z) 10); [apply (D 5%Z); lia|]. destruct (Z.lt_ge_cases (Z.abs z) 100); [apply (D 4%Z); lia|].
  destruct (Z.lt_ge_cases (Z.abs z) 1000); [apply (D 3%Z); lia|]. destruct (Z.lt_ge_cases (Z.abs z) 10000); [apply (D 2%Z); lia|].
  destruct (Z.lt_ge_cases (Z.abs z) 100000); [apply (D 1%Z); lia|]. destruct (Z.lt_ge_cases (Z.abs z) 1000000); [apply (D 0%Z); lia|].
  assert (Z.abs z = 10 ^ 6)%Z by lia. destruct (Z.abs_eq_or_opp z) as [E|E].
  - exists (10 ^ 5)%Z, 1%Z. split; [lia|]. replace z with (10 ^ 6)%Z by lia. reflexivity.
  - exists (- 10 ^ 5)%Z, 1%Z. split; [lia|]. replace z with (- 10 ^ 6)%Z by lia. reflexivity.
Qed.
Lemma keep_whole : forall f z, float_is f (inject_Z z) -> (Z.abs z <= 10 ^ 6)%Z -> keep f = f.
Proof.
  intros f z F H. apply keep_six. exists (inject_Z z). split; [exact F|]. destruct (Z.eq_dec z 0) as [->|N]; [left; reflexivity|right].
  exists (inject_Z z). split; [apply whole_six; lia|]. split; [apply float_in_range, (valid_float f), F|apply self_nearest, (valid_float f), F].
Qed.

(** *** How much is lost *)
Lemma six_error : forall q r, times_pow 10 1 (-324) <= q -> q < times_pow 10 1 309 -> nearest_six q r -> Qabs (r - q) <= (5 # 1000000) * q.
Proof.
  intros q r Lo Hi Nr. assert (Pq : 0 < q) by (assert (0 < times_pow 10 1 (-324)) by (unfold times_pow; apply Qmult_lt_0_compat; [reflexivity|apply pow_pos'; lia]); lra).
  destruct (as_ratio q Pq) as (n & d & Eq). destruct (decimal_exponent_spec 632 308 (Zpos n) (Zpos d) ltac:(lia)) as (B & L & H).
  { change (308 - Z.of_nat 632)%Z with (-324)%Z. rewrite <- Eq. exact Lo. }
  set (x := decimal_exponent 632 308 (Z.pos n) (Z.pos d)) in *. clearbody x. rewrite <- Eq in L, H.
  assert (Hx : q < times_pow 10 1 (x + 1)) by (destruct H as [->|H]; [exact Hi|exact H]). clear H Hi Lo B Eq n d.
  rewrite (times_shift 10 1 (x - 5) x) in L by lia. rewrite (times_shift 10 1 (x - 5) (x + 1)) in Hx by lia.
  replace (1 * 10 ^ (x - (x - 5)))%Z with 100000%Z in L by (replace (x - (x - 5))%Z with 5%Z by lia; reflexivity).
  replace (1 * 10 ^ (x + 1 - (x - 5)))%Z with 1000000%Z in Hx by (replace (x + 1 - (x - 5))%Z with 6%Z by lia; reflexivity).
  set (k := (x - 5)%Z) in *. clearbody k. pose proof (pow_pos' 10 k ltac:(lia)) as P. unfold times_pow in L, Hx. set (w := inject_Z 10 ^ k) in *.
  set (m := Qfloor (q / w + (1 # 2))). pose proof (Qfloor_le (q / w + (1 # 2))) as F1. pose proof (Qlt_floor (q / w + (1 # 2))) as F2. fold m in F1, F2.
  rewrite inject_Z_plus in F2. change (inject_Z 1) with 1 in F2.
  assert (G1 : inject_Z m * w <= q + (1 # 2) * w).
  { apply Qle_trans with ((q / w + (1 # 2)) * w); [apply Qmult_le_r; [exact P|exact F1]|]. rewrite Qmult_plus_distr_l. setoid_replace (q / w * w) with q by (field; lra). lra. }
  assert (G2 : q < inject_Z m * w + (1 # 2) * w).
  { assert (C : (q / w + (1 # 2)) * w < (inject_Z m + 1) * w) by (apply Qmult_lt_r; [exact P|exact F2]).
    rewrite Qmult_plus_distr_l in C. setoid_replace (q / w * w) with q in C by (field; lra). lra. }
  assert (Bm : (100000 <= m <= 1000000)%Z).
  { change (inject_Z 100000) with 100000 in L. change (inject_Z 1000000) with 1000000 in Hx. split.
    - destruct (Z.le_gt_cases 100000 m) as [C|C]; [exact C|exfalso]. assert (C' : (m <= 99999)%Z) by lia. rewrite Zle_Qle in C'.
      change (inject_Z 99999) with 99999 in C'. assert (inject_Z m * w <= 99999 * w) by (apply Qmult_le_r; assumption). lra.
    - destruct (Z.le_gt_cases m 1000000) as [C|C]; [exact C|exfalso]. assert (C' : (1000001 <= m)%Z) by lia. rewrite Zle_Qle in C'.
      change (inject_Z 1000001) with 1000001 in C'. assert (1000001 * w <= inject_Z m * w) by (apply Qmult_le_r; assumption). lra. }
  assert (Sx : is_six (times_pow 10 m k)).
  { destruct (Z.eq_dec m 1000000) as [->|N]; [|exists m, k; split; [lia|reflexivity]].
    exists 100000%Z, (k + 1)%Z. split; [lia|]. rewrite (times_shift 10 100000 k (k + 1)) by lia. replace (k + 1 - k)%Z with 1%Z by lia. reflexivity. }
  eapply Qle_trans; [apply (six_min q r _ Nr Sx)|]. unfold times_pow. fold w. change (inject_Z 100000) with 100000 in L.
  apply Qabs_case; intros; lra.
Qed.
Lemma keep_error : forall f q, float_is f q -> times_pow 2 1 (-126) <= Qabs q ->
  exists y, float_is (keep f) y /\ Qabs (y - q) <= (51 # 10000000) * Qabs q.
Proof.
  intros f q F L. assert (P0 : 0 < times_pow 2 1 (-126)) by (unfold Qlt; vm_compute; reflexivity).
  assert (Nz : ~ q == 0) by (intros C; rewrite C in L; change (Qabs 0) with 0 in L; lra).
  destruct (keep_value f q F Nz) as (neg & r & y & Sn & Nr & Rg & Ny & Fy & Sg). exists y. split; [exact Fy|].
  assert (Eq : sgn_of neg q == Qabs q) by (destruct neg; cbn [sgn_of]; [rewrite Qabs_neg by lra|rewrite Qabs_pos by lra]; reflexivity).
  pose proof (nearest_six_pos (Qabs q) r ltac:(lra) Nr) as Pr.
  assert (E6 : Qabs (r - Qabs q) <= (5 # 1000000) * Qabs q).
  { apply six_error; [eapply Qle_trans; [|exact L]; unfold Qle; vm_compute; discriminate| |exact Nr].
    eapply Qle_lt_trans; [apply float_max, (valid_float f q F)|]. unfold Qlt. vm_compute. reflexivity. }
  assert (N1 : nearest_float r (sgn_of neg y)) by (apply (nearest_wd (sgn_of neg (sgn_of neg r))); [apply sgn_twice|apply sgn_nearest32, Ny]).
  assert (Ed : Qabs (y - q) == Qabs (sgn_of neg y - Qabs q)).
  { rewrite <- Eq. destruct neg; cbn [sgn_of]; [|reflexivity]. rewrite <- Qabs_opp. setoid_replace (- (y - q)) with (- y - - q) by ring. reflexivity. }
  rewrite Ed. set (a := Qabs q) in *. set (z := sgn_of neg y) in *. clearbody z. clear Ny Ed Eq.
  assert (E2 : Qabs (z - r) * 16777216 <= a + (5 # 1000000) * a).
  { destruct (Qlt_le_dec r (times_pow 2 1 (-126))) as [C|C].
    - assert (D : Qabs (z - r) <= times_pow 2 1 (-149 - 1)).
      { apply (nearest_error r z (-149)); [lia| |exact N1]. rewrite Qabs_pos by lra. eapply Qle_trans; [apply Qlt_le_weak, C|]. unfold Qle. vm_compute. discriminate. }
      assert (E : times_pow 2 1 (-149 - 1) * 16777216 == times_pow 2 1 (-126)) by (vm_compute; reflexivity).
      assert (Qabs (z - r) * 16777216 <= times_pow 2 1 (-149 - 1) * 16777216) by (apply Qmult_le_compat_r; [exact D|lra]). 
      remember (times_pow 2 1 (-126)) as u. remember (times_pow 2 1 (-149 - 1)) as v. clear Hequ Heqv. lra.
    - pose proof (near32 r z C) as D. unfold in_range in Rg. rewrite Qabs_pos in Rg by lra. specialize (D Rg N1).
      change (inject_Z (2 ^ 24)) with 16777216 in D. revert E6 D. remember (Qabs (z - r)) as u. clear Hequ. apply Qabs_case; intros; lra. }
  assert (Tri : Qabs (z - a) <= Qabs (z - r) + Qabs (r - a)).
  { setoid_replace (z - a) with ((z - r) + (r - a)) by ring. apply Qabs_triangle. }
  remember (Qabs (z - r)) as u. remember (Qabs (z - a)) as v. remember (Qabs (r - a)) as w. lra.
Qed.

(** *** Histories *)
Lemma of_valid : forall x f, float_of x f -> valid_binary 24 128 f = true.
Proof. intros x f [[_ (q & F & _)]|[_ ->]]; [apply F|reflexivity]. Qed.
Lemma fin_or : forall f, valid_binary 24 128 f = true -> (exists q, float_is f q) \/ (exists s, f = S754_infinity s) \/ f = S754_nan.
Proof.
  intros [s|s| |s m e] V; [left; exists 0; split; reflexivity|right; left; exists s; reflexivity|right; right; reflexivity|].
  left. destruct (finite_value s m e V) as (q & F & _). exists q. exact F.
Qed.
Lemma plain_valid : forall cur op, valid_binary 24 128 cur = true -> operand op -> valid_binary 24 128 (plain cur op) = true.
Proof.
  intros cur [v|b v] Vc [Vv Hd]; [exact Vv|]. cbn [plain].
  destruct (fin_or cur Vc) as [(p & Fp)|[(s & ->)| ->]]; [destruct (fin_or v Vv) as [(q & Fq)|[(s & ->)| ->]]| |].
  - destruct b.
    + exact (of_valid _ _ (add_rounds _ _ _ _ Fp Fq)).
    + exact (of_valid _ _ (sub_rounds _ _ _ _ Fp Fq)).
    + exact (of_valid _ _ (mul_rounds _ _ _ _ Fp Fq)).
    + refine (of_valid _ _ (div_rounds _ _ _ _ Fp Fq _)). intros E. apply Hd, (float_is_wd v q 0 E Fq).
  - destruct b, cur as [z|z| |z m e]; try destruct z; destruct s; reflexivity.
  - destruct b, cur; reflexivity.
  - destruct b, v as [s'|s'| |s' m e]; destruct s; try destruct s'; reflexivity.
  - destruct b, v; reflexivity.
Qed.
Lemma eqb_zero : forall v, valid_binary 24 128 v = true -> (SFeqb v f0 = true <-> has_value v 0).
Proof.
  intros v V. destruct (fin_or v V) as [(q & F)|[(s & ->)| ->]].
  - rewrite (eqb_value v f0 q 0 F) by (split; reflexivity). split.
    + intros E. apply (float_is_wd v q 0 E F).
    + intros H. exact (value_one _ _ _ F (conj V H)).
  - split; [destruct s; discriminate|contradiction].
  - split; [discriminate|contradiction].
Qed.
Lemma set_some : forall f, exists o, obff_set f = Ok o /\ obff_get o = Ok (keep f).
Proof.
  intros f. pose proof (get_set f) as G. destruct (obff_set f) as [o| | |]; cbn [obind] in G; try discriminate G. exists o. split; [reflexivity|exact G].
Qed.
Lemma step_plain : forall o cur op, obff_get o = Ok cur -> operand op -> obff_step o op = obff_set (plain cur op).
Proof.
  intros o cur [v|b v] G [Vv Hd]; [reflexivity|]. cbn [obff_step]. rewrite G. cbn [obind plain]. destruct b; try reflexivity. cbn [float_op].
  destruct (SFeqb v f0) eqn:E; [|reflexivity]. exfalso. apply Hd, (eqb_zero v Vv), E.
Qed.
Fixpoint keeps (cur : spec_float) (h : list obff_op) : list spec_float :=
  match h with [] => [] | op :: h => keep (plain cur op) :: keeps (keep (plain cur op)) h end.
Lemma run_keeps : forall h o cur, obff_get o = Ok cur -> Forall operand h -> obff_run o h = Ok (keeps cur h).
Proof.
  induction h as [|op h IH]; intros o cur G F; [reflexivity|]. inversion F as [|? ? Ho Fh]; subst. cbn [obff_run keeps].
  rewrite (step_plain o cur op G Ho). destruct (set_some (plain cur op)) as (o' & E1 & E2). rewrite E1. cbn [obind]. rewrite E2. cbn [obind].
  rewrite (IH o' _ E2 Fh). reflexivity.
Qed.
Lemma start_keeps : forall v h, Forall operand h -> obff_start v h = Ok (keep v :: keeps (keep v) h).
Proof.
  intros v h F. unfold obff_start. destruct (set_some v) as (o & E1 & E2). rewrite E1. cbn [obind]. rewrite E2. cbn [obind].
  rewrite (run_keeps h o _ E2 F). reflexivity.
Qed.
Lemma keeps_history : forall h cur, valid_binary 24 128 cur = true -> Forall operand h -> obf_history cur h (keeps cur h).
Proof.
  induction h as [|op h IH]; intros cur V F; [exact I|]. inversion F as [|? ? Ho Fh]; subst. cbn [keeps obf_history].
  destruct (keep_kept (plain cur op) (plain_valid cur op V Ho)) as [K Vk]. split; [exact K|]. apply IH; assumption.
Qed.
Lemma history_one : forall h cur vs ws, valid_binary 24 128 cur = true -> Forall operand h -> obf_history cur h vs -> obf_history cur h ws -> vs = ws.
Proof.
  induction h as [|op h IH]; intros cur [|v vs] [|w ws] V F H1 H2; cbn [obf_history] in *; try contradiction; [reflexivity|].
  inversion F as [|? ? Ho Fh]; subst. destruct H1 as [K1 H1], H2 as [K2 H2].
  pose proof (plain_valid cur op V Ho) as Vp. destruct (keep_kept _ Vp) as [K Vk].
  rewrite (kept_one _ _ _ Vp K1 K) in *. rewrite (kept_one _ _ _ Vp K2 K) in *. f_equal. exact (IH _ vs ws Vk Fh H1 H2).
Qed.
Lemma start_history : forall v h, valid_binary 24 128 v = true -> Forall operand h ->
  exists v0 vs, obff_start v h = Ok (v0 :: vs) /\ kept v v0 /\ obf_history v0 h vs /\
    forall w0 ws, kept v w0 -> obf_history w0 h ws -> w0 = v0 /\ ws = vs.
Proof.
  intros v h V F. destruct (keep_kept v V) as [K Vk]. exists (keep v), (keeps (keep v) h).
  refine (conj (start_keeps v h F) (conj K (conj (keeps_history h _ Vk F) _))).
  intros w0 ws K0 Hw. rewrite (kept_one _ _ _ V K0 K) in *. split; [reflexivity|]. exact (history_one h _ _ _ Vk F Hw (keeps_history h _ Vk F)).
Qed.
Lemma run_app : forall h o cur w rest, obff_get o = Ok cur -> Forall operand h -> SFeqb w f0 = true -> obff_run o (h ++ FBin Div w :: rest) = UB.
Proof.
  induction h as [|op h IH]; intros o cur w rest G F W.
  - cbn [app obff_run obff_step]. rewrite G. cbn [obind float_op]. rewrite W. reflexivity.
  - inversion F as [|? ? Ho Fh]; subst. cbn [app obff_run]. rewrite (step_plain o cur op G Ho).
    destruct (set_some (plain cur op)) as (o' & E1 & E2). rewrite E1. cbn [obind]. rewrite E2. cbn [obind]. rewrite (IH o' _ w rest E2 Fh W). reflexivity.
Qed.
Lemma start_div_zero : forall v h w rest, Forall operand h -> valid_binary 24 128 w = true -> has_value w 0 -> obff_start v (h ++ FBin Div w :: rest) = UB.
Proof.
  intros v h w rest F V H. unfold obff_start. destruct (set_some v) as (o & E1 & E2). rewrite E1. cbn [obind]. rewrite E2. cbn [obind].
  rewrite (run_app h o _ w rest E2 F); [reflexivity|]. apply eqb_zero; assumption.
Qed.
Lemma keeps_plain : forall h cur, Forall six_float_value (plain_history cur h) -> cur :: keeps cur h = plain_history cur h.
Proof.
  induction h as [|op h IH]; intros cur F; [reflexivity|]. cbn [plain_history keeps] in *. inversion F as [|? ? _ Fh]; subst.
  assert (S : six_float_value (plain cur op)) by (destruct h; cbn [plain_history] in Fh; inversion Fh; assumption).
  rewrite (keep_six _ S). f_equal. apply IH, Fh.
Qed.
Lemma start_plain : forall v h, Forall operand h -> Forall six_float_value (plain_history v h) -> obff_start v h = Ok (plain_history v h).
Proof.
  intros v h F S. rewrite (start_keeps v h F). assert (Sv : six_float_value v) by (destruct h; cbn [plain_history] in S; inversion S; assumption).
  rewrite (keep_six v Sv), (keeps_plain h v S). reflexivity.
Qed.

(** *** Counting *)
Definition one : spec_float := S754_finite false 8388608 (-23).
Definition million : spec_float := S754_finite false 16000000 (-4).
Lemma whole_float : forall z, (Z.abs z <= 2 ^ 24)%Z -> is_float (inject_Z z).
Proof.
  intros z H. destruct (small_grid z 0 H ltac:(lia)) as (m & e & B & E). exists m, e. split; [exact B|]. rewrite <- E. unfold times_pow. cbn [Qpower]. ring.
Qed.
Lemma count_step : forall f z, float_is f (inject_Z z) -> (0 <= z <= 10 ^ 6)%Z -> float_is (keep (SFadd 24 128 f one)) (inject_Z (Z.min (z + 1) (10 ^ 6))).
Proof.
  intros f z F B. destruct (Z.eq_dec z (10 ^ 6)) as [->|N].
  - assert (f = million) as ->; [|change (Z.min (10 ^ 6 + 1) (10 ^ 6)) with 1000000%Z; vm_compute; split; reflexivity].
    apply (same_value f million (inject_Z (10 ^ 6))); [apply F|reflexivity|apply F|reflexivity|discriminate].
  - assert (O : float_is one 1) by (split; reflexivity). pose proof (add_rounds f one _ _ F O) as A.
    apply exact_is in A.
    + rewrite Z.min_l by lia. rewrite inject_Z_plus. change (inject_Z 1) with 1.
      assert (A' : float_is (SFadd 24 128 f one) (inject_Z (z + 1))) by (apply (float_is_wd _ (inject_Z z + 1)); [rewrite inject_Z_plus; reflexivity|exact A]).
      rewrite (keep_whole _ (z + 1) A') by lia. exact A.
    + destruct (whole_float (z + 1) ltac:(lia)) as (m & e & Bm & E). exists m, e. split; [exact Bm|]. rewrite <- E, inject_Z_plus. reflexivity.
Qed.
Lemma count_keeps : forall n f z, float_is f (inject_Z z) -> (0 <= z <= 10 ^ 6)%Z ->
  length (keeps f (repeat (FBin Add one) n)) = n /\
  forall i g, nth_error (keeps f (repeat (FBin Add one) n)) i = Some g -> float_is g (inject_Z (Z.min (z + Z.of_nat i + 1) (10 ^ 6))).
Proof.
  induction n as [|n IH]; intros f z F B; cbn [repeat keeps plain].
  - split; [reflexivity|]. intros [|i] g E; discriminate E.
  - pose proof (count_step f z F B) as C. destruct (IH _ _ C ltac:(lia)) as [L Hn]. split; [cbn [length]; rewrite L; reflexivity|].
    intros [|i] g E; cbn [nth_error] in E.
    + injection E as <-. change (Z.of_nat 0) with 0%Z. rewrite Z.add_0_r. exact C.
    + specialize (Hn i g E). replace (Z.min (z + Z.of_nat (S i) + 1) (10 ^ 6)) with (Z.min (Z.min (z + 1) (10 ^ 6) + Z.of_nat i + 1) (10 ^ 6)) by lia. exact Hn.
Qed.
Lemma count_all : forall n, exists vs, obff_start (S754_zero false) (repeat (FBin Add one) n) = Ok vs /\ length vs = S n /\
  forall i g, nth_error vs i = Some g -> float_is g (inject_Z (Z.min (Z.of_nat i) (10 ^ 6))).
Proof.
  intros n. rewrite start_keeps.
  2:{ apply Forall_forall. intros op H. apply repeat_spec in H. subst op. split; [reflexivity|exact I]. }
  rewrite keep_zero. assert (Z0 : float_is (S754_zero false) (inject_Z 0)) by (split; reflexivity).
  destruct (count_keeps n (S754_zero false) 0 Z0 ltac:(lia)) as [L Hn]. set (ks := keeps (S754_zero false) (repeat (FBin Add one) n)) in *. clearbody ks.
  exists (S754_zero false :: ks). split; [reflexivity|]. split; [exact (f_equal S L)|].
  intros [|i] g E; cbn [nth_error] in E; [injection E as <-; exact Z0|]. specialize (Hn i g E).
  replace (Z.min (Z.of_nat (S i)) (10 ^ 6)) with (Z.min (0 + Z.of_nat i + 1) (10 ^ 6)) by lia. exact Hn.
Qed.
Lemma near_3e38 : nearest_float (times_pow 10 3 38) (times_pow 2 14791142 104).
Proof.
  assert (D : float_is (stream_scaled false 3 38) (times_pow 2 14791142 104)) by (split; vm_compute; reflexivity).
  destruct (stream_scaled_near false 3 38 ltac:(lia)) as (q & F & N & _); [unfold in_range, Qlt; vm_compute; reflexivity|].
  exact (nearest_wd2 _ _ _ (value_one _ _ _ F D) N).
Qed.
