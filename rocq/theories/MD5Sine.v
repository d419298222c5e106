(** The sine series at a whole number, and the proof that the constants of MD5 are the integer parts of 2^32 |sin i|. *)
From Coq Require Import ZArith NArith QArith Qabs Bool List Lia.
From Verif Require Import MD5SineSpec MD5Spec.
Import ListNotations.
Local Open Scope Q_scope.

(** ** The tail of the series *)
Definition mag (z : Z) (k : nat) : Q := inject_Z (z ^ (2 * Z.of_nat k + 1)) / inject_Z (factorial (2 * k + 1)).
Lemma factorial_pos : forall n, (0 < factorial n)%Z.
Proof. induction n as [|n IH]; cbn [factorial]; [reflexivity|]. apply Z.mul_pos_pos; [lia|exact IH]. Qed.
Lemma inject_pos : forall a, (0 < a)%Z -> 0 < inject_Z a.
Proof. intros a H. change 0 with (inject_Z 0). now rewrite <- Zlt_Qlt. Qed.
Lemma factorial_next : forall k, factorial (2 * S k + 1) = ((2 * Z.of_nat k + 3) * (2 * Z.of_nat k + 2) * factorial (2 * k + 1))%Z.
Proof.
  intros k. replace (2 * S k + 1)%nat with (S (S (2 * k + 1))) by lia. cbn [factorial].
  replace (Z.of_nat (S (S (2 * k + 1)))) with (2 * Z.of_nat k + 3)%Z by lia. replace (Z.of_nat (S (2 * k + 1))) with (2 * Z.of_nat k + 2)%Z by lia. ring.
Qed.
Lemma mag_pos : forall z k, (0 < z)%Z -> 0 < mag z k.
Proof.
  intros z k H. unfold mag. apply Qlt_shift_div_l; [apply inject_pos, factorial_pos|]. rewrite Qmult_0_l. apply inject_pos, Z.pow_pos_nonneg; lia.
Qed.
Lemma mag_next : forall z k, (0 < z)%Z -> (z <= Z.of_nat k)%Z -> 2 * mag z (S k) <= mag z k.
Proof.
  intros z k H K. pose proof (mag_pos z k H) as P. unfold mag in *.
  rewrite factorial_next. replace (z ^ (2 * Z.of_nat (S k) + 1))%Z with (z * z * z ^ (2 * Z.of_nat k + 1))%Z.
  2: { replace (2 * Z.of_nat (S k) + 1)%Z with (2 + (2 * Z.of_nat k + 1))%Z by lia. rewrite (Z.pow_add_r z 2) by lia. f_equal. ring. }
  pose proof (factorial_pos (2 * k + 1)) as F. set (f := factorial (2 * k + 1)) in *. set (p := (z ^ (2 * Z.of_nat k + 1))%Z) in *.
  assert (PP : (0 < p)%Z) by (apply Z.pow_pos_nonneg; lia). clearbody f p.
  set (g := ((2 * Z.of_nat k + 3) * (2 * Z.of_nat k + 2))%Z). assert (G : (2 * (z * z) <= g)%Z) by (unfold g; nia). assert (G0 : (0 < g)%Z) by nia. clearbody g.
  rewrite !inject_Z_mult. setoid_replace (2 * (inject_Z z * inject_Z z * inject_Z p / (inject_Z g * inject_Z f)))
    with ((2 * inject_Z z * inject_Z z / inject_Z g) * (inject_Z p / inject_Z f)).
  2: { field. split; intros X; [apply inject_pos in F; rewrite X in F|apply inject_pos in G0; rewrite X in G0]; discriminate || now apply Qlt_irrefl in F || now apply Qlt_irrefl in G0. }
  rewrite <- (Qmult_1_l (inject_Z p / inject_Z f)) at 2. apply Qmult_le_compat_r; [|now apply Qlt_le_weak].
  apply Qle_shift_div_r; [now apply inject_pos|]. rewrite Qmult_1_l. change 2 with (inject_Z 2). rewrite <- !inject_Z_mult, <- Zle_Qle. lia.
Qed.
Lemma term_abs : forall z k, (0 < z)%Z -> Qabs (sine_term z k) == mag z k.
Proof.
  intros z k H. pose proof (mag_pos z k H) as P. unfold sine_term. fold (mag z k).
  destruct (Nat.even k); cbv iota.
  - rewrite Qabs_pos; [reflexivity|now apply Qlt_le_weak].
  - rewrite Qabs_opp, Qabs_pos; [reflexivity|now apply Qlt_le_weak].
Qed.
Lemma tail : forall z N d, (0 < z)%Z -> (z <= Z.of_nat N)%Z -> Qabs (sine_sum z (d + N) - sine_sum z N) <= 2 * mag z N - 2 * mag z (d + N).
Proof.
  intros z N d H K. induction d as [|d IH].
  - cbn [Nat.add]. setoid_replace (sine_sum z N - sine_sum z N) with 0 by ring. setoid_replace (2 * mag z N - 2 * mag z N) with 0 by ring. apply Qle_refl.
  - cbn [Nat.add sine_sum]. pose proof (mag_next z (d + N) H ltac:(lia)) as M.
    setoid_replace (sine_sum z (d + N) + sine_term z (d + N) - sine_sum z N) with ((sine_sum z (d + N) - sine_sum z N) + sine_term z (d + N)) by ring.
    eapply Qle_trans; [apply Qabs_triangle|]. rewrite term_abs by exact H.
    apply Qle_trans with (2 * mag z N - 2 * mag z (d + N) + mag z (d + N)); [now apply Qplus_le_l|].
    setoid_replace (2 * mag z N - 2 * mag z (d + N) + mag z (d + N)) with (2 * mag z N - mag z (d + N)) by ring.
    unfold Qminus. apply Qplus_le_r. now apply Qopp_le_compat.
Qed.
(** ** Computing partial sums with whole numbers *)
Fixpoint run (z : Z) (n : nat) : Z * Z * Z :=   (* numerator, (2n-1)!, power *)
  match n with
  | O => (0, 1, z)%Z
  | S k => let '(a, d, p) := run z k in
      let e := (match k with O => 1 | _ => 2 * Z.of_nat k * (2 * Z.of_nat k + 1) end)%Z in
      (a * e + (if Nat.even k then p else - p), d * e, p * (z * z))%Z
  end.
Lemma run_ok : forall z n, (0 < z)%Z -> let '(a, d, p) := run z n in
  (0 < d)%Z /\ p = (z ^ (2 * Z.of_nat n + 1))%Z /\ sine_sum z n == inject_Z a / inject_Z d /\
  d = match n with O => 1%Z | S k => factorial (2 * k + 1) end.
Proof.
  intros z n H. induction n as [|k IH].
  - cbn [run]. split; [lia|]. split; [symmetry; apply Z.pow_1_r|]. split; [reflexivity|reflexivity].
  - cbn [run]. destruct (run z k) as ((a, d), p). destruct IH as (D & P & E & F).
    set (e := (match k with O => 1 | _ => 2 * Z.of_nat k * (2 * Z.of_nat k + 1) end)%Z).
    assert (DE : (d * e)%Z = factorial (2 * k + 1)).
    { unfold e. rewrite F. destruct k as [|k]; [reflexivity|]. rewrite factorial_next. replace (Z.of_nat (S k)) with (Z.of_nat k + 1)%Z by lia. ring. }
    assert (E0 : (0 < e)%Z) by (unfold e; destruct k; lia).
    split; [lia|]. split.
    { rewrite P. replace (2 * Z.of_nat (S k) + 1)%Z with (2 * Z.of_nat k + 1 + 2)%Z by lia. rewrite (Z.pow_add_r z _ 2) by lia. f_equal. ring. }
    split; [|exact DE]. cbn [sine_sum]. rewrite E. unfold sine_term. rewrite <- DE, <- P. clear - D E0.
    apply inject_pos in D, E0. rewrite inject_Z_plus, !inject_Z_mult.
    assert (ND : ~ inject_Z d == 0) by (intros X; rewrite X in D; now apply Qlt_irrefl in D).
    assert (NE : ~ inject_Z e == 0) by (intros X; rewrite X in E0; now apply Qlt_irrefl in E0).
    destruct (Nat.even k); [|rewrite inject_Z_opp]; field; now split.
Qed.
Definition terms : nat := 130.
Definition ok (z : Z) (t : N) : bool :=
  let '(a, d, p) := run z terms in
  let e := (2 * Z.of_nat terms * (2 * Z.of_nat terms + 1))%Z in
  let T := Z.of_N t in
  (((1000 * T + 1) * (d * e) + 1000 * 2 ^ 32 * (2 * p) <=? 1000 * 2 ^ 32 * Z.abs a * e) &&
   (1000 * 2 ^ 32 * Z.abs a * e + 1000 * 2 ^ 32 * (2 * p) <=? (1000 * T + 999) * (d * e)))%Z.
Lemma all_ok : forallb (fun i => ok (Z.of_nat (S i)) (nth i Ttable 0%N)) (seq 0 64) = true.
Proof. vm_compute. reflexivity. Qed.
Lemma constants_ok : forall i n, (1 <= i <= 64)%nat -> (130 <= n)%nat ->
  let T := inject_Z (Z.of_N (nth (i - 1) Ttable 0%N)) in
  T + (1 # 1000) <= inject_Z (2 ^ 32) * Qabs (sine_sum (Z.of_nat i) n) <= T + (999 # 1000).
Proof.
  intros i n Hi Hn T. pose proof all_ok as A. rewrite forallb_forall in A. specialize (A (i - 1)%nat). rewrite in_seq in A. specialize (A ltac:(lia)).
  replace (S (i - 1)) with i in A by lia. unfold T. set (t := nth (i - 1) Ttable 0%N) in *. clearbody t. clear T.
  set (z := Z.of_nat i) in *. assert (Z0 : (0 < z)%Z) by (unfold z; lia). assert (Z1 : (z <= Z.of_nat terms)%Z) by (unfold z, terms; lia).
  pose proof (tail z terms (n - terms) Z0 Z1) as B. replace (n - terms + terms)%nat with n in B by (unfold terms; lia).
  pose proof (mag_pos z n Z0) as M. unfold ok in A. pose proof (run_ok z terms Z0) as R. clearbody z.
  assert (FN : factorial (2 * terms + 1) = (2 * Z.of_nat terms * (2 * Z.of_nat terms + 1) * factorial (2 * (terms - 1) + 1))%Z).
  { unfold terms. rewrite (factorial_next 129). f_equal. }
  unfold mag at 1 in B. rewrite FN in B. clear FN.
  destruct (run z terms) as ((a, d), p). destruct R as (D & P & E & F). unfold terms in F at 1. change (2 * (terms - 1) + 1)%nat with (2 * 129 + 1)%nat in B.
  rewrite <- F, <- P in B. clear F P. 
  set (e := (2 * Z.of_nat terms * (2 * Z.of_nat terms + 1))%Z) in *. assert (E0 : (0 < e)%Z) by (unfold e, terms; lia). clearbody e.
  apply andb_true_iff in A as (A1 & A2). apply Z.leb_le in A1, A2. rewrite E in B. clear E.
  set (s := sine_sum z n) in *. clearbody s.
  assert (AB : Qabs (inject_Z a / inject_Z d) == inject_Z (Z.abs a) / inject_Z d).
  { unfold Qdiv. rewrite Qabs_Qmult. rewrite (Qabs_pos (/ inject_Z d)); [reflexivity|]. apply Qinv_le_0_compat, Qlt_le_weak, inject_pos, D. }
  assert (UP : Qabs s <= inject_Z (Z.abs a) / inject_Z d + 2 * (inject_Z p / inject_Z (e * d))).
  { rewrite <- AB. setoid_replace s with (inject_Z a / inject_Z d + (s - inject_Z a / inject_Z d)) by ring.
    eapply Qle_trans; [apply Qabs_triangle|]. apply Qplus_le_r. eapply Qle_trans; [exact B|].
    rewrite <- (Qplus_0_r (2 * (inject_Z p / inject_Z (e * d)))) at 2. unfold Qminus. apply Qplus_le_r.
    apply (Qopp_le_compat 0). apply Qlt_le_weak. now apply Qmult_lt_0_compat. }
  assert (LO : inject_Z (Z.abs a) / inject_Z d <= Qabs s + 2 * (inject_Z p / inject_Z (e * d))).
  { rewrite <- AB. setoid_replace (inject_Z a / inject_Z d) with (s + - (s - inject_Z a / inject_Z d)) by ring.
    eapply Qle_trans; [apply Qabs_triangle|]. apply Qplus_le_r. rewrite Qabs_opp. eapply Qle_trans; [exact B|].
    rewrite <- (Qplus_0_r (2 * (inject_Z p / inject_Z (e * d)))) at 2. unfold Qminus. apply Qplus_le_r.
    apply (Qopp_le_compat 0). apply Qlt_le_weak. now apply Qmult_lt_0_compat. }
  clear B AB M. set (v := Qabs s) in *. clearbody v.
  apply inject_pos in D as DQ. apply inject_pos in E0 as EQ.
  assert (ND : ~ inject_Z d == 0) by (intros X; rewrite X in DQ; now apply Qlt_irrefl in DQ).
  assert (NE : ~ inject_Z e == 0) by (intros X; rewrite X in EQ; now apply Qlt_irrefl in EQ).
  assert (K : forall x y, (inject_Z d * inject_Z e) * x <= (inject_Z d * inject_Z e) * y -> x <= y).
  { intros x y. apply Qmult_le_l. now apply Qmult_lt_0_compat. }
  rewrite Zle_Qle in A1, A2. do 3 (repeat rewrite inject_Z_plus in A1; repeat rewrite inject_Z_mult in A1; repeat rewrite inject_Z_plus in A2; repeat rewrite inject_Z_mult in A2). rewrite inject_Z_mult in UP, LO.
  set (ta := inject_Z (Z.of_N t)) in *. set (w := inject_Z (2 ^ 32)) in *. assert (W : 0 < w) by reflexivity. clearbody w ta.
  set (aa := inject_Z (Z.abs a)) in *. set (dd := inject_Z d) in *. set (ee := inject_Z e) in *. set (pp := inject_Z p) in *. clearbody aa dd ee pp.
  assert (UP' : dd * ee * v <= ee * aa + 2 * pp).
  { setoid_replace (ee * aa + 2 * pp) with (dd * ee * (aa / dd + 2 * (pp / (ee * dd)))) by (field; now split). apply Qmult_le_l; [now apply Qmult_lt_0_compat|exact UP]. }
  assert (LO' : ee * aa <= dd * ee * v + 2 * pp).
  { setoid_replace (ee * aa) with (dd * ee * (aa / dd)) by (field; exact ND). setoid_replace (dd * ee * v + 2 * pp) with (dd * ee * (v + 2 * (pp / (ee * dd)))) by (field; now split).
    apply Qmult_le_l; [now apply Qmult_lt_0_compat|exact LO]. }
  change (inject_Z 1000) with 1000 in *. change (inject_Z 1) with 1 in *. change (inject_Z 2) with 2 in *. change (inject_Z 999) with 999 in *.
  apply (Qmult_le_l _ _ w W) in UP', LO'.
  split; apply K; clear K.
  - apply (Qmult_le_l _ _ 1000); [reflexivity|]. apply (Qplus_le_l _ _ (1000 * (w * (2 * pp)))).
    eapply Qle_trans; [|eapply Qle_trans; [exact A1|]].
    + setoid_replace (1000 * (dd * ee * (ta + (1 # 1000))) + 1000 * (w * (2 * pp))) with ((1000 * ta + 1) * (dd * ee) + 1000 * w * (2 * pp)) by ring. apply Qle_refl.
    + setoid_replace (1000 * w * aa * ee) with (1000 * (w * (ee * aa))) by ring.
      setoid_replace (1000 * (dd * ee * (w * v)) + 1000 * (w * (2 * pp))) with (1000 * (w * (dd * ee * v + 2 * pp))) by ring.
      apply Qmult_le_l; [reflexivity|exact LO'].
  - apply (Qmult_le_l _ _ 1000); [reflexivity|].
    apply Qle_trans with (1000 * (w * (ee * aa + 2 * pp))).
    + setoid_replace (1000 * (dd * ee * (w * v))) with (1000 * (w * (dd * ee * v))) by ring. apply Qmult_le_l; [reflexivity|exact UP'].
    + setoid_replace (1000 * (w * (ee * aa + 2 * pp))) with (1000 * w * aa * ee + 1000 * w * (2 * pp)) by ring. eapply Qle_trans; [exact A2|].
      setoid_replace (1000 * (dd * ee * (ta + (999 # 1000)))) with ((1000 * ta + 999) * (dd * ee)) by ring. apply Qle_refl.
Qed.
