(** Two different six-digit decimals differ by more than a millionth of either. *)
From Coq Require Import String Ascii ZArith NArith Arith Bool Lia List QArith Qabs Qpower Lqa.
From Verif Require Import RealSpec RealProofs.
Import ListNotations.
Local Open Scope Q_scope.

Lemma six_gap20 : forall m k m' k' x r, (10 ^ 5 <= Z.abs m < 10 ^ 6)%Z -> (10 ^ 5 <= Z.abs m' < 10 ^ 6)%Z -> x == times_pow 10 m k -> r == times_pow 10 m' k' ->
  0 < x -> 0 < r -> Qabs (r - x) * inject_Z (10 ^ 6) * 2 <= x -> r == x.
Proof.
  intros m k m' k' x r Bm Bm' Ex Er Px Pr H. destruct (Qeq_dec r x) as [E|N]; [exact E|exfalso].
  assert (M0 : (0 < m)%Z /\ (0 < m')%Z).
  { pose proof (pow_pos' 10 k ltac:(lia)) as P1. pose proof (pow_pos' 10 k' ltac:(lia)) as P2. unfold times_pow in Ex, Er. split.
    - destruct (Z.lt_ge_cases 0 m) as [C|C]; [exact C|exfalso]. assert (inject_Z m <= 0) by (change 0 with (inject_Z 0); rewrite <- Zle_Qle; lia). nra.
    - destruct (Z.lt_ge_cases 0 m') as [C|C]; [exact C|exfalso]. assert (inject_Z m' <= 0) by (change 0 with (inject_Z 0); rewrite <- Zle_Qle; lia). nra. }
  destruct M0 as [M0 M0'].
  assert (G : forall a b j, ~ times_pow 10 a j == times_pow 10 b j -> times_pow 10 1 j <= Qabs (times_pow 10 a j - times_pow 10 b j)).
  { intros a b j Ne. setoid_replace (times_pow 10 a j - times_pow 10 b j) with (inject_Z (a - b) * inject_Z 10 ^ j).
    - rewrite Qabs_Qmult, inj_abs. rewrite (Qabs_pos (_ ^ _)) by (apply Qlt_le_weak, pow_pos'; lia). unfold times_pow.
      apply Qmult_le_r; [apply pow_pos'; lia|]. rewrite <- Zle_Qle. destruct (Z.eq_dec a b) as [->|]; [exfalso; apply Ne; reflexivity|lia].
    - unfold times_pow, Z.sub. rewrite inject_Z_plus, inject_Z_opp. ring. }
  destruct (Z.le_gt_cases k k') as [L|L].
  - assert (Er' : r == times_pow 10 (m' * 10 ^ (k' - k)) k) by (rewrite Er; apply times_shift; lia).
    assert (C : times_pow 10 1 k <= Qabs (r - x)) by (rewrite Er', Ex; apply G; intros C; apply N; rewrite Er', Ex; exact C).
    assert (U : x < times_pow 10 1 k * inject_Z (10 ^ 6)).
    { rewrite Ex. unfold times_pow. setoid_replace (inject_Z 1 * inject_Z 10 ^ k * inject_Z (10 ^ 6)) with (inject_Z (10 ^ 6) * inject_Z 10 ^ k) by (change (inject_Z 1) with 1; ring).
      apply Qmult_lt_r; [apply pow_pos'; lia|]. rewrite <- Zlt_Qlt. lia. }
    change (inject_Z (10 ^ 6)) with 1000000 in U, H. 
    set (a := Qabs (r - x)) in *. clearbody a. set (g := times_pow 10 1 k) in *. clearbody g. lra.
  - assert (Ex' : x == times_pow 10 (m * 10 ^ (k - k')) k') by (rewrite Ex; apply times_shift; lia).
    assert (C : times_pow 10 1 k' <= Qabs (r - x)) by (rewrite Er, Ex'; apply G; intros C; apply N; rewrite Er, Ex'; exact C).
    assert (U : r < times_pow 10 1 k' * inject_Z (10 ^ 6)).
    { rewrite Er. unfold times_pow. setoid_replace (inject_Z 1 * inject_Z 10 ^ k' * inject_Z (10 ^ 6)) with (inject_Z (10 ^ 6) * inject_Z 10 ^ k') by (change (inject_Z 1) with 1; ring).
      apply Qmult_lt_r; [apply pow_pos'; lia|]. rewrite <- Zlt_Qlt. lia. }
    assert (T : x - r <= Qabs (r - x)) by (rewrite <- Qabs_opp; setoid_replace (- (r - x)) with (x - r) by ring; apply Qle_Qabs).
    change (inject_Z (10 ^ 6)) with 1000000 in U, H.
    set (a := Qabs (r - x)) in *. clearbody a. set (g := times_pow 10 1 k') in *. clearbody g. lra.
Qed.
