From Coq Require Import String ZArith Bool Lia List Permutation.
From Verif Require Import Common PcgModel PcgSpec PcgProofs PcgTopProofs.
Import ListNotations.
Local Open Scope Z_scope.

(** Exclusive or and powers of two. *)
Lemma lxor_mod : forall a b n, 0 <= n -> Z.lxor a b mod 2 ^ n = Z.lxor (a mod 2 ^ n) (b mod 2 ^ n).
Proof. intros a b n H. rewrite <- !Z.land_ones by assumption. apply Z.bits_inj'. intros k Hk. rewrite !Z.land_spec, !Z.lxor_spec, !Z.land_spec.
  destruct (Z.testbit a k), (Z.testbit b k), (Z.testbit (Z.ones n) k); reflexivity. Qed.
Lemma lxor_lt : forall a b n, 0 <= n -> 0 <= a < 2 ^ n -> 0 <= b < 2 ^ n -> 0 <= Z.lxor a b < 2 ^ n.
Proof.
  intros a b n Hn Ha Hb. rewrite <- (Z.mod_small a (2 ^ n)), <- (Z.mod_small b (2 ^ n)) by assumption. rewrite <- lxor_mod by assumption.
  apply Z.mod_pos_bound. apply Z.pow_pos_nonneg; lia.
Qed.
Lemma lxor_div : forall a b n, 0 <= n -> Z.lxor a b / 2 ^ n = Z.lxor (a / 2 ^ n) (b / 2 ^ n).
Proof. intros a b n H. rewrite <- !Z.shiftr_div_pow2 by assumption. apply Z.shiftr_lxor. Qed.
Lemma lxor_cancel : forall a b, Z.lxor (Z.lxor a b) b = a.
Proof. intros. rewrite Z.lxor_assoc, Z.lxor_nilpotent, Z.lxor_0_r. reflexivity. Qed.

(** The window of the output: x is the part of the state that is written, h what is above it. *)
Lemma window : forall h x o, 0 <= h < 2 ^ 10 -> 0 <= x < 2 ^ 32 -> 0 <= o < 2 ^ 32 ->
  (Z.lxor x (h * 2 ^ 10 + x / 2 ^ 22) = o <-> x = Z.lxor o (h * 2 ^ 10 + Z.lxor (o / 2 ^ 10) h / 2 ^ 12)).
Proof.
  intros h x o Hh Hx Ho.
  assert (Top : forall y, 0 <= y < 2 ^ 10 -> (h * 2 ^ 10 + y) / 2 ^ 10 = h).
  { intros y Hy. rewrite Z.add_comm, Z.div_add by lia. rewrite Z.div_small by lia. lia. }
  assert (D : forall z, z / 2 ^ 22 = z / 2 ^ 10 / 2 ^ 12) by (intros z; rewrite Z.div_div by lia; reflexivity).
  assert (Bx : 0 <= x / 2 ^ 22 < 2 ^ 10) by (split; [apply Z.div_pos; lia|apply Z.div_lt_upper_bound; lia]).
  assert (Bo : 0 <= Z.lxor (o / 2 ^ 10) h / 2 ^ 12 < 2 ^ 10).
  { assert (0 <= Z.lxor (o / 2 ^ 10) h < 2 ^ 22).
    { apply lxor_lt; [lia| |lia]. split; [apply Z.div_pos; lia|apply Z.div_lt_upper_bound; lia]. }
    split; [apply Z.div_pos; lia|apply Z.div_lt_upper_bound; lia]. }
  split.
  - intros E. assert (E10 : x / 2 ^ 10 = Z.lxor (o / 2 ^ 10) h).
    { rewrite <- E, lxor_div, Top by lia. symmetry. apply lxor_cancel. }
    rewrite <- E10, <- D. rewrite <- E. symmetry. apply lxor_cancel.
  - intros ->. assert (E10 : Z.lxor o (h * 2 ^ 10 + Z.lxor (o / 2 ^ 10) h / 2 ^ 12) / 2 ^ 10 = Z.lxor (o / 2 ^ 10) h).
    { rewrite lxor_div, Top by lia. reflexivity. }
    rewrite D, E10. apply lxor_cancel.
Qed.

(** The output in terms of window and surroundings. *)
Definition join (q h x l : Z) : Z := (h * 2 ^ 32 + x) * 2 ^ q + l.
Lemma join_parts : forall q h x l, 0 <= q -> 0 <= x < 2 ^ 32 -> 0 <= l < 2 ^ q ->
  join q h x l / 2 ^ (q + 32) = h /\ (join q h x l / 2 ^ q) mod 2 ^ 32 = x /\ join q h x l mod 2 ^ q = l /\
  join q h x l / 2 ^ q = h * 2 ^ 32 + x.
Proof.
  intros q h x l Hq Hx Hl. assert (0 < 2 ^ q) by (apply Z.pow_pos_nonneg; lia). unfold join.
  assert (E : ((h * 2 ^ 32 + x) * 2 ^ q + l) / 2 ^ q = h * 2 ^ 32 + x).
  { rewrite Z.add_comm, Z.div_add, Z.div_small by lia. lia. }
  split; [|split; [|split]].
  - rewrite Z.pow_add_r, <- Z.div_div by lia. rewrite E, Z.add_comm, Z.div_add, Z.div_small by lia. lia.
  - rewrite E, Z.add_comm, Z.mod_add by lia. apply Z.mod_small. lia.
  - rewrite Z.add_comm, Z.mod_add by lia. apply Z.mod_small. lia.
  - exact E.
Qed.
Lemma parts_join : forall q s, 0 <= q -> s = join q (s / 2 ^ (q + 32)) ((s / 2 ^ q) mod 2 ^ 32) (s mod 2 ^ q).
Proof.
  intros q s Hq. assert (0 < 2 ^ q) by (apply Z.pow_pos_nonneg; lia). unfold join. rewrite Z.pow_add_r, <- Z.div_div by lia.
  pose proof (Z.div_mod s (2 ^ q)). pose proof (Z.div_mod (s / 2 ^ q) (2 ^ 32)). lia.
Qed.
(** The start of the window, from the three top bits. *)
Definition start (s : Z) : Z := 22 + s / 2 ^ 61.
Lemma start_range : forall s, 0 <= s < 2 ^ 64 -> 22 <= start s <= 29.
Proof.
  intros s H. unfold start. assert (0 <= s / 2 ^ 61) by (apply Z.div_pos; lia). assert (s / 2 ^ 61 < 8) by (apply Z.div_lt_upper_bound; lia). lia.
Qed.
Lemma xsh_rs_is : forall s, 0 <= s < 2 ^ 64 ->
  let q := start s in
  xsh_rs 64 32 s = Z.lxor ((s / 2 ^ q) mod 2 ^ 32) (s / 2 ^ (q + 32) * 2 ^ 10 + (s / 2 ^ q) mod 2 ^ 32 / 2 ^ 22).
Proof.
  intros s H q. pose proof (start_range s H) as Hq. fold q in Hq. unfold xsh_rs. change (xsh_rs_opbits (64 - 32)) with 3.
  cbn zeta. change (3 =? 0) with false. cbn iota. change (2 ^ 3 - 1) with 7. change (64 - 3) with 61. change (64 - 32 - 3 - 7) with 22.
  change (3 + (32 + 7) / 2) with 22. rewrite (Z.shiftr_div_pow2 s 61), (Z.shiftr_div_pow2 s 22) by lia.
  assert (R : Z.land (s / 2 ^ 61) 7 = s / 2 ^ 61).
  { change 7 with (Z.ones 3). rewrite Z.land_ones by lia. apply Z.mod_small. unfold start in *. split; lia. }
  rewrite R. fold (start s). fold q. rewrite Z.shiftr_div_pow2 by lia. rewrite lxor_div, lxor_mod by lia. f_equal.
  pose proof (parts_join q s ltac:(lia)) as J. set (h := s / 2 ^ (q + 32)) in *. set (x := (s / 2 ^ q) mod 2 ^ 32) in *. set (l := s mod 2 ^ q) in *.
  assert (P : 0 < 2 ^ q) by (apply Z.pow_pos_nonneg; lia).
  assert (Hx : 0 <= x < 2 ^ 32) by (apply Z.mod_pos_bound; lia). assert (Hl : 0 <= l < 2 ^ q) by (apply Z.mod_pos_bound; lia).
  assert (Hh : 0 <= h < 2 ^ 10).
  { unfold h. assert (0 < 2 ^ (q + 32)) by (apply Z.pow_pos_nonneg; lia). split; [apply Z.div_pos; lia|]. apply Z.div_lt_upper_bound; [lia|].
    rewrite <- Z.pow_add_r by lia. assert (2 ^ 64 <= 2 ^ (q + 32 + 10)) by (apply Z.pow_le_mono_r; lia). lia. }
  rewrite Z.div_div by lia. rewrite (Z.mul_comm (2 ^ 22)), <- Z.div_div by lia.
  rewrite J at 1. rewrite (proj2 (proj2 (proj2 (join_parts q h x l ltac:(lia) Hx Hl)))).
  replace (h * 2 ^ 32 + x) with (x + (h * 2 ^ 10) * 2 ^ 22) by lia. rewrite Z.div_add by lia.
  assert (0 <= x / 2 ^ 22 < 2 ^ 10) by (split; [apply Z.div_pos; lia|apply Z.div_lt_upper_bound; lia]).
  rewrite Z.mod_small; lia.
Qed.

(** The number of a state among those with its output. *)
Definition rank (mcg : bool) (s : Z) : Z :=
  let q := start s in
  let b := if mcg then 2 else 0 in
  s / 2 ^ (q + 32) * 2 ^ (q - b) + s mod 2 ^ q / 2 ^ b.
Definition rank_bits (mcg : bool) : Z := if mcg then 30 else 32.

Lemma uniform : forall mcg,
  (forall s, state 64 mcg s -> 0 <= xsh_rs 64 32 s < 2 ^ 32 /\ 0 <= rank mcg s < 2 ^ rank_bits mcg) /\
  forall o k, 0 <= o < 2 ^ 32 -> 0 <= k < 2 ^ rank_bits mcg ->
    exists s, (state 64 mcg s /\ xsh_rs 64 32 s = o /\ rank mcg s = k) /\
      forall t, state 64 mcg t -> xsh_rs 64 32 t = o -> rank mcg t = k -> t = s.
Proof.
  intros mcg. set (b := if mcg then 2 else 0). assert (Hb : 0 <= b <= 2) by (unfold b; destruct mcg; lia).
  assert (RB : rank_bits mcg = 32 - b) by (unfold rank_bits, b; destruct mcg; reflexivity).
  assert (H10 : forall s q, 0 <= s < 2 ^ 64 -> q = start s -> 0 <= s / 2 ^ (q + 32) < 2 ^ (32 - q)).
  { intros s q Hs ->. pose proof (start_range s Hs). assert (0 < 2 ^ (start s + 32)) by (apply Z.pow_pos_nonneg; lia).
    split; [apply Z.div_pos; lia|]. apply Z.div_lt_upper_bound; [lia|]. rewrite <- Z.pow_add_r by lia. replace (start s + 32 + (32 - start s)) with 64 by lia. lia. }
  assert (Low : forall q l, 22 <= q -> 0 <= l < 2 ^ q -> 0 <= l / 2 ^ b < 2 ^ (q - b)).
  { intros q l Hq Hl. assert (0 < 2 ^ b) by (apply Z.pow_pos_nonneg; lia). split; [apply Z.div_pos; lia|]. apply Z.div_lt_upper_bound; [lia|].
    rewrite <- Z.pow_add_r by lia. replace (b + (q - b)) with q by lia. lia. }
  (* the top bits of the rank give the start *)
  assert (RT : forall s, state 64 mcg s -> rank mcg s / 2 ^ (29 - b) = s / 2 ^ 61).
  { intros s [Hs _]. pose proof (start_range s Hs) as Hq. specialize (H10 s (start s) Hs eq_refl). unfold rank. cbn zeta. fold b. set (q := start s) in *.
    assert (P : 0 < 2 ^ q) by (apply Z.pow_pos_nonneg; lia). pose proof (Low q (s mod 2 ^ q) ltac:(lia) (Z.mod_pos_bound s _ P)) as L.
    replace (29 - b) with ((q - b) + (29 - q)) by lia. rewrite (Z.pow_add_r 2 (q - b) (29 - q)), <- Z.div_div by (try apply Z.pow_pos_nonneg; lia).
    assert (0 < 2 ^ (q - b)) by (apply Z.pow_pos_nonneg; lia).
    rewrite Z.div_add_l, (Z.div_small (s mod 2 ^ q / 2 ^ b)), Z.add_0_r by lia. rewrite Z.div_div by (try apply Z.pow_pos_nonneg; try apply Z.pow_nonzero; lia).
    rewrite <- Z.pow_add_r by lia. do 2 f_equal. lia. }
  split.
  - intros s S. pose proof S as [Hs _]. pose proof (start_range s Hs) as Hq. specialize (H10 s (start s) Hs eq_refl). split.
    + unfold xsh_rs. cbn zeta. apply Z.mod_pos_bound. lia.
    + unfold rank. cbn zeta. fold b. rewrite RB. set (q := start s) in *.
      assert (P : 0 < 2 ^ q) by (apply Z.pow_pos_nonneg; lia). pose proof (Low q (s mod 2 ^ q) ltac:(lia) (Z.mod_pos_bound s _ P)) as L.
      assert (0 < 2 ^ (q - b)) by (apply Z.pow_pos_nonneg; lia).
      assert (E : 2 ^ (32 - b) = 2 ^ (32 - q) * 2 ^ (q - b)) by (rewrite <- Z.pow_add_r by lia; f_equal; lia). rewrite E. nia.
  - intros o k Ho Hk. rewrite RB in Hk.
    set (r := k / 2 ^ (29 - b)). assert (P29 : 0 < 2 ^ (29 - b)) by (apply Z.pow_pos_nonneg; lia).
    assert (Hr : 0 <= r < 8).
    { unfold r. split; [apply Z.div_pos; lia|]. apply Z.div_lt_upper_bound; [lia|]. change 8 with (2 ^ 3). rewrite <- Z.pow_add_r by lia. replace (29 - b + 3) with (32 - b) by lia. lia. }
    set (q := 22 + r). set (h := k / 2 ^ (q - b)). set (l := (k mod 2 ^ (q - b)) * 2 ^ b + (if mcg then 3 else 0)).
    assert (Pq : 0 < 2 ^ (q - b)) by (apply Z.pow_pos_nonneg; lia). assert (Pb : 0 < 2 ^ b) by (apply Z.pow_pos_nonneg; lia).
    pose proof (Z.mod_pos_bound k (2 ^ (q - b)) Pq) as Hkm.
    assert (E3 : 0 <= (if mcg then 3 else 0) < 2 ^ b) by (unfold b; destruct mcg; cbn; lia).
    assert (Eq : 2 ^ q = 2 ^ (q - b) * 2 ^ b) by (rewrite <- Z.pow_add_r by lia; f_equal; lia).
    assert (Hl : 0 <= l < 2 ^ q) by (unfold l; rewrite Eq; nia).
    assert (Hh : 0 <= h < 2 ^ (32 - q)).
    { unfold h. split; [apply Z.div_pos; lia|]. apply Z.div_lt_upper_bound; [lia|]. rewrite <- Z.pow_add_r by lia. replace (q - b + (32 - q)) with (32 - b) by lia. lia. }
    assert (Hh10 : 0 <= h < 2 ^ 10) by (assert (2 ^ (32 - q) <= 2 ^ 10) by (apply Z.pow_le_mono_r; lia); lia).
    set (x := Z.lxor o (h * 2 ^ 10 + Z.lxor (o / 2 ^ 10) h / 2 ^ 12)).
    assert (Hx : 0 <= x < 2 ^ 32).
    { unfold x. apply lxor_lt; [lia|lia|]. assert (0 <= Z.lxor (o / 2 ^ 10) h < 2 ^ 22).
      { apply lxor_lt; [lia| |lia]. split; [apply Z.div_pos; lia|apply Z.div_lt_upper_bound; lia]. }
      assert (0 <= Z.lxor (o / 2 ^ 10) h / 2 ^ 12 < 2 ^ 10) by (split; [apply Z.div_pos; lia|apply Z.div_lt_upper_bound; lia]). lia. }
    set (s := join q h x l). destruct (join_parts q h x l ltac:(lia) Hx Hl) as (J1 & J2 & J3 & J4). fold s in J1, J2, J3, J4.
    assert (P2 : 0 < 2 ^ q) by lia.
    assert (Hs : 0 <= s < 2 ^ 64).
    { unfold s, join. split; [nia|]. assert (h * 2 ^ 32 + x < 2 ^ (64 - q)).
      { replace (64 - q) with (32 - q + 32) by lia. rewrite Z.pow_add_r by lia. nia. }
      replace (2 ^ 64) with (2 ^ (64 - q) * 2 ^ q) by (rewrite <- Z.pow_add_r by lia; f_equal; lia). nia. }
    assert (Top : s / 2 ^ 61 = r).
    { replace 61 with (q + 32 + (29 - q)) by lia. rewrite (Z.pow_add_r 2 (q + 32) (29 - q)), <- Z.div_div by (try apply Z.pow_nonzero; try apply Z.pow_pos_nonneg; lia).
      rewrite J1. unfold h, r. rewrite Z.div_div by (try apply Z.pow_nonzero; try apply Z.pow_pos_nonneg; lia). rewrite <- Z.pow_add_r by lia. do 2 f_equal. lia. }
    assert (St : start s = q) by (unfold start; rewrite Top; reflexivity).
    assert (SS : state 64 mcg s).
    { split; [exact Hs|]. intros M. assert (B2 : b = 2) by (unfold b; rewrite M; reflexivity). unfold s, join, l. rewrite M, B2.
      replace (2 ^ q) with (2 ^ (q - 2) * 2 ^ 2) by (rewrite <- Z.pow_add_r by lia; f_equal; lia). change (2 ^ 2) with 4.
      rewrite Z.mul_assoc, Z.add_assoc, <- Z.mul_add_distr_r, Z.add_comm, Z.mod_add by lia. reflexivity. }
    assert (Ok1 : xsh_rs 64 32 s = o).
    { rewrite (xsh_rs_is s Hs), St, J1, J2. apply window; auto. }
    assert (Ok2 : rank mcg s = k).
    { unfold rank. cbn zeta. fold b. rewrite St, J1, J3. unfold l. rewrite Z.div_add_l, Z.div_small, Z.add_0_r by lia.
      unfold h. pose proof (Z.div_mod k (2 ^ (q - b))). lia. }
    exists s. split; [auto|]. intros t T To Tk. pose proof T as [Ht _].
    assert (Str : start t = q). { unfold start, q, r. rewrite <- Tk. rewrite (RT t T). reflexivity. }
    pose proof (Z.mod_pos_bound t (2 ^ q) P2) as Htl. pose proof (Low q (t mod 2 ^ q) ltac:(lia) Htl) as Hll.
    assert (Th : t / 2 ^ (q + 32) = h).
    { unfold h. rewrite <- Tk. unfold rank. cbn zeta. fold b. rewrite Str. rewrite Z.div_add_l, (Z.div_small (t mod 2 ^ q / 2 ^ b)) by lia. lia. }
    assert (Tl : t mod 2 ^ q = l).
    { unfold l. rewrite <- Tk. unfold rank. cbn zeta. fold b. rewrite Str. rewrite (Z.add_comm (t / 2 ^ (q + 32) * 2 ^ (q - b))), Z.mod_add, (Z.mod_small (t mod 2 ^ q / 2 ^ b)) by lia.
      pose proof (Z.div_mod (t mod 2 ^ q) (2 ^ b)) as DM. assert (Fin : (t mod 2 ^ q) mod 2 ^ b = if mcg then 3 else 0); [|lia].
      unfold b. destruct mcg; [|cbn; apply Z.mod_1_r]. transitivity (t mod 2 ^ 2); [|apply T; reflexivity].
      apply (cg_modeq 2); [lia|]. apply (cg_weaken 2 q); [lia|]. apply cg_mod. lia. }
    assert (Tx : (t / 2 ^ q) mod 2 ^ 32 = x).
    { apply window; auto; [apply Z.mod_pos_bound; lia|]. rewrite (xsh_rs_is t Ht), Str, Th in To. exact To. }
    rewrite (parts_join q t) by lia. rewrite Th, Tl, Tx. reflexivity.
Qed.
