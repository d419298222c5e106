(** Lemmas on Math.hpp. *)
From Coq Require Import String Ascii ZArith NArith Arith Bool Lia List QArith Qabs Lqa Qround.
From Verif Require Import Common CInt MathModel MathSpec.
Import ListNotations.
Local Open Scope Z_scope.

(** ** Typed integer helpers *)
Lemma ht : forall t z, imin t <= z <= imax t -> has_type t z.
Proof. intros. assumption. Qed.

Lemma crem_same : forall t a b, has_type t a -> has_type t b -> 0 < b ->
  crem (t, a) (t, b) = Ok (t, Z.rem a b).
Proof.
  intros t a b Ha Hb Hp. unfold crem, cdiv. cbn [fst snd]. rewrite common_same, (cvt_id t b) by assumption.
  destruct (Z.eqb_spec b 0) as [E|_]; [lia|].
  rewrite !binop_same by assumption.
  assert (Hq : has_type t (Z.quot a b)).
  { unfold has_type in *. pose proof (imin_neg t). 
    assert (Z.abs (Z.quot a b) <= Z.abs a).
    { rewrite <- Z.quot_abs by lia. apply Z.quot_le_upper_bound; [lia|]. nia. }
    destruct (Z_le_gt_dec 0 a).
    - pose proof (Z.quot_pos a b ltac:(lia) ltac:(lia)). lia.
    - assert (Z.quot a b <= 0).
      { rewrite <- (Z.opp_involutive a), Z.quot_opp_l by lia. pose proof (Z.quot_pos (-a) b ltac:(lia) ltac:(lia)). lia. }
      lia. }
  rewrite fit_id by assumption. cbn [obind].
  assert (Hr : has_type t (Z.rem a b)).
  { unfold has_type in *. pose proof (imin_neg t).
    pose proof (Z.rem_bound_abs a b ltac:(lia)). pose proof (Z.rem_sign_nz a b ltac:(lia)).
    destruct (Z_le_gt_dec 0 a).
    - pose proof (Z.rem_bound_pos a b ltac:(lia) ltac:(lia)). lia.
    - rewrite <- (Z.opp_involutive a), Z.rem_opp_l by lia.
      pose proof (Z.rem_bound_pos (-a) b ltac:(lia) ltac:(lia)).
      assert (Z.rem (-a) b <= -a) by (apply Z.rem_le; lia). lia. }
  rewrite fit_id by assumption. reflexivity.
Qed.

Lemma rem_mod : forall v u, 0 < u -> Z.rem (Z.rem v u + u) u = v mod u.
Proof.
  intros v u Hu. 
  destruct (Z_le_gt_dec 0 v).
  - rewrite (Z.rem_mod_nonneg v u) by lia. pose proof (Z.mod_pos_bound v u Hu).
    rewrite Z.rem_mod_nonneg by lia. rewrite <- (Z.mul_1_l u) at 2. rewrite Z_mod_plus_full. apply Z.mod_mod. lia.
  - rewrite <- (Z.opp_involutive v), Z.rem_opp_l by lia. 
    pose proof (Z.rem_bound_pos (-v) u ltac:(lia) Hu).
    rewrite (Z.rem_mod_nonneg (-v) u) in * by lia.
    rewrite Z.rem_mod_nonneg by lia.
    rewrite Z.opp_involutive.
    replace (- (- v mod u) + u) with (u - (- v) mod u) by lia.
    rewrite Zminus_mod, Z_mod_same_full, Z.mod_mod by lia. 
    rewrite <- Zminus_mod_idemp_r. rewrite Z.mod_mod by lia.
    rewrite Zminus_mod_idemp_r. f_equal. lia.
Qed.

Lemma rem_le_max : forall v u, 0 < u -> Z.rem v u < u /\ - u < Z.rem v u.
Proof.
  intros v u Hu. pose proof (Z.rem_bound_abs v u ltac:(lia)). lia.
Qed.

Lemma mod_plus_self : forall a u, 0 < u -> (a mod u + u) mod u = a mod u.
Proof.
  intros a u H. replace (a mod u + u) with (a mod u + 1 * u) by lia.
  rewrite Z_mod_plus_full, Z.mod_mod by lia. reflexivity.
Qed.

(** ** getMod, two arguments, one signed type. *)
Lemma getMod2_signed : forall t v ub, is_signed t = true -> has_type t v -> has_type t ub -> 0 < ub ->
  (Z.rem v ub + ub <= imax t -> getMod2 (t, v) (t, ub) = Ok (t, v mod ub)) /\
  (imax t < Z.rem v ub + ub -> getMod2 (t, v) (t, ub) = UB).
Proof.
  intros t v ub S Hv Hu Hp. unfold getMod2, cgt, cge, clt, i0.
  rewrite (ccmp_lit Z.gtb t ub 0) by (assumption || lia).
  replace (ub >? 0) with true by (symmetry; apply Z.gtb_lt; lia). cbn [cassert obind].
  rewrite (crem_same t v ub Hv Hu Hp). cbn [obind]. unfold cadd.
  pose proof (rem_le_max v ub Hp) as [R1 R2]. pose proof (imin_neg t) as M.
  unfold has_type in Hu.
  assert (Hr : has_type t (Z.rem v ub)).
  { unfold has_type. destruct t; cbn in *; try discriminate;
    unfold INT_MIN, INT_MAX, LONG_MIN, LONG_MAX in *; lia. }
  rewrite (binop_same Z.add t _ _ Hr Hu). split; intros K.
  - rewrite fit_id by (unfold has_type; lia). cbn [obind].
    rewrite (crem_same t (Z.rem v ub + ub) ub) by (unfold has_type; lia || assumption). cbn [obind].
    rewrite rem_mod by assumption. pose proof (Z.mod_pos_bound v ub Hp) as B.
    rewrite (ccmp_lit Z.geb t (v mod ub) 0) by (unfold has_type; lia).
    rewrite ccmp_same by (unfold has_type; lia).
    replace ((v mod ub >=? 0) && (v mod ub <? ub)) with true; [reflexivity|].
    symmetry. apply andb_true_iff. split; [apply Z.geb_le|apply Z.ltb_lt]; lia.
  - rewrite fit_over; [reflexivity|assumption|unfold has_type; lia].
Qed.

Lemma getMod2_unsigned : forall t v ub, is_signed t = false -> has_type t v -> has_type t ub -> 0 < ub ->
  (v mod ub + ub <= imax t -> getMod2 (t, v) (t, ub) = Ok (t, v mod ub)) /\
  (imax t < v mod ub + ub -> exists r, getMod2 (t, v) (t, ub) = Ok (t, r) /\ r <> v mod ub).
Proof.
  intros t v ub S Hv Hu Hp. unfold getMod2, cgt, cge, clt, i0.
  rewrite (ccmp_lit Z.gtb t ub 0) by (assumption || lia).
  replace (ub >? 0) with true by (symmetry; apply Z.gtb_lt; lia). cbn [cassert obind].
  rewrite (crem_same t v ub Hv Hu Hp). cbn [obind]. unfold cadd.
  pose proof (imin_neg t) as M. unfold has_type in *.
  assert (Hm0 : imin t = 0) by (destruct t; try discriminate; reflexivity).
  assert (Em : imax t = imod t - 1) by (destruct t; try discriminate; reflexivity).
  rewrite Z.rem_mod_nonneg by lia. pose proof (Z.mod_pos_bound v ub Hp) as B.
  rewrite (binop_same Z.add t (v mod ub) ub) by (unfold has_type; lia). split; intros K.
  - rewrite fit_id by (unfold has_type; lia). cbn [obind].
    rewrite (crem_same t (v mod ub + ub) ub) by (unfold has_type; lia). cbn [obind].
    rewrite Z.rem_mod_nonneg by lia. rewrite (mod_plus_self v ub) by lia.
    rewrite (ccmp_lit Z.geb t (v mod ub) 0) by (unfold has_type; lia).
    rewrite ccmp_same by (unfold has_type; lia).
    replace ((v mod ub >=? 0) && (v mod ub <? ub)) with true; [reflexivity|].
    symmetry. apply andb_true_iff. split; [apply Z.geb_le|apply Z.ltb_lt]; lia.
  - unfold fit. rewrite S. cbn [obind].
    assert (E : (v mod ub + ub) mod imod t = v mod ub + ub - imod t).
    { rewrite <- (Z.mod_small (v mod ub + ub - imod t) (imod t)) by lia.
      rewrite <- (Z_mod_plus_full (v mod ub + ub - imod t) 1 (imod t)). f_equal; lia. }
    rewrite E.
    rewrite (crem_same t (v mod ub + ub - imod t) ub) by (unfold has_type; lia). cbn [obind].
    rewrite Z.rem_small by lia.
    rewrite (ccmp_lit Z.geb t (v mod ub + ub - imod t) 0) by (unfold has_type; lia).
    rewrite ccmp_same by (unfold has_type; lia).
    replace ((v mod ub + ub - imod t >=? 0) && (v mod ub + ub - imod t <? ub)) with true.
    + exists (v mod ub + ub - imod t). split; [reflexivity|lia].
    + symmetry. apply andb_true_iff. split; [apply Z.geb_le|apply Z.ltb_lt]; lia.
Qed.

(** ** getByModIdx with a signed index *)
Lemma getMod2_mixed : forall t i n, is_signed t = true -> has_type t i -> 0 < n <= LONG_MAX ->
  getMod2 (t, i) (U64, n) = Ok (U64, (i mod ULONG_MOD) mod n).
Proof.
  intros t i n S Hi Hn. unfold getMod2, cgt, cge, clt, i0, LONG_MAX in *.
  assert (Hn' : has_type U64 n) by (unfold has_type, imin, imax, ULONG_MOD; lia).
  rewrite (ccmp_lit Z.gtb U64 n 0) by (assumption || lia).
  replace (n >? 0) with true by (symmetry; apply Z.gtb_lt; lia). cbn [cassert obind].
  assert (Hm : has_type U64 (i mod ULONG_MOD)).
  { pose proof (Z.mod_pos_bound i ULONG_MOD ltac:(unfold ULONG_MOD; lia)).
    unfold has_type, imin, imax. lia. }
  assert (Ec : common t U64 = U64) by (destruct t; reflexivity).
  assert (C : crem (t, i) (U64, n) = crem (U64, i mod ULONG_MOD) (U64, n)).
  { unfold crem, cdiv, binop_z. cbn [fst snd]. rewrite Ec, common_same.
    rewrite (cvt_id U64 (i mod ULONG_MOD)) by assumption. reflexivity. }
  rewrite C, (crem_same U64 _ n Hm Hn') by lia. cbn [obind].
  unfold has_type in Hm. cbn in Hm. set (m := i mod ULONG_MOD) in *.
  rewrite Z.rem_mod_nonneg by lia. pose proof (Z.mod_pos_bound m n ltac:(lia)) as B.
  unfold cadd. rewrite (binop_same Z.add U64 (m mod n) n) by (unfold has_type, imin, imax, ULONG_MOD in *; lia).
  rewrite fit_id by (unfold has_type, imin, imax, ULONG_MOD in *; lia). cbn [obind].
  rewrite (crem_same U64 (m mod n + n) n) by (unfold has_type, imin, imax, ULONG_MOD in *; lia). cbn [obind].
  rewrite Z.rem_mod_nonneg by lia. rewrite (mod_plus_self m n) by lia.
  rewrite (ccmp_lit Z.geb U64 (m mod n) 0) by (unfold has_type, imin, imax, ULONG_MOD in *; lia).
  rewrite ccmp_same by (unfold has_type, imin, imax, ULONG_MOD in *; lia).
  replace ((m mod n >=? 0) && (m mod n <? n)) with true; [reflexivity|].
  symmetry. apply andb_true_iff. split; [apply Z.geb_le|apply Z.ltb_lt]; lia.
Qed.

Lemma getByModIdx_eq : forall A (l : list A) t i, is_signed t = true -> has_type t i ->
  l <> [] -> Z.of_nat (length l) <= LONG_MAX ->
  exists x, getByModIdx l (t, i) = Ok x /\
    nth_error l (Z.to_nat ((i mod ULONG_MOD) mod Z.of_nat (length l))) = Some x.
Proof.
  intros A l t i S Hi Hne Hl. unfold getByModIdx.
  assert (0 < Z.of_nat (length l)) by (destruct l; [contradiction|cbn [length]; lia]).
  rewrite getMod2_mixed by (assumption || lia). cbn [obind snd].
  set (m := (i mod ULONG_MOD) mod Z.of_nat (length l)).
  assert (Hm : 0 <= m < Z.of_nat (length l)) by (apply Z.mod_pos_bound; lia).
  destruct (nth_error l (Z.to_nat m)) as [x|] eqn:E; [exists x; split; reflexivity|].
  apply nth_error_None in E. lia.
Qed.

Lemma mod_eq_divides : forall i n, 0 < n -> i < 0 -> - ULONG_MOD <= i ->
  ((i mod ULONG_MOD) mod n = i mod n <-> (n | ULONG_MOD)).
Proof.
  intros i n Hn Hi Hr.
  assert (E : i mod ULONG_MOD = i + ULONG_MOD \/ (i = - ULONG_MOD /\ i mod ULONG_MOD = 0)).
  { destruct (Z.eq_dec i (- ULONG_MOD)) as [->|N].
    - right. split; [reflexivity|]. vm_compute. reflexivity.
    - left. rewrite <- (Z.mod_small (i + ULONG_MOD) ULONG_MOD) by (unfold ULONG_MOD in *; lia).
      rewrite <- (Z_mod_plus_full i 1 ULONG_MOD). f_equal; lia. }
  split.
  - intros H. destruct E as [E|[E1 E2]].
    + rewrite E in H. exists ((i + ULONG_MOD) / n - i / n).
      pose proof (Z.div_mod (i + ULONG_MOD) n ltac:(lia)). pose proof (Z.div_mod i n ltac:(lia)). 
      rewrite H in *. nia.
    + rewrite E2, Z.mod_0_l in H by lia. subst i. symmetry in H. apply Z.mod_divide in H; [|lia].
      apply Z.divide_opp_r in H. exact H.
  - intros [k Hk]. destruct E as [E|[E1 E2]].
    + rewrite E, Hk. rewrite Z_mod_plus_full. reflexivity.
    + rewrite E2, E1, Hk. replace (- (k * n)) with ((-k) * n) by lia.
      rewrite Z_mod_mult, Z.mod_0_l by lia. reflexivity.
Qed.

Lemma getByModIdx_spec : forall A (l : list A) t i, is_signed t = true -> has_type t i ->
  l <> [] -> Z.of_nat (length l) <= LONG_MAX ->
  (0 <= i -> exists x, getByModIdx l (t, i) = Ok x /\
      nth_error l (Z.to_nat (i mod Z.of_nat (length l))) = Some x) /\
  (i < 0 -> exists k x, getByModIdx l (t, i) = Ok x /\ 0 <= k < Z.of_nat (length l) /\
      nth_error l (Z.to_nat k) = Some x /\
      (k = i mod Z.of_nat (length l) <-> (Z.of_nat (length l) | 2 ^ 64))).
Proof.
  intros A l t i S Hi Hne Hl. destruct (getByModIdx_eq A l t i S Hi Hne Hl) as (x & E & N).
  assert (Hp : 0 < Z.of_nat (length l)) by (destruct l; [contradiction|cbn [length]; lia]).
  assert (Hr : - ULONG_MOD <= i < ULONG_MOD).
  { unfold has_type in Hi. destruct t; try discriminate; cbn in Hi; unfold INT_MIN, INT_MAX, LONG_MIN, LONG_MAX, ULONG_MOD in *; lia. }
  split; intros Hs.
  - exists x. split; [exact E|]. rewrite (Z.mod_small i ULONG_MOD) in N by lia. exact N.
  - exists ((i mod ULONG_MOD) mod Z.of_nat (length l)), x. split; [exact E|].
    split; [apply Z.mod_pos_bound; lia|]. split; [exact N|].
    change (2 ^ 64) with ULONG_MOD. apply mod_eq_divides; lia.
Qed.

(** ** getMod, three arguments *)
Lemma fit_cadd : forall t a b, has_type t a -> has_type t b -> has_type t (a + b) -> cadd (t, a) (t, b) = Ok (t, a + b).
Proof. intros. unfold cadd. rewrite binop_same by assumption. rewrite fit_id by assumption. reflexivity. Qed.
Lemma fit_csub : forall t a b, has_type t a -> has_type t b -> has_type t (a - b) -> csub (t, a) (t, b) = Ok (t, a - b).
Proof. intros. unfold csub. rewrite binop_same by assumption. rewrite fit_id by assumption. reflexivity. Qed.
Lemma fit_cmul : forall t a b, has_type t a -> has_type t b -> has_type t (a * b) -> cmul (t, a) (t, b) = Ok (t, a * b).
Proof. intros. unfold cmul. rewrite binop_same by assumption. rewrite fit_id by assumption. reflexivity. Qed.
Lemma cdiv_pos : forall t a b, has_type t a -> has_type t b -> 0 <= a -> 0 < b -> cdiv (t, a) (t, b) = Ok (t, a / b).
Proof.
  intros t a b Ha Hb H0 Hp. unfold cdiv. cbn [fst snd]. rewrite common_same, (cvt_id t b) by assumption.
  destruct (Z.eqb_spec b 0); [lia|]. rewrite binop_same by assumption.
  rewrite Z.quot_div_nonneg by lia. rewrite fit_id; [reflexivity|].
  unfold has_type in *. pose proof (Z.div_pos a b H0 Hp). assert (a / b <= a) by (apply Z.div_le_upper_bound; nia).
  pose proof (imin_neg t). lia.
Qed.
Lemma binop_lit : forall f t a k, has_type t a -> 0 <= k <= 2147483647 ->
  binop_z f (t, a) (I32, k) = obind (fit t (f a k)) (fun z => Ok (t, z)).
Proof.
  intros f t a k Ha Hk. unfold binop_z. cbn [fst snd]. destruct (common_i32 t) as [-> _].
  rewrite (cvt_id t a) by assumption. rewrite (cvt_id t k); [reflexivity|].
  unfold has_type. pose proof (imin_neg t). lia.
Qed.

Lemma getMod3_spec : forall t v lb ub, has_type t v -> has_type t lb -> has_type t ub ->
  lb < ub -> ub - lb < imax t ->
  (lb <= v -> v - lb <= imax t) ->
  (v < lb -> lb - v <= imax t /\ (ub - lb) * ((lb - v) / (ub - lb) + 1) <= imax t) ->
  exists r, getMod3 (t, v) (t, lb) (t, ub) = Ok (t, r) /\ lb <= r < ub /\ (ub - lb | v - r).
Proof.
  intros t v lb ub Hv Hl Hu H1 H2 H3 H4. unfold getMod3, clt, cgt, ceq, i0, i1.
  pose proof (imin_neg t) as M. unfold has_type in Hv, Hl, Hu.
  set (d := ub - lb) in *. assert (Hd : has_type t d) by (unfold has_type; lia).
  rewrite (ccmp_same Z.ltb t lb ub) by (unfold has_type; lia).
  replace (lb <? ub) with true by (symmetry; apply Z.ltb_lt; lia). cbn [cassert obind].
  rewrite fit_csub by (unfold has_type; lia). cbn [obind]. fold d.
  rewrite (ccmp_lit Z.gtb t d 0) by (assumption || lia).
  replace (d >? 0) with true by (symmetry; apply Z.gtb_lt; lia). cbn [cassert obind].
  unfold cadd at 1. rewrite (binop_lit Z.add t d 1) by (assumption || lia).
  rewrite fit_id by (unfold has_type; lia). cbn [obind].
  rewrite (ccmp_lit Z.eqb t (d + 1) 0) by (unfold has_type; lia).
  replace (d + 1 =? 0) with false by (symmetry; apply Z.eqb_neq; lia). cbn [negb cassert obind].
  rewrite (ccmp_same Z.ltb t v lb) by (unfold has_type; lia).
  assert (Tail : forall v', has_type t v' -> 0 <= v' - lb <= imax t ->
     obind (csub (t, v') (t, lb)) (fun d0 => obind (crem d0 (t, d)) (fun r => cadd (t, lb) r))
     = Ok (t, lb + (v' - lb) mod d)).
  { intros v' Hv' Hr. unfold has_type in Hv'. rewrite fit_csub by (unfold has_type; lia). cbn [obind].
    rewrite crem_same by (unfold has_type; lia). cbn [obind].
    rewrite Z.rem_mod_nonneg by lia. pose proof (Z.mod_pos_bound (v' - lb) d ltac:(lia)).
    rewrite fit_cadd by (unfold has_type; lia). reflexivity. }
  destruct (Z.ltb_spec v lb) as [Hlt|Hge].
  - destruct (H4 Hlt) as [K1 K2]. 
    rewrite fit_csub by (unfold has_type; lia). cbn [obind].
    rewrite cdiv_pos by (unfold has_type; lia). cbn [obind].
    set (q := (lb - v) / d) in *.
    assert (Hq : 0 <= q <= lb - v).
    { unfold q. split; [apply Z.div_pos; lia|]. apply Z.div_le_upper_bound; nia. }
    assert (Hq1 : q + 1 <= imax t) by nia.
    unfold cadd at 1. rewrite (binop_lit Z.add t q 1) by (unfold has_type; lia).
    rewrite fit_id by (unfold has_type; lia). cbn [obind].
    rewrite fit_cmul by (unfold has_type; nia). cbn [obind].
    pose proof (Z.div_mod (lb - v) d ltac:(lia)) as DM. fold q in DM.
    pose proof (Z.mod_pos_bound (lb - v) d ltac:(lia)) as MB.
    rewrite fit_cadd by (unfold has_type; nia). cbn [obind].
    unfold cconv. cbn [fst snd]. rewrite cvt_id by (unfold has_type; nia).
    rewrite Tail by (unfold has_type; nia).
    exists (lb + (v + d * (q + 1) - lb) mod d). split; [reflexivity|].
    pose proof (Z.mod_pos_bound (v + d * (q + 1) - lb) d ltac:(lia)) as MB2.
    split; [lia|].
    pose proof (Z.div_mod (v + d * (q + 1) - lb) d ltac:(lia)) as DM2.
    exists ((v + d * (q + 1) - lb) / d - (q + 1)). nia.
  - cbn [obind]. rewrite Tail by (unfold has_type; lia).
    exists (lb + (v - lb) mod d). split; [reflexivity|].
    pose proof (Z.mod_pos_bound (v - lb) d ltac:(lia)). split; [lia|].
    pose proof (Z.div_mod (v - lb) d ltac:(lia)). exists ((v - lb) / d). nia.
Qed.

(** ** index conversion *)
Lemma idx2_of_1 : forall t idx cols, has_type t idx -> has_type t cols -> 0 < idx -> 0 < cols ->
  exists x y, get2DIdxFrom1D (t, idx) (t, cols) = Ok ((t, x), (t, y)) /\
    0 <= x < cols /\ 0 <= y /\ get1DIdxFrom2D (t, x) (t, y) (t, cols) = Ok (t, idx).
Proof.
  intros t idx cols Hi Hc H0 H1. unfold get2DIdxFrom1D, get1DIdxFrom2D, cgt, ceq, cge, i0.
  pose proof (imin_neg t) as M. unfold has_type in Hi, Hc.
  rewrite (ccmp_lit Z.gtb t idx 0), (ccmp_lit Z.eqb t cols 0), (ccmp_lit Z.geb t cols 0) by (unfold has_type; lia).
  replace (idx >? 0) with true by (symmetry; apply Z.gtb_lt; lia).
  replace (cols =? 0) with false by (symmetry; apply Z.eqb_neq; lia).
  replace (cols >=? 0) with true by (symmetry; apply Z.geb_le; lia).
  cbn [andb negb cassert obind].
  rewrite cdiv_pos by (unfold has_type; lia). cbn [obind].
  pose proof (Z.div_mod idx cols ltac:(lia)) as DM. pose proof (Z.mod_pos_bound idx cols ltac:(lia)) as MB.
  assert (Hy : 0 <= idx / cols) by (apply Z.div_pos; lia).
  set (y := idx / cols) in *. 
  assert (Hyc : 0 <= y * cols <= idx) by nia.
  assert (Hy2 : y <= idx) by nia.
  rewrite fit_cmul by (unfold has_type; lia). cbn [obind].
  rewrite fit_csub by (unfold has_type; lia). cbn [obind].
  exists (idx - y * cols), y. split; [reflexivity|]. split; [nia|]. split; [exact Hy|].
  rewrite fit_cmul by (unfold has_type; lia). cbn [obind].
  rewrite fit_cadd by (unfold has_type; lia). do 2 f_equal. lia.
Qed.

Lemma idx1_of_2 : forall t x y cols, has_type t x -> has_type t y -> has_type t cols ->
  0 <= x < cols -> 0 <= y -> 0 < x + y * cols <= imax t ->
  exists i, get1DIdxFrom2D (t, x) (t, y) (t, cols) = Ok (t, i) /\ i = x + y * cols /\
    get2DIdxFrom1D (t, i) (t, cols) = Ok ((t, x), (t, y)).
Proof.
  intros t x y cols Hx Hy Hc H0 H1 H2. exists (x + y * cols).
  pose proof (imin_neg t) as M. unfold has_type in Hx, Hy, Hc.
  assert (E : get1DIdxFrom2D (t, x) (t, y) (t, cols) = Ok (t, x + y * cols)).
  { unfold get1DIdxFrom2D, cge, i0. rewrite (ccmp_lit Z.geb t cols 0) by (unfold has_type; lia).
    replace (cols >=? 0) with true by (symmetry; apply Z.geb_le; lia). cbn [cassert obind].
    rewrite fit_cmul by (unfold has_type; nia). cbn [obind]. rewrite fit_cadd by (unfold has_type; nia). reflexivity. }
  split; [exact E|]. split; [reflexivity|].
  destruct (idx2_of_1 t (x + y * cols) cols) as (x' & y' & E' & Hx' & Hy' & R); try (unfold has_type; lia).
  rewrite E'. 
  assert (Er : get1DIdxFrom2D (t, x') (t, y') (t, cols) = Ok (t, x' + y' * cols) -> x' + y' * cols = x + y * cols).
  { intros K. rewrite K in R. congruence. }
  assert (x' + y' * cols = x + y * cols).
  { clear Er. unfold get1DIdxFrom2D, cge, i0 in R. rewrite (ccmp_lit Z.geb t cols 0) in R by (unfold has_type; lia).
    replace (cols >=? 0) with true in R by (symmetry; apply Z.geb_le; lia). cbn [cassert obind] in R.
    unfold get2DIdxFrom1D, cgt, ceq, i0 in E'.
    rewrite (ccmp_lit Z.gtb t _ 0), (ccmp_lit Z.eqb t cols 0) in E' by (unfold has_type; lia).
    replace (x + y * cols >? 0) with true in E' by (symmetry; apply Z.gtb_lt; lia).
    replace (cols =? 0) with false in E' by (symmetry; apply Z.eqb_neq; lia). cbn [andb negb cassert obind] in E'.
    rewrite cdiv_pos in E' by (unfold has_type; lia). cbn [obind] in E'.
    rewrite Z.div_add, (Z.div_small x cols), Z.add_0_l in E' by lia.
    rewrite fit_cmul in E' by (unfold has_type; nia). cbn [obind] in E'.
    rewrite fit_csub in E' by (unfold has_type; nia). cbn [obind] in E'.
    injection E' as <- <-. lia. }
  assert (y' = y) by nia. subst y'. assert (x' = x) by lia. subst x'. reflexivity.
Qed.

Lemma idx2_zero : forall t cols, get2DIdxFrom1D (t, 0) (t, cols) = UB.
Proof.
  intros t cols. unfold get2DIdxFrom1D, cgt, i0. 
  rewrite (ccmp_lit Z.gtb t 0 0) by (unfold has_type; pose proof (imin_neg t); lia). reflexivity.
Qed.

Lemma idx3_value : forall t x y z cols rows,
  has_type t x -> has_type t y -> has_type t z -> has_type t cols -> has_type t rows ->
  0 <= x < cols -> 0 <= y < rows -> 0 <= z -> x + y * cols + z * cols * rows <= imax t ->
  get1DIdxFrom3D (t, x) (t, y) (t, z) (t, cols) (t, rows) = Ok (t, x + y * cols + z * cols * rows).
Proof.
  intros t x y z cols rows Hx Hy Hz Hc Hr H1 H2 H3 H4. unfold get1DIdxFrom3D, cge, i0.
  pose proof (imin_neg t) as M. unfold has_type in Hx, Hy, Hz, Hc, Hr.
  assert (A1 : 0 <= y * cols) by nia. assert (A2 : 0 <= z * cols) by nia.
  assert (A3 : z * cols <= z * cols * rows) by nia.
  rewrite (ccmp_lit Z.geb t cols 0), (ccmp_lit Z.geb t rows 0) by (unfold has_type; lia).
  replace (cols >=? 0) with true by (symmetry; apply Z.geb_le; lia).
  replace (rows >=? 0) with true by (symmetry; apply Z.geb_le; lia). cbn [andb cassert obind].
  rewrite fit_cmul by (unfold has_type; lia). cbn [obind].
  rewrite fit_cadd by (unfold has_type; lia). cbn [obind].
  rewrite fit_cmul by (unfold has_type; lia). cbn [obind].
  rewrite fit_cmul by (unfold has_type; lia). cbn [obind].
  rewrite fit_cadd by (unfold has_type; lia). reflexivity.
Qed.

Lemma idx3_injective : forall x y z x' y' z' cols rows, 0 <= x < cols -> 0 <= x' < cols ->
  0 <= y < rows -> 0 <= y' < rows ->
  x + y * cols + z * cols * rows = x' + y' * cols + z' * cols * rows -> x = x' /\ y = y' /\ z = z'.
Proof.
  intros x y z x' y' z' cols rows H1 H2 H3 H4 E.
  assert (E2 : y + z * rows = y' + z' * rows) by nia.
  assert (x = x') by nia. assert (z = z') by nia. assert (y = y') by nia. auto.
Qed.

Lemma idx3_back : forall t x y z cols rows,
  has_type t x -> has_type t y -> has_type t z -> has_type t cols -> has_type t rows ->
  0 <= x < cols -> 0 <= y < rows -> 0 <= z -> 0 < x + y * cols + z * cols * rows <= imax t ->
  cols * rows <= imax t ->
  get3DIdxFrom1D (t, x + y * cols + z * cols * rows) (t, cols) (t, rows)
  = Ok ((t, y + z * rows), (t, y), (t, z)).
Proof.
  intros t x y z cols rows Hx Hy Hz Hc Hr H1 H2 H3 H4 H5. unfold get3DIdxFrom1D, cgt, ceq, i0.
  pose proof (imin_neg t) as M. unfold has_type in Hx, Hy, Hz, Hc, Hr.
  rewrite (ccmp_lit Z.gtb t _ 0), (ccmp_lit Z.eqb t cols 0), (ccmp_lit Z.eqb t rows 0) by (unfold has_type; lia).
  replace (x + y * cols + z * cols * rows >? 0) with true by (symmetry; apply Z.gtb_lt; lia).
  replace (cols =? 0) with false by (symmetry; apply Z.eqb_neq; lia).
  replace (rows =? 0) with false by (symmetry; apply Z.eqb_neq; lia). cbn [andb negb cassert obind].
  rewrite cdiv_pos by (unfold has_type; lia). cbn [obind].
  assert (E : (x + y * cols + z * cols * rows) / cols = y + z * rows).
  { replace (x + y * cols + z * cols * rows) with (x + (y + z * rows) * cols) by lia.
    rewrite Z.div_add, (Z.div_small x cols) by lia. lia. }
  rewrite E.
  assert (0 <= z * rows) by nia. assert (0 <= y * cols) by nia.
  assert (y + z * rows <= x + y * cols + z * cols * rows) by nia.
  rewrite crem_same by (unfold has_type; lia). cbn [obind].
  rewrite Z.rem_mod_nonneg by lia. rewrite Z_mod_plus_full, Z.mod_small by lia.
  assert (0 < cols * rows) by nia.
  rewrite fit_cmul by (unfold has_type; lia). cbn [obind].
  rewrite cdiv_pos by (unfold has_type; lia). cbn [obind].
  replace (x + y * cols + z * cols * rows) with ((x + y * cols) + z * (cols * rows)) by lia.
  rewrite Z.div_add, Z.div_small by nia. rewrite Z.add_0_l. reflexivity.
Qed.

(** ** clamping *)
Lemma clamp_spec : forall t x lo hi, has_type t x -> has_type t lo -> has_type t hi ->
  (lo <= hi -> exists r, getClamped (t, x) (t, lo) (t, hi) = Ok (t, r) /\
     clamp (t, x) (t, lo) (t, hi) = Ok (t, r) /\
     getClamped (t, r) (t, lo) (t, hi) = Ok (t, r) /\
     clampMax (clampMin (t, x) (t, lo)) (t, hi) = (t, r) /\
     lo <= r <= hi /\ forall y, lo <= y <= hi -> Z.abs (x - r) <= Z.abs (x - y)) /\
  (hi < lo -> getClamped (t, x) (t, lo) (t, hi) = UB /\ clamp (t, x) (t, lo) (t, hi) = UB).
Proof.
  intros t x lo hi Hx Hl Hh.
  assert (G : forall z, has_type t z -> getClamped (t, z) (t, lo) (t, hi) =
     if lo <=? hi then Ok (t, if z <? lo then lo else if z >? hi then hi else z) else UB).
  { intros z Hz. unfold getClamped, cconv, cle, clt, cgt. cbn [fst snd]. rewrite !common_same, !cvt_id by assumption.
    rewrite !ccmp_same by assumption. destruct (lo <=? hi); [|reflexivity].
    cbn [cassert obind]. destruct (z <? lo); [reflexivity|]. destruct (z >? hi); reflexivity. }
  assert (C : clamp (t, x) (t, lo) (t, hi) =
     if lo <=? hi then Ok (t, if x <? lo then lo else if x >? hi then hi else x) else UB).
  { unfold clamp, cconv, cle, clt, cgt. cbn [fst snd]. rewrite !cvt_id by assumption.
    rewrite !ccmp_same by assumption. destruct (lo <=? hi); [|reflexivity].
    cbn [cassert obind]. destruct (x <? lo); [reflexivity|]. destruct (x >? hi); reflexivity. }
  rewrite G, C by assumption. split; intros K.
  - set (r := if x <? lo then lo else if x >? hi then hi else x).
    assert (Hr : has_type t r) by (unfold r; destruct (x <? lo), (x >? hi); assumption).
    exists r. rewrite (G r Hr).
    replace (lo <=? hi) with true by (symmetry; apply Z.leb_le; lia).
    assert (B : lo <= r <= hi).
    { unfold r. destruct (Z.ltb_spec x lo), (Z.gtb_spec x hi); lia. }
    split; [reflexivity|]. split; [reflexivity|]. split.
    { destruct (Z.ltb_spec r lo), (Z.gtb_spec r hi); try lia. reflexivity. }
    split.
    { unfold clampMin, clampMax, clt, cgt. rewrite ccmp_same by assumption. unfold cconv. cbn [fst snd].
      unfold r. destruct (Z.ltb_spec x lo).
      - rewrite cvt_id by assumption. rewrite ccmp_same by assumption.
        destruct (Z.gtb_spec lo hi); [lia|reflexivity].
      - rewrite ccmp_same by assumption. cbn [fst snd]. rewrite cvt_id by assumption.
        destruct (Z.gtb_spec x hi); reflexivity. }
    split; [exact B|]. intros y Hy. unfold r. destruct (Z.ltb_spec x lo), (Z.gtb_spec x hi); lia.
  - replace (lo <=? hi) with false by (symmetry; apply Z.leb_gt; lia). split; reflexivity.
Qed.

Lemma one_sided : forall t x y, has_type t x -> has_type t y ->
  getClampedMin (t, x) (t, y) = (t, Z.max x y) /\ clampMin (t, x) (t, y) = (t, Z.max x y) /\
  getClampedMax (t, x) (t, y) = (t, Z.min x y) /\ clampMax (t, x) (t, y) = (t, Z.min x y).
Proof.
  intros t x y Hx Hy. unfold getClampedMin, getClampedMax, clampMin, clampMax, cconv, clt, cgt. cbn [fst snd]. rewrite !common_same, !ccmp_same by assumption.
  destruct (Z.ltb_spec x y), (Z.gtb_spec x y); cbn [fst snd]; rewrite !cvt_id by assumption; repeat split; f_equal; lia.
Qed.
Lemma sign_spec : forall t x, has_type t x -> getSign (t, x) = Z.sgn x.
Proof.
  intros t x H. unfold getSign. cbn [fst snd]. destruct (is_signed t) eqn:E.
  - destruct (Z.ltb_spec 0 x), (Z.ltb_spec x 0); destruct x; cbn; lia.
  - assert (0 <= x) by (destruct t; try discriminate; unfold has_type, imin in H; lia).
    destruct (Z.ltb_spec 0 x); destruct x; cbn; lia.
Qed.
Lemma clamp_mixed : forall x lo hi, INT_MIN <= x < 0 -> has_type U32 lo -> has_type U32 hi ->
  lo <= hi <= INT_MAX -> getClamped (I32, x) (U32, lo) (U32, hi) = Ok (U32, hi).
Proof.
  intros x lo hi Hx Hl Hh H. unfold getClamped, cconv, cle, clt, cgt. cbn [fst snd common].
  rewrite (cvt_id U32 lo), (cvt_id U32 hi) by assumption.
  assert (Ex : cvt U32 x = x + UINT_MOD).
  { cbn [cvt]. unfold to_u32. rewrite <- (Z.mod_small (x + UINT_MOD) UINT_MOD) by (unfold INT_MIN, UINT_MOD in *; lia).
    rewrite <- (Z_mod_plus_full x 1 UINT_MOD). f_equal; lia. }
  rewrite Ex.
  assert (Hxt : has_type U32 (x + UINT_MOD)) by (unfold has_type, imin, imax, INT_MIN, UINT_MOD in *; lia).
  rewrite !ccmp_same by assumption.
  replace (lo <=? hi) with true by (symmetry; apply Z.leb_le; lia). cbn [cassert obind].
  unfold INT_MIN, INT_MAX, UINT_MOD in *.
  destruct (Z.ltb_spec (x + 4294967296) lo); [lia|].
  destruct (Z.gtb_spec (x + 4294967296) hi); [reflexivity|lia].
Qed.

(** ** distances *)
Lemma csub_signed : forall t a b, is_signed t = true -> has_type t a -> has_type t b ->
  csub (t, a) (t, b) = if in_ity t (a - b) then Ok (t, a - b) else UB.
Proof. intros t a b S Ha Hb. unfold csub. rewrite binop_same by assumption. unfold fit. rewrite S. destruct (in_ity t (a - b)); reflexivity. Qed.

Lemma in_ity_true : forall t z, has_type t z -> in_ity t z = true.
Proof. unfold in_ity, has_type. intros. lia. Qed.
Lemma in_ity_iff : forall t z, in_ity t z = true <-> has_type t z.
Proof. unfold in_ity, has_type. intros. lia. Qed.
Lemma in_ity_false : forall t z, in_ity t z = false -> ~ has_type t z.
Proof. unfold in_ity, has_type. intros. lia. Qed.

Lemma cabs_signed : forall t a, is_signed t = true ->
  cabs (t, a) = if in_ity t (Z.abs a) then Ok (t, Z.abs a) else UB.
Proof. intros t a S. unfold cabs, fit. cbn [fst snd]. rewrite S. destruct (in_ity t (Z.abs a)); reflexivity. Qed.
Lemma cmul_signed : forall t a b, is_signed t = true -> has_type t a -> has_type t b ->
  cmul (t, a) (t, b) = if in_ity t (a * b) then Ok (t, a * b) else UB.
Proof. intros t a b S Ha Hb. unfold cmul. rewrite binop_same by assumption. unfold fit. rewrite S. destruct (in_ity t (a * b)); reflexivity. Qed.
Lemma cadd_signed : forall t a b, is_signed t = true -> has_type t a -> has_type t b ->
  cadd (t, a) (t, b) = if in_ity t (a + b) then Ok (t, a + b) else UB.
Proof. intros t a b S Ha Hb. unfold cadd. rewrite binop_same by assumption. unfold fit. rewrite S. destruct (in_ity t (a + b)); reflexivity. Qed.

Lemma imin_imax : forall t, is_signed t = true -> imin t = - imax t - 1.
Proof. destruct t; try discriminate; reflexivity. Qed.

Lemma absdiff : forall t a b, is_signed t = true -> has_type t a -> has_type t b ->
  obind (csub (t, a) (t, b)) cabs = if Z.abs (a - b) <=? imax t then Ok (t, Z.abs (a - b)) else UB.
Proof.
  intros t a b S Ha Hb. rewrite csub_signed by assumption. pose proof (imin_imax t S). pose proof (imin_neg t).
  unfold has_type in *.
  destruct (in_ity t (a - b)) eqn:E; cbn [obind].
  - rewrite cabs_signed by assumption. unfold in_ity in *.
    destruct (Z.leb_spec (Z.abs (a - b)) (imax t)).
    + replace ((imin t <=? Z.abs (a - b)) && true)%bool with true by lia. reflexivity.
    + rewrite andb_false_r. reflexivity.
  - unfold in_ity in E. destruct (Z.leb_spec (Z.abs (a - b)) (imax t)); [lia|reflexivity].
Qed.

Lemma obind_assoc3 : forall A B C (x : outcome A) (f : A -> outcome B) (g : B -> outcome C),
  obind x (fun a => obind (f a) g) = obind (obind x f) g.
Proof. intros. destruct x; reflexivity. Qed.

Lemma manhattan_eq : forall t x1 y1 x2 y2, is_signed t = true ->
  has_type t x1 -> has_type t y1 -> has_type t x2 -> has_type t y2 ->
  getDistManhattan (t, x1) (t, y1) (t, x2) (t, y2) =
  if Z.abs (x1 - x2) + Z.abs (y1 - y2) <=? imax t then Ok (t, Z.abs (x1 - x2) + Z.abs (y1 - y2)) else UB.
Proof.
  intros t x1 y1 x2 y2 S H1 H2 H3 H4. unfold getDistManhattan.
  rewrite obind_assoc3, absdiff by assumption. pose proof (imin_neg t).
  destruct (Z.leb_spec (Z.abs (x1 - x2)) (imax t)); cbn [obind].
  - rewrite obind_assoc3, absdiff by assumption.
    destruct (Z.leb_spec (Z.abs (y1 - y2)) (imax t)); cbn [obind].
    + rewrite cadd_signed by (assumption || (unfold has_type; lia)).
      unfold in_ity. destruct (Z.leb_spec (Z.abs (x1 - x2) + Z.abs (y1 - y2)) (imax t)).
      * replace (imin t <=? Z.abs (x1 - x2) + Z.abs (y1 - y2)) with true by lia. reflexivity.
      * rewrite andb_false_r. reflexivity.
    + destruct (Z.leb_spec (Z.abs (x1 - x2) + Z.abs (y1 - y2)) (imax t)); [lia|reflexivity].
  - destruct (Z.leb_spec (Z.abs (x1 - x2) + Z.abs (y1 - y2)) (imax t)); [lia|reflexivity].
Qed.

Lemma chebyshev_eq : forall t x1 y1 x2 y2, is_signed t = true ->
  has_type t x1 -> has_type t y1 -> has_type t x2 -> has_type t y2 ->
  getDistChebyshev (t, x1) (t, y1) (t, x2) (t, y2) =
  if Z.max (Z.abs (x1 - x2)) (Z.abs (y1 - y2)) <=? imax t
  then Ok (t, Z.max (Z.abs (x1 - x2)) (Z.abs (y1 - y2))) else UB.
Proof.
  intros t x1 y1 x2 y2 S H1 H2 H3 H4. unfold getDistChebyshev.
  rewrite obind_assoc3, absdiff by assumption. pose proof (imin_neg t).
  replace (Z.abs (x1 - x2)) with (Z.abs (x2 - x1)) by lia. replace (Z.abs (y1 - y2)) with (Z.abs (y2 - y1)) by lia.
  set (m := Z.max (Z.abs (x2 - x1)) (Z.abs (y2 - y1))).
  destruct (Z.leb_spec (Z.abs (x2 - x1)) (imax t)); cbn [obind].
  - rewrite obind_assoc3, absdiff by assumption.
    destruct (Z.leb_spec (Z.abs (y2 - y1)) (imax t)); cbn [obind].
    + unfold clt. rewrite ccmp_same by (unfold has_type; lia).
      destruct (Z.leb_spec m (imax t)); [|unfold m in *; lia].
      destruct (Z.ltb_spec (Z.abs (x2 - x1)) (Z.abs (y2 - y1))); unfold m; do 2 f_equal; lia.
    + destruct (Z.leb_spec m (imax t)); [unfold m in *; lia|reflexivity].
  - destruct (Z.leb_spec m (imax t)); [unfold m in *; lia|reflexivity].
Qed.

Lemma sqdiff : forall t a b, is_signed t = true -> has_type t a -> has_type t b ->
  obind (csub (t, a) (t, b)) (fun d => cmul d d) = if (a - b) * (a - b) <=? imax t then Ok (t, (a - b) * (a - b)) else UB.
Proof.
  intros t a b S Ha Hb. rewrite csub_signed by assumption. pose proof (imin_imax t S). pose proof (imin_neg t).
  unfold has_type in *.
  destruct (in_ity t (a - b)) eqn:E; cbn [obind].
  - apply in_ity_iff in E. rewrite cmul_signed by assumption. unfold in_ity, has_type in *.
    destruct (Z.leb_spec ((a - b) * (a - b)) (imax t)).
    + replace (imin t <=? (a - b) * (a - b)) with true by (symmetry; apply Z.leb_le; pose proof (Z.square_nonneg (a - b)); lia). reflexivity.
    + rewrite andb_false_r. reflexivity.
  - apply in_ity_false in E. unfold has_type in E. destruct (Z.leb_spec ((a - b) * (a - b)) (imax t)); [nia|reflexivity].
Qed.

Lemma sqeuclid_eq : forall t x1 y1 x2 y2, is_signed t = true ->
  has_type t x1 -> has_type t y1 -> has_type t x2 -> has_type t y2 ->
  getDistSquaredEuclidean (t, x1) (t, y1) (t, x2) (t, y2) =
  if (x1 - x2) * (x1 - x2) + (y1 - y2) * (y1 - y2) <=? imax t
  then Ok (t, (x1 - x2) * (x1 - x2) + (y1 - y2) * (y1 - y2)) else UB.
Proof.
  intros t x1 y1 x2 y2 S H1 H2 H3 H4. unfold getDistSquaredEuclidean.
  rewrite obind_assoc3, sqdiff by assumption. pose proof (imin_neg t).
  pose proof (Z.square_nonneg (x1 - x2)). pose proof (Z.square_nonneg (y1 - y2)).
  set (a := (x1 - x2) * (x1 - x2)) in *.
  destruct (Z.leb_spec a (imax t)); cbn [obind].
  - rewrite obind_assoc3, sqdiff by assumption. set (b := (y1 - y2) * (y1 - y2)) in *.
    destruct (Z.leb_spec b (imax t)); cbn [obind].
    + rewrite cadd_signed by (assumption || (unfold has_type; lia)).
      unfold in_ity. destruct (Z.leb_spec (a + b) (imax t)).
      * replace (imin t <=? a + b) with true by lia. reflexivity.
      * rewrite andb_false_r. reflexivity.
    + destruct (Z.leb_spec (a + b) (imax t)); [lia|reflexivity].
  - destruct (Z.leb_spec (a + (y1 - y2) * (y1 - y2)) (imax t)); [lia|reflexivity].
Qed.

Lemma dist_exact : forall t x1 y1 x2 y2, is_signed t = true ->
  has_type t x1 -> has_type t y1 -> has_type t x2 -> has_type t y2 ->
  (forall d, d = Z.abs (x1 - x2) + Z.abs (y1 - y2) ->
     (d <= imax t -> getDistManhattan (t, x1) (t, y1) (t, x2) (t, y2) = Ok (t, d)) /\
     (imax t < d -> getDistManhattan (t, x1) (t, y1) (t, x2) (t, y2) = UB)) /\
  (forall d, d = Z.max (Z.abs (x1 - x2)) (Z.abs (y1 - y2)) ->
     (d <= imax t -> getDistChebyshev (t, x1) (t, y1) (t, x2) (t, y2) = Ok (t, d)) /\
     (imax t < d -> getDistChebyshev (t, x1) (t, y1) (t, x2) (t, y2) = UB)) /\
  (forall d, d = (x1 - x2) ^ 2 + (y1 - y2) ^ 2 ->
     (d <= imax t -> getDistSquaredEuclidean (t, x1) (t, y1) (t, x2) (t, y2) = Ok (t, d)) /\
     (imax t < d -> getDistSquaredEuclidean (t, x1) (t, y1) (t, x2) (t, y2) = UB)).
Proof.
  intros t x1 y1 x2 y2 S H1 H2 H3 H4.
  rewrite manhattan_eq, chebyshev_eq, sqeuclid_eq by assumption.
  rewrite !Z.pow_2_r.
  repeat split; intros; subst d; 
    match goal with |- context [?a <=? ?b] => destruct (Z.leb_spec a b) end; try lia; reflexivity.
Qed.

Lemma dist_laws : forall t x1 y1 x2 y2 x3 y3, is_signed t = true ->
  has_type t x1 -> has_type t y1 -> has_type t x2 -> has_type t y2 -> has_type t x3 -> has_type t y3 ->
  forall dist, dist = getDistManhattan \/ dist = getDistChebyshev ->
  forall d12 d23 d13,
  dist (t, x1) (t, y1) (t, x2) (t, y2) = Ok (t, d12) ->
  dist (t, x2) (t, y2) (t, x3) (t, y3) = Ok (t, d23) ->
  dist (t, x1) (t, y1) (t, x3) (t, y3) = Ok (t, d13) ->
  0 <= d12 /\ (d12 = 0 <-> x1 = x2 /\ y1 = y2) /\
  dist (t, x2) (t, y2) (t, x1) (t, y1) = Ok (t, d12) /\ d13 <= d12 + d23.
Proof.
  intros t x1 y1 x2 y2 x3 y3 S H1 H2 H3 H4 H5 H6 dist [->| ->] d12 d23 d13.
  - rewrite !manhattan_eq by assumption. intros A B C.
    repeat match goal with H : (if ?a <=? ?b then _ else _) = _ |- _ =>
      destruct (Z.leb_spec a b); [injection H as <-|discriminate] end.
    match goal with |- context [if ?a <=? ?b then _ else _] => destruct (Z.leb_spec a b); [|lia] end.
    split; [lia|]. split; [lia|]. split; [do 2 f_equal; lia|lia].
  - rewrite !chebyshev_eq by assumption. intros A B C.
    repeat match goal with H : (if ?a <=? ?b then _ else _) = _ |- _ =>
      destruct (Z.leb_spec a b); [injection H as <-|discriminate] end.
    match goal with |- context [if ?a <=? ?b then _ else _] => destruct (Z.leb_spec a b); [|lia] end.
    split; [lia|]. split; [lia|]. split; [do 2 f_equal; lia|lia].
Qed.

(** ** integer range mapping *)
Lemma div_bounds : forall m d, 0 < d -> m / d * d <= m < (m / d + 1) * d.
Proof. intros. pose proof (Z.div_mod m d ltac:(lia)). pose proof (Z.mod_pos_bound m d ltac:(lia)). nia. Qed.

Lemma getMapInt_value : forall t i a b c d, has_type t i -> has_type t a -> has_type t b ->
  has_type t c -> has_type t d -> a < b -> c <= d -> a <= i <= b ->
  b - a <= imax t -> d - c <= imax t -> (i - a) * (d - c) <= imax t ->
  getMapInt (t, i) (t, a) (t, b) (t, c) (t, d) = Ok (t, (i - a) * (d - c) / (b - a) + c).
Proof.
  intros t i a b c d Hi Ha Hb Hc Hd H1 H2 H3 H4 H5 H6. unfold getMapInt, ceq, i0.
  pose proof (imin_neg t) as M. unfold has_type in Hi, Ha, Hb, Hc, Hd.
  assert (P : 0 <= (i - a) * (d - c)) by nia.
  rewrite fit_csub by (unfold has_type; lia). cbn [obind].
  rewrite (ccmp_lit Z.eqb t (b - a) 0) by (unfold has_type; lia).
  replace (b - a =? 0) with false by (symmetry; apply Z.eqb_neq; lia). cbn [negb cassert obind].
  rewrite fit_csub by (unfold has_type; lia). cbn [obind].
  rewrite fit_csub by (unfold has_type; lia). cbn [obind].
  rewrite fit_cmul by (unfold has_type; lia). cbn [obind].
  rewrite cdiv_pos by (unfold has_type; lia). cbn [obind].
  pose proof (Z.div_pos ((i - a) * (d - c)) (b - a) P ltac:(lia)).
  assert ((i - a) * (d - c) / (b - a) <= d - c) by (apply Z.div_le_upper_bound; nia).
  rewrite fit_cadd by (unfold has_type; lia). reflexivity.
Qed.

Lemma getMapInt_spec : forall t i j a b c d, has_type t i -> has_type t j -> has_type t a -> has_type t b ->
  has_type t c -> has_type t d -> a < b -> c <= d -> a <= i -> i <= j -> j <= b ->
  b - a <= imax t -> d - c <= imax t -> (b - a) * (d - c) <= imax t ->
  exists ri rj, getMapInt (t, i) (t, a) (t, b) (t, c) (t, d) = Ok (t, ri) /\
    getMapInt (t, j) (t, a) (t, b) (t, c) (t, d) = Ok (t, rj) /\
    c <= ri /\ ri <= rj /\ rj <= d /\ (i = a -> ri = c) /\ (j = b -> rj = d) /\
    (* the exact image rounded down *)
    (ri - c) * (b - a) <= (i - a) * (d - c) < (ri - c + 1) * (b - a).
Proof.
  intros t i j a b c d Hi Hj Ha Hb Hc Hd H1 H2 H3 H3' H3'' H4 H5 H6.
  eexists _, _. split; [apply getMapInt_value; try assumption; nia|].
  split; [apply getMapInt_value; try assumption; nia|].
  assert (P : 0 <= (i - a) * (d - c)) by nia.
  pose proof (Z.div_pos ((i - a) * (d - c)) (b - a) P ltac:(lia)).
  assert ((j - a) * (d - c) / (b - a) <= d - c) by (apply Z.div_le_upper_bound; nia).
  assert ((i - a) * (d - c) / (b - a) <= (j - a) * (d - c) / (b - a)) by (apply Z.div_le_mono; nia).
  repeat split; try lia.
  - intros ->. rewrite Z.sub_diag, Z.mul_0_l, Z.div_0_l by lia. lia.
  - intros ->. rewrite (Z.mul_comm (b - a)), Z.div_mul by lia. lia.
  - pose proof (div_bounds ((i - a) * (d - c)) (b - a) ltac:(lia)). lia.
  - pose proof (div_bounds ((i - a) * (d - c)) (b - a) ltac:(lia)). lia.
Qed.

(** ** rationals *)
Local Open Scope Q_scope.

Lemma Qtrunc_spec : forall q, (0 <= q -> inject_Z (Qtrunc q) <= q /\ q < inject_Z (Qtrunc q) + 1) /\
  (q <= 0 -> q <= inject_Z (Qtrunc q) /\ inject_Z (Qtrunc q) - 1 < q).
Proof.
  intros [n d]. unfold Qtrunc, inject_Z, Qle, Qlt, Qplus, Qminus, Qopp. cbn [Qnum Qden].
  pose proof (Z.quot_rem' n (Zpos d)) as E.
  assert (R : (0 <= n -> 0 <= Z.rem n (Zpos d) < Zpos d)%Z) by (intros; apply Z.rem_bound_pos; lia).
  assert (R' : (n <= 0 -> - Zpos d < Z.rem n (Zpos d) <= 0)%Z).
  { intros. rewrite <- (Z.opp_involutive n), Z.rem_opp_l by lia.
    pose proof (Z.rem_bound_pos (-n) (Zpos d) ltac:(lia) ltac:(lia)). lia. }
  generalize dependent (Z.rem n (Zpos d)). generalize dependent (Z.quot n (Zpos d)). intros q r E R R'.
  rewrite ?Pos2Z.inj_mul, ?Z.mul_1_r, ?Z.mul_1_l. split; intros H; split. 1-3: nia. cbn [Qnum Qplus Qden]. nia.
Qed.

Lemma fmod_spec : forall x d, 0 < d ->
  (exists n, x == d * inject_Z n + fmod x d) /\
  (0 <= x -> 0 <= fmod x d /\ fmod x d < d) /\ (x <= 0 -> - d < fmod x d /\ fmod x d <= 0).
Proof.
  intros x d Hd. unfold fmod. split; [|].
  - exists (Qtrunc (x / d)). ring.
  - destruct (Qtrunc_spec (x / d)) as [P N]. set (k := inject_Z (Qtrunc (x / d))) in *.
    assert (E : x == d * (x / d)) by (field; lra). set (q := x / d) in *.
    split; intros Hx.
    + assert (Hq : 0 <= q). { apply Qle_shift_div_l; lra. }
      destruct (P Hq) as [P1 P2]. rewrite E. split; nra.
    + assert (Hq : q <= 0). { apply Qle_shift_div_r; lra. }
      destruct (N Hq) as [P1 P2]. rewrite E. split; nra.
Qed.

Lemma Qltb_spec : forall a b, reflect (a < b) (Qltb a b).
Proof.
  intros a b. unfold Qltb. destruct (Qle_bool b a) eqn:E; cbn; constructor.
  - apply Qle_bool_iff in E. lra.
  - apply Qnot_le_lt. intros H. apply Qle_bool_iff in H. congruence.
Qed.

Lemma congruent_unique : forall d a b lo, 0 < d -> lo <= a -> a < lo + d -> lo <= b -> b < lo + d ->
  congruent d a b -> a == b.
Proof.
  intros d a b lo Hd A1 A2 B1 B2 [n E].
  assert (H1 : inject_Z n < 1) by nra. assert (H2 : - (1) < inject_Z n) by nra.
  change 1 with (inject_Z 1) in H1. rewrite <- Zlt_Qlt in H1.
  change (- (1)) with (inject_Z (-1)) in H2. rewrite <- Zlt_Qlt in H2.
  assert (n = 0%Z) by lia. subst n. rewrite E. cbn. ring.
Qed.

Lemma radians_spec : forall x, toDeg (toRad x) == x /\ toRad (toDeg x) == x.
Proof. intros x. unfold toDeg, toRad. split; field; vm_compute; discriminate. Qed.
Lemma cycled_spec : forall x lo hi, lo < hi ->
  lo <= getCycledValue x lo hi /\ getCycledValue x lo hi < hi /\
  congruent (hi - lo) (getCycledValue x lo hi) x.
Proof.
  intros x lo hi H. unfold getCycledValue. cbv zeta.
  destruct (fmod_spec (x - lo) (hi - lo) ltac:(lra)) as [[n E] [P N]].
  set (m := fmod (x - lo) (hi - lo)) in *.
  destruct (Qltb_spec m 0) as [Hm|Hm].
  - destruct (Qlt_le_dec (x - lo) 0) as [Hx|Hx].
    + destruct (N ltac:(lra)). split; [lra|]. split; [lra|].
      exists (1 - n)%Z. unfold Z.sub. rewrite inject_Z_plus, inject_Z_opp. change (inject_Z 1) with 1.
      setoid_replace x with ((hi - lo) * inject_Z n + m + lo) by lra. ring.
    + destruct (P Hx). lra.
  - destruct (Qlt_le_dec (x - lo) 0) as [Hx|Hx].
    + destruct (N ltac:(lra)). split; [lra|]. split; [lra|].
      exists (- n)%Z. rewrite inject_Z_opp. setoid_replace x with ((hi - lo) * inject_Z n + m + lo) by lra. ring.
    + destruct (P Hx). split; [lra|]. split; [lra|].
      exists (- n)%Z. rewrite inject_Z_opp. setoid_replace x with ((hi - lo) * inject_Z n + m + lo) by lra. ring.
Qed.

Lemma wrap_spec : forall x, 0 <= getWrapDeg x /\ getWrapDeg x < 360 /\ congruent 360 (getWrapDeg x) x.
Proof.
  intros x. unfold getWrapDeg. cbv zeta.
  destruct (fmod_spec x 360 ltac:(lra)) as [[n E] [P N]]. set (m := fmod x 360) in *.
  destruct (Qltb_spec m 0) as [Hm|Hm].
  - destruct (Qlt_le_dec x 0) as [Hx|Hx]; [|destruct (P Hx); lra].
    destruct (N ltac:(lra)). split; [lra|]. split; [lra|].
    exists (1 - n)%Z. unfold Z.sub. rewrite inject_Z_plus, inject_Z_opp. change (inject_Z 1) with 1.
    lra.
  - assert (m < 360). { destruct (Qlt_le_dec x 0) as [Hx|Hx]; [destruct (N ltac:(lra)); lra|destruct (P Hx); lra]. }
    split; [lra|]. split; [lra|]. exists (- n)%Z. rewrite inject_Z_opp. lra.
Qed.

Lemma cong_trans : forall d a b c, congruent d a b -> congruent d b c -> congruent d a c.
Proof. intros d a b c [n E] [m F]. exists (n + m)%Z. rewrite inject_Z_plus, E, F. ring. Qed.
Lemma cong_sym : forall d a b, congruent d a b -> congruent d b a.
Proof. intros d a b [n E]. exists (- n)%Z. rewrite inject_Z_opp, E. ring. Qed.

(** [getDistDeg] is the least absolute difference over all representatives. *)
Lemma dist_min : forall a b,
  (exists n, Qabs (a - b + 360 * inject_Z n) == getDistDeg a b) /\
  (forall n, getDistDeg a b <= Qabs (a - b + 360 * inject_Z n)).
Proof.
  intros a b. unfold getDistDeg. set (x := Qabs (a - b)).
  assert (Hx : 0 <= x) by apply Qabs_nonneg.
  destruct (fmod_spec x 360 ltac:(lra)) as [[n E] [P _]]. destruct (P Hx) as [P1 P2].
  set (m := fmod x 360) in *.
  assert (S : exists s : Z, (s = 1 \/ s = -1)%Z /\ a - b == inject_Z s * x).
  { destruct (Qlt_le_dec (a - b) 0) as [L|L].
    - exists (-1)%Z. split; [right; reflexivity|]. unfold x. rewrite Qabs_neg by lra. change (inject_Z (-1)) with (-1 # 1). ring.
    - exists 1%Z. split; [left; reflexivity|]. unfold x. rewrite Qabs_pos by lra. change (inject_Z 1) with 1. ring. }
  destruct S as (s & Hs & Es).
  assert (As : Qabs (inject_Z s) == 1) by (destruct Hs as [->| ->]; reflexivity).
  assert (D : (m < 180 /\ 180 - Qabs (m - 180) == m) \/ (180 <= m /\ 180 - Qabs (m - 180) == 360 - m)).
  { destruct (Qlt_le_dec m 180) as [L|L]; [left|right]; (split; [exact L|]);
      [rewrite Qabs_neg by lra|rewrite Qabs_pos by lra]; ring. }
  set (dd := 180 - Qabs (m - 180)) in *. clearbody dd.
  split.
  - destruct D as [[L D]|[L D]]; setoid_rewrite D.
    + exists (- s * n)%Z. rewrite inject_Z_mult, inject_Z_opp, Es, E.
      setoid_replace (inject_Z s * (360 * inject_Z n + m) + 360 * (- inject_Z s * inject_Z n)) with (inject_Z s * m) by ring.
      rewrite Qabs_Qmult. rewrite As, (Qabs_pos m) by lra. ring.
    + exists (- s * (n + 1))%Z. rewrite inject_Z_mult, inject_Z_opp, inject_Z_plus, Es, E. change (inject_Z 1) with 1.
      setoid_replace (inject_Z s * (360 * inject_Z n + m) + 360 * (- inject_Z s * (inject_Z n + 1))) with (inject_Z s * (m - 360)) by ring.
      rewrite Qabs_Qmult. rewrite As, (Qabs_neg (m - 360)) by lra. ring.
  - intros k. rewrite Es, E.
    set (j := (n + s * k)%Z).
    assert (Q : Qabs (inject_Z s * (360 * inject_Z n + m) + 360 * inject_Z k) == Qabs (360 * inject_Z j + m)).
    { unfold j. rewrite inject_Z_plus, inject_Z_mult. destruct Hs as [->| ->].
      - change (inject_Z 1) with 1. apply Qabs_wd. ring.
      - change (inject_Z (-1)) with (- (1)). rewrite <- Qabs_opp. apply Qabs_wd. ring. }
    rewrite Q. 
    destruct (Z_le_gt_dec 0 j) as [J|J].
    + rewrite Zle_Qle in J. change (inject_Z 0) with 0 in J. rewrite Qabs_pos by lra.
      destruct D as [[L D]|[L D]]; lra.
    + assert (J' : (j <= -1)%Z) by lia. rewrite Zle_Qle in J'. change (inject_Z (-1)) with (- (1)) in J'.
      rewrite Qabs_neg by lra. destruct D as [[L D]|[L D]]; lra.
Qed.

Lemma dist_range : forall a b, 0 <= getDistDeg a b /\ getDistDeg a b <= 180.
Proof.
  intros a b. unfold getDistDeg. destruct (fmod_spec (Qabs (a - b)) 360 ltac:(lra)) as [_ [P _]].
  destruct (P (Qabs_nonneg _)) as [P1 P2]. set (m := fmod _ 360) in *.
  destruct (Qlt_le_dec m 180); [rewrite Qabs_neg by lra|rewrite Qabs_pos by lra]; lra.
Qed.

Lemma dist_sym : forall a b, getDistDeg a b == getDistDeg b a.
Proof.
  intros a b. destruct (dist_min a b) as [[n E] M]. destruct (dist_min b a) as [[n' E'] M'].
  apply Qle_antisym.
  - rewrite <- E'. rewrite <- Qabs_opp. specialize (M (- n')%Z). rewrite inject_Z_opp in M.
    setoid_replace (- (b - a + 360 * inject_Z n')) with (a - b + 360 * - inject_Z n') by ring. exact M.
  - rewrite <- E. rewrite <- Qabs_opp. specialize (M' (- n)%Z). rewrite inject_Z_opp in M'.
    setoid_replace (- (a - b + 360 * inject_Z n)) with (b - a + 360 * - inject_Z n) by ring. exact M'.
Qed.

Lemma dist_zero : forall a b, getDistDeg a b == 0 <-> congruent 360 a b.
Proof.
  intros a b. destruct (dist_min a b) as [[n E] M]. split.
  - intros H. rewrite H in E. exists (- n)%Z. rewrite inject_Z_opp.
    assert (K : a - b + 360 * inject_Z n == 0).
    { destruct (Qlt_le_dec (a - b + 360 * inject_Z n) 0); 
      [rewrite Qabs_neg in E by lra|rewrite Qabs_pos in E by lra]; lra. }
    lra.
  - intros [k K]. specialize (M (- k)%Z). rewrite inject_Z_opp in M.
    assert (Z0 : a - b + 360 * - inject_Z k == 0) by lra.
    rewrite Z0 in M. cbn in M. pose proof (dist_range a b). change (Qabs 0) with 0 in M. lra.
Qed.

Lemma dist_of_diff : forall s e d, - (180) <= d -> d <= 180 -> congruent 360 d (e - s) -> getDistDeg s e == Qabs d.
Proof.
  intros s e d D1 D2 [n E]. destruct (dist_min s e) as [[k K] M]. apply Qle_antisym.
  - specialize (M (- n)%Z). rewrite inject_Z_opp in M. rewrite <- (Qabs_opp d).
    setoid_replace (- d) with (s - e + 360 * - inject_Z n) by lra. exact M.
  - rewrite <- K. rewrite <- (Qabs_opp d).
    setoid_replace (s - e + 360 * inject_Z k) with (- d + 360 * inject_Z (n + k)) by (rewrite inject_Z_plus; lra).
    set (j := (n + k)%Z).
    destruct (Z.eq_dec j 0) as [->|N].
    + change (inject_Z 0) with 0. setoid_replace (- d + 360 * 0) with (- d) by ring. apply Qle_refl.
    + assert (J : (1 <= j \/ j <= -1)%Z) by lia.
      assert (A : Qabs (- d) <= 180) by (apply Qabs_Qle_condition; split; lra).
      destruct J as [J|J]; rewrite Zle_Qle in J.
      * change (inject_Z 1) with 1 in J. apply Qle_trans with 180; [exact A|]. rewrite Qabs_pos by lra. lra.
      * change (inject_Z (-1)) with (- (1)) in J. apply Qle_trans with 180; [exact A|]. rewrite Qabs_neg by lra. lra.
Qed.

Lemma rotated_spec : forall s e v, 0 <= v ->
  (getDistDeg s e <= v -> getRotatedDeg s e v == e) /\
  (v < getDistDeg s e -> (getRotatedDeg s e v == s + v \/ getRotatedDeg s e v == s - v) /\
     getDistDeg (getRotatedDeg s e v) e == getDistDeg s e - v).
Proof.
  intros s e v Hv. unfold getRotatedDeg.
  destruct (wrap_spec s) as (_ & _ & Cs). destruct (wrap_spec e) as (_ & _ & Ce).
  destruct (cycled_spec (getWrapDeg e - getWrapDeg s) (- (180)) 180 ltac:(lra)) as (D1 & D2 & Cd).
  set (diff := getCycledValue (getWrapDeg e - getWrapDeg s) (- (180)) 180) in *. cbv zeta.
  assert (C : congruent 360 diff (e - s)).
  { destruct Cs as [n En]. destruct Ce as [k Ek]. destruct Cd as [j Ej]. exists (j + k - n)%Z.
    unfold Z.sub. rewrite !inject_Z_plus, inject_Z_opp. lra. }
  pose proof (dist_of_diff s e diff D1 ltac:(lra) C) as DD.
  destruct (Qltb_spec diff (- v)) as [L1|L1].
  - rewrite Qabs_neg in DD by lra. split; [lra|]. intros _. split; [right; reflexivity|].
    rewrite (dist_of_diff (s - v) e (diff + v)); [rewrite Qabs_neg by lra; lra|lra|lra|].
    destruct C as [n En]. exists n. lra.
  - destruct (Qltb_spec v diff) as [L2|L2].
    + rewrite Qabs_pos in DD by lra. split; [lra|]. intros _. split; [left; reflexivity|].
      rewrite (dist_of_diff (s + v) e (diff - v)); [rewrite Qabs_pos by lra; lra|lra|lra|].
      destruct C as [n En]. exists n. lra.
    + split; [intros _; reflexivity|]. intros K. exfalso. rewrite DD in K.
      assert (Qabs diff <= v) by (apply Qabs_Qle_condition; split; lra). lra.
Qed.

Lemma cycled_unique : forall x lo hi y, lo < hi -> lo <= y -> y < hi -> congruent (hi - lo) y x ->
  y == getCycledValue x lo hi.
Proof.
  intros x lo hi y H Y1 Y2 C. destruct (cycled_spec x lo hi H) as (C1 & C2 & C3).
  apply (congruent_unique (hi - lo) y (getCycledValue x lo hi) lo); try lra.
  eapply cong_trans; [exact C|]. apply cong_sym. exact C3.
Qed.

Lemma getMap_spec : forall i a b c d, ~ a == b -> exists r, getMap i a b c d = Ok r /\
  (r - c) * (b - a) == (i - a) * (d - c) /\
  (a < b -> c <= d -> a <= i -> i <= b -> c <= r /\ r <= d) /\
  (i == a -> r == c) /\ (i == b -> r == d).
Proof.
  intros i a b c d N. unfold getMap.
  destruct (Qeq_bool (b - a) 0) eqn:E; [apply Qeq_bool_iff in E; exfalso; apply N; lra|].
  eexists. split; [reflexivity|].
  assert (Nz : ~ b - a == 0) by (intros K; apply N; lra).
  set (r := (i - a) * (d - c) / (b - a)).
  assert (R : r * (b - a) == (i - a) * (d - c)) by (unfold r; field; assumption).
  split; [lra|]. split; [|split].
  - intros H1 H2 H3 H4. assert (0 <= r) by (unfold r; apply Qle_shift_div_l; [lra|nra]).
    assert (r <= d - c) by (unfold r; apply Qle_shift_div_r; [lra|nra]). lra.
  - intros Ei. unfold r. rewrite Ei. field. assumption.
  - intros Ei. unfold r. rewrite Ei. field. assumption.
Qed.

Lemma getLerp_spec : forall w a b, (0 <= w -> w <= 1 -> exists r, getLerp w a b = Ok r /\ r == (1 - w) * a + w * b /\
   (a <= b -> a <= r /\ r <= b) /\ (w == 0 -> r == a) /\ (w == 1 -> r == b)) /\
  (w < 0 \/ 1 < w -> getLerp w a b = UB).
Proof.
  intros w a b. unfold getLerp. split.
  - intros H1 H2. apply Qle_bool_iff in H1 as H1'. apply Qle_bool_iff in H2 as H2'. rewrite H1', H2'. cbn [andb].
    eexists. split; [reflexivity|]. split; [ring|]. split; [intros; split; nra|]. split; intros E; rewrite E; ring.
  - intros H. destruct (Qle_bool 0 w) eqn:E1; [|reflexivity]. destruct (Qle_bool w 1) eqn:E2; [|reflexivity].
    apply Qle_bool_iff in E1. apply Qle_bool_iff in E2. lra.
Qed.
