(** Proofs about the output functions. *)
From Coq Require Import String ZArith Bool List Lia Znumtheory.
From Verif Require Import Common PcgModel PermModel PcgSpec PermSpec.
Import ListNotations.
Local Open Scope Z_scope.

Lemma pow_pos : forall n, 0 <= n -> 0 < 2 ^ n.
Proof. intros. apply Z.pow_pos_nonneg; lia. Qed.
Lemma pow_nz : forall n, 0 <= n -> 2 ^ n <> 0.
Proof. intros n H. pose proof (pow_pos n H). lia. Qed.
Lemma div_pow : forall x a b, 0 <= a -> 0 <= b -> x / 2 ^ a / 2 ^ b = x / 2 ^ (a + b).
Proof. intros x a b A B. rewrite Z.div_div, Z.pow_add_r; try lia; try (now apply pow_nz); now apply pow_pos. Qed.
Lemma div_range : forall x a b, 0 <= a -> 0 <= b -> 0 <= x < 2 ^ (a + b) -> 0 <= x / 2 ^ a < 2 ^ b.
Proof.
  intros x a b A B H. pose proof (pow_pos a A). split; [apply Z.div_pos; lia|]. apply Z.div_lt_upper_bound; [lia|].
  rewrite <- Z.pow_add_r by lia. lia.
Qed.
Lemma lxor_div : forall x y n, 0 <= n -> Z.lxor x y / 2 ^ n = Z.lxor (x / 2 ^ n) (y / 2 ^ n).
Proof. intros. rewrite <- !Z.shiftr_div_pow2 by lia. apply Z.shiftr_lxor. Qed.
Lemma lxor_mod : forall x y n, 0 <= n -> Z.lxor x y mod 2 ^ n = Z.lxor (x mod 2 ^ n) (y mod 2 ^ n).
Proof.
  intros x y n H. rewrite <- !Z.land_ones by lia. apply Z.bits_inj'. intros i Hi. rewrite !Z.land_spec, !Z.lxor_spec, !Z.land_spec.
  now destruct (Z.testbit x i), (Z.testbit y i), (Z.testbit (Z.ones n) i).
Qed.
Lemma lxor_range : forall x y n, 0 <= n -> 0 <= x < 2 ^ n -> 0 <= y < 2 ^ n -> 0 <= Z.lxor x y < 2 ^ n.
Proof.
  intros x y n N X Y. pose proof (pow_pos n N). rewrite <- (Z.mod_small x (2 ^ n)), <- (Z.mod_small y (2 ^ n)) by assumption.
  rewrite <- lxor_mod by exact N. now apply Z.mod_pos_bound.
Qed.
Lemma lxor_cancel : forall x y, Z.lxor (Z.lxor x y) y = x.
Proof. intros. now rewrite Z.lxor_assoc, Z.lxor_nilpotent, Z.lxor_0_r. Qed.

(** ** Mixing is a permutation *)
Fixpoint inv (fuel : nat) (shift x : Z) : Z := match fuel with O => x | S fuel => Z.lxor x (inv fuel shift (x / 2 ^ shift)) end.
Lemma xorshift_range : forall n shift x, 0 <= n -> 0 <= shift -> 0 <= x < 2 ^ n -> 0 <= xorshift shift x < 2 ^ n.
Proof.
  intros n shift x N S H. apply lxor_range; try assumption. pose proof (pow_pos shift S). split; [apply Z.div_pos; lia|].
  apply Z.le_lt_trans with x; [|lia]. apply Z.div_le_upper_bound; [lia|]. nia.
Qed.
Lemma shrink : forall f shift x, 0 < shift -> 0 <= x < 2 ^ Z.of_nat (S f) -> 0 <= x / 2 ^ shift < 2 ^ Z.of_nat f.
Proof.
  intros f shift x S H. rewrite Nat2Z.inj_succ, Z.pow_succ_r in H by lia. pose proof (pow_pos shift ltac:(lia)).
  split; [apply Z.div_pos; lia|]. apply Z.div_lt_upper_bound; [lia|].
  assert (2 ^ 1 <= 2 ^ shift) by (apply Z.pow_le_mono_r; lia). change (2 ^ 1) with 2 in *. pose proof (pow_pos (Z.of_nat f) ltac:(lia)). nia.
Qed.
Lemma inv_right : forall f shift x, 0 < shift -> 0 <= x < 2 ^ Z.of_nat f -> xorshift shift (inv f shift x) = x.
Proof.
  induction f as [|f IH]; intros shift x S H; cbn [inv].
  - change (2 ^ Z.of_nat 0) with 1 in H. replace x with 0 by lia. unfold xorshift. now rewrite Z.div_0_l by (apply pow_nz; lia).
  - pose proof (IH shift (x / 2 ^ shift) S (shrink f shift x S H)) as E. set (v := inv f shift (x / 2 ^ shift)) in *. clearbody v.
    unfold xorshift in *. rewrite lxor_div by lia. rewrite <- E at 1.
    rewrite (Z.lxor_assoc v), Z.lxor_nilpotent, Z.lxor_0_r, lxor_cancel. reflexivity.
Qed.
Lemma inv_left : forall f shift y, 0 < shift -> 0 <= y < 2 ^ Z.of_nat f -> inv f shift (xorshift shift y) = y.
Proof.
  induction f as [|f IH]; intros shift y S H; cbn [inv].
  - change (2 ^ Z.of_nat 0) with 1 in H. replace y with 0 by lia. unfold xorshift. now rewrite Z.div_0_l by (apply pow_nz; lia).
  - replace (xorshift shift y / 2 ^ shift) with (xorshift shift (y / 2 ^ shift)) by (unfold xorshift; now rewrite lxor_div by lia).
    rewrite IH by (try assumption; now apply shrink). unfold xorshift. apply lxor_cancel.
Qed.
Lemma inv_range : forall f n shift x, 0 <= n -> 0 < shift -> 0 <= x < 2 ^ n -> 0 <= inv f shift x < 2 ^ n.
Proof.
  induction f as [|f IH]; intros n shift x N S H; cbn [inv]; [exact H|]. apply lxor_range; try assumption. apply IH; try assumption.
  pose proof (pow_pos shift ltac:(lia)). split; [apply Z.div_pos; lia|]. apply Z.le_lt_trans with x; [|lia]. apply Z.div_le_upper_bound; [lia|]. nia.
Qed.
(** The top bits stay. *)
Lemma xorshift_top : forall n op shift x, 0 <= n -> 0 <= op <= shift -> 0 <= x < 2 ^ (n + op) -> xorshift shift x / 2 ^ n = x / 2 ^ n.
Proof.
  intros n op shift x N O H. unfold xorshift. rewrite lxor_div, div_pow by lia.
  rewrite (Z.div_small x (2 ^ (shift + n))); [apply Z.lxor_0_r|]. split; [lia|]. apply Z.lt_le_trans with (2 ^ (n + op)); [lia|]. apply Z.pow_le_mono_r; lia.
Qed.

(** ** [unxorshift] *)
Lemma ones_eq : forall n, 2 ^ n - 1 = Z.ones n.
Proof. intros. now rewrite Z.ones_equiv, Z.sub_1_r. Qed.
Lemma bits_high : forall x n i, 0 <= x < 2 ^ n -> 0 <= n <= i -> Z.testbit x i = false.
Proof.
  intros x n i H N. rewrite <- (Z.mod_small x (2 ^ n)) by exact H. apply Z.mod_pow2_bits_high. lia.
Qed.
Lemma unxorshift_ok : forall fuel w bits shift y, 0 < shift -> 0 <= bits <= w -> (Z.to_nat bits <= fuel)%nat -> (0 < fuel)%nat -> 0 <= y < 2 ^ bits ->
  unxorshift fuel w (xorshift shift y) bits shift = Ok y.
Proof.
  induction fuel as [|fuel IH]; intros w bits shift y S B F F0 H; [lia|]. cbn [unxorshift].
  pose proof (xorshift_range bits shift y ltac:(lia) ltac:(lia) H) as XR.
  destruct (2 * shift >=? bits) eqn:E.
  - f_equal. rewrite Z.shiftr_div_pow2 by lia. unfold xorshift. rewrite lxor_div, div_pow by lia. rewrite (Z.div_small y (2 ^ (shift + shift))).
    + rewrite Z.lxor_0_r. apply lxor_cancel.
    + split; [lia|]. apply Z.lt_le_trans with (2 ^ bits); [lia|]. apply Z.pow_le_mono_r; lia.
  - set (x := xorshift shift y) in *. rewrite !ones_eq. set (lo := bits - shift * 2).
    assert (HM : forall i, 0 <= i -> Z.testbit (Z.ones w - Z.ones lo) i = (lo <=? i) && (i <? w)).
    { intros i Hi. rewrite Z.sub_nocarry_ldiff.
      - rewrite Z.ldiff_spec, !Z.testbit_ones_nonneg by lia. destruct (lo <=? i) eqn:X1, (i <? w) eqn:X2, (i <? lo) eqn:X3; cbn; lia || reflexivity.
      - apply Z.bits_inj'. intros j Hj. rewrite Z.ldiff_spec, !Z.testbit_ones_nonneg, Z.bits_0 by lia.
        destruct (j <? lo) eqn:X1, (j <? w) eqn:X2; cbn; reflexivity || lia. }
    assert (YH : forall i, bits <= i -> Z.testbit y i = false) by (intros i Hi; apply bits_high with bits; lia).
    assert (XB : forall i, 0 <= i -> Z.testbit x i = xorb (Z.testbit y i) (Z.testbit y (i + shift))).
    { intros i Hi. unfold x, xorshift. rewrite Z.lxor_spec, <- Z.shiftr_div_pow2, Z.shiftr_spec by lia. reflexivity. }
    assert (T1 : forall i, 0 <= i -> Z.testbit (Z.land (Z.lxor x (Z.shiftr x shift)) (Z.ones w - Z.ones lo)) i = (lo <=? i) && Z.testbit y i).
    { intros i Hi. rewrite Z.land_spec, HM, Z.lxor_spec, Z.shiftr_spec, !XB by lia.
      destruct (lo <=? i) eqn:X1; cbn [andb]; [|apply andb_false_r]. rewrite (YH (i + shift + shift)) by lia.
      destruct (i <? w) eqn:X2; [|rewrite (YH i), (YH (i + shift)) by lia; reflexivity].
      rewrite andb_true_r. now destruct (Z.testbit y i), (Z.testbit y (i + shift)). }
    set (top := Z.land (Z.lxor x (Z.shiftr x shift)) (Z.ones w - Z.ones lo)) in *. clearbody top.
    assert (B2 : Z.land (Z.lor top (Z.land x (Z.ones lo))) (Z.ones (bits - shift)) = xorshift shift (y mod 2 ^ (bits - shift))).
    { apply Z.bits_inj'. intros i Hi. rewrite Z.land_spec, Z.lor_spec, T1, Z.land_spec, XB by exact Hi. rewrite !Z.testbit_ones_nonneg by lia.
      unfold xorshift. rewrite Z.lxor_spec, <- Z.shiftr_div_pow2, Z.shiftr_spec by lia.
      destruct (i <? bits - shift) eqn:X1.
      - rewrite (Z.mod_pow2_bits_low y (bits - shift) i) by lia. destruct (i <? lo) eqn:X2.
        + rewrite (Z.mod_pow2_bits_low y (bits - shift) (i + shift)) by lia. replace (lo <=? i) with false by lia. now rewrite !andb_true_r.
        + rewrite (Z.mod_pow2_bits_high y (bits - shift) (i + shift)) by lia. replace (lo <=? i) with true by lia.
          rewrite !andb_true_r, andb_false_r, orb_false_r, xorb_false_r. reflexivity.
      - rewrite !(Z.mod_pow2_bits_high y (bits - shift)) by lia. now rewrite andb_false_r. }
    rewrite B2, IH; [|lia|lia|lia|lia|apply Z.mod_pos_bound, pow_pos; lia].
    cbn [obind]. f_equal. apply Z.bits_inj'. intros i Hi. rewrite Z.lor_spec, T1, Z.land_spec, Z.testbit_ones_nonneg by lia.
    destruct (i <? lo) eqn:X2.
    + replace (lo <=? i) with false by lia. cbn [andb orb]. rewrite andb_true_r. apply Z.mod_pow2_bits_low. lia.
    + replace (lo <=? i) with true by lia. rewrite andb_false_r, orb_false_r. reflexivity.
Qed.
Lemma unxorshift_back : forall w shift x, 0 < shift -> 0 < w -> 0 <= x < 2 ^ w ->
  exists y, unxorshift (Z.to_nat w) w x w shift = Ok y /\ 0 <= y < 2 ^ w /\ xorshift shift y = x.
Proof.
  intros w shift x S W H. assert (H' : 0 <= x < 2 ^ Z.of_nat (Z.to_nat w)) by (rewrite Z2Nat.id by lia; exact H).
  exists (inv (Z.to_nat w) shift x). pose proof (inv_right _ _ _ S H') as E. pose proof (inv_range (Z.to_nat w) w shift x ltac:(lia) S H) as R.
  split; [|now split]. rewrite <- E at 1. apply unxorshift_ok; try assumption; lia.
Qed.

(** ** Rotation *)
Lemma rotated_range : forall w x r, 0 <= r <= w -> 0 <= x < 2 ^ w -> 0 <= rotated w x r < 2 ^ w.
Proof.
  intros w x r R H. unfold rotated. pose proof (pow_pos r ltac:(lia)). pose proof (pow_pos (w - r) ltac:(lia)).
  pose proof (div_range x r (w - r) ltac:(lia) ltac:(lia) ltac:(replace (r + (w - r)) with w by lia; exact H)).
  pose proof (Z.mod_pos_bound x (2 ^ r) ltac:(lia)). replace (2 ^ w) with (2 ^ (w - r) * 2 ^ r) by (rewrite <- Z.pow_add_r by lia; f_equal; lia). nia.
Qed.
Lemma rotated_back : forall w x r, 0 <= r <= w -> 0 <= x < 2 ^ w -> rotated w (rotated w x r) (w - r) = x.
Proof.
  intros w x r R H. unfold rotated. pose proof (pow_pos r ltac:(lia)). pose proof (pow_pos (w - r) ltac:(lia)).
  pose proof (div_range x r (w - r) ltac:(lia) ltac:(lia) ltac:(replace (r + (w - r)) with w by lia; exact H)).
  pose proof (Z.div_mod x (2 ^ r) ltac:(lia)) as DM. replace (w - (w - r)) with r by lia.
  set (a := x / 2 ^ r) in *. set (b := x mod 2 ^ r) in *. clearbody a b. rewrite (Z.mul_comm (2 ^ (w - r)) b), Z.div_add, Z.mod_add by lia.
  rewrite (Z.div_small a), (Z.mod_small a) by lia. lia.
Qed.
Lemma rotated_forth : forall w x r, 0 <= r <= w -> 0 <= x < 2 ^ w -> rotated w (rotated w x (w - r)) r = x.
Proof. intros w x r R H. pose proof (rotated_back w x (w - r) ltac:(lia) H) as E. now replace (w - (w - r)) with r in E by lia. Qed.
Lemma lor_add : forall a b n, 0 <= n -> 0 <= a < 2 ^ n -> Z.lor a (b * 2 ^ n) = a + 2 ^ n * b.
Proof.
  intros a b n N H. rewrite (Z.mul_comm _ b). symmetry. rewrite <- Z.lxor_lor.
  - apply Z.add_nocarry_lxor. apply Z.bits_inj'. intros i Hi. rewrite Z.land_spec, Z.bits_0, <- Z.shiftl_mul_pow2, Z.shiftl_spec by lia.
    destruct (Z.lt_ge_cases i n); [rewrite (Z.testbit_neg_r b) by lia; apply andb_false_r|]. now rewrite (bits_high a n) by lia.
  - apply Z.bits_inj'. intros i Hi. rewrite Z.land_spec, Z.bits_0, <- Z.shiftl_mul_pow2, Z.shiftl_spec by lia.
    destruct (Z.lt_ge_cases i n); [rewrite (Z.testbit_neg_r b) by lia; apply andb_false_r|]. now rewrite (bits_high a n) by lia.
Qed.
Lemma rotr_is : forall op x r, 0 <= op -> 0 <= r < 2 ^ op -> 0 <= x < 2 ^ (2 ^ op) -> rotr (2 ^ op) x r = rotated (2 ^ op) x r.
Proof.
  intros op x r O R H. unfold rotr, rotated. set (w := 2 ^ op) in *. assert (W : 0 < w) by (apply pow_pos; lia).
  rewrite Z.shiftr_div_pow2 by lia. replace (Z.land (- r) (w - 1)) with ((- r) mod w) by (unfold w; now rewrite ones_eq, Z.land_ones by lia).
  destruct (Z.eq_dec r 0) as [->|N].
  - replace ((- 0) mod w) with 0 by (symmetry; apply Z.mod_0_l; lia). rewrite Z.shiftl_0_r, Z.pow_0_r, Z.div_1_r, Z.mod_1_r, Z.mod_small, Z.lor_diag by lia. lia.
  - rewrite Z.mod_opp_l_nz by (try lia; rewrite Z.mod_small; lia). rewrite (Z.mod_small r) by lia.
    rewrite Z.shiftl_mul_pow2 by lia. pose proof (pow_pos r ltac:(lia)). pose proof (pow_pos (w - r) ltac:(lia)).
    replace (2 ^ w) with (2 ^ r * 2 ^ (w - r)) by (rewrite <- Z.pow_add_r by lia; f_equal; lia).
    rewrite Z.mul_mod_distr_r by lia. apply lor_add; [lia|]. apply div_range; [lia|lia|]. replace (r + (w - r)) with w by lia. exact H.
Qed.

(** ** Counting *)
Definition compose (n t v : Z) : Z := v + 2 ^ n * t.
Lemma compose_parts : forall n t v, 0 <= n -> 0 <= v < 2 ^ n -> compose n t v mod 2 ^ n = v /\ compose n t v / 2 ^ n = t.
Proof.
  intros n t v N H. unfold compose. rewrite (Z.mul_comm (2 ^ n)), Z.mod_add, Z.div_add by (now apply pow_nz). rewrite Z.mod_small, Z.div_small by exact H. lia.
Qed.
Lemma parts_compose : forall n x, 0 <= n -> compose n (x / 2 ^ n) (x mod 2 ^ n) = x.
Proof. intros n x N. unfold compose. pose proof (Z.div_mod x (2 ^ n) (pow_nz n N)). lia. Qed.
Lemma compose_range : forall n op t v, 0 <= n -> 0 <= op -> 0 <= v < 2 ^ n -> 0 <= t < 2 ^ op -> 0 <= compose n t v < 2 ^ (n + op).
Proof. intros n op t v N O V T. unfold compose. rewrite Z.pow_add_r by lia. nia. Qed.

Lemma exactly_top : forall n op c xs X (R L : Z -> Z -> Z) (J : Z -> Z -> Z -> Z), 0 <= n -> 0 <= c -> 0 < xs -> 0 <= op <= xs ->
  (forall t v, 0 <= t < 2 ^ op -> 0 <= v < 2 ^ n -> 0 <= L t v < 2 ^ c /\ J t (R t v) (L t v) = v) ->
  (forall t r l, 0 <= t < 2 ^ op -> 0 <= r < X -> 0 <= l < 2 ^ c -> 0 <= J t r l < 2 ^ n /\ R t (J t r l) = r /\ L t (J t r l) = l) ->
  forall r, 0 <= r < X -> exactly (2 ^ (c + op)) (fun s => 0 <= s < 2 ^ (n + op) /\ R (s / 2 ^ n) (xorshift xs s mod 2 ^ n) = r).
Proof.
  intros n op c xs X R L J N C XS O Hf Hb r Hr. pose (fuel := Z.to_nat (n + op)).
  assert (FU : Z.of_nat fuel = n + op) by (unfold fuel; rewrite Z2Nat.id; lia).
  exists (fun k => inv fuel xs (compose n (k / 2 ^ c) (J (k / 2 ^ c) r (k mod 2 ^ c)))).
  exists (fun s => compose c (s / 2 ^ n) (L (s / 2 ^ n) (xorshift xs s mod 2 ^ n))). split.
  - intros k K. pose proof (div_range k c op C ltac:(lia) K) as T. pose proof (Z.mod_pos_bound k (2 ^ c) (pow_pos c C)) as LR.
    destruct (Hb _ r _ T Hr LR) as (J0 & J1 & J2). set (t := k / 2 ^ c) in *. set (u := compose n t (J t r (k mod 2 ^ c))).
    assert (U : 0 <= u < 2 ^ (n + op)) by (apply compose_range; try assumption; lia).
    destruct (compose_parts n t (J t r (k mod 2 ^ c)) N J0) as [U1 U2]. fold u in U1, U2.
    pose proof (inv_right fuel xs u XS ltac:(rewrite FU; exact U)) as E. pose proof (inv_range fuel (n + op) xs u ltac:(lia) XS U) as SR.
    set (s := inv fuel xs u) in *. assert (ST : s / 2 ^ n = t) by (rewrite <- (xorshift_top n op xs s), E by assumption; exact U2).
    rewrite ST, E, U1. split; [split; assumption|]. rewrite J2. unfold t. apply parts_compose. exact C.
  - intros s [SR HR]. pose proof (div_range s n op N ltac:(lia) SR) as T. set (t := s / 2 ^ n) in *.
    pose proof (xorshift_range (n + op) xs s ltac:(lia) ltac:(lia) SR) as UR.
    assert (UT : xorshift xs s / 2 ^ n = t) by (apply xorshift_top with op; assumption). set (u := xorshift xs s) in *.
    destruct (Hf t (u mod 2 ^ n) T ltac:(apply Z.mod_pos_bound, pow_pos; lia)) as (L0 & L1).
    split; [apply compose_range; try assumption; lia|].
    destruct (compose_parts c t (L t (u mod 2 ^ n)) C L0) as [P1 P2]. rewrite P1, P2, <- HR, L1, <- UT, parts_compose by exact N.
    unfold u. apply inv_left; [exact XS|]. rewrite FU. exact SR.
Qed.
Lemma exactly_ext : forall n P Q, (forall s, P s <-> Q s) -> exactly n P -> exactly n Q.
Proof.
  intros n P Q H (f & g & A & B). exists f, g. split.
  - intros k K. destruct (A k K) as [A1 A2]. split; [now apply H|exact A2].
  - intros s S. apply B. now apply H.
Qed.
Lemma mod_div_mod : forall u a b, 0 <= a -> 0 <= b -> u mod 2 ^ (a + b) / 2 ^ a = u / 2 ^ a mod 2 ^ b.
Proof.
  intros u a b A B. rewrite Z.pow_add_r by lia. pose proof (pow_pos a A). pose proof (pow_pos b B).
  rewrite Z.rem_mul_r by lia. rewrite (Z.mul_comm (2 ^ a) (_ mod _)), Z.div_add by lia. rewrite Z.div_small by (apply Z.mod_pos_bound; lia). lia.
Qed.
Lemma rr_exactly : forall bits xb op xs r, 0 <= bits - op - xb -> 0 < xs -> 0 <= op <= xs -> xb = 2 ^ op -> 0 <= r < 2 ^ xb ->
  exactly (2 ^ (bits - xb)) (fun s => 0 <= s < 2 ^ bits /\ rr op xs bits xb s = r).
Proof.
  intros bits xb op xs r B XS O XB R. set (low := bits - op - xb). pose proof (pow_pos op ltac:(lia)) as P.
  assert (G := exactly_top (low + xb) op low xs (2 ^ xb) (fun t v => rotated xb (v / 2 ^ low) t) (fun _ v => v mod 2 ^ low)
    (fun t r l => compose low (rotated xb r (xb - t)) l) ltac:(lia) B XS O).
  replace (bits - xb) with (low + op) by lia. eapply exactly_ext; [|apply G; [| |exact R]].
  - intros s. cbn beta. unfold rr. fold low. replace (low + xb + op) with bits by lia. replace (bits - op) with (low + xb) by lia.
    rewrite mod_div_mod by lia. reflexivity.
  - intros t v T V. split; [apply Z.mod_pos_bound, pow_pos; exact B|].
    rewrite rotated_back; [|lia|apply div_range; [exact B|lia|exact V]]. apply parts_compose. exact B.
  - intros t r0 l T R0 L. pose proof (rotated_range xb r0 (xb - t) ltac:(lia) R0).
    destruct (compose_parts low (rotated xb r0 (xb - t)) l B L) as [-> ->].
    split; [apply compose_range; try assumption; lia|]. split; [|reflexivity]. apply rotated_forth; [lia|exact R0].
Qed.
Lemma rs_exactly : forall bits xb op xs r, 0 <= bits - op - xb - (2 ^ op - 1) -> 0 < xs -> 0 <= op <= xs -> 0 <= xb -> 0 <= r < 2 ^ xb ->
  exactly (2 ^ (bits - xb)) (fun s => 0 <= s < 2 ^ bits /\ rs op xs bits xb s = r).
Proof.
  intros bits xb op xs r B XS O XB R. set (low := bits - op - xb). pose proof (pow_pos op ltac:(lia)) as P.
  pose (b := fun t => low - (2 ^ op - 1) + t).
  assert (G := exactly_top (low + xb) op low xs (2 ^ xb) (fun t v => v / 2 ^ b t mod 2 ^ xb)
    (fun t v => compose (b t) (v / 2 ^ (b t + xb)) (v mod 2 ^ b t))
    (fun t r l => compose (b t) (compose xb (l / 2 ^ b t) r) (l mod 2 ^ b t)) ltac:(lia) ltac:(lia) XS O).
  replace (bits - xb) with (low + op) by lia. eapply exactly_ext; [|apply G; [| |exact R]].
  - intros s. cbn beta. unfold rs, b. replace (bits - xb - op) with low by lia. replace (low + xb + op) with bits by lia. replace (bits - op) with (low + xb) by lia.
    set (t := s / 2 ^ (low + xb)). set (u := xorshift xs s).
    enough (E : 0 <= s < 2 ^ bits -> u mod 2 ^ (low + xb) / 2 ^ (low - (2 ^ op - 1) + t) mod 2 ^ xb = u / 2 ^ (low - (2 ^ op - 1) + t) mod 2 ^ xb)
      by (split; intros [S0 S1]; (split; [exact S0|]); [now rewrite <- E|now rewrite E]).
    intros S0. pose proof (div_range s (low + xb) op ltac:(lia) ltac:(lia) ltac:(replace (low + xb + op) with bits by lia; exact S0)) as T. fold t in T.
    replace (low + xb) with ((low - (2 ^ op - 1) + t) + (xb + (2 ^ op - 1 - t))) by lia. rewrite mod_div_mod by lia.
    rewrite (Z.pow_add_r 2 xb) by lia. rewrite Z.rem_mul_r by (try apply pow_nz; try apply pow_pos; lia).
    rewrite (Z.mul_comm (2 ^ xb) (_ mod _)), Z.mod_add by (apply pow_nz; lia). apply Z.mod_mod, pow_nz. lia.
  - clear G. intros t v T V. assert (Bt : 0 <= b t <= low) by (unfold b; lia).
    pose proof (Z.mod_pos_bound v (2 ^ b t) (pow_pos (b t) ltac:(lia))) as VM.
    pose proof (div_range v (b t + xb) (low - b t) ltac:(lia) ltac:(lia) ltac:(replace (b t + xb + (low - b t)) with (low + xb) by lia; exact V)) as VD.
    split. { pose proof (compose_range (b t) (low - b t) (v / 2 ^ (b t + xb)) (v mod 2 ^ b t) ltac:(lia) ltac:(lia) VM VD) as CR.
             replace (b t + (low - b t)) with low in CR by lia. exact CR. }
    destruct (compose_parts (b t) (v / 2 ^ (b t + xb)) (v mod 2 ^ b t) ltac:(lia) VM) as [-> ->].
    rewrite <- div_pow by lia. rewrite parts_compose by lia. apply parts_compose. lia.
  - clear G. intros t r0 l T R0 L. assert (Bt : 0 <= b t <= low) by (unfold b; lia).
    pose proof (Z.mod_pos_bound l (2 ^ b t) (pow_pos (b t) ltac:(lia))) as LM.
    pose proof (div_range l (b t) (low - b t) ltac:(lia) ltac:(lia) ltac:(replace (b t + (low - b t)) with low by lia; exact L)) as LD.
    destruct (compose_parts (b t) (compose xb (l / 2 ^ b t) r0) (l mod 2 ^ b t) ltac:(lia) LM) as [C1 C2].
    destruct (compose_parts xb (l / 2 ^ b t) r0 ltac:(lia) R0) as [D1 D2].
    split; [|split].
    + replace (low + xb) with (b t + (xb + (low - b t))) by lia. apply compose_range; try assumption; try lia. apply compose_range; try assumption; lia.
    + now rewrite C2, D1.
    + rewrite <- div_pow by lia. rewrite C1, C2, D2. apply parts_compose. lia.
Qed.
(** Both halves combined. *)
Lemma xsl_mod : forall xb s, 0 <= xb -> 0 <= s < 2 ^ (xb + xb) -> xorshift xb s mod 2 ^ xb = Z.lxor (s / 2 ^ xb) (s mod 2 ^ xb).
Proof.
  intros xb s XB H. unfold xorshift. rewrite lxor_mod by exact XB. rewrite (Z.mod_small (s / 2 ^ xb)) by (apply div_range; assumption). apply Z.lxor_comm.
Qed.
Lemma halves_exactly : forall xb (rot : Z -> Z) r, 0 < xb -> (forall t, 0 <= t < 2 ^ xb -> 0 <= rot t <= xb) -> 0 <= r < 2 ^ xb ->
  exactly (2 ^ xb) (fun s => 0 <= s < 2 ^ (xb + xb) /\ rotated xb (Z.lxor (s / 2 ^ xb) (s mod 2 ^ xb)) (rot (s / 2 ^ xb)) = r).
Proof.
  intros xb rot r XB RT R.
  assert (G := exactly_top xb xb 0 xb (2 ^ xb) (fun t v => rotated xb v (rot t)) (fun _ _ => 0) (fun t r _ => rotated xb r (xb - rot t))
    ltac:(lia) ltac:(lia) ltac:(lia) ltac:(lia)).
  eapply exactly_ext; [|apply G; [| |exact R]].
  - intros s. cbn beta. split; intros [S0 S1]; (split; [exact S0|]); [rewrite <- xsl_mod by (try exact S0; lia)|rewrite xsl_mod by (try exact S0; lia)]; exact S1.
  - intros t v T V. split; [lia|]. apply rotated_back; [now apply RT|exact V].
  - intros t r0 l T R0 L. pose proof (RT t T). split; [apply rotated_range; [lia|exact R0]|]. split; [apply rotated_forth; [lia|exact R0]|]. change (2 ^ 0) with 1 in L. lia.
Qed.
(** The same when the two low bits of the state are fixed. *)
Lemma halves_exactly_mcg : forall xb (rot : Z -> Z) r, 2 <= xb -> (forall t, 0 <= t < 2 ^ xb -> 0 <= rot t <= xb) ->
  (forall t, rot t = rot (t / 4 * 4)) -> 0 <= r < 2 ^ xb ->
  exactly (2 ^ (xb - 2)) (fun s => state (xb + xb) true s /\ rotated xb (Z.lxor (s / 2 ^ xb) (s mod 2 ^ xb)) (rot (s / 2 ^ xb)) = r).
Proof.
  intros xb rot r XB RT R4 R. assert (P4 : 2 ^ xb = 4 * 2 ^ (xb - 2)) by (change 4 with (2 ^ 2); rewrite <- Z.pow_add_r by lia; f_equal; lia).
  pose proof (pow_pos (xb - 2) ltac:(lia)) as P2.
  pose (m := fun k => rotated xb r (xb - rot (4 * k))). pose (hi := fun k => 4 * k + Z.lxor 3 (m k mod 4)).
  exists (fun k => compose xb (hi k) (Z.lxor (m k) (hi k))). exists (fun s => s / 2 ^ xb / 4).
  assert (X3 : forall y, 0 <= y < 4 -> 0 <= Z.lxor 3 y < 4) by (intros y Y; apply (lxor_range 3 y 2); lia).
  assert (RK : forall k, 0 <= k < 2 ^ (xb - 2) -> forall e, 0 <= e < 4 -> rot (4 * k + e) = rot (4 * k)).
  { intros k K e E. rewrite (R4 (4 * k + e)). f_equal. rewrite (Z.mul_comm 4 k), Z.div_add_l, (Z.div_small e) by lia. lia. }
  split.
  - intros k K. pose proof (RT (4 * k) ltac:(lia)) as RK0.
    assert (MR : 0 <= m k < 2 ^ xb) by (apply rotated_range; [lia|exact R]).
    pose proof (X3 (m k mod 4) ltac:(apply Z.mod_pos_bound; lia)) as E3.
    assert (HR : 0 <= hi k < 2 ^ xb) by (unfold hi; lia).
    pose proof (lxor_range (m k) (hi k) xb ltac:(lia) MR HR) as LR.
    destruct (compose_parts xb (hi k) (Z.lxor (m k) (hi k)) ltac:(lia) LR) as [C1 C2].
    split.
    + split.
      * split; [apply compose_range; try assumption; lia|]. intros _.
        assert (M4 : compose xb (hi k) (Z.lxor (m k) (hi k)) mod 4 = Z.lxor (m k) (hi k) mod 4).
        { unfold compose. rewrite P4. replace (4 * 2 ^ (xb - 2) * hi k) with (2 ^ (xb - 2) * hi k * 4) by ring. apply Z.mod_add. lia. }
        rewrite M4. change 4 with (2 ^ 2) at 1. rewrite lxor_mod by lia. change (2 ^ 2) with 4.
        replace (hi k mod 4) with (Z.lxor 3 (m k mod 4)). { rewrite (Z.lxor_comm 3), <- Z.lxor_assoc, Z.lxor_nilpotent. reflexivity. }
        unfold hi. rewrite (Z.mul_comm 4 k), Z.add_comm, Z.mod_add by lia. symmetry. apply Z.mod_small. exact E3.
      * rewrite C1, C2. rewrite (Z.lxor_comm (m k)), <- Z.lxor_assoc, Z.lxor_nilpotent, Z.lxor_0_l. unfold hi. rewrite RK by assumption.
        apply rotated_forth; [lia|exact R].
    + rewrite C2. unfold hi. rewrite (Z.mul_comm 4 k), Z.div_add_l by lia. rewrite (Z.div_small (Z.lxor _ _)) by exact E3. lia.
  - intros s [[SR S4] HR]. specialize (S4 eq_refl). pose proof (div_range s xb xb ltac:(lia) ltac:(lia) SR) as H. set (h := s / 2 ^ xb) in *.
    assert (K : 0 <= h / 4 < 2 ^ (xb - 2)) by (split; [apply Z.div_pos; lia|apply Z.div_lt_upper_bound; lia]). split; [exact K|].
    set (k := h / 4) in *. pose proof (Z.mod_pos_bound s (2 ^ xb) ltac:(lia)) as LO.
    pose proof (lxor_range h (s mod 2 ^ xb) xb ltac:(lia) H LO) as LR.
    assert (RH : rot h = rot (4 * k)) by (rewrite (R4 h); f_equal; unfold k; lia).
    assert (M : m k = Z.lxor h (s mod 2 ^ xb)).
    { unfold m. rewrite <- RH, <- HR. apply rotated_back; [now apply RT|exact LR]. }
    assert (L4 : (s mod 2 ^ xb) mod 4 = 3).
    { rewrite <- S4. rewrite (Z.div_mod s (2 ^ xb)) at 2 by lia. rewrite P4. replace (4 * 2 ^ (xb - 2) * (s / (4 * 2 ^ (xb - 2)))) with (2 ^ (xb - 2) * (s / (4 * 2 ^ (xb - 2))) * 4) by ring.
      rewrite Z.add_comm, Z.mod_add by lia. reflexivity. }
    assert (HI : hi k = h).
    { unfold hi. rewrite M. change 4 with (2 ^ 2) at 2. rewrite lxor_mod by lia. change (2 ^ 2) with 4. rewrite L4, (Z.lxor_comm _ 3), <- Z.lxor_assoc, Z.lxor_nilpotent, Z.lxor_0_l.
      unfold k. pose proof (Z.div_mod h 4 ltac:(lia)). lia. }
    rewrite HI, M, (Z.lxor_comm h), lxor_cancel. unfold h. apply parts_compose. lia.
Qed.
