(** The output functions of the library's sizes, and over a whole period. *)
From Coq Require Import String ZArith Bool List Lia Znumtheory.
From Verif Require Import Common PcgModel PermModel PcgSpec PermSpec PcgTopProofs PermProofs.
Import ListNotations.
Local Open Scope Z_scope.

Lemma land_mask : forall x op, 0 <= op -> Z.land x (2 ^ op - 1) = x mod 2 ^ op.
Proof. intros. now rewrite ones_eq, Z.land_ones. Qed.
Lemma top_land : forall bits op s, 0 <= op <= bits -> 0 <= s < 2 ^ bits -> Z.land (Z.shiftr s (bits - op)) (2 ^ op - 1) = s / 2 ^ (bits - op).
Proof.
  intros bits op s O H. rewrite land_mask, Z.shiftr_div_pow2 by lia. apply Z.mod_small. apply div_range; try lia. now replace (bits - op + op) with bits by lia.
Qed.
Lemma top_range : forall bits op s, 0 <= op <= bits -> 0 <= s < 2 ^ bits -> 0 <= s / 2 ^ (bits - op) < 2 ^ op.
Proof. intros bits op s O H. apply div_range; try lia. now replace (bits - op + op) with bits by lia. Qed.

(** ** The code computes the published formulas *)
Lemma rr_general : forall bits xb op xs s, xb = 2 ^ op -> 0 < op -> 0 <= bits - op - xb -> (op + xb) / 2 = xs -> 0 <= s < 2 ^ bits ->
  wanted xb = op -> xsh_rr bits xb s = rr op xs bits xb s.
Proof.
  intros bits xb op xs s XB O B XS H W. unfold xsh_rr. rewrite W. replace (bits - xb >=? op) with true by lia. replace (op =? 0) with false by lia.
  rewrite Z.sub_diag, XS. rewrite top_land by (try exact H; pose proof (pow_pos op); lia).
  pose proof (pow_pos op ltac:(lia)) as P. pose proof (top_range bits op s ltac:(lia) H) as T.
  rewrite Z.shiftl_0_r, land_mask, (Z.mod_small _ (2 ^ op)) by lia. rewrite XB at 1. rewrite rotr_is; [|lia|exact T|].
  - unfold rr. rewrite <- XB. f_equal. assert (0 <= xs) by (rewrite <- XS; apply Z.div_pos; lia). unfold xorshift. rewrite !Z.shiftr_div_pow2 by lia. do 3 f_equal; lia.
  - rewrite <- XB. apply Z.mod_pos_bound, pow_pos. lia.
Qed.
Lemma rr_is : forall bits xb op xs, In (bits, xb, op, xs) rr_sizes -> forall s, 0 <= s < 2 ^ bits -> xsh_rr bits xb s = rr op xs bits xb s.
Proof.
  intros bits xb op xs H s S. repeat (destruct H as [H|H]; [injection H as <- <- <- <-; apply rr_general; try reflexivity; try exact S; lia|]). destruct H.
Qed.
Lemma rs_general : forall bits xb op xs s, 0 < op -> 0 <= bits - op - xb - (2 ^ op - 1) -> 0 <= xb -> op + (xb + (2 ^ op - 1)) / 2 = xs -> 0 <= s < 2 ^ bits ->
  xsh_rs_opbits (bits - xb) = op -> xsh_rs bits xb s = rs op xs bits xb s.
Proof.
  intros bits xb op xs s O B XB XS H W. unfold xsh_rs. rewrite W. replace (op =? 0) with false by lia. rewrite XS.
  pose proof (pow_pos op ltac:(lia)) as P. rewrite top_land by (try exact H; lia). pose proof (top_range bits op s ltac:(lia) H) as T.
  assert (0 <= xs) by (assert (0 <= (xb + (2 ^ op - 1)) / 2) by (apply Z.div_pos; lia); lia).
  unfold rs, xorshift. rewrite !Z.shiftr_div_pow2 by lia. reflexivity.
Qed.
Lemma rs_is : forall bits xb op xs, In (bits, xb, op, xs) rs_sizes -> forall s, 0 <= s < 2 ^ bits -> xsh_rs bits xb s = rs op xs bits xb s.
Proof.
  intros bits xb op xs H s S. repeat (destruct H as [H|H]; [injection H as <- <- <- <-; apply rs_general; try reflexivity; try exact S; lia|]). destruct H.
Qed.
Lemma xsl_general : forall xb op s, xb = 2 ^ op -> 0 < op <= xb -> 0 <= s < 2 ^ (2 * xb) -> wanted xb = op -> xsl_rr (2 * xb) xb s = xsl_spec op xb s.
Proof.
  intros xb op s XB O H W. unfold xsl_rr. rewrite W. replace (2 * xb - xb) with xb by lia. replace (xb >=? op) with true by lia. replace (op =? 0) with false by lia.
  rewrite !Z.sub_diag, Z.shiftr_0_r. replace ((xb + xb) / 2) with xb by (replace (xb + xb) with (xb * 2) by lia; now rewrite Z.div_mul).
  rewrite top_land by (try exact H; lia). pose proof (top_range (2 * xb) op s ltac:(lia) H) as T.
  rewrite Z.shiftl_0_r, land_mask, (Z.mod_small _ (2 ^ op)) by lia. rewrite XB at 1. rewrite rotr_is; [|lia|exact T|].
  - unfold xsl_spec. rewrite <- XB. f_equal. rewrite Z.shiftr_div_pow2 by lia. apply xsl_mod; [lia|]. now replace (xb + xb) with (2 * xb) by lia.
  - rewrite <- XB. apply Z.mod_pos_bound, pow_pos. lia.
Qed.
Lemma xsl_is : forall xb op, In (xb, op) xsl_sizes -> forall s, 0 <= s < 2 ^ (2 * xb) -> xsl_rr (2 * xb) xb s = xsl_spec op xb s.
Proof.
  intros xb op H s S. repeat (destruct H as [H|H]; [injection H as <- <-; apply xsl_general; try reflexivity; try exact S; lia|]). destruct H.
Qed.

(** ** Two low bits fixed *)
Lemma xorshift_div : forall xs s k, 0 <= xs -> 0 <= k -> xorshift xs s / 2 ^ k = xorshift xs (s / 2 ^ k).
Proof. intros xs s k X K. unfold xorshift. rewrite lxor_div by lia. rewrite !div_pow by lia. do 3 f_equal. lia. Qed.
Lemma rr_quarter : forall op xs bits xb s, 0 <= xs -> 0 <= op -> 0 <= xb -> 2 <= bits - op - xb -> rr op xs bits xb s = rr op xs (bits - 2) xb (s / 2 ^ 2).
Proof.
  intros op xs bits xb s X O XB B. unfold rr. rewrite <- (xorshift_div xs s 2), !div_pow by lia. f_equal; [|f_equal; f_equal; lia]. do 3 f_equal. lia.
Qed.
Lemma rs_quarter : forall op xs bits xb s, 0 <= xs -> 0 <= op -> 0 <= xb -> 0 <= s < 2 ^ bits -> 2 <= bits - op - xb - (2 ^ op - 1) -> rs op xs bits xb s = rs op xs (bits - 2) xb (s / 2 ^ 2).
Proof.
  intros op xs bits xb s X O XB S B. unfold rs. pose proof (pow_pos op O). rewrite <- (xorshift_div xs s 2) by lia.
  replace (s / 2 ^ 2 / 2 ^ (bits - 2 - op)) with (s / 2 ^ (bits - op)) by (rewrite div_pow by lia; do 2 f_equal; lia).
  pose proof (top_range bits op s ltac:(lia) S) as T. rewrite div_pow by lia. do 3 f_equal. lia.
Qed.
Lemma exactly_quarter : forall n w (h : Z -> Z) r, 2 <= w -> exactly n (fun t => 0 <= t < 2 ^ (w - 2) /\ h t = r) ->
  exactly n (fun s => state w true s /\ h (s / 2 ^ 2) = r).
Proof.
  intros n w h r W (f & g & A & B). assert (P : 2 ^ w = 4 * 2 ^ (w - 2)) by (change 4 with (2 ^ 2); rewrite <- Z.pow_add_r by lia; f_equal; lia).
  change (2 ^ 2) with 4. assert (Q : forall t, (4 * t + 3) / 4 = t) by (intros; rewrite (Z.mul_comm 4), Z.div_add_l, (Z.div_small 3) by lia; lia).
  exists (fun k => 4 * f k + 3), (fun s => g (s / 4)). split.
  - intros k K. destruct (A k K) as [[A1 A2] A3]. rewrite Q. split; [|exact A3]. split; [|exact A2]. split; [lia|]. intros _.
    rewrite Z.add_comm, (Z.mul_comm 4), Z.mod_add by lia. reflexivity.
  - intros s [[S0 S1] HR]. specialize (S1 eq_refl). pose proof (Z.div_mod s 4 ltac:(lia)) as DM.
    assert (R : 0 <= s / 4 < 2 ^ (w - 2)) by (split; [apply Z.div_pos; lia|apply Z.div_lt_upper_bound; lia]).
    destruct (B (s / 4) (conj R HR)) as [B1 B2]. split; [exact B1|]. rewrite B2. lia.
Qed.
Definition free (mcg : bool) : Z := if mcg then 2 else 0.
Lemma state_full : forall w s, state w false s <-> 0 <= s < 2 ^ w.
Proof. intros. unfold state. split; [intros [H _]; exact H|intros H; split; [exact H|discriminate]]. Qed.
Lemma rr_states : forall bits xb op xs, In (bits, xb, op, xs) rr_sizes -> forall mcg r, 0 <= r < 2 ^ xb ->
  exactly (period bits mcg / 2 ^ xb) (fun s => state bits mcg s /\ rr op xs bits xb s = r).
Proof.
  intros bits xb op xs H mcg r R.
  assert (G : 2 <= bits - op - xb /\ 0 < xs /\ 0 < op <= xs /\ xb = 2 ^ op /\ 0 < xb) by (repeat (destruct H as [H|H]; [injection H as <- <- <- <-; cbn; lia|]); destruct H).
  destruct G as (B & XS & O & XB & X0). destruct mcg; unfold period.
  - replace (2 ^ (bits - 2) / 2 ^ xb) with (2 ^ (bits - 2 - xb)) by (rewrite Z.pow_sub_r by lia; reflexivity).
    eapply exactly_ext; [|apply (exactly_quarter _ bits (rr op xs (bits - 2) xb) r); [lia|]].
    + intros s. cbn beta. rewrite <- rr_quarter by lia. reflexivity.
    + apply rr_exactly; lia.
  - replace (2 ^ bits / 2 ^ xb) with (2 ^ (bits - xb)) by (rewrite Z.pow_sub_r by lia; reflexivity).
    eapply exactly_ext; [|apply (rr_exactly bits xb op xs r); lia]. intros s. cbn beta. now rewrite state_full.
Qed.
Lemma rs_states : forall bits xb op xs, In (bits, xb, op, xs) rs_sizes -> forall mcg r, 0 <= r < 2 ^ xb ->
  exactly (period bits mcg / 2 ^ xb) (fun s => state bits mcg s /\ rs op xs bits xb s = r).
Proof.
  intros bits xb op xs H mcg r R.
  assert (G : 2 <= bits - op - xb - (2 ^ op - 1) /\ 0 < xs /\ 0 < op <= xs /\ 0 < xb) by (repeat (destruct H as [H|H]; [injection H as <- <- <- <-; cbn; lia|]); destruct H).
  destruct G as (B & XS & O & X0). pose proof (pow_pos op ltac:(lia)). destruct mcg; unfold period.
  - replace (2 ^ (bits - 2) / 2 ^ xb) with (2 ^ (bits - 2 - xb)) by (rewrite Z.pow_sub_r by lia; reflexivity).
    eapply exactly_ext; [|apply (exactly_quarter _ bits (rs op xs (bits - 2) xb) r); [lia|]].
    + intros s. cbn beta. split; intros [S0 S1]; (split; [exact S0|]); destruct S0 as [S0 _]; [rewrite rs_quarter by lia|rewrite <- rs_quarter by lia]; exact S1.
    + apply rs_exactly; lia.
  - replace (2 ^ bits / 2 ^ xb) with (2 ^ (bits - xb)) by (rewrite Z.pow_sub_r by lia; reflexivity).
    eapply exactly_ext; [|apply (rs_exactly bits xb op xs r); lia]. intros s. cbn beta. now rewrite state_full.
Qed.
Lemma halves_states : forall xb op r, 0 <= op <= xb - 2 -> 2 ^ op <= xb -> 2 <= xb -> 0 <= r < 2 ^ xb -> forall mcg,
  exactly (period (2 * xb) mcg / 2 ^ xb) (fun s => state (2 * xb) mcg s /\ xsl_spec op xb s = r).
Proof.
  intros xb op r O XB X2 R mcg. pose proof (pow_pos op ltac:(lia)).
  assert (RT : forall t, 0 <= t < 2 ^ xb -> 0 <= t / 2 ^ (xb - op) <= xb) by (intros t T; pose proof (top_range xb op t ltac:(lia) T); lia).
  assert (E : forall s, xsl_spec op xb s = rotated xb (Z.lxor (s / 2 ^ xb) (s mod 2 ^ xb)) ((fun t => t / 2 ^ (xb - op)) (s / 2 ^ xb))).
  { intros s. unfold xsl_spec. cbn beta. rewrite div_pow by lia. do 3 f_equal. lia. }
  destruct mcg; unfold period.
  - replace (2 ^ (2 * xb - 2) / 2 ^ xb) with (2 ^ (xb - 2)) by (rewrite <- Z.pow_sub_r by lia; f_equal; lia).
    eapply exactly_ext; [|apply (halves_exactly_mcg xb (fun t => t / 2 ^ (xb - op)) r); [lia|exact RT| |exact R]].
    + intros s. rewrite E. replace (xb + xb) with (2 * xb) by lia. reflexivity.
    + intros t. replace (2 ^ (xb - op)) with (2 ^ 2 * 2 ^ (xb - op - 2)) by (rewrite <- Z.pow_add_r by lia; f_equal; lia).
      pose proof (pow_pos (xb - op - 2) ltac:(lia)). change (2 ^ 2) with 4. rewrite <- !Z.div_div by lia. now rewrite Z.div_mul by lia.
  - replace (2 ^ (2 * xb) / 2 ^ xb) with (2 ^ xb) by (rewrite <- Z.pow_sub_r by lia; f_equal; lia).
    eapply exactly_ext; [|apply (halves_exactly xb (fun t => t / 2 ^ (xb - op)) r); [lia|exact RT|exact R]].
    intros s. rewrite E, state_full. replace (xb + xb) with (2 * xb) by lia. reflexivity.
Qed.
Lemma xsl_states : forall xb op, In (xb, op) xsl_sizes -> forall mcg r, 0 <= r < 2 ^ xb ->
  exactly (period (2 * xb) mcg / 2 ^ xb) (fun s => state (2 * xb) mcg s /\ xsl_spec op xb s = r).
Proof.
  intros xb op H mcg r R. repeat (destruct H as [H|H]; [injection H as <- <-; apply halves_states; try exact R; cbn; lia|]). destruct H.
Qed.

(** ** Over a period *)
Lemma over_period : forall w mcg m c, wide w -> good mcg m c -> 0 <= m < 2 ^ w -> 0 <= c < 2 ^ w -> forall (out : Z -> Z) s0 k r, state w mcg s0 ->
  exactly k (fun s => state w mcg s /\ out s = r) -> exactly k (fun n => 0 <= n < period w mcg /\ out (after w m c n s0) = r).
Proof.
  intros w mcg m c W G M C out s0 k r S0 (f & g & A & B).
  pose (ix := fun t => match distance w mcg m c s0 t with Ok d => d | _ => 0 end).
  assert (IX : forall t, state w mcg t -> 0 <= ix t < period w mcg /\ after w m c (ix t) s0 = t).
  { intros t T. destruct (distance_top w mcg m c W G M C s0 t S0 T) as (d & D1 & D2 & D3). unfold ix. rewrite D1. now split. }
  exists (fun i => ix (f i)), (fun n => g (after w m c n s0)). split.
  - intros i I. destruct (A i I) as [[A1 A2] A3]. destruct (IX (f i) A1) as [I1 I2]. rewrite I2. split; [split; assumption|exact A3].
  - intros n [N HR]. assert (SN : state w mcg (after w m c n s0)) by (apply state_after; assumption).
    destruct (B _ (conj SN HR)) as [B1 B2]. split; [exact B1|]. rewrite B2. destruct (IX _ SN) as [I1 I2].
    apply (same_count w mcg m c W G (ix (after w m c n s0)) n s0); assumption.
Qed.

(** ** The full-size permutation *)
Lemma rxs_parts : forall w m u op, 0 < op <= w -> (m * u) mod 2 ^ w = 1 -> 0 <= m -> 0 <= u ->
  forall a, 0 <= a < 2 ^ w -> ((a * m) mod 2 ^ w * u) mod 2 ^ w = a.
Proof.
  intros w m u op O MU M U a A. pose proof (pow_pos w ltac:(lia)) as P. rewrite Z.mul_mod_idemp_l by lia.
  rewrite <- Z.mul_assoc, <- Z.mul_mod_idemp_r, MU, Z.mul_1_r by lia. now apply Z.mod_small.
Qed.
Definition fits (w m : Z) : Prop := 32 <= w \/ 2 ^ w * m <= INT_MAX.
Lemma times_ok : forall w x y, fits w y -> 0 <= y -> 0 <= x < 2 ^ w -> times w x y = Ok (x * y mod 2 ^ w).
Proof.
  intros w x y F Y X. unfold times. destruct F as [F|F]; [replace (w <? 32) with false by lia; reflexivity|].
  replace (INT_MAX <? x * y) with false by nia. now rewrite andb_false_r.
Qed.
Lemma rxs_out : forall w m op last s, xs_opbits w = op -> 0 < op <= w -> (2 * w + 2) / 3 = last -> fits w m -> 0 <= m -> 0 <= s < 2 ^ w ->
  rxs_m_xs m w w s = Ok (rxs op last m w s).
Proof.
  intros w m op last s OP O LA F M H. unfold rxs_m_xs, rxs. rewrite OP, LA. replace (op =? 0) with false by lia. rewrite top_land by (try exact H; lia).
  pose proof (top_range w op s ltac:(lia) H) as T. rewrite Z.shiftr_div_pow2 by lia. fold (xorshift (op + s / 2 ^ (w - op)) s).
  rewrite times_ok; [|exact F|exact M|apply xorshift_range; try exact H; lia]. cbn [obind]. rewrite Z.sub_diag, Z.shiftr_0_r.
  assert (0 <= last) by (rewrite <- LA; apply Z.div_pos; lia).
  rewrite Z.shiftr_div_pow2, Z.mod_mod by (try apply pow_nz; lia). reflexivity.
Qed.
Lemma unoutput_out : forall w m u op last s, xs_opbits w = op -> 0 < op <= w -> (2 * w + 2) / 3 = last -> fits w u -> 0 <= m -> 0 <= u -> (m * u) mod 2 ^ w = 1 -> 0 <= s < 2 ^ w ->
  unoutput u w (rxs op last m w s) = Ok s.
Proof.
  intros w m u op last s OP O LA F M U MU H. unfold unoutput, rxs. rewrite OP, LA. replace (op =? 0) with false by lia.
  pose proof (top_range w op s ltac:(lia) H) as T. set (sh := op + s / 2 ^ (w - op)).
  pose proof (xorshift_range w sh s ltac:(lia) ltac:(lia) H) as AR. set (a := xorshift sh s) in *.
  assert (0 < last) by (rewrite <- LA; apply Z.div_str_pos; lia). assert (BR : 0 <= a * m mod 2 ^ w < 2 ^ w) by (apply Z.mod_pos_bound, pow_pos; lia).
  rewrite unxorshift_ok by (try exact BR; lia). cbn [obind]. rewrite times_ok by (try exact BR; try exact F; exact U). cbn [obind].
  rewrite rxs_parts with (op := op) by assumption. rewrite top_land by (try exact AR; lia).
  replace (a / 2 ^ (w - op)) with (s / 2 ^ (w - op)). { apply unxorshift_ok; try exact H; lia. }
  symmetry. unfold a. apply xorshift_top with op; [lia|lia|]. now replace (w - op + op) with w by lia.
Qed.
Lemma out_unoutput : forall w m u op last x, xs_opbits w = op -> 0 < op <= w -> (2 * w + 2) / 3 = last -> fits w u -> 0 <= m -> 0 <= u -> (m * u) mod 2 ^ w = 1 -> 0 <= x < 2 ^ w ->
  exists s, unoutput u w x = Ok s /\ 0 <= s < 2 ^ w /\ rxs op last m w s = x.
Proof.
  intros w m u op last x OP O LA F M U MU H. unfold unoutput, rxs. rewrite OP, LA. replace (op =? 0) with false by lia.
  assert (L : 0 < last) by (rewrite <- LA; apply Z.div_str_pos; lia).
  destruct (unxorshift_back w last x L ltac:(lia) H) as (b & B1 & B2 & B3). rewrite B1. cbn [obind].
  rewrite times_ok by (try exact B2; try exact F; exact U). cbn [obind].
  assert (AR : 0 <= b * u mod 2 ^ w < 2 ^ w) by (apply Z.mod_pos_bound, pow_pos; lia). set (a := b * u mod 2 ^ w) in *.
  rewrite top_land by (try exact AR; lia). pose proof (top_range w op a ltac:(lia) AR) as T.
  destruct (unxorshift_back w (op + a / 2 ^ (w - op)) a ltac:(lia) ltac:(lia) AR) as (s & S1 & S2 & S3).
  exists s. split; [exact S1|]. split; [exact S2|].
  assert (E : s / 2 ^ (w - op) = a / 2 ^ (w - op)).
  { rewrite <- S3 at 1. symmetry. apply xorshift_top with op; [lia|lia|]. now replace (w - op + op) with w by lia. }
  rewrite E, S3. unfold a. rewrite rxs_parts with (op := op); try assumption. now rewrite Z.mul_comm.
Qed.
Lemma rxs_size : forall w op last m, In (w, op, last, m) rxs_sizes -> exists u, In (w, m, u) multipliers /\
  xs_opbits w = op /\ 0 < op <= w /\ (2 * w + 2) / 3 = last /\ fits w m /\ fits w u /\ 0 <= m /\ 0 <= u /\ (m * u) mod 2 ^ w = 1.
Proof.
  intros w op last m H.
  destruct H as [H|[H|[H|[H|[]]]]]; injection H as <- <- <- <-.
  - exists 105. unfold fits. vm_compute. intuition (discriminate || auto).
  - exists 2897767785. unfold fits. vm_compute. intuition (discriminate || auto).
  - exists 15009553638781119849. unfold fits. vm_compute. intuition (discriminate || auto).
  - exists (14422606686972528997 * 2 ^ 64 + 15009553638781119849). unfold fits. vm_compute. intuition (discriminate || auto).
Qed.
Lemma permutes_once : forall n f r, permutes n f -> 0 <= r < n -> exactly 1 (fun s => 0 <= s < n /\ f s = r).
Proof.
  intros n f r (g & A & B) R. destruct (B r R) as [G1 G2]. exists (fun _ => g r), (fun _ => 0). split.
  - intros k K. split; [now split|lia].
  - intros s [S1 S2]. split; [lia|]. rewrite <- S2. now apply A.
Qed.
Lemma rxs_permutes : forall w op last m, In (w, op, last, m) rxs_sizes -> permutes (2 ^ w) (rxs op last m w).
Proof.
  intros w op last m H. destruct (rxs_size w op last m H) as (u & _ & OP & O & LA & FM & FU & M & U & MU).
  assert (L : 0 < last) by (rewrite <- LA; apply Z.div_str_pos; lia).
  exists (fun x => match unoutput u w x with Ok s => s | _ => 0 end). split.
  - intros s S. rewrite (unoutput_out w m u op last s) by assumption. split; [|reflexivity]. unfold rxs.
    apply xorshift_range; [lia|lia|]. apply Z.mod_pos_bound, pow_pos. lia.
  - intros x X. destruct (out_unoutput w m u op last x OP O LA FU M U MU X) as (s & S1 & S2 & S3). rewrite S1. now split.
Qed.
Lemma rxs_code : forall w op last m, In (w, op, last, m) rxs_sizes -> exists u, In (w, m, u) multipliers /\
  (forall s, 0 <= s < 2 ^ w -> rxs_m_xs m w w s = Ok (rxs op last m w s) /\ unoutput u w (rxs op last m w s) = Ok s) /\
  (forall x, 0 <= x < 2 ^ w -> exists s, unoutput u w x = Ok s /\ 0 <= s < 2 ^ w /\ rxs_m_xs m w w s = Ok x).
Proof.
  intros w op last m H. destruct (rxs_size w op last m H) as (u & I & OP & O & LA & FM & FU & M & U & MU). exists u. split; [exact I|]. split.
  - intros s S. split; [apply rxs_out; assumption|apply unoutput_out; assumption].
  - intros x X. destruct (out_unoutput w m u op last x OP O LA FU M U MU X) as (s & S1 & S2 & S3). exists s. split; [exact S1|]. split; [exact S2|].
    rewrite (rxs_out w m op last s) by assumption. now rewrite S3.
Qed.
Lemma rxs_period : forall w op last m', In (w, op, last, m') rxs_sizes -> forall m c, good false m c -> 0 <= m < 2 ^ w -> 0 <= c < 2 ^ w ->
  forall s0 r, state w false s0 -> 0 <= r < 2 ^ w -> exactly 1 (fun n => 0 <= n < 2 ^ w /\ rxs_m_xs m' w w (after w m c n s0) = Ok r).
Proof.
  intros w op last m' H m c G M C s0 r S0 R.
  assert (W : wide w) by (unfold wide; repeat (destruct H as [H|H]; [injection H as <- <- <- <-; lia|]); destruct H).
  destruct (rxs_code w op last m' H) as (u & _ & OUT & _).
  eapply exactly_ext; [|apply (over_period w false m c W G M C (rxs op last m' w) s0 1 r S0)].
  - intros n. unfold period. split; intros [N E]; (split; [exact N|]);
      destruct (state_after w false m c W G n s0 S0) as [SN _]; destruct (OUT _ SN) as [OUT1 _]; rewrite OUT1 in *; congruence.
  - eapply exactly_ext; [|apply (permutes_once _ _ r (rxs_permutes w op last m' H) R)]. intros s. cbn beta. now rewrite state_full.
Qed.
(** ** 16 bits *)
Lemma rxs16 : forall s, 0 <= s < 2 ^ 16 -> let a := xorshift (3 + s / 2 ^ 13) s in
  rxs_m_xs 62169 16 16 s = if INT_MAX <? a * 62169 then UB else Ok (rxs 3 11 62169 16 s).
Proof.
  intros s H a. unfold rxs_m_xs, rxs. change (xs_opbits 16) with 3. change (3 =? 0) with false. cbn iota. rewrite (top_land 16 3 s) by (try exact H; lia).
  pose proof (top_range 16 3 s ltac:(lia) H) as T. change (16 - 3) with 13 in *. rewrite Z.shiftr_div_pow2 by lia. fold (xorshift (3 + s / 2 ^ 13) s). fold a.
  unfold times. change (16 <? 32) with true. cbn [andb]. destruct (INT_MAX <? a * 62169); [reflexivity|]. cbn [obind].
  change (16 - 16) with 0. rewrite Z.shiftr_0_r, Z.mod_mod by lia. rewrite Z.shiftr_div_pow2 by (vm_compute; discriminate). reflexivity.
Qed.
Lemma unoutput16 : forall x, 0 <= x < 2 ^ 16 -> exists s, unoutput 28009 16 x = Ok s /\ 0 <= s < 2 ^ 16 /\ rxs 3 11 62169 16 s = x.
Proof.
  intros x H. apply out_unoutput; try reflexivity; try exact H; try lia; [right; vm_compute; discriminate].
Qed.

(** ** The high half of the product *)
Lemma var_permutes : forall w m u op, 0 < op <= w -> (m * u) mod 2 ^ w = 1 -> 0 <= m -> 0 <= u ->
  permutes (2 ^ w) (fun s => xorshift (op + s / 2 ^ (w - op)) s * m mod 2 ^ w).
Proof.
  intros w m u op O MU M U. pose proof (pow_pos w ltac:(lia)) as PW.
  exists (fun b => let a := b * u mod 2 ^ w in inv (Z.to_nat w) (op + a / 2 ^ (w - op)) a). split.
  - intros s S. split; [apply Z.mod_pos_bound; lia|]. cbv zeta.
    pose proof (top_range w op s ltac:(lia) S) as T.
    pose proof (xorshift_range w (op + s / 2 ^ (w - op)) s ltac:(lia) ltac:(lia) S) as AR.
    rewrite rxs_parts with (op := op) by assumption.
    replace (xorshift (op + s / 2 ^ (w - op)) s / 2 ^ (w - op)) with (s / 2 ^ (w - op)).
    { apply inv_left; [lia|]. rewrite Z2Nat.id by lia. exact S. }
    symmetry. apply xorshift_top with op; [lia|lia|]. now replace (w - op + op) with w by lia.
  - intros b B. cbv zeta. assert (AR : 0 <= b * u mod 2 ^ w < 2 ^ w) by (apply Z.mod_pos_bound; lia). 
    assert (AM : b * u mod 2 ^ w * m mod 2 ^ w = b) by (rewrite rxs_parts with (op := op); [reflexivity|assumption|now rewrite Z.mul_comm|assumption|assumption|assumption]).
    set (a := b * u mod 2 ^ w) in *. clearbody a.
    pose proof (top_range w op a ltac:(lia) AR) as T.
    pose proof (inv_range (Z.to_nat w) w (op + a / 2 ^ (w - op)) a ltac:(lia) ltac:(lia) AR) as IR.
    pose proof (inv_right (Z.to_nat w) (op + a / 2 ^ (w - op)) a ltac:(lia) ltac:(rewrite Z2Nat.id by lia; exact AR)) as E.
    set (s := inv (Z.to_nat w) (op + a / 2 ^ (w - op)) a) in *. clearbody s. split; [exact IR|].
    assert (T2 : s / 2 ^ (w - op) = a / 2 ^ (w - op)).
    { rewrite <- E at 1. symmetry. apply xorshift_top with op; [lia|lia|]. now replace (w - op + op) with w by lia. }
    now rewrite T2, E.
Qed.
Lemma permutes_high : forall n xb f r, 0 <= xb <= n -> permutes (2 ^ n) f -> 0 <= r < 2 ^ xb ->
  exactly (2 ^ (n - xb)) (fun s => 0 <= s < 2 ^ n /\ f s / 2 ^ (n - xb) = r).
Proof.
  intros n xb f r X (g & A & B) R. pose proof (pow_pos (n - xb) ltac:(lia)) as P.
  exists (fun k => g (compose (n - xb) r k)), (fun s => f s mod 2 ^ (n - xb)). split.
  - intros k K. pose proof (compose_range (n - xb) xb r k ltac:(lia) ltac:(lia) K R) as CR. replace (n - xb + xb) with n in CR by lia.
    destruct (B _ CR) as [B1 B2]. rewrite B2. destruct (compose_parts (n - xb) r k ltac:(lia) K) as [-> ->]. repeat split; lia.
  - intros s [S E]. split; [apply Z.mod_pos_bound; exact P|]. rewrite <- E, parts_compose by lia. now apply A.
Qed.
Lemma rxs_m_states : forall bits xb op m, In (bits, xb, op, m) rxm_sizes ->
  (forall s, 0 <= s < 2 ^ bits -> rxs_m m bits xb s = Ok ((xorshift (op + s / 2 ^ (bits - op)) s * m) mod 2 ^ bits / 2 ^ (bits - xb))) /\
  forall r, 0 <= r < 2 ^ xb -> exactly (2 ^ (bits - xb)) (fun s => 0 <= s < 2 ^ bits /\ rxs_m m bits xb s = Ok r).
Proof.
  intros bits xb op m H.
  assert (G : exists u, xs_opbits xb = op /\ 0 < op <= bits /\ 0 <= xb <= bits /\ 32 <= bits /\ 0 <= m /\ 0 <= u /\ (m * u) mod 2 ^ bits = 1).
  { destruct H as [H|[H|[H|[]]]]; injection H as <- <- <- <-.
    - exists 2897767785. vm_compute. intuition (discriminate || auto).
    - exists 15009553638781119849. vm_compute. intuition (discriminate || auto).
    - exists (14422606686972528997 * 2 ^ 64 + 15009553638781119849). vm_compute. intuition (discriminate || auto). }
  destruct G as (u & OP & O & X & W & M & U & MU).
  assert (CODE : forall s, 0 <= s < 2 ^ bits -> rxs_m m bits xb s = Ok ((xorshift (op + s / 2 ^ (bits - op)) s * m) mod 2 ^ bits / 2 ^ (bits - xb))).
  { intros s S. unfold rxs_m. rewrite OP. replace (op =? 0) with false by lia. rewrite top_land by (try exact S; lia). pose proof (top_range bits op s ltac:(lia) S) as T.
    rewrite Z.shiftr_div_pow2 by lia. fold (xorshift (op + s / 2 ^ (bits - op)) s). rewrite times_ok; [|left; exact W|exact M|apply xorshift_range; try exact S; lia].
    cbn [obind]. rewrite Z.shiftr_div_pow2 by lia. f_equal. apply Z.mod_small. apply div_range; [lia|lia|]. replace (bits - xb + xb) with bits by lia. apply Z.mod_pos_bound, pow_pos. lia. }
  split; [exact CODE|]. intros r R.
  eapply exactly_ext; [|apply (permutes_high bits xb _ r X (var_permutes bits m u op O MU M U) R)].
  intros s. cbn beta. split; intros [S E]; (split; [exact S|]); rewrite (CODE s S) in *; congruence.
Qed.
(** ** Without rotation *)
Lemma xsh_states : forall bits xb mcg r, 2 <= xb <= bits - 2 -> 0 <= r < 2 ^ xb ->
  (forall s, 0 <= s < 2 ^ bits -> xsh bits xb s = xorshift (xb / 2) s / 2 ^ (bits - xb)) /\
  exactly (period bits mcg / 2 ^ xb) (fun s => state bits mcg s /\ xsh bits xb s = r).
Proof.
  intros bits xb mcg r X R. assert (XS : 0 < xb / 2) by (apply Z.div_str_pos; lia).
  assert (CODE : forall s, 0 <= s < 2 ^ bits -> xsh bits xb s = xorshift (xb / 2) s / 2 ^ (bits - xb)).
  { intros s S. unfold xsh. cbv zeta. rewrite Z.add_0_l, Z.sub_0_r. rewrite !Z.shiftr_div_pow2 by lia. fold (xorshift (xb / 2) s).
    apply Z.mod_small, div_range; [lia|lia|]. replace (bits - xb + xb) with bits by lia. apply xorshift_range; try exact S; lia. }
  assert (RS : forall w t, xb <= w -> 0 <= t < 2 ^ w -> rs 0 (xb / 2) w xb t = xorshift (xb / 2) t / 2 ^ (w - xb)).
  { intros w t Hw T. unfold rs. change (2 ^ 0 - 1) with 0. rewrite !Z.sub_0_r, (Z.div_small t) by exact T. rewrite Z.add_0_r.
    apply Z.mod_small, div_range; [lia|lia|]. replace (w - xb + xb) with w by lia. apply xorshift_range; try exact T; lia. }
  split; [exact CODE|]. destruct mcg; unfold period.
  - replace (2 ^ (bits - 2) / 2 ^ xb) with (2 ^ (bits - 2 - xb)) by (rewrite Z.pow_sub_r by lia; reflexivity).
    eapply exactly_ext; [|apply (exactly_quarter _ bits (rs 0 (xb / 2) (bits - 2) xb) r); [lia|]].
    + intros s. cbn beta. split; intros [S0 S1]; (split; [exact S0|]); destruct S0 as [S0 _]; rewrite <- rs_quarter, RS in * by (try exact S0; cbn; lia); rewrite CODE in *; assumption.
    + apply rs_exactly; cbn; lia.
  - replace (2 ^ bits / 2 ^ xb) with (2 ^ (bits - xb)) by (rewrite Z.pow_sub_r by lia; reflexivity).
    eapply exactly_ext; [|apply (rs_exactly bits xb 0 (xb / 2) r); cbn; lia]. intros s. cbn beta. rewrite state_full.
    split; intros [S0 S1]; (split; [exact S0|]); rewrite RS in * by (try exact S0; lia); rewrite CODE in *; assumption.
Qed.
Lemma xsl_states0 : forall xb mcg r, 2 <= xb -> 0 <= r < 2 ^ xb ->
  (forall s, 0 <= s < 2 ^ (2 * xb) -> xsl (2 * xb) xb s = Z.lxor (s / 2 ^ xb) (s mod 2 ^ xb)) /\
  exactly (period (2 * xb) mcg / 2 ^ xb) (fun s => state (2 * xb) mcg s /\ xsl (2 * xb) xb s = r).
Proof.
  intros xb mcg r X R.
  assert (CODE : forall s, 0 <= s < 2 ^ (2 * xb) -> xsl (2 * xb) xb s = Z.lxor (s / 2 ^ xb) (s mod 2 ^ xb)).
  { intros s S. unfold xsl. cbv zeta. replace (2 * xb - xb) with xb by lia. rewrite Z.sub_diag, Z.shiftr_0_r.
    replace ((xb + xb) / 2) with xb by (replace (xb + xb) with (xb * 2) by lia; now rewrite Z.div_mul).
    rewrite Z.shiftr_div_pow2 by lia. apply xsl_mod; [lia|]. now replace (xb + xb) with (2 * xb) by lia. }
  split; [exact CODE|]. eapply exactly_ext; [|apply (halves_states xb 0 r); try exact R; cbn; lia].
  assert (E : forall s, 0 <= s < 2 ^ (2 * xb) -> xsl_spec 0 xb s = Z.lxor (s / 2 ^ xb) (s mod 2 ^ xb)).
  { intros s S. unfold xsl_spec. rewrite Z.sub_0_r, (Z.div_small s (2 ^ (2 * xb))) by exact S. unfold rotated. rewrite Z.pow_0_r, Z.div_1_r, Z.mod_1_r. lia. }
  intros s. cbn beta. split; intros [S0 S1]; (split; [exact S0|]); destruct S0 as [S0 _]; rewrite E, CODE in * by exact S0; assumption.
Qed.
(** ** Both halves rotated *)
Lemma rrr_general : forall h op, h = 2 ^ op -> 0 < op < h -> wanted h = op -> forall s, 0 <= s < 2 ^ (2 * h) -> xsl_rr_rr (2 * h) s = rrr op h s.
Proof.
  intros h op HH O W s S. unfold xsl_rr_rr. replace (2 * h / 2) with h by (rewrite Z.mul_comm, Z.div_mul; lia). replace (2 * h - h) with h by lia.
  rewrite W. replace (h >=? op) with true by lia. replace (op =? 0) with false by lia. rewrite !Z.sub_diag, !Z.shiftl_0_r.
  replace ((h + h) / 2) with h by (replace (h + h) with (h * 2) by lia; now rewrite Z.div_mul).
  rewrite top_land by (try exact S; lia). pose proof (top_range (2 * h) op s ltac:(lia) S) as T. pose proof (pow_pos op ltac:(lia)) as P.
  rewrite !land_mask by lia. rewrite (Z.mod_small (s / 2 ^ (2 * h - op))) by lia. rewrite Z.mod_mod by lia.
  rewrite !Z.shiftr_div_pow2 by lia. fold (xorshift h s).
  assert (S2 : 0 <= s < 2 ^ (h + h)) by (now replace (h + h) with (2 * h) by lia).
  rewrite xsl_mod by (try exact S2; lia). rewrite (xorshift_top h h h s) by (try exact S2; lia).
  pose proof (div_range s h h ltac:(lia) ltac:(lia) S2) as HR. rewrite (Z.mod_small (s / 2 ^ h)) by exact HR.
  pose proof (lxor_range (s / 2 ^ h) (s mod 2 ^ h) h ltac:(lia) HR ltac:(apply Z.mod_pos_bound, pow_pos; lia)) as LR.
  assert (L1 : rotr h (Z.lxor (s / 2 ^ h) (s mod 2 ^ h)) (s / 2 ^ (2 * h - op)) = xsl_spec op h s).
  { unfold xsl_spec. rewrite HH at 1. rewrite rotr_is; [now rewrite <- HH|lia|exact T|rewrite <- HH; exact LR]. }
  rewrite L1. assert (LL : 0 <= xsl_spec op h s < 2 ^ h) by (apply rotated_range; [lia|exact LR]).
  unfold rrr. cbv zeta. set (low := xsl_spec op h s) in *. clearbody low.
  pose proof (Z.mod_pos_bound low (2 ^ op) P) as LM.
  assert (L2 : rotr h (s / 2 ^ h) (low mod 2 ^ op) = rotated h (s / 2 ^ h) (low mod 2 ^ op)).
  { rewrite HH at 1. rewrite rotr_is; [now rewrite <- HH|lia|exact LM|rewrite <- HH; exact HR]. }
  rewrite L2. pose proof (rotated_range h (s / 2 ^ h) (low mod 2 ^ op) ltac:(lia) HR) as RR. set (hi := rotated h (s / 2 ^ h) (low mod 2 ^ op)) in *. clearbody hi.
  rewrite Z.shiftl_mul_pow2 by lia. rewrite Z.mod_small. 2:{ replace (2 ^ (2 * h)) with (2 ^ h * 2 ^ h) by (rewrite <- Z.pow_add_r by lia; f_equal; lia). nia. }
  rewrite Z.lxor_comm, <- (lor_add low hi h) by (try exact LL; lia). rewrite <- Z.lxor_lor; [reflexivity|].
  apply Z.bits_inj'. intros i Hi. rewrite Z.land_spec, Z.bits_0, <- Z.shiftl_mul_pow2, Z.shiftl_spec by lia.
  destruct (Z.lt_ge_cases i h); [rewrite (Z.testbit_neg_r hi) by lia; apply andb_false_r|]. now rewrite (bits_high low h) by lia.
Qed.
Lemma rrr_permutes : forall h op, h = 2 ^ op -> 0 < op < h -> permutes (2 ^ (2 * h)) (rrr op h).
Proof.
  intros h op HH O. pose proof (pow_pos op ltac:(lia)) as P. replace (2 * h) with (h + h) by lia. pose proof (pow_pos h ltac:(lia)) as PH.
  exists (fun x => let low := x mod 2 ^ h in let hi := rotated h (x / 2 ^ h) (h - low mod 2 ^ op) in
     compose h hi (Z.lxor hi (rotated h low (h - hi / 2 ^ (h - op))))). split.
  - intros s S. pose proof (div_range s h h ltac:(lia) ltac:(lia) S) as HR. pose proof (Z.mod_pos_bound s (2 ^ h) PH) as SL.
    pose proof (lxor_range (s / 2 ^ h) (s mod 2 ^ h) h ltac:(lia) HR SL) as LR.
    assert (TE : s / 2 ^ (2 * h - op) = s / 2 ^ h / 2 ^ (h - op)) by (rewrite div_pow by lia; do 2 f_equal; lia).
    pose proof (top_range h op (s / 2 ^ h) ltac:(lia) HR) as T.
    assert (LL : 0 <= xsl_spec op h s < 2 ^ h) by (unfold xsl_spec; rewrite TE; apply rotated_range; [lia|exact LR]).
    unfold rrr. cbv zeta. assert (LE : xsl_spec op h s = rotated h (Z.lxor (s / 2 ^ h) (s mod 2 ^ h)) (s / 2 ^ h / 2 ^ (h - op))) by (unfold xsl_spec; now rewrite TE).
    set (low := xsl_spec op h s) in *. clearbody low. pose proof (Z.mod_pos_bound low (2 ^ op) P) as LM.
    pose proof (rotated_range h (s / 2 ^ h) (low mod 2 ^ op) ltac:(lia) HR) as RR.
    fold (compose h (rotated h (s / 2 ^ h) (low mod 2 ^ op)) low).
    destruct (compose_parts h (rotated h (s / 2 ^ h) (low mod 2 ^ op)) low ltac:(lia) LL) as [-> ->].
    split; [apply compose_range; try assumption; lia|]. rewrite rotated_back by (try exact HR; lia). rewrite LE, rotated_back by (try exact LR; lia).
    rewrite <- Z.lxor_assoc, Z.lxor_nilpotent, Z.lxor_0_l. apply parts_compose. lia.
  - intros x X. cbv zeta. pose proof (div_range x h h ltac:(lia) ltac:(lia) X) as HR. pose proof (Z.mod_pos_bound x (2 ^ h) PH) as XL.
    set (low := x mod 2 ^ h) in *. pose proof (Z.mod_pos_bound low (2 ^ op) P) as LM.
    pose proof (rotated_range h (x / 2 ^ h) (h - low mod 2 ^ op) ltac:(lia) HR) as RR. set (hi := rotated h (x / 2 ^ h) (h - low mod 2 ^ op)) in *.
    pose proof (top_range h op hi ltac:(lia) RR) as T.
    pose proof (rotated_range h low (h - hi / 2 ^ (h - op)) ltac:(lia) XL) as VR. set (v := rotated h low (h - hi / 2 ^ (h - op))) in *.
    pose proof (lxor_range hi v h ltac:(lia) RR VR) as LR. split; [apply compose_range; try assumption; lia|].
    assert (LOW : xsl_spec op h (compose h hi (Z.lxor hi v)) = low).
    { unfold xsl_spec. replace (2 * h - op) with (h + (h - op)) by lia. rewrite <- div_pow by lia.
      destruct (compose_parts h hi (Z.lxor hi v) ltac:(lia) LR) as [-> ->]. rewrite <- Z.lxor_assoc, Z.lxor_nilpotent, Z.lxor_0_l. unfold v. apply rotated_forth; [lia|exact XL]. }
    unfold rrr. cbv zeta. rewrite LOW. destruct (compose_parts h hi (Z.lxor hi v) ltac:(lia) LR) as [_ ->]. unfold hi. rewrite rotated_forth by (try exact HR; lia).
    unfold low. pose proof (Z.div_mod x (2 ^ h) ltac:(lia)). lia.
Qed.
(** ** Statements about the code *)
Lemma exactly_code : forall n w mcg (f g : Z -> Z) r, (forall s, 0 <= s < 2 ^ w -> f s = g s) ->
  exactly n (fun s => state w mcg s /\ g s = r) -> exactly n (fun s => state w mcg s /\ f s = r).
Proof.
  intros n w mcg f g r E H. eapply exactly_ext; [|exact H]. intros s. cbn beta. split; intros [S0 S1]; (split; [exact S0|]); destruct S0 as [S0 _].
  - now rewrite E. - now rewrite <- E.
Qed.
Lemma formulas : (forall bits xb op xs, In (bits, xb, op, xs) rs_sizes -> forall s, 0 <= s < 2 ^ bits -> xsh_rs bits xb s = rs op xs bits xb s) /\
  (forall bits xb op xs, In (bits, xb, op, xs) rr_sizes -> forall s, 0 <= s < 2 ^ bits -> xsh_rr bits xb s = rr op xs bits xb s) /\
  (forall xb op, In (xb, op) xsl_sizes -> forall s, 0 <= s < 2 ^ (2 * xb) -> xsl_rr (2 * xb) xb s = xsl_spec op xb s /\ xsl_rr_rr (2 * xb) s = rrr op xb s).
Proof.
  split; [exact rs_is|]. split; [exact rr_is|]. intros xb op H s S. split; [now apply xsl_is|].
  destruct H as [H|[H|[]]]; injection H as <- <-; apply rrr_general; try reflexivity; try exact S; lia.
Qed.
Lemma states : (forall bits xb op xs mcg r, In (bits, xb, op, xs) rs_sizes -> 0 <= r < 2 ^ xb ->
    exactly (period bits mcg / 2 ^ xb) (fun s => state bits mcg s /\ xsh_rs bits xb s = r)) /\
  (forall bits xb op xs mcg r, In (bits, xb, op, xs) rr_sizes -> 0 <= r < 2 ^ xb ->
    exactly (period bits mcg / 2 ^ xb) (fun s => state bits mcg s /\ xsh_rr bits xb s = r)) /\
  (forall xb op mcg r, In (xb, op) xsl_sizes -> 0 <= r < 2 ^ xb ->
    exactly (period (2 * xb) mcg / 2 ^ xb) (fun s => state (2 * xb) mcg s /\ xsl_rr (2 * xb) xb s = r)).
Proof.
  split; [|split].
  - intros bits xb op xs mcg r H R. apply exactly_code with (rs op xs bits xb); [now apply rs_is|now apply rs_states].
  - intros bits xb op xs mcg r H R. apply exactly_code with (rr op xs bits xb); [now apply rr_is|now apply rr_states].
  - intros xb op mcg r H R. apply exactly_code with (xsl_spec op xb); [now apply xsl_is|now apply xsl_states].
Qed.
Lemma whole_period : forall w mcg m c, wide w -> good mcg m c -> 0 <= m < 2 ^ w -> 0 <= c < 2 ^ w -> forall s0, state w mcg s0 ->
  (forall xb op xs r, In (w, xb, op, xs) rs_sizes -> 0 <= r < 2 ^ xb ->
    exactly (period w mcg / 2 ^ xb) (fun n => 0 <= n < period w mcg /\ xsh_rs w xb (after w m c n s0) = r)) /\
  (forall xb op xs r, In (w, xb, op, xs) rr_sizes -> 0 <= r < 2 ^ xb ->
    exactly (period w mcg / 2 ^ xb) (fun n => 0 <= n < period w mcg /\ xsh_rr w xb (after w m c n s0) = r)) /\
  (forall xb op r, In (xb, op) xsl_sizes -> w = 2 * xb -> 0 <= r < 2 ^ xb ->
    exactly (period w mcg / 2 ^ xb) (fun n => 0 <= n < period w mcg /\ xsl_rr w xb (after w m c n s0) = r)).
Proof.
  intros w mcg m c W G M C s0 S0. destruct states as (A & B & D). split; [|split].
  - intros xb op xs r H R. apply over_period; try assumption. now apply A with op xs.
  - intros xb op xs r H R. apply over_period; try assumption. now apply B with op xs.
  - intros xb op r H E R. apply over_period; try assumption. subst w. now apply D with op.
Qed.
Lemma rrr_top : forall xb op, In (xb, op) xsl_sizes -> permutes (2 ^ (2 * xb)) (rrr op xb).
Proof. intros xb op H. destruct H as [H|[H|[]]]; injection H as <- <-; apply rrr_permutes; try reflexivity; lia. Qed.
Lemma rrr_period : forall xb op, In (xb, op) xsl_sizes -> forall m c, good false m c -> 0 <= m < 2 ^ (2 * xb) -> 0 <= c < 2 ^ (2 * xb) ->
  forall s0 r, state (2 * xb) false s0 -> 0 <= r < 2 ^ (2 * xb) ->
  exactly 1 (fun n => 0 <= n < 2 ^ (2 * xb) /\ xsl_rr_rr (2 * xb) (after (2 * xb) m c n s0) = r).
Proof.
  intros xb op H m c G M C s0 r S0 R. assert (W : wide (2 * xb)) by (unfold wide; destruct H as [H|[H|[]]]; injection H as <- <-; lia).
  apply (over_period (2 * xb) false m c W G M C (xsl_rr_rr (2 * xb)) s0 1 r S0).
  apply exactly_code with (rrr op xb); [intros s S; destruct formulas as (_ & _ & F); now apply F|].
  eapply exactly_ext; [|apply (permutes_once _ _ r (rrr_top xb op H) R)]. intros s. cbn beta. now rewrite state_full.
Qed.
Lemma rxs16_top : (forall s, 0 <= s < 2 ^ 16 -> rxs_m_xs 62169 16 16 s = UB <-> INT_MAX < xorshift (3 + s / 2 ^ 13) s * 62169) /\
  (exists s, 0 <= s < 2 ^ 16 /\ rxs_m_xs 62169 16 16 s = UB) /\
  (forall x, 0 <= x < 2 ^ 16 -> exists s, unoutput 28009 16 x = Ok s /\ 0 <= s < 2 ^ 16 /\ rxs 3 11 62169 16 s = x).
Proof.
  split; [|split; [exists 65535; split; [lia|reflexivity]|exact unoutput16]]. intros s H. rewrite rxs16 by exact H. cbv zeta.
  destruct (Z.ltb_spec INT_MAX (xorshift (3 + s / 2 ^ 13) s * 62169)); split; intros; try reflexivity; try assumption; try discriminate; lia.
Qed.
Lemma unxorshift_top : forall w shift, 0 < shift -> 0 < w ->
  (forall y, 0 <= y < 2 ^ w -> unxorshift (Z.to_nat w) w (xorshift shift y) w shift = Ok y) /\
  (forall x, 0 <= x < 2 ^ w -> exists y, unxorshift (Z.to_nat w) w x w shift = Ok y /\ 0 <= y < 2 ^ w /\ xorshift shift y = x).
Proof.
  intros w shift S W. split; [|intros x H; now apply unxorshift_back]. intros y H. apply unxorshift_ok; try exact H; lia.
Qed.
Lemma table_inverses : (forall w m u, In (w, m, u) multipliers -> 0 < m < 2 ^ w /\ 0 < u < 2 ^ w /\ (m * u) mod 2 ^ w = 1) /\
  In (16, 62169, 28009) multipliers.
Proof.
  split; [|right; left; reflexivity]. intros w m u H. repeat (destruct H as [H|H]; [injection H as <- <- <-; repeat split; reflexivity|]). contradiction H.
Qed.
