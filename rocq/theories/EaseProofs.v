(** Lemmas on easing curves. *)
From Coq Require Import ZArith QArith Qabs Qpower Bool Lia Lqa List Setoid Field Qfield.
From Verif Require Import Common EaseModel EaseSpec.
Local Open Scope Q_scope.

Lemma Qltb_lt : forall a b, Qltb a b = true <-> a < b.
Proof.
  intros a b. unfold Qltb. rewrite negb_true_iff. split; intros H.
  - apply Qnot_le_lt. intros K. apply Qle_bool_iff in K. congruence.
  - destruct (Qle_bool b a) eqn:E; [|reflexivity]. apply Qle_bool_iff in E. exfalso. apply (Qlt_not_le _ _ H E).
Qed.
Lemma Qltb_ge : forall a b, Qltb a b = false <-> b <= a.
Proof.
  intros a b. unfold Qltb. rewrite negb_false_iff. apply Qle_bool_iff.
Qed.
Lemma nz_ok : forall d v, ~ d == 0 -> nz d v = Ok v.
Proof. intros d v H. unfold nz. destruct (Qeq_bool d 0) eqn:E; [|reflexivity]. apply Qeq_bool_iff in E. contradiction. Qed.

Lemma half_time : forall t d, ~ d == 0 -> t / (d / 2) == 2 * (t / d).
Proof. intros t d H. field. exact H. Qed.

(** A polynomial identity in [t], [b], [c] and [d]. *)
Ltac curve_id := intros; eexists; split; [apply nz_ok; assumption|];
  unfold eased_in, eased_out, power, overshoot, read, back_s; cbv zeta; simpl Qpower; unfold Qpower_positive; simpl pow_pos; field; assumption.

Lemma linear_in_spec : forall o t b c d, ~ d == 0 -> is_num (linear_in o t b c d) (eased_in (power 1) t b c d).
Proof. curve_id. Qed.
Lemma quad_in_spec : forall t b c d, ~ d == 0 -> is_num (quad_in LR t b c d) (eased_in (power 2) t b c d).
Proof. curve_id. Qed.
Lemma cubic_in_spec : forall t b c d, ~ d == 0 -> is_num (cubic_in LR t b c d) (eased_in (power 3) t b c d).
Proof. curve_id. Qed.
Lemma quart_in_spec : forall t b c d, ~ d == 0 -> is_num (quart_in LR t b c d) (eased_in (power 4) t b c d).
Proof. curve_id. Qed.
Lemma quint_in_spec : forall t b c d, ~ d == 0 -> is_num (quint_in LR t b c d) (eased_in (power 5) t b c d).
Proof. curve_id. Qed.
Lemma back_in_spec : forall o t b c d, ~ d == 0 -> is_num (back_in o t b c d) (eased_in (overshoot (170158 # 100000)) t b c d).
Proof. curve_id. Qed.
Lemma linear_out_spec : forall o t b c d, ~ d == 0 -> is_num (linear_out o t b c d) (eased_out (power 1) t b c d).
Proof. curve_id. Qed.
Lemma quad_out_spec : forall t b c d, ~ d == 0 -> is_num (quad_out LR t b c d) (eased_out (power 2) t b c d).
Proof. curve_id. Qed.
Lemma cubic_out_spec : forall t b c d, ~ d == 0 -> is_num (cubic_out LR t b c d) (eased_out (power 3) t b c d).
Proof. curve_id. Qed.
Lemma quart_out_spec : forall t b c d, ~ d == 0 -> is_num (quart_out LR t b c d) (eased_out (power 4) t b c d).
Proof. curve_id. Qed.
Lemma quint_out_spec : forall t b c d, ~ d == 0 -> is_num (quint_out LR t b c d) (eased_out (power 5) t b c d).
Proof. curve_id. Qed.
Lemma back_out_spec : forall t b c d, ~ d == 0 -> is_num (back_out LR t b c d) (eased_out (overshoot (170158 # 100000)) t b c d).
Proof. curve_id. Qed.

Ltac both_halves :=
  intros; eexists; split; [apply nz_ok; assumption|]; cbv zeta;
  match goal with |- eased_inOut _ ?t _ _ ?d (if Qltb ?x 1 then _ else _) =>
    let E := fresh "E" in
    assert (E : x == 2 * (t / d)) by (apply half_time; assumption);
    destruct (Qltb x 1) eqn:L; [apply Qltb_lt in L|apply Qltb_ge in L]; rewrite E in L;
    split; intros K; try (exfalso; lra);
    unfold power, overshoot, read, back_s; simpl Qpower; unfold Qpower_positive; simpl pow_pos; field; assumption
  end.
Definition halves (f : outcome Q) (P : Q -> Q) (t b c d : Q) : Prop := num_with f (eased_inOut P t b c d).
Lemma linear_inOut_spec : forall o t b c d, ~ d == 0 -> halves (linear_inOut o t b c d) (power 1) t b c d.
Proof.
  intros. eexists. split; [apply nz_ok; assumption|]. split; intros _; unfold power; simpl; field; assumption.
Qed.
Lemma quad_inOut_spec : forall t b c d, ~ d == 0 -> halves (quad_inOut LR t b c d) (power 2) t b c d.
Proof. both_halves. Qed.
Lemma quart_inOut_spec : forall t b c d, ~ d == 0 -> halves (quart_inOut LR t b c d) (power 4) t b c d.
Proof. both_halves. Qed.
Lemma quint_inOut_spec : forall t b c d, ~ d == 0 -> halves (quint_inOut LR t b c d) (power 5) t b c d.
Proof. both_halves. Qed.
Lemma back_inOut_spec : forall t b c d, ~ d == 0 -> halves (back_inOut LR t b c d) (overshoot ((170158 # 100000) * (1525 # 1000))) t b c d.
Proof. both_halves. Qed.

(** The second half of Cubic's inOut. *)
Lemma cubic_inOut_first : forall o t b c d, ~ d == 0 -> t / d < 1 # 2 ->
  is_num (cubic_inOut o t b c d) (b + c * (power 3 (2 * (t / d)) / 2)).
Proof.
  intros. eexists. split; [apply nz_ok; assumption|]. cbv zeta.
  destruct (Qltb (t / (d / 2)) 1) eqn:L; [|apply Qltb_ge in L; rewrite half_time in L by assumption; exfalso; lra].
  unfold power. simpl Qpower. unfold Qpower_positive. simpl pow_pos. field. assumption.
Qed.
Lemma cubic_inOut_second : forall o t b c d, ~ d == 0 -> 1 # 2 <= t / d ->
  is_num (cubic_inOut o t b c d) (b + 2 + c * (t / d) * (2 * (1 - t / d)) ^ 2).
Proof.
  intros. eexists. split; [apply nz_ok; assumption|]. cbv zeta.
  destruct (Qltb (t / (d / 2)) 1) eqn:L; [apply Qltb_lt in L; rewrite half_time in L by assumption; exfalso; lra|].
  simpl Qpower. unfold Qpower_positive. simpl pow_pos. field. assumption.
Qed.

(** ** Bounce *)
Lemma arcs_alt : forall u, arcs u =
  if Qltb u (4 # 11) then (121 # 16) * u ^ 2
  else if Qltb u (8 # 11) then (121 # 16) * (u - (6 # 11)) ^ 2 + (3 # 4)
  else if Qltb u (10 # 11) then (121 # 16) * (u - (9 # 11)) ^ 2 + (15 # 16)
  else (121 # 16) * (u - (21 # 22)) ^ 2 + (63 # 64).
Proof.
  intros u. unfold arcs.
  assert (D : forall a b (A : Type) (x y : A), (if Qlt_le_dec a b then x else y) = (if Qltb a b then x else y)).
  { intros a b A x y. destruct (Qlt_le_dec a b) as [H|H].
    - apply Qltb_lt in H. now rewrite H.
    - apply Qltb_ge in H. now rewrite H. }
  rewrite !D. reflexivity.
Qed.

Lemma Qltb_comp : forall a b a' b', a == a' -> b == b' -> Qltb a b = Qltb a' b'.
Proof.
  intros a b a' b' E F. destruct (Qltb a' b') eqn:L.
  - apply Qltb_lt in L. apply Qltb_lt. now rewrite E, F.
  - apply Qltb_ge in L. apply Qltb_ge. now rewrite E, F.
Qed.
Lemma arcs_comp : forall a b, a == b -> arcs a == arcs b.
Proof.
  intros a b E. rewrite !arcs_alt. rewrite !(Qltb_comp a _ b _ E (Qeq_refl _)).
  repeat match goal with |- context [if ?x then _ else _] => destruct x end; now rewrite E.
Qed.

Lemma bounce_out_spec : forall o t b c d, ~ d == 0 -> is_num (bounce_out o t b c d) (b + c * arcs (t / d)).
Proof.
  intros. eexists. split; [apply nz_ok; assumption|]. cbv zeta. rewrite !arcs_alt.
  rewrite (Qltb_comp (t / d) (1 / (275 # 100)) (t / d) (4 # 11)) by reflexivity.
  rewrite (Qltb_comp (t / d) (2 / (275 # 100)) (t / d) (8 # 11)) by reflexivity.
  rewrite (Qltb_comp (t / d) ((25 # 10) / (275 # 100)) (t / d) (10 # 11)) by reflexivity.
  set (u := t / d). clearbody u.
  destruct (Qltb u (4 # 11)); [|destruct (Qltb u (8 # 11)); [|destruct (Qltb u (10 # 11))]];
    simpl Qpower; unfold Qpower_positive; simpl pow_pos; field.
Qed.
Lemma arcs_range : forall u, 0 <= u <= 1 -> 0 <= arcs u <= 1.
Proof.
  intros u [H0 H1]. rewrite arcs_alt.
  destruct (Qltb u (4 # 11)) eqn:A; [apply Qltb_lt in A|apply Qltb_ge in A;
    destruct (Qltb u (8 # 11)) eqn:B; [apply Qltb_lt in B|apply Qltb_ge in B;
      destruct (Qltb u (10 # 11)) eqn:C; [apply Qltb_lt in C|apply Qltb_ge in C]]];
    simpl Qpower; unfold Qpower_positive; simpl pow_pos; split; nra.
Qed.
Lemma arcs_0 : forall u, u == 0 -> arcs u == 0.
Proof. intros u E. rewrite (arcs_comp u 0 E). reflexivity. Qed.
Lemma arcs_1 : forall u, u == 1 -> arcs u == 1.
Proof. intros u E. rewrite (arcs_comp u 1 E). reflexivity. Qed.
(** The arcs on their closed intervals, and no jump anywhere. *)
Definition arc (m k u : Q) : Q := (121 # 16) * ((u - m) * (u - m)) + k.
Lemma arcs_closed : forall u, 0 <= u <= 1 ->
  (u <= 4 # 11 -> arcs u == arc 0 0 u) /\
  (4 # 11 <= u <= 8 # 11 -> arcs u == arc (6 # 11) (3 # 4) u) /\
  (8 # 11 <= u <= 10 # 11 -> arcs u == arc (9 # 11) (15 # 16) u) /\
  (10 # 11 <= u -> arcs u == arc (21 # 22) (63 # 64) u).
Proof.
  assert (E : forall a u, u <= a -> Qltb u a = false -> u == a).
  { intros a u H K. apply Qltb_ge in K. now apply Qle_antisym. }
  assert (L : forall a u, a <= u -> Qltb u a = false) by (intros; now apply Qltb_ge).
  intros u [U0 U1]. rewrite arcs_alt. unfold arc. split; [|split; [|split]].
  - intros H. destruct (Qltb u (4 # 11)) eqn:A.
    + simpl Qpower. unfold Qpower_positive. simpl. ring.
    + rewrite (Qltb_comp u (8 # 11) (4 # 11) (8 # 11) (E _ _ H A) (Qeq_refl _)). change (Qltb (4 # 11) (8 # 11)) with true. cbv iota. rewrite (E _ _ H A). reflexivity.
  - intros [H H']. rewrite (L _ _ H). destruct (Qltb u (8 # 11)) eqn:A; [reflexivity|].
    rewrite (Qltb_comp u (10 # 11) (8 # 11) (10 # 11) (E _ _ H' A) (Qeq_refl _)). change (Qltb (8 # 11) (10 # 11)) with true. cbv iota. rewrite (E _ _ H' A). reflexivity.
  - intros [H H']. rewrite (L (4 # 11) u), (L _ _ H) by lra. destruct (Qltb u (10 # 11)) eqn:A; [reflexivity|].
    rewrite (E _ _ H' A). reflexivity.
  - intros H. rewrite (L (4 # 11) u), (L (8 # 11) u), (L _ _ H) by lra. reflexivity.
Qed.
Definition near (u v x y : Q) : Prop := - ((11 # 2) * (v - u)) <= y - x <= (11 # 2) * (v - u).
Lemma arc_near : forall m k u v, u <= v -> - (4 # 11) <= u - m -> v - m <= 4 # 11 -> near u v (arc m k u) (arc m k v).
Proof.
  intros m k u v L A B. unfold near, arc.
  assert (E : (121 # 16) * ((v - m) * (v - m)) + k - ((121 # 16) * ((u - m) * (u - m)) + k) == (121 # 16) * ((v - u) * ((v - m) + (u - m)))) by ring.
  rewrite E. assert (- (8 # 11) <= (v - m) + (u - m) <= 8 # 11) by lra.
  set (w := (v - m) + (u - m)) in *. set (h := v - u) in *. assert (0 <= h) by (unfold h; lra). clearbody w h. clear E. nra.
Qed.
Lemma near_trans : forall u v w x y z, near u v x y -> near v w y z -> near u w x z.
Proof. unfold near. intros. lra. Qed.
Lemma near_eq : forall u v x y x' y', near u v x' y' -> x == x' -> y == y' -> near u v x y.
Proof. unfold near. intros u v x y x' y' H E F. now rewrite E, F. Qed.
Lemma near4 : forall u v, 0 <= u -> u <= v -> v <= 1 -> near u v (arcs u) (arcs v).
Proof.
  intros u v A L B.
  assert (P1 : forall u v, 0 <= u -> u <= v -> v <= 4 # 11 -> near u v (arcs u) (arcs v)).
  { intros x y X XY Y. apply (near_eq _ _ _ _ (arc 0 0 x) (arc 0 0 y)); [apply arc_near; lra|apply arcs_closed; lra|apply arcs_closed; lra]. }
  assert (P2 : forall u v, 4 # 11 <= u -> u <= v -> v <= 8 # 11 -> near u v (arcs u) (arcs v)).
  { intros x y X XY Y. apply (near_eq _ _ _ _ (arc (6 # 11) (3 # 4) x) (arc (6 # 11) (3 # 4) y)); [apply arc_near; lra|apply arcs_closed; lra|apply arcs_closed; lra]. }
  assert (P3 : forall u v, 8 # 11 <= u -> u <= v -> v <= 10 # 11 -> near u v (arcs u) (arcs v)).
  { intros x y X XY Y. apply (near_eq _ _ _ _ (arc (9 # 11) (15 # 16) x) (arc (9 # 11) (15 # 16) y)); [apply arc_near; lra|apply arcs_closed; lra|apply arcs_closed; lra]. }
  assert (P4 : forall u v, 10 # 11 <= u -> u <= v -> v <= 1 -> near u v (arcs u) (arcs v)).
  { intros x y X XY Y. apply (near_eq _ _ _ _ (arc (21 # 22) (63 # 64) x) (arc (21 # 22) (63 # 64) y)); [apply arc_near; lra|apply arcs_closed; lra|apply arcs_closed; lra]. }
  assert (P12 : forall u v, 0 <= u -> u <= v -> v <= 8 # 11 -> near u v (arcs u) (arcs v)).
  { intros x y X XY Y. destruct (Qlt_le_dec x (4 # 11)); [|apply P2; lra]. destruct (Qlt_le_dec y (4 # 11)); [apply P1; lra|].
    apply (near_trans _ (4 # 11) _ _ (arcs (4 # 11))); [apply P1; lra|apply P2; lra]. }
  assert (P13 : forall u v, 0 <= u -> u <= v -> v <= 10 # 11 -> near u v (arcs u) (arcs v)).
  { intros x y X XY Y. destruct (Qlt_le_dec x (8 # 11)); [|apply P3; lra]. destruct (Qlt_le_dec y (8 # 11)); [apply P12; lra|].
    apply (near_trans _ (8 # 11) _ _ (arcs (8 # 11))); [apply P12; lra|apply P3; lra]. }
  destruct (Qlt_le_dec u (10 # 11)); [|apply P4; lra]. destruct (Qlt_le_dec v (10 # 11)); [apply P13; lra|].
  apply (near_trans _ (10 # 11) _ _ (arcs (10 # 11))); [apply P13; lra|apply P4; lra].
Qed.

Lemma bounce_in_spec : forall o t b c d, ~ d == 0 ->
  is_num (bounce_in o t b c d) (eased_in bounce t b c d).
Proof.
  intros o t b c d H. unfold bounce_in. destruct (bounce_out_spec o (d - t) 0 c d H) as (r & E & R).
  rewrite E. cbn [obind]. eexists. split; [reflexivity|]. rewrite R. unfold eased_in, bounce.
  rewrite (arcs_comp ((d - t) / d) (1 - t / d)) by (field; exact H). ring.
Qed.
Lemma bounce_out_spec' : forall o t b c d, ~ d == 0 ->
  is_num (bounce_out o t b c d) (eased_out bounce t b c d).
Proof.
  intros o t b c d H. destruct (bounce_out_spec o t b c d H) as (r & E & R). exists r. split; [exact E|].
  rewrite R. unfold eased_out, bounce. rewrite (arcs_comp (1 - (1 - t / d)) (t / d)) by ring. ring.
Qed.
Lemma bounce_inOut_spec : forall o t b c d, 0 < d -> halves (bounce_inOut o t b c d) bounce t b c d.
Proof.
  intros o t b c d H. assert (N : ~ d == 0) by (intros K; lra). unfold bounce_inOut.
  assert (Hd : d / 2 == (1 # 2) * d) by field.
  destruct (Qltb t (d / 2)) eqn:L; [apply Qltb_lt in L|apply Qltb_ge in L]; rewrite Hd in L.
  - destruct (bounce_in_spec o (t * 2) 0 c d N) as (r & E & R). rewrite E. cbn [obind].
    eexists. split; [reflexivity|]. split; intros K.
    + rewrite R. unfold eased_in, bounce. rewrite (arcs_comp (1 - t * 2 / d) (1 - 2 * (t / d))) by (field; exact N). field.
    + exfalso. apply (Qle_not_lt _ _ K). apply Qlt_shift_div_r; [exact H|]. lra.
  - destruct (bounce_out_spec o (t * 2 - d) 0 c d N) as (r & E & R). rewrite E. cbn [obind].
    eexists. split; [reflexivity|]. split; intros K.
    + exfalso. apply (Qlt_not_le _ _ K). apply Qle_shift_div_l; [exact H|]. lra.
    + rewrite R. unfold bounce. rewrite (arcs_comp ((t * 2 - d) / d) (1 - 2 * (1 - t / d))) by (field; exact N). field.
Qed.

(** ** Shapes *)
Definition shape (P : Q -> Q) : Prop :=
  (forall a b, a == b -> P a == P b) /\ P 0 == 0 /\ P 1 == 1.
Definition steady (P : Q -> Q) : Prop := forall a b, 0 <= a -> a <= b -> b <= 1 -> P a <= P b.

Lemma div_self : forall d, ~ d == 0 -> d / d == 1.
Proof. intros. now field. Qed.
Lemma div_zero : forall d, ~ d == 0 -> 0 / d == 0.
Proof. intros. now field. Qed.

Lemma half_eq : forall x, x / 2 == (1 # 2) * x.
Proof. intros x. field. Qed.

Section Ends.
Variable P : Q -> Q.
Hypothesis S0 : shape P.
Lemma ends_in : forall b c d, ~ d == 0 -> eased_in P 0 b c d == b /\ eased_in P d b c d == b + c.
Proof.
  intros b c d H. destruct S0 as (C & Z & O). unfold eased_in.
  rewrite (C _ _ (div_zero d H)), (C _ _ (div_self d H)), Z, O. split; ring.
Qed.
Lemma ends_out : forall b c d, ~ d == 0 -> eased_out P 0 b c d == b /\ eased_out P d b c d == b + c.
Proof.
  intros b c d H. destruct S0 as (C & Z & O). unfold eased_out.
  assert (E0 : 1 - 0 / d == 1) by (field; exact H). assert (E1 : 1 - d / d == 0) by (field; exact H).
  rewrite (C _ _ E0), (C _ _ E1), Z, O. split; ring.
Qed.
Lemma ends_inOut : forall b c d v, ~ d == 0 -> (eased_inOut P 0 b c d v -> v == b) /\ (eased_inOut P d b c d v -> v == b + c).
Proof.
  intros b c d v H. destruct S0 as (C & Z & O). split; intros [H1 H2].
  - rewrite H1; [|rewrite (div_zero d H); reflexivity].
    assert (E : 2 * (0 / d) == 0) by (field; exact H). rewrite (C _ _ E), Z. field.
  - rewrite H2; [|rewrite (div_self d H); discriminate].
    assert (E : 2 * (1 - d / d) == 0) by (field; exact H). rewrite (C _ _ E), Z. field.
Qed.
Hypothesis M : steady P.
Lemma unit_time : forall t d, 0 < d -> 0 <= t <= d -> 0 <= t / d <= 1.
Proof.
  intros t d D [A B]. split.
  - apply Qle_shift_div_l; [exact D|]. lra.
  - apply Qle_shift_div_r; [exact D|]. lra.
Qed.
Lemma div_mono : forall t t' d, 0 < d -> t <= t' -> t / d <= t' / d.
Proof. intros t t' d D L. unfold Qdiv. apply Qmult_le_compat_r; [exact L|]. apply Qlt_le_weak, Qinv_lt_0_compat, D. Qed.
Lemma mono_in : forall t t' b c d, 0 < d -> 0 <= c -> 0 <= t -> t <= t' -> t' <= d ->
  eased_in P t b c d <= eased_in P t' b c d.
Proof.
  intros t t' b c d D C T L T'. unfold eased_in.
  assert (K : P (t / d) <= P (t' / d)).
  { apply M; [apply (unit_time t d D); split; lra|now apply div_mono|apply (unit_time t' d D); split; lra]. }
  nra.
Qed.
Lemma mono_out : forall t t' b c d, 0 < d -> 0 <= c -> 0 <= t -> t <= t' -> t' <= d ->
  eased_out P t b c d <= eased_out P t' b c d.
Proof.
  intros t t' b c d D C T L T'. unfold eased_out.
  assert (K : P (1 - t' / d) <= P (1 - t / d)).
  { pose proof (div_mono t t' d D L). pose proof (unit_time t d D). pose proof (unit_time t' d D). apply M; lra. }
  nra.
Qed.
Lemma mono_inOut : forall t t' b c d v v', 0 < d -> 0 <= c -> 0 <= t -> t <= t' -> t' <= d ->
  eased_inOut P t b c d v -> eased_inOut P t' b c d v' -> v <= v'.
Proof.
  intros t t' b c d v v' D C T L T' [H1 H2] [H3 H4]. destruct S0 as (Cm & Z & O).
  pose proof (div_mono t t' d D L). pose proof (unit_time t d D). pose proof (unit_time t' d D).
  assert (B : forall u, 0 <= u <= 1 -> P u <= 1).
  { intros u U. assert (P u <= P 1) by (apply M; lra). lra. }
  destruct (Qlt_le_dec (t / d) (1 # 2)) as [A|A]; destruct (Qlt_le_dec (t' / d) (1 # 2)) as [A'|A'].
  - rewrite (H1 A), (H3 A'), !half_eq. assert (P (2 * (t / d)) <= P (2 * (t' / d))) by (apply M; lra).
    assert ((1 # 2) * P (2 * (t / d)) <= (1 # 2) * P (2 * (t' / d))) by lra. nra.
  - rewrite (H1 A), (H4 A'), !half_eq. assert (P (2 * (t / d)) <= 1) by (apply B; lra).
    assert (P (2 * (1 - t' / d)) <= 1) by (apply B; lra).
    assert ((1 # 2) * P (2 * (t / d)) <= 1 - (1 # 2) * P (2 * (1 - t' / d))) by lra. nra.
  - exfalso. lra.
  - rewrite (H2 A), (H4 A'), !half_eq. assert (P (2 * (1 - t' / d)) <= P (2 * (1 - t / d))) by (apply M; lra).
    assert (1 - (1 # 2) * P (2 * (1 - t / d)) <= 1 - (1 # 2) * P (2 * (1 - t' / d))) by lra. nra.
Qed.
End Ends.

Lemma power_shape : forall n, (0 < n)%Z -> shape (power n).
Proof.
  intros n H. unfold power. repeat split.
  - intros a b E. now rewrite E.
  - apply Qpower_0. lia.
  - apply Qpower_1.
Qed.
Lemma Qpower_nonneg : forall a n, (0 <= n)%Z -> 0 <= a -> 0 <= a ^ n.
Proof. intros. now apply Qpower_pos. Qed.
Lemma pow_mono : forall p a b, 0 <= a -> a <= b -> a ^ Zpos p <= b ^ Zpos p.
Proof.
  intros p a b A L. induction p as [|p IH] using Pos.peano_ind.
  - simpl. exact L.
  - rewrite Pos2Z.inj_succ, <- Z.add_1_r.
    rewrite !Qpower_plus_pos || rewrite !Qpower_plus'; try lia.
    change (a ^ 1) with a. change (b ^ 1) with b.
    assert (0 <= a ^ Zpos p) by (apply Qpower_pos; exact A).
    nra.
Qed.
Lemma power_steady : forall n, (0 < n)%Z -> steady (power n).
Proof. intros n H a b A L _. unfold power. destruct n as [|p|p]; try lia. now apply pow_mono. Qed.
Lemma overshoot_shape : forall s, shape (overshoot s).
Proof.
  intros s. unfold overshoot. repeat split.
  - intros a b E. now rewrite E.
  - simpl Qpower. unfold Qpower_positive. simpl. ring.
Qed.
Lemma overshoot_below : forall s u, 0 < s -> 0 < u -> u < s / (s + 1) -> overshoot s u < 0.
Proof.
  intros s u S0 U L. unfold overshoot. assert (K : (s + 1) * u < s).
  { assert (s / (s + 1) * (s + 1) == s) by (field; intros Z; lra). assert (u * (s + 1) < s / (s + 1) * (s + 1)) by (apply Qmult_lt_compat_r; lra). lra. }
  simpl Qpower. unfold Qpower_positive. simpl.
  set (x := (s + 1) * u - s). assert (X : x < 0) by (unfold x; lra). clearbody x.
  assert (Y : 0 < u * u) by nra. nra.
Qed.
Lemma arcs_shape : shape bounce.
Proof.
  unfold bounce. repeat split.
  intros a b E. rewrite (arcs_comp (1 - a) (1 - b)); [reflexivity|]. now rewrite E.
Qed.


(** ** All families *)
Lemma in_spec : forall k t b c d, ~ d == 0 -> is_num (ease_in k LR t b c d) (eased_in (shape_of k) t b c d).
Proof.
  intros [] t b c d H; [apply linear_in_spec|apply quad_in_spec|apply cubic_in_spec|apply quart_in_spec
    |apply quint_in_spec|apply back_in_spec|apply bounce_in_spec]; exact H.
Qed.
Lemma out_spec : forall k t b c d, ~ d == 0 -> is_num (ease_out k LR t b c d) (eased_out (shape_of k) t b c d).
Proof.
  intros [] t b c d H; [apply linear_out_spec|apply quad_out_spec|apply cubic_out_spec|apply quart_out_spec
    |apply quint_out_spec|apply back_out_spec|apply bounce_out_spec']; exact H.
Qed.
Lemma inOut_spec : forall k t b c d, k <> Cubic -> 0 < d ->
  num_with (ease_inOut k LR t b c d) (eased_inOut (inOut_shape_of k) t b c d).
Proof.
  intros k t b c d K H. assert (N : ~ d == 0) by (intros E; lra).
  destruct k; [apply linear_inOut_spec|apply quad_inOut_spec|contradiction|apply quart_inOut_spec
    |apply quint_inOut_spec|apply back_inOut_spec|apply bounce_inOut_spec]; assumption.
Qed.
Lemma zero_ub : forall k o t b c d, d == 0 -> ease_in k o t b c d = UB /\ ease_out k o t b c d = UB /\ ease_inOut k o t b c d = UB.
Proof.
  intros k o t b c d H. apply Qeq_bool_iff in H.
  assert (N : forall v, nz d v = UB) by (intros v; unfold nz; now rewrite H).
  assert (B : forall t b, bounce_out o t b c d = UB) by (intros; apply N).
  destruct k; repeat split; try apply N; cbn [ease_in ease_out ease_inOut]; unfold bounce_inOut, bounce_in;
    rewrite ?B; cbn [obind]; try reflexivity. destruct (Qltb t (d / 2)); reflexivity.
Qed.
Lemma shape_shape : forall k, shape (shape_of k).
Proof. intros []; try (apply power_shape; lia); [apply overshoot_shape|apply arcs_shape]. Qed.
Lemma inOut_shape_shape : forall k, shape (inOut_shape_of k).
Proof. intros []; try (apply power_shape; lia); [apply overshoot_shape|apply arcs_shape]. Qed.
Lemma is_num_eq : forall o x y, is_num o x -> x == y -> is_num o y.
Proof. intros o x y (r & E & R) H. exists r. split; [exact E|]. now rewrite R. Qed.

Lemma all_ends : forall k b c d, 0 < d ->
  is_num (ease_in k LR 0 b c d) b /\ is_num (ease_in k LR d b c d) (b + c) /\
  is_num (ease_out k LR 0 b c d) b /\ is_num (ease_out k LR d b c d) (b + c) /\
  is_num (ease_inOut k LR 0 b c d) b /\ (k <> Cubic -> is_num (ease_inOut k LR d b c d) (b + c)).
Proof.
  intros k b c d H. assert (N : ~ d == 0) by (intros E; lra).
  destruct (ends_in _ (shape_shape k) b c d N) as [I0 I1]. destruct (ends_out _ (shape_shape k) b c d N) as [O0 O1].
  split; [exact (is_num_eq _ _ _ (in_spec k 0 b c d N) I0)|].
  split; [exact (is_num_eq _ _ _ (in_spec k d b c d N) I1)|].
  split; [exact (is_num_eq _ _ _ (out_spec k 0 b c d N) O0)|].
  split; [exact (is_num_eq _ _ _ (out_spec k d b c d N) O1)|].
  assert (C : k = Cubic \/ k <> Cubic) by (destruct k; (now left) || (right; discriminate)).
  split.
  - destruct C as [->|C].
    + refine (is_num_eq _ _ _ (cubic_inOut_first LR 0 b c d N _) _).
      * rewrite (div_zero d N). reflexivity.
      * unfold power. simpl Qpower. unfold Qpower_positive. simpl pow_pos. field. exact N.
    + destruct (inOut_spec k 0 b c d C H) as (r & E & R). exists r. split; [exact E|].
      apply (ends_inOut _ (inOut_shape_shape k) b c d r N). exact R.
  - intros K. destruct (inOut_spec k d b c d K H) as (r & E & R). exists r. split; [exact E|].
    apply (ends_inOut _ (inOut_shape_shape k) b c d r N). exact R.
Qed.

(** Point reflection. *)
Lemma reflected : forall k t b c d, ~ d == 0 -> exists x y, ease_in k LR (d - t) b c d = Ok x /\
  ease_out k LR t b c d = Ok y /\ x + y == 2 * b + c.
Proof.
  intros k t b c d N. destruct (in_spec k (d - t) b c d N) as (x & E & X). destruct (out_spec k t b c d N) as (y & F & Y).
  exists x, y. split; [exact E|]. split; [exact F|]. rewrite X, Y. unfold eased_in, eased_out.
  destruct (shape_shape k) as [C _]. rewrite (C ((d - t) / d) (1 - t / d)) by (field; exact N). ring.
Qed.
Lemma inOut_reflected : forall k t b c d, k <> Cubic -> 0 < d -> exists x y, ease_inOut k LR (d - t) b c d = Ok x /\
  ease_inOut k LR t b c d = Ok y /\ x + y == 2 * b + c.
Proof.
  intros k t b c d K D. assert (N : ~ d == 0) by (intros E; lra).
  destruct (inOut_spec k (d - t) b c d K D) as (x & E & X). destruct (inOut_spec k t b c d K D) as (y & F & Y).
  exists x, y. split; [exact E|]. split; [exact F|]. destruct X as [X1 X2], Y as [Y1 Y2].
  destruct (inOut_shape_shape k) as (C & _ & O). set (P := inOut_shape_of k) in *. clearbody P.
  assert (T : (d - t) / d == 1 - t / d) by (field; exact N).
  destruct (Qlt_le_dec (t / d) (1 # 2)) as [A|A].
  - rewrite (Y1 A), X2 by (rewrite T; lra). rewrite (C (2 * (1 - (d - t) / d)) (2 * (t / d))) by (rewrite T; ring). ring.
  - destruct (Qlt_le_dec (1 - t / d) (1 # 2)) as [B|B].
    + rewrite (Y2 A), X1 by (rewrite T; exact B). rewrite (C (2 * ((d - t) / d)) (2 * (1 - t / d))) by (rewrite T; ring). ring.
    + assert (M : t / d == 1 # 2) by (apply Qle_antisym; lra).
      rewrite (Y2 A), X2 by (rewrite T; exact B). rewrite (C (2 * (1 - t / d)) 1) by (rewrite M; reflexivity).
      rewrite (C (2 * (1 - (d - t) / d)) 1) by (rewrite T, M; reflexivity). rewrite O. field.
Qed.

Definition polynomial (k : family) : Prop := k = Linear \/ k = Quad \/ k = Cubic \/ k = Quart \/ k = Quint.
Lemma polynomial_steady : forall k, polynomial k -> steady (shape_of k).
Proof. intros k [->|[->|[->|[->| ->]]]]; apply power_steady; lia. Qed.
Lemma polynomial_inOut_steady : forall k, polynomial k -> steady (inOut_shape_of k).
Proof. intros k [->|[->|[->|[->| ->]]]]; apply power_steady; lia. Qed.
Lemma num_mono : forall o o' x x' y y', is_num o x -> is_num o' x' -> x <= x' -> o = Ok y -> o' = Ok y' -> y <= y'.
Proof.
  intros o o' x x' y y' (r & E & R) (r' & E' & R') L H H'. rewrite E in H. rewrite E' in H'. injection H as <-. injection H' as <-.
  now rewrite R, R'.
Qed.
Lemma all_steady : forall k t t' b c d, polynomial k -> 0 <= c -> 0 <= t -> t <= t' -> t' <= d -> 0 < d ->
  (forall x x', ease_in k LR t b c d = Ok x -> ease_in k LR t' b c d = Ok x' -> x <= x') /\
  (forall x x', ease_out k LR t b c d = Ok x -> ease_out k LR t' b c d = Ok x' -> x <= x') /\
  (k <> Cubic -> forall x x', ease_inOut k LR t b c d = Ok x -> ease_inOut k LR t' b c d = Ok x' -> x <= x').
Proof.
  intros k t t' b c d K C T L T' D. assert (N : ~ d == 0) by (intros E; lra). split; [|split].
  - intros x x'. exact (num_mono _ _ _ _ x x' (in_spec k t b c d N) (in_spec k t' b c d N) (mono_in _ (polynomial_steady k K) t t' b c d D C T L T')).
  - intros x x'. exact (num_mono _ _ _ _ x x' (out_spec k t b c d N) (out_spec k t' b c d N) (mono_out _ (polynomial_steady k K) t t' b c d D C T L T')).
  - intros NC x x' E E'. destruct (inOut_spec k t b c d NC D) as (y & F & R). destruct (inOut_spec k t' b c d NC D) as (y' & F' & R').
    rewrite E in F. rewrite E' in F'. injection F as <-. injection F' as <-.
    exact (mono_inOut _ (inOut_shape_shape k) (polynomial_inOut_steady k K) t t' b c d x x' D C T L T' R R').
Qed.

Lemma bounce_range : forall u, 0 <= u <= 1 -> 0 <= bounce u <= 1.
Proof. intros u H. unfold bounce. assert (0 <= arcs (1 - u) <= 1) by (apply arcs_range; lra). lra. Qed.
Lemma bounce_bounded : forall t b c d, 0 <= c -> 0 <= t -> t <= d -> 0 < d ->
  (forall x, ease_in Bounce LR t b c d = Ok x -> b <= x <= b + c) /\
  (forall x, ease_out Bounce LR t b c d = Ok x -> b <= x <= b + c) /\
  (forall x, ease_inOut Bounce LR t b c d = Ok x -> b <= x <= b + c).
Proof.
  intros t b c d C T T' D. assert (N : ~ d == 0) by (intros E; lra).
  pose proof (unit_time t d D (conj T T')) as U. split; [|split]; intros x E.
  - destruct (in_spec Bounce t b c d N) as (y & F & R). rewrite E in F. injection F as <-. rewrite R. unfold eased_in.
    cbn [shape_of]. pose proof (bounce_range (t / d) U). nra.
  - destruct (out_spec Bounce t b c d N) as (y & F & R). rewrite E in F. injection F as <-. rewrite R. unfold eased_out.
    cbn [shape_of]. assert (0 <= bounce (1 - t / d) <= 1) by (apply bounce_range; lra). nra.
  - destruct (inOut_spec Bounce t b c d ltac:(discriminate) D) as (y & F & [R1 R2]). rewrite E in F. injection F as <-.
    cbn [inOut_shape_of shape_of] in R1, R2. destruct (Qlt_le_dec (t / d) (1 # 2)) as [A|A].
    + rewrite (R1 A), half_eq. assert (0 <= bounce (2 * (t / d)) <= 1) by (apply bounce_range; lra). nra.
    + rewrite (R2 A), half_eq. assert (0 <= bounce (2 * (1 - t / d)) <= 1) by (apply bounce_range; lra). nra.
Qed.
Lemma bounce_no_jump : forall t t' b c d x x', 0 <= c -> 0 <= t -> t <= t' -> t' <= d -> 0 < d ->
  ease_out Bounce LR t b c d = Ok x -> ease_out Bounce LR t' b c d = Ok x' ->
  Qabs (x' - x) <= (11 # 2) * c * ((t' - t) / d).
Proof.
  intros t t' b c d x x' C T L T' D E E'. assert (N : ~ d == 0) by (intros K; lra).
  destruct (bounce_out_spec LR t b c d N) as (y & F & R). destruct (bounce_out_spec LR t' b c d N) as (y' & F' & R').
  cbn [ease_out] in E, E'. rewrite E in F. rewrite E' in F'. injection F as <-. injection F' as <-.
  pose proof (unit_time t d D). pose proof (unit_time t' d D). pose proof (div_mono t t' d D L).
  destruct (near4 (t / d) (t' / d)) as [A B]; [lra|lra|lra|].
  assert (G : (t' - t) / d == t' / d - t / d) by (field; exact N). rewrite G.
  set (u := t / d) in *. set (v := t' / d) in *. clearbody u v.
  apply Qabs_Qle_condition. rewrite R, R'. split; nra.
Qed.
(** Back leaves the range, below the start, all along the first part of the time. *)
Lemma back_undershoots : forall t b c d, 0 < c -> 0 < d -> 0 < t -> t / d < 170158 # 270158 ->
  exists x, ease_in Back LR t b c d = Ok x /\ x < b.
Proof.
  intros t b c d C D T L. assert (N : ~ d == 0) by (intros E; lra).
  destruct (in_spec Back t b c d N) as (x & E & R). exists x. split; [exact E|]. rewrite R. unfold eased_in. cbn [shape_of].
  assert (0 < t / d) by (apply Qlt_shift_div_l; lra).
  assert (overshoot (170158 # 100000) (t / d) < 0) by (apply overshoot_below; [reflexivity|assumption|]; eapply Qlt_le_trans; [exact L|discriminate]).
  nra.
Qed.

(** ** Mapping *)
Lemma cubic_end : forall o b c d, ~ d == 0 -> is_num (cubic_inOut o d b c d) (b + 2).
Proof.
  intros o b c d N. refine (is_num_eq _ _ _ (cubic_inOut_second o d b c d N _) _).
  - rewrite (div_self d N). discriminate.
  - simpl Qpower. unfold Qpower_positive. simpl pow_pos. field. exact N.
Qed.
(** What the mapping should be: the curve over the distance from the lower end of the input range. *)
Lemma map_zero : forall k i imin imax omin omax, imin == 0 -> 0 < imax - imin ->
  is_num (getMapEased (ease_in k) LR i imin imax omin omax) (eased_in (shape_of k) (i - imin) omin (omax - omin) (imax - imin)) /\
  is_num (getMapEased (ease_out k) LR i imin imax omin omax) (eased_out (shape_of k) (i - imin) omin (omax - omin) (imax - imin)) /\
  (k <> Cubic -> num_with (getMapEased (ease_inOut k) LR i imin imax omin omax)
    (eased_inOut (inOut_shape_of k) (i - imin) omin (omax - omin) (imax - imin))).
Proof.
  intros k i imin imax omin omax Z D. set (d := imax - imin) in *. assert (N : ~ d == 0) by (intros E; lra).
  assert (U : (imin + i) / d == (i - imin) / d) by (rewrite Z; field; exact N).
  destruct (shape_shape k) as [C _]. destruct (inOut_shape_shape k) as [C' _]. split; [|split].
  - refine (is_num_eq _ _ _ (in_spec k (imin + i) omin (omax - omin) d N) _). unfold eased_in. now rewrite (C _ _ U).
  - refine (is_num_eq _ _ _ (out_spec k (imin + i) omin (omax - omin) d N) _). unfold eased_out.
    rewrite (C (1 - (imin + i) / d) (1 - (i - imin) / d)); [reflexivity|]. now rewrite U.
  - intros K. destruct (inOut_spec k (imin + i) omin (omax - omin) d K D) as (r & E & R1 & R2).
    exists r. split; [exact E|]. split; intros A.
    + rewrite R1 by (now rewrite U). rewrite (C' (2 * ((imin + i) / d)) (2 * ((i - imin) / d))); [reflexivity|]. now rewrite U.
    + rewrite R2 by (now rewrite U). rewrite (C' (2 * (1 - (imin + i) / d)) (2 * (1 - (i - imin) / d))); [reflexivity|]. now rewrite U.
Qed.
Lemma map_linear : forall o i imin imax omin omax, ~ imax - imin == 0 ->
  is_num (getMapEased linear_in o i imin imax omin omax) (omin + (omax - omin) * ((imin + i) / (imax - imin))).
Proof.
  intros o i imin imax omin omax H. unfold getMapEased. destruct (linear_in_spec o (imin + i) omin (omax - omin) (imax - imin) H) as (r & E & R).
  exists r. split; [exact E|]. rewrite R. unfold eased_in, power. simpl. reflexivity.
Qed.

Lemma map_linear_start : forall o imin imax omin omax, ~ imax - imin == 0 ->
  (is_num (getMapEased linear_in o imin imin imax omin omax) omin <-> imin == 0 \/ omin == omax).
Proof.
  intros o imin imax omin omax H. destruct (map_linear o imin imin imax omin omax H) as (r & E & R). split.
  - intros (r' & E' & R'). rewrite E in E'. injection E' as <-. rewrite R in R'.
    assert (K : (omax - omin) * imin == 0).
    { assert (X : (omax - omin) * ((imin + imin) / (imax - imin)) == 0) by lra.
      assert (Y : (omax - omin) * imin == (omax - omin) * ((imin + imin) / (imax - imin)) * ((imax - imin) * (1 # 2))) by (field; exact H).
      rewrite Y, X. ring. }
    apply Qmult_integral in K. destruct K as [K|K]; [right; lra|left; exact K].
  - intros [Z|Z]; exists r; (split; [exact E|]); rewrite R.
    + setoid_replace ((imin + imin) / (imax - imin)) with 0; [ring|]. rewrite Z at 1 2. field. exact H.
    + rewrite Z. ring.
Qed.
Lemma map_shifted_wrong : forall k, exists x, getMapEased (ease_in k) LR 1 1 2 0 1 = Ok x /\ ~ x == 0.
Proof. intros []; eexists; (split; [vm_compute; reflexivity|vm_compute; discriminate]). Qed.
Lemma eased_shifted_wrong : forall k, exists x, getEased (ease_in k) LR 1 1 2 = Ok x /\ ~ x == 1.
Proof. intros []; eexists; (split; [vm_compute; reflexivity|vm_compute; discriminate]). Qed.

(** ** Order of evaluation *)
Lemma order_matters :
  (forall k, In k (Quad :: Cubic :: Quart :: Quint :: nil) ->
    exists x y, ease_in k LR 1 0 1 2 = Ok x /\ ease_in k RL 1 0 1 2 = Ok y /\ ~ x == y) /\
  (forall k, In k (Quad :: Cubic :: Quart :: Quint :: Back :: nil) ->
    exists x y, ease_out k LR 1 0 1 2 = Ok x /\ ease_out k RL 1 0 1 2 = Ok y /\ ~ x == y) /\
  (forall k, In k (Quad :: Quart :: Quint :: Back :: nil) ->
    exists x y, ease_inOut k LR (3 # 2) 0 1 2 = Ok x /\ ease_inOut k RL (3 # 2) 0 1 2 = Ok y /\ ~ x == y) /\
  (forall d, ~ d == 0 -> circ_radicand RL (d / 2) d == 0 /\ circ_radicand LR (d / 2) d == 2).
Proof.
  split; [|split; [|split]].
  - intros k H. repeat (destruct H as [<-|H]; [eexists; eexists; (split; [vm_compute; reflexivity|split; [vm_compute; reflexivity|vm_compute; discriminate]])|]). destruct H.
  - intros k H. repeat (destruct H as [<-|H]; [eexists; eexists; (split; [vm_compute; reflexivity|split; [vm_compute; reflexivity|vm_compute; discriminate]])|]). destruct H.
  - intros k H. repeat (destruct H as [<-|H]; [eexists; eexists; (split; [vm_compute; reflexivity|split; [vm_compute; reflexivity|vm_compute; discriminate]])|]). destruct H.
  - intros d N. unfold circ_radicand. cbv zeta. split; field; exact N.
Qed.
