From Coq Require Import String ZArith Bool Lia List Znumtheory.
From Verif Require Import Common PcgModel PcgSpec PcgProofs PcgTopProofs PermModel PermSpec PermProofs PermTopProofs ExtModel ExtSpec ExtCycleProofs.
Import ListNotations.
Local Open Scope Z_scope.

Section TABLE.
Variable p : params.
Hypothesis HP : sound p.
Let B := 2 ^ xb p.
Lemma xb_cases : xb p = 32 \/ xb p = 64.
Proof. apply HP. Qed.
Lemma B_big : 2 ^ 32 <= 2 ^ xb p.
Proof. apply Z.pow_le_mono_r; destruct xb_cases; lia. Qed.
Lemma B_2 : 2 < 2 ^ xb p.
Proof. pose proof B_big. lia. Qed.
Definition out (s : Z) : Z := match rxs_m_xs (om p) (xb p) (xb p) s with Ok x => x | _ => 0 end.
Definition st (x : Z) : Z := match unoutput (ou p) (xb p) x with Ok s => s | _ => 0 end.
Definition inc (i : Z) : Z := (ec p + (2 * i) mod 2 ^ xb p) mod 2 ^ xb p.

Lemma out_facts : (forall s, 0 <= s < B -> rxs_m_xs (om p) (xb p) (xb p) s = Ok (out s) /\ 0 <= out s < B /\ unoutput (ou p) (xb p) (out s) = Ok s) /\
  (forall x, 0 <= x < B -> unoutput (ou p) (xb p) x = Ok (st x) /\ 0 <= st x < B /\ out (st x) = x).
Proof.
  destruct HP as (_ & _ & _ & _ & _ & X & (op & last & I) & J & _). unfold out, st, B.
  destruct (rxs_code _ _ _ _ I) as (u & U & C1 & C2).
  assert (u = ou p) as ->.
  { destruct X as [X|X]; rewrite X in *; cbn [In multipliers rxs_sizes] in I, J, U.
    - assert (om p = 277803737) as M by intuition congruence. assert (u = 2897767785) as -> by intuition congruence. intuition congruence.
    - assert (om p = 12605985483714917081) as M by intuition congruence. assert (u = 15009553638781119849) as -> by intuition congruence. intuition congruence. }
  destruct (rxs_permutes _ _ _ _ I) as (g & G1 & _).
  split.
  - intros s S. destruct (C1 s S) as [E1 E2]. rewrite E1. split; [reflexivity|]. split; [apply G1, S|exact E2].
  - intros x H. destruct (C2 x H) as (s & E1 & S & E2). rewrite E1, E2. now split.
Qed.
Lemma out_zero : out 0 = 0.
Proof.
  destruct HP as (_ & _ & _ & _ & _ & X & (op & last & I) & _). unfold out.
  destruct X as [X|X]; rewrite X in *; cbn [In rxs_sizes] in I.
  - assert (om p = 277803737) as -> by intuition congruence. vm_compute. reflexivity.
  - assert (om p = 12605985483714917081) as -> by intuition congruence. vm_compute. reflexivity.
Qed.
Lemma st_out : forall s, 0 <= s < B -> st (out s) = s.
Proof. intros s S. destruct out_facts as [F _]. destruct (F s S) as (_ & _ & E). unfold st. now rewrite E. Qed.
Lemma inc_good : forall i, good false (em p) (inc i).
Proof.
  intros i. destruct HP as (_ & _ & _ & _ & _ & X & _ & _ & [G1 G2] & _). split; [exact G1|]. unfold inc. 
  assert (E : exists h, 2 ^ xb p = 2 * h) by (destruct X as [-> | ->]; [exists (2 ^ 31)|exists (2 ^ 63)]; reflexivity). destruct E as [h E].
  rewrite Zplus_mod_idemp_r, E.
  pose proof (Z.div_mod (ec p + 2 * i) (2 * h)) as D. pose proof B_2 as B2. rewrite E in B2. specialize (D ltac:(lia)).
  set (r := (ec p + 2 * i) mod (2 * h)) in *.
  replace r with (ec p + (i - h * ((ec p + 2 * i) / (2 * h))) * 2) by lia. rewrite Z.mod_add by lia. exact G2.
Qed.
Lemma inc_range : forall i, 0 <= inc i < 2 ^ xb p.
Proof. intros i. apply Z.mod_pos_bound. pose proof B_2. lia. Qed.
Lemma em_range : 0 <= em p < 2 ^ xb p.
Proof. apply HP. Qed.
Lemma wide_xb : wide (xb p).
Proof. right. destruct xb_cases; lia. Qed.
Lemma zero_state : state (xb p) false 0.
Proof. split; [pose proof B_2; lia|discriminate]. Qed.
Definition val (i k : Z) : Z := out (after (xb p) (em p) (inc i) k 0).
Definition pos (i x : Z) : Z := match distance (xb p) false (em p) (inc i) 0 (st x) with Ok d => d | _ => 0 end.
Lemma after_st : forall i k, state (xb p) false (after (xb p) (em p) (inc i) k 0).
Proof. intros i k. apply (state_after _ false _ _ wide_xb (inc_good i)). exact zero_state. Qed.
Lemma after_wrap : forall i k, 0 <= k -> after (xb p) (em p) (inc i) (k mod B) 0 = after (xb p) (em p) (inc i) k 0.
Proof.
  intros i k K. symmetry. exact (after_period _ false _ _ wide_xb (inc_good i) k 0 zero_state K).
Qed.
Lemma pos_facts : forall i x, 0 <= x < B -> 0 <= pos i x < B /\ after (xb p) (em p) (inc i) (pos i x) 0 = st x /\ val i (pos i x) = x.
Proof.
  intros i x X. destruct out_facts as [_ F]. destruct (F x X) as (_ & S & E).
  destruct (distance_top _ false _ _ wide_xb (inc_good i) em_range (inc_range i) 0 (st x) zero_state) as (d & D1 & D2 & D3).
  { split; [exact S|discriminate]. }
  unfold val, pos. rewrite D1. split; [exact D2|]. split; [exact D3|]. now rewrite D3.
Qed.
Lemma val_facts : forall i k, 0 <= k < B -> 0 <= val i k < B /\ pos i (val i k) = k.
Proof.
  intros i k K. destruct out_facts as [F _]. destruct (after_st i k) as [S _]. destruct (F _ S) as (_ & R & _). split; [exact R|].
  unfold pos, val. rewrite st_out by exact S.
  rewrite (distance_after _ false _ _ wide_xb (inc_good i) em_range (inc_range i) 0 k zero_state) by lia.
  unfold period. now rewrite Z.mod_small.
Qed.
Lemma val_zero : forall i, val i 0 = 0.
Proof. intros i. unfold val. change (after (xb p) (em p) (inc i) 0 0) with 0. exact out_zero. Qed.
Lemma pos_zero : forall i x, 0 <= x < B -> (pos i x = 0 <-> x = 0).
Proof.
  intros i x X. destruct (pos_facts i x X) as (R & _ & V). split; intros E.
  - rewrite E, val_zero in V. lia.
  - subst x. pose proof (proj2 (val_facts i 0 X)) as Q. now rewrite val_zero in Q.
Qed.
Lemma out_after : forall i k, rxs_m_xs (om p) (xb p) (xb p) (after (xb p) (em p) (inc i) k 0) = Ok (val i k).
Proof. intros i k. destruct out_facts as [F _]. destruct (after_st i k) as [S _]. apply (F _ S). Qed.
Lemma step_ok : forall i x, 0 <= x < B -> external_step p x i = Ok (val i ((pos i x + 1) mod B), (pos i x + 1) mod B =? 0).
Proof.
  intros i x X. unfold external_step. destruct out_facts as [_ F]. destruct (F x X) as (E & _ & _). rewrite E. cbn [obind].
  destruct (pos_facts i x X) as (R & A & _).
  unfold expr. replace (xb p <? 32) with false by (destruct xb_cases; lia). cbn [andb obind].
  assert (Q : (st x * em p + ec p + (2 * i) mod 2 ^ xb p) mod 2 ^ xb p = after (xb p) (em p) (inc i) ((pos i x + 1) mod B) 0).
  { rewrite after_wrap by lia. rewrite (Z.add_comm (pos i x) 1), after_add by lia. rewrite A. change (after (xb p) (em p) (inc i) 1 (st x)) with (one_step (xb p) (em p) (inc i) (st x)).
    unfold one_step, inc. rewrite (Zplus_mod_idemp_r (ec p + (2 * i) mod 2 ^ xb p)). f_equal. ring. }
  rewrite Q, out_after. cbn [obind]. f_equal. f_equal.
  assert (K : 0 <= (pos i x + 1) mod B < B) by (apply Z.mod_pos_bound; pose proof B_2; unfold B; lia).
  set (k := (pos i x + 1) mod B) in *. clearbody k. destruct (val_facts i k K) as [V1 V2].
  destruct (Z.eqb_spec (val i k) 0) as [Z0|Z0]; destruct (Z.eqb_spec k 0) as [K0|K0]; try reflexivity; exfalso.
  - apply K0. rewrite <- V2. now apply pos_zero.
  - apply Z0. rewrite K0. apply val_zero.
Qed.
Lemma advance_elem : forall i x delta, 0 <= x < B -> 0 <= delta < B ->
  external_advance p x i delta true = Ok (val i ((pos i x + delta) mod B), (- pos i x) mod B <=? delta) /\
  external_advance p x i delta false = Ok (val i ((pos i x - delta) mod B), pos i x <=? delta).
Proof.
  intros i x delta X D. pose proof B_2 as B2. fold B in B2. destruct out_facts as [_ F]. destruct (F x X) as (E & S & _).
  destruct (pos_facts i x X) as (R & A & _).
  assert (SX : state (xb p) false (st x)) by (split; [exact S|discriminate]).
  assert (DI : distance (xb p) false (em p) (inc i) (st x) 0 = Ok ((- pos i x) mod B)).
  { pose proof (distance_after _ false _ _ wide_xb (inc_good i) em_range (inc_range i) (st x) (B - pos i x) SX ltac:(lia)) as Q.
    rewrite <- A, <- after_add in Q by lia. rewrite Z.sub_add in Q.
    assert (Z0 : after (xb p) (em p) (inc i) B 0 = 0) by (rewrite <- after_wrap by lia; rewrite Z_mod_same_full; reflexivity).
    rewrite Z0, A in Q. rewrite Q. unfold period. fold B. f_equal. replace (B - pos i x) with (- pos i x + 1 * B) by ring. apply Z.mod_add. lia. }
  assert (AD : forall k, 0 <= k < B -> advance_from (xb p) (em p) (inc i) (st x) k = Ok (after (xb p) (em p) (inc i) ((pos i x + k) mod B) 0)).
  { intros k K. change (advance_from (xb p) (em p) (inc i) (st x) k) with (PcgModel.advance (xb p) (em p) (inc i) (st x) k).
    rewrite (advance_ok (xb p) wide_xb (em p) (inc i) (st x) k em_range (inc_range i) S K). f_equal. rewrite after_wrap by lia.
    rewrite (Z.add_comm (pos i x) k), after_add by lia. now rewrite A. }
  split; unfold external_advance; rewrite E; cbn [obind]; fold (inc i); rewrite DI; cbn [obind]; fold B.
  - rewrite AD by exact D. cbn [obind]. rewrite out_after. reflexivity.
  - rewrite AD by (apply Z.mod_pos_bound; lia). cbn [obind]. rewrite out_after. cbn [obind].
    rewrite Zplus_mod_idemp_r. rewrite Z.add_opp_r. f_equal. f_equal. f_equal.
    rewrite <- (Z.sub_0_l ((- pos i x) mod B)). rewrite Zminus_mod_idemp_r. rewrite Z.sub_opp_r. apply Z.mod_small. exact R.
Qed.

(** The table as positions and back. *)
Fixpoint tpos (i : Z) (data : list Z) : list Z := match data with [] => [] | x :: r => pos (i + 1) x :: tpos (i + 1) r end.
Fixpoint tval (i : Z) (ps : list Z) : list Z := match ps with [] => [] | k :: r => val (i + 1) k :: tval (i + 1) r end.
Lemma tpos_length : forall d i, length (tpos i d) = length d.
Proof. induction d; intros; cbn [tpos length]; auto. Qed.
Lemma tval_length : forall d i, length (tval i d) = length d.
Proof. induction d; intros; cbn [tval length]; auto. Qed.
Lemma tpos_range : forall d i, Forall (entry p) d -> Forall (inB B) (tpos i d).
Proof. intros d i F. revert i. induction F as [|x d X F IH]; intros i; cbn [tpos]; constructor; auto. now apply pos_facts. Qed.
Lemma tval_range : forall d i, Forall (inB B) d -> Forall (entry p) (tval i d).
Proof. intros d i F. revert i. induction F as [|x d X F IH]; intros i; cbn [tval]; constructor; auto. now apply val_facts. Qed.
Lemma tval_tpos : forall d i, Forall (entry p) d -> tval i (tpos i d) = d.
Proof. intros d i F. revert i. induction F as [|x d X F IH]; intros i; cbn [tpos tval]; [reflexivity|]. rewrite IH. f_equal. now apply pos_facts. Qed.
Lemma tpos_tval : forall d i, Forall (inB B) d -> tpos i (tval i d) = d.
Proof. intros d i F. revert i. induction F as [|x d X F IH]; intros i; cbn [tpos tval]; [reflexivity|]. rewrite IH. f_equal. now apply val_facts. Qed.
Lemma nth_tval : forall d n i, (n < length d)%nat -> nth n (tval i d) 0 = val (i + 1 + Z.of_nat n) (nth n d 0).
Proof.
  induction d as [|k d IH]; intros [|n] i L; cbn [tval nth length] in *; try lia; [now rewrite Z.add_0_r|]. rewrite IH by lia. f_equal. lia.
Qed.

Lemma advance_table_ok : forall d i cy, Forall (entry p) d -> advance_table_from p i cy d = Ok (tval i (turn B cy (tpos i d))).
Proof.
  intros d i cy F. revert i cy. induction F as [|x d X F IH]; intros i cy; [reflexivity|]. pose proof B_2 as B2. fold B in B2.
  cbn [advance_table_from tpos turn tval]. destruct (pos_facts (i + 1) x X) as (R & _ & _). set (k := pos (i + 1) x) in *.
  destruct cy; cbn [b2].
  - rewrite step_ok by exact X. fold k. cbn [obind]. set (k1 := (k + 1) mod B).
    assert (K1 : 0 <= k1 < B) by (apply Z.mod_pos_bound; lia). destruct (val_facts (i + 1) k1 K1) as [V1 V2].
    rewrite step_ok by exact V1. rewrite V2. cbn [obind]. rewrite IH. cbn [obind].
    assert (E : (k1 + 1) mod B = (k + 1 + 1) mod B) by (unfold k1; apply Zplus_mod_idemp_l). rewrite E.
    assert (C : (k1 =? 0) || ((k + 1 + 1) mod B =? 0) = (B <=? k + 1 + 1)).
    { destruct (Z.leb_spec B (k + 1 + 1)) as [L|L].
      - destruct (Z.eq_dec k (B - 1)) as [KE|N].
        + replace k1 with 0 by (unfold k1; rewrite KE; replace (B - 1 + 1) with B by ring; now rewrite Z_mod_same_full). reflexivity.
        + replace (k + 1 + 1) with B by lia. rewrite Z_mod_same_full. rewrite orb_true_r. reflexivity.
      - unfold k1. rewrite !Z.mod_small by lia. replace (k + 1 =? 0) with false by lia. replace (k + 1 + 1 =? 0) with false by lia. reflexivity. }
    now rewrite C.
  - cbn [obind]. rewrite step_ok by exact X. fold k. cbn [obind]. rewrite IH. cbn [obind orb]. rewrite Z.add_0_r.
    assert (C : ((k + 1) mod B =? 0) = (B <=? k + 1)).
    { destruct (Z.leb_spec B (k + 1)) as [L|L].
      - replace (k + 1) with B by lia. now rewrite Z_mod_same_full.
      - rewrite Z.mod_small by lia. apply Z.eqb_neq. lia. }
    now rewrite C.
Qed.
Definition T (ps : list Z) (A : Z) : list Z := tval 0 (spin B A A ps).
Lemma T_table : forall ps A, Forall (entry p) (T ps A).
Proof. intros ps A. apply tval_range. pose proof B_2. apply spin_range. unfold B. lia. Qed.
Lemma T_length : forall ps A, length (T ps A) = length ps.
Proof. intros ps A. unfold T. rewrite tval_length. apply spin_length. Qed.
Lemma advance_T : forall ps A, advance_table p (T ps A) = Ok (T ps (A + 1)).
Proof.
  intros ps A. pose proof B_2 as B2. unfold advance_table. rewrite advance_table_ok by apply T_table. unfold T.
  rewrite tpos_tval by (apply spin_range; unfold B; lia). rewrite turn_spin by (unfold B; lia). cbn [b2]. now rewrite Z.add_0_r.
Qed.
Lemma T_zero : forall t, Forall (entry p) t -> T (tpos 0 t) 0 = t.
Proof. intros t F. unfold T. rewrite spin_zero by (apply tpos_range; exact F). now apply tval_tpos. Qed.
Lemma T_id : forall t A, Forall (entry p) t -> (T (tpos 0 t) A = t <-> (B ^ Z.of_nat (length t) | A)).
Proof.
  intros t A F. pose proof B_2 as B2. rewrite <- (tpos_length t 0). rewrite <- (spin_id B ltac:(unfold B; lia) (tpos 0 t) A (tpos_range t 0 F)). split.
  - intros E. apply (f_equal (tpos 0)) in E. unfold T in E. rewrite tpos_tval in E; [exact E|]. apply spin_range. unfold B. lia.
  - intros E. unfold T. rewrite E. now apply tval_tpos.
Qed.
End TABLE.
