From Coq Require Import String ZArith Bool Lia List Znumtheory.
From Verif Require Import Common PcgModel PcgSpec PcgProofs PcgTopProofs PermModel PermSpec PermProofs PermTopProofs ExtModel ExtSpec ExtCycleProofs ExtProofs ExtDrawProofs ExtPeriodProofs ExtKdProofs ExtJumpProofs ExtTopProofs.
Import ListNotations.
Local Open Scope Z_scope.

Section BACK.
Variable p : params.
Hypothesis HP : sound p.
Let B := 2 ^ xb p.
Notation step := (one_step (w p) (m p) (c p)).
Notation aft := (after (w p) (m p) (c p)).
Notation isstate := (state (w p) (is_mcg p)).
Notation sh := (sh (is_mcg p)).
Notation low := (low (is_mcg p)).
Notation total := (total p).
Notation M := (2 ^ advance_pow2 p).

(** ** A single draw *)
Lemma aft1 : forall s, aft 1 s = step s.
Proof. reflexivity. Qed.
Lemma st_div : forall s, st' p s = s / (if kdd p && is_mcg p then 4 else 1).
Proof. intros s. unfold st'. destruct (kdd p && is_mcg p); [rewrite Z.shiftr_div_pow2 by lia; reflexivity|now rewrite Z.div_1_r]. Qed.
Lemma slot_is : forall s, idx p s = slot p s.
Proof.
  intros s. destruct HP as (W & _ & _ & _ & _ & _ & _ & _ & _ & _ & _ & TP & TW & _).
  unfold idx, slot. rewrite st_div. destruct (kdd p); cbn [andb].
  - unfold table_mask. now rewrite land_mask by lia.
  - rewrite Z.div_1_r. unfold table_shift. rewrite Z.shiftr_div_pow2; [reflexivity|]. destruct (is_mcg p); lia.
Qed.
Lemma tick_is : forall s, tick p s = true <-> turns p s.
Proof.
  intros s. unfold turns. destruct (may_tick p) eqn:MT; [|unfold tick; rewrite MT; cbn [andb]; split; [discriminate|intros [H _]; discriminate]].
  destruct (kdd p) eqn:KD.
  - rewrite (tick_turnover p HP s KD MT). tauto.
  - unfold tick. rewrite MT, KD. cbn [andb]. rewrite Z.eqb_eq, st_div, KD. cbn [andb]. rewrite Z.div_1_r. unfold tick_shift.
    destruct (ap_facts p HP) as [A A']. specialize (A' MT). pose proof (sh_pos (is_mcg p)). rewrite Z.shiftr_div_pow2 by lia. tauto.
Qed.
Lemma tock_is : forall s, tock p s = true <-> turns_again p s.
Proof. intros s. unfold tock, turns_again. rewrite andb_true_iff, Z.eqb_eq, st_div. tauto. Qed.
Lemma turned_T : forall ps A, Z.of_nat (length ps) = 2 ^ table_pow2 p -> turned p 0 0 (T p ps A) (T p ps (A + 1)).
Proof.
  intros ps A L. destruct (turned_ok p HP (T p ps A)) as (t' & E & _ & TU & _); [split; [now rewrite T_length|now apply T_table]|].
  rewrite advance_T in E by exact HP. injection E as <-. exact TU.
Qed.
Lemma draw_top : forall s t, ready p (s, t) -> exists t1 t2, ready p (aft 1 s, t2) /\
  draw p (s, t) = Ok ((aft 1 s, t2), Z.lxor (output p (if output_previous p then s else aft 1 s)) (nth (Z.to_nat (slot p s)) t2 0)) /\
  0 <= slot p s < 2 ^ table_pow2 p /\
  (turns p s -> turned p 0 0 t t1) /\ (~ turns p s -> t1 = t) /\ (turns_again p s -> turned p 0 0 t1 t2) /\ (~ turns_again p s -> t2 = t1).
Proof.
  intros s t [S [L F]]. cbn [fst snd] in *. set (ps := tpos p 0 t).
  assert (LP : Z.of_nat (length ps) = 2 ^ table_pow2 p) by (unfold ps; now rewrite tpos_length).
  assert (TZ : T p ps 0 = t) by (now apply T_zero).
  pose proof (draw_T p HP ps 0 s S LP) as D. rewrite TZ in D. unfold look in D. rewrite slot_is in D.
  exists (T p ps (b2 (tick p s))), (T p ps (0 + adv p s)). split; [split; [now apply state_step|split; cbn [snd]; [now rewrite T_length|now apply T_table]]|].
  split; [exact D|]. split; [rewrite <- slot_is; now apply idx_range|].
  pose proof (tick_is s) as TI. pose proof (tock_is s) as TO. unfold adv.
  destruct (tick p s); cbn [b2].
  - split; [intros _; rewrite <- TZ; now apply turned_T|]. split; [intros N; destruct N; now apply TI|].
    destruct (tock p s); cbn [b2].
    + split; [intros _; now apply (turned_T ps 1)|]. intros N; destruct N; now apply TO.
    + split; [intros H; apply TO in H; discriminate|]. reflexivity.
  - split; [intros H; apply TI in H; discriminate|]. split; [intros _; exact TZ|].
    destruct (tock p s); cbn [b2].
    + split; [intros _; now apply (turned_T ps 0)|]. intros N; destruct N; now apply TO.
    + split; [intros H; apply TO in H; discriminate|]. reflexivity.
Qed.
(** Outputs are the low or high bits of tables; a turned table is a table, found once. *)
Lemma turned_only : forall t, table p t -> exists t', table p t' /\ turned p 0 0 t t' /\ (forall t2, turned p 0 0 t t2 -> t2 = t') /\ t' <> t.
Proof.
  intros t TT. destruct (turned_ok p HP t TT) as (t' & E & TT' & TU & U). exists t'. split; [exact TT'|]. split; [exact TU|]. split; [exact U|].
  destruct TT as [L F]. intros EQ. rewrite EQ in E. pose proof (advance_T p HP (tpos p 0 t) 0) as A. rewrite T_zero, E in A by (exact HP || exact F). injection A as A.
  symmetry in A. apply (T_id p HP) in A; [|exact F]. destruct A as [k K]. pose proof (B_big p HP) as B2. fold B in B2, K.
  destruct HP as (_ & _ & _ & _ & _ & _ & _ & _ & _ & _ & _ & TP & _). assert (0 < 2 ^ table_pow2 p) by (apply Z.pow_pos_nonneg; lia).
  clearbody B. assert (B ^ 1 <= B ^ Z.of_nat (length t)). { rewrite L. apply Z.pow_le_mono_r; [lia|]. apply Z.lt_pred_le. exact H. } rewrite Z.pow_1_r in *. set (X := B ^ Z.of_nat (length t)) in *. clearbody X. assert (1 < X) by lia. assert (k <= 0 \/ 1 <= k) as [Q|Q] by lia; nia.
Qed.

(** ** Back *)
Lemma base_back : forall s n, isstate s -> 0 <= n < 2 ^ w p -> PcgModel.advance (w p) (m p) (c p) (aft n s) ((- n) mod 2 ^ w p) = Ok s.
Proof.
  intros s n S N. pose proof (backstep_top (w p) (is_mcg p) (m p) (c p) (wide_w p HP) (good_base p HP) (m_range p HP) (c_range p HP) s n S N) as [E _].
  rewrite (advance_ok (w p) (wide_w p HP) (m p) (c p) s n (m_range p HP) (c_range p HP) (proj1 S) N) in E. cbn [obind] in E. exact E.
Qed.
(** The number of turns [backstep] takes back: [n / M], one more if [e] < [n mod M], where [e] is how far back the last turnover is. *)
Lemma back_form : forall s n dt t', isstate s -> kdd p = true -> may_tick p = true -> may_tock p = false -> 0 <= n < 2 ^ w p ->
  0 <= dt < M -> (forall k, 0 <= k -> (low (advance_pow2 p) (aft k s) = 0 <-> (M | k - dt))) ->
  backstep p (aft n s, t') n = obind (let ti := n / M + (if (n - dt) mod M <? n mod M then 1 else 0) in if ti =? 0 then Ok t' else advance_table_by p ti false t') (fun d => Ok (s, d)).
Proof.
  intros s n dt t' S KD MT MK N Dt Ht. unfold backstep, advance. rewrite KD, MT, MK. cbn [negb andb]. fold (zero p (aft n s)). fold (amask p).
  pose proof (w_big p HP) as HW. destruct (ap_facts p HP) as [A A']. specialize (A' MT). pose proof (sh_pos (is_mcg p)) as SH.
  assert (S' : isstate (aft n s)) by (apply state_after; [apply (wide_w p HP)|apply (good_base p HP)|exact S]).
  destruct (next_turn p HP _ S' MT) as (d & E & D & L0). rewrite E. cbn [obind]. cbv zeta.
  rewrite (tick_mask_is p HP MT), !land_mask by lia. rewrite shiftr_ap by exact HP.
  assert (AA : aft d (aft n s) = aft (n + d) s).
  { unfold after. rewrite <- iter_add. f_equal. lia. }
  rewrite AA in L0. apply (Ht (n + d) ltac:(lia)) in L0.
  assert (MP : 0 < M) by (apply Z.pow_pos_nonneg; lia).
  assert (PD : (M | 2 ^ w p)) by (exists (2 ^ (w p - advance_pow2 p)); rewrite <- Z.pow_add_r by lia; f_equal; lia).
  assert (EE : ((- d) mod 2 ^ w p) mod M = (n - dt) mod M).
  { rewrite <- (Znumtheory.Zmod_div_mod M (2 ^ w p) (- d) MP ltac:(lia) PD). destruct L0 as [k K].
    replace (n - dt) with (- d + k * M) by lia. now rewrite Z.mod_add by lia. }
  rewrite EE. pose proof (ticks_bound p HP n MT N) as TB. assert (PW : 2 ^ w p = 4 * 2 ^ (w p - 2)) by (change 4 with (2 ^ 2); rewrite <- Z.pow_add_r by lia; f_equal; lia).
  rewrite (Z.mod_small (n / M + 1)) by lia.
  replace (if (n - dt) mod M <? n mod M then n / M + 1 else n / M) with (n / M + (if (n - dt) mod M <? n mod M then 1 else 0)) by (destruct ((n - dt) mod M <? n mod M); lia).
  rewrite base_back by assumption.
  destruct (if n / M + _ =? 0 then _ else _); reflexivity.
Qed.
Lemma backstep_top : forall s t n, kdd p = true -> may_tock p = false -> ready p (s, t) -> 0 <= n < 2 ^ w p -> Forall (fun x => x <> 0) t ->
  (may_tick p = true -> (M | n) \/ ~ turnover p s /\ ~ turnover p (aft n s)) ->
  exists g rs, draws p (Z.to_nat n) (s, t) = Ok (g, rs) /\ backstep p g n = Ok (s, t).
Proof.
  intros s t n KD MK [S [L F]] N NZ C. cbn [fst snd] in *. eexists _, _. split; [apply draws_t; [exact HP|exact S|now split]|].
  destruct (total_formula p HP s KD S) as (dt & dk & Ht & _ & _ & TOT). specialize (TOT (Z.to_nat n)). rewrite Z2Nat.id in TOT by lia. rewrite MK, Z.add_0_r in TOT.
  change (Nat.iter (Z.to_nat n) step s) with (aft n s). rewrite TOT. clear TOT. destruct (may_tick p) eqn:MT.
  - destruct (Ht eq_refl) as [Dt Ht']. rewrite (back_form s n dt _ S KD MT MK N Dt Ht'). rewrite (hits_is p M dt n Dt). cbv zeta.
    assert (MP : 0 < M) by lia. pose proof (Z.mod_pos_bound n M MP) as R. pose proof (Z.div_mod n M ltac:(lia)) as E.
    assert (EQ : ((n - dt) mod M <? n mod M) = (dt <? n mod M)).
    { destruct (C eq_refl) as [DV|[N1 N2]].
      - apply (proj2 (Z.mod_divide n M ltac:(lia))) in DV. rewrite DV. pose proof (Z.mod_pos_bound (n - dt) M MP). lia.
      - rewrite (turnover_low p) in N1, N2. assert (D0 : dt <> 0).
        { intros Q. apply N1. pose proof (proj2 (Ht' 0 ltac:(lia))) as X. apply X. rewrite Q. apply Z.divide_0_r. }
        assert (D1 : (n - dt) mod M <> 0).
        { intros Q. apply N2. apply Ht'; [lia|]. now apply Z.mod_divide; [lia|]. }
        assert (E2 : (n - dt) mod M = (n mod M - dt) mod M) by (symmetry; apply Zminus_mod_idemp_l). rewrite E2 in *.
        set (r := n mod M) in *. clearbody r. destruct (Z.ltb_spec dt r).
        + rewrite Z.mod_small by lia. lia.
        + assert (dt <> r) by (intros ->; rewrite Z.sub_diag, Z.mod_0_l in D1 by lia; lia).
          rewrite <- (Z.mod_unique (r - dt) M (-1) (r - dt + M)) by lia. lia. }
    rewrite EQ. pose proof (ticks_bound p HP n MT N) as TB. pose proof (w_big p HP) as HW.
    assert (TB2 : 0 <= n / M + (if dt <? n mod M then 1 else 0) <= 2 ^ (w p - 2)) by (destruct (dt <? n mod M); lia).
    set (ti := n / M + (if dt <? n mod M then 1 else 0)) in *. clearbody ti. destruct (Z.eqb_spec ti 0) as [->|NT]; [cbn [obind]; now rewrite T_zero|].
    unfold advance_table_by. assert (PW1 : 2 ^ (w p - 1) = 2 * 2 ^ (w p - 2)) by (rewrite <- Z.pow_succ_r by lia; f_equal; lia).
    assert (0 < 2 ^ (w p - 2)) by (apply Z.pow_pos_nonneg; lia).
    unfold T. fold B. pose proof (by_backward p HP (tpos p 0 t) 0 0 ti (pos_nz p HP t 0 F NZ) ltac:(lia) ltac:(lia) ltac:(lia)) as Q. fold B in Q. rewrite Z.add_0_l in Q. rewrite Q. cbn [obind].
    now rewrite tval_tpos.
  - unfold backstep, advance. rewrite KD, MT, MK. cbn [negb andb obind]. rewrite base_back by assumption. cbn [obind]. now rewrite T_zero.
Qed.
(** Exactly one wrong step: taking back the draw made at a turnover leaves the table turned. *)
Lemma backstep_bad : forall s t, kdd p = true -> may_tick p = true -> may_tock p = false -> ready p (s, t) -> turnover p s ->
  exists g r t', draw p (s, t) = Ok (g, r) /\ backstep p g 1 = Ok (s, t') /\ turned p 0 0 t t' /\ t' <> t.
Proof.
  intros s t KD MT MK RD TV. destruct (draw_top s t RD) as (t1 & t2 & RD' & E & _ & H1 & _ & _ & H4).
  assert (TU : turns p s) by (split; [exact MT|now rewrite KD]).
  assert (NA : ~ turns_again p s) by (intros [Q _]; rewrite MK in Q; discriminate). rewrite (H4 NA) in *. specialize (H1 TU).
  destruct RD as [S TT]. cbn [fst snd] in *.
  destruct (turned_only t TT) as (u & _ & TU2 & UU & NE). assert (t1 = u) as <- by now apply UU.
  eexists _, _, t1. split; [exact E|]. split; [|split; [exact TU2|exact NE]].
  destruct (total_formula p HP s KD S) as (dt & dk & Ht & _). destruct (Ht MT) as [Dt Ht'].
  apply (turnover_low p) in TV. pose proof (proj1 (Ht' 0 ltac:(lia)) TV) as D0.
  assert (dt = 0) as -> by (symmetry; apply (same_phase p M); [lia|lia|exact D0]).
  pose proof (w_big p HP) as HW. destruct (ap_facts p HP) as [A _]. assert (2 ^ 2 <= M) by (apply Z.pow_le_mono_r; lia). assert (2 ^ 2 <= 2 ^ w p) by (apply Z.pow_le_mono_r; lia).
  rewrite (back_form s 1 0 t1 S KD MT MK ltac:(lia) Dt Ht'). rewrite Z.sub_0_r, Z.ltb_irrefl. rewrite (Z.div_small 1 M) by lia. reflexivity.
Qed.
(** For bases that are not multiplicative and turn again at 0: no step at all from 0 turns the table. *)
Lemma advance_bad : forall t, kdd p = true -> may_tock p = true -> is_mcg p = false -> table p t ->
  exists t', advance p (0, t) 0 true = Ok (0, t') /\ turned p 0 0 t t' /\ t' <> t.
Proof.
  intros t KD MK NM TT. assert (S : isstate 0) by (pose proof (w_big p HP); split; [split; [lia|apply Z.pow_pos_nonneg; lia]|intros Q; rewrite NM in Q; discriminate]).
  pose proof (w_big p HP) as HW. assert (WP : 0 < 2 ^ w p) by (apply Z.pow_pos_nonneg; lia).
  destruct (turned_ok p HP t TT) as (t' & AE & _ & TU & U). destruct (turned_only t TT) as (u & _ & TU2 & UU & NE). assert (t' = u) as -> by now apply UU.
  exists u. split; [|now split]. unfold advance. rewrite KD, MK. cbn [negb andb]. fold (zero p 0). fold (amask p).
  assert (X : (if may_tick p then
       let ticks := Z.shiftr 0 (advance_pow2 p) in
       obind (masked_distance p 0 (zero p 0) (amask p)) (fun next =>
       let ticks := if next <? Z.land 0 (tick_mask p) then (ticks + 1) mod 2 ^ w p else ticks in
       if ticks =? 0 then Ok t else advance_table_by p ticks true t) else Ok t) = Ok t).
  { destruct (may_tick p) eqn:MT; [|reflexivity]. destruct (next_turn p HP 0 S MT) as (d & E & D & _). cbv zeta. rewrite E. cbn [obind].
    rewrite Z.land_0_l. replace (d <? 0) with false by lia. rewrite Z.shiftr_0_l. reflexivity. }
  match goal with |- obind ?Y _ = _ => replace Y with (Ok t) by (symmetry; exact X) end. cbn [obind].
  destruct (distance_top (w p) (is_mcg p) (m p) (c p) (wide_w p HP) (good_base p HP) (m_range p HP) (c_range p HP) 0 (zero p 0) S (proj1 (zero_ok p HP 0 S))) as (d & E & D & AD).
  rewrite E. cbn [obind]. assert (d = 0) as ->.
  { unfold zero in AD. rewrite NM in AD. rewrite period_is in D by exact p. unfold PcgProofs.sh in D. rewrite NM, Z.sub_0_r in D.
    pose proof (proj1 (period_top (w p) (is_mcg p) (m p) (c p) (wide_w p HP) (good_base p HP) d 0 S ltac:(lia)) AD) as [k K].
    rewrite period_is in K by exact p. unfold PcgProofs.sh in K. rewrite NM, Z.sub_0_r in K. assert (k = 0) by nia. lia. }
  change (0 <=? 0) with true. cbv iota. rewrite AE. cbn [obind].
  rewrite (advance_ok (w p) (wide_w p HP) (m p) (c p) 0 0 (m_range p HP) (c_range p HP) (conj (Z.le_refl 0) WP) (conj (Z.le_refl 0) WP)). reflexivity.
Qed.

(** ** set *)
Lemma set_top : forall s t x, kdd p = true -> may_tock p = false -> ready p (s, t) -> entry p x ->
  (may_tick p = true -> ~ turnover p s /\ ~ turnover p (aft 1 s)) ->
  exists g, set p x (s, t) = Ok g /\ ready p g /\ obind (backstep p g 1) (draw p) = Ok (g, x) /\
    fst g = aft 1 s /\ length (snd g) = length t /\ forall i, i <> Z.to_nat (slot p s) -> nth i (snd g) 0 = nth i t 0.
Proof.
  intros s t x KD MK [HS [L F]] X C. cbn [fst snd] in *.
  assert (NT : adv p s = 0).
  { unfold adv. assert (tick p s = false) as ->.
    { destruct (tick p s) eqn:Q; [|reflexivity]. apply tick_is in Q. destruct Q as [MT Q]. rewrite KD in Q. now destruct (C MT) as [N1 _]. }
    unfold tock. rewrite MK. reflexivity. }
  pose proof (idx_range p HP s HS) as IR. pose proof (lhs_range p HP s HS) as LR. fold B in LR.
  set (i := Z.to_nat (idx p s)). set (v := Z.lxor (lhs p s) x).
  set (t2 := firstn i t ++ v :: skipn (S i) t).
  assert (IL : (i < length t)%nat) by lia.
  assert (V : 0 <= v < B) by (apply (lxor_B p HP); [exact LR|exact X]).
  assert (L2 : length t2 = length t) by (unfold t2; rewrite app_length, firstn_length; cbn [length]; rewrite skipn_length; lia).
  assert (F2 : Forall (entry p) t2).
  { unfold t2. apply Forall_app. split; [|constructor; [exact V|]]; apply Forall_forall; intros y Y; (eapply Forall_forall; [exact F|]).
    - rewrite <- (firstn_skipn i t); apply in_or_app; now left.
    - rewrite <- (firstn_skipn (S i) t). apply in_or_app. now right. }
  assert (N2 : nth i t2 0 = v).
  { unfold t2. rewrite app_nth2; rewrite firstn_length, Nat.min_l by lia; [|lia]. now rewrite Nat.sub_diag. }
  assert (GV : forall u, Forall (entry p) u -> get_extended_value p (s, u) = Ok (idx p s, u)).
  { intros u FU. pose proof (gev p HP (tpos p 0 u) 0 s) as G. rewrite NT, Z.add_0_r, (T_zero p HP u FU) in G. exact G. }
  exists (step s, t2). split.
  { unfold set. rewrite (GV t F). cbn [obind fst]. rewrite (read_ok p HP t s HS L). cbn [obind]. rewrite (base_ok p HP s HS). reflexivity. }
  split; [split; [now apply state_step|split; [cbn [snd]; now rewrite L2|exact F2]]|].
  split.
  { assert (BK : backstep p (step s, t2) 1 = Ok (s, t2)).
    { pose proof (w_big p HP) as HW. destruct (ap_facts p HP) as [A _]. assert (2 ^ 2 <= M) by (apply Z.pow_le_mono_r; lia). assert (2 ^ 2 <= 2 ^ w p) by (apply Z.pow_le_mono_r; lia).
      change (step s) with (aft 1 s). destruct (may_tick p) eqn:MT.
      - destruct (C eq_refl) as [_ N1]. destruct (total_formula p HP s KD HS) as (dt & dk & Ht & _). destruct (Ht MT) as [Dt Ht'].
        rewrite (back_form s 1 dt t2 HS KD MT MK ltac:(lia) Dt Ht'). rewrite (Z.div_small 1 M), (Z.mod_small 1 M) by lia.
        rewrite (turnover_low p) in N1. assert ((1 - dt) mod M <> 0).
        { intros Q. apply N1. apply Ht'; [lia|]. now apply Z.mod_divide; [lia|]. }
        pose proof (Z.mod_pos_bound (1 - dt) M ltac:(lia)). replace ((1 - dt) mod M <? 1) with false by lia. reflexivity.
      - unfold backstep, advance. rewrite KD, MT, MK. cbn [negb andb obind]. rewrite base_back by (auto; lia). reflexivity. }
    rewrite BK. cbn [obind]. unfold draw. rewrite (GV t2 F2). cbn [obind fst]. rewrite (read_ok p HP t2 s HS) by (now rewrite L2). cbn [obind].
    rewrite (base_ok p HP s HS). cbn [obind]. unfold look. fold i. rewrite N2. unfold v. now rewrite <- Z.lxor_assoc, Z.lxor_nilpotent, Z.lxor_0_l. }
  split; [reflexivity|]. split; [exact L2|]. cbn [snd]. rewrite <- slot_is. fold i. intros j J. unfold t2.
  destruct (Nat.lt_ge_cases j i).
  - rewrite app_nth1 by (rewrite firstn_length; lia). rewrite <- (firstn_skipn i t) at 2. rewrite app_nth1 by (rewrite firstn_length; lia). reflexivity.
  - rewrite app_nth2 by (rewrite firstn_length; lia). rewrite firstn_length, Nat.min_l by lia.
    rewrite <- (firstn_skipn (S i) t) at 2. rewrite app_nth2 by (rewrite firstn_length; lia). rewrite firstn_length, Nat.min_l by lia.
    replace (j - i)%nat with (S (j - S i)) by lia. reflexivity.
Qed.
End BACK.
