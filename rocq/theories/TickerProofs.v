(** Proofs about the ticker. *)
From Coq Require Import ZArith NArith Arith Bool Lia List SpecFloat.
From Verif Require Import ListAux JsonExactProofs RoundProofs Round32Proofs TickerModel TickerSpec.
Import ListNotations.

Section Gen.
  Context (O : ft_ops).
  Notation F := (FT O).

  Lemma trun_app : forall a b t, trun O (a ++ b) t =
    let '(t1, r1) := trun O a t in let '(t2, r2) := trun O b t1 in (t2, r1 ++ r2).
  Proof.
    induction a as [|o a IH]; intros b t; cbn [trun app].
    - destruct (trun O b t). reflexivity.
    - destruct (tstep O o t) as [t1 r]. rewrite IH. destruct (trun O a t1) as [t2 rs].
      destruct (trun O b t2). reflexivity.
  Qed.

  Lemma last_tick_app : forall a b i, i <= length a -> last_tick (a ++ b) i = last_tick a i.
  Proof.
    intros a b i. induction i as [|i IH]; intros H; cbn [last_tick]; [reflexivity|].
    rewrite app_nth1 by lia. rewrite IH by lia. reflexivity.
  Qed.
  Lemma last_tick_le : forall r i, last_tick r i <= i.
  Proof. intros r i. induction i as [|i IH]; cbn; [lia|]. destruct (nth i r false); lia. Qed.

  Lemma fsum_snoc : forall l x, fsum O (l ++ [x]) = fadd O (fsum O l) x.
  Proof. intros. unfold fsum. rewrite fold_left_app. reflexivity. Qed.

  Lemma firstn_snoc_lt : forall {A} (l : list A) x i, i <= length l -> firstn i (l ++ [x]) = firstn i l.
  Proof. intros A l x i H. rewrite firstn_app. replace (i - length l) with 0 by lia. cbn. apply app_nil_r. Qed.

  Lemma tick_times : forall tgt l, (forall x, In x l -> fmulb O x true = x) ->
    exists t bs, trun O (map (TUpdate O) l) (new_ticker O tgt true) = (t, map Some bs)
      /\ length bs = length l
      /\ (forall i, i < length l ->
            nth i bs false = negb (flt O (fsum O (skipn (last_tick bs i) (firstn (S i) l))) tgt))
      /\ ticks t = (N.of_nat (count_true bs) mod SIZE_WRAP)%N
      /\ total t = fsum O l
      /\ current t = fsum O (skipn (last_tick bs (length l)) l)
      /\ target t = tgt /\ running t = true /\ loop t = true.
  Proof.
    intros tgt l. induction l as [|x l IH] using rev_ind; intros M.
    - exists (new_ticker O tgt true), []. cbn. repeat split; auto. intros i H. lia.
    - destruct IH as (t & bs & E & L & T & K & Tot & C & Tg & R & Lp).
      { intros y Hy. apply M, in_or_app. left. exact Hy. }
      assert (Mx : fmulb O x true = x) by (apply M, in_or_app; right; left; reflexivity).
      rewrite map_app, trun_app, E. cbn [map trun tstep]. unfold update. rewrite R, Mx, Tg, C, Tot.
      assert (S1 : skipn (last_tick bs (length l)) (l ++ [x]) = skipn (last_tick bs (length l)) l ++ [x]).
      { rewrite skipn_app. pose proof (last_tick_le bs (length l)).
        replace (last_tick bs (length l) - length l) with 0 by lia. reflexivity. }
      assert (Old : forall b i, i < length l -> nth i (bs ++ [b]) false
        = negb (flt O (fsum O (skipn (last_tick (bs ++ [b]) i) (firstn (S i) (l ++ [x])))) tgt)).
      { intros b i Hi. rewrite app_nth1 by lia. rewrite last_tick_app, firstn_snoc_lt by lia. auto. }
      assert (New : forall b, last_tick (bs ++ [b]) (length l) = last_tick bs (length l))
        by (intros b; apply last_tick_app; lia).
      assert (Last : forall b, nth (length l) (bs ++ [b]) false = b)
        by (intros b; rewrite app_nth2, L, Nat.sub_diag by lia; reflexivity).
      rewrite <- fsum_snoc, <- S1.
      destruct (flt O (fsum O (skipn (last_tick bs (length l)) (l ++ [x]))) tgt) eqn:Q.
      + eexists _, (bs ++ [false]). rewrite map_app. split; [reflexivity|].
        rewrite !app_length. cbn [length]. split; [lia|]. split; [|split; [|split; [|split; [|auto]]]]; cbn [ticks total current].
        * intros i Hi. destruct (Nat.eq_dec i (length l)) as [->|N]; [|apply Old; lia].
          rewrite Last, New. rewrite firstn_all2 by (rewrite app_length; cbn; lia). rewrite Q. reflexivity.
        * unfold count_true. rewrite filter_app, app_length. cbn. rewrite Nat.add_0_r. exact K.
        * symmetry. apply fsum_snoc.
        * rewrite Nat.add_1_r. cbn [last_tick]. rewrite Last, New. reflexivity.
      + eexists _, (bs ++ [true]). rewrite map_app. split; [reflexivity|].
        rewrite !app_length. cbn [length]. split; [lia|]. split; [|split; [|split; [|split; [|auto]]]]; cbn [ticks total current].
        * intros i Hi. destruct (Nat.eq_dec i (length l)) as [->|N]; [|apply Old; lia].
          rewrite Last, New. rewrite firstn_all2 by (rewrite app_length; cbn; lia). rewrite Q. reflexivity.
        * unfold count_true. rewrite filter_app, app_length. cbn [filter length]. rewrite K.
          rewrite N.add_mod_idemp_l by (unfold SIZE_WRAP; lia). f_equal. unfold count_true. lia.
        * symmetry. apply fsum_snoc.
        * rewrite Nat.add_1_r. cbn [last_tick]. rewrite Last. rewrite skipn_all2 by (rewrite app_length; cbn; lia). reflexivity.
  Qed.

  Lemma one_shot_quiet : forall t l, (forall x, In x l -> fadd O (current t) (fmulb O x false) = current t /\ fadd O (total t) (fmulb O x false) = total t) ->
    running t = false -> flt O (current t) (target t) = true ->
    trun O (map (TUpdate O) l) t = (t, map (fun _ => Some false) l).
  Proof.
    intros t l HZ R Q. induction l as [|x l IH]; cbn [map trun tstep]; [reflexivity|].
    destruct (HZ x (or_introl eq_refl)) as [Z1 Z2]. specialize (IH (fun y H => HZ y (or_intror H))).
    unfold update. rewrite R, Z1, Z2, Q. destruct t as [tg c tot r lp k]. cbn in *. subst r. rewrite IH. reflexivity.
  Qed.

  Lemma one_shot : forall P t ft t' l, steady O P (ft :: l) -> P (total t) ->
    loop t = false -> flt O (fzero O) (target t) = true -> update O ft t = (t', true) ->
    running t' = false /\ trun O (map (TUpdate O) l) t' = (t', map (fun _ => Some false) l).
  Proof.
    intros P t ft t' l [P0 HS] Pt L Q H. unfold update in H. destruct (flt O _ _) in H; [discriminate|]. injection H as <-.
    cbn [running]. split; [exact L|]. apply one_shot_quiet; cbn; auto. intros x Hx. split.
    - apply HS; [exact P0|right; exact Hx].
    - apply HS; [|right; exact Hx]. destruct (HS (total t) ft Pt (or_introl eq_refl)) as (E1 & E2 & E3).
      destruct (running t); [rewrite E1; exact E3|rewrite E2; exact Pt].
  Qed.

  Lemma total_running : forall P ops t, steady O P (times O ops) -> P (total t) ->
    ~ In (TResetTotal O) ops -> ~ In (TResetAll O) ops ->
    total (fst (trun O ops t)) = fold_left (fadd O) (running_times O ops t) (total t).
  Proof.
    intros P. induction ops as [|o ops IH]; intros t [P0 HS] Pt H1 H2; cbn [trun running_times]; [reflexivity|].
    destruct (tstep O o t) as [t1 r] eqn:E. destruct (trun O ops t1) as [t2 rs] eqn:E2. cbn [fst].
    rewrite fold_left_app. replace t2 with (fst (trun O ops t1)) by (rewrite E2; reflexivity).
    assert (U : forall ft s, In ft (times O (o :: ops)) -> total s = total t ->
      total (fst (update O ft s)) = fold_left (fadd O) (if running s then [ft] else []) (total s) /\ P (total (fst (update O ft s)))).
    { intros ft s Hi Es. destruct (HS (total t) ft Pt Hi) as (Q1 & Q2 & Q3). unfold update. rewrite Es. destruct (running s); rewrite ?Q1, ?Q2;
        match goal with |- context [if ?c then _ else _] => destruct c end; cbn; auto. }
    assert (K : total t1 = fold_left (fadd O) match o with TUpdate _ ft | TUpdate2 _ ft _ => if running t then [ft] else [] | _ => [] end (total t) /\ P (total t1)).
    { destruct o; cbn [tstep] in E; try (injection E as <- <-; cbn; auto; fail).
      - destruct (U ft t) as [U1 U2]; [left; reflexivity|reflexivity|]. destruct (update O ft t) as [t3 b]. injection E as <- <-. auto.
      - destruct (U ft (set_target O x t)) as [U1 U2]; [left; reflexivity|reflexivity|]. unfold update2 in E.
        destruct (update O ft (set_target O x t)) as [t3 b]. injection E as <- <-. auto.
      - exfalso. apply H1. left. reflexivity.
      - exfalso. apply H2. left. reflexivity. }
    destruct K as [K1 K2]. rewrite IH; [rewrite K1; reflexivity| |exact K2|intros Q; apply H1; right; exact Q|intros Q; apply H2; right; exact Q].
    split; [exact P0|]. intros c x Pc Hx. apply HS; [exact Pc|]. unfold times. cbn [flat_map]. apply in_or_app. right. exact Hx.
  Qed.

  Lemma stop_quiet : forall P t l, steady O P l -> P (total t) -> flt O (fzero O) (target t) = true ->
    current (stop O t) = fzero O /\ running (stop O t) = false /\ target (stop O t) = target t /\ total (stop O t) = total t /\
    ticks (stop O t) = ticks t /\ loop (stop O t) = loop t /\
    trun O (map (TUpdate O) l) (stop O t) = (stop O t, map (fun _ => Some false) l).
  Proof.
    intros P t l [P0 HS] Pt Q. repeat split; try reflexivity. apply one_shot_quiet; try reflexivity; [|exact Q].
    intros x Hx. cbn. split; apply HS; auto.
  Qed.
  Lemma pause_resume : forall P t l, steady O P l -> P (current t) -> P (total t) -> running t = true -> flt O (current t) (target t) = true ->
    trun O (TPause O :: map (TUpdate O) l ++ [TResume O]) t = (t, None :: map (fun _ => Some false) l ++ [None]).
  Proof.
    intros P t l [P0 HS] Pc Pt R Q. cbn [trun tstep]. rewrite trun_app, one_shot_quiet; try reflexivity; [|intros x Hx; cbn; split; apply HS; auto|exact Q].
    cbn [trun tstep]. destruct t as [tg c tot r lp k]. cbn in *. subst r. reflexivity.
  Qed.
  (** Tickers that differ in total and ticks only. *)
  Definition same_phase (a b : ticker O) : Prop :=
    target a = target b /\ current a = current b /\ running a = running b /\ loop a = loop b.
  Lemma same_phase_run : forall l a b, same_phase a b ->
    same_phase (fst (trun O (map (TUpdate O) l) a)) (fst (trun O (map (TUpdate O) l) b)) /\
    snd (trun O (map (TUpdate O) l) a) = snd (trun O (map (TUpdate O) l) b).
  Proof.
    induction l as [|x l IH]; intros a b (A1 & A2 & A3 & A4); cbn [map trun tstep]; [split; [repeat split; assumption|reflexivity]|].
    unfold update. rewrite A1, A2, A3, A4. destruct (flt O _ (target b)).
    - match goal with |- context [trun O _ ?u] => match goal with |- context [trun O _ ?v] => assert_fails (constr_eq u v); destruct (IH u v) as [I1 I2]; [repeat split; assumption|] end end.
      destruct (trun O _ _), (trun O _ _). cbn in *. split; [exact I1|f_equal; exact I2].
    - match goal with |- context [trun O _ ?u] => match goal with |- context [trun O _ ?v] => assert_fails (constr_eq u v); destruct (IH u v) as [I1 I2]; [repeat split; assumption|] end end.
      destruct (trun O _ _), (trun O _ _). cbn in *. split; [exact I1|f_equal; exact I2].
  Qed.
  Lemma restart_fresh : forall t x l,
    snd (trun O (TRestart O :: map (TUpdate O) l) t) = None :: snd (trun O (map (TUpdate O) l) (setLoop O (loop t) (new_ticker O (target t) true))) /\
    snd (trun O (TRestart1 O x :: map (TUpdate O) l) t) = None :: snd (trun O (map (TUpdate O) l) (setLoop O (loop t) (new_ticker O x true))) /\
    fst (trun O [TResetAll O] t) = setLoop O (loop t) (new_ticker O (target t) (running t)).
  Proof.
    intros t x l. cbn [trun tstep]. split; [|split; [|reflexivity]].
    - destruct (same_phase_run l (restart O t) (setLoop O (loop t) (new_ticker O (target t) true))) as [_ E]; [repeat split; reflexivity|].
      destruct (trun O (map (TUpdate O) l) (restart O t)) as [t2 rs]. cbn [snd] in *. f_equal. exact E.
    - destruct (same_phase_run l (restart1 O x t) (setLoop O (loop t) (new_ticker O x true))) as [_ E]; [repeat split; reflexivity|].
      destruct (trun O (map (TUpdate O) l) (restart1 O x t)) as [t2 rs]. cbn [snd] in *. f_equal. exact E.
  Qed.

  Lemma paused_update : forall t ft, running t = false ->
    fadd O (current t) (fmulb O ft false) = current t -> fadd O (total t) (fmulb O ft false) = total t ->
    let '(t', b) := update O ft t in
    total t' = total t /\ target t' = target t /\ loop t' = loop t
    /\ b = negb (flt O (current t) (target t))
    /\ (b = false -> t' = t)
    /\ (b = true -> current t' = fzero O /\ running t' = loop t /\ ticks t' = ((ticks t + 1) mod SIZE_WRAP)%N).
  Proof.
    intros t ft R Z1 Z2. unfold update. rewrite R, Z1, Z2. destruct (flt O (current t) (target t)) eqn:Q; cbn; rewrite ?Q;
      (repeat split; auto; try discriminate).
    intros _. destruct t as [tg c tot r lp k]. cbn in *. subst r. reflexivity.
  Qed.
End Gen.

(** Constant frame time, exact arithmetic. *)
Section Exact.
  Local Open Scope Z_scope.
  Lemma constant_rate : forall tgt dt n, 0 < tgt -> 0 < dt ->
    let K := (tgt + dt - 1) / dt in
    let t := fst (trun exact_ft (map (TUpdate exact_ft) (repeat dt n)) (new_ticker exact_ft tgt true)) in
    Z.of_N (ticks t) = (Z.of_nat n / K) mod (Z.of_N SIZE_WRAP) /\ current t = (Z.of_nat n mod K) * dt
    /\ total t = Z.of_nat n * dt.
  Proof.
    intros tgt dt n Ht Hd K.
    assert (HK : 0 < K) by (apply Z.div_str_pos; lia).
    assert (KU : (K - 1) * dt < tgt <= K * dt).
    { unfold K. pose proof (Z.div_mod (tgt + dt - 1) dt ltac:(lia)). pose proof (Z.mod_pos_bound (tgt + dt - 1) dt ltac:(lia)). nia. }
    clearbody K. cbv zeta.
    pose (f := fun k => fst (trun exact_ft (map (TUpdate exact_ft) (repeat dt k)) (new_ticker exact_ft tgt true))).
    assert (St : forall k, f (S k) = fst (update exact_ft dt (f k))).
    { intros k. unfold f. replace (repeat dt (S k)) with (repeat dt k ++ [dt]) by (rewrite <- repeat_cons; reflexivity).
      rewrite map_app, trun_app.
      match goal with |- fst (let '(_, _) := ?x in _) = _ =>
        change (fst (let '(t1, r1) := x in let '(t2, r2) := trun exact_ft (map (TUpdate exact_ft) [dt]) t1 in (t2, r1 ++ r2))
          = fst (update exact_ft dt (fst x))); destruct x as [s r] end.
      cbn [map trun tstep fst]. destruct (update exact_ft dt s). reflexivity. }
    assert (G : Z.of_N (ticks (f n)) = (Z.of_nat n / K) mod Z.of_N SIZE_WRAP
       /\ current (f n) = (Z.of_nat n mod K) * dt /\ total (f n) = Z.of_nat n * dt
       /\ running (f n) = true /\ loop (f n) = true /\ target (f n) = tgt).
    { assert (F0 : f 0%nat = new_ticker exact_ft tgt true) by reflexivity.
      clearbody f. induction n as [|n IH].
      - rewrite F0. unfold new_ticker. cbn [ticks current total running loop target exact_ft fzero].
        change (Z.of_nat 0) with 0. rewrite (Z.div_0_l K), (Z.mod_0_l K) by (intros ->; inversion HK). repeat split.
      - rewrite St. destruct IH as (I1 & I2 & I3 & I4 & I5 & I6).
        unfold update. rewrite I4, I5, I6. cbn [exact_ft fadd fmulb flt fzero FT] in *. rewrite I2, I3.
        replace (dt * 1) with dt by lia.
        set (q := Z.of_nat n / K) in *. set (m := Z.of_nat n mod K) in *.
        assert (E : Z.of_nat n = K * q + m) by (apply Z.div_mod; lia).
        assert (B : 0 <= m < K) by (apply Z.mod_pos_bound; lia).
        replace (Z.of_nat (S n)) with (Z.of_nat n + 1) by lia.
        destruct (Z.ltb_spec (m * dt + dt) tgt) as [Q|Q]; cbn [fst ticks current total running loop target].
        + assert (m + 1 < K) by nia.
          assert (D : (Z.of_nat n + 1) / K = q) by (symmetry; apply (Z.div_unique _ _ _ (m + 1)); lia).
          assert (R : (Z.of_nat n + 1) mod K = m + 1) by (symmetry; apply (Z.mod_unique _ _ q); lia).
          rewrite D, R. repeat split; auto; lia.
        + assert (m + 1 = K) by nia.
          assert (D : (Z.of_nat n + 1) / K = q + 1) by (symmetry; apply (Z.div_unique _ _ _ 0); lia).
          assert (R : (Z.of_nat n + 1) mod K = 0) by (symmetry; apply (Z.mod_unique _ _ (q + 1)); lia).
          rewrite D, R. repeat split; auto; try lia.
          rewrite N2Z.inj_mod, N2Z.inj_add, I1. change (Z.of_N 1) with 1.
          rewrite Zplus_mod_idemp_l. reflexivity. }
    unfold f in G. tauto.
  Qed.

  Lemma zero_target_ticks : forall (l : list Z) (t : ticker exact_ft), running t = false -> loop t = false -> current t = 0 -> target t <= 0 ->
    snd (trun exact_ft (map (TUpdate exact_ft) l) t) = map (fun _ => Some true) l.
  Proof.
    induction l as [|x l IH]; intros t R L C T; cbn [map trun tstep]; [reflexivity|].
    unfold update. rewrite R, C. cbn [exact_ft fadd fmulb flt fzero FT] in *. rewrite Z.mul_0_r.
    destruct (Z.ltb_spec (0 + 0) (target t)); [lia|].
    match goal with |- context [trun exact_ft _ ?s] => specialize (IH s) end.
    destruct (trun exact_ft _ _) as [t2 rs]. cbn [snd] in *. rewrite IH; auto.
  Qed.
End Exact.

(** Single precision. *)
Section Single.
  Local Open Scope Z_scope.
  Lemma times_one : forall x, frame_time x -> SFmul 24 128 x f32_1 = x.
  Proof.
    intros [s|s| |s m e] [V S]; try contradiction; subst; try reflexivity.
    cbn [valid_binary] in V. unfold bounded, canonical_mantissa in V. apply andb_true_iff in V. destruct V as [V1 V2].
    rewrite zeq_eqb in V1. apply Z.eqb_eq in V1. apply Z.leb_le in V2. rewrite fexp_bounds in V1.
    unfold f32_1. cbn [SFmul]. cbn [xorb].
    assert (Dg : Zdigits2 (Zpos m * 8388608) = Zdigits2 (Zpos m) + 23).
    { rewrite !zdigits_log by lia. change 8388608 with (2 ^ 23). rewrite Z.log2_mul_pow2 by lia. lia. }
    rewrite Pos2Z.inj_mul. change (Z.pos (digits2_pos m)) with (Zdigits2 (Zpos m)) in V1.
    destruct (round_aux_spec false (Zpos m * 8388608) 1 (e + -23) ltac:(lia) ltac:(lia)) as (R & N & E).
    { rewrite Z.div_1_r, Dg. lia. }
    rewrite Z.div_1_r, Z.mod_1_r in *. rewrite Dg in *.
    replace (Z.max (Zdigits2 (Zpos m) + 23 + (e + -23) - 24) (-149)) with e in * by lia.
    change (new_location 1 0) with loc_Exact in E. rewrite E. clear E.
    replace (e - (e + -23)) with 23 in N by lia. destruct N as [N _].
    assert (R = Zpos m) by (change (2 ^ 23 * 1) with 8388608 in N; lia). subst R.
    unfold pack.
    assert (Hm : Zpos m < 2 ^ 24).
    { apply Z.log2_lt_cancel. change (Z.log2 (2 ^ 24)) with 24. rewrite zdigits_log in V1 by lia. lia. }
    replace (Zpos m =? 0) with false by (symmetry; apply Z.eqb_neq; lia).
    replace (Zpos m =? 2 ^ 24) with false by (symmetry; apply Z.eqb_neq; lia).
    replace (e <=? 104) with true by (symmetry; apply Z.leb_le; lia). reflexivity.
  Qed.
  Lemma round_aux_sum : forall m e l, time_sum (binary_round_aux 24 128 false m e l).
  Proof.
    intros m e l. unfold binary_round_aux. destruct (shr_fexp _ _ _ _ _) as [a b]. destruct (shr_fexp _ _ _ _ _) as [c d].
    destruct (shr_m c); [reflexivity| |exact I]. destruct (d <=? _); reflexivity.
  Qed.
  Lemma float_steady : forall xs, Forall frame_time xs -> steady float_ft time_sum xs.
  Proof.
    intros xs F. split; [reflexivity|]. intros c x Pc Hx. rewrite Forall_forall in F. specialize (F x Hx).
    cbn [fmulb fadd float_ft FT]. rewrite (times_one x F). split; [reflexivity|].
    destruct F as [V S]. split.
    - destruct x as [s|s| |s m e]; try contradiction; subst s; cbn [SFmul xorb]; destruct c as [s|s| |s m' e']; cbn [time_sum] in Pc; subst; reflexivity.
    - destruct x as [s|s| |s m e]; try contradiction; subst s; destruct c as [s|s| |s m' e']; cbn [time_sum] in Pc; subst; try reflexivity.
      cbn [SFadd cond_Zopp]. unfold binary_normalize.
      match goal with |- time_sum (match ?z with _ => _ end) => assert (Hz : 0 < z) by lia; destruct z as [|p|p]; try lia end.
      unfold binary_round. destruct (shl_align _ _ _). apply round_aux_sum.
  Qed.
  Lemma float_times : forall xs, Forall frame_time xs -> steady float_ft time_sum xs /\ forall x, In x xs -> fmulb float_ft x true = x.
  Proof.
    intros xs F. split; [apply float_steady, F|]. intros x Hx. rewrite Forall_forall in F. apply (times_one x), F, Hx.
  Qed.
  Lemma exact_steady : forall xs, steady exact_ft (fun _ => True) xs.
  Proof. intros xs. split; [exact I|]. intros c x _ _. cbn. split; [lia|]. split; [lia|exact I]. Qed.
End Single.
