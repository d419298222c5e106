From Coq Require Import String ZArith Bool Lia List Znumtheory.
From Verif Require Import Common PcgModel PcgSpec PcgProofs PcgTopProofs PermModel PermSpec PermProofs PermTopProofs ExtModel ExtSpec ExtCycleProofs ExtProofs ExtDrawProofs ExtPeriodProofs ExtKdProofs ExtJumpProofs ExtTopProofs ExtBackProofs.
Import ListNotations.
Local Open Scope Z_scope.

Lemma rs_range : forall s, 0 <= s < 2 ^ 64 -> 0 <= xsh_rs 64 32 s < 2 ^ 32.
Proof. intros s _. unfold xsh_rs. cbv zeta. apply Z.mod_pos_bound. reflexivity. Qed.
Lemma rr_range : forall s, 0 <= s < 2 ^ 64 -> 0 <= xsh_rr 64 32 s < 2 ^ 32.
Proof.
  intros s S. rewrite (rr_is 64 32 5 18 ltac:(cbn; tauto) s S). unfold rr. apply rotated_range; [|apply Z.mod_pos_bound; reflexivity].
  pose proof (div_range s 59 5 ltac:(lia) ltac:(lia) S) as R. change (64 - 5) with 59. change (2 ^ 5) with 32 in R. lia.
Qed.
Lemma xsl_range : forall s, 0 <= s < 2 ^ 128 -> 0 <= xsl_rr 128 64 s < 2 ^ 64.
Proof.
  intros s S. rewrite (xsl_is 64 6 ltac:(cbn; tauto) s S : xsl_rr 128 64 s = _). unfold xsl_spec. apply rotated_range.
  - pose proof (div_range s 122 6 ltac:(lia) ltac:(lia) S) as R. change (2 * 64 - 6) with 122. change (2 ^ 6) with 64 in R. lia.
  - apply lxor_range; [lia|exact (div_range s 64 64 ltac:(lia) ltac:(lia) S)|apply Z.mod_pos_bound; reflexivity].
Qed.
Lemma sound32 : forall (mcg : bool) out i tp ap k, (forall s, 0 <= s < 2 ^ 64 -> 0 <= out s < 2 ^ 32) -> (if mcg then i = 0 else i mod 2 = 1) -> 0 <= i < 2 ^ 64 ->
  0 <= tp <= 62 -> 2 <= ap < 62 -> sound (ext32 mcg out i tp ap k).
Proof.
  intros mcg out i tp ap k O I IR TP AP. unfold sound. cbn [ext32 w is_mcg m c output xb em ec om ou table_pow2 advance_pow2 kdd].
  split; [lia|]. split; [destruct mcg; (split; [reflexivity|exact I])|]. split; [split; [lia|reflexivity]|]. split; [exact IR|]. split; [exact O|].
  split; [now left|]. split; [exists 4, 22; cbn; tauto|]. split; [cbn; tauto|]. split; [split; reflexivity|].
  split; [split; [lia|reflexivity]|]. split; [split; [lia|reflexivity]|]. split; [lia|]. split; [destruct mcg; lia|]. split; [lia|]. intros _. destruct mcg; lia.
Qed.
Lemma sound64 : forall (mcg : bool) i tp ap k, (if mcg then i = 0 else i mod 2 = 1) -> 0 <= i < 2 ^ 128 -> 0 <= tp <= 126 -> (2 <= ap < 126 \/ ap = 128) -> sound (ext64 mcg i tp ap k).
Proof.
  intros mcg i tp ap k I IR TP AP. unfold sound. cbn [ext64 w is_mcg m c output xb em ec om ou table_pow2 advance_pow2 kdd].
  split; [lia|]. split; [destruct mcg; (split; [reflexivity|exact I])|]. split; [split; [lia|reflexivity]|]. split; [exact IR|]. split; [exact xsl_range|].
  split; [now right|]. split; [exists 5, 43; cbn; tauto|]. split; [cbn; tauto|]. split; [split; reflexivity|].
  split; [split; [lia|reflexivity]|]. split; [split; [lia|reflexivity]|]. split; [lia|]. split; [destruct mcg; lia|]. split; [lia|].
  unfold may_tick. cbn [ext64 w advance_pow2]. intros H. destruct mcg; lia.
Qed.
Lemma named32_sound : forall i q, i mod 2 = 1 -> 0 <= i < 2 ^ 64 -> In q (named32 i) -> sound q.
Proof.
  intros i q I IR H. repeat (destruct H as [<-|H]; [apply sound32; [exact rs_range || exact rr_range|exact I || reflexivity|exact IR || (split; [unfold inc64; lia|reflexivity])|lia|lia]|]).
  destruct H.
Qed.
Lemma named64_sound : forall i q, i mod 2 = 1 -> 0 <= i < 2 ^ 128 -> In q (named64 i) -> sound q.
Proof.
  intros i q I IR H. repeat (destruct H as [<-|H]; [apply sound64; [exact I || reflexivity|exact IR || (split; [discriminate|reflexivity])|lia|lia]|]).
  destruct H.
Qed.
Lemma small_sound : forall tp ap k, 0 <= tp <= 32 -> 2 <= ap -> sound (ext_oneseq_rxs_m_xs_32_32 tp ap k).
Proof.
  intros tp ap k TP AP. unfold sound. cbn [ext_oneseq_rxs_m_xs_32_32 w is_mcg m c output xb em ec om ou table_pow2 advance_pow2 kdd].
  split; [lia|]. split; [split; reflexivity|]. split; [split; [lia|reflexivity]|]. split; [split; [lia|reflexivity]|]. split.
  { intros s S. destruct (rxs_code 32 4 22 277803737 ltac:(cbn; tauto)) as (u & _ & E & _). destruct (E s S) as [-> _].
    destruct (rxs_permutes 32 4 22 277803737 ltac:(cbn; tauto)) as (g & G & _). now apply G. }
  split; [now left|]. split; [exists 4, 22; cbn; tauto|]. split; [cbn; tauto|]. split; [split; reflexivity|].
  split; [split; [lia|reflexivity]|]. split; [split; [lia|reflexivity]|]. split; [lia|]. split; [lia|]. split; [lia|].
  unfold may_tick. cbn [ext_oneseq_rxs_m_xs_32_32 w advance_pow2]. lia.
Qed.
Lemma named_none_tock : forall i q, In q (named32 i ++ named64 i) -> may_tock q = false.
Proof. intros i q H. apply in_app_or in H. destruct H as [H|H]; repeat (destruct H as [<-|H]; [reflexivity|]); destruct H. Qed.

Lemma claim_wrong : forall p, sound p -> may_tock p = false -> 0 <= true_period_pow2 p < claimed_period_pow2 p.
Proof.
  intros p HP MK. pose proof (w_big p HP) as HW. destruct (ap_facts p HP) as [A A']. destruct (tp_facts p HP) as [T1 T2].
  unfold true_period_pow2, claimed_period_pow2, PcgModel.period_pow2, table_size, PcgProofs.sh in *. rewrite MK.
  assert (0 < 2 ^ table_pow2 p) by (apply Z.pow_pos_nonneg; lia). destruct HP as (W & _ & _ & _ & _ & X & _). destruct (may_tick p); destruct (is_mcg p), X as [-> | ->]; try specialize (A' eq_refl); lia.
Qed.
Lemma claim_right : forall p, may_tock p = true -> true_period_pow2 p = claimed_period_pow2 p.
Proof. intros p MK. unfold true_period_pow2, claimed_period_pow2, PcgModel.period_pow2, table_size. rewrite MK. destruct (is_mcg p); lia. Qed.
Lemma claim_refuted : forall p s t, sound p -> may_tock p = false -> ready p (s, t) -> exists N, 0 < N < 2 ^ claimed_period_pow2 p /\ returns p N (s, t).
Proof.
  intros p s t HP MK [S TT]. destruct (claim_wrong p HP MK) as [A B]. exists (2 ^ true_period_pow2 p). split.
  - split; [apply Z.pow_pos_nonneg; lia|]. apply Z.pow_lt_mono_r; lia.
  - apply (period_ext p HP); auto. apply Z.pow_nonneg; lia. apply Z.divide_refl.
Qed.

(** ** Witnesses *)
Fixpoint same (a b : list Z) : bool := match a, b with [], [] => true | x :: a, y :: b => (x =? y) && same a b | _, _ => false end.
Lemma same_refl : forall a, same a a = true.
Proof. induction a; cbn [same]; [reflexivity|]. now rewrite Z.eqb_refl. Qed.
Definition entries0 : list Z := 0 :: repeat 5 63.
Lemma entries0_table : table pcg32_k64_fast entries0.
Proof.
  split; [reflexivity|]. constructor; [split; [lia|reflexivity]|]. apply Forall_forall. intros x X. apply repeat_spec in X. subst x. split; [lia|reflexivity].
Qed.
Lemma apart : forall X : Type, forall (d : outcome (gen * X)) (a : outcome gen),
  match d, a with Ok (g, r), Ok g' => (fst g =? fst g') && negb (same (snd g) (snd g')) | _, _ => false end = true ->
  exists g r g', d = Ok (g, r) /\ a = Ok g' /\ fst g = fst g' /\ snd g <> snd g'.
Proof.
  intros X d a E. destruct d as [[g r]| | |]; try discriminate E. destruct a as [g'| | |]; try discriminate E.
  apply andb_prop in E. destruct E as [E1 E2]. exists g, r, g'. split; [reflexivity|]. split; [reflexivity|]. split; [lia|]. intros Q. rewrite Q, same_refl in E2. discriminate.
Qed.
Lemma zero_entry : ready pcg32_k64_fast (0, entries0) /\ exists g r g', draw pcg32_k64_fast (0, entries0) = Ok (g, r) /\ advance pcg32_k64_fast (0, entries0) 1 true = Ok g' /\ fst g = fst g' /\ snd g <> snd g'.
Proof.
  split; [split; [split; [split; [discriminate|reflexivity]|discriminate]|exact entries0_table]|]. apply apart. vm_compute. reflexivity.
Qed.
Definition before0 : Z := 11066951453180645397.
Lemma arriving_any : forall d (f : gen -> outcome gen) s t, match d with
    | Ok (g, r) => match f g with Ok g' => (fst g' =? s) && negb (same (snd g') t) | _ => false end | _ => false end = true ->
  exists g (r : Z) g', d = Ok (g, r) /\ f g = Ok g' /\ fst g' = s /\ snd g' <> t.
Proof.
  intros d f s t E. destruct d as [[g r]| | |]; try discriminate E. destruct (f g) as [g'| | |] eqn:G; try discriminate E.
  apply andb_prop in E. destruct E as [E1 E2]. exists g, r, g'. split; [reflexivity|]. split; [exact G|]. split; [lia|]. intros Q. rewrite Q, same_refl in E2. discriminate.
Qed.
Lemma arriving : ready pcg32_k64_fast (before0, repeat 5 64) /\ exists g r g', draw pcg32_k64_fast (before0, repeat 5 64) = Ok (g, r) /\ backstep pcg32_k64_fast g 1 = Ok g' /\ fst g' = before0 /\ snd g' <> repeat 5 64.
Proof.
  split.
  - split; [split; [split; [discriminate|reflexivity]|discriminate]|]. split; [reflexivity|]. apply Forall_forall. intros x X. apply repeat_spec in X. subst x. split; [discriminate|reflexivity].
  - apply (arriving_any (draw pcg32_k64_fast (before0, repeat 5 64)) (fun g => backstep pcg32_k64_fast g 1)). vm_compute. reflexivity.
Qed.
Lemma init_any : forall a b : outcome gen, match a, b with Ok a, Ok b => (fst a =? fst b) && negb (same (snd a) (snd b)) | _, _ => false end = true ->
  exists x y, a = Ok x /\ b = Ok y /\ fst x = fst y /\ snd x <> snd y.
Proof.
  intros a b E. destruct a as [a| | |]; try discriminate E. destruct b as [b| | |]; try discriminate E.
  apply andb_prop in E. destruct E as [E1 E2]. exists a, b. split; [reflexivity|]. split; [reflexivity|]. split; [lia|]. intros Q. rewrite Q, same_refl in E2. discriminate.
Qed.
Lemma init_order : exists a b, selfinit pcg32_k64_fast false 42 = Ok a /\ selfinit pcg32_k64_fast true 42 = Ok b /\ fst a = fst b /\ snd a <> snd b.
Proof. apply init_any. vm_compute. reflexivity. Qed.
Lemma named_sizes : forall i,
  map (fun p => (2 ^ table_pow2 p, kdd p)) (named32 i) =
    [(64, true); (64, true); (64, true); (64, true); (64, true); (64, false); (64, false); (64, false);
     (1024, true); (1024, true); (1024, false); (1024, false); (16384, true); (16384, true)] /\
  map (fun p => (2 ^ table_pow2 p, kdd p)) (named64 i) =
    [(32, true); (32, true); (32, true); (32, false); (32, false); (32, false);
     (1024, true); (1024, true); (1024, false); (1024, false)].
Proof. intros i. split; reflexivity. Qed.
Lemma named_constants : forall i,
  let K32 := 0x14057B7EF767814F in let K64 := 117397592171526113268558934119004209487 in
  map (fun p => (m p, c p)) (named32 i) =
    map (fun c => (0x5851F42D4C957F2D, c)) [i; K32; i; 0; K32; i; K32; 0; i; K32; i; K32; i; K32] /\
  map (fun p => (m p, c p)) (named64 i) =
    map (fun c => (47026247687942121848144207491837523525, c)) [i; K64; 0; i; K64; 0; i; K64; i; K64] /\
  Forall (fun p => (em p, ec p) = (747796405, 2891336453)) (named32 i) /\
  Forall (fun p => (em p, ec p) = (0x5851F42D4C957F2D, 0x14057B7EF767814F)) (named64 i).
Proof. intros i K32 K64. split; [reflexivity|]. split; [reflexivity|]. split; repeat constructor. Qed.
