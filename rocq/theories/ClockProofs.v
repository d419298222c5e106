(** Tickers and timelines in single precision. *)
From Coq Require Import ZArith NArith Arith Bool Lia List QArith Qabs Qround Qpower Lqa.
From Coq Require Import Floats.SpecFloat.
From Verif Require Import Common RealSpec RealProofs FltSpec AngleSpec FloatOpsProofs TickerModel TickerSpec TickerProofs TimelineModel ClockModel ClockSpec.
Import ListNotations.
Local Open Scope Z_scope.

(** *** Whole units are computed exactly *)
Lemma times_add : forall k a b, (times_pow 2 a k + times_pow 2 b k == times_pow 2 (a + b) k)%Q.
Proof. intros. unfold times_pow. rewrite inject_Z_plus. ring. Qed.
Lemma times_sub : forall k a b, (times_pow 2 a k - times_pow 2 b k == times_pow 2 (a - b) k)%Q.
Proof. intros. unfold times_pow, Z.sub. rewrite inject_Z_plus, inject_Z_opp. ring. Qed.
Lemma times_lt_iff : forall a b k, (times_pow 2 a k < times_pow 2 b k)%Q <-> a < b.
Proof.
  intros a b k. split; intros H.
  - destruct (Z.lt_ge_cases a b) as [C|C]; [exact C|]. apply (times_le _ _ k) in C. lra.
  - apply Qnot_le_lt. intros C. apply times_le_iff in C. lia.
Qed.
Lemma add_units : forall k f g a b, -149 <= k <= 103 -> units k f a -> units k g b -> Z.abs (a + b) <= 2 ^ 24 -> units k (SFadd 24 128 f g) (a + b).
Proof.
  intros k f g a b Hk Hf Hg H. apply exact_is; [apply small_grid; assumption|].
  eapply float_of_wd; [apply times_add|]. apply add_rounds; assumption.
Qed.
Lemma sub_units : forall k f g a b, -149 <= k <= 103 -> units k f a -> units k g b -> Z.abs (a - b) <= 2 ^ 24 -> units k (SFsub 24 128 f g) (a - b).
Proof.
  intros k f g a b Hk Hf Hg H. apply exact_is; [apply small_grid; assumption|].
  eapply float_of_wd; [apply times_sub|]. apply sub_rounds; assumption.
Qed.
Lemma zero_units : forall k s, units k (S754_zero s) 0.
Proof. intros k s. split; [reflexivity|]. cbn. apply times_zero. Qed.
Lemma one_is : float_is f32_1 1. Proof. split; reflexivity. Qed.
Lemma mulb_units : forall k f a (b : bool), -149 <= k <= 103 -> units k f a ->
  units k (fmulb float_ft f b) (fmulb exact_ft a b).
Proof.
  intros k f a b Hk Hf. cbn [float_ft exact_ft fmulb].
  pose proof (valid_float _ _ Hf) as Fl. destruct b.
  - rewrite Z.mul_1_r. apply exact_is; [exact Fl|]. eapply float_of_wd; [|apply mul_rounds; [exact Hf|exact one_is]]. ring.
  - rewrite Z.mul_0_r. apply exact_is; [apply small_grid; [cbn; lia|exact Hk]|]. eapply float_of_wd; [|apply mul_rounds; [exact Hf|split; [reflexivity|cbn; reflexivity]]].
    rewrite times_zero. ring.
Qed.
Lemma lt_units : forall k f g a b, units k f a -> units k g b -> SFltb f g = (a <? b).
Proof.
  intros k f g a b Hf Hg. pose proof (ltb_value f g _ _ Hf Hg) as H. rewrite times_lt_iff in H.
  destruct (Z.ltb_spec a b) as [C|C]; [apply H; exact C|]. destruct (SFltb f g); [|reflexivity]. apply proj1 in H. specialize (H eq_refl). lia.
Qed.

Definition small_ticker (u : ticker exact_ft) (more : Z) : Prop :=
  0 <= current u /\ 0 <= total u /\ current u + more <= 2 ^ 24 /\ total u + more <= 2 ^ 24.
Lemma update_same : forall k t u x z more, -149 <= k <= 103 -> same_ticker k t u -> units k x z -> 0 <= z -> 0 <= more -> small_ticker u (z + more) ->
  let '(t', b) := TickerModel.update float_ft x t in let '(u', c) := TickerModel.update exact_ft z u in
  b = c /\ same_ticker k t' u' /\ small_ticker u' more.
Proof.
  intros k t u x z more Hk (Tg & Cu & To & Ru & Lo & Ti) Hx Hz Hm (S1 & S2 & S3 & S4). unfold TickerModel.update. rewrite <- Ru.
  pose proof (mulb_units k x z (running t) Hk Hx) as M. set (i := fmulb float_ft x (running t)) in *. set (j := fmulb exact_ft z (running t)) in *.
  assert (J : 0 <= j <= z) by (unfold j; cbn; destruct (running t); lia). clearbody i j.
  assert (C1 : units k (fadd float_ft (current t) i) (current u + j)) by (apply add_units; try assumption; cbn in *; lia).
  assert (T1 : units k (fadd float_ft (total t) i) (total u + j)) by (apply add_units; try assumption; cbn in *; lia).
  pose proof (lt_units k _ _ _ _ C1 Tg) as L. cbn [float_ft exact_ft flt fadd] in *. rewrite L.
  destruct (current u + j <? target u); split; try reflexivity; (split; [|unfold small_ticker; cbn in *; lia]); unfold same_ticker; cbn [target current total running loop ticks].
  - auto 8.
  - refine (conj Tg (conj (zero_units k false) (conj T1 (conj Lo (conj Lo _))))). rewrite Ti. reflexivity.
Qed.
Lemma set_target_same : forall k t u y w, same_ticker k t u -> units k y w -> same_ticker k (set_target float_ft y t) (set_target exact_ft w u).
Proof. intros k t u y w (Tg & Cu & To & Ru & Lo & Ti) H. unfold same_ticker. cbn. auto 8. Qed.
Lemma step_same : forall k o p t u more, -149 <= k <= 103 -> same_call k o p -> same_ticker k t u -> 0 <= more -> small_ticker u (zsum (times exact_ft [p]) + more) ->
  snd (tstep float_ft o t) = snd (tstep exact_ft p u) /\ same_ticker k (fst (tstep float_ft o t)) (fst (tstep exact_ft p u)) /\ small_ticker (fst (tstep exact_ft p u)) more.
Proof.
  intros k o p t u more Hk Hc Ht Hm Hs. destruct Hc; cbn [times flat_map app zsum fold_right] in Hs; cbn [tstep].
  - rewrite Z.add_0_r in Hs. pose proof (update_same k t u x z more Hk Ht H H0 Hm Hs) as U.
    destruct (TickerModel.update float_ft x t) as [t' b], (TickerModel.update exact_ft z u) as [u' c]. destruct U as (E & A & B). cbn [fst snd]. rewrite E. auto.
  - rewrite Z.add_0_r in Hs. unfold update2. pose proof (update_same k (set_target float_ft y t) (set_target exact_ft w u) x z more Hk (set_target_same _ _ _ _ _ Ht H1) H H0 Hm Hs) as U.
    destruct (TickerModel.update float_ft x _) as [t' b], (TickerModel.update exact_ft z _) as [u' c]. destruct U as (E & A & B). cbn [fst snd]. rewrite E. auto.
  - cbn [fst snd]. destruct Ht as (Tg & Cu & To & Ru & Lo & Ti). destruct Hs as (S1 & S2 & S3 & S4). (split; [reflexivity|split; [|unfold small_ticker; cbn in *; lia]]); unfold same_ticker; cbn; intuition (try apply (zero_units k false)).
  - cbn [fst snd]. destruct Ht as (Tg & Cu & To & Ru & Lo & Ti). destruct Hs as (S1 & S2 & S3 & S4). (split; [reflexivity|split; [|unfold small_ticker; cbn in *; lia]]); unfold same_ticker; cbn; intuition (try apply (zero_units k false)).
  - cbn [fst snd]. destruct Ht as (Tg & Cu & To & Ru & Lo & Ti). destruct Hs as (S1 & S2 & S3 & S4). (split; [reflexivity|split; [|unfold small_ticker; cbn in *; lia]]); unfold same_ticker; cbn; intuition (try apply (zero_units k false)).
  - cbn [fst snd]. destruct Ht as (Tg & Cu & To & Ru & Lo & Ti). destruct Hs as (S1 & S2 & S3 & S4). (split; [reflexivity|split; [|unfold small_ticker; cbn in *; lia]]); unfold same_ticker; cbn; intuition (try apply (zero_units k false)).
  - cbn [fst snd]. destruct Ht as (Tg & Cu & To & Ru & Lo & Ti). destruct Hs as (S1 & S2 & S3 & S4). (split; [reflexivity|split; [|unfold small_ticker; cbn in *; lia]]); unfold same_ticker; cbn; intuition (try apply (zero_units k false)).
  - cbn [fst snd]. destruct Ht as (Tg & Cu & To & Ru & Lo & Ti). destruct Hs as (S1 & S2 & S3 & S4). (split; [reflexivity|split; [|unfold small_ticker; cbn in *; lia]]); unfold same_ticker; cbn; intuition (try apply (zero_units k false)).
  - cbn [fst snd]. destruct Ht as (Tg & Cu & To & Ru & Lo & Ti). destruct Hs as (S1 & S2 & S3 & S4). (split; [reflexivity|split; [|unfold small_ticker; cbn in *; lia]]); unfold same_ticker; cbn; intuition (try apply (zero_units k false)).
  - cbn [fst snd]. destruct Ht as (Tg & Cu & To & Ru & Lo & Ti). destruct Hs as (S1 & S2 & S3 & S4). (split; [reflexivity|split; [|unfold small_ticker; cbn in *; lia]]); unfold same_ticker; cbn; intuition (try apply (zero_units k false)).
  - cbn [fst snd]. destruct Ht as (Tg & Cu & To & Ru & Lo & Ti). destruct Hs as (S1 & S2 & S3 & S4). (split; [reflexivity|split; [|unfold small_ticker; cbn in *; lia]]); unfold same_ticker; cbn; intuition (try apply (zero_units k false)).
  - cbn [fst snd]. destruct Ht as (Tg & Cu & To & Ru & Lo & Ti). destruct Hs as (S1 & S2 & S3 & S4). (split; [reflexivity|split; [|unfold small_ticker; cbn in *; lia]]); unfold same_ticker; cbn; intuition (try apply (zero_units k false)).
Qed.
Lemma zsum_app : forall a b, zsum (a ++ b) = zsum a + zsum b.
Proof. intros a b. unfold zsum. induction a as [|x a IH]; cbn; [reflexivity|]. fold (zsum b) in *. lia. Qed.
Lemma times_nonneg : forall k ops zops, Forall2 (same_call k) ops zops -> 0 <= zsum (times exact_ft zops).
Proof.
  intros k ops zops H. induction H as [|o p ops zops Hc H IH]; [cbn; lia|].
  assert (E : zsum (times exact_ft (p :: zops)) = zsum (times exact_ft [p]) + zsum (times exact_ft zops)).
  { unfold times. cbn [flat_map]. rewrite app_nil_r. apply zsum_app. }
  rewrite E. assert (0 <= zsum (times exact_ft [p])) by (destruct Hc; cbn; lia). cbn [exact_ft FT] in *. lia.
Qed.
Lemma run_same : forall k ops zops t u, -149 <= k <= 103 -> Forall2 (same_call k) ops zops -> same_ticker k t u -> small_ticker u (zsum (times exact_ft zops)) ->
  snd (trun float_ft ops t) = snd (trun exact_ft zops u) /\ same_ticker k (fst (trun float_ft ops t)) (fst (trun exact_ft zops u)).
Proof.
  intros k ops zops t u Hk H. revert t u. induction H as [|o p ops zops Hc H IH]; intros t u Ht Hs; [cbn; auto|].
  assert (Hm : 0 <= zsum (times exact_ft zops)) by (eapply times_nonneg, H).
  assert (E : zsum (times exact_ft (p :: zops)) = zsum (times exact_ft [p]) + zsum (times exact_ft zops)).
  { unfold times. cbn [flat_map]. rewrite app_nil_r. apply zsum_app. }
  rewrite E in Hs. destruct (step_same k o p t u _ Hk Hc Ht Hm Hs) as (A & B & C). cbn [trun].
  destruct (tstep float_ft o t) as [t1 r1], (tstep exact_ft p u) as [u1 r2]. cbn [fst snd] in *.
  destruct (IH t1 u1 B C) as (D & F). destruct (trun float_ft ops t1), (trun exact_ft zops u1). cbn [fst snd] in *. split; [congruence|exact F].
Qed.
Lemma ticker_same : forall k ops zops f z r, -149 <= k <= 103 -> Forall2 (same_call k) ops zops -> units k f z -> zsum (times exact_ft zops) <= 2 ^ 24 ->
  snd (trun float_ft ops (new_ticker float_ft f r)) = snd (trun exact_ft zops (new_ticker exact_ft z r)) /\
  same_ticker k (fst (trun float_ft ops (new_ticker float_ft f r))) (fst (trun exact_ft zops (new_ticker exact_ft z r))).
Proof.
  intros k ops zops f z r Hk H Hf Hs. apply run_same; try assumption.
  - exact (conj Hf (conj (zero_units k false) (conj (zero_units k false) (conj eq_refl (conj eq_refl eq_refl))))).
  - pose proof (times_nonneg k ops zops H). unfold small_ticker. cbn. cbn in Hs. lia.
Qed.
