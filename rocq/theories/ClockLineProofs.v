(** Timelines in single precision. *)
From Coq Require Import ZArith NArith Arith Bool Lia List QArith Qabs Qround Qpower Lqa.
From Coq Require Import Floats.SpecFloat.
From Verif Require Import Common RealSpec RealProofs FltSpec AngleSpec FloatOpsProofs TimelineModel ClockModel ClockSpec ClockProofs ClockStuckProofs.
Import ListNotations.
Local Open Scope Z_scope.

Section Same.
  Context (k : Z) (Hk : -149 <= k <= 103).
  Context (pf : nat -> list (event spec_float) -> bool) (pz : nat -> list (event Z) -> bool).
  Context (Hp : forall p hf hz, Forall2 (same_event k) hf hz -> pf p hf = pz p hz).
  Notation F := float_wt. Notation E := exact_wt.
  (** Nothing is left over between commands. *)
  Definition same0 (s : timeline F) (u : timeline E) : Prop := same_timeline k s u /\ remainder s = S754_zero false /\ remainder u = 0.

  Lemma len_same : forall s u, same_timeline k s u -> size s = size u.
  Proof. intros s u (A & _). unfold size. f_equal. clear - A. induction A; cbn; congruence. Qed.
  Lemma next_same : forall s u, same_timeline k s u -> same_outcome (same_timeline k) (next F s) (next E u).
  Proof.
    intros s u H. pose proof (len_same s u H) as L. destruct H as (A & B & C & D & G). unfold next, isCIdxNull. rewrite B, L.
    destruct (cidx u =? -1); [cbn; repeat split; auto|]. destruct ((cidx u + 1 <? 0) || (size u <? cidx u + 1)); [exact I|].
    destruct (cidx u + 1 =? size u); cbn; repeat split; auto.
  Qed.
  Lemma flags_same : forall s u r f, same_timeline k s u -> same_timeline k (set_flags F r f s) (set_flags E r f u).
  Proof. intros s u r f (A & B & C & D & G). repeat split; auto. Qed.
  Lemma reset_cmd_same : forall c d, same_cmd k c d -> same_cmd k (reset_cmd F c) (reset_cmd E d).
  Proof. intros c d []; cbn; constructor; assumption. Qed.
  Lemma reset_same : forall s u, same_timeline k s u -> same_timeline k (reset F s) (reset E u).
  Proof.
    intros s u (A & B & C & D & G). unfold reset, start, set_flags, set_cmds, set_cidx. cbn [cmds cidx ready finished log remainder].
    assert (M : Forall2 (same_cmd k) (map (reset_cmd F) (cmds s)) (map (reset_cmd E) (cmds u))).
    { clear - A. induction A; cbn; constructor; [apply reset_cmd_same; assumption|assumption]. }
    repeat split; cbn; auto. destruct M; reflexivity.
  Qed.
  Lemma callback_same : forall cb s u, same_timeline k s u -> same_timeline k (fold_left (callback_step F) cb s) (fold_left (callback_step E) cb u).
  Proof.
    induction cb as [|c cb IH]; intros s u H; [exact H|]. cbn [fold_left]. apply IH. destruct c; cbn [callback_step].
    - destruct H as (A & B & C & D & G). repeat split; auto.
    - apply flags_same, H.
    - apply flags_same, H.
    - apply reset_same, H.
  Qed.
  Lemma replace_same : forall l m i c d, Forall2 (same_cmd k) l m -> same_cmd k c d -> Forall2 (same_cmd k) (replace_nth F l i c) (replace_nth E m i d).
  Proof. intros l m i c d H. revert i. induction H; intros i Hc; [destruct i; constructor|]. destruct i; cbn; constructor; auto. Qed.
  Lemma put_same : forall s u i c d, same_timeline k s u -> same_cmd k c d -> same_timeline k (put F i c s) (put E i d u).
  Proof. intros s u i c d (A & B & C & D & G) H. unfold put. repeat split; cbn; auto. apply replace_same; assumption. Qed.
  Lemma log_same : forall s u e f, same_timeline k s u -> same_event k e f -> same_timeline k (add_log F e s) (add_log E f u).
  Proof. intros s u e f (A & B & C & D & G) H. repeat split; cbn; auto. apply Forall2_app; [exact G|constructor; [exact H|constructor]]. Qed.
  Lemma rem_same : forall s u a b, same_timeline k s u -> same_timeline k (set_rem F a s) (set_rem E b u).
  Proof. intros s u a b (A & B & C & D & G). repeat split; auto. Qed.
  Lemma bind_same : forall {A B A' B'} (R : A -> B -> Prop) (R' : A' -> B' -> Prop) a b f g, same_outcome R a b -> (forall x y, R x y -> same_outcome R' (f x) (g y)) ->
    same_outcome R' (obind a f) (obind b g).
  Proof. intros A B A' B' R R' [] [] f g H Hf; cbn in *; auto; contradiction. Qed.
  Lemma pos_units : forall f z, units k f z -> SFltb (S754_zero false) f = (0 <? z).
  Proof. intros f z H. apply (lt_units k); [apply zero_units|exact H]. Qed.
  Lemma cmd_same : forall i c d x z s u, same_cmd k c d -> units k x z -> few z -> same_timeline k s u ->
    same_outcome (same_timeline k) (cmd_update F pf i c x s) (cmd_update E pz i d z u).
  Proof.
    intros i c d x z s u Hc Hx Hz H. assert (Fl : finished s = finished u) by apply H. destruct Hc; cbn [cmd_update].
    - unfold few in *. pose proof (sub_units k c x w z Hk H2 Hx ltac:(lia)) as S. pose proof (pos_units _ _ S) as Ps.
      cbn [float_wt exact_wt wsub wpos] in *. rewrite Ps. rewrite Fl. destruct (Z.ltb_spec 0 (w - z)) as [C|C].
      + apply put_same; [apply flags_same, H|]. constructor; try assumption; unfold few; lia.
      + eapply bind_same; [apply next_same, rem_same, flags_same, H|]. intros s' u' H'. cbn. apply put_same; [exact H'|]. constructor; assumption.
    - rewrite Fl. assert (P : pf p (log (set_flags F false (finished u) s)) = pz p (log (set_flags E false (finished u) u))) by (apply Hp; apply H).
      rewrite P. destruct (Bool.eqb _ b).
      + apply log_same; [apply flags_same, H|constructor].
      + apply next_same, log_same; [apply flags_same, H|constructor].
    - apply next_same, callback_same, log_same; [exact H|constructor].
    - destruct (m =? 0)%N; [apply next_same, H|]. unfold jumpTo. pose proof (put_same s u i (CGo g n (m - 1)) (CGo g n (m - 1)) H ltac:(constructor)) as (A & B & C & D & G).
      repeat split; cbn; auto.
  Qed.
  Lemma loop_same : forall fuel x z s u, units k x z -> few z -> same0 s u -> same_outcome same0 (update_loop F pf fuel x s) (update_loop E pz fuel z u).
  Proof.
    induction fuel as [|fuel IH]; intros x z s u Hx Hz (H & R1 & R2); [exact I|]. cbn [update_loop].
    assert (Ci : cidx s = cidx u) by apply H. unfold isCIdxNull. rewrite Ci. destruct (cidx u =? -1).
    { cbn. split; [apply flags_same, H|auto]. }
    destruct (cidx u <? 0); [exact I|].
    assert (Nt : forall n, match nth_error (cmds s) n, nth_error (cmds u) n with Some c, Some d => same_cmd k c d | None, None => True | _, _ => False end).
    { destruct H as (A & _). clear - A. induction A; intros [|n]; cbn; auto. apply IHA. }
    specialize (Nt (Z.to_nat (cidx u))). destruct (nth_error (cmds s) _) as [c|], (nth_error (cmds u) _) as [d|]; try contradiction; [|exact I].
    assert (W : units k (wadd F x (remainder s)) (wadd E z (remainder u))).
    { rewrite R1, R2. cbn [float_wt exact_wt wadd]. apply add_units; [exact Hk|exact Hx|apply zero_units|unfold few in Hz; lia]. }
    assert (Hw : few (wadd E z (remainder u))) by (rewrite R2; cbn; unfold few in *; lia).
    eapply bind_same; [apply cmd_same; eassumption|]. intros s' u' H'. cbv beta zeta.
    assert (H0 : same0 (set_rem F (wzero F) s') (set_rem E (wzero E) u')) by (split; [apply rem_same, H'|auto]).
    assert (Rd : ready (set_rem F (wzero F) s') = ready (set_rem E (wzero E) u')) by apply H'. revert Rd. destruct (ready (set_rem F (wzero F) s')), (ready (set_rem E (wzero E) u')); intros Rd; try discriminate Rd; [apply IH; assumption|exact H0].
  Qed.
  Lemma insert_same : forall i c d s u, same_cmd k c d -> same0 s u -> same_outcome same0 (insert F i c s) (insert E i d u).
  Proof.
    intros i c d s u Hc (H & R1 & R2). pose proof (len_same s u H) as L. unfold insert. rewrite L. destruct ((i <? 0) || (size u <? i)); [exact I|].
    destruct H as (A & B & C & D & G).
    assert (M : Forall2 (same_cmd k) (firstn (Z.to_nat i) (cmds s) ++ c :: skipn (Z.to_nat i) (cmds s)) (firstn (Z.to_nat i) (cmds u) ++ d :: skipn (Z.to_nat i) (cmds u))).
    { apply Forall2_app; [|constructor; [exact Hc|]].
      - clear - A. generalize (Z.to_nat i). induction A; intros [|n]; cbn; constructor; auto.
      - clear - A. generalize (Z.to_nat i). induction A; intros [|n]; cbn; auto. }
    unfold isCIdxNull. cbn [set_cmds cidx]. rewrite B. destruct (cidx u =? -1); cbn; repeat split; cbn; auto.
  Qed.
  Lemma step_same0 : forall fuel o p s u, same_op k o p -> same0 s u -> same_outcome same0 (step F pf fuel o s) (step E pz fuel p u).
  Proof.
    intros fuel o p s u Ho H. pose proof H as (Hs & R1 & R2). destruct Ho; cbn [step].
    - unfold append. rewrite (len_same s u Hs). apply insert_same; assumption.
    - apply insert_same; assumption.
    - cbn. split; [|auto]. destruct Hs as (A & B & C & D & G). repeat split; auto.
    - cbn. split; [apply flags_same, Hs|auto].
    - cbn. split; [apply flags_same, Hs|auto].
    - cbn. split; [|auto]. destruct Hs as (A & B & C & D & G). repeat split; cbn; auto.
    - cbn. split; [apply reset_same, Hs|auto].
    - unfold TimelineModel.update. assert (L : same_timeline k (add_log F (EFrame x) s) (add_log E (EFrame z) u)) by (apply log_same; [exact Hs|constructor; assumption]).
      assert (Fl : finished s = finished u) by apply Hs.
      change (finished (add_log F (EFrame (x : WT F)) s)) with (finished s). change (finished (add_log E (EFrame (z : WT E)) u)) with (finished u).
      rewrite Fl. destruct (finished u); [cbn; split; [exact L|auto]|]. apply loop_same; [assumption|assumption|]. split; [apply flags_same, L|auto].
  Qed.
  Lemma run_same0 : forall fuel ops zops s u, Forall2 (same_op k) ops zops -> same0 s u -> same_outcome same0 (run F pf fuel ops s) (run E pz fuel zops u).
  Proof.
    intros fuel ops zops s u H. revert s u. induction H as [|o p ops zops Ho H IH]; intros s u Hs; [exact Hs|]. cbn [run].
    eapply bind_same; [apply step_same0; eassumption|]. exact IH.
  Qed.
  Lemma new_same : forall st, same0 (new_timeline F st) (new_timeline E st).
  Proof. intros []; repeat split; cbn; constructor. Qed.
  Lemma timeline_same : forall fuel ops zops st, Forall2 (same_op k) ops zops ->
    same_outcome (same_timeline k) (run F pf fuel ops (new_timeline F st)) (run E pz fuel zops (new_timeline E st)).
  Proof.
    intros fuel ops zops st H. pose proof (run_same0 fuel ops zops _ _ H (new_same st)) as R.
    destruct (run F pf fuel ops _), (run E pz fuel zops _); cbn in *; auto. apply R.
  Qed.
End Same.

(** *** Waits that never end *)
Section Stuck.
  Context (pf : nat -> list (event spec_float) -> bool) (w : spec_float) (W B : Q) (rest : list (cmd float_wt)).
  Context (Hw : float_is w W) (H0 : (0 < W)%Q) (HB : (inject_Z (2 ^ 26) * B <= W)%Q).
  Definition waiting (j : Z) (h : list (event spec_float)) (s : timeline float_wt) : Prop :=
    exists c q, cmds s = CWait (O := float_wt) w c :: rest /\ float_is c q /\ (times_pow 2 1 j <= q <= W)%Q /\ cidx s = 0 /\ remainder s = S754_zero false /\ finished s = false /\ log s = h.
  Lemma wait_step : forall j fuel x h s, (-149 <= j <= 127) -> (times_pow 2 1 j <= W)%Q -> (W < times_pow 2 1 (j + 1))%Q -> frame_upto B x -> waiting j h s ->
    exists s', step float_wt pf (S fuel) (OUpdate (O := float_wt) x) s = Ok s' /\ waiting j (h ++ [EFrame x]) s'.
  Proof.
    intros j fuel x h s Hj L1 L2 (p & Vp & P0 & P1) (c & q & Ec & Vc & Cc & Ei & Er & Ef & El).
    assert (E26 : (times_pow 2 1 (j + 1) == inject_Z (2 ^ 26) * times_pow 2 1 (j - 25))%Q).
    { replace (j + 1) with (j - 25 + 26) by lia. apply pow_up. lia. }
    assert (I : (inject_Z (2 ^ 26) == 67108864)%Q) by reflexivity.
    assert (PB : (p < times_pow 2 1 (j - 25))%Q) by (rewrite I in *; rewrite E26 in L2; lra).
    assert (Y : exists y, float_is (SFadd 24 128 x (S754_zero false)) y /\ (y == p)%Q).
    { exists p. split; [|reflexivity]. apply exact_is; [eapply valid_float; exact Vp|]. eapply float_of_wd; [|apply add_rounds; [exact Vp|split; [reflexivity|cbn; reflexivity]]]. ring. }
    destruct Y as (y & Vy & Ey).
    pose proof (sub_rounds c (SFadd 24 128 x (S754_zero false)) q y Vc Vy) as A. pose proof (one_pos j) as J0.
    assert (J25 : (times_pow 2 1 (j - 25) <= times_pow 2 1 j)%Q) by (apply one_mono; lia).
    assert (R : in_range (q - y)).
    { unfold in_range. rewrite Qabs_pos by lra. pose proof (float_in_range W (valid_float _ _ Hw)) as RW. unfold in_range in RW. rewrite Qabs_pos in RW by lra. lra. }
    destruct (in_range_is _ _ R A) as (r & Vr & Nr).
    assert (Rl : (times_pow 2 1 j <= r)%Q) by (eapply (stuck_below j); [lia| |exact Nr]; lra).
    assert (Ru : (r <= W)%Q) by (eapply nearest_below; [exact Nr|eapply valid_float; exact Hw|lra]).
    assert (Ps : SFltb (S754_zero false) (SFsub 24 128 c (SFadd 24 128 x (S754_zero false))) = true).
    { apply (ltb_value _ _ 0%Q r); [split; [reflexivity|cbn; reflexivity]|exact Vr|lra]. }
    cbn [step]. unfold TimelineModel.update. destruct s as [cm ix rm rd fn lg]. cbn [cmds cidx remainder finished log] in *. subst cm ix rm fn lg.
    cbn [add_log finished set_flags update_loop isCIdxNull cidx cmds remainder]. cbn [Z.eqb Z.ltb Z.compare Z.to_nat nth_error cmd_update].
    change (wpos float_wt (wsub float_wt c (wadd float_wt x (S754_zero false)))) with (SFltb (S754_zero false) (SFsub 24 128 c (SFadd 24 128 x (S754_zero false)))).
    rewrite Ps. cbn [obind]. eexists. split; [reflexivity|].
    exists (SFsub 24 128 c (SFadd 24 128 x (S754_zero false))), r. repeat split; try apply Vr; try reflexivity; assumption.
  Qed.
  Lemma wait_for_ever : forall fuel fts, Forall (frame_upto B) fts -> forall s, cmds s = Wait (O := float_wt) w :: rest -> cidx s = 0 -> remainder s = S754_zero false -> finished s = false ->
    exists s', run float_wt pf (S fuel) (map (fun x => OUpdate (O := float_wt) x) fts) s = Ok s' /\ (exists c, cmds s' = c :: rest) /\ cidx s' = 0 /\ finished s' = false /\ log s' = log s ++ map EFrame fts.
  Proof.
    intros fuel fts Hf s Ec Ei Er Ef. destruct (power_at W (valid_float _ _ Hw) H0) as (j & Hj & L1 & L2).
    assert (Wt : waiting j (log s) s). { exists w, W. split; [exact Ec|]. split; [exact Hw|]. repeat split; try assumption; lra. }
    clear Ec Ei Er Ef. generalize dependent (log s). intros h. revert h s. induction Hf as [|x fts Hx Hf IH]; intros h s Wt.
    - exists s. destruct Wt as (c & q & Ec & Vc & Cc & Ei & Er & Ef & El). split; [reflexivity|]. rewrite app_nil_r. eauto.
    - destruct (wait_step j fuel x h s Hj L1 L2 Hx Wt) as (s1 & E1 & W1). cbn [map run]. rewrite E1. cbn [obind].
      destruct (IH _ _ W1) as (s2 & E2 & A0 & A & C & D). exists s2. split; [exact E2|]. split; [exact A0|]. split; [exact A|]. split; [exact C|]. rewrite D, <- app_assoc. reflexivity.
  Qed.
End Stuck.
Lemma append_all : forall pf fuel (l : list (cmd float_wt)) c, let s' := {| cmds := c :: l; cidx := 0; remainder := S754_zero false; ready := true; finished := false; log := [] |} in
  run float_wt pf fuel (map OAppend (c :: l)) (new_timeline float_wt true) = Ok s'.
Proof.
  intros pf fuel l c s'.
  assert (G : forall l a h, run float_wt pf fuel (map OAppend l) {| cmds := c :: a; cidx := 0; remainder := S754_zero false; ready := true; finished := false; log := h |} =
    Ok {| cmds := c :: a ++ l; cidx := 0; remainder := S754_zero false; ready := true; finished := false; log := h |}).
  { clear. induction l as [|d l IH]; intros a h; [cbn; rewrite app_nil_r; reflexivity|]. cbn [map run step]. unfold append, insert, size. cbn [cmds].
    set (n := Z.of_nat (length (c :: a))). assert (0 <= n) by (unfold n; lia). destruct (Z.ltb_spec n 0); [lia|]. rewrite Z.ltb_irrefl. cbn [orb]. unfold n. rewrite Nat2Z.id.
    rewrite firstn_all, skipn_all. cbn [obind isCIdxNull set_cmds cidx Z.eqb cmds remainder ready finished log app].
    etransitivity; [exact (IH (a ++ [d]) h)|]. rewrite <- app_assoc. reflexivity. }
  cbn [map run step]. unfold append, insert. cbn. exact (G l [] []).
Qed.
Lemma run_app : forall O pf fuel a b s, run O pf fuel (a ++ b) s = obind (run O pf fuel a s) (run O pf fuel b).
Proof. intros O pf fuel a b. induction a as [|o a IH]; intros s; [reflexivity|]. cbn [app run]. destruct (step O pf fuel o s); cbn [obind]; auto. Qed.
Lemma wait_stuck : forall pf fuel w W B l fts, float_is w W -> (0 < W)%Q -> (inject_Z (2 ^ 26) * B <= W)%Q -> Forall (frame_upto B) fts ->
  exists s, run float_wt pf (S fuel) (map OAppend (Wait (O := float_wt) w :: l) ++ map (fun x => OUpdate (O := float_wt) x) fts) (new_timeline float_wt true) = Ok s /\
    getCurrentIndex s = 0 /\ finished s = false /\ log s = map EFrame fts.
Proof.
  intros pf fuel w W B l fts Hw W0 HB Hf. rewrite run_app, append_all. cbn [obind].
  destruct (wait_for_ever pf w W B l Hw W0 HB fuel fts Hf {| cmds := Wait (O := float_wt) w :: l; cidx := 0; remainder := S754_zero false; ready := true; finished := false; log := [] |}) as (s & E & (c & Ec) & A & C & D); try reflexivity.
  exists s. split; [exact E|]. split; [|auto]. unfold getCurrentIndex, isCIdxNull, size. rewrite A, Ec. cbn [Z.eqb length]. destruct (Z.ltb_spec 0 (Z.of_nat (S (length l)))); [reflexivity|lia].
Qed.
