(** Floats as text. *)
From Coq Require Import String Ascii ZArith NArith Arith Bool Lia List QArith Qabs Qpower Lqa.
From Coq Require Import Floats.SpecFloat.
From Verif Require Import Common CmdModel CastModel IntToStrSpec JsonNumModel JsonSpec RealSpec RealProofs RealTextProofs FltModel FltSpec Flt32Proofs FltTextProofs Flt32ReadProofs.
Import ListNotations.
Local Open Scope Q_scope.

Lemma printed_wd : forall q r t, q == r -> printed q t -> printed r t.
Proof.
  intros q r t E (ip & fp & ex & ev & Et & N & F1 & F2 & L & V & C). exists ip, fp, ex, ev. rewrite <- E. auto 10.
Qed.
Lemma widen_value : forall f q, valid_binary 24 128 f = true -> has_value f q -> valid_binary 53 1024 (widen f) = true /\ has_value (widen f) q.
Proof.
  intros [s|s| |s m e] q V H; cbn [has_value] in H; try contradiction; cbn [widen]; [split; [reflexivity|exact H]|].
  apply valid_iff in V. destruct V as (Bm & Be & _).
  assert (X : sgn_of s (times_pow 2 (Zpos m) e) == times_pow 2 (if s then Z.neg m else Z.pos m) e).
  { destruct s; cbn [sgn_of]; [|reflexivity]. change (Z.neg m) with (- Z.pos m)%Z. rewrite times_opp. reflexivity. }
  destruct (scaled_rounds s (Zpos m) 2 e ltac:(lia) ltac:(lia)) as [(q0 & N & U & V0 & H0)|[_ O]].
  - split; [exact V0|]. apply (value_wd _ q0); [|exact H0].
    rewrite H. rewrite <- X. apply double_self; [|exact N]. exists (if s then Z.neg m else Z.pos m), e.
    split; [split; [destruct s; lia|lia]|exact X].
  - exfalso. assert (C : times_pow 2 (Zpos m) e < times_pow 2 1 900).
    { rewrite (times_shift 2 1 e 900) by lia. unfold times_pow. apply Qmult_lt_r; [apply pow_pos'; lia|]. rewrite <- Zlt_Qlt.
      assert (2 ^ 24 <= 2 ^ (900 - e))%Z by (apply Z.pow_le_mono_r; lia). lia. }
    lra.
Qed.
Lemma write_float : forall f q, valid_binary 24 128 f = true -> has_value f q -> ~ q == 0 ->
  exists (neg : bool) r t, (if neg then q < 0 else 0 < q) /\ nearest_six (Qabs q) r /\ printed r t /\ toStr_float f = (if neg then ["-"%char] else []) ++ t.
Proof. intros f q V H Nz. destruct (widen_value f q V H) as [V' H']. exact (print_value (widen f) q V' H' Nz). Qed.
(** The range is decidable: a number is a float exactly when reading it is exact. *)
Lemma range_dec32 : forall x, float_range x \/ ~ float_range x.
Proof.
  intros x. destruct (Qlt_le_dec (Qabs x) (times_pow 2 (2 ^ 25 - 1) 103)) as [A|A]; [|right; intros [C _]; apply (Qlt_not_le _ _ C), A].
  destruct (Qlt_le_dec (Qabs x) (times_pow 2 (2 ^ 25 - 1) (-151))) as [B|B]; [|left; split; auto].
  assert (D : is_float x \/ ~ is_float x).
  { destruct (Qeq_dec x 0) as [E|Nz].
    - left. exists 0%Z, 0%Z. split; [split; [reflexivity|lia]|]. rewrite E, times_zero. reflexivity.
    - assert (Px : 0 < Qabs x) by (destruct (Qlt_le_dec 0 x) as [L|L]; [rewrite Qabs_pos by lra; exact L|rewrite Qabs_neg by exact L; destruct (Qle_lt_or_eq _ _ L) as [C|C]; [lra|contradiction]]).
      destruct (as_ratio (Qabs x) Px) as (n & d & Ex). 
      destruct (ratio_round false n d) as (N & D & R & e & HD & HN & Hr & HR & He & Hc & Hx & Hp). rewrite <- Ex in Hx.
      pose proof (proj2 (fits32 N D R e (Qabs x) HD HN Hr HR He Hc Hx) A) as Fits.
      pose proof (rounded_nearest N D R e _ HD Hr HR He Hc Hx Fits) as Near.
      assert (Dd : is_float (Qabs x) \/ ~ is_float (Qabs x)).
      { destruct (Qeq_dec (times_pow 2 R e) (Qabs x)) as [E|E].
        - left. apply (proj1 (nearest_wd2 _ _ _ E Near)).
        - right. intros I. apply E. apply float_self; assumption. }
      assert (Op : forall y z, y == z -> is_float y -> is_float z) by (intros y z E (m & k & Bm & Em); exists m, k; split; [exact Bm|]; rewrite <- E; exact Em).
      destruct (Qlt_le_dec x 0) as [L|L].
      + assert (E : Qabs x == - x) by (apply Qabs_neg; lra). destruct Dd as [Dd|Dd]; [left|right; intros I; apply Dd].
        * apply (Op (- Qabs x)); [rewrite E; ring|]. apply is_float_opp, Dd.
        * apply (Op (- x)); [symmetry; exact E|]. apply is_float_opp, I.
      + assert (E : Qabs x == x) by (apply Qabs_pos; exact L). destruct Dd as [Dd|Dd]; [left; apply (Op _ _ E Dd)|right; intros I; apply Dd, (Op _ _ (Qeq_sym _ _ E) I)]. }
  destruct D as [D|D]; [left; split; auto|right]. intros [_ [C|C]]; [apply (Qlt_not_le _ _ B), C|apply D, C].
Qed.
Lemma read_float : forall t neg m e, starts_with t neg m e -> let x := times_pow 10 (if neg then - m else m) e in
  (float_range x -> exists f q, sToFloat t = Ok f /\ nearest_float x q /\ valid_binary 24 128 f = true /\ has_value f q /\ has_sign f neg) /\
  (~ float_range x -> sToFloat t = terminated).
Proof.
  intros t neg m e T x. pose proof (read_scaled_spec32 neg m 10 e ltac:(lia) (text_nonneg _ _ _ _ T)) as R.
  apply (reads_wd32 _ x) in R; [|unfold x; destruct neg; cbn [sgn_of]; [rewrite times_opp|]; reflexivity].
  unfold sToFloat. rewrite (stofd_text 24 128 t neg m e T). destruct R as [R1 R2]. split.
  - intros Rg. destruct (R1 Rg) as (f & q & -> & N & _ & V & H & Sg). exists f, q. auto.
  - intros Rg. rewrite (R2 Rg). reflexivity.
Qed.
Lemma no_number_float : forall bl sg rest neg, Forall c_blank bl -> sign_text sg neg ->
  match rest with [] => True | c :: _ => ~ IntToStrSpec.is_digit c /\ ~ In c ["."; "i"; "I"; "n"; "N"]%char /\ (sg = [] -> ~ c_blank c /\ ~ In c ["+"; "-"]%char) end ->
  sToFloat (bl ++ sg ++ rest) = terminated.
Proof. intros bl sg rest neg F S H. unfold sToFloat. rewrite (no_number _ _ _ _ _ neg F S H). reflexivity. Qed.

(** *** Back and forth *)
Lemma printed_starts32 : forall r t (neg : bool), printed r t -> exists m e, starts_with ((if neg then ["-"%char] else []) ++ t) neg m e /\ r == times_pow 10 m e.
Proof.
  intros r t neg P. destruct (printed_number r t neg P) as (m & e & (ip & frac & fp & ex & ev & Et & N & F1 & Hf & X & Em & Ee) & V). exists m, e. split; [|exact V].
  exists [], (if neg then ["-"%char] else []), (ip ++ frac ++ ex), []. rewrite app_nil_r. split; [exact Et|]. split; [constructor|].
  split; [destruct neg; [right; right|left]; auto|]. split; [|exact I].
  exists ip, (match frac with [] => [] | _ => ["."%char] end), fp, ex, ev.
  destruct Hf as [(-> & ->)|(-> & Nf & Ff)].
  - cbn [app]. rewrite app_nil_r in *. split; [reflexivity|]. split; [auto|]. split; [exact N|]. split; [exact F1|]. split; [constructor|]. auto.
  - split; [reflexivity|]. split; [auto|]. split; [intros C; apply app_eq_nil in C; tauto|]. auto.
Qed.
Lemma sgn_six32 : forall (s : bool) x, is_six x -> is_six (sgn_of s x).
Proof. intros [] x H; cbn [sgn_of]; [apply is_six_opp|]; exact H. Qed.
Lemma sgn_nearest32 : forall (s : bool) x q, nearest_float x q -> nearest_float (sgn_of s x) (sgn_of s q).
Proof. intros [] x q H; cbn [sgn_of]; [apply nearest_opp|]; exact H. Qed.
Lemma sgn_text32 : forall (neg : bool) m e, times_pow 10 (if neg then - m else m) e == sgn_of neg (times_pow 10 m e).
Proof. intros [] m e; cbn [sgn_of]; [apply times_opp|reflexivity]. Qed.
Lemma near_pos32 : forall x q, times_pow 2 1 (-126) <= x -> x < times_pow 2 (2 ^ 25 - 1) 103 -> nearest_float x q -> 0 < q.
Proof.
  intros x q L H N. pose proof (near32 x q L H N) as D. assert (P0 : 0 < times_pow 2 1 (-126)) by (unfold Qlt; vm_compute; reflexivity).
  destruct (Qlt_le_dec 0 q) as [C|C]; [exact C|exfalso]. rewrite Qabs_neg in D by lra.
  assert (B : 1 < inject_Z (2 ^ 24)) by (unfold Qlt; vm_compute; reflexivity). set (w := inject_Z (2 ^ 24)) in *. clearbody w. nra.
Qed.
Lemma range_normal32 : forall (s : bool) x, times_pow 2 1 (-126) <= x -> x < times_pow 2 (2 ^ 25 - 1) 103 -> float_range (sgn_of s x).
Proof.
  intros s x L H. assert (P0 : 0 < times_pow 2 1 (-126)) by (unfold Qlt; vm_compute; reflexivity). split; rewrite sgn_abs32 by lra; [exact H|left].
  eapply Qle_trans; [|exact L]. unfold Qle. vm_compute. discriminate.
Qed.
Lemma normal_x32 : forall x q, times_pow 2 1 (-126) < q -> nearest_float x q -> times_pow 2 1 (-126) <= x.
Proof.
  intros x q Lq [_ Min]. destruct (Qlt_le_dec x (times_pow 2 1 (-126))) as [C|C]; [exfalso|exact C].
  destruct (Min (times_pow 2 1 (-126))) as [D|[D _]].
  - exists 1%Z, (-126)%Z. split; [split; [reflexivity|lia]|reflexivity].
  - intros E. lra.
  - set (w := times_pow 2 1 (-126)) in *. clearbody w. rewrite !Qabs_pos in D by lra. lra.
  - set (w := times_pow 2 1 (-126)) in *. clearbody w. rewrite !Qabs_pos in D by lra. lra.
Qed.
Lemma six_float : forall t neg m e, starts_with t neg m e -> is_six (times_pow 10 m e) ->
  times_pow 2 1 (-126) <= times_pow 10 m e -> times_pow 10 m e < times_pow 2 (2 ^ 25 - 1) 103 ->
  exists f t', sToFloat t = Ok f /\ toStr_float f = (if neg then ["-"%char] else []) ++ t' /\ printed (times_pow 10 m e) t'.
Proof.
  intros t neg m e T Sx Lo Hi. set (x := times_pow 10 m e) in *.
  destruct (read_float t neg m e T) as [R1 _]. destruct R1 as (f & q & E & N & V & H & Sg).
  { apply (range_wd32 (sgn_of neg x)); [symmetry; apply sgn_text32|]. apply range_normal32; assumption. }
  apply (nearest_wd _ (sgn_of neg x)) in N; [|apply sgn_text32]. apply (sgn_nearest32 neg) in N.
  assert (Ex : sgn_of neg (sgn_of neg x) == x) by (destruct neg; cbn [sgn_of]; ring). apply (nearest_wd _ _ _ Ex) in N.
  pose proof (near_pos32 _ _ Lo Hi N) as Pq.
  assert (Nz : ~ q == 0) by (intros C; destruct neg; cbn [sgn_of] in Pq; rewrite C in Pq; lra).
  destruct (write_float f q V H Nz) as (neg' & r & t' & Sn & Nr & P & Et).
  assert (neg' = neg) as -> by (destruct neg, neg'; cbn [sgn_of] in Pq; try reflexivity; lra).
  exists f, t'. split; [exact E|]. split; [exact Et|].
  assert (Eq : Qabs q == sgn_of neg q) by (destruct neg; cbn [sgn_of] in *; [apply Qabs_neg|apply Qabs_pos]; lra).
  assert (Er : r == x).
  { apply (six_same32 x (Qabs q)); try assumption; [apply (nearest_wd2 _ (sgn_of neg q)); [symmetry; exact Eq|exact N]|rewrite Eq; exact Pq]. }
  apply (printed_wd r); assumption.
Qed.
Lemma back_float : forall f q, valid_binary 24 128 f = true -> has_value f q -> times_pow 2 1 (-126) < Qabs q ->
  (sToFloat (toStr_float f) = Ok f <-> exists x, is_six x /\ Qabs x < times_pow 2 (2 ^ 25 - 1) 103 /\ nearest_float x q).
Proof.
  intros f q V H Lq. assert (P0 : 0 < times_pow 2 1 (-126)) by (unfold Qlt; vm_compute; reflexivity).
  assert (Nz : ~ q == 0) by (intros C; rewrite C in Lq; change (Qabs 0) with 0 in Lq; lra).
  destruct (write_float f q V H Nz) as (neg & r & t & Sn & Nr & P & Et). rewrite Et.
  assert (Pr : 0 < r) by (apply (nearest_six_pos (Qabs q)); [lra|exact Nr]).
  destruct (printed_starts32 r t neg P) as (m & e & T & Er). destruct (read_float _ neg m e T) as [R1 R2].
  assert (Ex : times_pow 10 (if neg then - m else m) e == sgn_of neg r) by (rewrite sgn_text32; destruct neg; cbn [sgn_of]; rewrite Er; reflexivity).
  split.
  - intros E. assert (Rg : float_range (times_pow 10 (if neg then - m else m) e) \/ ~ float_range (times_pow 10 (if neg then - m else m) e)).
    { pose proof (read_scaled_spec32 neg m 10 e ltac:(lia) (text_nonneg _ _ _ _ T)) as [_ Nn].
      unfold sToFloat in E. rewrite (stofd_text 24 128 _ neg m e T) in E.
      pose proof (range_dec32 (times_pow 10 (if neg then - m else m) e)). tauto. }
    destruct Rg as [Rg|Rg]; [|rewrite (R2 Rg) in E; discriminate E].
    destruct (R1 Rg) as (f' & q' & E' & N & V' & H' & _). rewrite E in E'. injection E' as <-.
    pose proof (value_unique f q q' H H') as Eq. exists (sgn_of neg r). split; [apply sgn_six32, Nr|]. split.
    + destruct (range_wd32 _ _ Ex Rg) as [B _]. exact B.
    + apply (nearest_wd _ _ _ Ex). apply (nearest_wd2 _ q'); [symmetry; exact Eq|exact N].
  - intros (x & Sx & Bx & Nx).
    assert (Eq : sgn_of neg q == Qabs q) by (destruct neg; cbn [sgn_of]; [rewrite Qabs_neg by lra|rewrite Qabs_pos by lra]; reflexivity).
    pose proof (nearest_wd2 _ _ _ Eq (sgn_nearest32 neg _ _ Nx)) as Ny. pose proof (sgn_six32 neg x Sx) as Sy.
    assert (By : Qabs (sgn_of neg x) < times_pow 2 (2 ^ 25 - 1) 103) by (destruct neg; cbn [sgn_of]; [rewrite Qabs_opp|]; exact Bx).
    assert (Exy : sgn_of neg (sgn_of neg x) == x) by (destruct neg; cbn [sgn_of]; ring).
    set (y := sgn_of neg x) in *. clearbody y.
    pose proof (normal_x32 y (Qabs q) Lq Ny) as Ly. rewrite Qabs_pos in By by lra.
    assert (Ery : r == y) by (apply (six_same32 y (Qabs q)); try assumption; lra).
    assert (Exx : times_pow 10 (if neg then - m else m) e == x) by (rewrite Ex, <- Exy; destruct neg; cbn [sgn_of]; rewrite Ery; reflexivity).
    destruct R1 as (f' & q' & E' & N & V' & H' & _).
    { apply (range_wd32 (sgn_of neg y)); [rewrite Ex; destruct neg; cbn [sgn_of]; rewrite Ery; reflexivity|]. apply range_normal32; assumption. }
    rewrite E'. f_equal. apply (same_value f' f q); try assumption.
    assert (Eqq : q' == q).
    { pose proof (read_scaled_spec32 neg m 10 e ltac:(lia) (text_nonneg _ _ _ _ T)) as [R3 _].
      destruct R3 as (f3 & q3 & _ & _ & U & _).
      - apply (range_wd32 (sgn_of neg y)); [rewrite <- sgn_text32, Ex; destruct neg; cbn [sgn_of]; rewrite Ery; reflexivity|]. apply range_normal32; assumption.
      - rewrite (U q'), (U q); [reflexivity| |].
        + apply (nearest_wd x); [rewrite <- sgn_text32, Exx; reflexivity|exact Nx].
        + apply (nearest_wd (times_pow 10 (if neg then - m else m) e)); [apply sgn_text32|exact N]. }
    apply (value_wd f' q'); assumption.
Qed.
