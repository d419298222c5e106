(** Proofs about the timeline manager. *)
From Coq Require Import String ZArith NArith Arith Bool Lia List Permutation.
From Verif Require Import Common ListAux MemModel MemSpec MemProofs MemHeapProofs MemRunProofs TimelineModel TimelineMgrModel TimelineMgrSpec.
Import ListNotations.
Local Open Scope nat_scope.

Section P.
  Context (tty : ty) (O : wt_ops) (pred : nat -> list (event (WT O)) -> bool).
  Notation set_tl := (set_tl O).
  Notation ginv := (ginv tty).
  Notation flagged := (map (fun x : nat * bool => (fst x, negb (snd x)))).

  Lemma set_tl_len : forall l k t, length (set_tl l k t) = length l.
  Proof. induction l as [|x l IH]; intros [|k] t; cbn; rewrite ?IH; reflexivity. Qed.
  Lemma set_tl_same : forall l k t, k < length l -> nth_error (set_tl l k t) k = Some t.
  Proof. induction l as [|x l IH]; intros [|k] t H; cbn in *; try lia; [reflexivity|]. apply IH. lia. Qed.
  Lemma set_tl_other : forall l k j t, j <> k -> nth_error (set_tl l k t) j = nth_error l j.
  Proof. induction l as [|x l IH]; intros [|k] [|j] t H; cbn; try reflexivity; try lia. apply IH. lia. Qed.

  Lemma update_all_spec : forall fuel ft ids l n l', update_all O pred fuel ft n ids l = Some l' ->
    length l' = length l /\ forall k t, nth_error l k = Some t ->
      if existsb (Nat.eqb (n + k)) ids then exists t', step O pred fuel (OUpdate ft) t = Ok t' /\ nth_error l' k = Some t'
      else nth_error l' k = Some t.
  Proof.
    induction l as [|x l IH]; intros n l' H; cbn [update_all] in H.
    - injection H as <-. split; [reflexivity|]. intros [|k] t; discriminate.
    - destruct (if existsb (Nat.eqb n) ids then _ else _) as [x'|] eqn:X; [|discriminate].
      destruct (update_all O pred fuel ft (S n) ids l) as [r|] eqn:R; [|discriminate]. injection H as <-.
      destruct (IH _ _ R) as [I1 I2]. split; [cbn; lia|]. intros [|k] t Hk; cbn [nth_error] in *.
      + injection Hk as ->. rewrite Nat.add_0_r. destruct (existsb (Nat.eqb n) ids).
        * destruct (step O pred fuel (OUpdate ft) t) as [t'| | |]; try discriminate. injection X as <-. eauto.
        * injection X as ->. reflexivity.
      + replace (n + S k) with (S n + k) by lia. apply I2. exact Hk.
  Qed.
  Lemma nth_ext_error : forall {A} (a b : list A), length a = length b -> (forall k, k < length a -> nth_error a k = nth_error b k) -> a = b.
  Proof.
    induction a as [|x a IH]; intros [|y b] L H; cbn in L; try lia; [reflexivity|].
    f_equal; [specialize (H 0 ltac:(cbn; lia)); cbn in H; congruence|]. apply IH; [lia|].
    intros k Hk. apply (H (S k)). cbn. lia.
  Qed.

  Definition mark (ids : list nat) (l : list (timeline O)) (x : nat * bool) : nat * bool :=
    if existsb (Nat.eqb (fst x)) ids && finished_in O l (fst x) then (fst x, false) else x.

  Lemma mgr_step_ok' : forall o s sp sp', ginv (made sp) s sp -> okop tty o -> mspec_step o sp = Some sp' ->
    (N.of_nat (made sp') < UINT_WRAP)%N -> exists s', mgr_step tty o s = Ok s' /\ ginv (made sp') s' sp'.
  Proof.
    intros o s sp sp' I K E W. destruct (mgr_step_ok tty o s sp sp' (made sp) I K) as (s' & E' & I'); auto.
    - pose proof (made_step _ _ _ E). lia.
    - exists s'. split; [exact E'|]. eapply ginv_made, I'.
  Qed.

  Lemma existsb_in : forall k l, existsb (Nat.eqb k) l = true <-> In k l.
  Proof.
    intros k l. rewrite existsb_exists. split; [intros (x & H & E); apply Nat.eqb_eq in E; subst; exact H|].
    intros H. exists k. split; [exact H|]. apply Nat.eqb_refl.
  Qed.

  Lemma visits_ok : forall fuel ft ids l m msp, NoDup ids -> ginv (made msp) m msp -> (N.of_nat (made msp) < UINT_WRAP)%N ->
    (forall k, In k ids -> In k (map fst (owned msp)) /\ exists t t', nth_error l k = Some t /\ step O pred fuel (OUpdate ft) t = Ok t') ->
    exists m' l' msp', tm_visits tty O pred fuel ft (map Some ids) {| ms := m; tls := l |} = Ok {| ms := m'; tls := l' |}
      /\ length l' = length l
      /\ (forall k t, nth_error l k = Some t ->
            if existsb (Nat.eqb k) ids then exists t', step O pred fuel (OUpdate ft) t = Ok t' /\ nth_error l' k = Some t'
            else nth_error l' k = Some t)
      /\ ginv (made msp') m' msp' /\ owned msp' = map (mark ids l') (owned msp)
      /\ made msp' = made msp /\ gone msp' = gone msp /\ shown msp' = shown msp.
  Proof.
    induction ids as [|i ids IH]; intros l m msp ND I W H.
    - exists m, l, msp. cbn [map tm_visits existsb]. split; [reflexivity|]. split; [reflexivity|]. split; [auto|]. split; [exact I|].
      split; [|auto]. rewrite <- (map_id (owned msp)) at 1. apply map_ext. intros x. reflexivity.
    - inversion ND as [|? ? N1 N2]; subst. destruct (H i (or_introl eq_refl)) as (Oi & t & t' & Ht & St).
      assert (Li : i < length l) by (apply nth_error_Some; rewrite Ht; discriminate).
      cbn [map tm_visits]. unfold tm_visit at 1. cbn [tls ms]. rewrite Ht, St. cbn [obind].
      assert (X : exists m1 msp1, (if finished t' then obind (mgr_step tty (MDel i) m) (fun m0 => Ok {| ms := m0; tls := set_tl l i t' |})
            else Ok {| ms := m; tls := set_tl l i t' |}) = Ok {| ms := m1; tls := set_tl l i t' |}
          /\ ginv (made msp1) m1 msp1 /\ owned msp1 = map (fun x => if (fst x =? i) && finished t' then (fst x, false) else x) (owned msp)
          /\ made msp1 = made msp /\ gone msp1 = gone msp /\ shown msp1 = shown msp).
      { destruct (finished t') eqn:F.
        - destruct (mgr_step_ok' (MDel i) m msp {| owned := map (fun x => if fst x =? i then (fst x, false) else x) (owned msp); shown := shown msp;
              made := made msp; gone := gone msp; room := room msp |} I Logic.I) as (m1 & E1 & I1).
          + cbn [mspec_step]. replace (existsb (fun x => fst x =? i) (owned msp)) with true; [reflexivity|].
            symmetry. apply existsb_exists. apply in_map_iff in Oi as (x & Ex & Hx). exists x. split; [exact Hx|]. apply Nat.eqb_eq. exact Ex.
          + exact W.
          + rewrite E1. cbn [obind]. exists m1. eexists. split; [reflexivity|]. split; [exact I1|]. cbn [owned made gone shown]. split; [|auto].
            apply map_ext. intros x. rewrite andb_true_r. reflexivity.
        - exists m, msp. split; [reflexivity|]. split; [exact I|]. split; [|auto].
          rewrite <- (map_id (owned msp)) at 1. apply map_ext. intros x. rewrite andb_false_r. reflexivity. }
      destruct X as (m1 & msp1 & -> & I1 & O1 & M1 & G1 & S1). cbn [obind].
      destruct (IH (set_tl l i t') m1 msp1 N2 I1) as (m' & l' & msp' & E & L & P & I' & O' & M' & G' & S').
      { rewrite M1. exact W. }
      { intros k Hk. destruct (H k (or_intror Hk)) as (Ok' & t0 & t1 & A & B). split.
        - rewrite O1. apply in_map_iff in Ok' as (x & Ex & Hx). apply in_map_iff.
          exists (if (fst x =? i) && finished t' then (fst x, false) else x). split; [destruct (_ && _); exact Ex|].
          apply in_map_iff. exists x. auto.
        - exists t0, t1. split; [|exact B]. rewrite set_tl_other; [exact A|]. intros ->. contradiction. }
      exists m', l', msp'. split; [exact E|]. rewrite set_tl_len in L. split; [exact L|].
      assert (Pi : nth_error l' i = Some t').
      { specialize (P i t' (set_tl_same l i t' Li)). replace (existsb (Nat.eqb i) ids) with false in P; [exact P|].
        symmetry. apply not_true_is_false. rewrite existsb_in. exact N1. }
      split.
      { intros k t0 Hk. cbn [existsb]. destruct (Nat.eqb_spec k i) as [->|Q]; cbn [orb].
        - rewrite Ht in Hk. injection Hk as <-. eauto.
        - specialize (P k t0). rewrite set_tl_other in P by exact Q. exact (P Hk). }
      split; [exact I'|]. split; [|rewrite M', G', S'; auto].
      rewrite O', O1, map_map. apply map_ext. intros [k f]. unfold mark. cbn [fst].
      destruct (Nat.eqb_spec k i) as [->|Q]; cbn [andb existsb orb fst].
      + assert (C : existsb (Nat.eqb i) ids = false) by (apply not_true_is_false; rewrite existsb_in; exact N1).
        unfold finished_in. rewrite Pi. destruct (finished t'); cbn [fst andb orb]; rewrite ?Nat.eqb_refl, ?C; cbn [orb andb]; reflexivity.
      + apply Nat.eqb_neq in Q. rewrite Q. reflexivity.
  Qed.

  Definition TI (st : tmgr O) (sp : tspec O) : Prop :=
    exists msp, ginv (made msp) (ms st) msp /\ tls st = contents sp /\ length (contents sp) = made msp
      /\ owned msp = flagged (present sp) /\ gone msp = removed sp.

  Lemma owned_nodup : forall bd s msp, ginv bd s msp -> NoDup (map fst (owned msp)) /\ forall k, In k (map fst (owned msp)) -> k < made msp.
  Proof.
    intros bd s msp (live & fr & I & A).
    destruct A as (A1 & A2 & A3 & A4 & A5 & A6 & A7 & A8 & A9 & A10 & A11 & A12 & A13 & A14).
    assert (N : NoDup (gone msp ++ map fst (owned msp))) by (eapply Permutation_NoDup; [symmetry; exact A11|apply seq_NoDup]).
    split; [clear -N; induction (gone msp) as [|x l IH]; [exact N|]; inversion N; auto|]. intros k Hk.
    assert (In k (seq 0 (made msp))) by (eapply Permutation_in; [exact A11|]; apply in_or_app; auto).
    apply in_seq in H. lia.
  Qed.
  Lemma flagged_fst : forall l, map fst (flagged l) = map fst l.
  Proof. intros. rewrite map_map. reflexivity. Qed.
  Lemma filter_flagged : forall l, filter (fun x : nat * bool => snd x) (flagged l) = flagged (filter (fun x => negb (snd x)) l).
  Proof. induction l as [|[k b] l IH]; cbn; [reflexivity|]. destruct b; cbn; rewrite IH; reflexivity. Qed.
  Lemma filter_flagged' : forall l, filter (fun x : nat * bool => negb (snd x)) (flagged l) = flagged (filter (fun x => snd x) l).
  Proof. induction l as [|[k b] l IH]; cbn; [reflexivity|]. destruct b; cbn; rewrite IH; reflexivity. Qed.

  Lemma perm_somes : forall (a : list (option nat)) (b : list nat), Permutation a (map Some b) -> exists c, a = map Some c /\ Permutation c b.
  Proof.
    intros a b P. assert (X : exists c, a = map Some c).
    { assert (F : forall x, In x a -> exists k, x = Some k).
      { intros x Hx. eapply Permutation_in in Hx; [|exact P]. apply in_map_iff in Hx as (k & <- & _). eauto. }
      clear P. induction a as [|x a IH]; [exists []; reflexivity|].
      destruct IH as [c ->]; [intros y Hy; apply F; right; exact Hy|].
      destruct (F x (or_introl eq_refl)) as [k ->]. exists (k :: c). reflexivity. }
    destruct X as [c ->]. exists c. split; [reflexivity|].
    assert (Q : map (fun x => match x with Some k => k | None => 0 end) (map Some c) = c) by (rewrite map_map, map_id; reflexivity).
    assert (Q' : map (fun x => match x with Some k => k | None => 0 end) (map Some b) = b) by (rewrite map_map, map_id; reflexivity).
    rewrite <- Q, <- Q'. apply Permutation_map. exact P.
  Qed.

  Lemma tm_step_ok : forall fuel o st sp sp', TI st sp -> tspec_step O pred fuel o sp = Some sp' ->
    (N.of_nat (length (contents sp')) < UINT_WRAP)%N ->
    exists st', tm_step tty O pred fuel o st = Ok st' /\ TI st' sp'.
  Proof.
    intros fuel o st sp sp' (msp & I & T & Lc & Ow & Gn) E W. destruct st as [m l]. cbn [ms tls] in *. subst l.
    destruct o as [|ft| |k o]; cbn [tspec_step tm_step] in *.
    - injection E as <-. cbn [contents] in W. rewrite app_length in W. cbn [length] in W.
      unfold tm_create. cbn [ms tls].
      destruct (mgr_step_ok' (MCreate tty) m msp _ I eq_refl eq_refl) as (m1 & E1 & I1); [cbn [made]; lia|].
      rewrite E1. cbn [obind]. eexists. split; [reflexivity|]. eexists. split; [exact I1|]. cbn [tls contents made owned gone present removed].
      rewrite app_length, Ow, map_app, Lc, Gn. cbn. auto.
    - destruct (update_all O pred fuel ft 0 (staying O sp) (contents sp)) as [l'|] eqn:U; [|discriminate]. injection E as <-. cbn [contents] in W.
      destruct (update_all_spec _ _ _ _ _ _ U) as [UL UP]. rewrite UL in W.
      unfold tm_update. cbn [ms tls].
      destruct (mgr_step_ok' MRefresh m msp _ I Logic.I eq_refl) as ([g refs] & E1 & I1); [cbn [made]; rewrite <- Lc; exact W|].
      rewrite E1. cbn [obind fst].
      set (msp1 := {| owned := _ |}) in *. destruct (ginv_view tty msp1 g refs I1) as (_ & Pi & _).
      cbn [shown msp1] in Pi. rewrite Ow, filter_flagged, flagged_fst in Pi. fold (staying O sp) in Pi.
      apply perm_somes in Pi as (ids & -> & Pi).
      assert (Oi : map fst (owned msp1) = staying O sp) by (cbn [owned msp1]; rewrite Ow, filter_flagged, flagged_fst; reflexivity).
      destruct (owned_nodup _ _ _ I1) as [ND LT]. rewrite Oi in ND, LT. cbn [made msp1] in LT.
      assert (EQ : forall k, existsb (Nat.eqb k) ids = existsb (Nat.eqb k) (staying O sp)).
      { intros k. apply eq_true_iff_eq. rewrite !existsb_in. split; apply Permutation_in; [exact Pi|symmetry; exact Pi]. }
      destruct (visits_ok fuel ft ids (contents sp) (g, refs) msp1) as (m' & l2 & msp' & E2 & L2 & P2 & I2 & O2 & M2 & G2 & S2).
      { eapply Permutation_NoDup; [symmetry; exact Pi|exact ND]. }
      { exact I1. }
      { cbn [made msp1]. rewrite <- Lc. exact W. }
      { intros k Hk. assert (Hs : In k (staying O sp)) by (eapply Permutation_in; [exact Pi|exact Hk]).
        rewrite Oi. split; [exact Hs|]. specialize (LT k Hs). rewrite <- Lc in LT.
        destruct (nth_error (contents sp) k) as [t|] eqn:Nt; [|apply nth_error_None in Nt; lia].
        specialize (UP k t Nt). cbn [plus] in UP. replace (existsb (Nat.eqb k) (staying O sp)) with true in UP by (symmetry; apply existsb_in; exact Hs).
        destruct UP as (t' & A & B). exists t, t'. auto. }
      assert (LL : l2 = l').
      { apply nth_ext_error; [lia|]. intros k Hk. rewrite L2 in Hk.
        destruct (nth_error (contents sp) k) as [t|] eqn:Nt; [|apply nth_error_None in Nt; lia].
        specialize (UP k t Nt). specialize (P2 k t Nt). cbn [plus] in UP. rewrite EQ in P2.
        destruct (existsb (Nat.eqb k) (staying O sp)); [|congruence].
        destruct UP as (a & A1 & A2), P2 as (b & B1 & B2). congruence. }
      subst l2. exists {| ms := m'; tls := l' |}. split; [exact E2|]. exists msp'. split; [exact I2|].
      cbn [tls contents present removed]. split; [reflexivity|]. split; [rewrite M2; cbn [made msp1]; lia|].
      split.
      + rewrite O2. cbn [owned msp1]. rewrite Ow, filter_flagged. unfold staying. rewrite !map_map. apply map_ext_in.
        intros [k b] Hk. unfold mark. cbn [fst snd]. rewrite EQ.
        replace (existsb (Nat.eqb k) (staying O sp)) with true
          by (symmetry; apply existsb_in; unfold staying; apply in_map_iff; exists (k, b); auto).
        apply filter_In in Hk as [_ Hb]. cbn in Hb. destruct b; [discriminate|]. cbn [andb negb].
        destruct (finished_in O l' k); reflexivity.
      + rewrite G2. cbn [gone msp1]. rewrite Gn, Ow, filter_flagged', flagged_fst. reflexivity.
    - injection E as <-. cbn [contents] in W. unfold tm_clear. cbn [ms tls].
      destruct (mgr_step_ok' MClear m msp _ I Logic.I eq_refl) as (m1 & E1 & I1); [cbn [made]; rewrite <- Lc; exact W|].
      rewrite E1. cbn [obind]. eexists. split; [reflexivity|]. eexists. split; [exact I1|]. cbn [tls contents made owned gone present removed].
      rewrite Ow, flagged_fst, Gn. auto.
    - destruct (existsb (Nat.eqb k) (map fst (present sp))) eqn:X; [|discriminate].
      destruct (nth_error (contents sp) k) as [t|] eqn:Nt; [|discriminate].
      destruct (step O pred fuel o t) as [t'| | |] eqn:St; try discriminate. injection E as <-.
      destruct m as [g refs]. destruct (ginv_view tty msp g refs I) as (_ & _ & V & _).
      apply existsb_in in X. rewrite <- flagged_fst, <- Ow in X. apply in_map_iff in X as ([k0 f] & Ek & Hk). cbn in Ek. subst k0.
      destruct (V k f Hk) as (p & V1 & V2 & V3).
      unfold tm_on. cbn [ms tls fst snd]. rewrite V1, Nt, V2, Nat.eqb_refl, St. cbn [obind].
      eexists. split; [reflexivity|]. exists msp. cbn [ms tls contents present removed]. rewrite set_tl_len. auto.
  Qed.

  Lemma contents_mono : forall fuel o sp sp', tspec_step O pred fuel o sp = Some sp' -> length (contents sp) <= length (contents sp').
  Proof.
    intros fuel o sp sp' E. destruct o as [|ft| |k o]; cbn [tspec_step] in E.
    - injection E as <-. cbn. rewrite app_length. lia.
    - destruct (update_all _ _ _ _ _ _ _) as [l'|] eqn:U; [|discriminate]. injection E as <-. apply update_all_spec in U as [U _]. cbn. lia.
    - injection E as <-. cbn. lia.
    - destruct (existsb _ _); [|discriminate]. destruct (nth_error _ _); [|discriminate]. destruct (step _ _ _ _ _); try discriminate.
      injection E as <-. cbn. rewrite set_tl_len. lia.
  Qed.
  Lemma contents_run : forall fuel ops sp sp', tspec_run O pred fuel ops sp = Some sp' -> length (contents sp) <= length (contents sp').
  Proof.
    induction ops as [|o ops IH]; intros sp sp' E; cbn [tspec_run] in E; [injection E as <-; lia|].
    destruct (tspec_step O pred fuel o sp) as [s1|] eqn:E1; [|discriminate]. apply contents_mono in E1. apply IH in E. lia.
  Qed.
  Lemma tm_run_ok : forall fuel ops st sp sp', TI st sp -> tspec_run O pred fuel ops sp = Some sp' ->
    (N.of_nat (length (contents sp')) < UINT_WRAP)%N ->
    exists st', tm_run tty O pred fuel ops st = Ok st' /\ TI st' sp'.
  Proof.
    induction ops as [|o ops IH]; intros st sp sp' I E W; cbn [tspec_run tm_run] in *.
    - injection E as <-. eauto.
    - destruct (tspec_step O pred fuel o sp) as [s1|] eqn:E1; [|discriminate].
      destruct (tm_step_ok fuel o st sp s1 I E1) as (st1 & -> & I1); [apply contents_run in E; lia|].
      cbn [obind]. eapply IH; eassumption.
  Qed.

  Lemma tm_correct : forall fuel ops sp, tspec_run O pred fuel ops (tspec0 O) = Some sp ->
    (N.of_nat (length (contents sp)) < UINT_WRAP)%N ->
    exists g refs, obind (tm_new O) (tm_run tty O pred fuel ops) = Ok {| ms := (g, refs); tls := contents sp |}
      /\ (forall k, In k (map fst (present sp)) -> exists p, nth_error refs k = Some p /\ object_at (mm g) p = Some k)
      /\ Permutation (dtors (trace (mm g))) (removed sp)
      /\ ctors (trace (mm g)) = seq 0 (length (contents sp))
      /\ Permutation (removed sp ++ map fst (present sp)) (seq 0 (length (contents sp))).
  Proof.
    intros fuel ops sp E W. destruct (ginv0 tty) as [g0 [E0 I0]]. unfold tm_new. rewrite E0. cbn [obind].
    destruct (tm_run_ok fuel ops {| ms := (g0, []); tls := [] |} (tspec0 O) sp) as (st & -> & (msp & I & T & Lc & Ow & Gn)); auto.
    { exists mspec0. split; [exact I0|]. repeat split. }
    destruct st as [[g refs] l]. cbn [ms tls] in *. subst l. exists g, refs. split; [reflexivity|].
    destruct (ginv_view tty msp g refs I) as (_ & _ & V & A & C & D & _). rewrite <- Gn, Lc. rewrite Ow, flagged_fst in A.
    split; [|auto]. intros k Hk. rewrite <- flagged_fst, <- Ow in Hk. apply in_map_iff in Hk as ([k0 f] & Ek & Hk). cbn in Ek. subst k0.
    destruct (V k f Hk) as (p & V1 & V2 & V3). eauto.
  Qed.
End P.
