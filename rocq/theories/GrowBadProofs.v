From Coq Require Import String ZArith NArith Arith Bool Lia List.
From Verif Require Import Common TimelineModel TimelineSpec TimelineProofs GrowModel GrowSpec GrowProofs.
Import ListNotations.
Local Open Scope Z_scope.

Section P.
  Context (O : wt_ops) (pred : nat -> list (event (WT O)) -> bool) (act : nat -> list (event (WT O)) -> list (change O)).

  Lemma at_do : forall fuel ft s i e cb, cidx s = Z.of_nat i -> nth_error (cmds s) i = Some (CDo e cb) ->
    gupdate_loop O pred act (S fuel) ft s = obind (do_update O act e s) (fun s => let s := set_rem O (wzero O) s in if ready s then gupdate_loop O pred act fuel ft s else Ok s).
  Proof.
    intros fuel ft s i e cb I N. cbn [gupdate_loop]. unfold isCIdxNull. rewrite I. replace (Z.of_nat i =? -1) with false by (symmetry; apply Z.eqb_neq; lia).
    replace (Z.of_nat i <? 0) with false by (symmetry; apply Z.ltb_ge; lia). rewrite Nat2Z.id, N. reflexivity.
  Qed.
  Lemma again : forall j c e cb i s, act e (log s ++ [EDo e]) = [ChInsert j c] -> 0 <= j <= Z.of_nat i -> cidx s = Z.of_nat i -> nth_error (cmds s) i = Some (CDo e cb) ->
    exists s', do_update O act e s = Ok s' /\ cidx s' = Z.of_nat (S i) /\ nth_error (cmds s') (S i) = Some (CDo e cb) /\ ready s' = ready s /\ log s' = log s ++ [EDo e].
  Proof.
    intros j c e cb i s A J I N. assert (LT : (i < length (cmds s))%nat) by (apply nth_error_Some; congruence).
    unfold do_update. cbn [log add_log]. rewrite A. cbn [change_steps change_step]. unfold insert, size. cbn [add_log cmds].
    replace ((j <? 0) || (Z.of_nat (length (cmds s)) <? j)) with false by (symmetry; apply orb_false_iff; split; apply Z.ltb_ge; lia).
    unfold isCIdxNull. cbn [set_cmds cidx add_log]. rewrite I. replace (Z.of_nat i =? -1) with false by (symmetry; apply Z.eqb_neq; lia). cbn [obind].
    set (cs := firstn (Z.to_nat j) (cmds s) ++ c :: skipn (Z.to_nat j) (cmds s)). assert (LC : length cs = S (length (cmds s))).
    { unfold cs. rewrite app_length. cbn [length]. rewrite firstn_length, skipn_length. lia. }
    assert (NC : nth_error cs (S i) = Some (CDo e cb)).
    { unfold cs. rewrite nth_error_app2 by (rewrite firstn_length; lia). rewrite firstn_length, Nat.min_l by lia. replace (S i - Z.to_nat j)%nat with (S (i - Z.to_nat j)) by lia. cbn [nth_error].
      rewrite <- N. rewrite <- (firstn_skipn (Z.to_nat j) (cmds s)) at 2. rewrite nth_error_app2 by (rewrite firstn_length; lia). rewrite firstn_length, Nat.min_l by lia. reflexivity. }
    unfold next, isCIdxNull, size. cbn [cidx cmds]. unfold add_log, set_cmds, set_cidx. cbn [cidx cmds log ready]. fold cs. rewrite I. replace (Z.of_nat i =? -1) with false by (symmetry; apply Z.eqb_neq; lia). rewrite LC.
    replace ((Z.of_nat i + 1 <? 0) || (Z.of_nat (S (length (cmds s))) <? Z.of_nat i + 1)) with false by (symmetry; apply orb_false_iff; split; apply Z.ltb_ge; lia).
    replace (Z.of_nat i + 1 =? Z.of_nat (S (length (cmds s)))) with false by (symmetry; apply Z.eqb_neq; lia).
    eexists. split; [reflexivity|]. cbn [cidx cmds ready log]. split; [lia|]. auto.
  Qed.
  Lemma never_returns : forall e cb i s ft fuel, (forall h, exists j c, act e h = [ChInsert j c] /\ 0 <= j <= Z.of_nat i) ->
    finished s = false -> cidx s = Z.of_nat i -> nth_error (cmds s) i = Some (CDo e cb) -> gupdate O pred act fuel ft s = OutOfFuel.
  Proof.
    intros e cb i0 s ft fuel A Fi I N. unfold gupdate. rewrite Fi.
    assert (G : forall fuel i t, (i0 <= i)%nat -> ready t = true -> cidx t = Z.of_nat i -> nth_error (cmds t) i = Some (CDo e cb) -> gupdate_loop O pred act fuel ft t = OutOfFuel).
    { clear - A. induction fuel as [|fuel IH]; intros i t L Y I N; [reflexivity|]. rewrite (at_do fuel ft t i e cb I N). destruct (A (log t ++ [EDo e])) as (j & c & AE & J).
      destruct (again j c e cb i t AE ltac:(lia) I N) as (s' & E & I' & N' & Y' & _). rewrite E. cbn [obind set_rem ready]. rewrite Y', Y. apply (IH (S i)); try assumption; [lia|cbn; congruence]. }
    apply (G fuel i0); auto.
  Qed.
  Lemma once_more : forall j c e cb i s ft fuel, act e (log s ++ [EDo e]) = [ChInsert j c] -> 0 <= j <= Z.of_nat i -> finished s = false -> cidx s = Z.of_nat i -> nth_error (cmds s) i = Some (CDo e cb) ->
    forall s', gupdate O pred act fuel ft s = Ok s' -> exists later, log s' = log s ++ EDo e :: EDo e :: later.
  Proof.
    intros j c e cb i s ft fuel A J Fi I N s' E. unfold gupdate in E. rewrite Fi in E. destruct fuel as [|fuel]; [discriminate|]. rewrite (at_do fuel ft _ i e cb) in E by assumption.
    destruct (again j c e cb i (set_flags O true false s)) as (s1 & E1 & I1 & N1 & Y1 & L1); try assumption. rewrite E1 in E. cbn [obind set_rem ready] in E. rewrite Y1 in E. cbn [ready set_flags] in E.
    destruct fuel as [|fuel]; [discriminate|]. rewrite (at_do fuel ft _ (S i) e cb) in E by assumption.
    assert (EXT : forall l t u, change_steps O l t = Ok u -> log u = log t).
    { clear. assert (INS : forall i c t u, insert O i c t = Ok u -> log u = log t) by (intros i c t u H; unfold insert in H; destruct (_ || _); [discriminate|]; injection H as <-; destruct (isCIdxNull O _); reflexivity).
      induction l as [|a l IH]; intros t u E; cbn [change_steps] in E; [congruence|]. destruct (change_step O a t) as [t1| | |] eqn:E1; try discriminate. cbn [obind] in E. rewrite (IH _ _ E). destruct a as [b|b|k b|k b|]; cbn [change_step] in E1; try discriminate; try (eapply INS; eassumption).
      injection E1 as <-. destruct b; reflexivity. }
    assert (NX : forall t u, next O t = Ok u -> log u = log t) by (clear; intros t u H; unfold next in H; repeat match type of H with (if ?b then _ else _) = _ => destruct b end; try discriminate; injection H as <-; reflexivity).
    assert (CU : forall k d f t u, gcmd_update O pred act k d f t = Ok u -> exists l, log u = log t ++ l).
    { intros k d f t u H. destruct d as [a b|w p|id cb0|g n cur]; cbn [gcmd_update cmd_update] in H.
      - destruct (wpos O _); [injection H as <-; exists []; cbn; now rewrite app_nil_r|]. destruct (next O _) as [v| | |] eqn:Q; try discriminate. cbn [obind] in H. injection H as <-. exists []. cbn. rewrite (NX _ _ Q). cbn. now rewrite app_nil_r.
      - destruct (Bool.eqb _ _); [injection H as <-; eexists; cbn; reflexivity|]. eexists. rewrite (NX _ _ H). cbn. reflexivity.
      - unfold do_update in H. destruct (change_steps O _ _) as [v| | |] eqn:Q; try discriminate. cbn [obind] in H. exists [EDo id]. rewrite (NX _ _ H), (EXT _ _ _ Q). reflexivity.
      - destruct (cur =? 0)%N; [exists []; rewrite (NX _ _ H); now rewrite app_nil_r|]. injection H as <-. exists []. cbn. now rewrite app_nil_r. }
    assert (LP : forall n t u, gupdate_loop O pred act n ft t = Ok u -> exists l, log u = log t ++ l).
    { induction n as [|n IH]; intros t u H; [discriminate|]. cbn [gupdate_loop] in H. destruct (isCIdxNull O t); [injection H as <-; exists []; cbn; now rewrite app_nil_r|]. destruct (cidx t <? 0); [discriminate|]. destruct (nth_error (cmds t) (Z.to_nat (cidx t))) as [d|]; [|discriminate].
      destruct (gcmd_update O pred act _ d _ t) as [v| | |] eqn:Q; try discriminate. cbn [obind set_rem ready] in H. destruct (CU _ _ _ _ _ Q) as (l1 & L). destruct (ready v); [|injection H as <-; exists l1; exact L].
      destruct (IH _ _ H) as (l2 & L2). cbn [log set_rem] in L2. exists (l1 ++ l2). rewrite L2, L, app_assoc. reflexivity. }
    unfold do_update in E. cbn [log add_log set_rem] in E. destruct (change_steps O _ _) as [s2| | |] eqn:E2; try discriminate. cbn [obind] in E. destruct (next O s2) as [s3| | |] eqn:E3; try discriminate. cbn [obind set_rem ready] in E.
    assert (L3 : log s3 = log s ++ [EDo e; EDo e]) by (rewrite (NX _ _ E3), (EXT _ _ _ E2); cbn [log add_log set_rem]; rewrite L1; cbn [log set_flags]; rewrite <- app_assoc; reflexivity).
    destruct (ready s3); [|injection E as <-; exists []; exact L3]. destruct (LP _ _ _ E) as (l & L). cbn [log set_rem] in L. exists l. rewrite L, L3, <- app_assoc. reflexivity.
  Qed.
  Lemma clear_undefined : forall e cb i s ft fuel, In ChClear (act e (log s ++ [EDo e])) -> finished s = false -> cidx s = Z.of_nat i -> nth_error (cmds s) i = Some (CDo e cb) ->
    gupdate O pred act (S fuel) ft s = UB.
  Proof.
    intros e cb i s ft fuel H Fi I N. unfold gupdate. rewrite Fi. rewrite (at_do fuel ft _ i e cb) by assumption. unfold do_update. cbn [log add_log set_flags].
    assert (G : forall l t, In ChClear l -> change_steps O l t = UB).
    { induction l as [|a l IH]; intros t [ ]; [subst a; reflexivity|]. cbn [change_steps]. destruct a as [b|b|k b|k b|]; cbn [change_step obind]; try reflexivity; try (apply IH; assumption);
      unfold append, insert; match goal with |- context [if ?b then UB else _] => destruct b end; cbn [obind]; try reflexivity; apply IH; assumption. }
    rewrite G by exact H. reflexivity.
  Qed.
End P.
Lemma endless : forall O pred fuel ft, wadd O ft (wzero O) = ft ->
  grun O pred (fun id _ => [ChAppend (Do id)]) fuel [OAppend (Do 0); OUpdate ft] (new_timeline O true) = OutOfFuel.
Proof.
  intros O pred fuel ft FZ.
  set (s1 := {| cmds := [Do 0]; cidx := 0; remainder := wzero O; ready := true; finished := false; log := [] |} : timeline O).
  assert (E1 : append O (Do 0) (new_timeline O true) = Ok s1) by reflexivity.
  cbn [grun gstep]. change (step O pred fuel (OAppend (Do 0)) (new_timeline O true)) with (append O (Do 0) (new_timeline O true)). rewrite E1. cbn [obind].
  assert (G : forall fuel n t, ready t = true -> cidx t = Z.of_nat n -> length (cmds t) = S n -> nth_error (cmds t) n = Some (Do 0) -> gupdate_loop O pred (fun id _ => [ChAppend (Do id)]) fuel ft t = OutOfFuel).
  { clear. induction fuel as [|fuel IH]; intros n t Y I L N; [reflexivity|]. unfold Do in N. rewrite (at_do O pred _ fuel ft t n 0 [] I N). unfold do_update. cbn [change_steps change_step]. unfold append, insert.
    replace ((size (add_log O (EDo 0) t) <? 0) || (size (add_log O (EDo 0) t) <? size (add_log O (EDo 0) t))) with false by (symmetry; apply orb_false_iff; split; apply Z.ltb_ge; unfold size; lia).
    unfold isCIdxNull, size. unfold add_log, set_cmds, set_cidx. cbn [cidx cmds log ready]. rewrite I. replace (Z.of_nat n =? -1) with false by (symmetry; apply Z.eqb_neq; lia). cbn [obind].
    rewrite Nat2Z.id, firstn_all, skipn_all. unfold next, isCIdxNull, size, set_cidx. cbn [cidx cmds log ready remainder finished]. rewrite app_length, L. cbn [length]. replace (Z.of_nat n =? -1) with false by (symmetry; apply Z.eqb_neq; lia).
    replace ((Z.of_nat n + 1 <? 0) || (Z.of_nat (S n + 1) <? Z.of_nat n + 1)) with false by (symmetry; apply orb_false_iff; split; apply Z.ltb_ge; lia).
    replace (Z.of_nat n + 1 =? Z.of_nat (S n + 1)) with false by (symmetry; apply Z.eqb_neq; lia). cbn [obind]. unfold set_rem. cbn [ready cmds cidx remainder finished log]. rewrite Y. apply (IH (S n)); cbn [ready cmds cidx]; [reflexivity|lia|rewrite app_length; cbn; lia|].
    rewrite nth_error_app2 by lia. rewrite L, Nat.sub_diag. reflexivity. }
  unfold gupdate. change (finished (add_log O (EFrame ft) s1)) with false. cbv iota. rewrite (G fuel 0%nat); reflexivity.
Qed.
