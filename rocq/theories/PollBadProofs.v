From Coq Require Import String ZArith NArith Arith Bool Lia List.
From Verif Require Import Common TimelineModel TimelineSpec TimelineProofs GrowModel GrowSpec GrowProofs PollModel PollSpec.
Import ListNotations.
Local Open Scope Z_scope.

Section P.
  Context (O : wt_ops) (pred : nat -> list (event (WT O)) -> bool) (act pact : nat -> list (event (WT O)) -> list (change O)).
  Notation loop := (pupdate_loop O pred act pact).
  Notation update := (pupdate O pred act pact).

  Lemma at_poll : forall fuel ft s i w p, cidx s = Z.of_nat i -> nth_error (cmds s) i = Some (CLoop w p) ->
    loop (S fuel) ft s = obind (poll_update O pred pact w p s) (fun s => let s := set_rem O (wzero O) s in if ready s then loop fuel ft s else Ok s).
  Proof.
    intros fuel ft s i w p I N. cbn [pupdate_loop]. unfold isCIdxNull. rewrite I. replace (Z.of_nat i =? -1) with false by (symmetry; apply Z.eqb_neq; lia).
    replace (Z.of_nat i <? 0) with false by (symmetry; apply Z.ltb_ge; lia). rewrite Nat2Z.id, N. reflexivity.
  Qed.
  Lemma next_after : forall s j, cidx s = j -> 0 <= j < size s -> next O s = Ok (set_cidx O (after (size s) j false) s).
  Proof.
    intros s j I J. unfold next, isCIdxNull, after. rewrite I. replace (j =? -1) with false by (symmetry; apply Z.eqb_neq; lia).
    replace ((j + 1 <? 0) || (size s <? j + 1)) with false by (symmetry; apply orb_false_iff; split; apply Z.ltb_ge; lia). destruct (j + 1 =? size s); reflexivity.
  Qed.
  Lemma in_range : forall s i w p, @asks O s i w p -> 0 <= Z.of_nat i < size s.
  Proof. intros s i w p (_ & _ & N). assert (i < length (cmds s))%nat by (apply nth_error_Some; congruence). unfold size. lia. Qed.
  (** What the predicate calls leaves the timeline at [j] with flags [r], [f]; then the command goes on or not. *)
  Lemma poll_calls : forall w p s l j r f, let b := pred p (log s) in pact p (log s ++ [EPred p b]) = l ->
    (exists t, change_steps O l (add_log O (EPred p b) (set_flags O false (finished s) s)) = Ok t /\ cmds t = cmds s /\ cidx t = j /\ ready t = r /\ finished t = f /\ log t = log s ++ [EPred p b]) ->
    0 <= j < size s ->
    exists s', poll_update O pred pact w p s = Ok s' /\ cmds s' = cmds s /\ cidx s' = after (size s) j (Bool.eqb b w) /\ ready s' = r /\ finished s' = f /\ log s' = log s ++ [EPred p b].
  Proof.
    intros w p s l j r f b A (t & E & C & I & R & F & L) J. unfold poll_update. cbn [log set_flags add_log]. fold b. rewrite A, E. cbn [obind].
    destruct (Bool.eqb b w); [exists t; cbn [after]; repeat split; assumption|]. assert (SZ : size t = size s) by (unfold size; now rewrite C).
    rewrite (next_after t j I) by (rewrite SZ; exact J). rewrite SZ. eexists. split; [reflexivity|]. cbn [set_cidx cmds cidx ready finished log]. auto.
  Qed.

  Lemma done_stays : forall fts fuel s, finished s = true -> exists s', prun O pred act pact fuel (map OUpdate fts) s = Ok s' /\ log s' = log s ++ map (fun ft => EFrame ft) fts /\ cmds s' = cmds s /\ cidx s' = cidx s /\ finished s' = true.
  Proof.
    induction fts as [|ft fts IH]; intros fuel s F; [exists s; cbn; rewrite app_nil_r; auto|]. cbn [map prun pstep]. unfold pupdate. cbn [finished add_log]. rewrite F. cbn [obind].
    destruct (IH fuel (add_log O (EFrame ft) s) F) as (s' & E & L & C & I & F'). exists s'. split; [exact E|]. cbn [log add_log] in L. rewrite L, <- app_assoc. auto.
  Qed.
  Lemma stops : forall s i w p ft, asks s i w p -> let b := pred p (log s) in pact p (log s ++ [EPred p b]) = [ChCall CbStop] ->
    exists s', (forall fuel, update (S fuel) ft s = Ok s') /\ finished s' = true /\ cmds s' = cmds s /\ cidx s' = after (size s) (Z.of_nat i) (Bool.eqb b w) /\ log s' = log s ++ [EPred p b] /\
    forall fts fuel, exists s'', prun O pred act pact fuel (map OUpdate fts) s' = Ok s'' /\ log s'' = log s' ++ map (fun ft => EFrame ft) fts /\ cmds s'' = cmds s' /\ cidx s'' = cidx s' /\ finished s'' = true.
  Proof.
    intros s i w p ft K b A. pose proof (in_range _ _ _ _ K) as J. destruct K as (Fi & I & N).
    destruct (poll_calls w p (set_flags O true false s) _ (Z.of_nat i) false true A) as (s1 & E1 & C1 & I1 & R1 & F1 & L1); [|exact J|].
    { eexists. split; [cbn; reflexivity|]. cbn. auto. }
    exists (set_rem O (wzero O) s1). split.
    { intros fuel. unfold pupdate. rewrite Fi. rewrite (at_poll fuel ft (set_flags O true false s) i w p I N), E1. cbn [obind set_rem ready]. rewrite R1. reflexivity. }
    cbn [set_rem finished cmds cidx log]. split; [exact F1|]. split; [exact C1|]. split; [exact I1|]. split; [exact L1|]. intros fts fuel.
    destruct (done_stays fts fuel (set_rem O (wzero O) s1) F1) as (s2 & X). exists s2. exact X.
  Qed.
  Lemma jumps : forall s i w p j ft, asks s i w p -> let b := pred p (log s) in pact p (log s ++ [EPred p b]) = [ChCall (CbJump j)] -> 0 <= j < size s ->
    exists s', (forall fuel, update (S fuel) ft s = Ok s') /\ finished s' = false /\ cmds s' = cmds s /\ cidx s' = after (size s) j (Bool.eqb b w) /\ log s' = log s ++ [EPred p b].
  Proof.
    intros s i w p j ft K b A J. destruct K as (Fi & I & N).
    destruct (poll_calls w p (set_flags O true false s) _ j false false A) as (s1 & E1 & C1 & I1 & R1 & F1 & L1); [|exact J|].
    { eexists. split; [cbn; reflexivity|]. cbn. auto. }
    exists (set_rem O (wzero O) s1). split.
    { intros fuel. unfold pupdate. rewrite Fi. rewrite (at_poll fuel ft (set_flags O true false s) i w p I N), E1. cbn [obind set_rem ready]. rewrite R1. reflexivity. }
    cbn [set_rem finished cmds cidx log]. auto.
  Qed.

  (** Histories only grow. *)
  Lemma changes_log : forall l t u, change_steps O l t = Ok u -> log u = log t.
  Proof.
    assert (INS : forall i c t u, insert O i c t = Ok u -> log u = log t) by (intros i c t u H; unfold insert in H; destruct (_ || _); [discriminate|]; injection H as <-; destruct (isCIdxNull O _); reflexivity).
    induction l as [|a l IH]; intros t u E; cbn [change_steps] in E; [congruence|]. destruct (change_step O a t) as [t1| | |] eqn:E1; try discriminate. cbn [obind] in E. rewrite (IH _ _ E). destruct a as [b|b|k b|k b|]; cbn [change_step] in E1; try discriminate; try (eapply INS; eassumption).
    injection E1 as <-. destruct b; reflexivity.
  Qed.
  Lemma next_log : forall t u, next O t = Ok u -> log u = log t.
  Proof. intros t u H; unfold next in H; repeat match type of H with (if ?b then _ else _) = _ => destruct b end; try discriminate; injection H as <-; reflexivity. Qed.
  Lemma poll_log : forall w p t u, poll_update O pred pact w p t = Ok u -> log u = log t ++ [EPred p (pred p (log t))].
  Proof.
    intros w p t u H. unfold poll_update in H. cbn [log set_flags add_log] in H. destruct (change_steps O _ _) as [v| | |] eqn:Q; try discriminate. cbn [obind] in H. pose proof (changes_log _ _ _ Q) as L. cbn [log add_log set_flags] in L.
    destruct (Bool.eqb _ _); [injection H as <-; exact L|]. rewrite (next_log _ _ H). exact L.
  Qed.
  Lemma do_log : forall id t u, do_update O act id t = Ok u -> log u = log t ++ [EDo id].
  Proof. intros id t u H. unfold do_update in H. destruct (change_steps O _ _) as [v| | |] eqn:Q; try discriminate. cbn [obind] in H. rewrite (next_log _ _ H), (changes_log _ _ _ Q). reflexivity. Qed.
  Lemma cmd_log : forall k d f t u, pcmd_update O pred act pact k d f t = Ok u -> exists l, log u = log t ++ l.
  Proof.
    intros k d f t u H. destruct d as [a b|w p|id cb0|g n cur]; cbn [pcmd_update] in H.
    - cbn [cmd_update] in H. destruct (wpos O _); [injection H as <-; exists []; cbn; now rewrite app_nil_r|]. destruct (next O _) as [v| | |] eqn:Q; try discriminate. cbn [obind] in H. injection H as <-. exists []. cbn. rewrite (next_log _ _ Q). cbn. now rewrite app_nil_r.
    - eexists. exact (poll_log _ _ _ _ H).
    - eexists. exact (do_log _ _ _ H).
    - cbn [cmd_update] in H. destruct (cur =? 0)%N; [exists []; rewrite (next_log _ _ H); now rewrite app_nil_r|]. injection H as <-. exists []. cbn. now rewrite app_nil_r.
  Qed.
  Lemma loop_log : forall n ft t u, loop n ft t = Ok u -> exists l, log u = log t ++ l.
  Proof.
    induction n as [|n IH]; intros ft t u H; [discriminate|]. cbn [pupdate_loop] in H. destruct (isCIdxNull O t); [injection H as <-; exists []; cbn; now rewrite app_nil_r|]. destruct (cidx t <? 0); [discriminate|]. destruct (nth_error (cmds t) (Z.to_nat (cidx t))) as [d|]; [|discriminate].
    destruct (pcmd_update O pred act pact _ d _ t) as [v| | |] eqn:Q; try discriminate. cbn [obind set_rem ready] in H. destruct (cmd_log _ _ _ _ _ Q) as (l1 & L). destruct (ready v); [|injection H as <-; exists l1; exact L].
    destruct (IH _ _ _ H) as (l2 & L2). cbn [log set_rem] in L2. exists (l1 ++ l2). rewrite L2, L, <- app_assoc. reflexivity.
  Qed.
  (** After a predicate that leaves the timeline ready, the next command is run in the same update. *)
  Lemma goes_on_do : forall s i w p ft fuel s' s1 k e cb, asks s i w p -> poll_update O pred pact w p (set_flags O true false s) = Ok s1 -> ready s1 = true -> cidx s1 = Z.of_nat k -> nth_error (cmds s1) k = Some (CDo e cb) ->
    update fuel ft s = Ok s' -> exists later, log s' = log s ++ EPred p (pred p (log s)) :: EDo e :: later.
  Proof.
    intros s i w p ft fuel s' s1 k e cb (Fi & I & N) E1 R1 I1 N1 E. unfold pupdate in E. rewrite Fi in E. destruct fuel as [|fuel]; [discriminate|]. rewrite (at_poll fuel ft (set_flags O true false s) i w p I N), E1 in E. cbn [obind set_rem ready] in E. rewrite R1 in E.
    destruct fuel as [|fuel]; [discriminate|]. cbn [pupdate_loop] in E. unfold isCIdxNull in E. cbn [set_rem cidx cmds] in E. rewrite I1 in E. replace (Z.of_nat k =? -1) with false in E by (symmetry; apply Z.eqb_neq; lia).
    replace (Z.of_nat k <? 0) with false in E by (symmetry; apply Z.ltb_ge; lia). rewrite Nat2Z.id, N1 in E. cbn [pcmd_update] in E. destruct (do_update O act e _) as [v| | |] eqn:Q; try discriminate. cbn [obind] in E.
    pose proof (do_log _ _ _ Q) as L. cbn [log set_rem] in L. rewrite (poll_log _ _ _ _ E1) in L. cbn [log set_flags] in L.
    destruct (ready (set_rem O (wzero O) v)); [|injection E as <-; exists []; cbn [log set_rem]; rewrite L, <- app_assoc; reflexivity]. destruct (loop_log _ _ _ _ E) as (l & LL). cbn [log set_rem] in LL. exists l. rewrite LL, L, <- !app_assoc. reflexivity.
  Qed.
  Lemma goes_on_ask : forall s i w p ft fuel s' s1 k v q, asks s i w p -> poll_update O pred pact w p (set_flags O true false s) = Ok s1 -> ready s1 = true -> cidx s1 = Z.of_nat k -> nth_error (cmds s1) k = Some (CLoop v q) ->
    update fuel ft s = Ok s' -> exists b later, log s' = log s ++ EPred p (pred p (log s)) :: EPred q b :: later.
  Proof.
    intros s i w p ft fuel s' s1 k v q (Fi & I & N) E1 R1 I1 N1 E. unfold pupdate in E. rewrite Fi in E. destruct fuel as [|fuel]; [discriminate|]. rewrite (at_poll fuel ft (set_flags O true false s) i w p I N), E1 in E. cbn [obind set_rem ready] in E. rewrite R1 in E.
    destruct fuel as [|fuel]; [discriminate|]. rewrite (at_poll fuel ft (set_rem O (wzero O) s1) k v q I1 N1) in E. destruct (poll_update O pred pact v q _) as [u| | |] eqn:Q; try discriminate. cbn [obind] in E.
    pose proof (poll_log _ _ _ _ Q) as L. cbn [log set_rem] in L. rewrite (poll_log _ _ _ _ E1) in L. cbn [log set_flags] in L. exists (pred q (log s ++ [EPred p (pred p (log s))])).
    destruct (ready (set_rem O (wzero O) u)); [|injection E as <-; exists []; cbn [log set_rem]; rewrite L, <- app_assoc; reflexivity]. destruct (loop_log _ _ _ _ E) as (l & LL). cbn [log set_rem] in LL. exists l. rewrite LL, L, <- !app_assoc. reflexivity.
  Qed.
  Lemma start_again : forall s i w p ft fuel s', asks s i w p -> pact p (log s ++ [EPred p (pred p (log s))]) = [ChCall CbStart] -> pred p (log s) = w ->
    update fuel ft s = Ok s' -> exists b later, log s' = log s ++ EPred p w :: EPred p b :: later.
  Proof.
    intros s i w p ft fuel s' K A B E. pose proof (in_range _ _ _ _ K) as J. pose proof K as (Fi & I & N).
    destruct (poll_calls w p (set_flags O true false s) _ (Z.of_nat i) true false A) as (s1 & E1 & C1 & I1 & R1 & F1 & L1); [|exact J|].
    { eexists. split; [cbn; reflexivity|]. cbn. auto. }
    cbn [log set_flags] in I1. rewrite B, Bool.eqb_reflx in I1. cbn [after] in I1. destruct (goes_on_ask s i w p ft fuel s' s1 i w p K E1 R1 I1) as (b & later & L); [rewrite C1; exact N|exact E|]. rewrite B in L. exists b, later. exact L.
  Qed.
  Lemma start_on : forall s i w p ft fuel s' e cb, asks s i w p -> pact p (log s ++ [EPred p (pred p (log s))]) = [ChCall CbStart] -> pred p (log s) <> w -> nth_error (cmds s) (S i) = Some (CDo e cb) ->
    update fuel ft s = Ok s' -> exists later, log s' = log s ++ EPred p (pred p (log s)) :: EDo e :: later.
  Proof.
    intros s i w p ft fuel s' e cb K A B N1 E. pose proof (in_range _ _ _ _ K) as J. pose proof K as (Fi & I & N).
    destruct (poll_calls w p (set_flags O true false s) _ (Z.of_nat i) true false A) as (s1 & E1 & C1 & I1 & R1 & F1 & L1); [|exact J|].
    { eexists. split; [cbn; reflexivity|]. cbn. auto. }
    cbn [log set_flags] in I1. replace (Bool.eqb (pred p (log s)) w) with false in I1 by (symmetry; apply Bool.eqb_false_iff; exact B). cbn [after] in I1.
    assert (S i < length (cmds s))%nat by (apply nth_error_Some; congruence). unfold size in I1. cbn [cmds set_flags] in I1. replace (Z.of_nat i + 1 =? Z.of_nat (length (cmds s))) with false in I1 by (symmetry; apply Z.eqb_neq; lia).
    apply (goes_on_do s i w p ft fuel s' s1 (S i) e cb K E1 R1); [rewrite I1; lia|rewrite C1; exact N1|exact E].
  Qed.
  Lemma start_stuck : forall s i w p ft fuel, asks s i w p -> (forall h, pact p h = [ChCall CbStart] /\ pred p h = w) -> update fuel ft s = OutOfFuel.
  Proof.
    intros s i w p ft fuel (Fi & I & N) A. unfold pupdate. rewrite Fi.
    assert (G : forall fuel t, ready t = true -> cidx t = Z.of_nat i -> nth_error (cmds t) i = Some (CLoop w p) -> loop fuel ft t = OutOfFuel); [|apply G; auto].
    clear s Fi I N fuel. induction fuel as [|fuel IH]; intros t Y I N; [reflexivity|]. rewrite (at_poll fuel ft t i w p I N). unfold poll_update. cbn [log set_flags add_log].
    rewrite (proj1 (A _)), (proj2 (A _)), Bool.eqb_reflx. cbn [change_steps change_step obind callback_step set_rem ready start set_flags]. apply IH; [reflexivity|exact I|exact N].
  Qed.
  Lemma reset_skips : forall s i w p ft fuel s' e cb, asks s i w p -> pact p (log s ++ [EPred p (pred p (log s))]) = [ChCall CbReset] -> pred p (log s) <> w -> nth_error (cmds s) 1 = Some (CDo e cb) ->
    update fuel ft s = Ok s' -> exists later, log s' = log s ++ EPred p (pred p (log s)) :: EDo e :: later.
  Proof.
    intros s i w p ft fuel s' e cb K A B N1 E. assert (LT : (1 < length (cmds s))%nat) by (apply nth_error_Some; congruence).
    assert (Q : exists s1, poll_update O pred pact w p (set_flags O true false s) = Ok s1 /\ ready s1 = true /\ cidx s1 = 1 /\ nth_error (cmds s1) 1 = Some (CDo e cb)).
    { unfold poll_update. cbn [log set_flags add_log]. rewrite A. cbn [change_steps change_step callback_step obind]. replace (Bool.eqb (pred p (log s)) w) with false by (symmetry; apply Bool.eqb_false_iff; exact B).
      unfold reset. cbn [start set_flags add_log set_cmds cmds]. set (t := set_cidx O _ _). assert (I0 : cidx t = 0). { unfold t. cbn [set_cidx cidx]. destruct (cmds s) as [|c0 [|c1 r]]; cbn in LT |- *; try lia; reflexivity. }
      assert (SZ : size t = size s) by (unfold size, t; cbn [set_cidx set_cmds cmds]; now rewrite map_length).
      rewrite (next_after t 0 I0) by (rewrite SZ; unfold size; lia). unfold after. rewrite SZ. unfold size. replace (0 + 1 =? Z.of_nat (length (cmds s))) with false by (symmetry; apply Z.eqb_neq; lia).
      eexists. split; [reflexivity|]. cbn [set_cidx ready cidx cmds]. split; [reflexivity|]. split; [reflexivity|]. unfold t. cbn [set_cidx set_cmds cmds]. rewrite nth_error_map, N1. reflexivity. }
    destruct Q as (s1 & E1 & R1 & I1 & N2). exact (goes_on_do s i w p ft fuel s' s1 1%nat e cb K E1 R1 I1 N2 E).
  Qed.
  Lemma before : forall s i w p j c ft, asks s i w p -> let b := pred p (log s) in pact p (log s ++ [EPred p b]) = [ChInsert j c] -> 0 <= j <= Z.of_nat i ->
    exists s', (forall fuel, update (S fuel) ft s = Ok s') /\ finished s' = false /\ log s' = log s ++ [EPred p b] /\
    cmds s' = firstn (Z.to_nat j) (cmds s) ++ c :: skipn (Z.to_nat j) (cmds s) /\
    (b <> w -> asks s' (S i) w p) /\ (b = w -> cidx s' = Z.of_nat i /\ (if j =? Z.of_nat i then nth_error (cmds s') i = Some c else nth_error (cmds s') i = nth_error (cmds s) (i - 1))).
  Proof.
    intros s i w p j c ft K b A J. pose proof (in_range _ _ _ _ K) as RG. destruct K as (Fi & I & N). unfold size in RG.
    set (cs := firstn (Z.to_nat j) (cmds s) ++ c :: skipn (Z.to_nat j) (cmds s)).
    assert (LC : length cs = S (length (cmds s))). { unfold cs. rewrite app_length. cbn [length]. rewrite firstn_length, skipn_length. lia. }
    assert (NC : nth_error cs (S i) = Some (CLoop w p)).
    { unfold cs. rewrite nth_error_app2 by (rewrite firstn_length; lia). rewrite firstn_length, Nat.min_l by lia. replace (S i - Z.to_nat j)%nat with (S (i - Z.to_nat j)) by lia. cbn [nth_error].
      rewrite <- N. rewrite <- (firstn_skipn (Z.to_nat j) (cmds s)) at 2. rewrite nth_error_app2 by (rewrite firstn_length; lia). rewrite firstn_length, Nat.min_l by lia. reflexivity. }
    assert (NI : if j =? Z.of_nat i then nth_error cs i = Some c else nth_error cs i = nth_error (cmds s) (i - 1)).
    { destruct (j =? Z.of_nat i) eqn:JI; [apply Z.eqb_eq in JI|apply Z.eqb_neq in JI].
      - unfold cs. rewrite nth_error_app2 by (rewrite firstn_length; lia). rewrite firstn_length, Nat.min_l by lia. replace (i - Z.to_nat j)%nat with 0%nat by lia. reflexivity.
      - unfold cs. rewrite nth_error_app2 by (rewrite firstn_length; lia). rewrite firstn_length, Nat.min_l by lia. replace (i - Z.to_nat j)%nat with (S (i - 1 - Z.to_nat j)) by lia. cbn [nth_error].
        rewrite <- (firstn_skipn (Z.to_nat j) (cmds s)) at 2. rewrite nth_error_app2 by (rewrite firstn_length; lia). rewrite firstn_length, Nat.min_l by lia. reflexivity. }
    assert (Q : exists s1, poll_update O pred pact w p (set_flags O true false s) = Ok s1 /\ ready s1 = false /\ finished s1 = false /\ log s1 = log s ++ [EPred p b] /\ cmds s1 = cs /\ cidx s1 = if Bool.eqb b w then Z.of_nat i else Z.of_nat (S i)).
    { unfold poll_update. cbn [log set_flags add_log]. fold b. rewrite A. cbn [change_steps change_step]. unfold insert, size. cbn [add_log set_flags cmds].
      replace ((j <? 0) || (Z.of_nat (length (cmds s)) <? j)) with false by (symmetry; apply orb_false_iff; split; apply Z.ltb_ge; lia).
      unfold isCIdxNull. cbn [set_cmds cidx add_log set_flags]. rewrite I. replace (Z.of_nat i =? -1) with false by (symmetry; apply Z.eqb_neq; lia). cbn [obind]. fold cs.
      destruct (Bool.eqb b w); [eexists; split; [reflexivity|]; cbn; auto|]. set (t := set_cmds O _ _). assert (SZ : size t = Z.of_nat (S (length (cmds s)))) by (unfold size, t; cbn [set_cmds cmds]; now rewrite LC).
      rewrite (next_after t (Z.of_nat i)); [|exact I|rewrite SZ; lia]. unfold after. rewrite SZ. replace (Z.of_nat i + 1 =? Z.of_nat (S (length (cmds s)))) with false by (symmetry; apply Z.eqb_neq; lia).
      eexists. split; [reflexivity|]. cbn. repeat split; try reflexivity; lia. }
    destruct Q as (s1 & E1 & R1 & F1 & L1 & C1 & I1). exists (set_rem O (wzero O) s1). split.
    { intros fuel. unfold pupdate. rewrite Fi. rewrite (at_poll fuel ft (set_flags O true false s) i w p I N), E1. cbn [obind set_rem ready]. rewrite R1. reflexivity. }
    cbn [set_rem finished log cmds cidx]. split; [exact F1|]. split; [exact L1|]. split; [exact C1|]. split.
    - intros B. apply Bool.eqb_false_iff in B. rewrite B in I1. unfold asks. cbn [set_rem finished cidx cmds]. rewrite C1. auto.
    - intros B. rewrite B, Bool.eqb_reflx in I1. split; [exact I1|]. rewrite C1. exact NI.
  Qed.
  Lemma clears : forall s i w p ft fuel, asks s i w p -> In ChClear (pact p (log s ++ [EPred p (pred p (log s))])) -> update (S fuel) ft s = UB.
  Proof.
    intros s i w p ft fuel (Fi & I & N) A. unfold pupdate. rewrite Fi, (at_poll fuel ft (set_flags O true false s) i w p I N). unfold poll_update. cbn [log set_flags add_log].
    assert (G : forall l t, In ChClear l -> change_steps O l t = UB).
    { clear. induction l as [|a l IH]; intros t H; [contradiction|]. cbn [change_steps]. destruct H as [->|H]; [reflexivity|].
      destruct a as [b|b|k b|k b|]; cbn [change_step]; try (unfold append, insert; destruct (_ || _); [reflexivity|]); cbn [obind]; auto. }
    rewrite (G _ _ A). reflexivity.
  Qed.
End P.

(** A predicate that resets and keeps waiting, behind actions: the update never returns. *)
Lemma reset_stuck : forall (O : wt_ops) pred pact w p (ds : list nat) (ft : WT O) fuel, (forall h, pact p h = [ChCall CbReset] /\ pred p h = w) ->
  prun O pred (fun _ _ => []) pact fuel (map OAppend (map Do ds ++ [CLoop w p]) ++ [OUpdate ft]) (new_timeline O true) = OutOfFuel.
Proof.
  intros O pred pact w p ds ft fuel A. set (L := map Do ds ++ [CLoop w p]).
  assert (B : forall l s, exists s', prun O pred (fun _ _ => []) pact fuel (map OAppend l ++ [OUpdate ft]) s = prun O pred (fun _ _ => []) pact fuel [OUpdate ft] s' /\ cmds s' = cmds s ++ l /\ ((l <> [] /\ cmds s = [] /\ cidx s = -1 /\ cidx s' = 0) \/ ((l = [] \/ cmds s <> []) /\ cidx s' = cidx s) \/ cidx s <> (match cmds s with [] => -1 | _ => 0 end)) /\ finished s' = finished s).
  { induction l as [|c l IH]; intros s; [exists s; cbn [map app]; rewrite app_nil_r; split; [reflexivity|]; split; [reflexivity|]; split; [right; left; auto|reflexivity]|].
    cbn [map app prun pstep step]. unfold append, insert. replace ((size s <? 0) || (size s <? size s)) with false by (symmetry; apply orb_false_iff; split; apply Z.ltb_ge; unfold size; lia). cbn [obind].
    set (s1 := if isCIdxNull O _ then _ else _). destruct (IH s1) as (s' & E & C & I & F). exists s'. split; [exact E|].
    assert (C1 : cmds s1 = cmds s ++ [c]). { unfold s1. unfold size. rewrite Nat2Z.id, firstn_all, skipn_all. destruct (isCIdxNull O _); reflexivity. }
    assert (F1 : finished s1 = finished s) by (unfold s1; destruct (isCIdxNull O _); reflexivity).
    assert (I1 : cidx s1 = if cidx s =? -1 then size s else cidx s) by (unfold s1, isCIdxNull; cbn [set_cmds cidx]; destruct (cidx s =? -1); reflexivity).
    split; [rewrite C, C1, <- app_assoc; reflexivity|]. split; [|congruence].
    destruct (Z.eq_dec (cidx s) (match cmds s with [] => -1 | _ => 0 end)) as [D|D]; [|right; right; exact D].
    assert (NE : cmds s1 <> []) by (rewrite C1; destruct (cmds s); discriminate).
    assert (I10 : cidx s1 = 0). { rewrite I1, D. unfold size. destruct (cmds s); reflexivity. }
    destruct I as [(_ & X & _)|[(_ & X)|X]]; [congruence| |rewrite I10 in X; destruct (cmds s1); congruence].
    destruct (cmds s) as [|c0 r] eqn:CS; [left; repeat split; try congruence; discriminate|right; left; split; [right; discriminate|congruence]]. }
  destruct (B L (new_timeline O true)) as (s0 & -> & C & I & F). cbn [new_timeline cmds app cidx finished] in C, I, F.
  assert (LN : L <> []) by (unfold L; destruct ds; discriminate).
  assert (I0 : cidx s0 = 0) by (destruct I as [(_ & _ & _ & X)|[([X|X] & _)|X]]; [exact X|contradiction|exfalso; apply X; reflexivity..]).
  cbn [prun pstep]. unfold pupdate. cbn [finished add_log]. rewrite F.
  assert (G : forall n t k, cmds t = L -> cidx t = Z.of_nat k -> (k <= length ds)%nat -> ready t = true -> pupdate_loop O pred (fun _ _ => []) pact n ft t = OutOfFuel).
  { clear - A LN. assert (RL : map (reset_cmd O) L = L). { unfold L. rewrite map_app. cbn [map reset_cmd]. f_equal. rewrite map_map. apply map_ext. reflexivity. }
    induction n as [|n IH]; intros t k C I K Y; [reflexivity|]. destruct (Nat.eq_dec k (length ds)) as [->|NK].
    - assert (N : nth_error (cmds t) (length ds) = Some (CLoop w p)). { rewrite C. unfold L. rewrite nth_error_app2 by (rewrite map_length; lia). rewrite map_length, Nat.sub_diag. reflexivity. }
      rewrite (at_poll O pred _ pact n ft t (length ds) w p I N). unfold poll_update. cbn [log set_flags add_log]. rewrite (proj1 (A _)), (proj2 (A _)), Bool.eqb_reflx.
      cbn [change_steps change_step obind callback_step]. unfold reset. cbn [start set_flags add_log set_cmds set_cidx set_rem ready cmds]. apply (IH _ 0%nat); cbn [cmds cidx ready]; [rewrite C; exact RL|rewrite C, RL; destruct L; [contradiction|reflexivity]|lia|reflexivity].
    - assert (N : nth_error (cmds t) k = Some (Do (nth k ds 0%nat))). { rewrite C. unfold L. rewrite nth_error_app1 by (rewrite map_length; lia). rewrite nth_error_map, (nth_error_nth' ds 0%nat) by lia. reflexivity. }
      cbn [pupdate_loop]. unfold isCIdxNull. rewrite I. replace (Z.of_nat k =? -1) with false by (symmetry; apply Z.eqb_neq; lia). replace (Z.of_nat k <? 0) with false by (symmetry; apply Z.ltb_ge; lia). rewrite Nat2Z.id, N.
      cbn [pcmd_update Do]. unfold do_update. cbn [change_steps obind]. assert (SZ : size t = Z.of_nat (S (length ds))). { unfold size. rewrite C. unfold L. rewrite app_length, map_length. cbn [length]. lia. }
      rewrite (next_after O (add_log O (EDo (nth k ds 0%nat)) t) (Z.of_nat k) I) by (change (size (add_log O (EDo (nth k ds 0%nat)) t)) with (size t); lia). unfold after. unfold size in *. cbn [add_log cmds]. replace (Z.of_nat k + 1 =? Z.of_nat (length (cmds t))) with false by (symmetry; apply Z.eqb_neq; lia).
      cbn [obind set_rem set_cidx add_log ready]. rewrite Y. apply (IH _ (S k)); cbn [cmds cidx ready]; [exact C|cbn [set_rem set_cidx cidx]; lia|lia|exact Y]. }
  rewrite (G fuel _ 0%nat); [reflexivity|cbn; exact C|cbn; exact I0|lia|reflexivity].
Qed.
