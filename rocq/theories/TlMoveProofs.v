(** Moved timelines: an update that comes back is that of an unmoved timeline; none comes back once a moved command is
    current. *)
From Coq Require Import String ZArith NArith Arith Bool Lia List.
From Verif Require Import Common TimelineModel TlMoveModel.
Import ListNotations.
Local Open Scope Z_scope.

Section Moved.
  Context (O : wt_ops) (pred : nat -> list (event (WT O)) -> bool).
  Notation W := (WT O).
  Notation timeline := (timeline O).
  Notation update_loop2 := (update_loop2 O pred).
  Notation update2 := (update2 O pred).
  Notation run2 := (run2 O pred).

  Definition returns {A} (x : outcome A) : Prop := exists a, x = Ok a.

  Lemma foreign_frame : forall i c ft n o n' o', foreign_update O pred i c ft n o = Ok (n', o') ->
    cidx n' = cidx n /\ ready n' = ready n /\ length (cmds n') = length (cmds n).
  Proof.
    assert (RL : forall l i c, length (replace_nth O l i c) = length l) by (induction l; intros [|i] c; cbn; auto).
    intros i [time cur|wh p|id cb|g times cur] ft n o n' o' E; cbn in E.
    - destruct (wpos O (wsub O cur ft)).
      + injection E as <- <-. cbn. auto.
      + destruct (next O _); cbn in E; try discriminate. injection E as <- <-. cbn. auto.
    - destruct (Bool.eqb (pred p (log n)) wh).
      + injection E as <- <-. cbn. auto.
      + destruct (next O _); cbn in E; try discriminate. injection E as <- <-. cbn. auto.
    - destruct (next O _); cbn in E; try discriminate. injection E as <- <-. cbn. auto.
    - destruct (cur =? 0)%N.
      + destruct (next O _); cbn in E; try discriminate. injection E as <- <-. auto.
      + injection E as <- <-. cbn. auto.
  Qed.

  (** The current command of the new timeline is one that refers to the old. *)
  Definition foreign_now (w : moved O) : Prop :=
    0 <= cidx (new w) /\ nth (Z.to_nat (cidx (new w))) (mine w) false = false.

  Lemma foreign_stuck : forall fuel ft w, foreign_now w -> ready (new w) = true -> ~ returns (update_loop2 fuel ft w).
  Proof.
    induction fuel as [|fuel IH]; intros ft w [P F] R [w' E]; cbn in E; [discriminate|].
    unfold isCIdxNull in E. destruct (Z.eqb_spec (cidx (new w)) (-1)); [lia|]. destruct (Z.ltb_spec (cidx (new w)) 0); [lia|].
    destruct (nth_error (cmds (new w)) (Z.to_nat (cidx (new w)))) as [c|]; [|discriminate].
    unfold cmd_update2 in E. rewrite F in E. destruct (old w) as [o|]; [|discriminate].
    destruct (foreign_update O pred _ c _ (new w) o) as [[n' o']| | |] eqn:Fu; cbn in E; try discriminate.
    destruct (foreign_frame _ _ _ _ _ _ _ Fu) as [A [B _]]. rewrite B, R in E.
    eapply IH; [| |exists w'; exact E]; cbn; [|congruence]. split; cbn; rewrite A; assumption.
  Qed.

  Lemma loop_same : forall fuel ft w w', ready (new w) = true -> update_loop2 fuel ft w = Ok w' ->
    update_loop O pred fuel ft (new w) = Ok (new w') /\ old w' = old w /\ mine w' = mine w.
  Proof.
    induction fuel as [|fuel IH]; intros ft w w' R E; [discriminate|].
    destruct (Z_lt_le_dec (cidx (new w)) 0) as [N|P].
    - cbn in E |- *. destruct (isCIdxNull O (new w)); [injection E as <-; auto|].
      destruct (Z.ltb_spec (cidx (new w)) 0); [discriminate|lia].
    - destruct (nth (Z.to_nat (cidx (new w))) (mine w) false) eqn:F.
      + cbn in E |- *. destruct (isCIdxNull O (new w)); [injection E as <-; auto|].
        destruct (cidx (new w) <? 0); [discriminate|].
        destruct (nth_error (cmds (new w)) (Z.to_nat (cidx (new w)))) as [c|]; [|discriminate].
        unfold cmd_update2 in E. rewrite F in E.
        destruct (cmd_update O pred _ c _ (new w)) as [n| | |]; cbn in E |- *; try discriminate.
        destruct (ready n) eqn:Rn.
        * apply IH in E; [|exact Rn]. destruct E as [A [B C]]. cbn in A, B, C. auto.
        * injection E as <-. cbn. auto.
      + exfalso. apply (foreign_stuck (S fuel) ft w (conj P F) R). exists w'. exact E.
  Qed.

  Lemma step_same : forall fuel o w w', step2 O pred fuel o w = Ok w' ->
    step O pred fuel o (new w) = Ok (new w') /\ old w' = old w.
  Proof.
    intros fuel o w w' E. destruct o as [c|i c|i| | | | |ft]; cbn in E |- *.
    - destruct (append O c (new w)); cbn in E; try discriminate. injection E as <-. auto.
    - destruct (insert O i c (new w)); cbn in E; try discriminate. injection E as <-. auto.
    - injection E as <-. auto.
    - injection E as <-. auto.
    - injection E as <-. auto.
    - injection E as <-. auto.
    - injection E as <-. auto.
    - unfold TlMoveModel.update2 in E. unfold update. cbn in E |- *. destruct (finished (new w)).
      + injection E as <-. auto.
      + apply loop_same in E; [|reflexivity]. destruct E as [A [B _]]. auto.
  Qed.
  Lemma run_same : forall fuel ops w w', run2 fuel ops w = Ok w' -> run O pred fuel ops (new w) = Ok (new w') /\ old w' = old w.
  Proof.
    induction ops as [|o ops IH]; intros w w' E; cbn in E |- *.
    - injection E as <-. auto.
    - destruct (step2 O pred fuel o w) as [w1| | |] eqn:S; cbn in E; try discriminate.
      destruct (step_same _ _ _ _ S) as [A B]. rewrite A. cbn. destruct (IH _ _ E) as [C D]. split; [exact C|congruence].
  Qed.
  Lemma move_same : forall fuel ops s w', run2 fuel ops (move O s) = Ok w' ->
    run O pred fuel ops s = Ok (new w') /\ old w' = Some (set_cmds O [] s).
  Proof. intros fuel ops s w' E. apply run_same in E. exact E. Qed.

  Lemma move_stuck : forall fuel ft s, finished s = false -> 0 <= cidx s -> ~ returns (update2 fuel ft (move O s)).
  Proof.
    intros fuel ft s F P. unfold TlMoveModel.update2. cbn [move new]. rewrite F. apply foreign_stuck; [|reflexivity].
    split; [exact P|]. cbn. generalize (Z.to_nat (cidx s)). generalize (cmds s).
    induction l; intros [|n]; cbn; auto.
  Qed.
  Lemma move_dead : forall fuel ft s, finished s = false -> 0 <= cidx s < size s ->
    update2 (S fuel) ft (destroy_old O (move O s)) = UB.
  Proof.
    intros fuel ft s F [P Q]. unfold TlMoveModel.update2. cbn. rewrite F. cbn. unfold isCIdxNull. cbn.
    destruct (Z.eqb_spec (cidx s) (-1)); [lia|]. destruct (Z.ltb_spec (cidx s) 0); [lia|].
    destruct (nth_error (cmds s) (Z.to_nat (cidx s))) as [c|] eqn:N; [|reflexivity].
    unfold cmd_update2. cbn. replace (nth _ _ false) with false; [reflexivity|].
    symmetry. generalize (Z.to_nat (cidx s)). generalize (cmds s). induction l; intros [|n1]; cbn; auto.
  Qed.
  Lemma idle_same : forall fuel ft s, finished s = true \/ cidx s = -1 ->
    exists w, update2 (S fuel) ft (move O s) = Ok w /\ update O pred (S fuel) ft s = Ok (new w).
  Proof.
    intros fuel ft s H. unfold TlMoveModel.update2, update. cbn. destruct (finished s) eqn:F.
    - eexists. split; reflexivity.
    - destruct H as [H|H]; [discriminate|]. unfold isCIdxNull. cbn. rewrite H. cbn. eexists. split; reflexivity.
  Qed.
  (** The old timeline has no commands, but a current one. *)
  Lemma old_update : forall fuel ft s, finished s = false -> 0 <= cidx s -> forall o, old (move O s) = Some o ->
    update O pred (S fuel) ft o = UB.
  Proof.
    intros fuel ft s F P o E. injection E as <-. unfold update. cbn. rewrite F. cbn. unfold isCIdxNull. cbn.
    destruct (Z.eqb_spec (cidx s) (-1)); [lia|]. destruct (Z.ltb_spec (cidx s) 0); [lia|].
    destruct (Z.to_nat (cidx s)); reflexivity.
  Qed.

  (** With only own commands everything is as usual. *)
  Definition owned (w : moved O) : Prop := mine w = map (fun _ => true) (cmds (new w)).
  Definition lift (w : moved O) (x : outcome timeline) : outcome (moved O) :=
    obind x (fun n => Ok {| new := n; mine := map (fun _ => true) (cmds n); old := old w |}).
  Lemma true_nth : forall {A} (l : list A) i x, nth_error l i = Some x -> nth i (map (fun _ => true) l) false = true.
  Proof. induction l; intros [|i] x H; cbn in *; try discriminate; eauto. Qed.
  Lemma true_len : forall {A B} (l : list A) (m : list B), length l = length m -> map (fun _ => true) l = map (fun _ => true) m.
  Proof. induction l; intros [|b m] H; cbn in *; try discriminate; auto. f_equal. apply IHl. lia. Qed.

  Lemma own_next : forall s s', next O s = Ok s' -> length (cmds s') = length (cmds s).
  Proof.
    intros s s' E. unfold next in E. destruct (isCIdxNull O s); [injection E as <-; auto|].
    destruct ((cidx s + 1 <? 0) || (size s <? cidx s + 1)); [discriminate|].
    destruct (cidx s + 1 =? size s); injection E as <-; reflexivity.
  Qed.
  Lemma cb_len : forall cb s, length (cmds (fold_left (callback_step O) cb s)) = length (cmds s).
  Proof.
    induction cb as [|c cb IH]; intros s; cbn; [reflexivity|]. rewrite IH. destruct c; cbn; try reflexivity.
    rewrite map_length. reflexivity.
  Qed.
  Lemma own_cmd : forall i c ft s s', cmd_update O pred i c ft s = Ok s' -> length (cmds s') = length (cmds s).
  Proof.
    assert (RL : forall l i c, length (replace_nth O l i c) = length l) by (induction l; intros [|i] c; cbn; auto).
    intros i [time cur|wh p|id cb|g times cur] ft s s' E; cbn in E.
    - destruct (wpos O (wsub O cur ft)); [injection E as <-; cbn; auto|].
      destruct (next O _) as [n| | |] eqn:N; cbn in E; try discriminate. injection E as <-. cbn. rewrite RL.
      apply own_next in N. exact N.
    - destruct (Bool.eqb _ wh); [injection E as <-; reflexivity|]. apply own_next in E. exact E.
    - apply own_next in E. rewrite E, cb_len. reflexivity.
    - destruct (cur =? 0)%N; [apply own_next in E; exact E|]. injection E as <-. cbn. apply RL.
  Qed.
  Lemma own_loop : forall fuel ft w, owned w -> update_loop2 fuel ft w = lift w (update_loop O pred fuel ft (new w)).
  Proof.
    induction fuel as [|fuel IH]; intros ft w H; [reflexivity|]. cbn. unfold lift.
    destruct (isCIdxNull O (new w)); [cbn; unfold set_new; rewrite H; reflexivity|].
    destruct (cidx (new w) <? 0); [reflexivity|].
    destruct (nth_error (cmds (new w)) (Z.to_nat (cidx (new w)))) as [c|] eqn:N; [|reflexivity].
    unfold cmd_update2. rewrite H, (true_nth _ _ _ N).
    destruct (cmd_update O pred _ c _ (new w)) as [n| | |] eqn:C; cbn; try reflexivity.
    apply own_cmd in C.
    destruct (ready n).
    - rewrite IH; [reflexivity|]. unfold owned. cbn. apply true_len. symmetry. exact C.
    - cbn. unfold set_new. cbn. f_equal. f_equal. apply true_len. symmetry. exact C.
  Qed.
  Lemma true_app : forall {A} (l : list A) x i, map (fun _ => true) (firstn i l ++ x :: skipn i l)
    = firstn i (map (fun _ => true) l) ++ true :: skipn i (map (fun _ => true) l).
  Proof. intros. rewrite map_app. cbn. rewrite firstn_map, skipn_map. reflexivity. Qed.
  Lemma own_insert : forall i c s n, insert O i c s = Ok n ->
    map (fun _ => true) (cmds n) = firstn (Z.to_nat i) (map (fun _ => true) (cmds s)) ++ true :: skipn (Z.to_nat i) (map (fun _ => true) (cmds s)).
  Proof.
    intros i c s n E. unfold insert in E. destruct ((i <? 0) || (size s <? i)); [discriminate|].
    injection E as <-. rewrite <- (true_app (cmds s) c). destruct (isCIdxNull O _); reflexivity.
  Qed.
  Lemma own_step : forall fuel o w, owned w -> step2 O pred fuel o w = lift w (step O pred fuel o (new w)).
  Proof.
    intros fuel o w H. destruct o as [c|i c|i| | | | |ft]; cbn; unfold lift, set_new; cbn; try (rewrite H; reflexivity); try reflexivity.
    - unfold append. destruct (insert O _ c (new w)) as [n| | |] eqn:E; cbn; try reflexivity. f_equal. f_equal.
      apply own_insert in E. rewrite E, H. unfold size. rewrite Nat2Z.id.
      rewrite firstn_all2, skipn_all2 by (rewrite map_length; lia). reflexivity.
    - destruct (insert O i c (new w)) as [n| | |] eqn:E; cbn; try reflexivity. f_equal. f_equal. rewrite H. symmetry. apply own_insert in E. exact E.
    - f_equal. f_equal. rewrite H. apply true_len. rewrite map_length. reflexivity.
    - unfold TlMoveModel.update2, update. cbn. destruct (finished (new w)); [cbn; rewrite H; reflexivity|].
      rewrite own_loop; [reflexivity|]. exact H.
  Qed.
  Lemma own_run : forall fuel ops w, owned w -> run2 fuel ops w = lift w (run O pred fuel ops (new w)).
  Proof.
    induction ops as [|o ops IH]; intros w H; cbn [TlMoveModel.run2 run].
    - unfold lift. cbn. rewrite <- H. destruct w; reflexivity.
    - rewrite own_step by exact H. destruct (step O pred fuel o (new w)) as [n| | |]; cbn; try reflexivity.
      rewrite IH by reflexivity. reflexivity.
  Qed.
  Lemma clear_fresh : forall fuel ops s,
    run2 fuel (OClear :: ops) (move O s)
    = obind (run O pred fuel (OClear :: ops) s) (fun n => Ok {| new := n; mine := map (fun _ => true) (cmds n); old := Some (set_cmds O [] s) |}).
  Proof. intros fuel ops s. cbn [TlMoveModel.run2 run step2 step obind]. rewrite own_run by reflexivity. reflexivity. Qed.
  Lemma clear_dead : forall fuel ops s,
    run2 fuel (OClear :: ops) (destroy_old O (move O s))
    = obind (run O pred fuel (OClear :: ops) s) (fun n => Ok {| new := n; mine := map (fun _ => true) (cmds n); old := None |}).
  Proof. intros fuel ops s. cbn [TlMoveModel.run2 run step2 step obind]. rewrite own_run by reflexivity. reflexivity. Qed.
End Moved.

Section Ways.
  Context (O : wt_ops) (pred : nat -> list (event (WT O)) -> bool).
  Lemma foreign_none : forall {A} (l : list A) i, nth i (map (fun _ => false) l) false = false.
  Proof. induction l; intros [|i]; cbn; auto. Qed.
  (** An action that does nothing to its timeline: the old one goes past its end. *)
  Lemma move_do : forall fuel ft s id, finished s = false -> 0 <= cidx s ->
    nth_error (cmds s) (Z.to_nat (cidx s)) = Some (CDo id []) -> update2 O pred (S fuel) ft (move O s) = UB.
  Proof.
    intros fuel ft s id F P N. unfold TlMoveModel.update2. cbn. rewrite F. cbn. unfold isCIdxNull. cbn.
    destruct (Z.eqb_spec (cidx s) (-1)); [lia|]. destruct (Z.ltb_spec (cidx s) 0); [lia|]. rewrite N.
    unfold cmd_update2. cbn. rewrite foreign_none. cbn. unfold next, isCIdxNull. cbn.
    destruct (Z.eqb_spec (cidx s) (-1)); [lia|]. unfold size. cbn.
    destruct (Z.ltb_spec (cidx s + 1) 0); [lia|]. destruct (Z.ltb_spec 0 (cidx s + 1)); [reflexivity|lia].
  Qed.
  (** A wait for a condition that does not come about: the update goes on for ever. *)
  Lemma move_hang : forall ft s p b, finished s = false -> 0 <= cidx s ->
    nth_error (cmds s) (Z.to_nat (cidx s)) = Some (CLoop b p) -> (forall h, pred p h = b) ->
    forall fuel, update2 O pred fuel ft (move O s) = OutOfFuel.
  Proof.
    intros ft s p b F P N H fuel. unfold TlMoveModel.update2. cbn [move new]. rewrite F.
    assert (L : forall fuel w, finished (new w) = false -> 0 <= cidx (new w) -> ready (new w) = true -> old w <> None ->
      nth (Z.to_nat (cidx (new w))) (mine w) false = false ->
      nth_error (cmds (new w)) (Z.to_nat (cidx (new w))) = Some (CLoop b p) -> update_loop2 O pred fuel ft w = OutOfFuel).
    { induction fuel0 as [|fuel0 IH]; intros w Fw Pw Rw Dw Mw Nw; [reflexivity|].
      cbn [TlMoveModel.update_loop2]. unfold isCIdxNull.
      destruct (Z.eqb_spec (cidx (new w)) (-1)); [lia|]. destruct (Z.ltb_spec (cidx (new w)) 0); [lia|]. rewrite Nw.
      unfold cmd_update2. rewrite Mw. destruct (old w) as [o|]; [|congruence]. cbn [foreign_update]. rewrite H, eqb_reflx. cbn.
      rewrite Rw. apply IH; cbn; auto; congruence. }
    apply L; cbn; auto; [congruence|apply foreign_none].
  Qed.
End Ways.

Section Summed.
  Context (O : wt_ops) (pred : nat -> list (event (WT O)) -> bool).
  Lemma later_stuck : forall fuel ft (w : moved O), finished (new w) = false -> 0 <= cidx (new w) ->
    nth (Z.to_nat (cidx (new w))) (mine w) false = false -> ~ returns (update2 O pred fuel ft w).
  Proof.
    intros fuel ft w F P N. unfold TlMoveModel.update2. rewrite F. apply foreign_stuck; [|reflexivity]. split; assumption.
  Qed.
  Lemma move_ways : forall ft s c, finished s = false -> 0 <= cidx s ->
    nth_error (cmds s) (Z.to_nat (cidx s)) = Some c ->
    (forall fuel, update2 O pred (S fuel) ft (destroy_old O (move O s)) = UB) /\
    (forall id, c = CDo id [] -> forall fuel, update2 O pred (S fuel) ft (move O s) = UB) /\
    (forall b p, c = CLoop b p -> (forall h, pred p h = b) -> forall fuel, update2 O pred fuel ft (move O s) = OutOfFuel).
  Proof.
    intros ft s c F P N. refine (conj _ (conj _ _)).
    - intros fuel. apply move_dead; [exact F|]. split; [exact P|]. unfold size.
      assert (Z.to_nat (cidx s) < length (cmds s))%nat by (apply nth_error_Some; congruence). lia.
    - intros id -> fuel. eapply move_do; eauto.
    - intros b p -> H fuel. eapply move_hang; eauto.
  Qed.
  Lemma cleared_ok : forall fuel ops s n, run O pred fuel (OClear :: ops) s = Ok n ->
    (exists w, run2 O pred fuel (OClear :: ops) (move O s) = Ok w /\ new w = n) /\
    (exists w, run2 O pred fuel (OClear :: ops) (destroy_old O (move O s)) = Ok w /\ new w = n).
  Proof.
    intros fuel ops s n E. split.
    - rewrite clear_fresh, E. eexists. split; reflexivity.
    - rewrite clear_dead, E. eexists. split; reflexivity.
  Qed.
  Lemma old_state : forall fuel ft s o, old (move O s) = Some o ->
    (finished s = false -> 0 <= cidx s -> update O pred (S fuel) ft o = UB) /\
    (size o = 0 /\ cidx o = cidx s /\ finished o = finished s) /\
    (exists o', run O pred (S fuel) [OClear; OStart; OUpdate ft] o = Ok o' /\ finished o' = true /\ cidx o' = -1 /\ size o' = 0) /\
    (exists o', run O pred (S fuel) [OReset; OUpdate ft] o = Ok o' /\ finished o' = true /\ cidx o' = -1 /\ size o' = 0).
  Proof.
    intros fuel ft s o E. refine (conj _ (conj _ (conj _ _))).
    - intros F P. eapply old_update; eauto.
    - injection E as <-. auto.
    - injection E as <-. eexists. split; [reflexivity|]. cbn. auto.
    - injection E as <-. eexists. split; [reflexivity|]. cbn. auto.
  Qed.
End Summed.
Lemma moved_refuted : forall (two until : timeline exact_wt) (yes : nat -> list (event (WT exact_wt)) -> bool),
  two = {| cmds := [CDo 1 []; CWait 5 5]; cidx := 0; remainder := 0; ready := true; finished := false; log := [] |} ->
  until = {| cmds := [CLoop true 7]; cidx := 0; remainder := 0; ready := true; finished := false; log := [] |} ->
  (forall h, yes 7%nat h = true) ->
  (exists s n, run exact_wt yes 9 [OUpdate 1] s = Ok n /\ log n = [EFrame 1; EDo 1] /\
     forall fuel, run2 exact_wt yes (S fuel) [OUpdate 1] (move exact_wt s) = UB) /\
  (exists s n, run exact_wt yes 9 [OUpdate 1] s = Ok n /\ log n = [EFrame 1; EPred 7 true] /\
     forall fuel, run2 exact_wt yes fuel [OUpdate 1] (move exact_wt s) = OutOfFuel).
Proof.
  intros two until yes -> -> Y. split.
  - exists {| cmds := [CDo 1 []; CWait 5 5]; cidx := 0; remainder := 0; ready := true; finished := false; log := [] |}.
    eexists. split; [|split].
    + cbn. reflexivity.
    + reflexivity.
    + intros fuel. reflexivity.
  - exists {| cmds := [CLoop true 7]; cidx := 0; remainder := 0; ready := true; finished := false; log := [] |}.
    eexists. split; [|split].
    + cbn. rewrite Y. cbn. reflexivity.
    + reflexivity.
    + intros fuel. cbn [TlMoveModel.run2 step2].
      match goal with |- context [update2 _ _ _ _ ?w] => set (w0 := w) end.
      change w0 with (set_new exact_wt (add_log exact_wt (EFrame 1) (new (move exact_wt {| cmds := [CLoop true 7]; cidx := 0; remainder := 0; ready := true; finished := false; log := [] |})))
        (move exact_wt {| cmds := [CLoop true 7]; cidx := 0; remainder := 0; ready := true; finished := false; log := [] |})).
      unfold set_new, move. cbn [new mine old add_log cmds map].
      match goal with |- context [update2 ?a ?b ?c ?d ?w] => assert (update2 a b c d w = OutOfFuel) as ->; [|reflexivity] end.
      unfold TlMoveModel.update2. cbn [new finished set_flags].
      clear w0.
      assert (L : forall fuel w, cidx (new w) = 0 -> ready (new w) = true -> old w <> None ->
        mine w = [false] -> cmds (new w) = [CLoop true 7] -> TlMoveModel.update_loop2 exact_wt yes fuel 1 w = OutOfFuel).
      { induction fuel0 as [|fuel0 IH]; intros w Cw Rw Dw Mw Nw; [reflexivity|].
        cbn [TlMoveModel.update_loop2]. unfold isCIdxNull. rewrite Cw, Nw. cbn [Z.eqb Z.ltb Z.compare Z.to_nat nth_error].
        unfold cmd_update2. rewrite Mw. cbn [nth]. destruct (old w) as [o|]; [|congruence]. cbn [foreign_update]. rewrite Y. cbn.
        rewrite Rw. apply IH; cbn; auto; congruence. }
      apply L; cbn; auto; congruence.
Qed.
