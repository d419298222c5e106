(** Proofs about timelines. *)
From Coq Require Import String ZArith NArith Arith Bool Lia List.
From Verif Require Import Common ListAux TimelineModel TimelineSpec.
Import ListNotations.
Local Open Scope Z_scope.

Section P.
  Context (O : wt_ops) (pred : nat -> list (event (WT O)) -> bool).
  Notation W := (WT O).
  Notation lin_update := (lin_update O pred).
  Notation lin_run := (lin_run O pred).
  Notation update_loop := (update_loop O pred).
  Notation update := (update O pred).
  Notation run := (run O pred).
  Notation unroll := (unroll O).
  Notation change := (change O).
  Notation after := (after O).
  Notation replace_nth := (replace_nth O).

  Lemma replace_nth_change : forall cs i c x, nth_error cs i = Some x -> replace_nth cs i c = change cs i c.
  Proof.
    induction cs as [|y cs IH]; intros [|i] c x H; try discriminate; cbn in *; [reflexivity|].
    rewrite (IH i c x H). reflexivity.
  Qed.
  Lemma nth_lt : forall {A} (l : list A) i x, nth_error l i = Some x -> (i < length l)%nat.
  Proof. intros A l i x H. apply nth_error_Some. rewrite H. discriminate. Qed.
  Lemma change_length : forall cs i c, (i < length cs)%nat -> length (change cs i c) = length cs.
  Proof. intros cs i c H. unfold TimelineSpec.change. rewrite app_length, firstn_length. cbn [length]. rewrite skipn_length. lia. Qed.
  Lemma change_nth : forall cs i c, (i < length cs)%nat -> nth_error (change cs i c) i = Some c.
  Proof.
    intros cs i c H. unfold TimelineSpec.change. rewrite nth_error_app2; rewrite firstn_length; [|lia].
    replace (i - Nat.min i (length cs))%nat with 0%nat by lia. reflexivity.
  Qed.
  Lemma change_change : forall cs i c d, (i < length cs)%nat -> change (change cs i c) i d = change cs i d.
  Proof.
    intros cs i c d H. unfold TimelineSpec.change.
    assert (L : length (firstn i cs) = i) by (rewrite firstn_length; lia).
    rewrite firstn_app, L, Nat.sub_diag. cbn [firstn]. rewrite app_nil_r, firstn_firstn, Nat.min_id.
    f_equal. f_equal. rewrite skipn_app, L. replace (S i - i)%nat with 1%nat by lia.
    rewrite skipn_all2 by lia. reflexivity.
  Qed.
  Lemma after_change : forall cs i c, (i < length cs)%nat -> after (change cs i c) i = after cs i.
  Proof. intros. unfold TimelineSpec.after. rewrite change_length by assumption. reflexivity. Qed.

  Lemma next_ok : forall s i, cidx s = Z.of_nat i -> (i < length (cmds s))%nat ->
    next O s = Ok (set_cidx O (after (cmds s) i) s).
  Proof.
    intros s i C H. unfold next, isCIdxNull, size. rewrite C.
    replace (Z.of_nat i =? -1) with false by (symmetry; apply Z.eqb_neq; lia).
    replace ((Z.of_nat i + 1 <? 0) || (Z.of_nat (length (cmds s)) <? Z.of_nat i + 1)) with false
      by (symmetry; apply orb_false_iff; split; apply Z.ltb_ge; lia).
    unfold TimelineSpec.after. destruct (Nat.eqb_spec (S i) (length (cmds s))) as [E|E].
    - replace (Z.of_nat i + 1 =? Z.of_nat (length (cmds s))) with true by (symmetry; apply Z.eqb_eq; lia). reflexivity.
    - replace (Z.of_nat i + 1 =? Z.of_nat (length (cmds s))) with false by (symmetry; apply Z.eqb_neq; lia).
      do 2 f_equal. lia.
  Qed.

  Lemma loop_step : forall fuel ft s i c, cidx s = Z.of_nat i -> nth_error (cmds s) i = Some c ->
    update_loop (S fuel) ft s =
    obind (cmd_update O pred i c (wadd O ft (remainder s)) s)
      (fun s => let s := set_rem O (wzero O) s in if ready s then update_loop fuel ft s else Ok s).
  Proof.
    intros fuel ft s i c C N. cbn [TimelineModel.update_loop]. unfold isCIdxNull. rewrite C.
    replace (Z.of_nat i =? -1) with false by (symmetry; apply Z.eqb_neq; lia).
    replace (Z.of_nat i <? 0) with false by (symmetry; apply Z.ltb_ge; lia).
    rewrite Nat2Z.id, N. reflexivity.
  Qed.

  Lemma sim_loop : forall ft, wadd O ft (wzero O) = ft -> forall cs i L, unroll cs i L -> forall s,
    cmds s = cs -> cidx s = i -> remainder s = wzero O -> ready s = true -> finished s = false ->
    exists F s', (forall fuel, (F <= fuel)%nat -> update_loop fuel ft s = Ok s')
      /\ remainder s' = wzero O
      /\ let '(L', h', fin) := lin_update ft L (log s) in
         unroll (cmds s') (cidx s') L' /\ log s' = h' /\ finished s' = fin.
  Proof.
    intros ft FZ cs i L U. induction U as [cs|cs i t c L N U IH|cs i w p L N U IH|cs i e L N U IH|cs i g n L N U IH|cs i g n k L N U IH];
      intros s Hc Hi Hr Hy Hf.
    - exists 1%nat, (stop O s). split.
      { intros [|fuel] H; [lia|]. cbn [TimelineModel.update_loop]. unfold isCIdxNull. rewrite Hi. reflexivity. }
      cbn. rewrite Hi. repeat split; auto. apply U_end.
    - subst cs. pose proof (nth_lt _ _ _ N) as LT. cbn [TimelineSpec.lin_update].
      destruct (wpos O (wsub O c ft)) eqn:Q.
      + eexists 1%nat, _. split.
        { intros [|fuel] H; [lia|]. rewrite (loop_step _ _ _ _ _ Hi N), Hr, FZ. cbn [cmd_update]. rewrite Q.
          cbn [obind]. unfold put, set_rem, set_cmds, set_flags. cbn [ready cmds cidx remainder finished log].
          rewrite (replace_nth_change _ _ _ _ N). reflexivity. }
        cbn [remainder cmds cidx log finished]. split; [reflexivity|]. split; [|auto]. rewrite Hi.
        apply U_wait with (t := t); [apply change_nth; exact LT|].
        rewrite change_change, after_change by exact LT. exact U.
      + eexists 1%nat, _. split.
        { intros [|fuel] H; [lia|]. rewrite (loop_step _ _ _ _ _ Hi N), Hr, FZ. cbn [cmd_update]. rewrite Q.
          rewrite (next_ok _ i) by (cbn; assumption). cbn [obind]. unfold put, set_rem, set_cmds, set_flags, set_cidx. cbn [ready cmds cidx remainder finished log].
          rewrite (replace_nth_change _ _ _ _ N). reflexivity. }
        cbn [remainder cmds cidx log finished]. auto.
    - subst cs. pose proof (nth_lt _ _ _ N) as LT. cbn [TimelineSpec.lin_update].
      destruct (Bool.eqb (pred p (log s)) w) eqn:Q.
      + eexists 1%nat, _. split.
        { intros [|fuel] H; [lia|]. rewrite (loop_step _ _ _ _ _ Hi N). cbn [cmd_update].
          unfold set_flags, add_log. cbn [log]. rewrite Q. cbn [obind]. unfold set_rem. cbn [ready cmds cidx remainder finished log]. reflexivity. }
        cbn [remainder cmds cidx log finished]. split; [reflexivity|]. split; [|auto]. rewrite Hi.
        apply U_loop; assumption.
      + eexists 1%nat, _. split.
        { intros [|fuel] H; [lia|]. rewrite (loop_step _ _ _ _ _ Hi N). cbn [cmd_update].
          unfold set_flags, add_log. cbn [log]. rewrite Q.
          rewrite (next_ok _ i) by (cbn; assumption). cbn [obind]. unfold set_rem, set_cidx. cbn [ready cmds cidx remainder finished log]. reflexivity. }
        cbn [remainder cmds cidx log finished]. auto.
    - subst cs. pose proof (nth_lt _ _ _ N) as LT. cbn [TimelineSpec.lin_update].
      destruct (IH (set_rem O (wzero O) (set_cidx O (after (cmds s) i) (add_log O (EDo e) s)))) as (F & s' & E & R); try reflexivity; try assumption.
      exists (S F), s'. split.
      { intros [|fuel] H; [lia|]. rewrite (loop_step _ _ _ _ _ Hi N). cbn [cmd_update fold_left].
        rewrite (next_ok _ i) by (cbn; assumption). cbn [obind]. cbn [ready set_rem set_cidx add_log]. rewrite Hy.
        apply E. lia. }
      cbn [log set_rem set_cidx add_log] in R. exact R.
    - subst cs. pose proof (nth_lt _ _ _ N) as LT.
      destruct (IH (set_rem O (wzero O) (set_cidx O (after (cmds s) i) s))) as (F & s' & E & R); try reflexivity; try assumption.
      exists (S F), s'. split.
      { intros [|fuel] H; [lia|]. rewrite (loop_step _ _ _ _ _ Hi N). cbn [cmd_update]. change ((0 =? 0)%N) with true. cbv iota.
        rewrite (next_ok _ i) by (cbn; assumption). cbn [obind]. cbn [ready set_rem set_cidx]. rewrite Hy.
        apply E. lia. }
      exact R.
    - subst cs. pose proof (nth_lt _ _ _ N) as LT.
      destruct (IH (set_rem O (wzero O) (jumpTo O g (put O i (CGo g n k) s)))) as (F & s' & E & R); try reflexivity; try assumption.
      { cbn. apply (replace_nth_change _ _ _ _ N). }
      exists (S F), s'. split.
      { intros [|fuel] H; [lia|]. rewrite (loop_step _ _ _ _ _ Hi N). cbn [cmd_update].
        replace (N.succ k =? 0)%N with false by (symmetry; apply N.eqb_neq; lia).
        replace (N.succ k - 1)%N with k by lia. cbn [obind]. cbn [ready set_rem set_cidx jumpTo put set_cmds].
        rewrite Hy. apply E. lia. }
      exact R.
  Qed.

  Lemma sim_update : forall ft, wadd O ft (wzero O) = ft -> forall s L,
    unroll (cmds s) (cidx s) L -> remainder s = wzero O -> finished s = false ->
    exists F s', (forall fuel, (F <= fuel)%nat -> update fuel ft s = Ok s')
      /\ remainder s' = wzero O
      /\ let '(L', h', fin) := lin_update ft L (log s) in
         unroll (cmds s') (cidx s') L' /\ log s' = h' /\ finished s' = fin.
  Proof.
    intros ft FZ s L U R Fi.
    destruct (sim_loop ft FZ _ _ _ U (set_flags O true (finished s) s)) as (F & s' & E & Q); try reflexivity; try assumption.
    exists F, s'. split; [|exact Q]. intros fuel H. unfold TimelineModel.update. rewrite Fi. rewrite Fi in E. apply E. exact H.
  Qed.

  Lemma run_app : forall fuel a b s, run fuel (a ++ b) s = obind (run fuel a s) (run fuel b).
  Proof.
    induction a as [|o a IH]; intros b s; cbn [app TimelineModel.run]; [reflexivity|].
    destruct (step O pred fuel o s); cbn [obind]; [apply IH|reflexivity..].
  Qed.

  Lemma sim_run : forall fts, (forall ft, In ft fts -> wadd O ft (wzero O) = ft) -> forall s L,
    unroll (cmds s) (cidx s) L -> remainder s = wzero O ->
    exists F s', (forall fuel, (F <= fuel)%nat -> run fuel (map OUpdate fts) s = Ok s')
      /\ remainder s' = wzero O
      /\ let '(L', h', fin) := lin_run fts L (log s) (finished s) in
         unroll (cmds s') (cidx s') L' /\ log s' = h' /\ finished s' = fin.
  Proof.
    induction fts as [|ft fts IH]; intros FZ s L U R.
    - exists 0%nat, s. cbn. auto.
    - cbn [map TimelineModel.run TimelineSpec.lin_run step]. destruct (finished s) eqn:Fi.
      + destruct (IH (fun x H => FZ x (or_intror H)) (add_log O (EFrame ft) s) L) as (F & s' & E & Q); try assumption.
        exists F, s'. split.
        { intros fuel H. unfold TimelineModel.update. cbn [finished add_log]. rewrite Fi. cbn [obind]. apply E, H. }
        cbn [finished add_log log] in Q. rewrite Fi in Q. exact Q.
      + destruct (sim_update ft (FZ ft (or_introl eq_refl)) (add_log O (EFrame ft) s) L) as (F1 & s1 & E1 & R1 & Q1); try assumption.
        cbn [log add_log] in Q1. destruct (lin_update ft L (log s ++ [EFrame ft])) as [[L1 h1] f1].
        destruct Q1 as (U1 & Q1 & Q2). subst h1 f1.
        destruct (IH (fun x H => FZ x (or_intror H)) s1 L1) as (F & s' & E & Q); try assumption.
        exists (Nat.max F1 F), s'. split; [|exact Q].
        intros fuel H. rewrite E1 by lia. cbn [obind]. apply E. lia.
  Qed.

  (** Building by appending. *)
  Lemma build_from : forall fuel cs s, cidx s = first_index O (cmds s) ->
    exists s', run fuel (map OAppend cs) s = Ok s' /\ cmds s' = cmds s ++ cs /\ cidx s' = first_index O (cmds s')
      /\ remainder s' = remainder s /\ ready s' = ready s /\ finished s' = finished s /\ log s' = log s.
  Proof.
    induction cs as [|c cs IH]; intros s C.
    - exists s. rewrite app_nil_r. repeat split; auto.
    - cbn [map TimelineModel.run step]. unfold append, insert.
      replace ((size s <? 0) || (size s <? size s)) with false by (symmetry; apply orb_false_iff; unfold size; split; apply Z.ltb_ge; lia).
      unfold size. rewrite Nat2Z.id, firstn_all, skipn_all2 by lia. cbn [obind].
      match goal with |- context [run fuel _ ?s0] => destruct (IH s0) as (s' & E & A1 & A2 & A3 & A4 & A5 & A6) end.
      { unfold isCIdxNull, set_cmds, set_cidx. cbn [cidx cmds]. rewrite C. destruct (cmds s) as [|x l]; reflexivity. }
      exists s'. rewrite E. split; [reflexivity|].
      unfold isCIdxNull, set_cmds, set_cidx in *. cbn [cidx] in *.
      destruct (cidx s =? -1); cbn [cmds cidx remainder ready finished log] in *; rewrite A1, <- app_assoc; repeat split; auto; rewrite A2, A1, <- app_assoc; reflexivity.
  Qed.
  Lemma build : forall fuel cs, 
    run fuel (map OAppend cs) (new_timeline O true) =
      Ok {| cmds := cs; cidx := first_index O cs; remainder := wzero O; ready := true; finished := false; log := [] |}.
  Proof.
    intros fuel cs. destruct (build_from fuel cs (new_timeline O true) eq_refl) as ([a b c d e f] & E & A1 & A2 & A3 & A4 & A5 & A6).
    cbn in *. subst. exact E.
  Qed.

  Lemma program_run : forall cs L fts, unroll cs (first_index O cs) L -> (forall ft, In ft fts -> wadd O ft (wzero O) = ft) ->
    exists F s', (forall fuel, (F <= fuel)%nat -> run fuel (map OAppend cs ++ map OUpdate fts) (new_timeline O true) = Ok s')
      /\ remainder s' = wzero O
      /\ let '(L', h', fin) := lin_run fts L [] false in
         unroll (cmds s') (cidx s') L' /\ log s' = h' /\ finished s' = fin.
  Proof.
    intros cs L fts U FZ.
    destruct (sim_run fts FZ {| cmds := cs; cidx := first_index O cs; remainder := wzero O; ready := true; finished := false; log := [] |} L) as (F & s' & E & Q);
      [exact U|reflexivity|].
    exists F, s'. split; [|exact Q]. intros fuel H. rewrite run_app, build. cbn [obind]. apply E, H.
  Qed.

  (** Straight segments. *)
  Definition idx (cs : list (cmd O)) (k : nat) : Z := if (k =? length cs)%nat then -1 else Z.of_nat k.
  Lemma seg : forall L a rest R,
    unroll (a ++ map (to_cmd O) L ++ rest) (idx (a ++ map (to_cmd O) L ++ rest) (length a + length L)) R ->
    unroll (a ++ map (to_cmd O) L ++ rest) (idx (a ++ map (to_cmd O) L ++ rest) (length a)) (L ++ R).
  Proof.
    induction L as [|x L IH]; intros a rest R U.
    - cbn [length map app] in *. rewrite Nat.add_0_r in U. exact U.
    - assert (E : a ++ map (to_cmd O) (x :: L) ++ rest = (a ++ [to_cmd O x]) ++ map (to_cmd O) L ++ rest) by (rewrite <- app_assoc; reflexivity).
      assert (U' : unroll (a ++ map (to_cmd O) (x :: L) ++ rest) (after (a ++ map (to_cmd O) (x :: L) ++ rest) (length a)) (L ++ R)).
      { replace (after (a ++ map (to_cmd O) (x :: L) ++ rest) (length a)) with (idx (a ++ map (to_cmd O) (x :: L) ++ rest) (length (a ++ [to_cmd O x]))).
        - rewrite E. apply IH. rewrite E in U. rewrite app_length. cbn [length]. replace (length a + 1 + length L)%nat with (length a + length (x :: L))%nat by (cbn; lia). exact U.
        - unfold idx, TimelineSpec.after. rewrite app_length. cbn [length]. rewrite Nat.add_1_r. reflexivity. }
      assert (N : nth_error (a ++ map (to_cmd O) (x :: L) ++ rest) (length a) = Some (to_cmd O x)).
      { rewrite nth_error_app2, Nat.sub_diag by lia. reflexivity. }
      pose proof (nth_lt _ _ _ N) as LT. unfold idx at 1.
      replace (length a =? length (a ++ map (to_cmd O) (x :: L) ++ rest))%nat with false by (symmetry; apply Nat.eqb_neq; lia).
      cbn [app]. destruct x as [t|w p|e]; cbn [to_cmd] in N.
      + apply U_wait with (t := t); [exact N|].
        replace (change (a ++ map (to_cmd O) (LWait t :: L) ++ rest) (length a) (CWait t t)) with (a ++ map (to_cmd O) (LWait t :: L) ++ rest); [exact U'|].
        unfold TimelineSpec.change. rewrite firstn_app, Nat.sub_diag, firstn_all. cbn [firstn]. rewrite app_nil_r.
        f_equal. rewrite skipn_app, skipn_all2 by lia. replace (S (length a) - length a)%nat with 1%nat by lia. reflexivity.
      + apply U_loop; assumption.
      + apply U_do; assumption.
  Qed.
  Lemma idx_first : forall cs, idx cs 0 = first_index O cs.
  Proof. intros [|c cs]; reflexivity. Qed.

  Lemma straight_unroll : forall L, unroll (map (to_cmd O) L) (first_index O (map (to_cmd O) L)) L.
  Proof.
    intros L. rewrite <- idx_first. pose proof (seg L [] [] []) as S. cbn [app length plus] in S. rewrite !app_nil_r in S.
    apply S. unfold idx. rewrite map_length, Nat.eqb_refl. apply U_end.
  Qed.

  Lemma block_succ : forall B n, block O B (N.succ n) = B ++ block O B n.
  Proof. intros. unfold block. rewrite N.iter_succ. reflexivity. Qed.

  Lemma loop_unroll : forall pre B post times k,
    let cs := map (to_cmd O) pre ++ map (to_cmd O) B ++ CGo (Z.of_nat (length pre)) times k :: map (to_cmd O) post in
    unroll cs (Z.of_nat (length pre)) (block O B (N.succ k) ++ post).
  Proof.
    intros pre B post times k. induction k as [|k IH] using N.peano_ind; cbv zeta in *.
    - set (cs := map (to_cmd O) pre ++ map (to_cmd O) B ++ CGo (Z.of_nat (length pre)) times 0 :: map (to_cmd O) post).
      assert (LT : (length pre + length B < length cs)%nat)
        by (unfold cs; rewrite !app_length, !map_length; cbn [length]; lia).
      replace (Z.of_nat (length pre)) with (idx cs (length (map (to_cmd O) pre)))
        by (rewrite map_length; unfold idx; replace (length pre =? length cs)%nat with false by (symmetry; apply Nat.eqb_neq; lia); reflexivity).
      rewrite block_succ. unfold block. cbn [N.iter]. rewrite app_nil_r. unfold cs. apply seg. fold cs.
      rewrite map_length. unfold idx. replace (length pre + length B =? length cs)%nat with false by (symmetry; apply Nat.eqb_neq; lia).
      assert (N : nth_error cs (length pre + length B) = Some (CGo (Z.of_nat (length pre)) times 0)).
      { unfold cs. rewrite app_assoc, nth_error_app2; rewrite app_length, !map_length; [|lia]. rewrite Nat.sub_diag. reflexivity. }
      apply U_go_through with (g := Z.of_nat (length pre)) (n := times); [exact N|].
      set (a := map (to_cmd O) pre ++ map (to_cmd O) B ++ [CGo (Z.of_nat (length pre)) times 0]).
      assert (E : cs = a ++ map (to_cmd O) post ++ []) by (unfold cs, a; rewrite app_nil_r, <- !app_assoc; reflexivity).
      replace (after cs (length pre + length B)) with (idx cs (length a)).
      2:{ unfold idx, TimelineSpec.after, a. rewrite !app_length, !map_length. cbn [length]. replace (length pre + (length B + 1))%nat with (S (length pre + length B)) by lia. reflexivity. }
      replace post with (post ++ []) at 1 by apply app_nil_r. rewrite E. apply seg. rewrite <- E.
      unfold idx. replace (length a + length post =? length cs)%nat with true; [apply U_end|].
      symmetry. apply Nat.eqb_eq. rewrite E, app_nil_r, app_length, map_length. reflexivity.
    - set (cs := map (to_cmd O) pre ++ map (to_cmd O) B ++ CGo (Z.of_nat (length pre)) times (N.succ k) :: map (to_cmd O) post).
      assert (LT : (length pre + length B < length cs)%nat)
        by (unfold cs; rewrite !app_length, !map_length; cbn [length]; lia).
      replace (unroll cs (Z.of_nat (length pre))) with (unroll cs (idx cs (length (map (to_cmd O) pre))))
        by (rewrite map_length; unfold idx; replace (length pre =? length cs)%nat with false by (symmetry; apply Nat.eqb_neq; lia); reflexivity).
      rewrite block_succ, <- app_assoc. unfold cs. apply seg. fold cs.
      rewrite map_length. unfold idx. replace (length pre + length B =? length cs)%nat with false by (symmetry; apply Nat.eqb_neq; lia).
      assert (N : nth_error cs (length pre + length B) = Some (CGo (Z.of_nat (length pre)) times (N.succ k))).
      { unfold cs. rewrite app_assoc, nth_error_app2; rewrite app_length, !map_length; [|lia]. rewrite Nat.sub_diag. reflexivity. }
      apply U_go_jump with (g := Z.of_nat (length pre)) (n := times) (k := k); [exact N|].
      replace (change cs (length pre + length B) (CGo (Z.of_nat (length pre)) times k))
        with (map (to_cmd O) pre ++ map (to_cmd O) B ++ CGo (Z.of_nat (length pre)) times k :: map (to_cmd O) post); [exact IH|].
      unfold TimelineSpec.change, cs. rewrite app_assoc.
      assert (La : length (map (to_cmd O) pre ++ map (to_cmd O) B) = (length pre + length B)%nat) by (rewrite app_length, !map_length; reflexivity).
      rewrite (app_assoc (map (to_cmd O) pre) (map (to_cmd O) B) (CGo _ _ (N.succ k) :: _)).
      rewrite firstn_app, La, Nat.sub_diag, <- La, firstn_all. cbn [firstn]. rewrite app_nil_r.
      f_equal. rewrite skipn_app, skipn_all2 by lia.
      replace (S (length (map (to_cmd O) pre ++ map (to_cmd O) B)) - length (map (to_cmd O) pre ++ map (to_cmd O) B))%nat with 1%nat by lia. reflexivity.
  Qed.

  Lemma loop_program : forall pre B post n,
    let cs := map (to_cmd O) pre ++ map (to_cmd O) B ++ Go (Z.of_nat (length pre)) n :: map (to_cmd O) post in
    unroll cs (first_index O cs) (pre ++ block O B (N.succ n) ++ post).
  Proof.
    intros pre B post n cs. rewrite <- idx_first.
    pose proof (seg pre [] (map (to_cmd O) B ++ Go (Z.of_nat (length pre)) n :: map (to_cmd O) post) (block O B (N.succ n) ++ post)) as S.
    cbn [app length plus] in S. apply S. fold cs.
    replace (idx cs (length pre)) with (Z.of_nat (length pre)); [apply loop_unroll|].
    unfold idx. replace (length pre =? length cs)%nat with false; [reflexivity|].
    symmetry. apply Nat.eqb_neq. unfold cs. rewrite !app_length, !map_length. cbn [length]. lia.
  Qed.

  (** Reset. *)
  Lemma reset_replace : forall cs i c d, nth_error cs i = Some d -> reset_cmd O c = reset_cmd O d ->
    map (reset_cmd O) (replace_nth cs i c) = map (reset_cmd O) cs.
  Proof.
    induction cs as [|x cs IH]; intros [|i] c d N E; try discriminate; cbn in *.
    - injection N as ->. rewrite E. reflexivity.
    - rewrite (IH i c d N E). reflexivity.
  Qed.
  Lemma reset_idem : forall cs, map (reset_cmd O) (map (reset_cmd O) cs) = map (reset_cmd O) cs.
  Proof. intros cs. rewrite map_map. apply map_ext. intros []; reflexivity. Qed.
  Lemma reset_length : forall cs, length (map (reset_cmd O) cs) = length cs.
  Proof. intros. apply map_length. Qed.
  Lemma next_cmds : forall s s', next O s = Ok s' -> cmds s' = cmds s.
  Proof.
    intros s s' H. unfold next in H. destruct (isCIdxNull O s); [injection H as <-; reflexivity|].
    destruct (_ || _); [discriminate|]. destruct (_ =? _); injection H as <-; reflexivity.
  Qed.
  Lemma callbacks_cmds : forall cb s, map (reset_cmd O) (cmds (fold_left (callback_step O) cb s)) = map (reset_cmd O) (cmds s).
  Proof.
    induction cb as [|c cb IH]; intros s; cbn [fold_left]; [reflexivity|]. rewrite IH.
    destruct c; cbn; try reflexivity. apply reset_idem.
  Qed.
  Lemma cmd_update_reset : forall i c ft s s', nth_error (cmds s) i = Some c -> cmd_update O pred i c ft s = Ok s' ->
    map (reset_cmd O) (cmds s') = map (reset_cmd O) (cmds s).
  Proof.
    intros i c ft s s' N H. destruct c as [t c|w p|e cb|g n k]; cbn [cmd_update] in H.
    - destruct (wpos O _).
      + injection H as <-. cbn. apply (reset_replace _ _ _ _ N). reflexivity.
      + match type of H with obind ?x _ = _ => destruct x as [s1| | |] eqn:E; try discriminate end.
        cbn [obind] in H. injection H as <-. apply next_cmds in E. cbn in *. rewrite E.
        apply (reset_replace _ _ _ _ N). reflexivity.
    - destruct (Bool.eqb _ _); [injection H as <-; reflexivity|]. apply next_cmds in H. rewrite H. reflexivity.
    - apply next_cmds in H. rewrite H, callbacks_cmds. reflexivity.
    - destruct (k =? 0)%N; [apply next_cmds in H; rewrite H; reflexivity|]. injection H as <-. cbn.
      apply (reset_replace _ _ _ _ N). reflexivity.
  Qed.
  Lemma update_loop_reset : forall fuel ft s s', update_loop fuel ft s = Ok s' ->
    map (reset_cmd O) (cmds s') = map (reset_cmd O) (cmds s).
  Proof.
    induction fuel as [|fuel IH]; intros ft s s' H; [discriminate|]. cbn [TimelineModel.update_loop] in H.
    destruct (isCIdxNull O s); [injection H as <-; reflexivity|]. destruct (cidx s <? 0); [discriminate|].
    destruct (nth_error (cmds s) (Z.to_nat (cidx s))) as [c|] eqn:N; [|discriminate].
    match type of H with obind ?x _ = _ => destruct x as [s1| | |] eqn:E; try discriminate end.
    cbn [obind] in H. apply cmd_update_reset in E; [|exact N]. rewrite <- E.
    destruct (ready _); [|injection H as <-; reflexivity]. apply IH in H. exact H.
  Qed.
  Lemma updates_reset : forall fuel fts s s', run fuel (map OUpdate fts) s = Ok s' ->
    map (reset_cmd O) (cmds s') = map (reset_cmd O) (cmds s).
  Proof.
    induction fts as [|ft fts IH]; intros s s' H; cbn [map TimelineModel.run step] in H; [injection H as <-; reflexivity|].
    match type of H with obind ?x _ = _ => destruct x as [s1| | |] eqn:E; try discriminate end.
    cbn [obind] in H. apply IH in H. rewrite H. unfold TimelineModel.update in E.
    destruct (finished _); [injection E as <-; reflexivity|]. apply update_loop_reset in E. exact E.
  Qed.

  Lemma program_reset : forall cs L fts fts2, map (reset_cmd O) cs = cs -> unroll cs (first_index O cs) L ->
    (forall ft, In ft (fts ++ fts2) -> wadd O ft (wzero O) = ft) ->
    exists F s', (forall fuel, (F <= fuel)%nat ->
        run fuel (map OAppend cs ++ map OUpdate fts ++ OReset :: map OUpdate fts2) (new_timeline O true) = Ok s')
      /\ let '(_, h1, _) := lin_run fts L [] false in
         let '(_, h2, fin2) := lin_run fts2 L h1 false in
         log s' = h2 /\ finished s' = fin2.
  Proof.
    intros cs L fts fts2 RC U FZ.
    destruct (program_run cs L fts U) as (F1 & s1 & E1 & R1 & Q1); [intros ft H; apply FZ, in_or_app; auto|].
    destruct (lin_run fts L [] false) as [[L1 h1] f1]. destruct Q1 as (_ & Lg & _).
    assert (C1 : map (reset_cmd O) (cmds s1) = cs).
    { specialize (E1 F1 ltac:(lia)). rewrite run_app, build in E1. cbn [obind] in E1.
      apply updates_reset in E1. rewrite E1. exact RC. }
    destruct (sim_run fts2 (fun ft H => FZ ft (in_or_app _ _ _ (or_intror H))) (reset O s1) L) as (F2 & s2 & E2 & R2 & Q2).
    { unfold reset. cbn [cmds cidx set_cidx set_cmds start set_flags]. rewrite C1. exact U. }
    { exact R1. }
    exists (Nat.max F1 F2), s2. split.
    { intros fuel H. rewrite app_assoc, run_app, E1 by lia. cbn [obind TimelineModel.run step]. apply E2. lia. }
    cbn [log reset set_cidx set_cmds start set_flags finished] in Q2. rewrite Lg in Q2.
    destruct (lin_run fts2 L h1 false) as [[L2 h2] f2]. tauto.
  Qed.

  (** Actions run in order, each exactly once. *)
  (** Histories of calls on straight timelines. *)
  Lemma after_app : forall cs c i, (i < length cs)%nat ->
    after (cs ++ [c]) i = if after cs i =? -1 then Z.of_nat (length cs) else after cs i.
  Proof.
    intros cs c i H. unfold TimelineSpec.after. rewrite app_length. cbn [length].
    destruct (S i =? length cs)%nat eqn:E.
    - apply Nat.eqb_eq in E. replace (S i =? length cs + 1)%nat with false by (symmetry; apply Nat.eqb_neq; lia).
      rewrite Z.eqb_refl. f_equal. exact E.
    - apply Nat.eqb_neq in E. replace (S i =? length cs + 1)%nat with false by (symmetry; apply Nat.eqb_neq; lia).
      replace (Z.of_nat (S i) =? -1) with false by (symmetry; apply Z.eqb_neq; lia). reflexivity.
  Qed.
  Lemma change_app : forall cs i c d, (i < length cs)%nat -> change (cs ++ [d]) i c = change cs i c ++ [d].
  Proof.
    intros cs i c d H. unfold TimelineSpec.change. rewrite firstn_app, skipn_app.
    replace (i - length cs)%nat with 0%nat by lia. replace (S i - length cs)%nat with 0%nat by lia.
    cbn [firstn skipn]. rewrite app_nil_r, <- app_assoc. reflexivity.
  Qed.
  Definition straight (c : cmd O) : Prop := match c with CGo _ _ _ => False | CDo _ cb => cb = [] | _ => True end.
  Lemma straight_of : forall cs L, map (reset_cmd O) cs = map (to_cmd O) L -> Forall straight cs.
  Proof.
    induction cs as [|c cs IH]; intros [|x L] H; try discriminate; [constructor|]. cbn [map] in H. injection H as H1 H2.
    constructor; [|apply (IH L H2)]. destruct c, x; cbn in *; try exact I; try discriminate. injection H1 as <- <-. reflexivity.
  Qed.
  Lemma unroll_end : forall L, unroll [] (-1) L -> L = [].
  Proof. intros L U. inversion U; subst; try reflexivity; exfalso; match goal with H : Z.of_nat _ = -1 |- _ => lia end. Qed.
  Lemma unroll_app : forall cs i L, unroll cs i L -> Forall straight cs -> forall x,
    unroll (cs ++ [to_cmd O x]) (if i =? -1 then Z.of_nat (length cs) else i) (L ++ [x]).
  Proof.
    assert (N1 : forall (cs : list (cmd O)) i c d, nth_error cs i = Some c -> nth_error (cs ++ [d]) i = Some c).
    { intros cs i c d H. rewrite nth_error_app1; [exact H|]. apply (nth_lt _ _ _ H). }
    assert (NN : forall i, Z.of_nat i =? -1 = false) by (intros i; apply Z.eqb_neq; lia).
    intros cs i L U. induction U as [cs|cs i t c L N U IH|cs i w p L N U IH|cs i e L N U IH|cs i g n L N U IH|cs i g n k L N U IH];
      intros St x; rewrite ?NN.
    - rewrite Z.eqb_refl. cbn [app].
      assert (N : nth_error (cs ++ [to_cmd O x]) (length cs) = Some (to_cmd O x)) by (rewrite nth_error_app2, Nat.sub_diag by lia; reflexivity).
      assert (Af : forall c, after (change (cs ++ [to_cmd O x]) (length cs) c) (length cs) = -1).
      { intros c. unfold TimelineSpec.after. rewrite change_length; [|apply (nth_lt _ _ _ N)]. rewrite app_length. cbn [length].
        replace (S (length cs) =? length cs + 1)%nat with true by (symmetry; apply Nat.eqb_eq; lia). reflexivity. }
      assert (Af2 : after (cs ++ [to_cmd O x]) (length cs) = -1).
      { rewrite <- (Af (to_cmd O x)). rewrite after_change; [reflexivity|]. apply (nth_lt _ _ _ N). }
      destruct x as [t|w p|e]; cbn [to_cmd] in *.
      + apply U_wait with (t := t); [exact N|]. rewrite Af2. apply U_end.
      + apply U_loop; [exact N|]. rewrite Af2. apply U_end.
      + apply U_do; [exact N|]. rewrite Af2. apply U_end.
    - assert (Hl := nth_lt _ _ _ N). cbn [app]. apply U_wait with (t := t); [apply N1, N|].
      rewrite change_app, after_app by exact Hl. rewrite <- (change_length cs i (CWait t t) Hl). apply IH.
      unfold TimelineSpec.change. apply Forall_app. split; [|constructor; [exact I|]].
      + rewrite <- (firstn_skipn i cs) in St. apply Forall_app in St. apply St.
      + rewrite <- (firstn_skipn (S i) cs) in St. apply Forall_app in St. apply St.
    - assert (Hl := nth_lt _ _ _ N). cbn [app]. apply U_loop; [apply N1, N|]. rewrite after_app by exact Hl. apply IH, St.
    - assert (Hl := nth_lt _ _ _ N). cbn [app]. apply U_do; [apply N1, N|]. rewrite after_app by exact Hl. apply IH, St.
    - exfalso. apply nth_error_In in N. rewrite Forall_forall in St. apply (St _ N).
    - exfalso. apply nth_error_In in N. rewrite Forall_forall in St. apply (St _ N).
  Qed.

  Lemma history_from : forall ops, (forall ft, In (LUpdate ft) ops -> wadd O ft (wzero O) = ft) -> forall s A L,
    unroll (cmds s) (cidx s) L -> remainder s = wzero O -> map (reset_cmd O) (cmds s) = map (to_cmd O) A ->
    exists F s', (forall fuel, (F <= fuel)%nat -> run fuel (map (to_op O) ops) s = Ok s')
      /\ let '(A', L', h', fin) := fold_left (lin_step O pred) ops (A, L, log s, finished s) in
         map (reset_cmd O) (cmds s') = map (to_cmd O) A' /\ log s' = h' /\ finished s' = fin.
  Proof.
    induction ops as [|o ops IH]; intros FZ s A L U R C.
    - exists 0%nat, s. split; [reflexivity|]. cbn. auto.
    - cbn [map TimelineModel.run fold_left].
      assert (Easy : forall s1 A1 L1, (forall fuel, step O pred fuel (to_op O o) s = Ok s1) ->
        unroll (cmds s1) (cidx s1) L1 -> remainder s1 = wzero O -> map (reset_cmd O) (cmds s1) = map (to_cmd O) A1 ->
        lin_step O pred (A, L, log s, finished s) o = (A1, L1, log s1, finished s1) ->
        exists F s', (forall fuel, (F <= fuel)%nat -> obind (step O pred fuel (to_op O o) s) (run fuel (map (to_op O) ops)) = Ok s')
          /\ let '(A', L', h', fin) := fold_left (lin_step O pred) ops (lin_step O pred (A, L, log s, finished s) o) in
             map (reset_cmd O) (cmds s') = map (to_cmd O) A' /\ log s' = h' /\ finished s' = fin).
      { intros s1 A1 L1 E U1 R1 C1 E1. destruct (IH (fun x H => FZ x (or_intror H)) s1 A1 L1 U1 R1 C1) as (F & s' & E' & Q).
        exists F, s'. rewrite E1. split; [|exact Q]. intros fuel H. rewrite E. apply E', H. }
      destruct o as [x|ft| | | |]; cbn [to_op] in *.
      + apply (Easy (set_cidx O (if cidx s =? -1 then Z.of_nat (length (cmds s)) else cidx s) (set_cmds O (cmds s ++ [to_cmd O x]) s)) (A ++ [x]) (L ++ [x])).
        * intros fuel. cbn [step]. unfold append, insert.
          replace ((size s <? 0) || (size s <? size s)) with false by (symmetry; apply orb_false_iff; unfold size; split; apply Z.ltb_ge; lia).
          unfold size. rewrite Nat2Z.id, firstn_all, skipn_all2 by lia. unfold isCIdxNull. cbn [cidx set_cmds].
          destruct (cidx s =? -1); reflexivity.
        * cbn [cmds cidx set_cidx set_cmds]. apply unroll_app; [exact U|apply (straight_of _ A C)].
        * exact R.
        * cbn [cmds set_cidx set_cmds]. rewrite !map_app, C. destruct x; reflexivity.
        * reflexivity.
      + destruct (sim_run [ft]) with (s := s) (L := L) as (F1 & s1 & E1 & R1 & Q1); [intros y [<-|[]]; apply FZ; left; reflexivity|exact U|exact R|].
        assert (E1' : forall fuel, (F1 <= fuel)%nat -> step O pred fuel (OUpdate ft) s = Ok s1).
        { intros fuel H. specialize (E1 fuel H). cbn [map TimelineModel.run] in E1.
          destruct (step O pred fuel (OUpdate ft) s); cbn [obind] in E1; congruence. }
        assert (C1 := updates_reset F1 [ft] s s1 (E1 F1 (Nat.le_refl F1))). rewrite C in C1.
        cbn [lin_step]. destruct (lin_run [ft] L (log s) (finished s)) as [[L1 h1] f1]. destruct Q1 as (U1 & Q1 & Q2). subst h1 f1.
        destruct (IH (fun x H => FZ x (or_intror H)) s1 A L1 U1 R1 C1) as (F & s' & E' & Q).
        exists (Nat.max F1 F), s'. split; [|exact Q]. intros fuel H. rewrite E1' by lia. apply E'. lia.
      + apply (Easy (start O s) A L); try reflexivity; assumption.
      + apply (Easy (stop O s) A L); try reflexivity; assumption.
      + apply (Easy (reset O s) A A).
        * reflexivity.
        * unfold reset. cbn [cmds cidx set_cidx set_cmds start set_flags]. rewrite C. apply straight_unroll.
        * exact R.
        * unfold reset. cbn [cmds set_cidx set_cmds start set_flags]. rewrite reset_idem. exact C.
        * reflexivity.
      + apply (Easy (clear O s) [] []); try reflexivity; [|exact R]. cbn. apply U_end.
  Qed.
  Lemma history : forall st ops, (forall ft, In (LUpdate ft) ops -> wadd O ft (wzero O) = ft) ->
    exists F s', (forall fuel, (F <= fuel)%nat -> run fuel (map (to_op O) ops) (new_timeline O st) = Ok s')
      /\ let '(A, _, h, fin) := fold_left (lin_step O pred) ops ([], [], [], negb st) in
         size s' = Z.of_nat (length A) /\ log s' = h /\ finished s' = fin.
  Proof.
    intros st ops FZ. destruct (history_from ops FZ (new_timeline O st) [] []) as (F & s' & E & Q); try (destruct st; reflexivity).
    { destruct st; apply U_end. }
    exists F, s'. split; [exact E|]. replace (log (new_timeline O st)) with (@nil (event W)) in Q by (destruct st; reflexivity).
    replace (finished (new_timeline O st)) with (negb st) in Q by (destruct st; reflexivity).
    destruct (fold_left (lin_step O pred) ops ([], [], [], negb st)) as [[[A l] h] fin]. destruct Q as (Q1 & Q2 & Q3).
    split; [|auto]. unfold size. rewrite <- (map_length (reset_cmd O) (cmds s')), Q1, map_length. reflexivity.
  Qed.

  Lemma done_app : forall a b, done O (a ++ b) = done O a ++ done O b.
  Proof. induction a as [|x a IH]; intros y; [reflexivity|]; destruct x; cbn; rewrite ?IH; reflexivity. Qed.
  Lemma lin_update_done : forall ft L h, let '(L', h', fin) := lin_update ft L h in
    done O h' ++ actions O L' = done O h ++ actions O L /\ (fin = true -> L' = []).
  Proof.
    induction L as [|x L IH]; intros h; cbn [TimelineSpec.lin_update].
    - auto.
    - destruct x as [t|w p|e].
      + split; [|discriminate]. destruct (wpos O _); reflexivity.
      + split; [|discriminate]. rewrite done_app. cbn. rewrite app_nil_r. destruct (Bool.eqb _ _); reflexivity.
      + specialize (IH (h ++ [EDo e])). destruct (lin_update ft L (h ++ [EDo e])) as [[L' h'] f]. destruct IH as [I1 I2].
        split; [|exact I2]. rewrite I1, done_app. cbn. rewrite <- app_assoc. reflexivity.
  Qed.
  Lemma lin_run_done : forall fts L h fin, (fin = true -> L = []) -> let '(L', h', fin') := lin_run fts L h fin in
    done O h' ++ actions O L' = done O h ++ actions O L /\ (fin' = true -> L' = []).
  Proof.
    induction fts as [|ft fts IH]; intros L h fin H; cbn [TimelineSpec.lin_run]; [auto|].
    destruct fin.
    - specialize (IH L (h ++ [EFrame ft]) true H). destruct (lin_run fts L (h ++ [EFrame ft]) true) as [[L' h'] f].
      destruct IH as [I1 I2]. split; [|exact I2]. rewrite I1, done_app. cbn. rewrite app_nil_r. reflexivity.
    - pose proof (lin_update_done ft L (h ++ [EFrame ft])) as D. destruct (lin_update ft L (h ++ [EFrame ft])) as [[L1 h1] f1].
      destruct D as [D1 D2]. specialize (IH L1 h1 f1 D2). destruct (lin_run fts L1 h1 f1) as [[L' h'] f].
      destruct IH as [I1 I2]. split; [|exact I2]. rewrite I1, D1, done_app. cbn. rewrite app_nil_r. reflexivity.
  Qed.

  Lemma program_done : forall cs L fts, unroll cs (first_index O cs) L -> (forall ft, In ft fts -> wadd O ft (wzero O) = ft) ->
    exists F s', (forall fuel, (F <= fuel)%nat -> run fuel (map OAppend cs ++ map OUpdate fts) (new_timeline O true) = Ok s')
      /\ (let '(_, h', fin) := lin_run fts L [] false in log s' = h' /\ finished s' = fin)
      /\ exists later, actions O L = done O (log s') ++ later /\ (finished s' = true -> later = []).
  Proof.
    intros cs L fts U FZ. destruct (program_run cs L fts U FZ) as (F & s' & E & R & Q). exists F, s'. split; [exact E|].
    pose proof (lin_run_done fts L [] false ltac:(discriminate)) as D. destruct (lin_run fts L [] false) as [[L' h'] f].
    destruct Q as (U' & Q1 & Q2), D as [D1 D2]. split; [auto|]. exists (actions O L'). subst h' f. cbn [done app] in D1. split; [auto|].
    intros H. rewrite (D2 H). reflexivity.
  Qed.
  Lemma straight_run : forall L fts, (forall ft, In ft fts -> wadd O ft (wzero O) = ft) ->
    exists F s', (forall fuel, (F <= fuel)%nat -> run fuel (map OAppend (map (to_cmd O) L) ++ map OUpdate fts) (new_timeline O true) = Ok s')
      /\ (let '(_, h', fin) := lin_run fts L [] false in log s' = h' /\ finished s' = fin)
      /\ exists later, actions O L = done O (log s') ++ later /\ (finished s' = true -> later = []).
  Proof. intros L fts FZ. apply program_done; [apply straight_unroll|exact FZ]. Qed.

  Lemma loop_run : forall pre B post n fts, (forall ft, In ft fts -> wadd O ft (wzero O) = ft) ->
    exists F s', (forall fuel, (F <= fuel)%nat ->
        run fuel (map OAppend (map (to_cmd O) pre ++ map (to_cmd O) B ++ Go (Z.of_nat (length pre)) n :: map (to_cmd O) post)
          ++ map OUpdate fts) (new_timeline O true) = Ok s')
      /\ (let '(_, h', fin) := lin_run fts (pre ++ block O B (N.succ n) ++ post) [] false in log s' = h' /\ finished s' = fin)
      /\ exists later, actions O (pre ++ block O B (N.succ n) ++ post) = done O (log s') ++ later /\ (finished s' = true -> later = []).
  Proof. intros pre B post n fts FZ. apply program_done; [apply loop_program|exact FZ]. Qed.

  Lemma straight_reset : forall L fts fts2, (forall ft, In ft (fts ++ fts2) -> wadd O ft (wzero O) = ft) ->
    exists F s', (forall fuel, (F <= fuel)%nat ->
        run fuel (map OAppend (map (to_cmd O) L) ++ map OUpdate fts ++ OReset :: map OUpdate fts2) (new_timeline O true) = Ok s')
      /\ let '(_, h1, _) := lin_run fts L [] false in
         let '(_, h2, fin2) := lin_run fts2 L h1 false in
         log s' = h2 /\ finished s' = fin2.
  Proof.
    intros L fts fts2 FZ. apply program_reset; [|apply straight_unroll|exact FZ].
    rewrite map_map. apply map_ext. intros []; reflexivity.
  Qed.
  Lemma loop_reset : forall pre B post n fts fts2, (forall ft, In ft (fts ++ fts2) -> wadd O ft (wzero O) = ft) ->
    exists F s', (forall fuel, (F <= fuel)%nat ->
        run fuel (map OAppend (map (to_cmd O) pre ++ map (to_cmd O) B ++ Go (Z.of_nat (length pre)) n :: map (to_cmd O) post)
          ++ map OUpdate fts ++ OReset :: map OUpdate fts2) (new_timeline O true) = Ok s')
      /\ let '(_, h1, _) := lin_run fts (pre ++ block O B (N.succ n) ++ post) [] false in
         let '(_, h2, fin2) := lin_run fts2 (pre ++ block O B (N.succ n) ++ post) h1 false in
         log s' = h2 /\ finished s' = fin2.
  Proof.
    intros pre B post n fts fts2 FZ. apply program_reset; [|apply loop_program|exact FZ].
    rewrite !map_app. cbn [map]. rewrite !map_map. f_equal; [apply map_ext; intros []; reflexivity|].
    f_equal; [apply map_ext; intros []; reflexivity|]. cbn. f_equal. apply map_ext; intros []; reflexivity.
  Qed.

  (** Overshoot of a wait is dropped. *)
  Lemma overshoot : forall a ft L fts h, wpos O (wsub O a ft) = false ->
    lin_run (ft :: fts) (LWait a :: L) h false = lin_run fts L (h ++ [EFrame ft]) false.
  Proof. intros a ft L fts h H. cbn. rewrite H. reflexivity. Qed.

  Lemma overshoot_run : forall a ft L fts, (forall x, In x (ft :: fts) -> wadd O x (wzero O) = x) ->
    wpos O (wsub O a ft) = false ->
    exists F s', (forall fuel, (F <= fuel)%nat ->
        run fuel (map OAppend (Wait a :: map (to_cmd O) L) ++ map OUpdate (ft :: fts)) (new_timeline O true) = Ok s')
      /\ let '(_, h', fin) := lin_run fts L [EFrame ft] false in log s' = h' /\ finished s' = fin.
  Proof.
    intros a ft L fts FZ H. destruct (straight_run (LWait a :: L) (ft :: fts) FZ) as (F & s' & E & Q & _).
    exists F, s'. split; [exact E|]. rewrite overshoot in Q by exact H. exact Q.
  Qed.

  (** Indices. *)
  Definition inv (sz mx : Z) (s : timeline O) : Prop :=
    size s = sz /\ -1 <= cidx s < Z.max sz 0 /\ Forall (fun c => cmd_ok O c /\ cmd_max O c <= mx) (cmds s).
  Definition okc (mx : Z) (c : cmd O) : Prop := cmd_ok O c /\ cmd_max O c <= mx.

  Lemma next_inv : forall sz mx s, inv sz mx s -> (exists s', next O s = Ok s' /\ inv sz mx s').
  Proof.
    intros sz mx s (H1 & H2 & H3). unfold next, isCIdxNull. rewrite H1.
    assert (0 <= sz) by (rewrite <- H1; unfold size; lia).
    destruct (Z.eqb_spec (cidx s) (-1)) as [E|E]; [exists s; split; [reflexivity|split; [|split]; assumption]|].
    replace ((cidx s + 1 <? 0) || (sz <? cidx s + 1)) with false by (symmetry; apply orb_false_iff; split; apply Z.ltb_ge; lia).
    destruct (Z.eqb_spec (cidx s + 1) sz); eexists; (split; [reflexivity|]); (split; [exact H1|split; [cbn; lia|exact H3]]).
  Qed.
  Lemma replace_Forall : forall (P : cmd O -> Prop) cs i c, Forall P cs -> P c -> Forall P (replace_nth cs i c).
  Proof. induction cs as [|x cs IH]; intros [|i] c F Pc; cbn; inversion F; subst; constructor; auto. Qed.
  Lemma replace_len : forall cs i c, length (replace_nth cs i c) = length cs.
  Proof. induction cs as [|x cs IH]; intros [|i] c; cbn; rewrite ?IH; reflexivity. Qed.
  Lemma put_inv : forall sz mx i c s, inv sz mx s -> okc mx c -> inv sz mx (put O i c s).
  Proof.
    intros sz mx i c s (H1 & H2 & H3) Hc. split; [|split]; [unfold size in *; cbn; rewrite replace_len; exact H1|exact H2|].
    cbn. apply replace_Forall; assumption.
  Qed.
  Lemma okc_reset : forall mx c, okc mx c -> okc mx (reset_cmd O c).
  Proof. intros mx [] H; exact H. Qed.
  Lemma reset_inv : forall sz mx s, inv sz mx s -> inv sz mx (reset O s).
  Proof.
    intros sz mx s (H1 & H2 & H3). split; [|split]; cbn.
    - unfold size in *. cbn. rewrite map_length. exact H1.
    - unfold size in H1. destruct (cmds s); cbn in *; lia.
    - apply Forall_map. eapply Forall_impl; [|exact H3]. intros c. apply okc_reset.
  Qed.
  Lemma callbacks_inv : forall cb sz mx s, mx < sz -> Forall cb_ok cb ->
    fold_right (fun c m => Z.max (cb_max c) m) (-1) cb <= mx -> inv sz mx s -> inv sz mx (fold_left (callback_step O) cb s).
  Proof.
    induction cb as [|c cb IH]; intros sz mx s L F M I; cbn [fold_left]; [exact I|]. cbn [fold_right] in M. inversion F as [|? ? F1 F2]; subst.
    apply IH; try assumption; [lia|]. destruct c; cbn [callback_step cb_ok cb_max] in *; try exact I.
    - destruct I as (H1 & H2 & H3). split; [exact H1|]. split; [cbn; lia|exact H3].
    - apply reset_inv, I.
  Qed.
  Lemma cmd_update_inv : forall sz mx i c ft s, mx < sz -> inv sz mx s -> okc mx c ->
    exists s', cmd_update O pred i c ft s = Ok s' /\ inv sz mx s'.
  Proof.
    intros sz mx i c ft s L I Hc. destruct c as [t c|w p|e cb|g n k]; cbn [cmd_update].
    - destruct (wpos O _); [eexists; split; [reflexivity|]; apply put_inv; [exact I|exact Hc]|].
      match goal with |- context [next O ?s0] => destruct (next_inv sz mx s0 I) as (s1 & -> & I1) end.
      cbn [obind]. eexists; split; [reflexivity|]. apply put_inv; [exact I1|exact Hc].
    - destruct (Bool.eqb _ _); [eexists; split; [reflexivity|exact I]|]. apply next_inv. exact I.
    - destruct Hc as [C1 C2]. apply next_inv. apply callbacks_inv; assumption.
    - destruct (k =? 0)%N; [apply next_inv; exact I|]. eexists; split; [reflexivity|]. destruct Hc as [C1 C2]. cbn in C1, C2.
      destruct (put_inv sz mx i (CGo g n (k - 1)) s I) as (J1 & J2 & J3); [split; assumption|].
      split; [exact J1|split; [|exact J3]]. cbn. lia.
  Qed.
  Lemma update_loop_inv : forall fuel sz mx ft s, mx < sz -> inv sz mx s ->
    update_loop fuel ft s = OutOfFuel \/ exists s', update_loop fuel ft s = Ok s' /\ inv sz mx s'.
  Proof.
    induction fuel as [|fuel IH]; intros sz mx ft s L I; [left; reflexivity|]. cbn [TimelineModel.update_loop].
    pose proof I as (H1 & H2 & H3).
    assert (0 <= sz) by (rewrite <- H1; unfold size; lia).
    unfold isCIdxNull. destruct (Z.eqb_spec (cidx s) (-1)) as [E|E]; [right; eexists; split; [reflexivity|exact I]|].
    replace (cidx s <? 0) with false by (symmetry; apply Z.ltb_ge; lia).
    destruct (nth_error (cmds s) (Z.to_nat (cidx s))) as [c|] eqn:N.
    2:{ exfalso. apply nth_error_None in N. unfold size in H1. lia. }
    assert (Hc : okc mx c) by (rewrite Forall_forall in H3; apply H3; eapply nth_error_In; exact N).
    destruct (cmd_update_inv sz mx (Z.to_nat (cidx s)) c (wadd O ft (remainder s)) s L I Hc) as (s1 & -> & I1). cbn [obind].
    destruct (ready _); [apply (IH sz mx); assumption|]. right. eexists. split; [reflexivity|exact I1].
  Qed.
  Lemma insert_inv : forall sz mx i c s, inv sz mx s -> 0 <= i <= sz -> cmd_ok O c ->
    exists s', insert O i c s = Ok s' /\ inv (sz + 1) (Z.max mx (cmd_max O c)) s'.
  Proof.
    intros sz mx i c s (H1 & H2 & H3) Hi Hc. unfold insert. rewrite H1.
    replace ((i <? 0) || (sz <? i)) with false by (symmetry; apply orb_false_iff; split; apply Z.ltb_ge; lia).
    eexists. split; [reflexivity|].
    assert (Sz : size (set_cmds O (firstn (Z.to_nat i) (cmds s) ++ c :: skipn (Z.to_nat i) (cmds s)) s) = sz + 1).
    { unfold size in *. cbn. rewrite app_length. cbn [length]. rewrite firstn_length, skipn_length. lia. }
    assert (Fa : Forall (fun c0 => cmd_ok O c0 /\ cmd_max O c0 <= Z.max mx (cmd_max O c))
              (firstn (Z.to_nat i) (cmds s) ++ c :: skipn (Z.to_nat i) (cmds s))).
    { assert (W : Forall (fun c0 => cmd_ok O c0 /\ cmd_max O c0 <= Z.max mx (cmd_max O c)) (cmds s))
        by (eapply Forall_impl; [|exact H3]; cbn; intros x [X1 X2]; split; [assumption|lia]).
      rewrite <- (firstn_skipn (Z.to_nat i) (cmds s)) in W. apply Forall_app in W as [W1 W2].
      apply Forall_app. split; [exact W1|]. constructor; [split; [exact Hc|lia]|exact W2]. }
    unfold isCIdxNull. cbn [cidx set_cmds]. destruct (Z.eqb_spec (cidx s) (-1)) as [E|E].
    - split; [exact Sz|]. split; [cbn; lia|exact Fa].
    - split; [exact Sz|]. split; [cbn; lia|exact Fa].
  Qed.
  Lemma step_chain : forall fuel ops sz mx s, inv sz mx s -> hist_ok O sz mx ops ->
    run fuel ops s = OutOfFuel \/ exists s' sz' mx', run fuel ops s = Ok s' /\ inv sz' mx' s'.
  Proof.
    induction ops as [|o ops IH]; intros sz mx s I H.
    - right. exists s, sz, mx. auto.
    - assert (0 <= sz) by (destruct I as (<- & _); unfold size; lia).
      cbn [TimelineModel.run]. destruct o as [c|i c|i| | | | |ft]; cbn [step hist_ok] in *.
      + destruct H as [Hc H]. destruct (insert_inv sz mx sz c s I ltac:(lia) Hc) as (s1 & E & I1).
        unfold append. destruct I as (I0 & I2). rewrite I0, E. cbn [obind]. apply (IH _ _ _ I1 H).
      + destruct H as (Hi & Hc & H). destruct (insert_inv sz mx i c s I Hi Hc) as (s1 & -> & I1). cbn [obind]. apply (IH _ _ _ I1 H).
      + destruct H as [Hi H]. cbn [obind]. apply (IH sz mx); [|exact H]. destruct I as (J1 & J2 & J3). split; [exact J1|]. split; [cbn; lia|exact J3].
      + cbn [obind]. apply (IH sz mx); [exact I|exact H].
      + cbn [obind]. apply (IH sz mx); [exact I|exact H].
      + cbn [obind]. apply (IH 0 (-1)); [|exact H]. split; [reflexivity|]. split; [cbn; lia|constructor].
      + cbn [obind]. apply (IH sz mx); [apply reset_inv; exact I|exact H].
      + destruct H as [Hm H]. unfold TimelineModel.update. destruct (finished _).
        * cbn [obind]. apply (IH sz mx); [exact I|exact H].
        * match goal with |- context [update_loop fuel ft ?s0] => destruct (update_loop_inv fuel sz mx ft s0 Hm I) as [->|(s1 & -> & I1)] end; [left; reflexivity|].
          cbn [obind]. apply (IH sz mx); assumption.
  Qed.
  Lemma index_valid : forall fuel st ops, hist_ok O 0 (-1) ops ->
    run fuel ops (new_timeline O st) = OutOfFuel
    \/ exists s, run fuel ops (new_timeline O st) = Ok s
       /\ (size s = 0 /\ getCurrentIndex s = 0 \/ 0 <= getCurrentIndex s < size s).
  Proof.
    intros fuel st ops H. destruct (step_chain fuel ops 0 (-1) (new_timeline O st)) as [->|(s & sz & mx & E & I)]; [| exact H|left; reflexivity|].
    { destruct st; (split; [reflexivity|]; split; [cbn; lia|constructor]). }
    right. exists s. split; [exact E|].
    destruct I as (I1 & I2 & I3). unfold getCurrentIndex, isCIdxNull.
      assert (0 <= size s) by (unfold size; lia).
      destruct (Z.eqb_spec (cidx s) (-1)); [lia|]. destruct (Z.ltb_spec (cidx s) (size s)); lia.
  Qed.
End P.

Section Exact.
  Context (pred : nat -> list (event Z) -> bool).
  Lemma lin_wait : forall fts t ft rest L h,
    (forall j, (j <= length fts)%nat -> j <> 0%nat -> zsum (firstn j fts) < t) -> t <= zsum fts + ft ->
    lin_run exact_wt pred (fts ++ ft :: rest) (LWait (t : WT exact_wt) :: L) h false
    = lin_run exact_wt pred rest L (h ++ map EFrame (fts ++ [ft])) false.
  Proof.
    induction fts as [|x fts IH]; intros t ft rest L h H1 H2; cbn [zsum fold_right] in H2.
    - apply (overshoot exact_wt pred). cbn. apply Z.ltb_ge. lia.
    - cbn [app lin_run lin_update exact_wt wpos wsub].
      assert (P : x < t) by (specialize (H1 1%nat ltac:(cbn; lia) ltac:(lia)); cbn in H1; lia).
      replace (0 <? t - x) with true by (symmetry; apply Z.ltb_lt; lia). cbv iota.
      rewrite (IH (t - x)).
      + rewrite <- app_assoc. reflexivity.
      + intros j J1 J2. specialize (H1 (S j) ltac:(cbn; lia) ltac:(lia)). cbn in H1. unfold zsum. lia.
      + unfold zsum. lia.
  Qed.
  Lemma wait_run : forall t L fts ft rest,
    (forall j, (j <= length fts)%nat -> j <> 0%nat -> zsum (firstn j fts) < t) -> t <= zsum fts + ft ->
    exists F s', (forall fuel, (F <= fuel)%nat ->
        run exact_wt pred fuel (map OAppend (map (to_cmd exact_wt) (LWait (t : WT exact_wt) :: L)) ++ map OUpdate (fts ++ ft :: rest)) (new_timeline exact_wt true) = Ok s')
      /\ let '(_, h', fin) := lin_run exact_wt pred rest L (map EFrame (fts ++ [ft])) false in log s' = h' /\ finished s' = fin.
  Proof.
    intros t L fts ft rest H1 H2.
    destruct (straight_run exact_wt pred (LWait (t : WT exact_wt) :: L) (fts ++ ft :: rest)) as (F & s' & E & Q & _).
    { intros x _. cbn. lia. }
    exists F, s'. split; [exact E|]. rewrite (lin_wait fts t ft rest L [] H1 H2) in Q. exact Q.
  Qed.
End Exact.
