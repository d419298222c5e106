From Coq Require Import String ZArith NArith Arith Bool Lia List.
From Verif Require Import Common TimelineModel TimelineSpec TimelineProofs GrowModel GrowSpec GrowProofs PollModel PollSpec.
Import ListNotations.
Local Open Scope Z_scope.

Section P.
  Context (O : wt_ops) (pred : nat -> list (event (WT O)) -> bool) (adds padds : nat -> list (event (WT O)) -> list (add O)).
  Notation W := (WT O).
  Notation act := (fun id h => map (to_change O) (adds id h)).
  Notation pact := (fun id h => map (to_change O) (padds id h)).
  Notation loop := (pupdate_loop O pred act pact).
  Notation plays := (polls O pred adds padds).
  Notation repr := (repr O).
  Notation rep := (rep O).
  Notation mid := (mid O).

  Lemma loop_end : forall fuel ft P s, rep P [] s -> loop (S fuel) ft s = Ok (stop O s).
  Proof. intros fuel ft P s (C & HC & F & I & R). inversion F; subst. cbn [pupdate_loop]. unfold isCIdxNull. rewrite I. reflexivity. Qed.
  Lemma loop_cons : forall fuel ft P x q s, wadd O ft (wzero O) = ft -> rep P (x :: q) s -> exists c C, cmds s = P ++ c :: C /\ repr c x /\ Forall2 repr C q /\ cidx s = Z.of_nat (length P) /\
    loop (S fuel) ft s = obind (pcmd_update O pred act pact (length P) c ft s) (fun s => let s := set_rem O (wzero O) s in if ready s then loop fuel ft s else Ok s).
  Proof.
    intros fuel ft P x q s FZ (C & HC & F & I & R). inversion F as [|c x0 C' q0 F1 F2]; subst. exists c, C'. split; [exact HC|]. split; [exact F1|]. split; [exact F2|]. split; [exact I|].
    cbn [pupdate_loop]. unfold isCIdxNull. rewrite I. replace (Z.of_nat (length P) =? -1) with false by (symmetry; apply Z.eqb_neq; lia).
    replace (Z.of_nat (length P) <? 0) with false by (symmetry; apply Z.ltb_ge; lia). rewrite Nat2Z.id, HC, nth_error_app2, Nat.sub_diag by lia. cbn [nth_error]. rewrite R, FZ. reflexivity.
  Qed.
  (** Waits: one turn of the loop, no next one. *)
  Lemma loop_wait : forall fuel ft P t q s, wadd O ft (wzero O) = ft -> rep P (LWait t :: q) s -> exists P' s',
    loop (S fuel) ft s = Ok s' /\ rep P' (if wpos O (wsub O t ft) then LWait (wsub O t ft) :: q else q) s' /\ log s' = log s /\ finished s' = finished s /\ command_actions O P' = command_actions O P.
  Proof.
    intros fuel ft P t q s FZ RP. pose proof RP as (C0 & _ & _ & _ & R). destruct (loop_cons fuel ft P _ q s FZ RP) as (c & C & HC & RC & F & I & E). rewrite E. destruct c as [t0 cur| | |]; try contradiction. cbn in RC. subst cur.
    cbn [pcmd_update cmd_update]. destruct (wpos O (wsub O t ft)).
    - exists P. eexists. split; [cbn; reflexivity|]. split; [|cbn; auto]. unfold put, set_rem, set_cmds, set_flags. cbn [cmds]. exists (CWait t0 (wsub O t ft) :: C). cbn [cmds cidx remainder]. rewrite HC, replace_mid. repeat split; try assumption. constructor; [reflexivity|exact F].
    - assert (M : mid (P ++ [CWait t0 t]) q (set_rem O (wzero O) (set_flags O false (finished s) s))) by (apply (rep_skip O _ _ C); auto).
      assert (NE : forall r, next O (set_rem O r (set_flags O false (finished s) s)) = obind (next O (set_rem O (wzero O) (set_flags O false (finished s) s))) (fun s => Ok (set_rem O r s))).
      { intros r. unfold next, isCIdxNull, size. cbn [set_rem cidx set_flags cmds]. repeat match goal with |- context [if ?b then _ else _] => destruct b end; reflexivity. }
      rewrite NE. destruct (next_mid O _ _ _ M) as (s1 & E1 & (C1 & HC1 & F1 & I1 & R1) & L1 & Y1 & Fi1). rewrite E1. cbn [obind].
      exists (P ++ [CWait t0 t0]). eexists. split.
      { unfold put, set_rem, set_cmds. cbn [ready]. rewrite Y1. cbn [ready set_rem set_flags]. reflexivity. }
      cbn [log finished set_rem set_flags] in *. split; [|split; [exact L1|]; split; [exact Fi1|unfold command_actions; rewrite !flat_map_app; cbn; apply app_nil_r]].
      exists C1. cbn [cmds cidx remainder]. rewrite HC1, <- app_assoc. cbn [app]. rewrite replace_mid, <- app_assoc. cbn [app]. rewrite app_length in *. cbn [length] in *. split; [reflexivity|]. split; [exact F1|]. split; [|reflexivity]. exact I1.
  Qed.
  Lemma loop_loop : forall fuel ft P w p q q1 s, wadd O ft (wzero O) = ft -> rep P (LLoop w p :: q) s -> added O (padds p (log s ++ [EPred p (pred p (log s))])) q q1 -> exists P' s',
    loop (S fuel) ft s = Ok s' /\ rep P' (if Bool.eqb (pred p (log s)) w then LLoop w p :: q1 else q1) s' /\ log s' = log s ++ [EPred p (pred p (log s))] /\ finished s' = finished s /\ command_actions O P' = command_actions O P.
  Proof.
    intros fuel ft P w p q q1 s FZ RP A. pose proof RP as (C0 & _ & _ & _ & R). destruct (loop_cons fuel ft P _ q s FZ RP) as (c & C & HC & RC & F & I & E). rewrite E. destruct c as [|w0 p0| |]; try contradiction. cbn in RC. destruct RC as (-> & ->).
    cbn [pcmd_update]. unfold poll_update. cbn [log set_flags add_log].
    set (s0 := add_log O _ _). assert (M : mid (P ++ [CLoop w p]) q s0) by (apply (rep_skip O _ _ C); auto).
    destruct (changes_forward O _ _ _ A _ _ M) as (s1 & E1 & M1 & L1 & Y1 & F1). rewrite E1. cbn [obind].
    destruct (Bool.eqb (pred p (log s)) w) eqn:Q.
    - exists P. eexists. split; [cbn [obind set_rem ready]; rewrite Y1; cbn; reflexivity|]. split; [|cbn [log set_rem finished]; rewrite L1, F1; auto].
      destruct M1 as (C1 & HC1 & FF & I1 & _ & R1). exists (CLoop w p :: C1). cbn [set_rem cmds cidx remainder]. rewrite HC1, <- app_assoc. cbn [app]. rewrite app_length in I1. cbn [length] in I1.
      split; [reflexivity|]. split; [constructor; [cbn; auto|exact FF]|]. split; [lia|reflexivity].
    - destruct (next_mid O _ _ _ M1) as (s2 & E2 & (C2 & HC2 & F2 & I2 & R2) & L2 & Y2 & Fi2). rewrite E2. cbn [obind].
      exists (P ++ [CLoop w p]). eexists. split; [cbn [set_rem ready]; rewrite Y2, Y1; cbn; reflexivity|]. split; [|split; [cbn [set_rem log]; rewrite L2, L1; reflexivity|]; split; [cbn [set_rem finished]; rewrite Fi2, F1; reflexivity|unfold command_actions; rewrite !flat_map_app; cbn; now rewrite app_nil_r]].
      exists C2. cbn. auto.
  Qed.
  Lemma loop_added : forall fuel ft P w p q s s', wadd O ft (wzero O) = ft -> rep P (LLoop w p :: q) s -> loop (S fuel) ft s = Ok s' -> exists q1, added O (padds p (log s ++ [EPred p (pred p (log s))])) q q1.
  Proof.
    intros fuel ft P w p q s s' FZ RP E0. pose proof RP as (C0 & _ & _ & _ & R). destruct (loop_cons fuel ft P _ q s FZ RP) as (c & C & HC & RC & F & I & E). rewrite E in E0. destruct c as [|w0 p0| |]; try contradiction. cbn in RC. destruct RC as (-> & ->).
    cbn [pcmd_update] in E0. unfold poll_update in E0. cbn [log set_flags add_log] in E0.
    set (s0 := add_log O _ _) in E0. assert (M : mid (P ++ [CLoop w p]) q s0) by (apply (rep_skip O _ _ C); auto).
    destruct (change_steps O _ s0) as [s1| | |] eqn:E1; try discriminate. exact (changes_backward O _ _ _ _ _ M E1).
  Qed.
  (** Actions: the loop goes on. *)
  Lemma do_mid : forall ft P e q s, wadd O ft (wzero O) = ft -> rep P (LDo e :: q) s -> exists c, mid (P ++ [c]) q (add_log O (EDo e) s) /\ command_actions O [c] = [e] /\
    forall fuel, loop (S fuel) ft s = obind (do_update O act e s) (fun s => let s := set_rem O (wzero O) s in if ready s then loop fuel ft s else Ok s).
  Proof.
    intros ft P e q s FZ RP. pose proof RP as (C0 & _ & _ & _ & R). destruct (loop_cons 0 ft P _ q s FZ RP) as (c & C & HC & RC & F & I & _). destruct c as [| |id cb|]; try contradiction. cbn in RC. subst id.
    exists (CDo e cb). split; [apply (rep_skip O _ _ C); auto|]. split; [reflexivity|]. intros fuel. destruct (loop_cons fuel ft P _ q s FZ RP) as (c' & C' & HC' & RC' & _ & _ & E). rewrite HC in HC'. apply app_inv_head in HC'. injection HC' as <- <-. rewrite E. reflexivity.
  Qed.

  Lemma forward : forall ft, wadd O ft (wzero O) = ft -> forall q h q' h' f, plays ft q h q' h' f -> forall P s, rep P q s -> log s = h -> done O h = command_actions O P -> ready s = true -> finished s = false ->
    exists F P' s', (forall fuel, (F <= fuel)%nat -> loop fuel ft s = Ok s') /\ rep P' q' s' /\ log s' = h' /\ done O h' = command_actions O P' /\ finished s' = f.
  Proof.
    intros ft FZ q h q' h' f PL. induction PL as [h|e q h q1 q' h' f A PL IH|t q h|w p q h q1 A]; intros P s RP L D Y Fi.
    - exists 1%nat, P, (stop O s). split; [intros [|fuel] K; [lia|]; exact (loop_end fuel ft P s RP)|]. split; [|cbn; auto]. destruct RP as (C & RP). exists C. exact RP.
    - destruct (do_mid ft P e q s FZ RP) as (c & M & CA & E). subst h. destruct (changes_forward O _ _ _ A _ _ M) as (s1 & E1 & M1 & L1 & Y1 & F1). destruct (next_mid O _ _ _ M1) as (s2 & E2 & R2 & L2 & Y2 & F2).
      assert (R2' : rep (P ++ [c]) q1 (set_rem O (wzero O) s2)). { destruct R2 as (C & H1 & H2 & H3 & H4). exists C. cbn. auto. }
      destruct (IH _ _ R2') as (F & P' & s' & G & R' & L' & D' & Fi'); try (cbn in *; congruence).
      { rewrite done_app, D. unfold command_actions in *. rewrite flat_map_app, CA. reflexivity. }
      exists (S F), P', s'. split; [|auto]. intros [|fuel] K; [lia|]. rewrite E. unfold do_update.  cbn [log add_log] in *. rewrite E1. cbn [obind]. rewrite E2. cbn [obind set_rem ready]. rewrite Y2, Y1. cbn [ready add_log]. rewrite Y. apply G. lia.
    - destruct (loop_wait 0 ft P t q s FZ RP) as (P' & s' & E & R' & L' & F' & CA). exists 1%nat, P', s'. split; [|subst h; rewrite L', CA; repeat split; congruence]. intros [|fuel] K; [lia|].
      destruct (loop_wait fuel ft P t q s FZ RP) as (P2 & s2 & E2 & _). destruct (loop_cons fuel ft P _ q s FZ RP) as (c & C & HC & RC & F & I & EE). destruct (loop_cons 0 ft P _ q s FZ RP) as (c' & C' & HC' & _ & _ & _ & EE').
      rewrite HC in HC'. apply app_inv_head in HC'. injection HC' as <- <-. rewrite EE. rewrite EE' in E. destruct (pcmd_update O pred act pact (length P) c ft s) as [s3| | |]; try discriminate. cbn [obind] in *. destruct (ready (set_rem O (wzero O) s3)) eqn:RY; [discriminate|exact E].
    - subst h. destruct (loop_loop 0 ft P w p q q1 s FZ RP A) as (P' & s' & E & R' & L' & F' & CA). exists 1%nat, P', s'. split; [|rewrite L', CA; split; [exact R'|]; split; [reflexivity|]; split; [rewrite done_app, D; cbn; apply app_nil_r|congruence]]. intros [|fuel] K; [lia|].
      destruct (loop_cons fuel ft P _ q s FZ RP) as (c & C & HC & RC & F & I & EE). destruct (loop_cons 0 ft P _ q s FZ RP) as (c' & C' & HC' & _ & _ & _ & EE').
      rewrite HC in HC'. apply app_inv_head in HC'. injection HC' as <- <-. rewrite EE. rewrite EE' in E. destruct (pcmd_update O pred act pact (length P) c ft s) as [s3| | |]; try discriminate. cbn [obind] in *. destruct (ready (set_rem O (wzero O) s3)) eqn:RY; [discriminate|exact E].
  Qed.
  Lemma backward : forall ft, wadd O ft (wzero O) = ft -> forall fuel q P s s', rep P q s -> ready s = true -> finished s = false -> loop fuel ft s = Ok s' -> exists q' h' f, plays ft q (log s) q' h' f.
  Proof.
    intros ft FZ fuel. induction fuel as [|fuel IH]; intros q P s s' RP Y Fi E; [discriminate|].
    destruct q as [|[t|w p|e] q]; [eexists _, _, _; constructor|eexists _, _, _; constructor|destruct (loop_added fuel ft P w p q s s' FZ RP E) as (q1 & A); eexists _, _, _; constructor; exact A|].
    destruct (do_mid ft P e q s FZ RP) as (c & M & CA & EQ). rewrite EQ in E. unfold do_update in E.  cbn [log add_log] in E.
    destruct (change_steps O (map (to_change O) (adds e (log s ++ [EDo e]))) _) as [s1| | |] eqn:E1; try discriminate. destruct (changes_backward O _ _ _ _ _ M E1) as (q1 & A).
    destruct (changes_forward O _ _ _ A _ _ M) as (s1' & E1' & M1 & L1 & Y1 & F1). rewrite E1 in E1'. injection E1' as <-. cbn [obind] in E. destruct (next_mid O _ _ _ M1) as (s2 & E2 & R2 & L2 & Y2 & F2). rewrite E2 in E. cbn [obind set_rem ready] in E. rewrite Y2, Y1 in E. cbn [ready add_log] in E. rewrite Y in E.
    assert (R2' : rep (P ++ [c]) q1 (set_rem O (wzero O) s2)). { destruct R2 as (C & H1 & H2 & H3 & H4). exists C. cbn. auto. }
    destruct (IH q1 _ _ s' R2') as (q' & h' & f & PL); [cbn in *; congruence|cbn in *; congruence|exact E|]. cbn [log set_rem] in PL. rewrite L2, L1 in PL. cbn [log add_log] in PL. exists q', h', f. econstructor; eassumption.
  Qed.

  Notation prun := (prun O pred act pact).
  Lemma frames_forward : forall fts q h f q' h' f', polls_all O pred adds padds fts q h f q' h' f' -> (forall ft, In ft fts -> wadd O ft (wzero O) = ft) -> forall P s, rep P q s -> log s = h -> done O h = command_actions O P -> finished s = f ->
    exists F P' s', (forall fuel, (F <= fuel)%nat -> prun fuel (map OUpdate fts) s = Ok s') /\ rep P' q' s' /\ log s' = h' /\ done O h' = command_actions O P' /\ finished s' = f'.
  Proof.
    intros fts q h f q' h' f' PA. induction PA as [q h f|ft fts q h q1 h1 f1 q' h' f' PL PA IH|ft fts q h q' h' f' PA IH]; intros FZ P s RP L D Fi.
    - exists 0%nat, P, s. split; [reflexivity|]. auto.
    - assert (RP0 : rep P q (set_flags O true false (add_log O (EFrame ft) s))) by (destruct RP as (C & H1 & H2 & H3 & H4); exists C; cbn; auto).
      destruct (forward ft (FZ ft (or_introl eq_refl)) _ _ _ _ _ PL P _ RP0) as (F1 & P1 & s1 & E1 & R1 & L1 & D1 & G1); [cbn; congruence|rewrite done_app, D; cbn; apply app_nil_r|reflexivity|reflexivity|].
      destruct (IH (fun x I => FZ x (or_intror I)) P1 s1 R1 L1 D1 G1) as (F2 & P2 & s2 & E2 & R2). exists (F1 + F2)%nat, P2, s2. split; [|exact R2]. intros fuel K. cbn [map PollModel.prun pstep]. unfold pupdate. cbn [finished add_log]. rewrite Fi. rewrite E1 by lia. cbn [obind]. apply E2. lia.
    - destruct (IH (fun x I => FZ x (or_intror I)) P (add_log O (EFrame ft) s)) as (F2 & P2 & s2 & E2 & R2); [destruct RP as (C & RP); exists C; exact RP|cbn; congruence|rewrite done_app, D; cbn; apply app_nil_r|exact Fi|].
      exists F2, P2, s2. split; [|exact R2]. intros fuel K. cbn [map PollModel.prun pstep]. unfold pupdate. cbn [finished add_log]. rewrite Fi. cbn [obind]. apply E2. lia.
  Qed.
  Lemma frames_backward : forall fts fuel, (forall ft, In ft fts -> wadd O ft (wzero O) = ft) -> forall q P s s', rep P q s -> done O (log s) = command_actions O P -> prun fuel (map OUpdate fts) s = Ok s' ->
    exists q' h' f', polls_all O pred adds padds fts q (log s) (finished s) q' h' f'.
  Proof.
    induction fts as [|ft fts IH]; intros fuel FZ q P s s' RP D E; [eexists _, _, _; constructor|]. cbn [map PollModel.prun pstep] in E. unfold pupdate in E. cbn [finished add_log] in E.
    destruct (finished s) eqn:Fi.
    - cbn [obind] in E. destruct (IH fuel (fun x I => FZ x (or_intror I)) q P (add_log O (EFrame ft) s) s') as (q' & h' & f' & PA); [destruct RP as (C & RP); exists C; exact RP|cbn [log add_log]; rewrite done_app, D; cbn; apply app_nil_r|exact E|].
      cbn [log add_log finished] in PA. rewrite Fi in PA. exists q', h', f'. constructor. exact PA.
    - destruct (pupdate_loop O pred act pact fuel ft _) as [s1| | |] eqn:E1; try discriminate. cbn [obind] in E.
      assert (RP0 : rep P q (set_flags O true false (add_log O (EFrame ft) s))) by (destruct RP as (C & H1 & H2 & H3 & H4); exists C; cbn; auto).
      destruct (backward ft (FZ ft (or_introl eq_refl)) _ _ _ _ _ RP0 eq_refl eq_refl E1) as (q1 & h1 & f1 & PL).
      destruct (forward ft (FZ ft (or_introl eq_refl)) _ _ _ _ _ PL P _ RP0 eq_refl) as (F1 & P1 & s1' & E1' & R1 & L1 & D1 & G1); [cbn [log set_flags add_log]; rewrite done_app, D; cbn; apply app_nil_r|reflexivity|reflexivity|].
      assert (s1' = s1).
      { assert (MO : forall f1 f2 t u, (f1 <= f2)%nat -> loop f1 ft t = Ok u -> loop f2 ft t = Ok u).
        { clear. induction f1 as [|f1 IH]; intros f2 t u K E; [discriminate|]. destruct f2 as [|f2]; [lia|]. cbn [pupdate_loop] in *. destruct (isCIdxNull O t); [exact E|]. destruct (cidx t <? 0); [exact E|]. destruct (nth_error (cmds t) (Z.to_nat (cidx t))); [|exact E].
          destruct (pcmd_update O pred act pact _ _ _ _); try exact E. cbn [obind] in *. destruct (ready _); [|exact E]. apply IH; [lia|exact E]. }
        pose proof (E1' (fuel + F1)%nat ltac:(lia)) as X. rewrite (MO fuel (fuel + F1)%nat _ _ ltac:(lia) E1) in X. congruence. }
      subst s1'. destruct (IH fuel (fun x I => FZ x (or_intror I)) q1 P1 s1 s' R1) as (q' & h' & f' & PA); [congruence|exact E|].
      exists q', h', f'. econstructor; [exact PL|]. rewrite <- L1, <- G1. exact PA.
  Qed.
  Lemma prun_app : forall fuel a b s, prun fuel (a ++ b) s = obind (prun fuel a s) (prun fuel b).
  Proof. induction a as [|o a IH]; intros b s; [reflexivity|]. cbn [app PollModel.prun]. destruct (pstep O pred act pact fuel o s); cbn [obind]; [apply IH|reflexivity..]. Qed.
  Lemma built : forall L fuel, exists s, prun fuel (map OAppend (map (to_cmd O) L)) (new_timeline O true) = Ok s /\ rep [] L s /\ log s = [] /\ finished s = false.
  Proof.
    intros L fuel. assert (G : forall L L0 s, rep [] L0 s -> log s = [] -> finished s = false -> exists s', prun fuel (map OAppend (map (to_cmd O) L)) s = Ok s' /\ rep [] (L0 ++ L) s' /\ log s' = [] /\ finished s' = false).
    { clear L. induction L as [|x L IH]; intros L0 s RP LG Fi; [exists s; rewrite app_nil_r; cbn; auto|]. cbn [map PollModel.prun pstep step]. unfold append, insert.
      replace ((size s <? 0) || (size s <? size s)) with false by (symmetry; apply orb_false_iff; split; apply Z.ltb_ge; unfold size; lia). cbn [obind].
      set (s1 := if isCIdxNull O _ then _ else _). assert (R1 : rep [] (L0 ++ [x]) s1).
      { destruct RP as (C & H1 & H2 & H3 & H4). cbn [app] in H1. exists (C ++ [to_cmd O x]). unfold s1, size, isCIdxNull. cbn [set_cmds cidx]. rewrite H1, Nat2Z.id, firstn_all, skipn_all, H3. destruct C as [|c C].
        - cbn. split; [reflexivity|]. inversion H2; subst. split; [constructor; [apply repr_to|constructor]|]. auto.
        - cbn. split; [reflexivity|]. split; [apply (Forall2_app (l1 := c :: C)); [exact H2|constructor; [apply repr_to|constructor]]|]. auto. }
      destruct (IH (L0 ++ [x]) s1 R1) as (s' & E & R & Q); [unfold s1; destruct (isCIdxNull O _); exact LG|unfold s1; destruct (isCIdxNull O _); exact Fi|]. exists s'. rewrite <- app_assoc in R. auto. }
    apply (G L [] (new_timeline O true)); try reflexivity. exists []. cbn. auto.
  Qed.
  Lemma queue_ok : forall L fts, (forall ft, In ft fts -> wadd O ft (wzero O) = ft) -> let ops := map OAppend (map (to_cmd O) L) ++ map OUpdate fts in
    (forall q h f, polls_all O pred adds padds fts L [] false q h f -> exists F s', (forall fuel, (F <= fuel)%nat -> prun fuel ops (new_timeline O true) = Ok s') /\ log s' = h /\ finished s' = f /\
       exists later, command_actions O (cmds s') = done O h ++ later /\ later = actions O q) /\
    (forall fuel s', prun fuel ops (new_timeline O true) = Ok s' -> exists q h f, polls_all O pred adds padds fts L [] false q h f).
  Proof.
    intros L fts FZ ops. split.
    - intros q h f PA. destruct (built L 0) as (s0 & E0 & R0 & L0 & F0). destruct (frames_forward _ _ _ _ _ _ _ PA FZ [] s0 R0 L0 eq_refl F0) as (F & P' & s' & E & R' & L' & D' & G').
      exists F, s'. split.
      { intros fuel K. unfold ops. rewrite prun_app. destruct (built L fuel) as (s1 & E1 & _). assert (s1 = s0).
        { clear - E0 E1. assert (X : forall l f1 f2 s, prun f1 (map OAppend l) s = prun f2 (map OAppend l) s).
          { induction l as [|c l IH]; intros; [reflexivity|]. cbn [map PollModel.prun pstep step]. destruct (append O c s); cbn [obind]; auto. }
          rewrite (X _ _ 0%nat) in E1. congruence. }
        subst s1. rewrite E1. cbn [obind]. now apply E. }
      split; [exact L'|]. split; [exact G'|]. exists (actions O q). split; [|reflexivity]. destruct R' as (C & H1 & H2 & _). rewrite H1, D'. unfold command_actions. rewrite flat_map_app. f_equal.
      clear - H2. induction H2 as [|c x C q RC F IH]; [reflexivity|]. cbn [flat_map]. rewrite IH. destruct c, x; try contradiction; cbn in RC |- *; subst; reflexivity.
    - intros fuel s' E. unfold ops in E. rewrite prun_app in E. destruct (built L fuel) as (s0 & E0 & R0 & L0 & F0). rewrite E0 in E. cbn [obind] in E. destruct (frames_backward fts fuel FZ L [] s0 s' R0) as (q & h & f & PA); [rewrite L0; reflexivity|exact E|]. rewrite L0, F0 in PA. exists q, h, f. exact PA.
  Qed.
End P.
