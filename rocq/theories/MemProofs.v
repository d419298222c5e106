(** Proofs about growable arrays, refresh, the recycler and the manager. *)
From Coq Require Import String Ascii ZArith NArith Arith Bool Lia List Permutation.
From Verif Require Import Common ListAux MemModel MemSpec.
Import ListNotations.

(** ** Lists *)
Lemma upd_length : forall {A} (l : list A) i x, length (upd l i x) = length l.
Proof. induction l as [|y l IH]; intros [|i] x; cbn; auto. Qed.
Lemma upd_eq : forall {A} (l : list A) i x, i < length l -> nth_error (upd l i x) i = Some x.
Proof.
  induction l as [|y l IH]; intros [|i] x H; cbn in *; try lia; [reflexivity|].
  apply IH. lia.
Qed.
Lemma upd_neq : forall {A} (l : list A) i j x, i <> j -> nth_error (upd l i x) j = nth_error l j.
Proof.
  induction l as [|y l IH]; intros [|i] [|j] x H; cbn; auto; try lia.
Qed.
Lemma upd_app : forall {A} (a b : list A) x y, upd (a ++ x :: b) (length a) y = a ++ y :: b.
Proof. induction a as [|z a IH]; intros b x y; cbn; [reflexivity|]. rewrite IH. reflexivity. Qed.
Lemma upd_app' : forall {A} (a b : list A) x y i, i = length a -> upd (a ++ x :: b) i y = a ++ y :: b.
Proof. intros; subst. apply upd_app. Qed.
Lemma nth_error_app_mid : forall {A} (a b : list A) x i, i = length a -> nth_error (a ++ x :: b) i = Some x.
Proof. intros A a b x i ->. rewrite nth_error_app2, Nat.sub_diag by lia. reflexivity. Qed.
Lemma nth_error_split' : forall {A} (l : list A) i x, nth_error l i = Some x ->
  exists a b, l = a ++ x :: b /\ length a = i.
Proof. intros. apply nth_error_split. assumption. Qed.
Lemma nth_error_ext : forall {A} (l r : list A), (forall i, nth_error l i = nth_error r i) -> l = r.
Proof.
  induction l as [|x l IH]; intros [|y r] H; [reflexivity| | |].
  - specialize (H 0). discriminate.
  - specialize (H 0). discriminate.
  - f_equal; [specialize (H 0); cbn in H; congruence|]. apply IH. intros i. exact (H (S i)).
Qed.
Lemma upd_notin_map : forall {A B} (f : A -> B) l i x, map f (upd l i x) = upd (map f l) i (f x).
Proof. induction l as [|y l IH]; intros [|i] x; cbn; f_equal; auto. Qed.

(** ** grow *)
Lemma grow_loop_ok : forall {A} fuel (i old : N) (data new : list A),
  (old < UINT_WRAP)%N -> (i <= old)%N -> N.to_nat old <= length data -> N.to_nat old <= length new ->
  N.to_nat old < fuel + N.to_nat i \/ N.to_nat old = N.to_nat i + fuel ->
  exists r, grow_loop fuel i old data new = Ok r /\ length r = length new
    /\ forall j, nth_error r j = if (N.to_nat i <=? j) && (j <? N.to_nat old) then nth_error data j else nth_error new j.
Proof.
  intros A. induction fuel as [|f IH]; intros i old data new Hw Hi Hd Hn Hf.
  - assert (i = old) by lia. subst i. exists new. unfold grow_loop. rewrite N.ltb_irrefl.
    repeat split. intros j. destruct ((N.to_nat old <=? j) && (j <? N.to_nat old)) eqn:E; [|reflexivity].
    apply andb_true_iff in E. rewrite Nat.leb_le, Nat.ltb_lt in E. lia.
  - cbn [grow_loop]. destruct (N.ltb_spec i old) as [L|L].
    + destruct (nth_error_lt data (N.to_nat i)) as [x Hx]; [lia|].
      destruct (nth_error_lt new (N.to_nat i)) as [y Hy]; [lia|]. rewrite Hx, Hy.
      rewrite N.mod_small by (unfold UINT_WRAP in *; lia).
      destruct (IH (i + 1)%N old data (upd new (N.to_nat i) x)) as [r [E [Hl Hj]]]; try lia.
      { rewrite upd_length. lia. }
      exists r. rewrite E. split; [reflexivity|]. rewrite Hl, upd_length. split; [reflexivity|].
      intros j. rewrite Hj. replace (N.to_nat (i + 1)) with (S (N.to_nat i)) by lia.
      destruct (Nat.eq_dec j (N.to_nat i)) as [->|Ne].
      * replace (S (N.to_nat i) <=? N.to_nat i) with false by (symmetry; apply Nat.leb_gt; lia).
        replace (N.to_nat i <=? N.to_nat i) with true by (symmetry; apply Nat.leb_le; lia).
        replace (N.to_nat i <? N.to_nat old) with true by (symmetry; apply Nat.ltb_lt; lia).
        cbn [andb]. rewrite upd_eq by lia. symmetry. exact Hx.
      * rewrite upd_neq by lia.
        replace (S (N.to_nat i) <=? j) with (N.to_nat i <=? j); [reflexivity|].
        destruct (Nat.leb_spec (N.to_nat i) j); destruct (Nat.leb_spec (S (N.to_nat i)) j); auto; lia.
    + exists new. repeat split. intros j.
      destruct ((N.to_nat i <=? j) && (j <? N.to_nat old)) eqn:E; [|reflexivity].
      apply andb_true_iff in E. rewrite Nat.leb_le, Nat.ltb_lt in E. lia.
Qed.

Lemma nth_error_repeat : forall {A} (d : A) n j, nth_error (repeat d n) j = if j <? n then Some d else None.
Proof.
  intros A d n. induction n as [|n IH]; intros [|j]; cbn; try reflexivity. rewrite IH. reflexivity.
Qed.

Lemma grow_ok : forall {A} (d : A) fuel data old new,
  (old <= new)%N -> (old < UINT_WRAP)%N -> N.to_nat old <= length data -> N.to_nat old <= fuel ->
  exists r, grow d fuel data old new = Ok r /\ length r = N.to_nat new
    /\ forall j, nth_error r j = if j <? N.to_nat old then nth_error data j
                                 else if j <? N.to_nat new then Some d else None.
Proof.
  intros A d fuel data old new H1 H2 H3 H4. unfold grow.
  destruct (N.leb_spec old new); [|lia].
  destruct (grow_loop_ok fuel 0%N old data (repeat d (N.to_nat new))) as [r [E [L J]]]; try lia.
  { rewrite repeat_length. lia. }
  exists r. split; [exact E|]. rewrite repeat_length in L. split; [exact L|].
  intros j. rewrite J. cbn [N.to_nat Nat.leb andb]. rewrite nth_error_repeat. reflexivity.
Qed.

Lemma grow_diverges : forall {A} (d : A) fuel data old new,
  (UINT_WRAP <= old)%N -> (old <= new)%N -> N.to_nat old <= length data -> grow d fuel data old new = OutOfFuel.
Proof.
  intros A d fuel data old new H1 H2 H3. unfold grow. destruct (N.leb_spec old new); [|lia].
  assert (G : forall fuel i nw, (i < UINT_WRAP)%N -> N.to_nat old <= length nw -> @grow_loop A fuel i old data nw = OutOfFuel).
  { clear fuel. induction fuel as [|f IH]; intros i nw Hi Hn; cbn [grow_loop];
      (destruct (N.ltb_spec i old); [|lia]); [reflexivity|].
    destruct (nth_error_lt data (N.to_nat i)) as [x Hx]; [lia|].
    destruct (nth_error_lt nw (N.to_nat i)) as [y Hy]; [lia|]. rewrite Hx, Hy.
    apply IH; [apply N.mod_lt; unfold UINT_WRAP; lia|]. rewrite upd_length. exact Hn. }
  apply G; [unfold UINT_WRAP; lia|]. rewrite repeat_length. lia.
Qed.

(** ** refresh on an array *)
Section RefreshArray.
  Context {A : Type} (alive : A -> bool).
  Notation dead := (fun a => negb (alive a)).
  Notation lft := (scan_left (arr_alive alive)).
  Notation rgt := (scan_right (arr_alive alive) (@arr_deinit A)).
  Notation loop := (refresh_loop (arr_alive alive) (@arr_swap A) (@arr_deinit A)).
  Notation sl := (map (@Some A)).

  Lemma first_dead : forall M, (Forall (fun a => alive a = true) M) \/
    exists P d Q, M = P ++ d :: Q /\ Forall (fun a => alive a = true) P /\ alive d = false.
  Proof.
    induction M as [|a M IH]; [left; constructor|].
    destruct (alive a) eqn:E.
    - destruct IH as [IH|[P [d [Q [-> [HP Hd]]]]]].
      + left. constructor; auto.
      + right. exists (a :: P), d, Q. repeat split; auto.
    - right. exists [], a, M. repeat split; auto.
  Qed.
  Lemma last_alive : forall M, (Forall (fun a => alive a = false) M) \/
    exists P x Q, M = P ++ x :: Q /\ Forall (fun a => alive a = false) Q /\ alive x = true.
  Proof.
    induction M as [|a M IH]; [left; constructor|].
    destruct IH as [IH|[P [x [Q [-> [HQ Hx]]]]]].
    - destruct (alive a) eqn:E.
      + right. exists [], a, M. repeat split; auto.
      + left. constructor; auto.
    - right. exists (a :: P), x, Q. repeat split; auto.
  Qed.

  Lemma arr_alive_at : forall pre a post lg i, i = length pre ->
    arr_alive alive (pre ++ Some a :: post, lg) i = Ok (alive a).
  Proof. intros. unfold arr_alive. cbn [fst]. rewrite nth_error_app_mid by assumption. reflexivity. Qed.
  Lemma arr_deinit_at : forall pre (a : A) post lg i, i = length pre ->
    arr_deinit (pre ++ Some a :: post, lg) i = Ok (pre ++ None :: post, lg ++ [a]).
  Proof.
    intros. unfold arr_deinit. cbn [fst snd]. rewrite nth_error_app_mid by assumption.
    rewrite upd_app' by assumption. reflexivity.
  Qed.

  (** The left scan over alive items. *)
  Lemma lft_alive : forall M fuel pre post lg iA, Forall (fun a => alive a = true) M ->
    length pre + length M <= S iA -> length M < fuel ->
    lft fuel (pre ++ sl M ++ post, lg) (length pre) iA
    = lft (fuel - length M) (pre ++ sl M ++ post, lg) (length pre + length M) iA.
  Proof.
    induction M as [|a M IH]; intros fuel pre post lg iA HM HA Hf; cbn [length map app] in *.
    - rewrite Nat.sub_0_r, Nat.add_0_r. reflexivity.
    - destruct fuel as [|f]; [lia|]. cbn [scan_left].
      destruct (Nat.ltb_spec iA (length pre)) as [L|L]; [lia|].
      rewrite arr_alive_at by reflexivity. inversion HM; subst. rewrite H1. cbn [obind].
      replace (pre ++ Some a :: sl M ++ post) with ((pre ++ [Some a]) ++ sl M ++ post)
        by (rewrite <- app_assoc; reflexivity).
      replace (length pre + 1) with (length (pre ++ [Some a])) by (rewrite app_length; reflexivity).
      rewrite IH; [|assumption|rewrite app_length; cbn; lia|lia].
      rewrite app_length. cbn [length]. f_equal; lia.
  Qed.

  (** The right scan over dead items. *)
  Lemma rgt_dead : forall D fuel pre post lg iD, Forall (fun a => alive a = false) D ->
    iD < length pre -> length D < fuel ->
    rgt fuel (pre ++ sl D ++ post, lg) iD (length pre + length D - 1)
    = rgt (fuel - length D) (pre ++ repeat None (length D) ++ post, lg ++ rev D) iD (length pre - 1).
  Proof.
    intros D. induction D as [|a D IH] using rev_ind; intros fuel pre post lg iD HD Hi Hf.
    - cbn [length map app repeat rev]. rewrite app_nil_r, Nat.sub_0_r, Nat.add_0_r. reflexivity.
    - rewrite app_length in *. cbn [length] in *. apply Forall_app in HD. destruct HD as [HD Ha].
      inversion Ha; subst. destruct fuel as [|f]; [lia|].
      replace (length pre + (length D + 1) - 1) with (length pre + length D) by lia.
      rewrite map_app. cbn [map]. rewrite <- app_assoc. cbn [app].
      cbn [scan_right].
      replace (pre ++ sl D ++ Some a :: post) with ((pre ++ sl D) ++ Some a :: post) by (rewrite app_assoc; reflexivity).
      rewrite arr_alive_at by (rewrite app_length, map_length; reflexivity). rewrite H1. cbn [obind].
      rewrite arr_deinit_at by (rewrite app_length, map_length; reflexivity). cbn [obind].
      destruct (Nat.leb_spec (length pre + length D) iD) as [L|L]; [lia|].
      destruct (length pre + length D) as [|k] eqn:K; [lia|].
      replace k with (length pre + length D - 1) by lia.
      rewrite <- app_assoc. cbn [app]. rewrite IH; [|assumption|assumption|lia].
      rewrite rev_app_distr. cbn [rev app]. rewrite <- app_assoc. cbn [app].
      replace (S f - (length D + 1)) with (f - length D) by lia.
      replace (repeat (@None A) (length D + 1)) with (repeat (@None A) (length D) ++ [None])
        by (rewrite repeat_app; reflexivity).
      rewrite <- app_assoc. reflexivity.
  Qed.

  Lemma filter_all : forall (p : A -> bool) M, Forall (fun a => p a = true) M -> filter p M = M.
  Proof. induction 1; cbn; [reflexivity|]. rewrite H, IHForall. reflexivity. Qed.
  Lemma filter_none : forall (p : A -> bool) M, Forall (fun a => p a = false) M -> filter p M = [].
  Proof. induction 1; cbn; [reflexivity|]. rewrite H. assumption. Qed.
  Lemma forall_dead : forall M, Forall (fun a => alive a = true) M -> Forall (fun a => negb (alive a) = false) M.
  Proof. intros M H. eapply Forall_impl; [|exact H]. cbn. intros a ->. reflexivity. Qed.
  Lemma forall_dead' : forall M, Forall (fun a => alive a = false) M -> Forall (fun a => negb (alive a) = true) M.
  Proof. intros M H. eapply Forall_impl; [|exact H]. cbn. intros a ->. reflexivity. Qed.

  Lemma loop_ok : forall n M, length M <= n -> forall P post lg fuel iA,
    length P + length M = S iA -> length M + 1 < fuel ->
    exists out log, loop fuel (sl P ++ sl M ++ post, lg) (length P) iA
      = Ok ((sl P ++ sl out ++ repeat None (length M - length out) ++ post, lg ++ log), length P + length out)
      /\ Permutation out (filter alive M) /\ Permutation log (filter dead M)
      /\ forall i a, nth_error M i = Some a -> alive a = true -> i < length out -> nth_error out i = Some a.
  Proof.
    induction n as [n IHn] using lt_wf_ind. intros M HM P post lg fuel iA HA Hf.
    destruct fuel as [|f]; [lia|]. cbn [refresh_loop].
    destruct (first_dead M) as [Hall|[Al [d [Q [-> [HAl Hd]]]]]].
    - (* all alive *)
      pose proof (lft_alive M (S f) (sl P) post lg iA Hall) as LA. rewrite map_length in LA.
      rewrite LA by lia. clear LA. destruct (S f - length M) as [|g] eqn:G; [lia|]. cbn [scan_left].
      destruct (Nat.ltb_spec iA (length P + length M)) as [L|L]; [|lia]. cbn [obind].
      exists M, []. rewrite app_nil_r, Nat.sub_diag. cbn [repeat app].
      rewrite (filter_all alive M Hall), (filter_none dead M (forall_dead M Hall)).
      repeat split; auto.
    - (* a dead item d after the alive items Al *)
      rewrite app_length in *. cbn [length] in *.
      rewrite map_app. cbn [map]. rewrite <- (app_assoc (sl Al)). cbn [app].
      pose proof (lft_alive Al (S f) (sl P) (Some d :: sl Q ++ post) lg iA HAl) as LA. rewrite map_length in LA.
      rewrite LA by lia. clear LA. destruct (S f - length Al) as [|g] eqn:G; [lia|]. cbn [scan_left].
      destruct (Nat.ltb_spec iA (length P + length Al)) as [L|L]; [lia|].
      rewrite (app_assoc (sl P)). rewrite arr_alive_at by (rewrite app_length, !map_length; reflexivity).
      rewrite Hd. cbn [obind].
      destruct (last_alive Q) as [Hdead|[M1 [x [D2 [-> [HD2 Hx]]]]]].
      + (* nothing alive on the right *)
        replace ((sl P ++ sl Al) ++ Some d :: sl Q ++ post) with ((sl P ++ sl Al ++ [Some d]) ++ sl Q ++ post)
          by (rewrite <- !app_assoc; reflexivity).
        assert (LP : length (sl P ++ sl Al ++ [Some d]) = length P + length Al + 1)
          by (rewrite !app_length, !map_length; cbn; lia).
        replace iA with (length (sl P ++ sl Al ++ [Some d]) + length Q - 1) by lia.
        rewrite (rgt_dead Q) by (try assumption; lia).
        rewrite LP. destruct (S f - length Q) as [|g2] eqn:G2; [lia|]. cbn [scan_right].
        replace ((sl P ++ sl Al ++ [Some d]) ++ repeat None (length Q) ++ post)
          with ((sl P ++ sl Al) ++ Some d :: repeat None (length Q) ++ post) by (rewrite <- !app_assoc; reflexivity).
        rewrite arr_alive_at by (rewrite app_length, !map_length; lia). rewrite Hd. cbn [obind].
        rewrite arr_deinit_at by (rewrite app_length, !map_length; lia). cbn [obind].
        destruct (Nat.leb_spec (length P + length Al + 1 - 1) (length P + length Al)) as [L2|L2]; [|lia].
        exists Al, (rev Q ++ [d]). split; [|split; [|split]].
        * rewrite <- !app_assoc.
          replace (length Al + S (length Q) - length Al) with (S (length Q)) by lia. cbn [repeat app]. reflexivity.
        * rewrite filter_app. cbn [filter]. rewrite Hd, (filter_all alive Al HAl), (filter_none alive Q Hdead), app_nil_r.
          reflexivity.
        * rewrite filter_app. cbn [filter]. rewrite Hd. cbn [negb].
          rewrite (filter_none dead Al (forall_dead _ HAl)), (filter_all dead Q (forall_dead' _ Hdead)). cbn [app].
          rewrite <- Permutation_rev. apply Permutation_sym. apply Permutation_cons_append.
        * intros i a Hi Ha Hl. rewrite nth_error_app1 in Hi by lia. exact Hi.
      + (* the last alive item x is moved to the place of d *)
        rewrite app_length in *. cbn [length] in *.
        rewrite map_app. cbn [map].
        replace ((sl P ++ sl Al) ++ Some d :: (sl M1 ++ Some x :: sl D2) ++ post)
          with ((sl P ++ sl Al ++ Some d :: sl M1 ++ [Some x]) ++ sl D2 ++ post)
          by (repeat (rewrite <- ?app_assoc; cbn [app]); reflexivity).
        assert (LP : length (sl P ++ sl Al ++ Some d :: sl M1 ++ [Some x]) = length P + length Al + length M1 + 2)
          by (rewrite !app_length; cbn [length]; rewrite !app_length, !map_length; cbn; lia).
        replace iA with (length (sl P ++ sl Al ++ Some d :: sl M1 ++ [Some x]) + length D2 - 1) by lia.
        rewrite (rgt_dead D2) by (try assumption; lia).
        rewrite LP. destruct (S f - length D2) as [|g2] eqn:G2; [lia|]. cbn [scan_right].
        replace ((sl P ++ sl Al ++ Some d :: sl M1 ++ [Some x]) ++ repeat None (length D2) ++ post)
          with ((sl P ++ sl Al ++ Some d :: sl M1) ++ Some x :: repeat None (length D2) ++ post)
          by (repeat (rewrite <- ?app_assoc; cbn [app]); reflexivity).
        assert (LQ : length P + length Al + length M1 + 2 - 1 = length (sl P ++ sl Al ++ Some d :: sl M1))
          by (rewrite !app_length; cbn [length]; rewrite !map_length; lia).
        rewrite arr_alive_at by exact LQ. rewrite Hx. cbn [obind].
        assert (E1 : (sl P ++ sl Al ++ Some d :: sl M1) ++ Some x :: repeat None (length D2) ++ post
                     = (sl P ++ sl Al) ++ Some d :: sl M1 ++ Some x :: repeat None (length D2) ++ post)
          by (repeat (rewrite <- ?app_assoc; cbn [app]); reflexivity).
        rewrite E1. rewrite arr_alive_at by (rewrite app_length, !map_length; reflexivity). rewrite Hd. cbn [obind negb andb].
        rewrite <- E1. rewrite arr_alive_at by exact LQ. rewrite Hx. cbn [obind negb andb]. rewrite E1.
        unfold arr_swap at 1. cbn [fst snd].
        rewrite (nth_error_app_mid (sl P ++ sl Al)) by (rewrite app_length, !map_length; reflexivity).
        rewrite <- E1. rewrite (nth_error_app_mid (sl P ++ sl Al ++ Some d :: sl M1)) by exact LQ.
        rewrite E1. rewrite upd_app' by (rewrite app_length, !map_length; reflexivity).
        replace ((sl P ++ sl Al) ++ Some x :: sl M1 ++ Some x :: repeat None (length D2) ++ post)
          with ((sl P ++ sl Al ++ Some x :: sl M1) ++ Some x :: repeat None (length D2) ++ post)
          by (repeat (rewrite <- ?app_assoc; cbn [app]); reflexivity).
        assert (LQ' : length P + length Al + length M1 + 2 - 1 = length (sl P ++ sl Al ++ Some x :: sl M1))
          by (rewrite !app_length; cbn [length]; rewrite !map_length; lia).
        rewrite upd_app' by exact LQ'. cbn [obind].
        rewrite arr_deinit_at by exact LQ'. cbn [obind].
        replace (length P + length Al + length M1 + 2 - 1) with (S (length P + length Al + length M1)) by lia.
        replace ((sl P ++ sl Al ++ Some x :: sl M1) ++ None :: repeat None (length D2) ++ post)
          with (sl (P ++ Al ++ [x]) ++ sl M1 ++ repeat None (S (length D2)) ++ post)
          by (rewrite !map_app; cbn [map repeat]; repeat (rewrite <- ?app_assoc; cbn [app]); reflexivity).
        replace (length P + length Al + 1) with (length (P ++ Al ++ [x])) by (rewrite !app_length; cbn; lia).
        destruct (IHn (length M1)) with (M := M1) (P := P ++ Al ++ [x]) (post := repeat (@None A) (S (length D2)) ++ post)
          (lg := (lg ++ rev D2) ++ [d]) (fuel := f) (iA := length P + length Al + length M1)
          as [out [log [E [Po [Pl St]]]]]; [lia|lia|rewrite !app_length; cbn; lia|lia|].
        rewrite E. exists (Al ++ x :: out), ((rev D2 ++ [d]) ++ log).
        assert (Lo : length out <= length M1).
        { rewrite (Permutation_length Po). clear. induction M1 as [|a M1 IH]; cbn; [lia|]. destruct (alive a); cbn; lia. }
        split; [|split; [|split]].
        * f_equal. f_equal; [|rewrite !app_length; cbn [length]; lia]. f_equal; [|rewrite <- !app_assoc; reflexivity].
          rewrite !map_app. cbn [map]. repeat (rewrite <- ?app_assoc; cbn [app]).
          rewrite (app_assoc (repeat None _) (repeat None _)), <- repeat_app.
          replace (length M1 - length out + S (length D2))
            with (length Al + S (length M1 + S (length D2)) - length (Al ++ x :: out))
            by (rewrite app_length; cbn [length]; lia).
          reflexivity.
        * rewrite filter_app. cbn [filter]. rewrite Hd. rewrite filter_app. cbn [filter]. rewrite Hx.
          rewrite (filter_all alive Al HAl), (filter_none alive D2 HD2).
          apply Permutation_app_head. rewrite Po. apply Permutation_cons_append.
        * rewrite filter_app. cbn [filter]. rewrite Hd. rewrite filter_app. cbn [filter]. rewrite Hx. cbn [negb].
          rewrite (filter_none dead Al (forall_dead _ HAl)), (filter_all dead D2 (forall_dead' _ HD2)). cbn [app].
          rewrite <- app_assoc, <- Permutation_rev. cbn [app]. rewrite Pl.
          rewrite <- Permutation_middle. constructor. apply Permutation_app_comm.
        * intros i a Hi Ha Hl. rewrite app_length in Hl. cbn [length] in Hl.
          destruct (Nat.lt_ge_cases i (length Al)) as [C|C].
          { rewrite nth_error_app1 in * by lia. exact Hi. }
          rewrite nth_error_app2 in * by lia.
          destruct (i - length Al) as [|j] eqn:J; cbn [nth_error] in *.
          { injection Hi as <-. congruence. }
          rewrite nth_error_app1 in Hi by lia. apply St; auto. lia.
  Qed.

  Lemma refresh_ok : forall (M : list A) post lg,
    exists out log, arr_refresh alive (sl M ++ post, lg) (length M)
      = Ok ((sl out ++ repeat None (length M - length out) ++ post, lg ++ log), length out)
      /\ Permutation out (filter alive M) /\ Permutation log (filter dead M)
      /\ forall i a, nth_error M i = Some a -> alive a = true -> i < length out -> nth_error out i = Some a.
  Proof.
    intros M post lg. unfold arr_refresh, refresh_impl. destruct (length M) as [|n] eqn:L.
    - destruct M; [|discriminate]. exists [], []. rewrite app_nil_r. repeat split; auto.
    - destruct (loop_ok (S n) M) with (P := @nil A) (post := post) (lg := lg) (fuel := S n + 2) (iA := n)
        as [out [log [E R]]]; try (cbn; lia).
      exists out, log. cbn [map app length Nat.add] in E. rewrite L in E. split; [exact E|exact R].
  Qed.
End RefreshArray.
