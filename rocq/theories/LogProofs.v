(** Lemmas about the log. *)
From Coq Require Import String Ascii ZArith NArith Arith Bool Lia List.
From Coq Require Import ZifyBool ZifyNat.
From Verif Require Import Common CInt MathModel MathProofs StrfModel StrfSpec StrfProofs LogModel LogSpec.
Import ListNotations.
Local Open Scope Z_scope.

(** *** Lists of threads *)
Lemma nth_replace_same : forall A (l : list A) i x, (i < length l)%nat -> nth_error (replace_nth l i x) i = Some x.
Proof.
  intros A l i x H. unfold replace_nth. rewrite nth_error_app2 by (rewrite firstn_length; lia).
  rewrite firstn_length. replace (i - Nat.min i (length l))%nat with 0%nat by lia. reflexivity.
Qed.
Lemma nth_replace_other : forall A (l : list A) i j x, (i < length l)%nat -> i <> j ->
  nth_error (replace_nth l i x) j = nth_error l j.
Proof.
  intros A. induction l as [|y l IH]; intros i j x H D; [cbn in H; lia|].
  destruct i, j; try lia; [reflexivity|reflexivity|]. cbn in H.
  change (replace_nth (y :: l) (S i) x) with (y :: replace_nth l i x). cbn. apply IH; lia.
Qed.
Lemma replace_length : forall A (l : list A) i x, (i < length l)%nat -> length (replace_nth l i x) = length l.
Proof. intros A l i x H. unfold replace_nth. rewrite app_length, firstn_length. cbn [length]. rewrite skipn_length. lia. Qed.
Lemma nth_len : forall A (l : list A) i x, nth_error l i = Some x -> (i < length l)%nat.
Proof. intros A l i x H. apply nth_error_Some. congruence. Qed.

Lemma serial_trans : forall c a s b t, serial c a s b t -> forall d u, serial c b t d u -> serial c a s d u.
Proof.
  intros c a s b t H. induction H; intros d u H2; [exact H2|].
  eapply serial_step; [eassumption|eassumption|]. apply IHserial. exact H2.
Qed.
Lemma serial_snoc : forall c ths s ths1 s1 i a rest s2 l,
  serial c ths s ths1 s1 -> nth_error ths1 i = Some (a :: rest) -> act_step c a s1 = Ok (s2, l) ->
  serial c ths s (replace_nth ths1 i (l ++ rest)) s2.
Proof.
  intros. eapply serial_trans; [eassumption|]. eapply serial_step; [eassumption|eassumption|]. apply serial_refl.
Qed.

(** *** Insertion does not look at the lock or at what was written *)
Lemma colour_frame : forall t s col s', getUniqueColor t s = Ok (col, s') ->
  title s' = title s /\ suppressed s' = suppressed s /\ con s' = con s /\ buf s' = buf s /\
  fmt s' = fmt s /\ owner s' = owner s.
Proof.
  intros t s col s' H. unfold getUniqueColor in H. destruct (lookup t (colours s)); [inversion H; subst; repeat split|].
  destruct (next_colour s =? INT_MAX); [discriminate|].
  destruct (getMod3 _ _ _) as [[ty r]| | |]; try discriminate. cbn in H. inversion H; subst. repeat split.
Qed.
Lemma insertion_frame : forall c v s ct lt s', insertion c v s = Ok (ct, lt, s') ->
  suppressed s' = suppressed s /\ con s' = con s /\ buf s' = buf s /\ owner s' = owner s.
Proof.
  intros c v s ct lt s' H. unfold insertion in H. destruct (suppressed s) eqn:Es.
  - inversion H; subst. repeat split. exact Es.
  - assert (K : forall ct0 lt0 s0, suppressed s0 = false -> con s0 = con s -> buf s0 = buf s -> owner s0 = owner s ->
      obind (emit (seqm (resetFmt c false) (seqm (stringify c true false v) (resetFmt c false))) (fmt s0))
        (fun '(cv, f) => obind (emit (stringify c false false v) f)
        (fun '(lv, f) => Ok (ct0 ++ cv, lt0 ++ lv, with_fmt f s0))) = Ok (ct, lt, s') ->
      suppressed s' = false /\ con s' = con s /\ buf s' = buf s /\ owner s' = owner s).
    { intros ct0 lt0 s0 A B C D E. destruct (emit _ (fmt s0)) as [[cv f]| | |]; try discriminate. cbn [obind] in E.
      destruct (emit _ f) as [[lv f2]| | |]; try discriminate. cbn [obind] in E. inversion E; subst.
      cbn. auto. }
    destruct (title s) as [|x t] eqn:Et.
    + cbn [obind] in H. eapply K; [| | | |exact H]; auto.
    + destruct (getUniqueColor _ s) as [[col s1]| | |] eqn:Ec; try discriminate. cbn [obind] in H.
      destruct (emit _ (fmt s1)) as [[e f]| | |]; try discriminate. cbn [obind] in H.
      apply colour_frame in Ec. destruct Ec as [A [B [C [D [E F]]]]].
      eapply K; [| | | |exact H]; cbn; congruence.
Qed.

(** Changing only lock and outputs. *)
Definition pend (pa pb : bytes) (s : shared) : shared := with_owner None (append pa pb s).

Lemma colour_pend : forall pa pb t s,
  getUniqueColor t (pend pa pb s) = obind (getUniqueColor t s) (fun '(x, s) => Ok (x, pend pa pb s)).
Proof.
  intros pa pb t s. unfold getUniqueColor. cbn [colours next_colour pend with_owner append with_buf with_con].
  destruct (lookup t (colours s)); [reflexivity|]. destruct (next_colour s =? INT_MAX); [reflexivity|].
  destruct (getMod3 _ _ _) as [[ty r]| | |]; reflexivity.
Qed.
Lemma insertion_pend : forall c v pa pb s,
  insertion c v (pend pa pb s) = obind (insertion c v s) (fun '(ct, lt, s) => Ok (ct, lt, pend pa pb s)).
Proof.
  intros c v pa pb s. unfold insertion.
  change (suppressed (pend pa pb s)) with (suppressed s). destruct (suppressed s); [reflexivity|].
  change (title (pend pa pb s)) with (title s). destruct (title s) as [|x t] eqn:Et.
  - cbn [obind]. change (fmt (pend pa pb s)) with (fmt s).
    destruct (emit _ (fmt s)) as [[cv f]| | |]; try reflexivity. cbn [obind].
    destruct (emit _ f) as [[lv f2]| | |]; reflexivity.
  - rewrite colour_pend. destruct (getUniqueColor _ s) as [[col s1]| | |]; try reflexivity. cbn [obind].
    change (fmt (pend pa pb s1)) with (fmt s1).
    destruct (emit _ (fmt s1)) as [[e f]| | |]; try reflexivity. cbn [obind].
    change (fmt (with_title [] (with_fmt f (pend pa pb s1)))) with f.
    change (fmt (with_title [] (with_fmt f s1))) with f.
    destruct (emit _ f) as [[cv f2]| | |]; try reflexivity. cbn [obind].
    destruct (emit _ f2) as [[lv f3]| | |]; reflexivity.
Qed.

(** *** The threads against their indivisible actions *)
Inductive blocks : list micro -> list act -> Prop :=
| b_nil : blocks [] []
| b_check : forall t ms l, blocks ms l -> blocks (MCheck t :: ms) (ACheck t :: l)
| b_title : forall t ms l, blocks ms l -> blocks (MAcq :: MTitle t :: MRel :: ms) (ASet t :: l)
| b_insert : forall v ms l, blocks ms l -> blocks (MAcq :: MInsert v :: ms) (AInsert v :: l)
| b_manip : forall ms l, blocks ms l -> blocks (MAcq :: MManip :: ms) (AManip :: l)
| b_flag : forall b ms l, blocks ms l -> blocks (MFlag b :: ms) (AFlag b :: l).
(** The thread holding the lock, with the characters it has still to write. *)
Inductive inside : list micro -> list act -> bytes -> bytes -> Prop :=
| in_title : forall t ms l, blocks ms l -> inside (MTitle t :: MRel :: ms) (ASet t :: l) [] []
| in_insert : forall v ms l, blocks ms l -> inside (MInsert v :: ms) (AInsert v :: l) [] []
| in_manip : forall ms l, blocks ms l -> inside (MManip :: ms) (AManip :: l) [] []
| in_write : forall pa pb ms l, blocks ms l ->
    inside (map MOut pa ++ map MLog pb ++ MRel :: ms) l pa pb.

Definition related (s : shared) (ths : list (list micro)) (sa : shared) (asl : list (list act)) : Prop :=
  length ths = length asl /\
  exists pa pb, sa = pend pa pb s /\
    match owner s with
    | None => pa = [] /\ pb = [] /\
        forall j ms l, nth_error ths j = Some ms -> nth_error asl j = Some l -> blocks ms l
    | Some i => (i < length ths)%nat /\
        forall j ms l, nth_error ths j = Some ms -> nth_error asl j = Some l ->
          if (j =? i)%nat then inside ms l pa pb else blocks ms l
    end.

Lemma pend_nil : forall s, owner s = None -> pend [] [] s = s.
Proof. intros [] H. cbn in H. subst. unfold pend, append, with_owner, with_buf, with_con. cbn. rewrite !app_nil_r. reflexivity. Qed.

Lemma blocks_app : forall ms l ms' l', blocks ms l -> blocks ms' l' -> blocks (ms ++ ms') (l ++ l').
Proof. intros ms l ms' l' H H'. induction H; cbn; try constructor; assumption. Qed.
Lemma program_blocks : forall os, no_raw os = true -> blocks (program os) (act_program os).
Proof.
  induction os as [|o os IH]; intros H; [constructor|].
  cbn in H. apply andb_true_iff in H. destruct H as [H1 H2].
  unfold program, act_program in *. cbn [map concat]. apply blocks_app; [|apply IH; exact H2].
  destruct o; try discriminate; cbn; repeat constructor.
Qed.

Lemma some_inj : forall A (a b : A), Some a = Some b -> a = b.
Proof. congruence. Qed.

(** One step. *)
Lemma pick_related : forall c i s ths s' ths' sa asl,
  related s ths sa asl -> pick c i (s, ths) = Ok (s', ths') ->
  exists sa' asl', serial c asl sa asl' sa' /\ related s' ths' sa' asl'.
Proof.
  intros c i s ths s' ths' sa asl R H.
  pose proof R as [Hlen [pa [pb [Esa Ho]]]].
  unfold pick in H. destruct (nth_error ths i) as [[|m rest]|] eqn:En;
    [injection H as <- <-; exists sa, asl; split; [apply serial_refl|exact R]| |
     injection H as <- <-; exists sa, asl; split; [apply serial_refl|exact R]].
  destruct (step c i m s) as [[[s1 ms]|]| | |] eqn:Es; try discriminate; cbn [obind] in H; injection H as <- <-;
    [|exists sa, asl; split; [apply serial_refl|exact R]].
  subst sa.
  pose proof (nth_len _ _ _ _ En) as Hi.
  destruct (nth_error asl i) as [l|] eqn:El; [|apply nth_error_None in El; lia].
  assert (Hi' : (i < length asl)%nat) by lia.
  destruct (owner s) as [o|] eqn:Eo.
  - destruct Ho as [Hol Ho]. pose proof (Ho i _ _ En El) as Hm.
    destruct (Nat.eqb_spec i o) as [<-|Hio].
    + (* the holder *)
      inversion Hm; subst.
      * (* storing the title *)
        cbn in Es. injection Es as <- <-.
        eexists. exists (replace_nth asl i ([] ++ l0)). split.
        { eapply serial_snoc; [apply serial_refl|exact El|reflexivity]. }
        split; [rewrite !replace_length; auto|]. exists [], [].
        split; [reflexivity|]. cbn [owner with_title]. rewrite Eo. split; [rewrite replace_length; auto|].
        intros j ms' l' A B. destruct (Nat.eq_dec j i) as [->|D].
        { rewrite nth_replace_same in A, B by assumption. apply some_inj in A, B. subst.
          rewrite Nat.eqb_refl. refine (in_write [] [] _ _ _); assumption. }
        { rewrite nth_replace_other in A, B by auto. pose proof (Ho j _ _ A B) as Q.
          destruct (Nat.eqb_spec j i); [contradiction|exact Q]. }
      * (* computing an insertion *)
        cbn in Es. destruct (insertion c v s) as [[[ct lt] s2]| | |] eqn:Ei; try discriminate.
        cbn in Es. injection Es as <- <-.
        eexists. exists (replace_nth asl i ([] ++ l0)). split.
        { eapply serial_snoc; [apply serial_refl|exact El|].
          cbn [act_step]. rewrite insertion_pend, Ei. reflexivity. }
        split; [rewrite !replace_length; auto|].
        destruct (insertion_frame _ _ _ _ _ _ Ei) as [F1 [F2 [F3 F4]]].
        exists ct, lt. split.
        { unfold pend, append. cbn. rewrite !app_nil_r. reflexivity. }
        rewrite F4, Eo. split; [rewrite replace_length; auto|].
        intros j ms' l' A B. destruct (Nat.eq_dec j i) as [->|D].
        { rewrite nth_replace_same in A, B by assumption. apply some_inj in A, B. subst.
          rewrite Nat.eqb_refl. cbn [app]. rewrite <- !app_assoc. refine (in_write ct lt _ _ _); assumption. }
        { rewrite nth_replace_other in A, B by auto. pose proof (Ho j _ _ A B) as Q.
          destruct (Nat.eqb_spec j i); [contradiction|exact Q]. }
      * (* a manipulator *)
        cbn in Es. injection Es as <- <-.
        eexists. exists (replace_nth asl i ([] ++ l0)). split.
        { eapply serial_snoc; [apply serial_refl|exact El|reflexivity]. }
        split; [rewrite !replace_length; auto|].
        exists [ch 10], [ch 10]. split.
        { unfold pend, append. cbn. rewrite !app_nil_r. reflexivity. }
        rewrite Eo. split; [rewrite replace_length; auto|].
        intros j ms' l' A B. destruct (Nat.eq_dec j i) as [->|D].
        { rewrite nth_replace_same in A, B by assumption. apply some_inj in A, B. subst.
          rewrite Nat.eqb_refl. refine (in_write [ch 10] [ch 10] _ _ _); assumption. }
        { rewrite nth_replace_other in A, B by auto. pose proof (Ho j _ _ A B) as Q.
          destruct (Nat.eqb_spec j i); [contradiction|exact Q]. }
      * (* writing *)
        match goal with X : map MOut _ ++ _ = _ :: _ |- _ => rename X into HW end.
        exists (pend pa pb s), asl. split; [apply serial_refl|].
        destruct pa as [|x pa].
        { destruct pb as [|y pb]; cbn in HW.
          - injection HW as <- <-. cbn in Es. injection Es as <- <-.
            split; [rewrite replace_length; auto|]. exists [], []. split; [reflexivity|].
            cbn [owner with_owner]. split; [reflexivity|]. split; [reflexivity|].
            intros j ms' l' A B. destruct (Nat.eq_dec j i) as [->|D].
            + rewrite nth_replace_same in A by assumption. apply some_inj in A. subst.
              rewrite El in B. apply some_inj in B. subst. assumption.
            + rewrite nth_replace_other in A by auto. pose proof (Ho j _ _ A B) as Q.
              destruct (Nat.eqb_spec j i); [contradiction|exact Q].
          - injection HW as <- <-. cbn in Es. injection Es as <- <-.
            split; [rewrite replace_length; auto|]. exists [], pb. split.
            { unfold pend, append. cbn. rewrite <- app_assoc. reflexivity. }
            cbn [owner with_buf]. rewrite Eo. split; [rewrite replace_length; auto|].
            intros j ms' l' A B. destruct (Nat.eq_dec j i) as [->|D].
            + rewrite nth_replace_same in A by assumption. apply some_inj in A. subst.
              rewrite El in B. apply some_inj in B. subst. rewrite Nat.eqb_refl. refine (in_write [] pb _ _ _); assumption.
            + rewrite nth_replace_other in A by auto. 
              pose proof (Ho j _ _ A B) as Q. destruct (Nat.eqb_spec j i); [contradiction|exact Q]. }
        { cbn in HW. injection HW as <- <-. cbn in Es. injection Es as <- <-.
          split; [rewrite replace_length; auto|]. exists pa, pb. split.
          { unfold pend, append. cbn. rewrite <- app_assoc. reflexivity. }
          cbn [owner with_con]. rewrite Eo. split; [rewrite replace_length; auto|].
          intros j ms' l' A B. destruct (Nat.eq_dec j i) as [->|D].
          + rewrite nth_replace_same in A by assumption. apply some_inj in A. subst.
            rewrite El in B. apply some_inj in B. subst. rewrite Nat.eqb_refl. refine (in_write pa pb _ _ _); assumption.
          + rewrite nth_replace_other in A by auto. pose proof (Ho j _ _ A B) as Q.
            destruct (Nat.eqb_spec j i); [contradiction|exact Q]. }
    + (* another thread while the lock is held *)
      inversion Hm; subst; cbn in Es; rewrite ?Eo in Es; try discriminate; injection Es as <- <-.
      * (* the flag is read *)
        eexists. eexists. split.
        { eapply serial_snoc; [apply serial_refl|exact El|reflexivity]. }
        split; [rewrite !replace_length; auto|]. exists pa, pb. split; [reflexivity|].
        rewrite Eo. split; [rewrite replace_length; auto|].
        intros j ms' l' A B. destruct (Nat.eq_dec j i) as [->|D].
        { rewrite nth_replace_same in A, B by assumption. apply some_inj in A, B. subst.
          destruct (Nat.eqb_spec i o); [contradiction|].
          change (suppressed (pend pa pb s)) with (suppressed s).
          destruct (suppressed s); cbn; [assumption|constructor; assumption]. }
        { rewrite nth_replace_other in A, B by auto. exact (Ho j _ _ A B). }
      * (* the flag is set *)
        eexists. eexists. split.
        { eapply serial_snoc; [apply serial_refl|exact El|reflexivity]. }
        split; [rewrite !replace_length; auto|]. exists pa, pb. split; [reflexivity|].
        cbn [owner with_suppressed]. rewrite Eo. split; [rewrite replace_length; auto|].
        intros j ms' l' A B. destruct (Nat.eq_dec j i) as [->|D].
        { rewrite nth_replace_same in A, B by assumption. apply some_inj in A, B. subst.
          destruct (Nat.eqb_spec i o); [contradiction|]. assumption. }
        { rewrite nth_replace_other in A, B by auto. exact (Ho j _ _ A B). }
  - (* nobody holds the lock *)
    destruct Ho as [-> [-> Ho]]. pose proof (Ho i _ _ En El) as Hm. 
    inversion Hm; subst; cbn in Es; rewrite ?Eo in Es; injection Es as <- <-.
    + eexists. eexists. split.
      { eapply serial_snoc; [apply serial_refl|exact El|reflexivity]. }
      split; [rewrite !replace_length; auto|]. exists [], []. split; [reflexivity|].
      rewrite Eo. split; [reflexivity|]. split; [reflexivity|].
      intros j ms' l' A B. destruct (Nat.eq_dec j i) as [->|D].
      { rewrite nth_replace_same in A, B by assumption. apply some_inj in A, B. subst.
        change (suppressed (pend [] [] s)) with (suppressed s).
        destruct (suppressed s); cbn; [assumption|constructor; assumption]. }
      { rewrite nth_replace_other in A, B by auto. exact (Ho j _ _ A B). }
    + exists (pend [] [] s), asl. split; [apply serial_refl|].
      split; [rewrite replace_length; auto|]. exists [], []. split; [reflexivity|].
      cbn [owner with_owner]. split; [rewrite replace_length; auto|].
      intros j ms' l' A B. destruct (Nat.eq_dec j i) as [->|D].
      { rewrite nth_replace_same in A by assumption. apply some_inj in A. subst. rewrite El in B. apply some_inj in B. subst.
        rewrite Nat.eqb_refl. cbn. constructor. assumption. }
      { rewrite nth_replace_other in A by auto. pose proof (Ho j _ _ A B) as Q.
        destruct (Nat.eqb_spec j i); [contradiction|exact Q]. }
    + exists (pend [] [] s), asl. split; [apply serial_refl|].
      split; [rewrite replace_length; auto|]. exists [], []. split; [reflexivity|].
      cbn [owner with_owner]. split; [rewrite replace_length; auto|].
      intros j ms' l' A B. destruct (Nat.eq_dec j i) as [->|D].
      { rewrite nth_replace_same in A by assumption. apply some_inj in A. subst. rewrite El in B. apply some_inj in B. subst.
        rewrite Nat.eqb_refl. cbn. constructor. assumption. }
      { rewrite nth_replace_other in A by auto. pose proof (Ho j _ _ A B) as Q.
        destruct (Nat.eqb_spec j i); [contradiction|exact Q]. }
    + exists (pend [] [] s), asl. split; [apply serial_refl|].
      split; [rewrite replace_length; auto|]. exists [], []. split; [reflexivity|].
      cbn [owner with_owner]. split; [rewrite replace_length; auto|].
      intros j ms' l' A B. destruct (Nat.eq_dec j i) as [->|D].
      { rewrite nth_replace_same in A by assumption. apply some_inj in A. subst. rewrite El in B. apply some_inj in B. subst.
        rewrite Nat.eqb_refl. cbn. constructor. assumption. }
      { rewrite nth_replace_other in A by auto. pose proof (Ho j _ _ A B) as Q.
        destruct (Nat.eqb_spec j i); [contradiction|exact Q]. }
    + eexists. eexists. split.
      { eapply serial_snoc; [apply serial_refl|exact El|reflexivity]. }
      split; [rewrite !replace_length; auto|]. exists [], []. split; [reflexivity|].
      cbn [owner with_suppressed]. rewrite Eo. split; [reflexivity|]. split; [reflexivity|].
      intros j ms' l' A B. destruct (Nat.eq_dec j i) as [->|D].
      { rewrite nth_replace_same in A, B by assumption. apply some_inj in A, B. subst. assumption. }
      { rewrite nth_replace_other in A, B by auto. exact (Ho j _ _ A B). }
Qed.

Lemma picks_related : forall c is s ths s' ths' sa asl,
  related s ths sa asl -> picks c is (s, ths) = Ok (s', ths') ->
  exists sa' asl', serial c asl sa asl' sa' /\ related s' ths' sa' asl'.
Proof.
  intros c. induction is as [|i is IH]; intros s ths s' ths' sa asl R H.
  - cbn in H. injection H as <- <-. exists sa, asl. split; [apply serial_refl|exact R].
  - cbn [picks] in H. destruct (pick c i (s, ths)) as [[s1 ths1]| | |] eqn:E; try discriminate. cbn [obind] in H.
    destruct (pick_related _ _ _ _ _ _ _ _ R E) as [sa1 [asl1 [S1 R1]]].
    destruct (IH _ _ _ _ _ _ R1 H) as [sa2 [asl2 [S2 R2]]].
    exists sa2, asl2. split; [eapply serial_trans; eassumption|exact R2].
Qed.

Lemma start_related : forall oss s, Forall (fun os => no_raw os = true) oss -> owner s = None ->
  related s (map program oss) s (map act_program oss).
Proof.
  intros oss s H Ho. split; [rewrite !map_length; reflexivity|]. exists [], [].
  split; [symmetry; apply pend_nil; exact Ho|]. rewrite Ho. split; [reflexivity|]. split; [reflexivity|].
  intros j ms l A B. rewrite nth_error_map in A, B.
  destruct (nth_error oss j) as [os|] eqn:E; [|discriminate]. cbn in A, B. injection A as <-. injection B as <-.
  apply program_blocks. rewrite Forall_forall in H. apply H. eapply nth_error_In. exact E.
Qed.

Lemma inside_nonempty : forall l pa pb, ~ inside [] l pa pb.
Proof.
  intros l pa pb H. inversion H as [| | |? ? ? ? ? E].
  apply app_eq_nil in E. destruct E as [_ E]. apply app_eq_nil in E. destruct E as [_ E]. discriminate.
Qed.

Lemma Forall_nil_nth : forall A (l : list (list A)),
  (forall j x, nth_error l j = Some x -> x = []) -> Forall (eq []) l.
Proof.
  intros A l H. apply Forall_forall. intros x Hx. apply In_nth_error in Hx. destruct Hx as [j Hj].
  symmetry. exact (H j x Hj).
Qed.

Lemma serializable : forall c oss is s0 s ths,
  Forall (fun os => no_raw os = true) oss -> owner s0 = None ->
  picks c is (s0, map program oss) = Ok (s, ths) -> Forall (eq []) ths ->
  exists asl, serial c (map act_program oss) s0 asl s /\ Forall (eq []) asl.
Proof.
  intros c oss is s0 s ths Hr Ho H Hf.
  destruct (picks_related _ _ _ _ _ _ _ _ (start_related oss s0 Hr Ho) H) as [sa [asl [S R]]].
  destruct R as [Hl [pa [pb [-> R]]]].
  assert (HN : forall j x, nth_error ths j = Some x -> x = []).
  { intros j x E. rewrite Forall_forall in Hf. symmetry. apply Hf. eapply nth_error_In. exact E. }
  destruct (owner s) as [i|] eqn:Eo.
  - exfalso. destruct R as [Hi R].
    destruct (nth_error ths i) as [ms|] eqn:E1; [|apply nth_error_None in E1; lia].
    destruct (nth_error asl i) as [l|] eqn:E2; [|apply nth_error_None in E2; lia].
    specialize (R i _ _ E1 E2). rewrite Nat.eqb_refl in R. rewrite (HN i _ E1) in R.
    exact (inside_nonempty _ _ _ R).
  - destruct R as [-> [-> R]]. rewrite pend_nil in S by exact Eo. exists asl. split; [exact S|].
    apply Forall_nil_nth. intros j l E.
    destruct (nth_error ths j) as [ms|] eqn:E1; [|apply nth_error_None in E1; apply nth_len in E; lia].
    specialize (R j _ _ E1 E). rewrite (HN j _ E1) in R. inversion R. reflexivity.
Qed.

(** Somebody can always go on. *)
Lemma no_deadlock : forall c oss is s0 s ths,
  Forall (fun os => no_raw os = true) oss -> owner s0 = None ->
  picks c is (s0, map program oss) = Ok (s, ths) -> ~ Forall (eq []) ths ->
  exists i m rest, nth_error ths i = Some (m :: rest) /\ step c i m s <> Ok None.
Proof.
  intros c oss is s0 s ths Hr Ho H Hf.
  destruct (picks_related _ _ _ _ _ _ _ _ (start_related oss s0 Hr Ho) H) as [sa [asl [S R]]].
  destruct R as [Hl [pa [pb [-> R]]]].
  destruct (owner s) as [i|] eqn:Eo.
  - destruct R as [Hi R].
    destruct (nth_error ths i) as [ms|] eqn:E1; [|apply nth_error_None in E1; lia].
    destruct (nth_error asl i) as [l|] eqn:E2; [|apply nth_error_None in E2; lia].
    specialize (R i _ _ E1 E2). rewrite Nat.eqb_refl in R.
    destruct ms as [|m rest]; [exfalso; exact (inside_nonempty _ _ _ R)|].
    exists i, m, rest. split; [exact E1|].
    inversion R as [| | |pa0 pb0 ms0 l0 Hb HW]; subst; cbn; try discriminate.
    + destruct (insertion c v s) as [[[ct lt] s2]| | |]; discriminate.
    + destruct pa as [|x pa]; [destruct pb as [|y pb]|]; cbn in HW; injection HW as <- _; cbn; discriminate.
  - destruct R as [-> [-> R]].
    assert (E : exists i m rest, nth_error ths i = Some (m :: rest)).
    { clear - Hf. induction ths as [|[|m rest] ths IH].
      - exfalso. apply Hf. constructor.
      - destruct IH as [i [m [rest E]]].
        + intros F. apply Hf. constructor; [reflexivity|exact F].
        + exists (Datatypes.S i), m, rest. exact E.
      - exists 0%nat, m, rest. reflexivity. }
    destruct E as [i [m [rest E]]]. exists i, m, rest. split; [exact E|].
    destruct (nth_error asl i) as [l|] eqn:E2; [|apply nth_error_None in E2; apply nth_len in E; lia].
    specialize (R i _ _ E E2). inversion R; subst; cbn; rewrite ?Eo; discriminate.
Qed.

(** *** A single thread *)
Fixpoint exec_acts (c : console) (l : list act) (s : shared) : outcome shared :=
  match l with
  | [] => Ok s
  | a :: l =>
      obind (match a with
             | ACheck t => Ok (if suppressed s then s else with_title t s)
             | _ => obind (act_step c a s) (fun '(s, _) => Ok s)
             end) (exec_acts c l)
  end.
Lemma serial_single : forall c ths s ths2 s2, serial c ths s ths2 s2 ->
  forall l, ths = [l] -> ths2 = [[]] -> exec_acts c l s = Ok s2.
Proof.
  intros c ths s ths2 s2 H. induction H as [ths s|ths s i a rest s1 l1 ths2 s2 Hn Ha H IH]; intros l -> E2.
  - injection E2 as ->. reflexivity.
  - destruct i as [|i]; [|destruct i; discriminate]. cbn in Hn. injection Hn as ->.
    specialize (IH (l1 ++ rest) eq_refl E2).
    cbn [exec_acts]. destruct a as [t|t|v| |b].
    + cbn in Ha. injection Ha as <- <-. destruct (suppressed s); exact IH.
    + rewrite Ha. cbn [obind]. cbn in Ha. injection Ha as <- <-. exact IH.
    + rewrite Ha. cbn [obind]. cbn in Ha. destruct (insertion c v s) as [[[ct lt] s3]| | |]; try discriminate.
      cbn in Ha. injection Ha as <- <-. exact IH.
    + rewrite Ha. cbn [obind]. cbn in Ha. injection Ha as <- <-. exact IH.
    + rewrite Ha. cbn [obind]. cbn in Ha. injection Ha as <- <-. exact IH.
Qed.
Lemma exec_one : forall c os s, no_raw os = true -> exec_acts c (act_program os) s = one_by_one c os s.
Proof.
  intros c. induction os as [|o os IH]; intros s H; [reflexivity|].
  cbn in H. apply andb_true_iff in H. destruct H as [H1 H2].
  unfold act_program. cbn [map concat]. fold (act_program os).
  destruct o; try discriminate; cbn [acts app exec_acts one_by_one act_step obind].
  - apply IH. exact H2.
  - destruct (insertion c v s) as [[[ct lt] s1]| | |]; try reflexivity. cbn [obind]. apply IH. exact H2.
  - apply IH. exact H2.
  - apply IH. exact H2.
Qed.
Lemma single_thread : forall c os is s0 s, no_raw os = true -> owner s0 = None ->
  picks c is (s0, [program os]) = Ok (s, [[]]) -> one_by_one c os s0 = Ok s.
Proof.
  intros c os is s0 s Hr Ho H.
  destruct (serializable c [os] is s0 s [[]]) as [asl [S F]]; auto.
  - rewrite <- exec_one by exact Hr. eapply serial_single; [exact S|reflexivity|].
    inversion S as [ths q|ths q i a rest s1 l1 ths2 s2 Hn Ha H2]; subst.
    + cbn in F. inversion F; subst. cbn in *. congruence.
    + assert (L : forall ths s ths2 s2, serial c ths s ths2 s2 -> length ths2 = length ths).
      { intros ? ? ? ? X. induction X; [reflexivity|]. rewrite IHX. apply replace_length. eapply nth_len. eassumption. }
      apply L in S. cbn in S. destruct asl as [|x [|y asl]]; try discriminate. inversion F. subst. reflexivity.
Qed.

(** *** Suppression *)
Definition quiet_micro (m : micro) : Prop :=
  match m with MCheck _ | MAcq | MRel | MInsert _ => True | _ => False end.
Lemma quiet_program : forall os, quiet os = true -> Forall quiet_micro (program os).
Proof.
  induction os as [|o os IH]; intros Q; [constructor|]. cbn in Q. apply andb_true_iff in Q. destruct Q as [Q1 Q2].
  unfold program in *. cbn [map concat]. apply Forall_app. split; [|apply IH; exact Q2].
  destruct o; try discriminate; cbn; repeat constructor.
Qed.
Lemma In_replace : forall A (l : list A) i x y, In y (replace_nth l i x) -> In y l \/ y = x.
Proof.
  intros A l i x y H. unfold replace_nth in H. apply in_app_or in H. destruct H as [H|[H|H]].
  - left. rewrite <- (firstn_skipn i l). apply in_or_app. left. exact H.
  - right. auto.
  - left. rewrite <- (firstn_skipn (S i) l). apply in_or_app. right. exact H.
Qed.
Lemma pick_quiet : forall c j s ths s' ths', pick c j (s, ths) = Ok (s', ths') ->
  suppressed s = true -> Forall (Forall quiet_micro) ths ->
  suppressed s' = true /\ con s' = con s /\ buf s' = buf s /\ title s' = title s /\
  Forall (Forall quiet_micro) ths'.
Proof.
  intros c j s ths s' ths' H Hs F. unfold pick in H.
  destruct (nth_error ths j) as [[|m rest]|] eqn:En; [injection H as <- <-; auto 10| |injection H as <- <-; auto 10].
  pose proof F as F0. rewrite Forall_forall in F. pose proof (F _ (nth_error_In _ _ En)) as F1.
  pose proof (Forall_inv F1) as F2. pose proof (Forall_inv_tail F1) as F3.
  assert (FR : forall ms, Forall quiet_micro ms -> Forall (Forall quiet_micro) (replace_nth ths j (ms ++ rest))).
  { intros ms Hm. apply Forall_forall. intros x Hx. apply In_replace in Hx. destruct Hx as [Hx| ->]; [apply F; exact Hx|].
    apply Forall_app. split; assumption. }
  destruct m; try (destruct F2; fail); cbn in H.
  - rewrite Hs in H. injection H as <- <-. repeat split; auto. apply (FR []). constructor.
  - destruct (owner s); injection H as <- <-; cbn; repeat split; auto. apply (FR []). constructor.
  - injection H as <- <-. cbn. repeat split; auto. apply (FR []). constructor.
  - unfold insertion in H. rewrite Hs in H. cbn in H. injection H as <- <-. repeat split; auto.
    apply (FR [MRel]). repeat constructor.
Qed.
Lemma suppressed_quiet : forall c oss is s0 s ths,
  Forall (fun os => quiet os = true) oss -> suppressed s0 = true ->
  picks c is (s0, map program oss) = Ok (s, ths) ->
  con s = con s0 /\ buf s = buf s0 /\ title s = title s0.
Proof.
  intros c oss is s0 s ths Hq Hs H.
  assert (F : Forall (Forall quiet_micro) (map program oss)).
  { apply Forall_map. eapply Forall_impl; [|exact Hq]. exact quiet_program. }
  revert s0 Hs H F. generalize (map program oss) as ths0. induction is as [|i is IH]; intros ths0 s0 Hs H F.
  - cbn in H. injection H as <- <-. auto.
  - cbn [picks] in H. destruct (pick c i (s0, ths0)) as [[s1 ths1]| | |] eqn:E; try discriminate. cbn [obind] in H.
    destruct (pick_quiet _ _ _ _ _ _ E Hs F) as [A [B [C [D G]]]].
    destruct (IH ths1 s1 A H G) as [X [Y Z]]. repeat split; congruence.
Qed.

(** *** Colours *)
Lemma next_mod : forall n, 2 <= n -> n <= INT_MAX -> getMod3 (I32, n) (I32, 2) (I32, 7) = Ok (I32, 2 + (n - 2) mod 5).
Proof.
  intros n H1 H2. unfold INT_MAX in H2.
  assert (M : imax I32 = 2147483647) by reflexivity. assert (M2 : imin I32 = -2147483648) by reflexivity.
  assert (G : exists r, getMod3 (I32, n) (I32, 2) (I32, 7) = Ok (I32, r) /\ 2 <= r < 7 /\ (7 - 2 | n - r)).
  { apply getMod3_spec; unfold CInt.has_type; rewrite ?M, ?M2; lia. }
  destruct G as [r [E [B D]]].
  rewrite E. f_equal. f_equal. destruct D as [q D].
  replace (n - 2) with ((r - 2) + q * 5) by lia. rewrite Z_mod_plus_full, Z.mod_small by lia. lia.
Qed.

Definition colour_of (k : nat) : nat := (2 + k mod 5)%nat.
Definition colour_inv (us : list bytes) (s : shared) : Prop :=
  next_colour s = 2 + Z.of_nat (length us) /\
  forall t, lookup t (colours s) = if existsb (bytes_eqb t) us then Some (colour_of (position t us)) else None.

Lemma colour_nat : forall k, Z.to_nat (2 + (2 + Z.of_nat k - 2) mod 5) = colour_of k.
Proof.
  intros k. unfold colour_of. replace (2 + Z.of_nat k - 2) with (Z.of_nat k) by lia.
  pose proof (Z.mod_pos_bound (Z.of_nat k) 5 ltac:(lia)) as B.
  apply Nat2Z.inj. rewrite Z2Nat.id by lia. rewrite Nat2Z.inj_add, Nat2Z.inj_mod. reflexivity.
Qed.
Lemma bytes_eqb_sym : forall a b, bytes_eqb a b = bytes_eqb b a.
Proof.
  intros a b. destruct (bytes_eqb a b) eqn:E, (bytes_eqb b a) eqn:F; try reflexivity.
  - apply bytes_eqb_eq in E. subst. assert (bytes_eqb b b = true) by (apply bytes_eqb_eq; reflexivity). congruence.
  - apply bytes_eqb_eq in F. subst. assert (bytes_eqb a a = true) by (apply bytes_eqb_eq; reflexivity). congruence.
Qed.
Lemma position_app : forall t us vs, existsb (bytes_eqb t) us = true -> position t (us ++ vs) = position t us.
Proof.
  induction us as [|u us IH]; intros vs H; [discriminate|]. cbn in *. rewrite (bytes_eqb_sym u t).
  destruct (bytes_eqb t u); [reflexivity|]. cbn in H. f_equal. apply IH. exact H.
Qed.
Lemma position_new : forall t us, existsb (bytes_eqb t) us = false -> position t (us ++ [t]) = length us.
Proof.
  induction us as [|u us IH]; intros H; cbn in *.
  - assert (E : bytes_eqb t t = true) by (apply bytes_eqb_eq; reflexivity). rewrite E. reflexivity.
  - apply orb_false_iff in H. destruct H as [H1 H2]. rewrite (bytes_eqb_sym u t), H1. f_equal. apply IH. exact H2.
Qed.
Lemma existsb_rev : forall A (f : A -> bool) l, existsb f (rev l) = existsb f l.
Proof.
  intros A f l. induction l as [|x l IH]; [reflexivity|]. cbn. rewrite existsb_app, IH. cbn. rewrite orb_false_r. apply orb_comm.
Qed.

Lemma colour_step : forall t us s, colour_inv us s -> Z.of_nat (length us) + 2 < INT_MAX ->
  exists s', let us' := if existsb (bytes_eqb t) us then us else us ++ [t] in
  getUniqueColor t s = Ok (colour_of (position t us'), s') /\ colour_inv us' s'.
Proof.
  intros t us s [Hn Hl] Hb. unfold getUniqueColor. rewrite (Hl t).
  destruct (existsb (bytes_eqb t) us) eqn:E.
  - exists s. split; [reflexivity|]. split; assumption.
  - replace (next_colour s =? INT_MAX) with false by lia. rewrite Hn.
    rewrite next_mod by lia. cbn [obind]. eexists. split.
    + rewrite position_new by exact E. f_equal. f_equal. apply colour_nat.
    + split.
      * cbn [next_colour with_colours]. rewrite app_length. cbn [length]. lia.
      * intros u. cbn [colours with_colours lookup]. rewrite existsb_app. cbn [existsb]. rewrite orb_false_r.
        destruct (bytes_eqb t u) eqn:Etu.
        { apply bytes_eqb_eq in Etu. subst u. assert (T : bytes_eqb t t = true) by (apply bytes_eqb_eq; reflexivity).
          rewrite T, orb_true_r, position_new by exact E. f_equal. apply colour_nat. }
        { rewrite (bytes_eqb_sym u t), Etu, orb_false_r. rewrite Hl.
          destruct (existsb (bytes_eqb u) us) eqn:Eu; [|reflexivity]. rewrite position_app by exact Eu. reflexivity. }
Qed.

Lemma colour_run : forall l us s, colour_inv us s ->
  Z.of_nat (length (us ++ distinct (rev us) l)) + 2 < INT_MAX ->
  exists s', colour_all l s = Ok (map (fun t => colour_of (position t (us ++ distinct (rev us) l))) l, s').
Proof.
  induction l as [|t l IH]; intros us s I B; [exists s; reflexivity|].
  cbn [distinct] in *. rewrite existsb_rev in *. cbn [colour_all].
  destruct (colour_step t us s I) as [s1 [E1 I1]]; [rewrite app_length in B; lia|].
  rewrite E1. cbn [obind]. destruct (existsb (bytes_eqb t) us) eqn:E.
  - destruct (IH us s1 I1 B) as [s2 E2]. rewrite E2. cbn [obind]. exists s2.
    cbn [map]. f_equal. f_equal. f_equal. f_equal. symmetry. apply position_app. exact E.
  - assert (L : us ++ t :: distinct (t :: rev us) l = (us ++ [t]) ++ distinct (rev (us ++ [t])) l).
    { rewrite rev_app_distr. cbn. rewrite <- app_assoc. reflexivity. }
    rewrite L in *. destruct (IH (us ++ [t]) s1 I1 B) as [s2 E2]. rewrite E2. cbn [obind]. exists s2.
    cbn [map]. f_equal. f_equal. f_equal. f_equal. symmetry. apply position_app.
    rewrite existsb_app. cbn. assert (T : bytes_eqb t t = true) by (apply bytes_eqb_eq; reflexivity).
    rewrite T. cbn. apply orb_true_r.
Qed.
Lemma colours_all : forall l, Z.of_nat (length (distinct [] l)) + 2 < INT_MAX ->
  exists s', colour_all l start = Ok (map (fun t => (2 + position t (distinct [] l) mod 5)%nat) l, s').
Proof. intros l H. apply (colour_run l [] start); [split; [reflexivity|intros t; reflexivity]|exact H]. Qed.

(** *** What an insertion writes *)
Lemma emit_writes : forall c m t f, writes c false m t -> exists d f', emit m f = Ok (d, f') /\ shows c d t.
Proof.
  intros c m t [[y x] b] W. destruct (W (mkSt y x b [] [])) as [s' [d [E [Sh O]]]]. cbn in O.
  unfold emit. rewrite E. cbn [obind]. exists d. eexists. rewrite O. split; [reflexivity|exact Sh].
Qed.
Lemma reset_emits : forall c s, exists s', resetFmt c false s = Ok s' /\ out s' = out s ++ reset_sequence c.
Proof.
  intros [|] s; eexists; (split; [reflexivity|]); cbn [out reset_sequence]; [|rewrite app_nil_r; reflexivity].
  f_equal.
Qed.
Lemma emit_reset : forall c m t f, writes c false m t ->
  exists d f', emit (seqm (resetFmt c false) (seqm m (resetFmt c false))) f = Ok (d ++ reset_sequence c, f') /\
    shows c (d ++ reset_sequence c) t.
Proof.
  intros c m t [[y x] b] W. destruct (writes_reset c false (mkSt y x b [] [])) as [s1 [d1 [E1 [S1 O1]]]].
  destruct (W s1) as [s2 [d2 [E2 [S2 O2]]]]. destruct (reset_emits c s2) as [s3 [E3 O3]].
  unfold emit, seqm. rewrite E1. cbn [obind]. rewrite E2. cbn [obind]. rewrite E3. cbn [obind].
  exists (d1 ++ d2). eexists. split.
  - f_equal. f_equal. rewrite O3, O2, O1. reflexivity.
  - rewrite <- (app_nil_r t). apply shows_app.
    + rewrite <- (app_nil_l t). apply shows_app; assumption.
    + destruct c; [|reflexivity]. intros r. reflexivity.
Qed.

Lemma repeat_clean : forall n, clean (repeat " "%char n) = true.
Proof. induction n as [|n IH]; [reflexivity|]. cbn. exact IH. Qed.
Lemma padded_title : forall t, padded (lit "[" ++ t ++ lit "] ") = title_column t.
Proof. intros t. unfold padded, title_column, leftW. f_equal. f_equal. rewrite !app_length. change (length (lit "[")) with 1%nat. change (length (lit "] ")) with 2%nat. lia. Qed.
Lemma padded_clean : forall t, clean t = true -> clean (padded t) = true.
Proof. intros t H. unfold padded. rewrite clean_app, H, repeat_clean. reflexivity. Qed.
Lemma clean_shows : forall c t, clean t = true -> shows c t t.
Proof. intros [|] t H; [intros r; apply clean_visible; exact H|reflexivity]. Qed.

Definition heading (t : bytes) : bytes := match t with [] => [] | _ => padded (lit "[" ++ t ++ lit "] ") end.

Lemma insertion_text : forall c v s, suppressed s = false -> printable false v = true -> clean (title s) = true ->
  2 <= next_colour s < INT_MAX ->
  exists d e s', insertion c v s = Ok (d ++ reset_sequence c, e, s') /\
    shows c (d ++ reset_sequence c) (heading (title s) ++ text true v) /\ shows c e (heading (title s) ++ text false v) /\
    title s' = [] /\ suppressed s' = false /\ con s' = con s /\ buf s' = buf s /\
    next_colour s <= next_colour s' <= next_colour s + (if match title s with [] => true | _ => false end then 0 else 1).
Proof.
  intros c v s Hs Hv Ht Hc. unfold insertion. rewrite Hs.
  assert (K : forall ct lt ht s0, shows c ct ht -> shows c lt ht ->
     title s0 = [] -> suppressed s0 = false -> con s0 = con s -> buf s0 = buf s ->
     exists d e s', obind (emit (seqm (resetFmt c false) (seqm (stringify c true false v) (resetFmt c false))) (fmt s0))
        (fun '(cv, f) => obind (emit (stringify c false false v) f)
        (fun '(lv, f) => Ok (ct ++ cv, lt ++ lv, with_fmt f s0))) = Ok (d ++ reset_sequence c, e, s') /\
      shows c (d ++ reset_sequence c) (ht ++ text true v) /\ shows c e (ht ++ text false v) /\
      title s' = [] /\ suppressed s' = false /\ con s' = con s /\ buf s' = buf s /\ next_colour s' = next_colour s0).
  { intros ct lt ht s0 S1 S2 A B C D.
    destruct (emit_reset c (stringify c true false v) (text true v) (fmt s0)) as [d [f [E1 W1]]];
      [apply stringify_writes; exact Hv|].
    rewrite E1. cbn [obind].
    destruct (emit_writes c (stringify c false false v) (text false v) f) as [e [f2 [E2 W2]]];
      [apply stringify_writes; exact Hv|].
    rewrite E2. cbn [obind]. exists (ct ++ d), (lt ++ e), (with_fmt f2 s0).
    split; [rewrite app_assoc; reflexivity|]. split; [rewrite <- app_assoc; apply shows_app; assumption|].
    split; [apply shows_app; assumption|]. cbn. auto 10. }
  destruct (title s) as [|x t] eqn:Et.
  - cbn [obind heading]. destruct (K [] [] [] s) as [d [e [s' [E [W1 [W2 [T [U [V [W N]]]]]]]]]]; auto;
      try (apply clean_shows; reflexivity).
    exists d, e, s'. repeat (split; [assumption|]). lia.
  - assert (G : exists col s1, getUniqueColor (lit "[" ++ (x :: t) ++ lit "] ") s = Ok (col, s1) /\
        next_colour s <= next_colour s1 <= next_colour s + 1).
    { unfold getUniqueColor. destruct (lookup _ (colours s)) as [n|].
      - exists n, s. split; [reflexivity|lia].
      - replace (next_colour s =? INT_MAX) with false by lia. rewrite next_mod by lia. cbn [obind].
        eexists. eexists. split; [reflexivity|]. cbn. lia. }
    destruct G as [col [s1 [G1 G2]]]. rewrite G1. cbn [obind]. apply colour_frame in G1.
    destruct G1 as [F1 [F2 [F3 [F4 [F5 F6]]]]].
    destruct (emit_writes c (seqm (setColorFG c false col) (setStyle c false sBold)) [] (fmt s1)) as [e [f [E1 W1]]].
    { apply (writes_seq c false _ _ [] []); [apply writes_fg|apply writes_style]. }
    rewrite E1. cbn [obind].
    assert (CP : clean (padded (lit "[" ++ (x :: t) ++ lit "] ")) = true).
    { apply padded_clean. rewrite !clean_app, Ht. reflexivity. }
    destruct (K (e ++ padded (lit "[" ++ (x :: t) ++ lit "] ")) (padded (lit "[" ++ (x :: t) ++ lit "] "))
       (heading (x :: t)) (with_title [] (with_fmt f s1))) as [d [e2 [s' [E [V1 [V2 [T [U [V [W N]]]]]]]]]]; auto.
    + cbn [heading]. apply (shows_app c e [] _ _); [exact W1|]. apply clean_shows. exact CP.
    + cbn [heading]. apply clean_shows. exact CP.
    + cbn. congruence.
    + exists d, e2, s'. split; [exact E|]. repeat (split; [assumption|]). cbn in N. lia.
Qed.

Lemma shows_known : forall c d t, shows c d t -> (c = NullConsole -> d = t) /\ (c = Unix -> visible d = t).
Proof.
  intros c d t H. split; intros ->; cbn in H; [exact H|]. specialize (H []). rewrite !app_nil_r in H. exact H.
Qed.

Lemma inserts_text : forall c vs s, suppressed s = false -> title s = [] -> 2 <= next_colour s < INT_MAX ->
  Forall (fun v => printable false v = true) vs ->
  exists d e s', (forall os, one_by_one c (map Insert vs ++ os) s = one_by_one c os s') /\
    con s' = con s ++ d /\ buf s' = buf s ++ e /\
    shows c d (concat (map (text true) vs)) /\ shows c e (concat (map (text false) vs)) /\
    title s' = [] /\ suppressed s' = false /\ next_colour s' = next_colour s.
Proof.
  intros c. induction vs as [|v vs IH]; intros s Hs Ht Hc F.
  - exists [], [], s. split; [reflexivity|]. rewrite !app_nil_r. repeat (split; [reflexivity|]).
    split; [apply clean_shows; reflexivity|]. split; [apply clean_shows; reflexivity|]. auto.
  - destruct (insertion_text c v s Hs (Forall_inv F)) as [d [e [s1 [E [W1 [W2 [T [U [V [W N]]]]]]]]]];
      [rewrite Ht; reflexivity|exact Hc|]. rewrite Ht in *. cbn [heading app] in W1, W2.
    destruct (IH (append (d ++ reset_sequence c) e s1)) as [d2 [e2 [s2 [E2 [C2 [B2 [W3 [W4 [T2 [U2 N2]]]]]]]]]];
      [exact U|exact T|cbn; cbn in N; lia|exact (Forall_inv_tail F)|].
    exists ((d ++ reset_sequence c) ++ d2), (e ++ e2), s2. split.
    + intros os. cbn [map app one_by_one]. rewrite E. cbn [obind]. apply E2.
    + rewrite C2, B2. cbn [con buf append with_buf with_con]. rewrite V, W, <- !app_assoc.
      split; [reflexivity|]. split; [reflexivity|]. cbn [map concat].
      split; [rewrite app_assoc; apply shows_app; assumption|]. split; [apply shows_app; assumption|].
      split; [exact T2|]. split; [exact U2|]. cbn in N2, N. lia.
Qed.

Lemma message_text : forall c t v vs s, suppressed s = false -> 2 <= next_colour s < INT_MAX - 1 ->
  t <> [] -> clean t = true -> Forall (fun v => printable false v = true) (v :: vs) ->
  exists d e s', one_by_one c (Title t :: map Insert (v :: vs) ++ [Manip]) s = Ok s' /\
    con s' = con s ++ d /\ buf s' = buf s ++ e /\ title s' = [] /\
    (c = NullConsole -> d = message true t (v :: vs) /\ e = message false t (v :: vs)) /\
    (c = Unix -> visible d = message true t (v :: vs) /\ visible e = message false t (v :: vs)).
Proof.
  intros c t v vs s Hs Hc Ht Hcl F. cbn [one_by_one map app]. rewrite Hs. cbn [obind].
  destruct (insertion_text c v (with_title t s)) as [d [e [s1 [E [W1 [W2 [T [U [V [W N]]]]]]]]]];
    [exact Hs|exact (Forall_inv F)|exact Hcl|cbn; lia|].
  rewrite E. cbn [obind]. cbn [title with_title] in W1, W2, N.
  destruct (inserts_text c vs (append (d ++ reset_sequence c) e s1)) as [d2 [e2 [s2 [E2 [C2 [B2 [W3 [W4 [T2 [U2 N2]]]]]]]]]];
    [exact U|exact T|cbn; cbn in N; destruct t; [congruence|]; lia|exact (Forall_inv_tail F)|].
  rewrite E2. cbn [one_by_one obind].
  assert (H : heading t = title_column t) by (rewrite <- padded_title; destruct t; [congruence|reflexivity]).
  assert (Q : shows c (((d ++ reset_sequence c) ++ d2) ++ [ch 10]) (message true t (v :: vs)) /\
              shows c ((e ++ e2) ++ [ch 10]) (message false t (v :: vs))).
  { unfold message. cbn [map concat]. rewrite <- H.
    replace (heading t ++ (text true v ++ concat (map (text true) vs)) ++ [ch 10])
      with (((heading t ++ text true v) ++ concat (map (text true) vs)) ++ [ch 10]) by (rewrite <- !app_assoc; reflexivity).
    replace (heading t ++ (text false v ++ concat (map (text false) vs)) ++ [ch 10])
      with (((heading t ++ text false v) ++ concat (map (text false) vs)) ++ [ch 10]) by (rewrite <- !app_assoc; reflexivity).
    split; (apply shows_app; [apply shows_app; assumption|apply clean_shows; reflexivity]). }
  exists (((d ++ reset_sequence c) ++ d2) ++ [ch 10]), ((e ++ e2) ++ [ch 10]). eexists. split; [reflexivity|].
  cbn [con buf append with_buf with_con title]. rewrite C2, B2. cbn [con buf append with_buf with_con].
  rewrite V, W. cbn [con buf with_title].
  split; [rewrite <- !app_assoc; reflexivity|]. split; [rewrite <- !app_assoc; reflexivity|]. split; [exact T2|].
  destruct Q as [Q1 Q2]. apply shows_known in Q1, Q2.
  split; intros Ec; split; (apply Q1 || apply Q2); exact Ec.
Qed.

(** *** Several threads inserting values *)
Lemma replace_map : forall A B (f : A -> B) l i x, replace_nth (map f l) i (f x) = map f (replace_nth l i x).
Proof. intros. unfold replace_nth. rewrite map_app, firstn_map. cbn [map]. rewrite skipn_map. reflexivity. Qed.

Lemma serial_values : forall c ths s ths2 s2, serial c ths s ths2 s2 -> forall vss,
  ths = map (map AInsert) vss -> Forall (eq []) ths2 ->
  suppressed s = false -> title s = [] -> 2 <= next_colour s < INT_MAX ->
  Forall (Forall (fun v => printable false v = true)) vss ->
  exists l d e, merge vss l /\ con s2 = con s ++ d /\ buf s2 = buf s ++ e /\
    shows c d (concat (map (text true) l)) /\ shows c e (concat (map (text false) l)).
Proof.
  intros c ths s ths2 s2 H. induction H as [ths s|ths s i a rest s1 l1 ths2 s2 Hn Ha H IH]; intros vss -> Hf Hs Ht Hc F.
  - exists [], [], []. rewrite !app_nil_r. split.
    + apply merge_done. rewrite Forall_map in Hf. eapply Forall_impl; [|exact Hf].
      intros l E. destruct l; [reflexivity|discriminate].
    + repeat (split; [reflexivity|]). split; apply clean_shows; reflexivity.
  - rewrite nth_error_map in Hn. destruct (nth_error vss i) as [[|v vs]|] eqn:Ev; try discriminate.
    cbn in Hn. injection Hn as <- <-.
    pose proof F as F0. rewrite Forall_forall in F. pose proof (F _ (nth_error_In _ _ Ev)) as Fv.
    destruct (insertion_text c v s Hs (Forall_inv Fv)) as [d [e [s3 [E [W1 [W2 [T [U [V [W N]]]]]]]]]];
      [rewrite Ht; reflexivity|exact Hc|]. rewrite Ht in *. cbn [heading app] in W1, W2.
    cbn in Ha. rewrite E in Ha. cbn in Ha. injection Ha as <- <-.
    destruct (IH (replace_nth vss i vs)) as [l [d2 [e2 [M [C2 [B2 [W3 W4]]]]]]].
    + cbn [app]. apply replace_map.
    + exact Hf.
    + exact U.
    + exact T.
    + cbn. cbn in N. lia.
    + apply Forall_forall. intros x Hx. apply In_replace in Hx. destruct Hx as [Hx| ->]; [apply F; exact Hx|exact (Forall_inv_tail Fv)].
    + exists (v :: l), ((d ++ reset_sequence c) ++ d2), (e ++ e2). split; [eapply merge_step; eassumption|].
      rewrite C2, B2. cbn [con buf append with_buf with_con]. rewrite V, W, <- !app_assoc.
      split; [reflexivity|]. split; [reflexivity|]. cbn [map concat].
      split; [rewrite app_assoc; apply shows_app; assumption|apply shows_app; assumption].
Qed.

Lemma insert_program : forall vs, act_program (map Insert vs) = map AInsert vs.
Proof. induction vs as [|v vs IH]; [reflexivity|]. unfold act_program in *. cbn. rewrite IH. reflexivity. Qed.

Lemma whole_messages : forall c vss is s ths,
  Forall (Forall (fun v => printable false v = true)) vss ->
  picks c is (start, map (fun vs => program (map Insert vs)) vss) = Ok (s, ths) -> Forall (eq []) ths ->
  exists l, merge vss l /\
    (c = NullConsole -> con s = concat (map (text true) l) /\ buf s = concat (map (text false) l)) /\
    (c = Unix -> visible (con s) = concat (map (text true) l) /\ visible (buf s) = concat (map (text false) l)).
Proof.
  intros c vss is s ths F H Hf.
  destruct (serializable c (map (map Insert) vss) is start s ths) as [asl [S Fa]].
  - apply Forall_forall. intros os Ho. apply in_map_iff in Ho. destruct Ho as [vs [<- _]].
    induction vs as [|v vs IH]; [reflexivity|exact IH].
  - reflexivity.
  - rewrite map_map. exact H.
  - exact Hf.
  - destruct (serial_values _ _ _ _ _ S vss) as [l [d [e [M [C [B [W1 W2]]]]]]].
    + rewrite map_map. apply map_ext. exact insert_program.
    + exact Fa.
    + reflexivity.
    + reflexivity.
    + cbn. unfold INT_MAX. lia.
    + exact F.
    + cbn in C, B. exists l. split; [exact M|]. rewrite C, B. apply shows_known in W1, W2.
      split; intros E; split; (apply W1 || apply W2); exact E.
Qed.

(** *** A title left over from before a suppression *)
Lemma stale_title : forall t u v w, t <> [] -> clean t = true -> printable false v = true -> printable false w = true ->
  exists s, one_by_one NullConsole [Title t; Suppress true; Insert v; Title u; Suppress false; Insert w] start = Ok s /\
    buf s = title_column t ++ text false w.
Proof.
  intros t u v w Ht Hc Hv Hw.
  set (q := with_suppressed false (append [] [] (with_suppressed true (with_title t start)))).
  destruct (insertion_text NullConsole w q) as [d [e [s1 [E [W1 [W2 [T [U [V [W N]]]]]]]]]];
    [reflexivity|exact Hw|exact Hc|cbn; unfold INT_MAX; lia|].
  exists (append (d ++ reset_sequence NullConsole) e s1). split.
  - change (obind (obind (insertion NullConsole w q) (fun '(ct, lt, s) => Ok (append ct lt s)))
      (one_by_one NullConsole []) = Ok (append (d ++ reset_sequence NullConsole) e s1)).
    rewrite E. reflexivity.
  - cbn [buf append with_buf]. rewrite W. cbn in W2. rewrite W2, <- padded_title. destruct t; [congruence|reflexivity].
Qed.

Lemma colours_repeat : exists l s xs, NoDup l /\ colour_all l start = Ok (xs, s) /\ ~ NoDup xs.
Proof.
  exists (map lit ["a"; "b"; "c"; "d"; "e"; "f"]%string). eexists. eexists. split.
  - repeat constructor; cbn; intuition discriminate.
  - split; [vm_compute; reflexivity|]. intros H. inversion H as [|x l N1 N2]. apply N1. cbn. tauto.
Qed.
