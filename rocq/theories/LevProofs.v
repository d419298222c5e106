(** Levenshtein distance lemmas. *)
From Coq Require Import String Ascii ZArith NArith Arith Bool Lia List.
From Verif Require Import Common ListAux LevModel LevSpec.
Import ListNotations.

(** Alignments. *)
Inductive al : nat -> bytes -> bytes -> Prop :=
| al_nil : al 0 [] []
| al_match : forall k c a b, al k a b -> al k (c :: a) (c :: b)
| al_sub : forall k c d a b, al k a b -> al (S k) (c :: a) (d :: b)
| al_ins : forall k d a b, al k a b -> al (S k) a (d :: b)
| al_del : forall k c a b, al k a b -> al (S k) (c :: a) b.

Lemma al_refl : forall a, al 0 a a.
Proof. induction a; constructor; assumption. Qed.

Lemma al_sym : forall k a b, al k a b -> al k b a.
Proof. induction 1; constructor; assumption. Qed.

Lemma al_app : forall k a b k' a' b', al k a b -> al k' a' b' -> al (k + k') (a ++ a') (b ++ b').
Proof. induction 1; intros H'; cbn; try constructor; auto. Qed.

Lemma al_rev : forall k a b, al k a b -> al k (rev a) (rev b).
Proof.
  induction 1; cbn [rev].
  - constructor.
  - replace k with (k + 0) by lia. apply al_app; [assumption|apply al_refl].
  - replace (S k) with (k + 1) by lia. apply al_app; [assumption|]. constructor. constructor.
  - replace (S k) with (k + 1) by lia. rewrite <- (app_nil_r (rev a)).
    apply al_app; [assumption|]. constructor. constructor.
  - replace (S k) with (k + 1) by lia. rewrite <- (app_nil_r (rev b)).
    apply al_app; [assumption|]. constructor. constructor.
Qed.

Lemma edit_cons : forall x a b, edit a b -> edit (x :: a) (x :: b).
Proof.
  intros x a b H. destruct H as [p c q|p c q|p c d q].
  - apply (edit_ins (x :: p)).
  - apply (edit_del (x :: p)).
  - apply (edit_sub (x :: p)).
Qed.

Lemma edits_cons_char : forall x k a b, edits k a b -> edits k (x :: a) (x :: b).
Proof. induction 1; econstructor; eauto using edit_cons. Qed.

Lemma edits_app : forall j a b k c, edits j a b -> edits k b c -> edits (j + k) a c.
Proof. induction 1; intros H'; cbn; [assumption|]. econstructor; eauto. Qed.

Lemma edit_sym : forall a b, edit a b -> edit b a.
Proof. intros a b H. destruct H; constructor. Qed.

Lemma edits_sym : forall k a b, edits k a b -> edits k b a.
Proof.
  induction 1 as [|k a b c H1 H2 IH]; [constructor|].
  replace (S k) with (k + 1) by lia. eapply edits_app; [exact IH|].
  econstructor; [apply edit_sym; exact H1|constructor].
Qed.

Lemma al_edits : forall k a b, al k a b -> edits k a b.
Proof.
  induction 1.
  - constructor.
  - apply edits_cons_char. assumption.
  - econstructor; [apply (edit_sub [] c d a)|]. apply edits_cons_char. assumption.
  - econstructor; [apply (edit_ins [] d a)|]. apply edits_cons_char. assumption.
  - econstructor; [apply (edit_del [] c a)|]. assumption.
Qed.

(** Composing an alignment with one edit. *)
Lemma al_le : forall P k, (exists k', k' <= k /\ al k' (fst P) (snd P)) ->
  exists k', k' <= S k /\ al k' (fst P) (snd P).
Proof. intros P k (k' & H & H1). exists k'. split; [lia|assumption]. Qed.

Lemma al_del1 : forall k a b', al k a b' -> forall p c q, b' = p ++ c :: q ->
  exists k', k' <= S k /\ al k' a (p ++ q).
Proof.
  induction 1; intros p c0 q E.
  - destruct p; discriminate.
  - destruct p as [|x p]; cbn in E; injection E as -> ->.
    + exists (S k). split; [lia|]. cbn. constructor. assumption.
    + destruct (IHal p c0 q eq_refl) as (k' & L & A). exists k'. split; [lia|]. cbn. constructor. assumption.
  - destruct p as [|x p]; cbn in E; injection E as -> ->.
    + exists (S k). split; [lia|]. cbn. constructor. assumption.
    + destruct (IHal p c0 q eq_refl) as (k' & L & A). exists (S k'). split; [lia|]. cbn. constructor. assumption.
  - destruct p as [|x p]; cbn in E; injection E as -> ->.
    + exists k. split; [lia|]. cbn. assumption.
    + destruct (IHal p c0 q eq_refl) as (k' & L & A). exists (S k'). split; [lia|]. cbn. constructor. assumption.
  - destruct (IHal p c0 q E) as (k' & L & A). exists (S k'). split; [lia|]. constructor. assumption.
Qed.

Lemma al_ins1 : forall k a b', al k a b' -> forall p c q, b' = p ++ q ->
  exists k', k' <= S k /\ al k' a (p ++ c :: q).
Proof.
  intros k a b' H p. revert k a b' H. 
  induction p as [|x p IH]; intros k a b' H c q E; cbn in *.
  - subst. exists (S k). split; [lia|]. apply al_ins. assumption.
  - subst b'. remember (x :: p ++ q) as b eqn:E. revert x p q E IH.
    induction H; intros x p q E IH; try discriminate.
    + injection E as <- ->. destruct (IH k a (p ++ q) H c q eq_refl) as (k' & L & A).
      exists k'. split; [lia|]. apply al_match. assumption.
    + injection E as <- ->. destruct (IH k a (p ++ q) H c q eq_refl) as (k' & L & A).
      exists (S k'). split; [lia|]. apply al_sub. assumption.
    + injection E as <- ->. destruct (IH k a (p ++ q) H c q eq_refl) as (k' & L & A).
      exists (S k'). split; [lia|]. apply al_ins. assumption.
    + destruct (IHal x p q E IH) as (k' & L & A).
      exists (S k'). split; [lia|]. apply al_del. assumption.
Qed.

Lemma al_sub1 : forall k a b', al k a b' -> forall p c d q, b' = p ++ c :: q ->
  exists k', k' <= S k /\ al k' a (p ++ d :: q).
Proof.
  induction 1; intros p c0 d0 q E.
  - destruct p; discriminate.
  - destruct p as [|x p]; cbn in E; injection E as -> ->.
    + exists (S k). split; [lia|]. cbn. constructor. assumption.
    + destruct (IHal p c0 d0 q eq_refl) as (k' & L & A). exists k'. split; [lia|]. cbn. constructor. assumption.
  - destruct p as [|x p]; cbn in E; injection E as -> ->.
    + exists (S k). split; [lia|]. cbn. constructor. assumption.
    + destruct (IHal p c0 d0 q eq_refl) as (k' & L & A). exists (S k'). split; [lia|]. cbn. constructor. assumption.
  - destruct p as [|x p]; cbn in E; injection E as -> ->.
    + exists (S k). split; [lia|]. cbn. constructor. assumption.
    + destruct (IHal p c0 d0 q eq_refl) as (k' & L & A). exists (S k'). split; [lia|]. cbn. constructor. assumption.
  - destruct (IHal p c0 d0 q E) as (k' & L & A). exists (S k'). split; [lia|]. constructor. assumption.
Qed.

Lemma al_edit : forall k a b c, al k a b -> edit b c -> exists k', k' <= S k /\ al k' a c.
Proof.
  intros k a b c H E. destruct E.
  - eapply al_ins1; [exact H|reflexivity].
  - eapply al_del1; [exact H|reflexivity].
  - eapply al_sub1; [exact H|reflexivity].
Qed.

Lemma al_edits_le : forall n b c, edits n b c -> forall k a0, al k a0 b -> exists k', k' <= k + n /\ al k' a0 c.
Proof.
  induction 1 as [|n b b' c H1 H2 IH]; intros k a0 H.
  - exists k. split; [lia|assumption].
  - destruct (al_edit k a0 b b' H H1) as (k' & L & A).
    destruct (IH k' a0 A) as (k'' & L' & A'). exists k''. split; [lia|assumption].
Qed.

Lemma edits_al : forall n a b, edits n a b -> exists k, k <= n /\ al k a b.
Proof. intros n a b H. apply (al_edits_le n a b H 0 a). apply al_refl. Qed.

(** The recurrence. *)
Fixpoint D (x : bytes) : bytes -> nat :=
  fix Dy (y : bytes) : nat :=
    match x, y with
    | [], _ => length y
    | _, [] => length x
    | c :: x', d :: y' =>
        if Ascii.eqb c d then D x' y' else S (Nat.min (Dy y') (Nat.min (D x' y) (D x' y')))
    end.

Lemma D_nil_l : forall y, D [] y = length y.
Proof. destruct y; reflexivity. Qed.
Lemma D_nil_r : forall x, D x [] = length x.
Proof. destruct x; reflexivity. Qed.
Lemma D_cons : forall c x d y, D (c :: x) (d :: y) =
  if Ascii.eqb c d then D x y else S (Nat.min (D (c :: x) y) (Nat.min (D x (d :: y)) (D x y))).
Proof. reflexivity. Qed.

Lemma al_all_ins : forall y, al (length y) [] y.
Proof. induction y; cbn; constructor; assumption. Qed.

Lemma D_al : forall x y, al (D x y) x y.
Proof.
  induction x as [|c x IHx]; intros y.
  - rewrite D_nil_l. apply al_all_ins.
  - induction y as [|d y IHy].
    + rewrite D_nil_r. apply al_sym. apply al_all_ins.
    + rewrite D_cons. destruct (Ascii.eqb_spec c d) as [->|N].
      * constructor. apply IHx.
      * destruct (Nat.min_spec (D (c :: x) y) (Nat.min (D x (d :: y)) (D x y))) as [[_ ->]|[_ ->]].
        { apply al_ins. assumption. }
        destruct (Nat.min_spec (D x (d :: y)) (D x y)) as [[_ ->]|[_ ->]]; [apply al_del|apply al_sub]; apply IHx.
Qed.

Lemma al_len : forall k a b, al k a b -> length b <= length a + k /\ length a <= length b + k.
Proof. induction 1; cbn; lia. Qed.

Lemma D_min : forall x y k, al k x y -> D x y <= k.
Proof.
  induction x as [|c x IHx]; intros y k H.
  - rewrite D_nil_l. apply al_len in H. cbn in H. lia.
  - revert k H. induction y as [|d y IHy]; intros k H.
    + rewrite D_nil_r. apply al_len in H. cbn in *. lia.
    + rewrite D_cons. destruct (Ascii.eqb_spec c d) as [->|N].
      * inversion H as [|k' c' a' b' H'|k' c' d' a' b' H'|k' d' a' b' H'|k' c' a' b' H']; subst.
        { apply IHx. assumption. }
        { apply IHx in H'. lia. }
        { apply al_sym in H'. destruct (al_del1 _ _ _ H' [] d x eq_refl) as (k'' & L & A).
          cbn [app] in A. apply al_sym in A. apply IHx in A. lia. }
        { destruct (al_del1 _ _ _ H' [] d y eq_refl) as (k'' & L & A).
          cbn [app] in A. apply IHx in A. lia. }
      * inversion H as [|k' c' a' b' H'|k' c' d' a' b' H'|k' d' a' b' H'|k' c' a' b' H']; subst.
        { contradiction. }
        { apply IHx in H'. lia. }
        { apply IHy in H'. lia. }
        { apply IHx in H'. lia. }
Qed.

(** The table. *)
Fixpoint rowF (x y bs : bytes) : list nat :=
  match bs with
  | [] => []
  | d :: bs' => D x (d :: y) :: rowF x (d :: y) bs'
  end.

Lemma set_nth_app : forall A (l : list A) v r w, set_nth (length l) w (l ++ v :: r) = Some (l ++ w :: r).
Proof. induction l as [|x l IH]; intros; cbn; [reflexivity|]. rewrite IH. reflexivity. Qed.

Lemma nth_error_mid : forall A (l : list A) v r, nth_error (l ++ v :: r) (length l) = Some v.
Proof. intros. rewrite nth_error_app2 by lia. replace (length l - length l) with 0 by lia. reflexivity. Qed.

Lemma inner_row : forall a x bs y done,
  lev_inner a bs (length done) (D x y) (done ++ D (a :: x) y :: rowF x y bs)
  = Ok (done ++ D (a :: x) y :: rowF (a :: x) y bs).
Proof.
  induction bs as [|b bs IH]; intros y done; [reflexivity|].
  cbn [lev_inner rowF].
  assert (L : length (done ++ [D (a :: x) y]) = length done + 1) by (rewrite app_length; reflexivity).
  assert (E1 : nth_error (done ++ D (a :: x) y :: D x (b :: y) :: rowF x (b :: y) bs) (length done + 1)
               = Some (D x (b :: y))).
  { rewrite <- L. change (D (a :: x) y :: D x (b :: y) :: rowF x (b :: y) bs)
      with ([D (a :: x) y] ++ D x (b :: y) :: rowF x (b :: y) bs). rewrite app_assoc. apply nth_error_mid. }
  rewrite E1, nth_error_mid.
  set (v := if Ascii.eqb a b then _ else _).
  assert (Ev : v = D (a :: x) (b :: y)).
  { unfold v. rewrite D_cons. destruct (Ascii.eqb a b); [reflexivity|].
    destruct (Nat.ltb_spec (D x (b :: y)) (D x y)); 
    match goal with |- context [?p <? ?q] => destruct (Nat.ltb_spec p q) end; lia. }
  assert (E2 : set_nth (length done + 1) v (done ++ D (a :: x) y :: D x (b :: y) :: rowF x (b :: y) bs)
     = Some ((done ++ [D (a :: x) y]) ++ D (a :: x) (b :: y) :: rowF x (b :: y) bs)).
  { rewrite <- L, Ev. change (D (a :: x) y :: D x (b :: y) :: rowF x (b :: y) bs)
      with ([D (a :: x) y] ++ D x (b :: y) :: rowF x (b :: y) bs). rewrite app_assoc. apply set_nth_app. }
  rewrite E2, <- L, IH, <- app_assoc. reflexivity.
Qed.

Lemma outer_row : forall as_ bs x,
  lev_outer as_ bs (length x) (D x [] :: rowF x [] bs)
  = Ok (D (rev as_ ++ x) [] :: rowF (rev as_ ++ x) [] bs).
Proof.
  induction as_ as [|a as_ IH]; intros bs x; [reflexivity|].
  cbn [lev_outer set_nth].
  replace (length x + 1) with (length (a :: x)) by (cbn; lia).
  pose proof (inner_row a x bs [] []) as H. cbn [length app] in H.
  rewrite !D_nil_r in H. rewrite H. cbn [obind].
  pose proof (IH bs (a :: x)) as K. rewrite (D_nil_r (a :: x)) in K. rewrite K. cbn [rev]. rewrite <- app_assoc. reflexivity.
Qed.

Lemma rowF_seq : forall bs y, rowF [] y bs = seq (S (length y)) (length bs).
Proof.
  induction bs as [|b bs IH]; intros y; [reflexivity|]. cbn [rowF length seq].
  rewrite IH. reflexivity.
Qed.

Lemma rowF_last : forall x bs y, nth_error (D x y :: rowF x y bs) (length bs) = Some (D x (rev bs ++ y)).
Proof.
  induction bs as [|b bs IH]; intros y; [reflexivity|]. cbn [rowF length rev].
  change (nth_error (D x y :: ?l) (S ?n)) with (nth_error l n). rewrite <- app_assoc. apply IH.
Qed.

Lemma lev_D : forall a b, getDistLevenshtein a b = Ok (D (rev a) (rev b)).
Proof.
  intros a b. unfold getDistLevenshtein.
  destruct (Nat.eqb_spec (length a) 0) as [Ea|Ea].
  { destruct a; [|discriminate]. cbn [rev]. rewrite D_nil_l, rev_length. reflexivity. }
  destruct (Nat.eqb_spec (length b) 0) as [Eb|Eb].
  { destruct b; [|discriminate]. cbn [rev]. rewrite D_nil_r, rev_length. reflexivity. }
  replace (seq 0 (length b + 1)) with (D [] [] :: rowF [] [] b).
  2:{ rewrite rowF_seq, Nat.add_comm. reflexivity. }
  pose proof (outer_row a b []) as R. cbn [length] in R. rewrite R. cbn [obind]. rewrite rowF_last, !app_nil_r. reflexivity.
Qed.

Lemma lev_exact : forall a b, exists d, getDistLevenshtein a b = Ok d /\
  edits d a b /\ forall k, edits k a b -> d <= k.
Proof.
  intros a b. exists (D (rev a) (rev b)). split; [apply lev_D|]. split.
  - apply al_edits. rewrite <- (rev_involutive a), <- (rev_involutive b) at 1. 
    rewrite <- (rev_involutive a) at 2. rewrite <- (rev_involutive b) at 2.
    apply al_rev. rewrite !rev_involutive. apply D_al.
  - intros k H. apply edits_al in H. destruct H as (k' & L & A). apply al_rev in A.
    apply D_min in A. lia.
Qed.

Lemma edits_zero : forall a b, edits 0 a b -> a = b.
Proof. intros a b H. inversion H. reflexivity. Qed.

Lemma edits_len : forall k a b, edits k a b -> length b <= length a + k /\ length a <= length b + k.
Proof.
  intros k a b H. apply edits_al in H. destruct H as (k' & L & A). apply al_len in A. lia.
Qed.

Lemma al_max : forall a b, exists k, k <= Nat.max (length a) (length b) /\ al k a b.
Proof.
  induction a as [|c a IH]; intros b.
  - exists (length b). split; [cbn; lia|apply al_all_ins].
  - destruct b as [|d b].
    + exists (length (c :: a)). split; [cbn; lia|]. apply al_sym. apply al_all_ins.
    + destruct (IH b) as (k & L & A). exists (S k). split; [cbn; lia|]. constructor. assumption.
Qed.

Lemma lev_metric : forall a b c dab dba dbc dac,
  getDistLevenshtein a b = Ok dab -> getDistLevenshtein b a = Ok dba ->
  getDistLevenshtein b c = Ok dbc -> getDistLevenshtein a c = Ok dac ->
  (dab = 0 <-> a = b) /\ dab = dba /\ dac <= dab + dbc /\
  dab <= Nat.max (length a) (length b) /\
  length a - length b <= dab /\ length b - length a <= dab.
Proof.
  intros a b c dab dba dbc dac H1 H2 H3 H4.
  destruct (lev_exact a b) as (d1 & E1 & X1 & Y1). rewrite H1 in E1. injection E1 as <-.
  destruct (lev_exact b a) as (d2 & E2 & X2 & Y2). rewrite H2 in E2. injection E2 as <-.
  destruct (lev_exact b c) as (d3 & E3 & X3 & Y3). rewrite H3 in E3. injection E3 as <-.
  destruct (lev_exact a c) as (d4 & E4 & X4 & Y4). rewrite H4 in E4. injection E4 as <-.
  pose proof (edits_len _ _ _ X1).
  repeat split.
  - intros ->. apply edits_zero. assumption.
  - intros ->. specialize (Y1 0 (edits_nil _)). lia.
  - pose proof (Y1 _ (edits_sym _ _ _ X2)). pose proof (Y2 _ (edits_sym _ _ _ X1)). lia.
  - apply Y4. eapply edits_app; eassumption.
  - destruct (al_max a b) as (k & L & A). apply al_edits in A. apply Y1 in A. lia.
  - lia.
  - lia.
Qed.
