(** Container lemmas. *)
From Coq Require Import String Ascii ZArith NArith Arith Bool Lia List.
From Verif Require Import Common ListAux StrProofs ContModel.
Import ListNotations.

Section Cont.
  Context {A : Type}.
  Implicit Types (p : A -> bool) (l arr : list A).

  Lemma find_if_le : forall p l, find_if p l <= length l.
  Proof. induction l as [|x l IH]; cbn; [lia|]. destruct (p x); lia. Qed.

  Lemma find_if_spec : forall p l, exists pre post, l = pre ++ post /\ find_if p l = length pre /\
    Forall (fun x => p x = false) pre /\ match post with [] => True | x :: _ => p x = true end.
  Proof.
    induction l as [|x l IH].
    - exists [], []. repeat split; constructor.
    - cbn. destruct (p x) eqn:E.
      + exists [], (x :: l). repeat split; [constructor|exact E].
      + destruct IH as (pre & post & -> & H1 & H2 & H3). exists (x :: pre), post.
        repeat split; [cbn; lia|constructor; assumption|exact H3].
  Qed.

  Lemma put_mid : forall (a : list A) x y b, put (length a) y (a ++ x :: b) = a ++ y :: b.
  Proof. induction a as [|z a IH]; intros; cbn; [reflexivity|]. rewrite IH. reflexivity. Qed.

  Lemma remove_shift_gen : forall p rest kept junk, junk <> [] ->
    exists junk', remove_shift (fun _ => p) (length rest) (length (kept ++ junk)) (length kept)
      (kept ++ junk ++ rest)
      = (length (kept ++ filter (fun x => negb (p x)) rest),
         (kept ++ filter (fun x => negb (p x)) rest) ++ junk').
  Proof.
    intros p. induction rest as [|x rest IH]; intros kept junk Hj.
    - exists junk. cbn. rewrite !app_nil_r. reflexivity.
    - cbn [remove_shift length].
      assert (E : nth_error (kept ++ junk ++ x :: rest) (length (kept ++ junk)) = Some x).
      { rewrite app_assoc, nth_error_app2 by lia. rewrite Nat.sub_diag. reflexivity. }
      rewrite E. cbn [filter]. destruct (p x); cbn [negb].
      + destruct (IH kept (junk ++ [x])) as (j & H); [destruct junk; discriminate|].
        exists j. rewrite app_length in H. rewrite (app_length junk) in H. cbn [length] in H.
        rewrite app_length.
        replace (S (length kept + length junk)) with (length kept + (length junk + 1)) by lia.
        rewrite <- (app_assoc junk [x] rest) in H. cbn [app] in H. exact H.
      + destruct junk as [|z junk]; [contradiction|].
        change (kept ++ (z :: junk) ++ x :: rest) with (kept ++ z :: (junk ++ x :: rest)).
        rewrite put_mid.
        destruct (IH (kept ++ [x]) (junk ++ [x])) as (j & H); [destruct junk; discriminate|].
        exists j. rewrite !app_length in *. cbn [length] in *.
        replace (S (length kept + S (length junk))) with (length kept + 1 + (length junk + 1)) by lia.
        replace (S (length kept)) with (length kept + 1) by lia.
        rewrite <- !app_assoc in H. cbn [app] in H. rewrite H. f_equal; [lia|].
        rewrite <- !app_assoc. reflexivity.
  Qed.

  Lemma filter_all : forall p l, Forall (fun x => p x = false) l -> filter (fun x => negb (p x)) l = l.
  Proof. induction 1 as [|x l H _ IH]; cbn; [reflexivity|]. rewrite H. cbn. rewrite IH. reflexivity. Qed.

  Lemma erase_removed_filter : forall p l, erase_removed (fun _ => p) l = filter (fun x => negb (p x)) l.
  Proof.
    intros p l. unfold erase_removed, std_remove_if.
    destruct (find_if_spec p l) as (pre & post & -> & E & H1 & H2). rewrite E.
    destruct post as [|x post].
    - rewrite app_nil_r, Nat.eqb_refl, firstn_all. symmetry. apply filter_all. assumption.
    - destruct (Nat.eqb_spec (length pre) (length (pre ++ x :: post))) as [K|K].
      { rewrite app_length in K. cbn in K. lia. }
      destruct (remove_shift_gen p post pre [x] ltac:(discriminate)) as (j & R).
      rewrite app_length in R. cbn [length app] in R.
      replace (length (pre ++ x :: post) - S (length pre)) with (length post) by (rewrite app_length; cbn; lia).
      replace (length pre + 1) with (S (length pre)) in R by lia. rewrite R.
      rewrite firstn_app_len. rewrite filter_app. cbn [filter]. rewrite H2. cbn [negb].
      rewrite (filter_all p pre) by assumption. reflexivity.
  Qed.

  Lemma eraseRemoveIf_spec : forall p l, eraseRemoveIf p l = filter (fun x => negb (p x)) l.
  Proof. intros. apply erase_removed_filter. Qed.

  Lemma containsAnyIf_spec : forall p l, containsAnyIf p l = true <-> exists x, In x l /\ p x = true.
  Proof.
    intros p l. unfold containsAnyIf. rewrite negb_true_iff, Nat.eqb_neq.
    destruct (find_if_spec p l) as (pre & post & -> & E & H1 & H2). rewrite E, app_length.
    destruct post as [|x post]; cbn [length].
    - split; [lia|]. intros (y & I & P). rewrite app_nil_r in I. rewrite Forall_forall in H1.
      rewrite (H1 y I) in P. discriminate.
    - split; [|lia]. intros _. exists x. split; [|assumption]. apply in_or_app. right. left. reflexivity.
  Qed.

  Variable eqb : A -> A -> bool.
  Hypothesis eqb_spec : forall x y, eqb x y = true <-> x = y.

  Lemma eraseRemove_spec : forall l v, eraseRemove eqb l v = filter (fun x => negb (eqb x v)) l.
  Proof. intros. apply erase_removed_filter. Qed.

  Lemma idxOf_spec : forall l v,
    (In v l -> exists pre post, l = pre ++ v :: post /\ ~ In v pre /\ idxOf eqb l v = length pre) /\
    (~ In v l -> idxOf eqb l v = length l).
  Proof.
    intros l v. unfold idxOf.
    destruct (find_if_spec (fun x => eqb x v) l) as (pre & post & -> & E & H1 & H2).
    assert (N : ~ In v pre).
    { intros I. rewrite Forall_forall in H1. specialize (H1 v I). cbn in H1.
      assert (eqb v v = true) by (apply eqb_spec; reflexivity). congruence. }
    destruct post as [|x post].
    - rewrite app_nil_r in *. split; [contradiction|intros _; exact E].
    - apply eqb_spec in H2. subst x. split.
      + intros _. exists pre, post. repeat split; assumption.
      + intros K. exfalso. apply K. apply in_or_app. right. left. reflexivity.
  Qed.

  Lemma contains_spec : forall l v, contains eqb l v = true <-> In v l.
  Proof.
    intros l v. unfold contains. rewrite negb_true_iff, Nat.eqb_neq.
    destruct (idxOf_spec l v) as [H1 H2]. split.
    - intros K. destruct (find_if_spec (fun x => eqb x v) l) as (pre & post & E & F & _ & P).
      unfold idxOf in K. rewrite F in K. destruct post as [|x post].
      + rewrite app_nil_r in E. subst. lia.
      + apply eqb_spec in P. subst. apply in_or_app. right. left. reflexivity.
    - intros I. destruct (H1 I) as (pre & post & -> & _ & ->). rewrite app_length. cbn. lia.
  Qed.

  Lemma containsAnyOf_spec : forall l vs, containsAnyOf eqb l vs = true <-> exists v, In v vs /\ In v l.
  Proof.
    intros l. induction vs as [|v vs IH]; cbn.
    - split; [discriminate|intros (v & [] & _)].
    - destruct (contains eqb l v) eqn:E.
      + split; [|reflexivity]. intros _. exists v. apply contains_spec in E. auto.
      + rewrite IH. split.
        * intros (w & I & J). exists w. auto.
        * intros (w & [->|I] & J); [|exists w; auto]. apply contains_spec in J. congruence.
  Qed.

  Lemma containsAllOf_spec : forall l vs, containsAllOf eqb l vs = true <-> forall v, In v vs -> In v l.
  Proof.
    intros l. induction vs as [|v vs IH]; cbn.
    - split; [intros _ v []|reflexivity].
    - destruct (contains eqb l v) eqn:E; cbn.
      + rewrite IH. split; [|auto]. intros H w [<-|I]; [apply contains_spec; exact E|auto].
      + split; [discriminate|]. intros H. specialize (H v (or_introl eq_refl)). apply contains_spec in H. congruence.
  Qed.
End Cont.

Section Trim.
  Context {A : Type}.
  Implicit Types (p : A -> bool) (l : list A).

  Lemma trimL_spec : forall p l, exists pre, l = pre ++ trimL p l /\ Forall (fun x => p x = true) pre /\
    match trimL p l with [] => True | x :: _ => p x = false end.
  Proof.
    intros p l. unfold trimL.
    destruct (find_if_spec (fun x => negb (p x)) l) as (pre & post & -> & E & H1 & H2).
    rewrite E, skipn_app_len. exists pre. split; [reflexivity|]. split.
    - eapply Forall_impl; [|exact H1]. intros x Hx. apply negb_false_iff. exact Hx.
    - destruct post; [exact I|]. apply negb_true_iff. exact H2.
  Qed.

  Lemma trimR_rev : forall p l, trimR p l = rev (trimL p (rev l)).
  Proof.
    intros p l. unfold trimR, trimL. set (k := find_if _ (rev l)).
    rewrite <- (rev_involutive l) at 2. rewrite firstn_rev, rev_length.
    pose proof (find_if_le (fun x => negb (p x)) (rev l)) as H. fold k in H. rewrite rev_length in H.
    replace (length l - (length l - k)) with k by lia. reflexivity.
  Qed.

  Lemma trimR_spec : forall p l, exists post, l = trimR p l ++ post /\ Forall (fun x => p x = true) post /\
    match rev (trimR p l) with [] => True | x :: _ => p x = false end.
  Proof.
    intros p l. rewrite trimR_rev, rev_involutive.
    destruct (trimL_spec p (rev l)) as (pre & E & H1 & H2). exists (rev pre). split; [|split].
    - apply (f_equal (@rev A)) in E. rewrite rev_involutive, rev_app_distr in E. exact E.
    - apply Forall_rev. assumption.
    - exact H2.
  Qed.

  Lemma trimL_fix : forall p l, match l with [] => True | x :: _ => p x = false end -> trimL p l = l.
  Proof. intros p [|x l] H; [reflexivity|]. unfold trimL. cbn. rewrite H. reflexivity. Qed.

  Lemma trimR_head : forall p l, match l with [] => True | x :: _ => p x = false end ->
    match trimR p l with [] => True | x :: _ => p x = false end.
  Proof.
    intros p l H. destruct (trimR_spec p l) as (post & E & _ & _).
    destruct (trimR p l) as [|x r]; [exact I|]. destruct l as [|y l]; [discriminate|].
    cbn in E. injection E as -> _. exact H.
  Qed.

  Lemma trimR_fix : forall p l, match rev l with [] => True | x :: _ => p x = false end -> trimR p l = l.
  Proof. intros p l H. rewrite trimR_rev, trimL_fix by assumption. apply rev_involutive. Qed.

  Lemma trimLR_spec : forall p l, exists pre post, l = pre ++ trimLR p l ++ post /\
    Forall (fun x => p x = true) pre /\ Forall (fun x => p x = true) post /\
    match trimLR p l with [] => True | x :: _ => p x = false end /\
    match rev (trimLR p l) with [] => True | x :: _ => p x = false end.
  Proof.
    intros p l. unfold trimLR.
    destruct (trimL_spec p l) as (pre & E & H1 & H2).
    destruct (trimR_spec p (trimL p l)) as (post & E' & H3 & H4).
    exists pre, post. rewrite <- E'. repeat split; try assumption. apply trimR_head. exact H2.
  Qed.

  Lemma trim_idem : forall p l, trimL p (trimL p l) = trimL p l /\ trimR p (trimR p l) = trimR p l /\
    trimLR p (trimLR p l) = trimLR p l.
  Proof.
    intros p l. split; [|split].
    - apply trimL_fix. destruct (trimL_spec p l) as (? & _ & _ & H). exact H.
    - apply trimR_fix. destruct (trimR_spec p l) as (? & _ & _ & H). exact H.
    - destruct (trimLR_spec p l) as (? & ? & _ & _ & _ & H1 & H2). 
      unfold trimLR at 1. rewrite (trimL_fix p (trimLR p l)) by exact H1. apply trimR_fix. exact H2.
  Qed.
End Trim.

Lemma getKeys_spec : forall K V (m : list (K * V)), length (getKeys m) = length m /\ forall i, nth_error (getKeys m) i = option_map fst (nth_error m i).
Proof.
  assert (G : forall K V (m : list (K * V)) r, fold_left (fun result p => result ++ [fst p]) m r = r ++ map fst m).
  { intros K V m. induction m as [|x m IH]; intros r; cbn [fold_left map]; [symmetry; apply app_nil_r|]. rewrite IH, <- app_assoc. reflexivity. }
  intros K V m. unfold getKeys. rewrite G. cbn [app]. split; [apply map_length|]. intros i. apply nth_error_map.
Qed.
