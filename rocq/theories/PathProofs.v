(** Lemmas on path texts. *)
From Coq Require Import String Ascii ZArith NArith Arith Bool Lia List Sorted Permutation.
Import ListNotations.
From Verif Require Import Common StrModel StrProofs StrProps PathModel PathSpec.
Local Open Scope char_scope.
Local Open Scope nat_scope.

Lemma eqb_t : forall c d, Ascii.eqb c d = true -> c = d.
Proof. intros c d H. now apply Ascii.eqb_eq. Qed.
Lemma eqb_f : forall c d, Ascii.eqb c d = false -> c <> d.
Proof. intros c d H. now apply Ascii.eqb_neq. Qed.
Lemma eqb_neq' : forall c d, c <> d -> Ascii.eqb c d = false.
Proof. intros c d H. now apply Ascii.eqb_neq. Qed.

(** ** Squeezing runs of slashes *)
Fixpoint collapse (s : bytes) : bytes :=
  match s with
  | [] => []
  | c :: r =>
      if Ascii.eqb c slash then
        match r with
        | d :: _ => if Ascii.eqb d slash then collapse r else c :: collapse r
        | [] => [c]
        end
      else c :: collapse r
  end.

Lemma collapse_eq : forall c r, collapse (c :: r) =
  if Ascii.eqb c slash then
    match r with
    | d :: _ => if Ascii.eqb d slash then collapse r else c :: collapse r
    | [] => [c]
    end
  else c :: collapse r.
Proof. reflexivity. Qed.

Lemma nth_app0 : forall (d s : bytes), nth_error (d ++ s) (length d) = nth_error s 0.
Proof. intros. rewrite nth_error_app2 by lia. now rewrite Nat.sub_diag. Qed.

Lemma run_split : forall s, exists k r, s = repeat slash k ++ r /\
  (forall c r', r = c :: r' -> Ascii.eqb c slash = false).
Proof.
  induction s as [|c s (k & r & E & H)].
  - exists 0, []. split; [reflexivity|discriminate].
  - destruct (Ascii.eqb c slash) eqn:C.
    + exists (S k), r. split; [|exact H]. apply eqb_t in C. subst. reflexivity.
    + exists 0, (c :: s). split; [reflexivity|]. intros c0 r' E0. injection E0 as <- <-. exact C.
Qed.

Lemma skip_slashes_run : forall k d r fuel, k < fuel ->
  (forall c r', r = c :: r' -> Ascii.eqb c slash = false) ->
  skip_slashes (d ++ repeat slash k ++ r) fuel (length d) = Ok (length d + k).
Proof.
  induction k as [|k IH]; intros d r fuel F H; (destruct fuel as [|fuel]; [lia|]); cbn [skip_slashes].
  - cbn [repeat app]. rewrite nth_app0. destruct r as [|c r]; cbn [nth_error].
    + now rewrite Nat.add_0_r.
    + rewrite (H c r eq_refl). now rewrite Nat.add_0_r.
  - rewrite nth_app0. cbn [repeat app nth_error]. rewrite Ascii.eqb_refl.
    replace (d ++ slash :: repeat slash k ++ r) with ((d ++ [slash]) ++ repeat slash k ++ r)
      by (now rewrite <- app_assoc).
    replace (S (length d)) with (length (d ++ [slash])) by (rewrite app_length; cbn; lia).
    rewrite IH by (try lia; exact H). f_equal. rewrite app_length. cbn. lia.
Qed.

Lemma collapse_run : forall k r, (forall c r', r = c :: r' -> Ascii.eqb c slash = false) ->
  collapse (repeat slash (S k) ++ r) = slash :: collapse r.
Proof.
  induction k as [|k IH]; intros r H.
  - cbn [repeat app collapse]. rewrite Ascii.eqb_refl. destruct r as [|c r]; [reflexivity|].
    now rewrite (H c r eq_refl).
  - change (repeat slash (S (S k)) ++ r) with (slash :: (slash :: repeat slash k ++ r)).
    cbn [collapse]. rewrite Ascii.eqb_refl. apply (IH r H).
Qed.

Lemma erase_run : forall d k r, erase (d ++ repeat slash (S k) ++ r) (length d) k = d ++ slash :: r.
Proof.
  intros. unfold erase. rewrite firstn_app_len. f_equal.
  rewrite skipn_app. rewrite skipn_all2 by lia. cbn [app].
  replace (length d + k - length d) with k by lia.
  replace (repeat slash (S k) ++ r) with (repeat slash k ++ slash :: r).
  - pose proof (skipn_app_len _ (repeat slash k) (slash :: r)) as E. rewrite repeat_length in E. exact E.
  - clear d. induction k as [|k IH]; [reflexivity|]. cbn [repeat app]. f_equal. exact IH.
Qed.

Lemma squeeze_collapse : forall fuel s d, length s < fuel ->
  squeeze (d ++ s) fuel (length d) = Ok (d ++ collapse s).
Proof.
  induction fuel as [|fuel IH]; intros s d F; [lia|]. cbn [squeeze]. rewrite nth_app0.
  destruct s as [|c s]; cbn [nth_error].
  - reflexivity.
  - destruct (Ascii.eqb c slash) eqn:C.
    + apply eqb_t in C. subst c.
      destruct (run_split (slash :: s)) as (k & r & E & H).
      destruct k as [|k]; [cbn in E; subst r; discriminate (H slash s eq_refl)|].
      rewrite E. rewrite (skip_slashes_run (S k) d r) by
        (try exact H; rewrite !app_length, repeat_length; lia).
      cbn [obind]. replace (length d + S k - length d - 1) with k by lia.
      rewrite erase_run, (collapse_run k r H).
      replace (d ++ slash :: r) with ((d ++ [slash]) ++ r) by (now rewrite <- app_assoc).
      replace (S (length d)) with (length (d ++ [slash])) by (rewrite app_length; cbn; lia).
      rewrite IH.
      * now rewrite <- app_assoc.
      * apply (f_equal (@length _)) in E. rewrite app_length, repeat_length in E. cbn in E, F. lia.
    + replace (d ++ c :: s) with ((d ++ [c]) ++ s) by (now rewrite <- app_assoc).
      replace (S (length d)) with (length (d ++ [c])) by (rewrite app_length; cbn; lia).
      rewrite IH by (cbn in F; lia). cbn [collapse]. rewrite C. now rewrite <- app_assoc.
Qed.

Definition unback (s : bytes) : bytes := map (fun c => if Ascii.eqb c backslash then slash else c) s.

Lemma ends_slash_spec : forall s, endsWith s [slash] = Ok (match rev s with c :: _ => Ascii.eqb c slash | [] => false end).
Proof.
  intros s. destruct (C19_endsWith s [slash]) as (b & -> & H). f_equal.
  destruct s as [|c s _] using rev_ind.
  - destruct b; [|reflexivity]. destruct (proj1 H eq_refl) as [t E]. destruct t; discriminate.
  - rewrite rev_app_distr. cbn. destruct (Ascii.eqb c slash) eqn:C.
    + apply H. apply eqb_t in C. subst. now exists s.
    + destruct b; [|reflexivity]. destruct (proj1 H eq_refl) as [t E].
      apply app_inj_tail in E. destruct E as [_ ->]. discriminate.
Qed.

Definition ends_slash (s : bytes) : bool := match rev s with c :: _ => Ascii.eqb c slash | [] => false end.

Lemma normalText_eq : forall stat s, normalText stat s =
  Ok (let t := collapse (unback s) in if negb (ends_slash t) && existsFolder stat t then t ++ [slash] else t).
Proof.
  intros. unfold normalText. fold (unback s).
  pose proof (squeeze_collapse (S (length (unback s))) (unback s) [] ltac:(lia)) as E.
  cbn [app length] in E. rewrite E. cbn [obind]. rewrite ends_slash_spec. reflexivity.
Qed.

(** ** Cleanliness *)
Lemma unback_no : forall s, ~ In backslash (unback s).
Proof.
  intros s H. apply in_map_iff in H. destruct H as (c & E & _).
  destruct (Ascii.eqb c backslash) eqn:C; [discriminate|]. apply eqb_f in C. now subst.
Qed.
Lemma collapse_in : forall s c, In c (collapse s) -> In c s.
Proof.
  induction s as [|d s IH]; intros c H; [exact H|]. cbn [collapse] in H.
  destruct (Ascii.eqb d slash).
  - destruct s as [|e s]; [exact H|]. destruct (Ascii.eqb e slash).
    + right. now apply IH.
    + destruct H as [H|H]; [now left|right; now apply IH].
  - destruct H as [H|H]; [now left|right; now apply IH].
Qed.
Lemma collapse_hd : forall s, hd_error (collapse s) = hd_error s.
Proof.
  induction s as [|d s IH]; [reflexivity|]. cbn [collapse]. destruct (Ascii.eqb d slash) eqn:D; [|reflexivity].
  destruct s as [|e s]; [reflexivity|]. destruct (Ascii.eqb e slash) eqn:E; [|reflexivity].
  rewrite IH. cbn. apply eqb_t in D, E. now subst.
Qed.

(** No two slashes in a row, structurally. *)
Fixpoint nodd (s : bytes) : bool :=
  match s with
  | c :: r => negb (Ascii.eqb c slash && match r with d :: _ => Ascii.eqb d slash | [] => false end) && nodd r
  | [] => true
  end.
Lemma nodd_spec : forall s, nodd s = true <-> forall a b, s <> a ++ "/" :: "/" :: b.
Proof.
  induction s as [|c s IH].
  - split; [|reflexivity]. intros _ a b H. destruct a; discriminate.
  - cbn [nodd]. rewrite andb_true_iff, IH, negb_true_iff. split.
    + intros [H1 H2] a b E. destruct a as [|x a].
      * injection E as -> ->. cbn in H1. discriminate.
      * injection E as -> ->. now apply (H2 a b).
    + intros H. split.
      * destruct (Ascii.eqb c slash) eqn:C; [|reflexivity]. destruct s as [|d s]; [reflexivity|].
        destruct (Ascii.eqb d slash) eqn:D; [|reflexivity]. apply eqb_t in C, D. subst.
        exfalso. now apply (H [] s).
      * intros a b E. apply (H (c :: a) b). now rewrite E.
Qed.
Lemma nodd_collapse : forall s, nodd (collapse s) = true.
Proof.
  induction s as [|c s IH]; [reflexivity|]. cbn [collapse]. destruct (Ascii.eqb c slash) eqn:C.
  - destruct s as [|d s]; [cbn; rewrite C; reflexivity|]. destruct (Ascii.eqb d slash) eqn:D; [exact IH|].
    cbn [nodd]. rewrite IH, andb_true_r. pose proof (collapse_hd (d :: s)) as H.
    destruct (collapse (d :: s)) as [|x xs]; [now rewrite andb_false_r|]. injection H as ->.
    now rewrite D, andb_false_r.
  - cbn [nodd]. now rewrite C, IH.
Qed.
Lemma nodd_id : forall s, nodd s = true -> collapse s = s.
Proof.
  induction s as [|c s IH]; intros H; [reflexivity|]. cbn [nodd] in H. apply andb_true_iff in H. destruct H as [H1 H2].
  cbn [collapse]. rewrite (IH H2). destruct (Ascii.eqb c slash); [|reflexivity].
  destruct s as [|d s]; [reflexivity|]. destruct (Ascii.eqb d slash); [discriminate|reflexivity].
Qed.
Lemma unback_id : forall s, ~ In backslash s -> unback s = s.
Proof.
  induction s as [|c s IH]; intros H; [reflexivity|]. cbn. rewrite eqb_neq' by (intros ->; apply H; now left).
  f_equal. apply IH. intros K. apply H. now right.
Qed.
Lemma clean_fix : forall s, clean s -> collapse (unback s) = s.
Proof. intros s [H1 H2]. rewrite unback_id by exact H1. apply nodd_id. now apply nodd_spec. Qed.
Lemma collapse_clean : forall s, clean (collapse (unback s)).
Proof.
  intros s. split.
  - intros H. apply collapse_in in H. exact (unback_no _ H).
  - apply nodd_spec. apply nodd_collapse.
Qed.
Lemma ends_slash_app : forall s, ends_slash (s ++ [slash]) = true.
Proof. intros. unfold ends_slash. rewrite rev_app_distr. reflexivity. Qed.
Lemma ends_slash_true : forall s, ends_slash s = true -> exists t, s = t ++ [slash].
Proof.
  intros s H. destruct s as [|c s _] using rev_ind; [discriminate|]. unfold ends_slash in H.
  rewrite rev_app_distr in H. cbn in H. apply eqb_t in H. subst. now exists s.
Qed.
Lemma clean_snoc : forall s, clean s -> ends_slash s = false -> clean (s ++ [slash]).
Proof.
  intros s [H1 H2] E. split.
  - intros H. apply in_app_or in H. destruct H as [H|[H|[]]]; [exact (H1 H)|discriminate].
  - intros a b K. destruct b as [|x b _] using rev_ind.
    + change (a ++ ["/"; "/"]) with (a ++ [slash] ++ [slash]) in K. rewrite app_assoc in K.
      apply app_inj_tail in K. destruct K as [-> _]. now rewrite ends_slash_app in E.
    + change (a ++ "/" :: "/" :: b ++ [x]) with (a ++ ("/" :: "/" :: b) ++ [x]) in K. rewrite app_assoc in K.
      apply app_inj_tail in K. destruct K as [K _]. now apply (H2 a b).
Qed.
Lemma clean_prefix : forall a b, clean (a ++ b) -> clean a.
Proof.
  intros a b [H1 H2]. split.
  - intros H. apply H1. apply in_or_app. now left.
  - intros x y E. subst a. apply (H2 x (y ++ b)). now rewrite <- app_assoc.
Qed.

Lemma normalText_clean : forall stat s, clean s -> normalText stat s =
  Ok (if negb (ends_slash s) && existsFolder stat s then s ++ [slash] else s).
Proof. intros stat s H. rewrite normalText_eq. now rewrite (clean_fix s H). Qed.

Lemma normal_result : forall stat s t, normalText stat s = Ok t -> clean t /\ normalText stat t = Ok t.
Proof.
  intros stat s t H. rewrite normalText_eq in H. injection H as H.
  pose proof (collapse_clean s) as C. set (u := collapse (unback s)) in *. clearbody u.
  destruct (negb (ends_slash u) && existsFolder stat u) eqn:E.
  - subst t. apply andb_true_iff in E. destruct E as [E _]. apply negb_true_iff in E.
    pose proof (clean_snoc u C E) as C'. split; [exact C'|]. rewrite (normalText_clean _ _ C').
    now rewrite ends_slash_app.
  - subst t. split; [exact C|]. rewrite (normalText_clean _ _ C). now rewrite E.
Qed.

(** ** Components *)
Definition ne (p : bytes) : bool := match p with [] => false | _ => true end.

Lemma parts_unback : forall s, parts (unback s) = parts s.
Proof.
  induction s as [|c s IH]; [reflexivity|]. cbn [unback map parts]. fold (unback s). rewrite IH.
  unfold is_sep. destruct (Ascii.eqb c backslash) eqn:C.
  - apply eqb_t in C. subst c. reflexivity.
  - reflexivity.
Qed.
Lemma parts_cons : forall s, exists p ps, parts s = p :: ps.
Proof.
  induction s as [|c s (p & ps & E)]; [now exists [], []|]. cbn. destruct (is_sep c); [eauto|].
  rewrite E. eauto.
Qed.
Lemma sep_slash : forall c, c <> backslash -> is_sep c = Ascii.eqb c slash.
Proof. intros c H. unfold is_sep. change (ch 92) with backslash. rewrite (eqb_neq' c backslash H). apply orb_false_r. Qed.

Lemma parts_collapse : forall s, ~ In backslash s ->
  hd [] (parts (collapse s)) = hd [] (parts s) /\
  filter ne (tl (parts (collapse s))) = filter ne (tl (parts s)).
Proof.
  induction s as [|c s IH]; intros H; [now split|].
  assert (Hs : ~ In backslash s) by (intros K; apply H; now right).
  specialize (IH Hs). destruct IH as [I1 I2].
  assert (All : filter ne (parts (collapse s)) = filter ne (parts s)).
  { destruct (parts_cons (collapse s)) as (p & ps & E). destruct (parts_cons s) as (q & qs & E').
    rewrite E, E' in *. cbn in I1, I2. subst q. cbn. now rewrite I2. }
  cbn [collapse]. destruct (Ascii.eqb c slash) eqn:C.
  - apply eqb_t in C. subst c. destruct s as [|d s]; [now split|].
    destruct (Ascii.eqb d slash) eqn:D.
    + apply eqb_t in D. subst d. split.
      * rewrite I1. reflexivity.
      * rewrite I2. cbn [parts is_sep tl]. reflexivity.
    + change (parts (slash :: collapse (d :: s))) with ([] :: parts (collapse (d :: s))).
      change (parts (slash :: d :: s)) with ([] :: parts (d :: s)). cbn [hd tl]. now split.
  - assert (S0 : is_sep c = false) by (rewrite sep_slash by (intros ->; apply H; now left); exact C).
    cbn [parts]. rewrite S0. destruct (parts_cons (collapse s)) as (p & ps & E). destruct (parts_cons s) as (q & qs & E').
    rewrite E, E' in *. cbn in *. subst q. now split.
Qed.

Lemma components_collapse : forall s, components (collapse (unback s)) = components s.
Proof.
  intros s. unfold components. fold ne. rewrite <- (parts_unback s).
  destruct (parts_collapse (unback s) (unback_no s)) as [I1 I2].
  destruct (parts_cons (collapse (unback s))) as (p & ps & E). destruct (parts_cons (unback s)) as (q & qs & E').
  rewrite E, E' in *. cbn in I1, I2. subst q. cbn. fold ne. now rewrite I2.
Qed.

Lemma starts_collapse : forall s, starts_sep (collapse (unback s)) = starts_sep s.
Proof.
  intros s. pose proof (collapse_hd (unback s)) as H. unfold starts_sep.
  destruct s as [|c s]; [reflexivity|]. cbn [unback map] in *. fold (unback s) in *.
  destruct (Ascii.eqb c backslash) eqn:C;
    (destruct (collapse _) as [|x xs]; [discriminate|]); cbn in H; injection H as ->; [|reflexivity].
  apply eqb_t in C. now subst c.
Qed.

Lemma ends_sep_snoc : forall s c, ends_sep (s ++ [c]) = is_sep c.
Proof. induction s as [|x s IH]; intros c; [reflexivity|]. cbn. destruct (s ++ [c]) eqn:E; [destruct s; discriminate|]. rewrite <- E. apply IH. Qed.
Lemma ends_sep_cons : forall c s, s <> [] -> ends_sep (c :: s) = ends_sep s.
Proof. intros c s H. destruct s; [contradiction|reflexivity]. Qed.
Lemma ends_unback : forall s, ends_sep (unback s) = ends_sep s.
Proof.
  intros s. destruct s as [|c s _] using rev_ind; [reflexivity|]. unfold unback. rewrite map_app. cbn [map].
  rewrite !ends_sep_snoc. destruct (Ascii.eqb c backslash) eqn:C; [|reflexivity]. apply eqb_t in C. now subst.
Qed.
Lemma collapse_nil : forall s, collapse s = [] -> s = [].
Proof. intros s H. pose proof (collapse_hd s) as K. rewrite H in K. destruct s; [reflexivity|discriminate]. Qed.
Lemma ends_collapse : forall s, ~ In backslash s -> ends_sep (collapse s) = ends_sep s.
Proof.
  induction s as [|c s IH]; intros H; [reflexivity|].
  assert (Hs : ~ In backslash s) by (intros K; apply H; now right).
  destruct s as [|d s].
  - cbn. destruct (Ascii.eqb c slash); reflexivity.
  - rewrite collapse_eq. destruct (Ascii.eqb c slash) eqn:C.
    + destruct (Ascii.eqb d slash) eqn:D.
      * rewrite (IH Hs). symmetry. apply ends_sep_cons. discriminate.
      * rewrite !(ends_sep_cons c); [apply (IH Hs)|discriminate|].
        intros K. apply collapse_nil in K. discriminate.
    + rewrite !(ends_sep_cons c); [apply (IH Hs)|discriminate|].
      intros K. apply collapse_nil in K. discriminate.
Qed.
Lemma ends_slash_sep : forall s, ~ In backslash s -> ends_slash s = ends_sep s.
Proof.
  intros s H. destruct s as [|c s _] using rev_ind; [reflexivity|]. rewrite ends_sep_snoc. unfold ends_slash.
  rewrite rev_app_distr. cbn. symmetry. apply sep_slash. intros ->. apply H. apply in_or_app. right. now left.
Qed.

Lemma parts_snoc_sep : forall s, parts (s ++ [slash]) = parts s ++ [[]].
Proof.
  induction s as [|c s IH]; [reflexivity|]. cbn [app parts]. rewrite IH. destruct (is_sep c); [reflexivity|].
  destruct (parts_cons s) as (p & ps & E). rewrite E. reflexivity.
Qed.

Lemma normal_full : forall stat s, exists t0 t, normalText stat s = Ok t /\ clean t /\
  components t = components s /\ starts_sep t0 = starts_sep s /\ (s <> [] -> starts_sep t = starts_sep s) /\
  ends_sep t0 = ends_sep s /\ clean t0 /\ components t0 = components s /\
  t = (if negb (ends_sep s) && existsFolder stat t0 then t0 ++ ["/"] else t0).
Proof.
  intros stat s. exists (collapse (unback s)). eexists. split; [apply normalText_eq|].
  cbv zeta. pose proof (normal_result stat s _ (normalText_eq stat s)) as [C _]. cbv zeta in C.
  split; [exact C|]. clear C.
  pose proof (collapse_clean s) as Cl.
  assert (En : ends_sep (collapse (unback s)) = ends_sep s) by (rewrite ends_collapse by apply unback_no; apply ends_unback).
  rewrite (ends_slash_sep _ (proj1 Cl)), En.
  repeat split; try exact En; try exact (proj1 Cl); try exact (proj2 Cl).
  - rewrite <- (components_collapse s). destruct (negb _ && _); [|reflexivity].
    unfold components. rewrite parts_snoc_sep, filter_app. cbn. apply app_nil_r.
  - apply starts_collapse.
  - intros N. rewrite <- (starts_collapse s). destruct (negb _ && _); [|reflexivity].
    destruct (collapse (unback s)) as [|x xs] eqn:K; [|reflexivity].
    apply collapse_nil in K. destruct s; [contradiction|discriminate].
  - apply components_collapse.
Qed.

(** Clean texts are determined by their components and ends. *)
Fixpoint join (l : list bytes) : bytes :=
  match l with [] => [] | [p] => p | p :: ps => p ++ slash :: join ps end.
Definition render (st : bool) (cs : list bytes) (en : bool) : bytes :=
  (if st then [slash] else []) ++ join cs ++ (if en then match cs with [] => [] | _ => [slash] end else []).

Lemma components_sep : forall s, components (slash :: s) = components s.
Proof. reflexivity. Qed.

Lemma clean_tl : forall c s, clean (c :: s) -> clean s.
Proof.
  intros c s [H1 H2]. split; [intros K; apply H1; now right|]. intros a b E. apply (H2 (c :: a) b). now rewrite E.
Qed.
Lemma clean_render : forall s, clean s -> s = render (starts_sep s) (components s) (ends_sep s).
Proof.
  induction s as [|c s IH]; intros H; [reflexivity|].
  pose proof (clean_tl c s H) as H'. specialize (IH H').
  destruct (Ascii.eqb c slash) eqn:C.
  - apply eqb_t in C. subst c. rewrite components_sep. cbn [starts_sep]. change (is_sep slash) with true.
    destruct s as [|d s]; [reflexivity|]. rewrite ends_sep_cons by discriminate.
    assert (D : starts_sep (d :: s) = false).
    { cbn. rewrite sep_slash; [|intros ->; apply (proj1 H'); now left].
      apply eqb_neq'. intros ->. now apply (proj2 H [] s). }
    rewrite D in IH. unfold render in *. cbn [app] in IH |- *. now rewrite <- IH.
  - assert (S0 : is_sep c = false) by (rewrite sep_slash by (intros ->; apply (proj1 H); now left); exact C).
    cbn [starts_sep]. rewrite S0. unfold components in *. cbn [parts]. rewrite S0. fold ne in *.
    destruct s as [|d s].
    + cbn [parts ends_sep filter]. rewrite S0. reflexivity.
    + rewrite (ends_sep_cons c) by discriminate.
      destruct (is_sep d) eqn:D.
      * assert (d = slash) as -> by (rewrite sep_slash in D by (intros ->; apply (proj1 H'); now left); now apply eqb_t).
        cbn [starts_sep parts] in IH |- *. change (is_sep slash) with true in *. cbn [filter ne] in IH |- *.
        unfold render in IH |- *. cbn [app] in IH. rewrite IH at 1.
        destruct (filter ne (parts s)) as [|q qs] eqn:Q.
        -- assert (s = []) as -> by (destruct (ends_sep (slash :: s)); now injection IH). reflexivity.
        -- cbn [join app]. reflexivity.
      * cbn [starts_sep parts] in IH |- *. rewrite D in IH |- *. destruct (parts_cons s) as (p & ps & E).
        rewrite E in IH |- *. cbn [filter ne] in IH |- *. unfold render in *. cbn [app] in IH |- *.
        rewrite IH at 1. destruct (filter ne ps) as [|q qs]; reflexivity.
Qed.
Lemma clean_determined : forall a b, clean a -> clean b -> components a = components b ->
  starts_sep a = starts_sep b -> ends_sep a = ends_sep b -> a = b.
Proof. intros a b A B E1 E2 E3. rewrite (clean_render a A), (clean_render b B). now rewrite E1, E2, E3. Qed.

(** ** Components of a file path *)
Lemma findLast_none : forall c s, ~ In c s -> findLast c s = None.
Proof.
  induction s as [|d s IH]; intros H; [reflexivity|]. cbn. rewrite IH by (intros K; apply H; now right).
  now rewrite eqb_neq' by (intros ->; apply H; now left).
Qed.
Lemma findLast_app : forall c a b, ~ In c b -> findLast c (a ++ c :: b) = Some (length a).
Proof.
  induction a as [|d a IH]; intros b H; cbn.
  - rewrite (findLast_none c b H), Ascii.eqb_refl. reflexivity.
  - now rewrite (IH b H).
Qed.
Lemma findLast_skip : forall c a b, ~ In c b -> findLast c (a ++ b) = findLast c a.
Proof.
  induction a as [|d a IH]; intros b H; cbn; [now apply findLast_none|]. now rewrite (IH b H).
Qed.
Lemma findLast_lt : forall c s k, findLast c s = Some k -> k < length s.
Proof.
  induction s as [|d s IH]; intros k H; [discriminate|]. cbn in *. destruct (findLast c s) as [j|].
  - injection H as <-. specialize (IH j eq_refl). lia.
  - destruct (Ascii.eqb d c); [injection H as <-; lia|discriminate].
Qed.
Lemma findFirst_none : forall c s k, ~ In c (skipn k s) -> findFirst c s k = None.
Proof.
  induction s as [|d s IH]; intros k H; [reflexivity|]. cbn. destruct k as [|k].
  - rewrite eqb_neq' by (intros ->; apply H; now left). rewrite IH; [reflexivity|].
    cbn. intros K. apply H. now right.
  - rewrite IH; [reflexivity|exact H].
Qed.
Lemma findFirst_app : forall c a b k, k <= length a -> ~ In c (skipn k a) ->
  findFirst c (a ++ c :: b) k = Some (length a).
Proof.
  induction a as [|d a IH]; intros b k L H; cbn.
  - cbn in L. assert (k = 0) as -> by lia. now rewrite Ascii.eqb_refl.
  - destruct k as [|k].
    + rewrite eqb_neq' by (intros ->; apply H; now left). rewrite IH; [reflexivity|lia|].
      cbn. intros K. apply H. now right.
    + rewrite IH; [reflexivity|cbn in L; lia|exact H].
Qed.

Lemma in_dec_a : forall (c : ascii) (s : bytes), In c s \/ ~ In c s.
Proof. intros. destruct (in_dec ascii_dec c s); auto. Qed.
Lemma last_split : forall (c : ascii) (s : bytes), In c s -> exists a b, s = a ++ c :: b /\ ~ In c b.
Proof.
  induction s as [|d s IH]; intros H; [destruct H|]. destruct (in_dec_a c s) as [I|I].
  - destruct (IH I) as (a & b & E & N). exists (d :: a), b. subst s. now split.
  - destruct H as [->|H]; [|contradiction]. now exists [], s.
Qed.
Lemma dir_name : forall t, exists d n, t = d ++ n /\ is_dir d /\ no_slash n.
Proof.
  intros t. destruct (in_dec_a "/" t) as [I|I].
  - destruct (last_split _ _ I) as (a & b & E & N). exists (a ++ ["/"]), b. rewrite <- app_assoc.
    repeat split; [exact E|right; now exists a|exact N].
  - exists [], t. repeat split; [now left|exact I].
Qed.

Lemma nameBegin_dir : forall d n, is_dir d -> no_slash n -> nameBegin (d ++ n) = length d.
Proof.
  intros d n [->|[d' ->]] N; unfold nameBegin.
  - cbn [app]. now rewrite (findLast_none slash n N).
  - rewrite <- app_assoc. cbn [app]. change "/" with slash. rewrite (findLast_app slash d' n N). rewrite app_length. cbn. lia.
Qed.
Lemma substr_tail : forall d n k, length n <= k -> substr (d ++ n) (length d) k = Ok n.
Proof.
  intros d n k L. unfold substr. rewrite app_length.
  destruct (Nat.leb_spec (length d) (length d + length n)); [|lia]. rewrite skipn_app_len. now rewrite firstn_all2.
Qed.
Lemma substr_mid : forall d n r k, k = length n -> substr (d ++ n ++ r) (length d) k = Ok n.
Proof.
  intros d n r k ->. unfold substr. rewrite !app_length.
  destruct (Nat.leb_spec (length d) (length d + (length n + length r))); [|lia]. now rewrite skipn_app_len, firstn_app_len.
Qed.
Lemma getFileName_spec : forall d n, is_dir d -> no_slash n -> getFileName (d ++ n) = Ok n.
Proof.
  intros d n D N. unfold getFileName. rewrite (nameBegin_dir d n D N). apply substr_tail. rewrite app_length. lia.
Qed.

Lemma parentLoop_skip : forall k d n m, k <= length n -> no_slash n -> length d = S m ->
  parentLoop (d ++ n) (m + k) = parentLoop (d ++ n) m.
Proof.
  induction k as [|k IH]; intros d n m L N D; [now rewrite Nat.add_0_r|].
  replace (m + S k) with (S (m + k)) by lia. cbn [parentLoop].
  rewrite nth_error_app2 by lia.
  destruct (nth_error n (S (m + k) - length d)) as [c|] eqn:E; [|apply nth_error_None in E; lia].
  rewrite eqb_neq'; [now apply IH; [lia| |]|]. intros ->. apply nth_error_In in E. exact (N E).
Qed.

Lemma getParent_spec : forall d n, is_dir d -> no_slash n -> 2 <= length d -> getParent (d ++ n) = Ok d.
Proof.
  intros d n [->|[d' ->]] N L; [cbn in L; lia|]. unfold getParent. rewrite app_length in L. cbn in L.
  assert (E : length ((d' ++ ["/"]) ++ n) = S (length d' + length n)) by (rewrite !app_length; cbn; lia).
  rewrite E. rewrite (parentLoop_skip (length n) (d' ++ ["/"]) n (length d')); [|lia|exact N|rewrite app_length; cbn; lia].
  destruct (length d') as [|m] eqn:Ld; [lia|]. cbn [parentLoop]. rewrite <- Ld.
  rewrite <- app_assoc. rewrite nth_app0. cbn [app nth_error]. rewrite Ascii.eqb_refl.
  unfold substr. cbn [Nat.leb skipn]. f_equal.
  replace (d' ++ "/" :: n) with ((d' ++ ["/"]) ++ n) by (now rewrite <- app_assoc).
  replace (length d' + 1) with (length (d' ++ ["/"])) by (rewrite app_length; cbn; lia).
  apply firstn_app_len.
Qed.
Lemma parentLoop_none : forall t i, i < length t -> (forall j, 0 < j -> j <= i -> nth_error t j <> Some slash) -> parentLoop t i = Ok [].
Proof.
  induction i as [|i IH]; intros L H; [reflexivity|]. cbn [parentLoop].
  destruct (nth_error t (S i)) as [c|] eqn:E.
  - rewrite eqb_neq'; [apply IH; [lia|intros j J1 J2; apply H; lia]|].
    intros ->. apply (H (S i)); [lia|lia|exact E].
  - apply nth_error_None in E. lia.
Qed.
Lemma getParent_none : forall d n, is_dir d -> no_slash n -> length d <= 1 -> d ++ n <> [] -> getParent (d ++ n) = Ok [].
Proof.
  intros d n D N L E. unfold getParent. destruct (length (d ++ n)) as [|m] eqn:Lm; [destruct (d ++ n); [contradiction|discriminate]|].
  apply parentLoop_none; [lia|]. intros j J1 J2 K.
  rewrite nth_error_app2 in K by lia. apply nth_error_In in K. exact (N K).
Qed.

Lemma noext_nodot : forall d n, is_dir d -> no_slash n -> no_dot n -> getFileNameNoExtensions (d ++ n) = Ok n.
Proof.
  intros d n D N P. unfold getFileNameNoExtensions. rewrite (nameBegin_dir d n D N).
  rewrite (findLast_skip "." d n P). destruct (findLast "." d) as [e|] eqn:E.
  - apply findLast_lt in E. destruct (Nat.eqb_spec e (length d)); [lia|].
    destruct (Nat.ltb_spec e (length d)); [|lia]. apply substr_tail. rewrite app_length. lia.
  - apply substr_tail. rewrite app_length. lia.
Qed.
Lemma noext_dot : forall d st e, is_dir d -> no_slash (st ++ "." :: e) -> no_dot e ->
  getFileNameNoExtensions (d ++ st ++ "." :: e) = Ok (match st with [] => "." :: e | _ => st end).
Proof.
  intros d st e D N P. unfold getFileNameNoExtensions. rewrite (nameBegin_dir d _ D N).
  rewrite (app_assoc d st). rewrite (findLast_app "." (d ++ st) e P). rewrite app_length, <- app_assoc.
  destruct (Nat.eqb_spec (length d + length st) (length d)) as [K|K].
  - assert (st = []) as -> by (destruct st; [reflexivity|cbn in K; lia]). apply substr_tail. rewrite app_length. cbn. lia.
  - destruct (Nat.ltb_spec (length d + length st) (length d)); [lia|].
    rewrite substr_mid by lia. destruct st; [cbn in K; lia|reflexivity].
Qed.

Lemma ext_nodot : forall d n, is_dir d -> no_slash n -> no_dot n -> getExtension (d ++ n) = Ok [].
Proof.
  intros d n D N P. unfold getExtension. rewrite (getFileName_spec d n D N). cbn [obind].
  destruct n as [|c n]; [reflexivity|]. cbn [beginsWithChar].
  rewrite eqb_neq' by (intros ->; apply P; now left). now rewrite (findLast_none "." _ P).
Qed.
Lemma ext_dot : forall d st e, is_dir d -> no_slash (st ++ "." :: e) -> no_dot e ->
  getExtension (d ++ st ++ "." :: e) = Ok (match st with [] => [] | _ => "." :: e end).
Proof.
  intros d st e D N P. unfold getExtension. rewrite (getFileName_spec d _ D N). cbn [obind].
  destruct st as [|c st].
  - cbn [app beginsWithChar]. rewrite Ascii.eqb_refl. cbn [skipn]. now rewrite (findLast_none "." e P).
  - cbn [app beginsWithChar]. destruct (Ascii.eqb c ".") eqn:C.
    + cbn [skipn]. rewrite (findLast_app "." st e P). rewrite substr_tail; [reflexivity|]. rewrite app_length. cbn. lia.
    + change (c :: st ++ "." :: e) with ((c :: st) ++ "." :: e). rewrite (findLast_app "." (c :: st) e P).
      rewrite substr_tail; [reflexivity|]. rewrite app_length. lia.
Qed.

Lemma allext_nodot : forall d n, is_dir d -> no_slash n -> no_dot n \/ (exists e, n = "." :: e /\ no_dot e) ->
  getAllExtensions (d ++ n) = Ok [].
Proof.
  intros d n D N P. unfold getAllExtensions. rewrite (getFileName_spec d n D N). cbn [obind].
  destruct P as [P|(e & -> & P)].
  - assert (E : beginsWithChar n "." = false).
    { destruct n as [|c n]; [reflexivity|]. cbn. apply eqb_neq'. intros ->. apply P. now left. }
    rewrite E. rewrite findFirst_none; [reflexivity|exact P].
  - cbn [beginsWithChar]. rewrite Ascii.eqb_refl. rewrite findFirst_none; [reflexivity|exact P].
Qed.
Lemma allext_dot : forall d c st e, is_dir d -> no_slash (c :: st ++ "." :: e) -> no_dot st ->
  getAllExtensions (d ++ c :: st ++ "." :: e) = Ok ("." :: e).
Proof.
  intros d c st e D N P. unfold getAllExtensions. rewrite (getFileName_spec d _ D N). cbn [obind beginsWithChar].
  change (c :: st ++ "." :: e) with ((c :: st) ++ "." :: e).
  assert (E : findFirst "." ((c :: st) ++ "." :: e) (if Ascii.eqb c "." then 1 else 0) = Some (length (c :: st))).
  { destruct (Ascii.eqb c ".") eqn:C; apply findFirst_app; cbn [length skipn]; try lia.
    - exact P.
    - intros [->|K]; [discriminate|exact (P K)]. }
  rewrite E. apply substr_tail. rewrite app_length. lia.
Qed.

Lemma folderLoop_down : forall k d n r m, k <= length n -> no_slash n -> length d = S m ->
  folderLoop (d ++ n ++ r) (m + k) = folderLoop (d ++ n ++ r) m.
Proof.
  induction k as [|k IH]; intros d n r m L N D; [now rewrite Nat.add_0_r|].
  replace (m + S k) with (S (m + k)) by lia. cbn [folderLoop].
  rewrite nth_error_app2 by lia. rewrite nth_error_app1 by lia.
  destruct (nth_error n (S (m + k) - length d)) as [c|] eqn:E; [|apply nth_error_None in E; lia].
  rewrite eqb_neq'; [now apply IH; [lia| |]|]. intros ->. apply nth_error_In in E. exact (N E).
Qed.
Lemma endsWithChar_snoc : forall s, endsWithChar (s ++ [slash]) slash = Ok true.
Proof.
  intros s. destruct (C19_endsWith_char (s ++ [slash]) slash) as (b & -> & H). f_equal. apply H. now exists s.
Qed.
Lemma getFolderName_spec : forall d n, is_dir d -> d <> [] -> no_slash n -> n <> [] -> getFolderName (d ++ n ++ ["/"]) = Ok n.
Proof.
  intros d n D Dn N Nn. unfold getFolderName. rewrite app_assoc. rewrite endsWithChar_snoc. cbn [obind].
  rewrite <- app_assoc.
  destruct D as [->|[d' ->]]; [contradiction|].
  destruct n as [|c n]; [contradiction|].
  assert (L : length ((d' ++ ["/"]) ++ (c :: n) ++ ["/"]) = S (S (length d' + length (c :: n)))).
  { rewrite !app_length. cbn. lia. }
  rewrite L. rewrite (folderLoop_down (length (c :: n)) (d' ++ ["/"]) (c :: n) ["/"] (length d')); [|lia|exact N|rewrite app_length; cbn; lia].
  assert (F : folderLoop ((d' ++ ["/"]) ++ (c :: n) ++ ["/"]) (length d') = Ok (length d')).
  { destruct (length d') as [|m] eqn:E; [reflexivity|]. cbn [folderLoop]. rewrite <- E.
    rewrite <- app_assoc. rewrite nth_app0. cbn [app nth_error]. now rewrite Ascii.eqb_refl. }
  rewrite F. cbn [obind]. replace (length d' + 1) with (length (d' ++ ["/"])) by (rewrite app_length; cbn; lia).
  apply substr_mid. lia.
Qed.
Lemma getFolderName_relative : forall n, no_slash n -> n <> [] -> getFolderName (n ++ ["/"]) = Ok (tl n).
Proof.
  intros n N Nn. unfold getFolderName. rewrite endsWithChar_snoc. cbn [obind].
  destruct n as [|c n]; [contradiction|].
  assert (L : length ((c :: n) ++ ["/"]) = S (S (length n))) by (rewrite app_length; cbn; lia).
  rewrite L. assert (N' : no_slash n) by (intros K; apply N; now right).
  pose proof (folderLoop_down (length n) [c] n ["/"] 0 ltac:(lia) N' eq_refl) as F. cbn [app Nat.add] in F.
  cbn [app]. rewrite F. cbn [folderLoop obind tl].
  change (c :: n ++ ["/"]) with ([c] ++ n ++ ["/"]). change (0 + 1) with (length [c]). apply substr_mid. cbn. lia.
Qed.
Lemma getFolderName_file : forall t, ends_sep t = false -> ~ In backslash t -> getFolderName t = Ok [].
Proof.
  intros t E B. unfold getFolderName. destruct (C19_endsWith_char t slash) as (b & -> & H). cbn [obind].
  destruct b; [|reflexivity]. destruct (proj1 H eq_refl) as [s ->]. now rewrite ends_sep_snoc in E.
Qed.

(** ** Changing paths *)
Lemma append_spec : forall stat a b,
  getStr stat (append (mkPath a) b) = getStr stat (mkPath (a ++ b)) /\
  getStr stat (appendPath (mkPath a) (mkPath b)) = getStr stat (mkPath (a ++ b)) /\
  getStr stat (plus (mkPath a) (mkPath b)) = getStr stat (mkPath (a ++ b)).
Proof. intros. repeat split. Qed.
Lemma getStr_text : forall stat p t q, getStr stat p = Ok (t, q) -> text q = t.
Proof.
  intros stat p t q H. unfold getStr in H. destruct (normalize stat p); cbn [obind] in H; try discriminate. injection H as <- <-. reflexivity.
Qed.
Lemma append_seen : forall stat p t q s, getStr stat p = Ok (t, q) ->
  getStr stat (append q s) = getStr stat (mkPath (t ++ s)) /\
  getStr stat (appendPath q (mkPath s)) = getStr stat (mkPath (t ++ s)) /\
  getStr stat (plus q (mkPath s)) = getStr stat (mkPath (t ++ s)) /\
  getStr stat (plus (mkPath s) q) = getStr stat (mkPath (s ++ t)) /\
  getStr stat (assign q s) = getStr stat (mkPath s) /\
  getStr stat (clear q) = getStr stat (mkPath []) /\
  (isNull q = true <-> t = []).
Proof.
  intros stat p t q s H. apply getStr_text in H. unfold append, plus, appendPath, assign, clear, isNull, mkPath. cbn [text].
  rewrite !H. cbn [text]. repeat split; destruct t; congruence || reflexivity.
Qed.
