(** Lemmas on the sorted-vector containers. *)
From Coq Require Import String Arith Bool Lia List Permutation.
From Verif Require Import Common ListAux VecModel VecSpec.
Import ListNotations.

(** ** lower_bound *)
Lemma half_lt : forall n, 0 < n -> n / 2 < n.
Proof. intros. apply Nat.div_lt; lia. Qed.

Lemma lower_bound_loop_spec : forall A (f : A -> bool) p s fuel first len,
  (forall x, In x p -> f x = true) -> (forall x, In x s -> f x = false) ->
  first <= length p <= first + len -> first + len <= length (p ++ s) -> len <= fuel ->
  lower_bound_loop fuel f (p ++ s) first len = Ok (length p).
Proof.
  intros A f p s. induction fuel as [|fuel IH]; intros first len Hp Hs H1 H2 H3.
  - assert (len = 0) by lia. subst len. cbn. f_equal. lia.
  - destruct len as [|n]; [cbn; f_equal; lia|].
    cbn [lower_bound_loop]. pose proof (half_lt (S n) ltac:(lia)) as Hh. set (h := S n / 2) in *.
    destruct (nth_error (p ++ s) (first + h)) as [x|] eqn:E.
    2:{ apply nth_error_None in E. lia. }
    destruct (f x) eqn:F.
    + assert (L : first + h < length p).
      { destruct (Nat.lt_ge_cases (first + h) (length p)) as [L|L]; [exact L|].
        rewrite nth_error_app2 in E by exact L. apply nth_error_In in E. rewrite (Hs x E) in F. discriminate. }
      apply IH; auto; lia.
    + assert (L : length p <= first + h).
      { destruct (Nat.le_gt_cases (length p) (first + h)) as [L|L]; [exact L|].
        rewrite nth_error_app1 in E by exact L. apply nth_error_In in E. rewrite (Hp x E) in F. discriminate. }
      apply IH; auto; lia.
Qed.

Lemma lower_bound_spec : forall A (f : A -> bool) p s,
  (forall x, In x p -> f x = true) -> (forall x, In x s -> f x = false) ->
  lower_bound f (p ++ s) = Ok (length p).
Proof.
  intros A f p s Hp Hs. apply lower_bound_loop_spec; auto; rewrite ?app_length; lia.
Qed.

(** The search stays inside the vector whatever its contents. *)
Lemma lower_bound_loop_total : forall A (f : A -> bool) l fuel first len,
  first + len <= length l -> len <= fuel ->
  exists i, lower_bound_loop fuel f l first len = Ok i /\ first <= i <= first + len.
Proof.
  intros A f l. induction fuel as [|fuel IH]; intros first len H1 H2.
  - assert (len = 0) by lia. subst len. cbn. exists first. split; [reflexivity|lia].
  - destruct len as [|n]; [cbn; exists first; split; [reflexivity|lia]|].
    cbn [lower_bound_loop]. pose proof (half_lt (S n) ltac:(lia)) as Hh. set (h := S n / 2) in *.
    destruct (nth_error_lt l (first + h) ltac:(lia)) as [x E]. rewrite E. destruct (f x).
    + destruct (IH (first + h + 1) (S n - h - 1) ltac:(lia) ltac:(lia)) as (i & E' & B). exists i. split; [exact E'|lia].
    + destruct (IH first h ltac:(lia) ltac:(lia)) as (i & E' & B). exists i. split; [exact E'|lia].
Qed.
Lemma lower_bound_total : forall A (f : A -> bool) l, exists i, lower_bound f l = Ok i /\ i <= length l.
Proof.
  intros A f l. destruct (lower_bound_loop_total A f l (length l) 0 (length l)) as (i & E & B); [lia|lia|].
  exists i. split; [exact E|lia].
Qed.

Lemma ordered_split : forall A (R : A -> A -> Prop) (f : A -> bool) l, ordered R l ->
  (forall x y, R x y -> f y = true -> f x = true) ->
  exists p s, l = p ++ s /\ (forall x, In x p -> f x = true) /\ (forall x, In x s -> f x = false).
Proof.
  intros A R f l. induction l as [|x l IH]; intros O M.
  - exists [], []. split; [reflexivity|]. split; intros ? [].
  - destruct O as [Ox O]. destruct (f x) eqn:F.
    + destruct (IH O M) as (p & s & -> & Hp & Hs). exists (x :: p), s. split; [reflexivity|].
      split; [|exact Hs]. intros y [<-|H]; auto.
    + exists [], (x :: l). split; [reflexivity|]. split; [intros ? []|].
      intros y [<-|H]; [exact F|]. destruct (f y) eqn:Fy; [|reflexivity].
      rewrite (M x y (Ox y H) Fy) in F. discriminate.
Qed.

Lemma ordered_app : forall A (R : A -> A -> Prop) p s, ordered R (p ++ s) <->
  ordered R p /\ ordered R s /\ forall x y, In x p -> In y s -> R x y.
Proof.
  intros A R p s. induction p as [|a p IH]; cbn [app ordered].
  - split; [intros H; repeat split; auto; intros ? ? []|intros (_ & H & _); exact H].
  - rewrite IH. split.
    + intros (H1 & H2 & H3 & H4). repeat split; auto.
      * intros y Hy. apply H1, in_or_app. auto.
      * intros x y [<-|Hx] Hy; auto. apply H1, in_or_app. auto.
    + intros ((H1 & H2) & H3 & H4). repeat split; auto.
      * intros y Hy. apply in_app_or in Hy. destruct Hy; auto. apply H4; [left; reflexivity|assumption].
      * intros x y Hx Hy. apply H4; [right; assumption|assumption].
Qed.

Lemma insert_at_app : forall A (x : A) p s, insert_at (length p) x (p ++ s) = p ++ x :: s.
Proof.
  intros. unfold insert_at. rewrite firstn_app, Nat.sub_diag, firstn_all, firstn_O, app_nil_r.
  rewrite skipn_app, Nat.sub_diag, skipn_all. reflexivity.
Qed.
Lemma set_at_app : forall A (x y : A) p s, set_at (length p) x (p ++ y :: s) = p ++ x :: s.
Proof.
  intros. unfold set_at. rewrite firstn_app, Nat.sub_diag, firstn_all, firstn_O, app_nil_r.
  rewrite skipn_app. replace (S (length p) - length p) with 1 by lia.
  rewrite skipn_all2 by lia. reflexivity.
Qed.
Lemma nth_error_mid : forall A (x : A) p s, nth_error (p ++ x :: s) (length p) = Some x.
Proof. intros. rewrite nth_error_app2, Nat.sub_diag by lia. reflexivity. Qed.

(** ** VecMap *)
Section VM.
Context {K V : Type} (ltb eqb : K -> K -> bool) (dflt : V) (ST : strict_total ltb eqb).
Notation data := (list (K * V)).
Definition klt (p q : K * V) : Prop := ltb (fst p) (fst q) = true.

(** Contents as a partial function. *)
Definition repr (d : data) (m : K -> option V) : Prop :=
  ordered klt d /\ forall k v, In (k, v) d <-> m k = Some v.

Lemma ltb_asym : forall a b, ltb a b = true -> ltb b a = false.
Proof.
  intros a b H. destruct (ltb b a) eqn:E; [|reflexivity].
  rewrite <- (st_irrefl _ _ ST a); symmetry; eapply (st_trans _ _ ST); eassumption.
Qed.
Lemma eqb_refl' : forall a, eqb a a = true.
Proof. intros. apply (st_eqb _ _ ST). reflexivity. Qed.
Lemma eqb_false : forall a b, a <> b -> eqb a b = false.
Proof. intros a b H. destruct (eqb a b) eqn:E; [|reflexivity]. apply (st_eqb _ _ ST) in E. contradiction. Qed.
Lemma ltb_ne : forall a b, ltb a b = true -> a <> b.
Proof. intros a b H ->. rewrite (st_irrefl _ _ ST) in H. discriminate. Qed.

(** Position of a key in an ordered vector. *)
Lemma vm_split : forall d k, ordered klt d ->
  exists p s, d = p ++ s /\ vm_lookup ltb d k = Ok (length p) /\
    (forall x, In x p -> ltb (fst x) k = true) /\ (forall x, In x s -> ltb (fst x) k = false).
Proof.
  intros d k O. destruct (ordered_split _ klt (fun p => ltb (fst p) k) d O) as (p & s & E & Hp & Hs).
  - intros x y H F. eapply (st_trans _ _ ST); eassumption.
  - exists p, s. split; [exact E|]. split; [|auto]. subst d. apply lower_bound_spec; assumption.
Qed.

(** Either the key is at the split point or it is nowhere. *)
Lemma vm_cases : forall d k, ordered klt d ->
  exists p s, vm_lookup ltb d k = Ok (length p) /\
    (forall x, In x p -> ltb (fst x) k = true) /\
    ((exists v, d = p ++ (k, v) :: s /\ (forall x, In x s -> ltb k (fst x) = true)) \/
     (d = p ++ s /\ (forall x, In x s -> ltb k (fst x) = true))).
Proof.
  intros d k O. destruct (vm_split d k O) as (p & s & E & L & Hp & Hs). subst d.
  apply ordered_app in O. destruct O as (Op & Os & _).
  destruct s as [|[k' v] s].
  - exists p, []. split; [exact L|]. split; [exact Hp|]. right. split; [reflexivity|]. intros ? [].
  - destruct Os as [Ox Os]. pose proof (Hs (k', v) (or_introl eq_refl)) as F. cbn in F.
    assert (G : forall x, In x s -> ltb k' (fst x) = true) by (intros x Hx; apply (Ox x Hx)).
    destruct (st_total _ _ ST k' k) as [H|[H|H]].
    + congruence.
    + subst k'. exists p, s. split; [exact L|]. split; [exact Hp|]. left. exists v. split; [reflexivity|exact G].
    + exists p, ((k', v) :: s). split; [exact L|]. split; [exact Hp|]. right. split; [reflexivity|].
      intros x [<-|Hx]; [exact H|]. eapply (st_trans _ _ ST); [exact H|]. apply G. exact Hx.
Qed.

Lemma is_hit : forall (p s : data) k v, vm_is eqb (p ++ (k, v) :: s) (length p) k = true.
Proof. intros. unfold vm_is. rewrite nth_error_mid. apply eqb_refl'. Qed.
Lemma is_miss : forall (p s : data) k, (forall x, In x s -> ltb k (fst x) = true) -> vm_is eqb (p ++ s) (length p) k = false.
Proof.
  intros p s k H. unfold vm_is. rewrite nth_error_app2, Nat.sub_diag by lia.
  destruct s as [|[k' v] s]; [reflexivity|]. cbn [nth_error fst]. apply eqb_false.
  intros ->. specialize (H _ (or_introl eq_refl)). cbn in H. rewrite (st_irrefl _ _ ST) in H. discriminate.
Qed.

(** Membership at the split. *)
Lemma in_hit : forall (p s : data) k v w, (forall x, In x p -> ltb (fst x) k = true) -> (forall x, In x s -> ltb k (fst x) = true) ->
  In (k, w) (p ++ (k, v) :: s) <-> w = v.
Proof.
  intros p s k v w Hp Hs. split.
  - intros H. apply in_app_or in H. destruct H as [H|[H|H]].
    + apply Hp in H. cbn in H. rewrite (st_irrefl _ _ ST) in H. discriminate.
    + congruence.
    + apply Hs in H. cbn in H. rewrite (st_irrefl _ _ ST) in H. discriminate.
  - intros ->. apply in_or_app. right. left. reflexivity.
Qed.
Lemma in_miss : forall (p s : data) k w, (forall x, In x p -> ltb (fst x) k = true) -> (forall x, In x s -> ltb k (fst x) = true) ->
  ~ In (k, w) (p ++ s).
Proof.
  intros p s k w Hp Hs H. apply in_app_or in H. destruct H as [H|H]; [apply Hp in H|apply Hs in H];
  cbn in H; rewrite (st_irrefl _ _ ST) in H; discriminate.
Qed.

Lemma ordered_mid : forall (p s : data) k v, ordered klt (p ++ s) ->
  (forall x, In x p -> ltb (fst x) k = true) -> (forall x, In x s -> ltb k (fst x) = true) ->
  ordered klt (p ++ (k, v) :: s).
Proof.
  intros p s k v O Hp Hs. apply ordered_app in O. destruct O as (Op & Os & Ops).
  apply ordered_app. split; [exact Op|]. split; [split; [exact Hs|exact Os]|].
  intros x y Hx [<-|Hy]; [apply Hp; exact Hx|apply Ops; assumption].
Qed.

(** Queries. *)
Lemma query_spec : forall d m k, repr d m ->
  vm_has ltb eqb d k = Ok (match m k with Some _ => true | None => false end) /\
  vm_count ltb eqb d k = Ok (match m k with Some _ => 1 | None => 0 end) /\
  vm_at ltb eqb d k = match m k with Some v => Ok v | None => Throw "out_of_range"%string end /\
  vm_atOrDefault ltb eqb dflt d k = Ok (match m k with Some v => v | None => dflt end) /\
  (exists i, vm_atItr ltb eqb d k = Ok i /\
     match m k with Some v => nth_error d i = Some (k, v) | None => i = length d end).
Proof.
  intros d m k [O M]. destruct (vm_cases d k O) as (p & s & L & Hp & [(v & E & Hs)|(E & Hs)]).
  - assert (Mk : m k = Some v).
    { apply M. rewrite E. apply in_hit; auto. }
    unfold vm_has, vm_count, vm_at, vm_atOrDefault, vm_atItr. rewrite L, Mk. cbn [obind].
    rewrite E, is_hit, nth_error_mid. cbn [snd]. repeat split. exists (length p). split; [reflexivity|apply nth_error_mid].
  - assert (Mk : m k = None).
    { destruct (m k) as [v|] eqn:Q; [|reflexivity]. apply M in Q. rewrite E in Q. exfalso. exact (in_miss p s k v Hp Hs Q). }
    unfold vm_has, vm_count, vm_at, vm_atOrDefault, vm_atItr. rewrite L, Mk. cbn [obind].
    rewrite E, is_miss by assumption. repeat split. eexists; split; reflexivity.
Qed.

(** Updates. *)
Lemma touch_repr : forall d m k, repr d m ->
  exists d' i, vm_bracket ltb eqb dflt d k = Ok (d', i) /\
   (exists p s v, d' = p ++ (k, v) :: s /\ length p = i /\
     v = (match m k with Some w => w | None => dflt end) /\
     (forall x, In x p -> ltb (fst x) k = true) /\ (forall x, In x s -> ltb k (fst x) = true)) /\
   repr d' (fun j => match m j with Some v => Some v | None => if eqb k j then Some dflt else None end).
Proof.
  intros d m k [O M]. destruct (vm_cases d k O) as (p & s & L & Hp & [(v & E & Hs)|(E & Hs)]).
  - assert (Mk : m k = Some v). { apply M. rewrite E. apply in_hit; auto. }
    exists d, (length p). unfold vm_bracket. rewrite L. cbn [obind]. rewrite E at 1. rewrite is_hit.
    split; [reflexivity|]. split.
    + exists p, s, v. rewrite Mk. auto.
    + split; [exact O|]. intros j w. rewrite M. destruct (m j) eqn:Q; [reflexivity|].
      rewrite eqb_false; [reflexivity|]. intros <-. congruence.
  - assert (Mk : m k = None).
    { destruct (m k) as [v|] eqn:Q; [|reflexivity]. apply M in Q. rewrite E in Q. exfalso. exact (in_miss p s k v Hp Hs Q). }
    exists (p ++ (k, dflt) :: s), (length p). unfold vm_bracket. rewrite L. cbn [obind].
    rewrite E, is_miss by assumption. rewrite insert_at_app. split; [reflexivity|]. split.
    + exists p, s, dflt. rewrite Mk. auto.
    + split; [apply ordered_mid; subst d; assumption|]. intros j w. destruct (eqb k j) eqn:Q.
      * apply (st_eqb _ _ ST) in Q. subst j. rewrite Mk, in_hit by assumption. split; congruence.
      * assert (k <> j) by (intros ->; rewrite eqb_refl' in Q; discriminate).
        transitivity (In (j, w) d).
        -- rewrite E, !in_app_iff. cbn [In]. split; [intros [?|[?|?]]; auto; congruence|intros [?|?]; auto].
        -- rewrite M. destruct (m j); split; congruence.
Qed.

Lemma repr_ext : forall d m m', repr d m -> (forall k, m k = m' k) -> repr d m'.
Proof. intros d m m' [O M] E. split; [exact O|]. intros k v. rewrite M, E. reflexivity. Qed.

Lemma assign_repr : forall d m k v, repr d m ->
  exists d', vm_step ltb eqb dflt d (Assign k v) = Ok d' /\
   repr d' (fun j => if eqb k j then Some v else m j).
Proof.
  intros d m k v R. destruct (touch_repr d m k R) as (d1 & i & B & (p & s & w & E & Li & _ & Hp & Hs) & [O1 M1]).
  cbn [vm_step]. rewrite B. cbn [obind fst snd]. subst d1. rewrite <- Li, nth_error_mid. cbn [fst].
  rewrite set_at_app. eexists. split; [reflexivity|]. split.
  - apply ordered_mid; try assumption. apply ordered_app in O1. destruct O1 as (A1 & [_ A2] & A3).
    apply ordered_app. split; [exact A1|]. split; [exact A2|]. intros x y Hx Hy. apply A3; [exact Hx|right; exact Hy].
  - intros j u. destruct (eqb k j) eqn:Q.
    + apply (st_eqb _ _ ST) in Q. subst j. rewrite in_hit by assumption. split; congruence.
    + assert (k <> j) by (intros ->; rewrite eqb_refl' in Q; discriminate).
      transitivity (In (j, u) (p ++ (k, w) :: s)).
      * rewrite !in_app_iff. cbn [In]. split; intros [?|[?|?]]; auto; congruence.
      * rewrite M1. rewrite Q. destruct (m j); split; congruence.
Qed.

Lemma step_repr : forall d m o, repr d m ->
  exists d', vm_step ltb eqb dflt d o = Ok d' /\
   repr d' (match o with
            | Assign k v => fun j => if eqb k j then Some v else m j
            | Touch k => fun j => match m j with Some v => Some v | None => if eqb k j then Some dflt else None end
            | Clear => fun _ => None
            end).
Proof.
  intros d m o R. destruct o as [k v|k|].
  - apply assign_repr. exact R.
  - destruct (touch_repr d m k R) as (d1 & i & B & _ & R1). exists d1. cbn [vm_step]. rewrite B. split; [reflexivity|exact R1].
  - exists []. split; [reflexivity|]. split; [exact I|]. intros k v. split; [intros []|discriminate].
Qed.

Lemma run_app : forall h1 h2 d, vm_run ltb eqb dflt d (h1 ++ h2) =
  obind (vm_run ltb eqb dflt d h1) (fun d' => vm_run ltb eqb dflt d' h2).
Proof.
  induction h1 as [|o h1 IH]; intros h2 d; [reflexivity|]. cbn [app vm_run].
  destruct (vm_step ltb eqb dflt d o); cbn [obind]; [apply IH|reflexivity..].
Qed.

Lemma run_repr : forall h, exists d, vm_run ltb eqb dflt [] h = Ok d /\ repr d (meaning eqb dflt (rev h)).
Proof.
  intros h. induction h as [|o h IH] using rev_ind.
  - exists []. split; [reflexivity|]. split; [exact I|]. intros k v. split; [intros []|discriminate].
  - destruct IH as (d & E & R). rewrite rev_app_distr. cbn [rev app].
    destruct (step_repr d _ o R) as (d' & E' & R'). exists d'. rewrite run_app, E. cbn [obind vm_run]. rewrite E'.
    split; [reflexivity|]. eapply repr_ext; [exact R'|]. intros k. destruct o; reflexivity.
Qed.

Lemma ordered_unique : forall d1 d2, ordered klt d1 -> ordered klt d2 -> (forall x, In x d1 <-> In x d2) -> d1 = d2.
Proof.
  assert (ne : forall x d, (forall y, In y d -> klt x y) -> ~ In x d).
  { intros x d H I. apply H in I. unfold klt in I. rewrite (st_irrefl _ _ ST) in I. discriminate. }
  induction d1 as [|x d1 IH]; intros [|y d2] O1 O2 E.
  - reflexivity.
  - exfalso. apply (proj2 (E y)). left. reflexivity.
  - exfalso. apply (proj1 (E x)). left. reflexivity.
  - destruct O1 as [X1 O1]. destruct O2 as [X2 O2].
    assert (Exy : x = y).
    { destruct (proj1 (E x) (or_introl eq_refl)) as [H|H]; [auto|].
      destruct (proj2 (E y) (or_introl eq_refl)) as [H'|H']; [auto|].
      apply X1 in H'. apply X2 in H. unfold klt in *. rewrite (ltb_asym _ _ H) in H'. discriminate. }
    subst y. f_equal. apply IH; [exact O1|exact O2|]. intros z. split; intros Hz.
    + destruct (proj1 (E z) (or_intror Hz)) as [<-|H]; [|exact H]. exfalso. exact (ne x d1 X1 Hz).
    + destruct (proj2 (E z) (or_intror Hz)) as [<-|H]; [|exact H]. exfalso. exact (ne x d2 X2 Hz).
Qed.

Lemma vecmap_spec : forall h, exists d, vm_run ltb eqb dflt [] h = Ok d /\
  ordered (fun p q => ltb (fst p) (fst q) = true) d /\
  (forall k v, In (k, v) d <-> meaning eqb dflt (rev h) k = Some v) /\
  forall k,
  vm_has ltb eqb d k = Ok (match meaning eqb dflt (rev h) k with Some _ => true | None => false end) /\
  vm_count ltb eqb d k = Ok (match meaning eqb dflt (rev h) k with Some _ => 1 | None => 0 end) /\
  vm_at ltb eqb d k = match meaning eqb dflt (rev h) k with Some v => Ok v | None => Throw "out_of_range"%string end /\
  vm_atOrDefault ltb eqb dflt d k = Ok (match meaning eqb dflt (rev h) k with Some v => v | None => dflt end) /\
  (exists i, vm_atItr ltb eqb d k = Ok i /\
     match meaning eqb dflt (rev h) k with Some v => nth_error d i = Some (k, v) | None => i = length d end).
Proof.
  intros h. destruct (run_repr h) as (d & E & R). exists d. split; [exact E|].
  split; [exact (proj1 R)|]. split; [exact (proj2 R)|]. intros k. exact (query_spec d _ k R).
Qed.

Lemma vecmap_equality : forall h1 h2 d1 d2, vm_run ltb eqb dflt [] h1 = Ok d1 -> vm_run ltb eqb dflt [] h2 = Ok d2 ->
  (d1 = d2 <-> forall k, meaning eqb dflt (rev h1) k = meaning eqb dflt (rev h2) k).
Proof.
  intros h1 h2 d1 d2 E1 E2. destruct (run_repr h1) as (d1' & E1' & O1 & M1).
  destruct (run_repr h2) as (d2' & E2' & O2 & M2). rewrite E1 in E1'. injection E1' as <-.
  rewrite E2 in E2'. injection E2' as <-. split.
  - intros <- k. destruct (meaning eqb dflt (rev h1) k) as [v|] eqn:Q.
    + symmetry. apply M2, M1. exact Q.
    + destruct (meaning eqb dflt (rev h2) k) as [v|] eqn:Q'; [|reflexivity].
      apply M2, M1 in Q'. congruence.
  - intros H. apply ordered_unique; [exact O1|exact O2|]. intros [k v]. rewrite M1, M2, H. reflexivity.
Qed.

(** Reading never inserts; only the one key changes. *)
Lemma bracket_frame : forall h k d d' i, vm_run ltb eqb dflt [] h = Ok d ->
  vm_bracket ltb eqb dflt d k = Ok (d', i) ->
  (exists v, nth_error d' i = Some (k, v)) /\
  (forall j v, j <> k -> (In (j, v) d' <-> In (j, v) d)) /\
  length d' = if (match meaning eqb dflt (rev h) k with Some _ => true | None => false end) then length d else S (length d).
Proof.
  intros h k d d' i E B. destruct (run_repr h) as (d0 & E0 & [O M]). rewrite E in E0. injection E0 as <-.
  unfold vm_bracket in B.
  destruct (vm_cases d k O) as (p & s & L & Hp & [(v & Ed & Hs)|(Ed & Hs)]); rewrite L in B; cbn [obind] in B.
  - assert (Mk : meaning eqb dflt (rev h) k = Some v). { apply M. rewrite Ed. apply in_hit; auto. }
    rewrite Ed, is_hit in B. injection B as <- <-. rewrite Mk. split; [exists v; apply nth_error_mid|].
    rewrite Ed. split; [|reflexivity]. intros; reflexivity.
  - assert (Mk : meaning eqb dflt (rev h) k = None).
    { destruct (meaning eqb dflt (rev h) k) as [v|] eqn:Q; [|reflexivity]. apply M in Q. rewrite Ed in Q.
      exfalso. exact (in_miss p s k v Hp Hs Q). }
    rewrite Ed, is_miss, insert_at_app in B by assumption. injection B as <- <-. rewrite Mk.
    split; [exists dflt; apply nth_error_mid|]. split.
    + intros j v Hj. rewrite Ed, !in_app_iff. cbn [In]. split; [intros [?|[?|?]]; auto; congruence|intros [?|?]; auto].
    + rewrite Ed, !app_length. cbn [length]. lia.
Qed.

(** ** Initializer lists *)
Lemma nth_sorted_ordered : forall (d : data), (forall i j p q, i < j -> nth_error d i = Some p -> nth_error d j = Some q ->
    ltb (fst q) (fst p) = false) -> ordered (fun p q => ltb (fst q) (fst p) = false) d.
Proof.
  induction d as [|x d IH]; intros H; [exact I|]. split.
  - intros y Hy. apply In_nth_error in Hy. destruct Hy as [n Hn]. apply (H 0 (S n) x y); [lia|reflexivity|exact Hn].
  - apply IH. intros i j p q L E1 E2. apply (H (S i) (S j) p q); [lia|exact E1|exact E2].
Qed.

Lemma ordered_nodup : forall (d : data), ordered (fun p q => ltb (fst q) (fst p) = false) d -> NoDup (map fst d) -> ordered klt d.
Proof.
  induction d as [|x d IH]; intros O N; [exact I|]. destruct O as [Ox O]. cbn in N. inversion N; subst. split; [|auto].
  intros y Hy. unfold klt. destruct (st_total _ _ ST (fst x) (fst y)) as [A|[A|A]]; [exact A| |].
  - exfalso. apply H1. rewrite A. apply in_map. exact Hy.
  - rewrite (Ox y Hy) in A. discriminate.
Qed.

Lemma init_distinct : forall (l d : data), vm_init ltb l d -> NoDup (map fst l) ->
  ordered (fun p q => ltb (fst p) (fst q) = true) d /\ (forall x, In x d <-> In x l) /\
  (forall k v, In (k, v) l -> vm_at ltb eqb d k = Ok v) /\
  (forall k, ~ In k (map fst l) -> vm_at ltb eqb d k = Throw "out_of_range"%string).
Proof.
  intros l d [P S] N. apply nth_sorted_ordered in S.
  assert (N' : NoDup (map fst d)) by (eapply Permutation_NoDup; [apply Permutation_map; exact P|exact N]).
  pose proof (ordered_nodup d S N') as O.
  assert (I : forall x, In x d <-> In x l).
  { intros x. split; intros H; [eapply Permutation_in; [apply Permutation_sym; exact P|exact H]|eapply Permutation_in; eassumption]. }
  split; [exact O|]. split; [exact I|].
  split.
  - intros k v H. apply I in H.
    destruct (vm_cases d k O) as (p & s & L & Hp & [(w & E & Hs)|(E & Hs)]).
    + rewrite E in H. apply in_hit in H; try assumption. subst w. unfold vm_at. rewrite L. cbn [obind].
      rewrite E, is_hit, nth_error_mid. reflexivity.
    + exfalso. rewrite E in H. exact (in_miss p s k v Hp Hs H).
  - intros k H. destruct (vm_cases d k O) as (p & s & L & Hp & [(w & E & Hs)|(E & Hs)]).
    + exfalso. apply H. apply (in_map fst l (k, w)). apply I. rewrite E. apply in_or_app. right. left. reflexivity.
    + unfold vm_at. rewrite L. cbn [obind]. rewrite E, is_miss by assumption. reflexivity.
Qed.
End VM.

Lemma perm_filter : forall A (f : A -> bool) l d, Permutation l d -> Permutation (filter f l) (filter f d).
Proof.
  intros A f l d P. induction P; cbn [filter].
  - constructor.
  - destruct (f x); [constructor|]; assumption.
  - destruct (f x), (f y); try apply Permutation_refl. constructor.
  - eapply perm_trans; eassumption.
Qed.

Lemma init_keeps_duplicates : forall K V (ltb eqb : K -> K -> bool) (l d : list (K * V)), vm_init ltb l d ->
  length d = length l /\ (forall k, length (filter (fun p => eqb (fst p) k) d) = length (filter (fun p => eqb (fst p) k) l)).
Proof.
  intros K V ltb eqb l d [P S]. split; [symmetry; apply Permutation_length; exact P|].
  intros k. symmetry. apply Permutation_length, perm_filter. exact P.
Qed.

(** ** VecSorted *)
Section VS.
Context {T : Type} (cmp : T -> T -> bool) (SW : strict_weak cmp).
Definition nlt (x y : T) : Prop := cmp y x = false.

Lemma cmp_asym : forall a b, cmp a b = true -> cmp b a = false.
Proof.
  intros a b H. destruct (cmp b a) eqn:E; [|reflexivity].
  rewrite <- (sw_irrefl _ SW a). symmetry. eapply (sw_trans _ SW); eassumption.
Qed.

Lemma vs_insert_spec : forall d x, ordered nlt d ->
  exists p s, d = p ++ s /\ vs_insert cmp d x = Ok (p ++ x :: s, length p) /\ ordered nlt (p ++ x :: s) /\
   (forall y, In y p -> cmp y x = true) /\ (forall y, In y s -> cmp y x = false).
Proof.
  intros d x O. destruct (ordered_split _ nlt (fun y => cmp y x) d O) as (p & s & E & Hp & Hs).
  - intros a b H F. unfold nlt in H. destruct (cmp a x) eqn:Q; [reflexivity|].
    rewrite (sw_incomp _ SW b a x H Q) in F. discriminate.
  - exists p, s. split; [exact E|]. unfold vs_insert. rewrite E, lower_bound_spec by assumption. cbn [obind].
    rewrite insert_at_app. split; [reflexivity|]. split; [|auto]. subst d. apply ordered_app in O.
    destruct O as (Op & Os & Ops). apply ordered_app. split; [exact Op|]. split; [split; [exact Hs|exact Os]|].
    intros a b Ha [<-|Hb]; [|auto]. unfold nlt. apply cmp_asym. apply Hp. exact Ha.
Qed.

Lemma vs_run_spec : forall xs d, ordered nlt d ->
  exists d', vs_run cmp d xs = Ok d' /\ ordered nlt d' /\ Permutation d' (xs ++ d).
Proof.
  induction xs as [|x xs IH]; intros d O.
  - exists d. split; [reflexivity|]. split; [exact O|apply Permutation_refl].
  - destruct (vs_insert_spec d x O) as (p & s & E & I & O' & _). cbn [vs_run]. rewrite I. cbn [obind fst].
    destruct (IH _ O') as (d' & R & O2 & P). exists d'. split; [exact R|]. split; [exact O2|].
    eapply perm_trans; [exact P|]. rewrite E. eapply perm_trans; [apply Permutation_app_head, Permutation_sym, Permutation_middle|].
    cbn [app]. apply Permutation_sym, Permutation_middle.
Qed.

Lemma vecsorted_spec : forall xs, exists d, vs_run cmp [] xs = Ok d /\ ordered (fun x y => cmp y x = false) d /\ Permutation d xs.
Proof.
  intros xs. destruct (vs_run_spec xs [] I) as (d & E & O & P). rewrite app_nil_r in P. exists d. auto.
Qed.

(** The returned iterator points to the new element, and the rest keeps its order. *)
Lemma vecsorted_insert : forall xs d x, vs_run cmp [] xs = Ok d ->
  exists p s, d = p ++ s /\ vs_insert cmp d x = Ok (p ++ x :: s, length p) /\
   (forall y, In y p -> cmp y x = true) /\ (forall y, In y s -> cmp y x = false).
Proof.
  intros xs d x E. destruct (vecsorted_spec xs) as (d' & E' & O & _). rewrite E in E'. injection E' as <-.
  destruct (vs_insert_spec d x O) as (p & s & A & B & _ & C & D). exists p, s. auto.
Qed.
End VS.
