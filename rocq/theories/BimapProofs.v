(** Lemmas on the bimap. *)
From Coq Require Import String Arith Bool Lia List Permutation.
From Verif Require Import Common VecSpec VecProofs BimapModel BimapSpec.
Import ListNotations.

(** ** Pointer sets *)
Section PS.
Context {P K : Type} (pr : P -> K) (ltb eqb : K -> K -> bool) (ST : strict_total ltb eqb).

(** Every address is live and the pointees increase strictly. *)
Definition ps_ok (deref : nat -> option P) (s : list nat) : Prop :=
  (forall i, In i s -> deref i <> None) /\
  ordered (fun i j => forall p q, deref i = Some p -> deref j = Some q -> ltb (pr p) (pr q) = true) s.

Lemma irr : forall a, ltb a a = true -> False.
Proof. intros a H. rewrite (st_irrefl _ _ ST) in H. discriminate. Qed.

Lemma ps_find_spec : forall deref s key, ps_ok deref s ->
  (exists i p, In i s /\ deref i = Some p /\ pr p = key /\ ps_find pr ltb deref s key = Ok (Some i)) \/
  ((forall i p, In i s -> deref i = Some p -> pr p <> key) /\ ps_find pr ltb deref s key = Ok None).
Proof.
  intros deref s key. induction s as [|j s IH]; intros [L O].
  - right. split; [intros ? ? []|reflexivity].
  - destruct O as [Oj O]. cbn [ps_find]. destruct (deref j) as [p|] eqn:E.
    2:{ exfalso. apply (L j); [left; reflexivity|exact E]. }
    assert (OK : ps_ok deref s) by (split; [intros i Hi; apply L; right; exact Hi|exact O]).
    destruct (ltb (pr p) key) eqn:F.
    + destruct (IH OK) as [(i & q & I1 & I2 & I3 & I4)|(N & I4)].
      * left. exists i, q. repeat split; auto. right. exact I1.
      * right. split; [|exact I4]. intros i q [<-|Hi] Hq; [|eauto]. rewrite E in Hq. injection Hq as <-.
        intros G. rewrite G in F. exact (irr _ F).
    + destruct (ltb key (pr p)) eqn:G.
      * right. split; [|reflexivity]. intros i q [<-|Hi] Hq H.
        -- rewrite E in Hq. injection Hq as <-. rewrite H in G. exact (irr _ G).
        -- specialize (Oj i Hi p q eq_refl Hq). rewrite H in Oj. congruence.
      * left. exists j, p. repeat split; auto; [left; reflexivity|].
        destruct (st_total _ _ ST (pr p) key) as [H|[H|H]]; congruence.
Qed.

Lemma ps_insert_spec : forall deref s i p, ps_ok deref s -> deref i = Some p ->
  (forall j q, In j s -> deref j = Some q -> pr q <> pr p) ->
  exists s', ps_insert pr ltb deref s i (pr p) = Ok s' /\ Permutation s' (i :: s) /\ ps_ok deref s'.
Proof.
  intros deref s i p. induction s as [|j s IH]; intros [L O] Ei N.
  - exists [i]. split; [reflexivity|]. split; [apply Permutation_refl|]. split.
    + intros k [<-|[]]. congruence.
    + cbn. split; [intros ? []|exact I].
  - destruct O as [Oj O]. cbn [ps_insert]. destruct (deref j) as [q|] eqn:E.
    2:{ exfalso. apply (L j); [left; reflexivity|exact E]. }
    assert (OK : ps_ok deref s) by (split; [intros k Hk; apply L; right; exact Hk|exact O]).
    destruct (ltb (pr q) (pr p)) eqn:F.
    + destruct (IH OK Ei) as (s' & E' & P' & [L' O']).
      { intros k r Hk. apply N. right. exact Hk. }
      rewrite E'. cbn [obind]. exists (j :: s'). split; [reflexivity|]. split.
      * eapply perm_trans; [apply perm_skip; exact P'|apply perm_swap].
      * split; [intros k [<-|Hk]; [congruence|apply L'; exact Hk]|].
        split; [|exact O']. intros k Hk q1 q2 H1 H2. rewrite E in H1. injection H1 as <-.
        apply (Permutation_in _ P') in Hk. destruct Hk as [<-|Hk].
        -- rewrite Ei in H2. injection H2 as <-. exact F.
        -- eapply Oj; eauto.
    + assert (G : ltb (pr p) (pr q) = true).
      { destruct (st_total _ _ ST (pr q) (pr p)) as [H|[H|H]]; [congruence| |exact H].
        exfalso. apply (N j q); [left; reflexivity|exact E|exact H]. }
      rewrite G. exists (i :: j :: s). split; [reflexivity|]. split; [apply Permutation_refl|]. split.
      * intros k [<-|Hk]; [congruence|apply L; exact Hk].
      * split; [|split; [intros y Hy p1 p2 A1 A2; rewrite E in A1; exact (Oj y Hy p1 p2 A1 A2)|exact O]]. intros k [<-|Hk] q1 q2 H1 H2; rewrite Ei in H1; injection H1 as <-.
        -- rewrite E in H2. injection H2 as <-. exact G.
        -- eapply (st_trans _ _ ST); [exact G|]. eapply Oj; eauto.
Qed.

Lemma ordered_filter : forall A (R : A -> A -> Prop) f l, ordered R l -> ordered R (filter f l).
Proof.
  intros A R f l. induction l as [|x l IH]; intros O; [exact I|]. destruct O as [Ox O]. cbn [filter].
  destruct (f x); [|apply IH; exact O]. split; [|apply IH; exact O].
  intros y Hy. apply filter_In in Hy. apply Ox. tauto.
Qed.

Lemma ps_erase_spec : forall deref s i p, ps_ok deref s -> In i s -> deref i = Some p ->
  ps_erase pr ltb deref s (pr p) = Ok (filter (fun j => negb (j =? i)) s).
Proof.
  intros deref s i p OK Hi Ei. unfold ps_erase.
  destruct (ps_find_spec deref s (pr p) OK) as [(j & q & Hj & Ej & Ep & F)|(N & _)].
  - rewrite F. cbn [obind]. assert (j = i); [|subst; reflexivity].
    destruct OK as [_ O].
    destruct (Nat.eq_dec j i) as [|Ne]; [assumption|exfalso].
    apply in_split in Hi. destruct Hi as (l1 & l2 & ->). apply ordered_app in O. destruct O as (_ & [Oi _] & O12).
    apply in_app_or in Hj. destruct Hj as [Hj|[Hj|Hj]]; [|congruence|].
    + pose proof (O12 j i Hj (or_introl eq_refl) q p Ej Ei) as H. rewrite Ep in H. exact (irr _ H).
    + pose proof (Oi j Hj p q Ei Ej) as H. rewrite Ep in H. exact (irr _ H).
  - exfalso. exact (N i p Hi Ei eq_refl).
Qed.

Lemma ps_ok_ext : forall d1 d2 s, (forall i, In i s -> d1 i = d2 i) -> ps_ok d1 s -> ps_ok d2 s.
Proof.
  intros d1 d2 s E [L O]. split.
  - intros i Hi. rewrite <- E by exact Hi. apply L. exact Hi.
  - clear L. induction s as [|i s IH]; [exact I|]. destruct O as [Oi O]. split.
    + intros j Hj p q H1 H2. rewrite <- E in H1 by (left; reflexivity). rewrite <- E in H2 by (right; exact Hj).
      exact (Oi j Hj p q H1 H2).
    + apply IH; [|exact O]. intros j Hj. apply E. right. exact Hj.
Qed.
End PS.

(** ** The bimap *)
Section BM.
Context {T1 T2 : Type} (lt1 eq1 : T1 -> T1 -> bool) (lt2 eq2 : T2 -> T2 -> bool)
  (ST1 : strict_total lt1 eq1) (ST2 : strict_total lt2 eq2).

Definition ids (b : bimap T1 T2) : list nat := map fst (storage b).

Record inv (b : bimap T1 T2) : Prop := {
  inv_ids : NoDup (ids b);
  inv_next : forall i, In i (ids b) -> i < next b;
  inv_p1 : Permutation (set1 b) (ids b);
  inv_p2 : Permutation (set2 b) (ids b);
  inv_o1 : ps_ok fst lt1 (deref b) (set1 b);
  inv_o2 : ps_ok snd lt2 (deref b) (set2 b) }.

Lemma find_assoc : forall (l : list (nat * (T1 * T2))) i p, NoDup (map fst l) ->
  (option_map snd (find (fun e => fst e =? i) l) = Some p <-> In (i, p) l).
Proof.
  induction l as [|[j q] l IH]; intros i p N; cbn [find map] in *.
  - split; [discriminate|intros []].
  - inversion N; subst. cbn [fst]. destruct (Nat.eqb_spec j i) as [->|Ne].
    + cbn. split; [intros H; injection H as ->; left; reflexivity|].
      intros [H|H]; [congruence|]. exfalso. apply H1. apply (in_map fst) in H. exact H.
    + rewrite IH by assumption. split; [intros H; right; exact H|intros [H|H]; [congruence|exact H]].
Qed.
Lemma deref_iff : forall b i p, inv b -> (deref b i = Some p <-> In (i, p) (storage b)).
Proof. intros b i p I. unfold deref. apply find_assoc. exact (inv_ids b I). Qed.
Lemma deref_live : forall b i, inv b -> (In i (ids b) <-> exists p, deref b i = Some p).
Proof.
  intros b i I. split.
  - intros H. unfold ids in H. apply in_map_iff in H. destruct H as ([j p] & <- & H). exists p. apply deref_iff; assumption.
  - intros [p H]. apply deref_iff in H; [|exact I]. apply (in_map fst) in H. exact H.
Qed.

Lemma in_pairs : forall b p, inv b -> (In p (pairs b) <-> exists i, In i (ids b) /\ deref b i = Some p).
Proof.
  intros b p I. unfold pairs. rewrite in_map_iff. split.
  - intros ([i q] & <- & H). exists i. split; [apply (in_map fst) in H; exact H|]. apply deref_iff; assumption.
  - intros (i & _ & H). apply deref_iff in H; [|exact I]. exists (i, p). split; [reflexivity|exact H].
Qed.

Lemma find1_spec : forall b k, inv b ->
  (exists i p, In (i, p) (storage b) /\ fst p = k /\ find1 lt1 b k = Ok (Some i) /\ deref b i = Some p) \/
  ((forall p, In p (pairs b) -> fst p <> k) /\ find1 lt1 b k = Ok None).
Proof.
  intros b k I. destruct (ps_find_spec fst lt1 eq1 ST1 (deref b) (set1 b) k (inv_o1 b I)) as [(i & p & H1 & H2 & H3 & H4)|(N & H)].
  - left. exists i, p. repeat split; auto. apply deref_iff; assumption.
  - right. split; [|exact H]. intros p Hp. apply in_pairs in Hp; [|exact I]. destruct Hp as (i & Hi & Ei).
    apply (N i p); [|exact Ei]. eapply Permutation_in; [apply Permutation_sym, (inv_p1 b I)|exact Hi].
Qed.
Lemma find2_spec : forall b k, inv b ->
  (exists i p, In (i, p) (storage b) /\ snd p = k /\ find2 lt2 b k = Ok (Some i) /\ deref b i = Some p) \/
  ((forall p, In p (pairs b) -> snd p <> k) /\ find2 lt2 b k = Ok None).
Proof.
  intros b k I. destruct (ps_find_spec snd lt2 eq2 ST2 (deref b) (set2 b) k (inv_o2 b I)) as [(i & p & H1 & H2 & H3 & H4)|(N & H)].
  - left. exists i, p. repeat split; auto. apply deref_iff; assumption.
  - right. split; [|exact H]. intros p Hp. apply in_pairs in Hp; [|exact I]. destruct Hp as (i & Hi & Ei).
    apply (N i p); [|exact Ei]. eapply Permutation_in; [apply Permutation_sym, (inv_p2 b I)|exact Hi].
Qed.

(** Two live pairs with the same first (second) component are the same pair. *)
Lemma ps_inj : forall P K (pr : P -> K) ltb eqb (ST : strict_total ltb eqb) d s i j p q, ps_ok pr ltb d s ->
  In i s -> In j s -> d i = Some p -> d j = Some q -> pr p = pr q -> i = j.
Proof.
  intros P K pr ltb eqb ST d s i j p q [_ O] Hi Hj Ei Ej E.
  destruct (Nat.eq_dec i j) as [|Ne]; [assumption|exfalso].
  apply in_split in Hi. destruct Hi as (l1 & l2 & ->). apply ordered_app in O. destruct O as (_ & [Oi _] & O12).
  apply in_app_or in Hj. destruct Hj as [Hj|[Hj|Hj]]; [|congruence|].
  - pose proof (O12 j i Hj (or_introl eq_refl) q p Ej Ei) as H. rewrite E in H. eapply irr; eauto.
  - pose proof (Oi j Hj p q Ei Ej) as H. rewrite E in H. eapply irr; eauto.
Qed.

Lemma same1 : forall b i j p q, inv b -> In (i, p) (storage b) -> In (j, q) (storage b) -> fst p = fst q -> i = j.
Proof.
  intros b i j p q I H1 H2 E.
  apply (ps_inj _ _ fst lt1 eq1 ST1 (deref b) (set1 b) i j p q (inv_o1 b I)); try (apply deref_iff; assumption); try exact E.
  - eapply Permutation_in; [apply Permutation_sym, (inv_p1 b I)|]. apply (in_map fst) in H1. exact H1.
  - eapply Permutation_in; [apply Permutation_sym, (inv_p1 b I)|]. apply (in_map fst) in H2. exact H2.
Qed.
Lemma same2 : forall b i j p q, inv b -> In (i, p) (storage b) -> In (j, q) (storage b) -> snd p = snd q -> i = j.
Proof.
  intros b i j p q I H1 H2 E.
  apply (ps_inj _ _ snd lt2 eq2 ST2 (deref b) (set2 b) i j p q (inv_o2 b I)); try (apply deref_iff; assumption); try exact E.
  - eapply Permutation_in; [apply Permutation_sym, (inv_p2 b I)|]. apply (in_map fst) in H1. exact H1.
  - eapply Permutation_in; [apply Permutation_sym, (inv_p2 b I)|]. apply (in_map fst) in H2. exact H2.
Qed.

Lemma ex1 : forall (b : bimap T1 T2) k, existsb (uses1 eq1 k) (pairs b) = true <-> exists p, In p (pairs b) /\ fst p = k.
Proof.
  intros b k. rewrite existsb_exists. unfold uses1. split; intros (p & H & E); exists p; (split; [exact H|]);
  apply (st_eqb _ _ ST1); exact E.
Qed.
Lemma ex2 : forall (b : bimap T1 T2) k, existsb (uses2 eq2 k) (pairs b) = true <-> exists p, In p (pairs b) /\ snd p = k.
Proof.
  intros b k. rewrite existsb_exists. unfold uses2. split; intros (p & H & E); exists p; (split; [exact H|]);
  apply (st_eqb _ _ ST2); exact E.
Qed.
Lemma bool_iff : forall a (P : Prop), (a = true <-> P) -> ~ P -> a = false.
Proof. intros [] P H N; [exfalso; apply N, H; reflexivity|reflexivity]. Qed.

Lemma has1_spec : forall b k, inv b -> has1 lt1 b k = Ok (existsb (uses1 eq1 k) (pairs b)).
Proof.
  intros b k I. unfold has1, found. destruct (find1_spec b k I) as [(i & p & H1 & H2 & H3 & H4)|(N & H)].
  - rewrite H3. cbn [obind]. f_equal. symmetry. apply ex1. exists p. split; [|exact H2]. apply (in_map snd) in H1. exact H1.
  - rewrite H. cbn [obind]. f_equal. symmetry. eapply bool_iff; [apply ex1|]. intros (p & Hp & E). exact (N p Hp E).
Qed.
Lemma has2_spec : forall b k, inv b -> has2 lt2 b k = Ok (existsb (uses2 eq2 k) (pairs b)).
Proof.
  intros b k I. unfold has2, found. destruct (find2_spec b k I) as [(i & p & H1 & H2 & H3 & H4)|(N & H)].
  - rewrite H3. cbn [obind]. f_equal. symmetry. apply ex2. exists p. split; [|exact H2]. apply (in_map snd) in H1. exact H1.
  - rewrite H. cbn [obind]. f_equal. symmetry. eapply bool_iff; [apply ex2|]. intros (p & Hp & E). exact (N p Hp E).
Qed.

Lemma nodup_app_one : forall A (l : list A) x, NoDup l -> ~ In x l -> NoDup (l ++ [x]).
Proof.
  intros A l x N H. apply NoDup_rev in N. rewrite <- (rev_involutive (l ++ [x])). apply NoDup_rev.
  rewrite rev_app_distr. cbn. constructor; [rewrite <- in_rev; exact H|exact N].
Qed.

Lemma find_app_old : forall (l : list (nat * (T1 * T2))) e i, i <> fst e ->
  find (fun e => fst e =? i) (l ++ [e]) = find (fun e => fst e =? i) l.
Proof.
  induction l as [|a l IH]; intros e i H; cbn.
  - destruct (Nat.eqb_spec (fst e) i); [congruence|reflexivity].
  - destruct (fst a =? i); [reflexivity|]. apply IH. exact H.
Qed.

Lemma emplace_spec : forall b x y, inv b ->
  match spec_step eq1 eq2 (pairs b) (Emplace x y) with
  | Some l => exists b', emplace lt1 lt2 b x y = Ok b' /\ inv b' /\ pairs b' = l
  | None => emplace lt1 lt2 b x y = UB
  end.
Proof.
  intros b x y I. cbn [spec_step]. unfold emplace. rewrite has1_spec, has2_spec by exact I. cbn [obind].
  destruct (existsb (uses1 eq1 x) (pairs b)) eqn:X1; [reflexivity|].
  destruct (existsb (uses2 eq2 y) (pairs b)) eqn:X2; [reflexivity|]. cbn [orb]. unfold emplace_ndebug.
  set (b1 := {| storage := storage b ++ [(next b, (x, y))]; set1 := set1 b; set2 := set2 b; next := S (next b) |}).
  assert (Fresh : ~ In (next b) (ids b)) by (intros H; apply (inv_next b I) in H; lia).
  assert (Nid : NoDup (ids b1)).
  { unfold ids, b1. cbn [storage]. rewrite map_app. apply nodup_app_one; [exact (inv_ids b I)|exact Fresh]. }
  assert (Old : forall i, In i (ids b) -> deref b i = deref b1 i).
  { intros i Hi. unfold deref, b1. cbn [storage]. rewrite find_app_old; [reflexivity|]. cbn. intros ->. contradiction. }
  assert (New : deref b1 (next b) = Some (x, y)).
  { unfold deref. apply find_assoc; [exact Nid|]. unfold b1. cbn [storage]. apply in_or_app. right. left. reflexivity. }
  assert (O1 : ps_ok fst lt1 (deref b1) (set1 b)).
  { eapply ps_ok_ext; [|exact (inv_o1 b I)]. intros i Hi. apply Old. eapply Permutation_in; [exact (inv_p1 b I)|exact Hi]. }
  assert (O2 : ps_ok snd lt2 (deref b1) (set2 b)).
  { eapply ps_ok_ext; [|exact (inv_o2 b I)]. intros i Hi. apply Old. eapply Permutation_in; [exact (inv_p2 b I)|exact Hi]. }
  destruct (ps_insert_spec fst lt1 eq1 ST1 (deref b1) (set1 b) (next b) (x, y) O1 New) as (s1 & E1 & P1 & K1).
  { intros j q Hj Eq E. assert (existsb (uses1 eq1 x) (pairs b) = true); [|congruence]. apply ex1. exists q.
    split; [|exact E]. apply in_pairs; [exact I|]. exists j.
    assert (In j (ids b)) by (eapply Permutation_in; [exact (inv_p1 b I)|exact Hj]). split; [assumption|]. rewrite Old by assumption. exact Eq. }
  destruct (ps_insert_spec snd lt2 eq2 ST2 (deref b1) (set2 b) (next b) (x, y) O2 New) as (s2 & E2 & P2 & K2).
  { intros j q Hj Eq E. assert (existsb (uses2 eq2 y) (pairs b) = true); [|congruence]. apply ex2. exists q.
    split; [|exact E]. apply in_pairs; [exact I|]. exists j.
    assert (In j (ids b)) by (eapply Permutation_in; [exact (inv_p2 b I)|exact Hj]). split; [assumption|]. rewrite Old by assumption. exact Eq. }
  cbn [fst snd] in E1, E2. rewrite E1. cbn [obind]. rewrite E2. cbn [obind].
  eexists. split; [reflexivity|]. split.
  - constructor; cbn [storage set1 set2 next ids].
    + exact Nid.
    + intros i Hi. unfold ids, b1 in Hi. cbn [storage] in Hi. rewrite map_app, in_app_iff in Hi. destruct Hi as [Hi|[<-|[]]].
      * apply (inv_next b I) in Hi. unfold b1. cbn [next]. lia.
      * unfold b1; cbn; lia.
    + unfold ids, b1. cbn [storage]. rewrite map_app. eapply perm_trans; [exact P1|]. cbn [map].
      eapply perm_trans; [apply perm_skip; exact (inv_p1 b I)|]. apply Permutation_cons_append.
    + unfold ids, b1. cbn [storage]. rewrite map_app. eapply perm_trans; [exact P2|]. cbn [map].
      eapply perm_trans; [apply perm_skip; exact (inv_p2 b I)|]. apply Permutation_cons_append.
    + exact K1.
    + exact K2.
  - unfold pairs, b1. cbn [storage]. rewrite map_app. reflexivity.
Qed.

Lemma map_filter_fst : forall (l : list (nat * (T1 * T2))) i,
  map fst (filter (fun e => negb (fst e =? i)) l) = filter (fun j => negb (j =? i)) (map fst l).
Proof.
  induction l as [|[j p] l IH]; intros i; [reflexivity|]. cbn [filter map fst]. destruct (j =? i); cbn [negb map fst filter]; rewrite IH; reflexivity.
Qed.
Lemma find_filter : forall (l : list (nat * (T1 * T2))) i j, j <> i ->
  find (fun e => fst e =? j) (filter (fun e => negb (fst e =? i)) l) = find (fun e => fst e =? j) l.
Proof.
  induction l as [|[k p] l IH]; intros i j H; [reflexivity|]. cbn [filter find fst].
  destruct (Nat.eqb_spec k i) as [->|Nk]; cbn [negb find fst].
  - destruct (Nat.eqb_spec i j); [congruence|]. apply IH. exact H.
  - destruct (k =? j); [reflexivity|]. apply IH. exact H.
Qed.
Lemma ps_ok_filter : forall P K (pr : P -> K) ltb d s f, ps_ok pr ltb d s -> ps_ok pr ltb d (filter f s).
Proof.
  intros P K pr ltb d s f [L O]. split; [|apply ordered_filter; exact O].
  intros i Hi. apply filter_In in Hi. apply L. tauto.
Qed.

Lemma filter_pairs : forall (l : list (nat * (T1 * T2))) f i p, NoDup (map fst l) -> In (i, p) l ->
  (forall j q, In (j, q) l -> (f q = true <-> j = i)) ->
  map snd (filter (fun e => negb (fst e =? i)) l) = filter (fun q => negb (f q)) (map snd l).
Proof.
  intros l f i p N H Hf. clear N H p. induction l as [|[j q] l IH]; [reflexivity|].
  cbn [filter map snd fst]. pose proof (Hf j q (or_introl eq_refl)) as Hj.
  assert (IH' : map snd (filter (fun e => negb (fst e =? i)) l) = filter (fun q => negb (f q)) (map snd l)).
  { apply IH. intros k r Hk. apply Hf. right. exact Hk. }
  destruct (Nat.eqb_spec j i) as [E|E].
  - assert (f q = true) by (apply Hj; exact E). rewrite H. cbn [negb]. exact IH'.
  - assert (f q = false) by (destruct (f q); [exfalso; apply E, Hj; reflexivity|reflexivity]). rewrite H.
    cbn [negb map snd]. rewrite IH'. reflexivity.
Qed.

Lemma erase_pair_spec : forall b i p, inv b -> In (i, p) (storage b) ->
  exists b', erase_pair lt1 lt2 b i = Ok b' /\ inv b' /\
   storage b' = filter (fun e => negb (fst e =? i)) (storage b).
Proof.
  intros b i p I H. unfold erase_pair. assert (D : deref b i = Some p) by (apply deref_iff; assumption). rewrite D.
  assert (Hi : In i (ids b)) by (apply (in_map fst) in H; exact H).
  rewrite (ps_erase_spec fst lt1 eq1 ST1 (deref b) (set1 b) i p (inv_o1 b I));
    [|eapply Permutation_in; [apply Permutation_sym, (inv_p1 b I)|exact Hi]|exact D]. cbn [obind].
  rewrite (ps_erase_spec snd lt2 eq2 ST2 (deref b) (set2 b) i p (inv_o2 b I));
    [|eapply Permutation_in; [apply Permutation_sym, (inv_p2 b I)|exact Hi]|exact D]. cbn [obind].
  eexists. split; [reflexivity|]. split; [|reflexivity].
  assert (Dx : forall j, j <> i -> deref b j = deref {| storage := filter (fun e => negb (fst e =? i)) (storage b);
     set1 := filter (fun j => negb (j =? i)) (set1 b); set2 := filter (fun j => negb (j =? i)) (set2 b); next := next b |} j).
  { intros j Hj. unfold deref. cbn [storage]. rewrite find_filter by exact Hj. reflexivity. }
  constructor; unfold ids; cbn [storage set1 set2 next].
  - rewrite map_filter_fst. apply NoDup_filter. exact (inv_ids b I).
  - intros j Hj. rewrite map_filter_fst in Hj. apply filter_In in Hj. apply (inv_next b I). exact (proj1 Hj).
  - rewrite map_filter_fst. apply perm_filter. exact (inv_p1 b I).
  - rewrite map_filter_fst. apply perm_filter. exact (inv_p2 b I).
  - eapply ps_ok_ext; [|apply ps_ok_filter; exact (inv_o1 b I)]. intros j Hj. apply filter_In in Hj. apply Dx.
    destruct Hj as [_ Hj]. apply negb_true_iff, Nat.eqb_neq in Hj. exact Hj.
  - eapply ps_ok_ext; [|apply ps_ok_filter; exact (inv_o2 b I)]. intros j Hj. apply filter_In in Hj. apply Dx.
    destruct Hj as [_ Hj]. apply negb_true_iff, Nat.eqb_neq in Hj. exact Hj.
Qed.

Lemma erase1_spec : forall b x, inv b ->
  match spec_step eq1 eq2 (pairs b) (Erase1 x) with
  | Some l => exists b', erase1 lt1 lt2 b x = Ok b' /\ inv b' /\ pairs b' = l
  | None => erase1 lt1 lt2 b x = UB
  end.
Proof.
  intros b x I. cbn [spec_step]. unfold erase1. destruct (find1_spec b x I) as [(i & p & H1 & H2 & H3 & H4)|(N & H)].
  - assert (X : existsb (uses1 eq1 x) (pairs b) = true).
    { apply ex1. exists p. split; [apply (in_map snd) in H1; exact H1|exact H2]. }
    rewrite X, H3. cbn [obind]. destruct (erase_pair_spec b i p I H1) as (b' & E & I' & S). rewrite E. cbn [obind].
    assert (Pb : pairs b' = filter (fun q => negb (uses1 eq1 x q)) (pairs b)).
    { unfold pairs. rewrite S. apply (filter_pairs _ _ i p); [exact (inv_ids b I)|exact H1|].
      intros j q Hq. unfold uses1. rewrite (st_eqb _ _ ST1). split.
      - intros E'. eapply same1; [exact I|exact Hq|exact H1|congruence].
      - intros ->. apply deref_iff in Hq; [|exact I]. congruence. }
    rewrite has1_spec by exact I'. cbn [obind].
    replace (existsb (uses1 eq1 x) (pairs b')) with false.
    + exists b'. auto.
    + symmetry. rewrite Pb. apply not_true_iff_false. intros Q. apply existsb_exists in Q.
      destruct Q as (q & Hq & U). apply filter_In in Hq. destruct Hq as [_ Hq]. rewrite U in Hq. discriminate.
  - assert (X : existsb (uses1 eq1 x) (pairs b) = false).
    { eapply bool_iff; [apply ex1|]. intros (p & Hp & E). exact (N p Hp E). }
    rewrite X, H. reflexivity.
Qed.
Lemma erase2_spec : forall b y, inv b ->
  match spec_step eq1 eq2 (pairs b) (Erase2 y) with
  | Some l => exists b', erase2 lt1 lt2 b y = Ok b' /\ inv b' /\ pairs b' = l
  | None => erase2 lt1 lt2 b y = UB
  end.
Proof.
  intros b y I. cbn [spec_step]. unfold erase2. destruct (find2_spec b y I) as [(i & p & H1 & H2 & H3 & H4)|(N & H)].
  - assert (X : existsb (uses2 eq2 y) (pairs b) = true).
    { apply ex2. exists p. split; [apply (in_map snd) in H1; exact H1|exact H2]. }
    rewrite X, H3. cbn [obind]. destruct (erase_pair_spec b i p I H1) as (b' & E & I' & S). rewrite E. cbn [obind].
    assert (Pb : pairs b' = filter (fun q => negb (uses2 eq2 y q)) (pairs b)).
    { unfold pairs. rewrite S. apply (filter_pairs _ _ i p); [exact (inv_ids b I)|exact H1|].
      intros j q Hq. unfold uses2. rewrite (st_eqb _ _ ST2). split.
      - intros E'. eapply same2; [exact I|exact Hq|exact H1|congruence].
      - intros ->. apply deref_iff in Hq; [|exact I]. congruence. }
    rewrite has2_spec by exact I'. cbn [obind].
    replace (existsb (uses2 eq2 y) (pairs b')) with false.
    + exists b'. auto.
    + symmetry. rewrite Pb. apply not_true_iff_false. intros Q. apply existsb_exists in Q.
      destruct Q as (q & Hq & U). apply filter_In in Hq. destruct Hq as [_ Hq]. rewrite U in Hq. discriminate.
  - assert (X : existsb (uses2 eq2 y) (pairs b) = false).
    { eapply bool_iff; [apply ex2|]. intros (p & Hp & E). exact (N p Hp E). }
    rewrite X, H. reflexivity.
Qed.

Lemma inv_empty : forall n, inv {| storage := []; set1 := []; set2 := []; next := n |}.
Proof.
  intros n. constructor; cbn; auto using Permutation_refl.
  - constructor.
  - intros ? [].
  - split; [intros ? []|exact I].
  - split; [intros ? []|exact I].
Qed.

Lemma step_spec : forall b o, inv b ->
  match spec_step eq1 eq2 (pairs b) o with
  | Some l => exists b', bm_step lt1 lt2 b o = Ok b' /\ inv b' /\ pairs b' = l
  | None => bm_step lt1 lt2 b o = UB
  end.
Proof.
  intros b [x y|x|y|] I; [apply emplace_spec|apply erase1_spec|apply erase2_spec|]; try exact I.
  exists (clear b). split; [reflexivity|]. split; [apply inv_empty|reflexivity].
Qed.

Lemma run_spec : forall h b, inv b ->
  match spec_run eq1 eq2 (pairs b) h with
  | Some l => exists b', bm_run lt1 lt2 b h = Ok b' /\ inv b' /\ pairs b' = l
  | None => bm_run lt1 lt2 b h = UB
  end.
Proof.
  induction h as [|o h IH]; intros b I.
  - exists b. auto.
  - cbn [spec_run bm_run]. pose proof (step_spec b o I) as S. destruct (spec_step eq1 eq2 (pairs b) o) as [l|].
    + destruct S as (b' & E & I' & <-). rewrite E. cbn [obind]. apply IH. exact I'.
    + rewrite S. reflexivity.
Qed.

(** The specification list always is one-to-one. *)
Lemma nodup_map_inj : forall (b : bimap T1 T2), inv b -> NoDup (map fst (pairs b)) /\ NoDup (map snd (pairs b)).
Proof.
  intros b I. pose proof (inv_ids b I) as N. unfold ids, pairs in *.
  assert (S1 : forall i j p q, In (i, p) (storage b) -> In (j, q) (storage b) -> fst p = fst q -> i = j) by (intros; eapply same1; eauto).
  assert (S2 : forall i j p q, In (i, p) (storage b) -> In (j, q) (storage b) -> snd p = snd q -> i = j) by (intros; eapply same2; eauto).
  clear I. rewrite !map_map. induction (storage b) as [|[i p] l IH]; [split; constructor|].
  cbn [map fst snd] in *. inversion N; subst.
  destruct IH as [IH1 IH2]; [exact H2|intros; eapply S1; try (right; eassumption); eassumption|intros; eapply S2; try (right; eassumption); eassumption|].
  split; constructor; try assumption.
  - intros H. apply in_map_iff in H. destruct H as ([j q] & E & H). apply H1. cbn in E.
    rewrite <- (S1 j i q p (or_intror H) (or_introl eq_refl) E). apply (in_map fst) in H. exact H.
  - intros H. apply in_map_iff in H. destruct H as ([j q] & E & H). apply H1. cbn in E.
    rewrite <- (S2 j i q p (or_intror H) (or_introl eq_refl) E). apply (in_map fst) in H. exact H.
Qed.

Lemma at_spec : forall b, inv b ->
  (forall x y, at1 lt1 b x = Ok y <-> In (x, y) (pairs b)) /\
  (forall x y, at2 lt2 b y = Ok x <-> In (x, y) (pairs b)) /\
  (forall x, at1 lt1 b x = Throw "out_of_range" <-> ~ In x (map fst (pairs b))) /\
  (forall y, at2 lt2 b y = Throw "out_of_range" <-> ~ In y (map snd (pairs b))).
Proof.
  intros b I.
  assert (A1 : forall x, (exists y, In (x, y) (pairs b) /\ at1 lt1 b x = Ok y /\ forall y', In (x, y') (pairs b) -> y' = y) \/
     (~ In x (map fst (pairs b)) /\ at1 lt1 b x = Throw "out_of_range")).
  { intros x. unfold at1. destruct (find1_spec b x I) as [(i & [x' y] & H1 & H2 & H3 & H4)|(N & H)].
    - left. cbn in H2. subst x'. exists y. rewrite H3. cbn [obind]. rewrite H4. split; [apply (in_map snd) in H1; exact H1|].
      split; [reflexivity|]. intros y' Hy'. unfold pairs in Hy'. apply in_map_iff in Hy'. destruct Hy' as ([j q] & E & Hq).
      cbn in E. subst q. assert (j = i) by (eapply same1; eauto). subst j. apply deref_iff in Hq; [|exact I]. congruence.
    - right. rewrite H. split; [|reflexivity]. intros Hx. apply in_map_iff in Hx. destruct Hx as (p & E & Hp). exact (N p Hp E). }
  assert (A2 : forall y, (exists x, In (x, y) (pairs b) /\ at2 lt2 b y = Ok x /\ forall x', In (x', y) (pairs b) -> x' = x) \/
     (~ In y (map snd (pairs b)) /\ at2 lt2 b y = Throw "out_of_range")).
  { intros y. unfold at2. destruct (find2_spec b y I) as [(i & [x y'] & H1 & H2 & H3 & H4)|(N & H)].
    - left. cbn in H2. subst y'. exists x. rewrite H3. cbn [obind]. rewrite H4. split; [apply (in_map snd) in H1; exact H1|].
      split; [reflexivity|]. intros x' Hx'. unfold pairs in Hx'. apply in_map_iff in Hx'. destruct Hx' as ([j q] & E & Hq).
      cbn in E. subst q. assert (j = i) by (eapply same2; eauto). subst j. apply deref_iff in Hq; [|exact I]. congruence.
    - right. rewrite H. split; [|reflexivity]. intros Hy. apply in_map_iff in Hy. destruct Hy as (p & E & Hp). exact (N p Hp E). }
  split; [|split; [|split]].
  - intros x y. destruct (A1 x) as [(z & H1 & H2 & H3)|(N & H)].
    + rewrite H2. split; [intros E; injection E as ->; exact H1|intros H; f_equal; symmetry; apply H3; exact H].
    + rewrite H. split; [discriminate|]. intros Hin. exfalso. apply N. apply (in_map fst) in Hin. exact Hin.
  - intros x y. destruct (A2 y) as [(z & H1 & H2 & H3)|(N & H)].
    + rewrite H2. split; [intros E; injection E as ->; exact H1|intros H; f_equal; symmetry; apply H3; exact H].
    + rewrite H. split; [discriminate|]. intros Hin. exfalso. apply N. apply (in_map snd) in Hin. exact Hin.
  - intros x. destruct (A1 x) as [(z & H1 & H2 & H3)|(N & H)].
    + rewrite H2. split; [discriminate|]. intros N. exfalso. apply N. apply (in_map fst) in H1. exact H1.
    + rewrite H. split; auto.
  - intros y. destruct (A2 y) as [(z & H1 & H2 & H3)|(N & H)].
    + rewrite H2. split; [discriminate|]. intros N. exfalso. apply N. apply (in_map snd) in H1. exact H1.
    + rewrite H. split; auto.
Qed.

Lemma bimap_spec : forall h,
  match spec_run eq1 eq2 [] h with
  | None => bm_run lt1 lt2 empty_bimap h = UB
  | Some l => exists b, bm_run lt1 lt2 empty_bimap h = Ok b /\ pairs b = l /\ size b = length l /\
     NoDup (map fst l) /\ NoDup (map snd l) /\
     (forall x y, at1 lt1 b x = Ok y <-> In (x, y) l) /\
     (forall x y, at2 lt2 b y = Ok x <-> In (x, y) l) /\
     (forall x, at1 lt1 b x = Throw "out_of_range" <-> ~ In x (map fst l)) /\
     (forall y, at2 lt2 b y = Throw "out_of_range" <-> ~ In y (map snd l)) /\
     (forall x, has1 lt1 b x = Ok (existsb (fun p => eq1 (fst p) x) l) /\
        count1 lt1 b x = Ok (if existsb (fun p => eq1 (fst p) x) l then 1 else 0)) /\
     (forall y, has2 lt2 b y = Ok (existsb (fun p => eq2 (snd p) y) l) /\
        count2 lt2 b y = Ok (if existsb (fun p => eq2 (snd p) y) l then 1 else 0))
  end.
Proof.
  intros h. pose proof (run_spec h empty_bimap (inv_empty 0)) as R. change (pairs empty_bimap) with (@nil (T1 * T2)) in R.
  destruct (spec_run eq1 eq2 [] h) as [l|]; [|exact R]. destruct R as (b & E & I & <-). exists b.
  split; [exact E|]. split; [reflexivity|]. split; [unfold size, pairs; rewrite map_length; reflexivity|].
  destruct (nodup_map_inj b I) as [N1 N2]. split; [exact N1|]. split; [exact N2|].
  destruct (at_spec b I) as (A1 & A2 & A3 & A4). split; [exact A1|]. split; [exact A2|]. split; [exact A3|]. split; [exact A4|].
  split; [intros x|intros y].
  - unfold count1. rewrite has1_spec by exact I. split; reflexivity.
  - unfold count2. rewrite has2_spec by exact I. split; reflexivity.
Qed.
End BM.

Section BRACKET.
Context {T1 T2 : Type} (lt1 eq1 : T1 -> T1 -> bool) (lt2 eq2 : T2 -> T2 -> bool)
  (ST1 : strict_total lt1 eq1) (ST2 : strict_total lt2 eq2) (d2 : T2).

Lemma bracket_spec : forall h l b k, spec_run eq1 eq2 [] h = Some l -> bm_run lt1 lt2 empty_bimap h = Ok b ->
  (* present: nothing changes and the entry of the key is referred to *)
  (forall y nd, In (k, y) l -> exists i, bracket1 lt1 lt2 d2 nd b k = Ok (b, i) /\ deref b i = Some (k, y)) /\
  (* absent, default partner free: a new pair *)
  (~ In k (map fst l) -> ~ In d2 (map snd l) ->
     exists b' i, bracket1 lt1 lt2 d2 false b k = Ok (b', i) /\ deref b' i = Some (k, d2) /\ pairs b' = l ++ [(k, d2)]) /\
  (* absent, default partner taken: precondition violated *)
  (~ In k (map fst l) -> In d2 (map snd l) -> bracket1 lt1 lt2 d2 false b k = UB).
Proof.
  intros h l b k Hl Hb.
  pose proof (run_spec lt1 eq1 lt2 eq2 ST1 ST2 h empty_bimap (inv_empty lt1 lt2 0)) as R.
  change (pairs empty_bimap) with (@nil (T1 * T2)) in R. rewrite Hl in R. destruct R as (b0 & E & I & P).
  rewrite Hb in E. injection E as <-. unfold bracket1.
  split; [|split].
  - intros y nd H. destruct (find1_spec lt1 eq1 lt2 ST1 b k I) as [(i & p & H1 & H2 & H3 & H4)|(N & F)].
    + exists i. rewrite H3. cbn [obind]. split; [reflexivity|].
      rewrite <- P in H. unfold pairs in H. apply in_map_iff in H. destruct H as ([j q] & Eq & Hq). cbn in Eq. subst q.
      assert (j = i) by (eapply (same1 lt1 eq1 lt2 ST1 b); eauto). subst j. apply (deref_iff lt1 lt2); assumption.
    + exfalso. rewrite <- P in H. exact (N _ H eq_refl).
  - intros H1 H2. destruct (find1_spec lt1 eq1 lt2 ST1 b k I) as [(i & p & A1 & A2 & A3 & A4)|(N & F)].
    { exfalso. apply H1. rewrite <- P, <- A2. apply (in_map snd) in A1. apply (in_map fst) in A1. exact A1. }
    rewrite F. cbn [obind]. pose proof (emplace_spec lt1 eq1 lt2 eq2 ST1 ST2 b k d2 I) as S. cbn [spec_step] in S.
    replace (existsb (uses1 eq1 k) (pairs b) || existsb (uses2 eq2 d2) (pairs b)) with false in S.
    + destruct S as (b' & E & I' & Pb). rewrite E. cbn [obind]. exists b', (next b). split; [reflexivity|].
      rewrite <- P. split; [|exact Pb]. apply (deref_iff lt1 lt2); [exact I'|].
      unfold emplace in E. rewrite (has1_spec lt1 eq1 lt2 ST1 b k I), (has2_spec lt1 lt2 eq2 ST2 b d2 I) in E. cbn [obind] in E.
      destruct (_ || _); [discriminate|]. unfold emplace_ndebug in E.
      destruct (ps_insert _ _ _ (set1 b) _ _); cbn [obind] in E; try discriminate.
      destruct (ps_insert _ _ _ (set2 b) _ _); cbn [obind] in E; try discriminate.
      injection E as <-. cbn [storage]. apply in_or_app. right. left. reflexivity.
    + symmetry. apply orb_false_iff. split; apply not_true_iff_false; intros Q.
      * apply (ex1 lt1 eq1 ST1) in Q. destruct Q as (p & Hp & Ep). apply H1. rewrite <- P, <- Ep. apply in_map. exact Hp.
      * apply (ex2 lt2 eq2 ST2) in Q. destruct Q as (p & Hp & Ep). apply H2. rewrite <- P, <- Ep. apply in_map. exact Hp.
  - intros H1 H2. destruct (find1_spec lt1 eq1 lt2 ST1 b k I) as [(i & p & A1 & A2 & A3 & A4)|(N & F)].
    { exfalso. apply H1. rewrite <- P, <- A2. apply (in_map snd) in A1. apply (in_map fst) in A1. exact A1. }
    rewrite F. cbn [obind]. pose proof (emplace_spec lt1 eq1 lt2 eq2 ST1 ST2 b k d2 I) as S. cbn [spec_step] in S.
    replace (existsb (uses2 eq2 d2) (pairs b)) with true in S.
    + rewrite orb_true_r in S. rewrite S. reflexivity.
    + symmetry. apply (ex2 lt2 eq2 ST2). rewrite <- P in H2. apply in_map_iff in H2. destruct H2 as (p & Ep & Hp). exists p. auto.
Qed.
End BRACKET.
