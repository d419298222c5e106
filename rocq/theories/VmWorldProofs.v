(** Lemmas about programs over several VecMaps. *)
From Coq Require Import String Arith Bool Lia List.
From Verif Require Import Common VecModel VecSpec VecProofs VmWorldModel VmWorldSpec.
Import ListNotations.

Section P.
Context {K V : Type} (ltb eqb : K -> K -> bool) (dflt : V) (ST : strict_total ltb eqb).
Notation repr := (@VecProofs.repr K V ltb).
Notation bracket := (vm_bracket ltb eqb dflt).

Lemma touch_at : forall (f : K -> option V) k j,
  touch eqb dflt f k j = match f j with Some v => Some v | None => if eqb k j then Some dflt else None end.
Proof.
  intros f k j. unfold touch, put. destruct (f k) eqn:E.
  - destruct (f j) eqn:F; [reflexivity|]. destruct (eqb k j) eqn:Q; [|reflexivity].
    apply (st_eqb _ _ ST) in Q. subst j. congruence.
  - destruct (eqb k j) eqn:Q; [|destruct (f j); reflexivity].
    apply (st_eqb _ _ ST) in Q. subst j. rewrite E. reflexivity.
Qed.

Lemma repr_none : repr (@nil (K * V)) none.
Proof. split; [exact I|]. intros k v. split; [intros []|discriminate]. Qed.

(** One subscript. *)
Lemma bracket_touch : forall d f k, repr d f ->
  exists d' i, bracket d k = Ok (d', i) /\ repr d' (touch eqb dflt f k) /\ nth_error d' i = Some (k, value dflt f k) /\
   (forall q p, nth_error d' q = Some p -> (q < i -> ltb (fst p) k = true) /\ (i < q -> ltb k (fst p) = true)) /\
   (known f k = true -> d' = d) /\
   (known f k = false -> length d' = S (length d) /\ (forall q, q < i -> nth_error d' q = nth_error d q) /\
      forall q p, nth_error d q = Some p -> ltb (fst p) k = true -> q < i).
Proof.
  intros d f k R. destruct (touch_repr ltb eqb dflt ST d f k R) as (d' & i & B & (p & s & v & E & Li & Ev & Hp & Hs) & R').
  exists d', i. split; [exact B|]. split.
  { eapply repr_ext; [exact R'|]. intros j. symmetry. apply touch_at. }
  split. { rewrite E, <- Li, nth_error_mid. unfold value. rewrite Ev. reflexivity. }
  split.
  { intros q x N. rewrite E in N. split; intros L.
    - rewrite nth_error_app1 in N by lia. apply Hp. eapply nth_error_In. exact N.
    - rewrite nth_error_app2 in N by lia. apply Hs. destruct (q - length p) as [|n] eqn:Q; [lia|].
      cbn [nth_error] in N. eapply nth_error_In. exact N. }
  destruct R as [O M].
  destruct (vm_cases ltb eqb ST d k O) as (p0 & s0 & L0 & Hp0 & [(v0 & E0 & Hs0)|(E0 & Hs0)]).
  - assert (Mk : f k = Some v0). { apply M. rewrite E0. apply (in_hit ltb eqb ST); auto. }
    unfold known. rewrite Mk. split; [intros _|discriminate].
    unfold vm_bracket in B. rewrite L0 in B. cbn [obind] in B. rewrite E0 in B at 1.
    rewrite (is_hit ltb eqb ST) in B. congruence.
  - assert (Mk : f k = None).
    { destruct (f k) as [u|] eqn:Q; [|reflexivity]. apply M in Q. rewrite E0 in Q. exfalso.
      exact (in_miss ltb eqb ST p0 s0 k u Hp0 Hs0 Q). }
    unfold known. rewrite Mk. split; [discriminate|intros _].
    unfold vm_bracket in B. rewrite L0 in B. cbn [obind] in B. rewrite E0 in B at 1.
    rewrite (is_miss ltb eqb ST) in B by assumption. rewrite E0, insert_at_app in B.
    injection B as B1 B2. subst i. rewrite <- B1, E0. split; [rewrite !app_length; cbn [length]; lia|]. split.
    + intros q L. rewrite !nth_error_app1 by lia. reflexivity.
    + intros q x N T. destruct (le_lt_dec (length p0) q) as [L|L]; [|lia].
      rewrite nth_error_app2 in N by lia. apply nth_error_In in N. apply Hs0 in N.
      rewrite (ltb_asym ltb eqb ST _ _ T) in N. discriminate.
Qed.

(** Writing a value through a reference. *)
Lemma set_repr : forall (d : list (K * V)) f q k u v, repr d f -> nth_error d q = Some (k, u) -> repr (set_at q (k, v) d) (put eqb f k v).
Proof.
  intros d f q k u v [O M] N. destruct (nth_error_split _ _ N) as (p & s & E & L). subst d q. rewrite set_at_app.
  apply ordered_app in O. destruct O as (A1 & [A0 A2] & A3).
  assert (Hp : forall x, In x p -> ltb (fst x) k = true).
  { intros x Hx. apply (A3 x (k, u) Hx). left. reflexivity. }
  assert (Hs : forall x, In x s -> ltb k (fst x) = true) by (intros x Hx; apply (A0 x Hx)).
  split.
  - apply ordered_mid; try assumption. apply ordered_app. split; [exact A1|]. split; [exact A2|].
    intros x y Hx Hy. apply A3; [exact Hx|right; exact Hy].
  - intros j w. unfold put. destruct (eqb k j) eqn:Q.
    + apply (st_eqb _ _ ST) in Q. subst j. rewrite (in_hit ltb eqb ST) by assumption. split; congruence.
    + assert (k <> j) by (intros ->; rewrite (eqb_refl' ltb eqb ST) in Q; discriminate).
      rewrite <- M. rewrite !in_app_iff. cbn [In]. split; intros [?|[?|?]]; auto; congruence.
Qed.

(** Two subscripts of one map. *)
Lemma two : forall d f x y re, repr d f ->
  exists d1 i d2 j, bracket d x = Ok (d1, i) /\ bracket d1 y = Ok (d2, j) /\
   repr d2 (touch eqb dflt (touch eqb dflt f x) y) /\
   nth_error d2 j = Some (y, value dflt f y) /\
   (length d2 =? length d1) || (negb re && (i <? j)) = link_safe ltb eqb f x y re /\
   (link_safe ltb eqb f x y re = true -> nth_error d2 i = Some (x, value dflt f x)).
Proof.
  intros d f x y re R. destruct (bracket_touch d f x R) as (d1 & i & B1 & R1 & N1 & _).
  destruct (bracket_touch d1 _ y R1) as (d2 & j & B2 & R2 & N2 & P2 & Y2 & Z2).
  exists d1, i, d2, j. split; [exact B1|]. split; [exact B2|]. split; [exact R2|].
  assert (KN : known (touch eqb dflt f x) y = known f y || eqb x y).
  { unfold known. rewrite touch_at. destruct (f y); [reflexivity|]. destruct (eqb x y); reflexivity. }
  assert (VY : value dflt (touch eqb dflt f x) y = value dflt f y).
  { unfold value. rewrite touch_at. destruct (f y); [reflexivity|]. destruct (eqb x y); reflexivity. }
  split; [rewrite N2, VY; reflexivity|]. unfold link_safe. rewrite <- KN.
  destruct (known (touch eqb dflt f x) y) eqn:Q.
  - rewrite (Y2 eq_refl), Nat.eqb_refl. cbn [orb]. split; [reflexivity|]. intros _. exact N1.
  - destruct (Z2 eq_refl) as (L & S1 & S2).
    replace (length d2 =? length d1) with false by (symmetry; apply Nat.eqb_neq; lia). cbn [orb].
    assert (W : (i <? j) = ltb x y).
    { destruct (ltb x y) eqn:T.
      - apply Nat.ltb_lt. apply (S2 _ _ N1). exact T.
      - destruct (i <? j) eqn:U; [|reflexivity]. apply Nat.ltb_lt in U. rewrite <- (S1 i U) in N1.
        destruct (P2 _ _ N1) as [G _]. specialize (G U). cbn [fst] in G. congruence. }
    rewrite W. split; [reflexivity|]. intros G. apply andb_prop in G. destruct G as [_ G]. rewrite <- W in G.
    apply Nat.ltb_lt in G. rewrite (S1 i G). exact N1.
Qed.

Lemma link_spec : forall d f a b (rf re : bool), repr d f ->
  if (if rf then link_safe ltb eqb f b a re else link_safe ltb eqb f a b re)
  then exists d', link ltb eqb dflt d a b rf re = Ok d' /\ repr d' (put eqb (touch eqb dflt f b) a (value dflt f b))
  else link ltb eqb dflt d a b rf re = UB.
Proof.
  intros d f a b rf re R. unfold link.
  assert (X : forall k, put eqb (touch eqb dflt (touch eqb dflt f b) a) a (value dflt f b) k =
                        put eqb (touch eqb dflt f b) a (value dflt f b) k).
  { intros k. unfold put at 1 2. destruct (eqb a k) eqn:Q; [reflexivity|]. rewrite touch_at, Q. destruct (touch _ _ _ _ _); reflexivity. }
  assert (Y : forall k, put eqb (touch eqb dflt (touch eqb dflt f a) b) a (value dflt f b) k =
                        put eqb (touch eqb dflt f b) a (value dflt f b) k).
  { intros k. unfold put at 1 2. destruct (eqb a k) eqn:Q; [reflexivity|]. rewrite !touch_at, Q. destruct (f k); reflexivity. }
  destruct rf.
  - destruct (two d f b a re R) as (d1 & i & d2 & j & B1 & B2 & R2 & N2 & Sf & N1).
    rewrite B1. cbn [obind]. rewrite B2. cbn [obind]. rewrite Sf.
    destruct (link_safe ltb eqb f b a re); [|reflexivity]. rewrite (N1 eq_refl), N2. cbn [fst snd].
    eexists. split; [reflexivity|]. eapply repr_ext; [|exact X]. eapply set_repr; [exact R2|exact N2].
  - destruct (two d f a b re R) as (d1 & i & d2 & j & B1 & B2 & R2 & N2 & Sf & N1).
    rewrite B1. cbn [obind]. rewrite B2. cbn [obind]. rewrite Sf.
    destruct (link_safe ltb eqb f a b re); [|reflexivity]. rewrite (N1 eq_refl), N2. cbn [fst snd].
    eexists. split; [reflexivity|]. eapply repr_ext; [|exact Y]. eapply set_repr; [exact R2|exact (N1 eq_refl)].
Qed.

Notation shows := (@VmWorldSpec.shows K V ltb).
Lemma shows_at : forall w s i, shows w s ->
  (w i = None /\ s i = None) \/ exists d f, w i = Some d /\ s i = Some f /\ repr d f.
Proof.
  intros w s i H. specialize (H i). destruct (w i) as [d|], (s i) as [f|]; try contradiction; [right|left; auto].
  exists d, f. auto.
Qed.
Lemma shows_set : forall w s i d f, shows w s -> repr d f -> shows (vset w i (Some d)) (give s i (Some f)).
Proof.
  intros w s i d f H R j. unfold vset, give. destruct (j =? i); [exact R|apply H].
Qed.
Lemma shows_end : forall w s i, shows w s -> shows (vset w i None) (give s i None).
Proof. intros w s i H j. unfold vset, give. destruct (j =? i); [exact I|apply H]. Qed.

Lemma step_spec : forall w s c, shows w s ->
  match sstep ltb eqb dflt s c with
  | Some s' => exists w', vstep ltb eqb dflt w c = Ok w' /\ shows w' s'
  | None => vstep ltb eqb dflt w c = UB
  end.
Proof.
  intros w s c H. pose proof repr_none as RN.
  destruct c as [i|i j|i j|i j|i j|i o|i a j b rf re|i]; cbn [vstep sstep].
  - destruct (shows_at w s i H) as [[-> ->]|(d & f & -> & -> & R)]; [|reflexivity].
    eexists. split; [reflexivity|]. apply shows_set; assumption.
  - destruct (shows_at w s i H) as [[-> ->]|(d & f & -> & -> & R)]; [|reflexivity].
    destruct (shows_at w s j H) as [[-> ->]|(e & g & -> & -> & R')]; [reflexivity|].
    eexists. split; [reflexivity|]. apply shows_set; assumption.
  - destruct (shows_at w s i H) as [[-> ->]|(d & f & -> & -> & R)]; [|reflexivity].
    destruct (shows_at w s j H) as [[-> ->]|(e & g & -> & -> & R')]; [reflexivity|].
    eexists. split; [reflexivity|]. repeat apply shows_set; assumption.
  - destruct (shows_at w s i H) as [[-> ->]|(d & f & -> & -> & R)]; [reflexivity|].
    destruct (shows_at w s j H) as [[-> ->]|(e & g & -> & -> & R')]; [reflexivity|].
    eexists. split; [reflexivity|]. apply shows_set; assumption.
  - destruct (shows_at w s i H) as [[-> ->]|(d & f & -> & -> & R)]; [reflexivity|].
    destruct (shows_at w s j H) as [[-> ->]|(e & g & -> & -> & R')]; [reflexivity|].
    eexists. split; [reflexivity|]. repeat apply shows_set; assumption.
  - destruct (shows_at w s i H) as [[-> ->]|(d & f & -> & -> & R)]; [destruct o; reflexivity|].
    destruct (step_repr ltb eqb dflt ST d f o R) as (d' & E & R'). rewrite E. cbn [obind].
    destruct o as [k v|k|]; (eexists; split; [reflexivity|]); apply shows_set; try assumption.
    eapply repr_ext; [exact R'|]. intros j. symmetry. apply touch_at.
  - destruct (shows_at w s i H) as [[-> ->]|(d & f & -> & -> & R)]; [reflexivity|].
    destruct (shows_at w s j H) as [[-> ->]|(e & g & -> & -> & R')]; [reflexivity|].
    destruct (i =? j) eqn:Q.
    + pose proof (link_spec d f a b rf re R) as L.
      destruct (if rf then _ else _).
      * destruct L as (d' & E & Rd). rewrite E. cbn [obind]. eexists. split; [reflexivity|]. apply shows_set; assumption.
      * rewrite L. reflexivity.
    + destruct (bracket_touch e g b R') as (e' & q & B & Re & N & _). rewrite B. cbn [obind]. rewrite N. cbn [snd].
      destruct (assign_repr ltb eqb dflt ST d f a (value dflt g b) R) as (d' & E & Rd). rewrite E. cbn [obind].
      eexists. split; [reflexivity|]. apply shows_set; [|exact Rd]. apply shows_set; assumption.
  - destruct (shows_at w s i H) as [[-> ->]|(d & f & -> & -> & R)]; [reflexivity|].
    eexists. split; [reflexivity|]. apply shows_end. exact H.
Qed.

Lemma run_spec : forall p w s, shows w s ->
  match srun ltb eqb dflt s p with
  | Some s' => exists w', vrun ltb eqb dflt w p = Ok w' /\ shows w' s'
  | None => vrun ltb eqb dflt w p = UB
  end.
Proof.
  induction p as [|c p IH]; intros w s H; cbn [srun vrun]; [eauto|].
  pose proof (step_spec w s c H) as E. destruct (sstep ltb eqb dflt s c) as [s'|].
  - destruct E as (w' & E & H'). rewrite E. cbn [obind]. apply IH. exact H'.
  - rewrite E. reflexivity.
Qed.
Lemma programs : forall p,
  match srun ltb eqb dflt (fun _ => None) p with
  | Some s => exists w, vrun ltb eqb dflt vnone p = Ok w /\ shows w s
  | None => vrun ltb eqb dflt vnone p = UB
  end.
Proof. intros p. apply run_spec. intros i. exact I. Qed.

Lemma queries : forall p w s i f k, srun ltb eqb dflt (fun _ => None) p = Some s -> vrun ltb eqb dflt vnone p = Ok w ->
  s i = Some f -> exists d, w i = Some d /\
  vm_count ltb eqb d k = Ok (match f k with Some _ => 1 | None => 0 end) /\
  vm_at ltb eqb d k = match f k with Some v => Ok v | None => Throw "out_of_range"%string end /\
  vm_atOrDefault ltb eqb dflt d k = Ok (match f k with Some v => v | None => dflt end).
Proof.
  intros p w s i f k A B C. pose proof (programs p) as P. rewrite A in P. destruct P as (w' & E & H).
  rewrite E in B. injection B as <-. destruct (shows_at w' s i H) as [[_ X]|(d & g & Wd & X & R)]; [congruence|].
  rewrite C in X. injection X as <-. exists d. split; [exact Wd|].
  destruct (query_spec ltb eqb dflt ST d f k R) as (_ & Q1 & Q2 & Q3 & _). auto.
Qed.
Lemma links : forall p s i f a b w, srun ltb eqb dflt (fun _ => None) p = Some s -> s i = Some f ->
  vrun ltb eqb dflt vnone p = Ok w ->
  (forall rf re, f a <> None -> f b <> None -> exists w', vstep ltb eqb dflt w (VLink i a i b rf re) = Ok w') /\
  (forall re, f b <> None -> exists w', vstep ltb eqb dflt w (VLink i a i b false re) = Ok w') /\
  (forall re, f a = None -> f b <> None ->
     (vstep ltb eqb dflt w (VLink i a i b true re) = UB <-> re = true \/ ltb a b = true)) /\
  (forall rf, f a = None -> f b = None -> a <> b -> vstep ltb eqb dflt w (VLink i a i b rf true) = UB).
Proof.
  intros p s i f a b w A B C. pose proof (programs p) as P. rewrite A in P. destruct P as (w' & E & H).
  rewrite E in C. injection C as <-.
  assert (T : forall rf re, match sstep ltb eqb dflt s (VLink i a i b rf re) with
    | Some s' => exists x, vstep ltb eqb dflt w' (VLink i a i b rf re) = Ok x /\ shows x s'
    | None => vstep ltb eqb dflt w' (VLink i a i b rf re) = UB end) by (intros; apply step_spec; exact H).
  cbn [sstep] in T. rewrite B, Nat.eqb_refl in T. unfold link_safe, known in T. repeat split.
  - intros rf re Fa Fb. specialize (T rf re). destruct (f a); [|congruence]. destruct (f b); [|congruence].
    destruct rf; destruct T as (x & T & _); eauto.
  - intros re Fb. specialize (T false re). destruct (f b); [|congruence]. destruct T as (x & T & _). eauto.
  - specialize (T true re). rewrite H0 in T. destruct (f b) eqn:Fb; [|congruence].
    assert (b <> a) by congruence. rewrite (eqb_false ltb eqb ST b a H2) in T. cbn [orb] in T. intros U.
    destruct re; [auto|]. right. cbn [negb andb] in T. destruct (ltb b a) eqn:L.
    + destruct T as (x & T & _). congruence.
    + destruct (st_total _ _ ST a b) as [?|[?|?]]; congruence.
  - specialize (T true re). rewrite H0 in T. destruct (f b) eqn:Fb; [|congruence].
    assert (b <> a) by congruence. rewrite (eqb_false ltb eqb ST b a H2) in T. cbn [orb] in T. intros [->|L]; [exact T|].
    rewrite (ltb_asym ltb eqb ST _ _ L), andb_false_r in T. exact T.
  - intros rf Fa Fb N. specialize (T rf true). rewrite Fa, Fb in T. rewrite !(eqb_false ltb eqb ST) in T by congruence.
    destruct rf; exact T.
Qed.
End P.
