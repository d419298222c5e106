From Coq Require Import String ZArith Bool Lia List.
From Verif Require Import Common CInt MplModel RndModel RndSpec.
Local Open Scope Z_scope.

Lemma csub_one : forall t a, has_type t a -> imin t < a -> csub (t, a) i1 = Ok (t, a - 1).
Proof.
  intros t a Ha L. unfold csub, binop_z, i1. cbn [fst snd]. destruct (common_i32 t) as [-> _].
  pose proof (imin_neg t) as M. unfold has_type in Ha. rewrite !cvt_id by (unfold has_type; lia).
  rewrite fit_id by (unfold has_type; lia). reflexivity.
Qed.
Lemma rnd_exact : forall E (dist : ity -> Z -> Z -> E -> E * Z) t1 t2 CT lo hi e,
  acommon t1 t2 = Wide CT -> has_type CT lo -> has_type CT hi ->
  getRndI dist t1 t2 lo hi e = if lo <? hi then Ok (let '(e, v) := dist CT lo (hi - 1) e in (e, (CT, v))) else UB.
Proof.
  intros E dist t1 t2 CT lo hi e C Hl Hh. unfold getRndI. rewrite C. rewrite !cvt_id by assumption. unfold clt. rewrite ccmp_same by assumption.
  destruct (Z.ltb_spec lo hi) as [L|L]; cbn [cassert obind]; [|reflexivity]. rewrite csub_one by (unfold has_type in *; lia). cbn [obind snd].
  destruct (Z.leb_spec lo (hi - 1)) as [_|]; [|lia]. destruct (dist CT lo (hi - 1) e). reflexivity.
Qed.
Lemma rnd_range : forall E (dist : ity -> Z -> Z -> E -> E * Z) t1 t2 CT lo hi e, honest dist ->
  acommon t1 t2 = Wide CT -> has_type CT lo -> has_type CT hi -> lo < hi ->
  exists e' v, getRndI dist t1 t2 lo hi e = Ok (e', (CT, v)) /\ lo <= v < hi.
Proof.
  intros E dist t1 t2 CT lo hi e H C Hl Hh L. rewrite (rnd_exact E dist t1 t2 CT) by assumption. replace (lo <? hi) with true by lia.
  assert (Hh' : has_type CT (hi - 1)) by (unfold has_type in *; lia).
  assert (Q : lo <= hi - 1) by lia.
  pose proof (H CT lo (hi - 1) e Hl Hh' Q) as D. destruct (dist CT lo (hi - 1) e) as [e' v]. cbn [snd] in D. exists e', v. split; [reflexivity|lia].
Qed.
Lemma narrow_int : forall s b z, 1 <= b <= 16 -> avalue (Narrow s b) z -> has_type I32 z.
Proof.
  intros s b z H A. assert (P : 2 ^ b <= 2 ^ 16) by (apply Z.pow_le_mono_r; lia). assert (P' : 2 ^ (b - 1) <= 2 ^ 16) by (apply Z.pow_le_mono_r; lia).
  change (2 ^ 16) with 65536 in *. destruct s; cbn [avalue] in A; unfold has_type; cbn; unfold INT_MIN, INT_MAX; lia.
Qed.
(** Types that can hold each other's values. *)
Lemma keeps : forall t1 t2 CT lo, (forall s b, t1 = Narrow s b -> 1 <= b <= 16) -> avalue t1 lo -> acommon t1 t2 = Wide CT ->
  (is_signed CT = true \/ 0 <= lo) -> has_type CT lo.
Proof.
  intros t1 t2 CT lo N A C S. assert (P : has_type (promoted t1) lo).
  { destruct t1 as [t|s b]; [exact A|]. apply (narrow_int s b); [eauto|exact A]. }
  assert (Cm : CT = common (promoted t1) (promoted t2)).
  { destruct t1 as [t|s b]; destruct t2 as [t'|s' b']; cbn [acommon promoted] in *; try congruence.
    destruct (Bool.eqb s s' && (b =? b')); [discriminate|]. injection C as <-. reflexivity. }
  subst CT. destruct (promoted t1), (promoted t2); cbn in S |- *; unfold has_type in *; cbn in *; unfold INT_MIN, INT_MAX, LONG_MIN, LONG_MAX, UINT_MOD, ULONG_MOD in *; destruct S as [S|S]; try discriminate; lia.
Qed.
Lemma rnd_types : forall E (dist : ity -> Z -> Z -> E -> E * Z) t1 t2 CT lo hi e, honest dist ->
  (forall s b, t1 = Narrow s b \/ t2 = Narrow s b -> 1 <= b <= 16) -> avalue t1 lo -> avalue t2 hi ->
  acommon t1 t2 = Wide CT -> is_signed CT = true \/ 0 <= lo -> lo < hi ->
  exists e' v, getRndI dist t1 t2 lo hi e = Ok (e', (CT, v)) /\ lo <= v < hi.
Proof.
  intros E dist t1 t2 CT lo hi e H N A1 A2 C S L. apply rnd_range; auto.
  - apply (keeps t1 t2); eauto.
  - apply (keeps t2 t1); [intros s b Hb; apply (N s b); auto|exact A2| |destruct S; [auto|right; lia]].
    rewrite <- C. destruct t1 as [t|s b], t2 as [t'|s' b']; cbn [acommon promoted].
    + f_equal. destruct t, t'; reflexivity.
    + try (destruct t; reflexivity); try (destruct t'; reflexivity).
    + try (destruct t; reflexivity); try (destruct t'; reflexivity).
    + destruct (Bool.eqb_spec s s') as [->|Ns]; destruct (Z.eqb_spec b b') as [->|Nb]; rewrite ?Bool.eqb_reflx, ?Z.eqb_refl; cbn; try reflexivity;
        repeat match goal with |- context [Bool.eqb ?x ?y] => destruct (Bool.eqb_spec x y); try congruence | |- context [?x =? ?y] => destruct (Z.eqb_spec x y); try congruence end; reflexivity.
Qed.
Lemma sign_signed : forall E (dist : ity -> Z -> Z -> E -> E * Z) T e, honest dist ->
  exists e', (getRndSign dist T e = (e', (T, 1)) \/ getRndSign dist T e = (e', (T, if is_signed T then -1 else imax T))) /\
    e' = fst (dist T 0 1 e) /\ (getRndSign dist T e = (e', (T, 1)) <-> snd (dist T 0 1 e) = 0).
Proof.
  intros E dist T e H. assert (H0 : has_type T 0) by (unfold has_type; pose proof (imin_neg T); lia).
  assert (H1 : has_type T 1) by (unfold has_type; pose proof (imin_neg T); lia).
  assert (Q : 0 <= 1) by lia. pose proof (H T 0 1 e H0 H1 Q) as D. unfold getRndSign. destruct (dist T 0 1 e) as [e' v]. cbn [fst snd] in *.
  exists e'. assert (V : v = 0 \/ v = 1) by lia. destruct V as [-> | ->]; cbn [Z.ltb Z.compare].
  - rewrite (cvt_id T 1 H1). split; [left; reflexivity|split; [reflexivity|split; reflexivity]].
  - assert (X : cvt T (-1) = if is_signed T then -1 else imax T) by (destruct T; reflexivity). rewrite X. split; [right; reflexivity|]. split; [reflexivity|].
    split; [|lia]. intros Y. injection Y as Y. destruct T; discriminate.
Qed.
