(** Conversions composed with writing and reading text. *)
From Coq Require Import String Ascii ZArith NArith Arith Bool Lia List.
From Coq Require Import Floats.SpecFloat.
From Verif Require Import Common CInt JsonNumModel JsonModel JsonSpec JsonProofs JsonWriteProofs JsonCnvModel JsonCnvSpec JsonCnvProofs.
Import ListNotations.
Local Open Scope Z_scope.

Lemma k_wrap_congr : forall k z y, (exists q, y = z + q * 2 ^ 64) -> k_wrap k y = k_wrap k z.
Proof.
  intros k z y (q & ->). unfold k_wrap. f_equal.
  assert (E : exists d, 2 ^ 64 = d * 2 ^ k_bits k) by (destruct k; [exists (2 ^ 56)|exists (2 ^ 32)|exists 1|exists (2 ^ 56)|exists (2 ^ 32)|exists 1]; reflexivity).
  destruct E as (d & E). rewrite E. replace (z + q * (d * 2 ^ k_bits k) - k_min k) with (z - k_min k + (q * d) * 2 ^ k_bits k) by lia.
  apply Z.mod_add. destruct k; discriminate.
Qed.
Lemma to_i64_congr : forall z, exists q, to_i64 z = z + q * 2 ^ 64.
Proof.
  intros z. unfold to_i64. cbv zeta. pose proof (Z.div_mod z (2 ^ 64) ltac:(discriminate)) as D.
  unfold to_u64, ULONG_MOD in *. change 18446744073709551616 with (2 ^ 64).
  match goal with |- context [if ?b then _ else _] => destruct b end; [exists (- (z / 2 ^ 64))|exists (- (z / 2 ^ 64) - 1)]; lia.
Qed.
Lemma to_u64_congr : forall z, exists q, to_u64 z = z + q * 2 ^ 64.
Proof.
  intros z. unfold to_u64, ULONG_MOD. change 18446744073709551616 with (2 ^ 64). pose proof (Z.div_mod z (2 ^ 64) ltac:(discriminate)) as D.
  exists (- (z / 2 ^ 64)). lia.
Qed.
Lemma num_as_same : forall k m n z, same_num m n -> num_as k m = Ok z -> num_as k n = Ok z.
Proof.
  intros k m n z S. destruct S as [x|x|f|f x Ht Hf]; auto; unfold num_as; cbn [getIntS getIntU].
  - destruct (k_signed k); cbn [obind]; intros E; injection E as <-; f_equal.
    + symmetry. apply k_wrap_congr. apply to_i64_congr.
    + apply k_wrap_congr. apply to_u64_congr.
  - destruct (k_signed k); cbn [obind].
    + unfold double_to_long. rewrite Ht. destruct (_ && _); cbn [obind]; [auto|discriminate].
    + unfold double_to_ulong. rewrite Ht. destruct ((0 <=? x) && _) eqn:R; cbn [obind]; [|discriminate].
      intros E; injection E as <-; f_equal. apply k_wrap_congr. apply to_u64_congr.
Qed.
Definition respects (t : ty) : Prop := exact_type t -> forall v w, same v w -> (isNoNum t v = true -> isNoNum t w = true) /\
  forall old c, extr t v old = Ok c -> extr t w old = Ok c.
Lemma obind_ok : forall A B (e : outcome A) (f : A -> outcome B) r, obind e f = Ok r -> exists x, e = Ok x /\ f x = Ok r.
Proof. intros A B e f r H. destruct e; try discriminate. eauto. Qed.
Lemma lookup_same : forall n o p x, map fst o = map fst p -> Forall2 same (map snd o) (map snd p) -> lookup n o = Some x ->
  exists y, lookup n p = Some y /\ same x y.
Proof.
  unfold lookup. intros n o. induction o as [|(k, v) o IH]; intros p x K F E; [discriminate|]. destruct p as [|(k', v') p]; [discriminate|].
  cbn in K. injection K as <- K. cbn [map snd] in F. inversion F as [|? ? ? ? Sv F']; subst. cbn [find fst] in E |- *.
  destruct (bytes_eqb k n); [injection E as <-; eauto|]. eapply IH; eauto.
Qed.
Lemma as_respects : forall t x y c old, respects t -> exact_type t -> same x y ->
  (if isNoNum t x then extr t x old else UB) = Ok c -> (if isNoNum t y then extr t y old else UB) = Ok c.
Proof.
  intros t x y c old R X S E. destruct (R X x y S) as (C & G). destruct (isNoNum t x); [|discriminate]. rewrite C by reflexivity. auto.
Qed.
Ltac inv_same := match goal with S : same ?v _ |- _ => inversion S; subst; clear S end.
Lemma all_respect : forall t, respects t.
Proof.
  apply ty_nested.
  - intros t. destruct t; try exact I; intros X v w S; try contradiction; inversion S; subst; cbn [isNoNum extr]; try (split; intros; auto; discriminate); (split; [auto|]).
    all: intros old c E; apply obind_ok in E as (z & E & Ec); rewrite (num_as_same _ _ _ _ H E); exact Ec.
  - intros a b Ra Rb (Xa & Xb) v w S. inversion S as [ | | | |l l' F| ]; subst; cbn [isNoNum extr]; try (split; intros; auto; discriminate).
    inversion F as [|x x' ? ? Sx F1]; subst; [split; intros; auto|]. inversion F1 as [|y y' ? ? Sy F2]; subst; [split; intros; auto; discriminate|].
    split.
    + inversion F2; subst; [|auto]. intros C. apply andb_true_iff in C as (C1 & C2). destruct (Ra Xa _ _ Sx) as (Ga & _), (Rb Xb _ _ Sy) as (Gb & _). rewrite Ga, Gb by assumption. reflexivity.
    + intros old c E. apply obind_ok in E as (p & E1 & E). apply obind_ok in E as (q & E2 & E).
      rewrite (as_respects _ _ _ _ _ Ra Xa Sx E1). cbn [obind]. rewrite (as_respects _ _ _ _ _ Rb Xb Sy E2). exact E.
  - intros ts FR X v w S. inversion S as [ | | | |l l' F| ]; subst; cbn [isNoNum extr]; try (split; intros; auto; discriminate).
    cbn [exact_type] in X. split.
    + intros C. apply andb_true_iff in C as (L & C). rewrite (Forall2_len _ _ _ _ _ F) in L. rewrite L. cbn [andb]. clear L S.
      revert l l' F C. induction FR as [|t ts Rt FR IH]; intros l l' F C; [reflexivity|]. destruct X as (X1 & X2).
      destruct F as [|x y l l' Sx F]; [reflexivity|]. apply andb_true_iff in C as (C1 & C2). destruct (Rt X1 _ _ Sx) as (G & _). rewrite G by exact C1. cbn [andb]. eapply IH; eauto.
    + intros old c E. apply obind_ok in E as (cs & E & Ec). match goal with |- obind ?e _ = _ => cut (e = Ok cs); [intros Ee; rewrite Ee; exact Ec|] end. clear Ec S.
      revert l l' F cs E. induction FR as [|t ts Rt FR IH]; intros l l' F cs E; [exact E|]. destruct X as (X1 & X2).
      destruct F as [|x y l l' Sx F]; [discriminate|]. apply obind_ok in E as (p & E1 & E). apply obind_ok in E as (q & E2 & E).
      rewrite (as_respects _ _ _ _ _ Rt X1 Sx E1). cbn [obind]. rewrite (IH X2 _ _ F _ E2). exact E.
  - intros t Rt X v w S. inversion S as [ | | | |l l' F| ]; subst; cbn [isNoNum extr]; try (split; intros; auto; discriminate).
    cbn [exact_type] in X. clear S. split.
    + induction F as [|x y l l' Sx F IH]; [auto|]. cbn [forallb]. intros C. apply andb_true_iff in C as (C1 & C2). destruct (Rt X _ _ Sx) as (G & _). rewrite G by exact C1. auto.
    + intros old c E. apply obind_ok in E as (cs & E & Ec). match goal with |- obind ?e _ = _ => cut (e = Ok cs); [intros Ee; rewrite Ee; exact Ec|] end. clear Ec.
      revert cs E. induction F as [|x y l l' Sx F IH]; intros cs E; [exact E|]. apply obind_ok in E as (p & E1 & E). apply obind_ok in E as (q & E2 & E).
      rewrite (as_respects _ _ _ _ _ Rt X Sx E1). cbn [obind]. rewrite (IH _ E2). exact E.
  - intros a b Ra Rb (Xa & Xb) v w S. inversion S as [ | | | |l l' F| ]; subst; cbn [isNoNum extr]; try (split; intros; auto; discriminate).
    split; [auto|]. intros old c E. apply obind_ok in E as (m & E & Ec). match goal with |- obind ?e _ = _ => cut (e = Ok m); [intros Ee; rewrite Ee; exact Ec|] end. clear Ec S.
    generalize dependent (match old with VMap m => m | _ => [] end). induction F as [|x y l l' Sx F IH]; intros acc E; [exact E|].
    destruct x as [| | | | |]; try discriminate. inversion Sx as [ | | | |i j Fi| ]; subst.
    destruct Fi as [|p p' ? ? Sp Fi]; [discriminate|]. destruct Fi as [|q q' ? ? Sq Fi]; [discriminate|]. destruct Fi; [|discriminate].
    destruct (isNoNum a p) eqn:Ca; [|discriminate]. destruct (isNoNum b q) eqn:Cb; [|discriminate]. cbn [andb] in E.
    apply obind_ok in E as (c1 & E1 & E). apply obind_ok in E as (c2 & E2 & E).
    destruct (Ra Xa _ _ Sp) as (Ga & Ha), (Rb Xb _ _ Sq) as (Gb & Hb). rewrite Ga, Gb by assumption. cbn [andb].
    rewrite (Ha _ _ E1). cbn [obind]. rewrite (Hb _ _ E2). cbn [obind]. apply IH. exact E.
  - intros ts FR X v w S. inversion S as [ | | | |l l' F| ]; subst; cbn [isNoNum extr]; try (split; intros; auto; discriminate).
    cbn [exact_type] in X. split; [auto|]. intros old c E. apply obind_ok in E as (cs & E & Ec). match goal with |- obind ?e _ = _ => cut (e = Ok cs); [intros Ee; rewrite Ee; exact Ec|] end. clear Ec S.
    generalize dependent (match old with VTup cs => cs | _ => [] end). revert l l' F cs.
    induction FR as [|t ts Rt FR IH]; intros l l' F cs o E; [exact E|]. destruct X as (X1 & X2).
    destruct F as [|x y l l' Sx F]; [discriminate|]. apply obind_ok in E as (p & E1 & E). apply obind_ok in E as (q & E2 & E).
    rewrite (as_respects _ _ _ _ _ Rt X1 Sx E1). cbn [obind]. rewrite (IH X2 _ _ F _ _ E2). exact E.
  - intros fs FR X v w S. inversion S as [ | | | | |o p K F]; subst; cbn [isNoNum extr]; try (split; intros; auto; discriminate).
    cbn [exact_type] in X. split; [auto|]. intros old c E. apply obind_ok in E as (cs & E & Ec). match goal with |- obind ?e _ = _ => cut (e = Ok cs); [intros Ee; rewrite Ee; exact Ec|] end. clear Ec S.
    generalize dependent (match old with VTup cs => cs | _ => [] end). revert cs.
    induction FR as [|(n, t) fs Rt FR IH]; intros cs ol E; [exact E|]. destruct X as (X1 & X2). cbn [snd] in Rt.
    destruct (lookup n o) as [x|] eqn:El; [|discriminate]. destruct (lookup_same _ _ _ _ K F El) as (y & -> & Sx).
    apply obind_ok in E as (c1 & E1 & E). apply obind_ok in E as (q & E2 & E). destruct (Rt X1 _ _ Sx) as (_ & G). rewrite (G _ _ E1). cbn [obind].
    rewrite (IH X2 _ _ E2). exact E.
Qed.
Lemma text_round_trip : forall p t c, has_type t c -> exact_type t -> writable (getArch t c) ->
  exists s, getWriteToStr p (getArch t c) = Ok s /\
    ((N.of_nat (length s) < 2 ^ 31)%N -> exists v, parse_text s = Ok v /\ isNoNum t v = true /\ getExtr t v = Ok c).
Proof.
  intros p t c H X W. destruct (round_trip p _ W) as (s & E & G). exists s. split; [exact E|]. intros L.
  destruct (G L) as (v & Ev & S & _). exists v. split; [exact Ev|]. destruct (converted t c H) as (C & _ & _ & Ex).
  destruct (all_respect t X _ _ S) as (Rc & Re). split; [auto|]. apply Re. exact Ex.
Qed.
