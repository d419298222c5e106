From Coq Require Import ZArith Bool Lia List Znumtheory.
From Verif Require Import Common.
Import ListNotations.
Local Open Scope Z_scope.

(** The table as a list of positions; [B] positions each. *)
Section CYCLE.
Variable B : Z.
Hypothesis HB : 2 < B.
Definition inB (p : Z) : Prop := 0 <= p < B.
Definition b2 (b : bool) : Z := if b then 1 else 0.
Fixpoint turn (carry : bool) (ps : list Z) : list Z :=
  match ps with
  | [] => []
  | p :: rest => let t := p + 1 + b2 carry in t mod B :: turn (B <=? t) rest
  end.
(** [A] turns at once; [D]: the steps of the first. *)
Fixpoint spin (D A : Z) (ps : list Z) : list Z :=
  match ps with
  | [] => []
  | p :: rest => (p + D) mod B :: spin (A + (p + D) / B) A rest
  end.
Lemma spin_length : forall ps D A, length (spin D A ps) = length ps.
Proof. induction ps as [|p ps IH]; intros; cbn [spin length]; [reflexivity|]. now rewrite IH. Qed.
Lemma spin_range : forall ps D A, Forall inB (spin D A ps).
Proof. induction ps as [|p ps IH]; intros; cbn [spin]; constructor; auto. unfold inB. apply Z.mod_pos_bound. lia. Qed.
Lemma spin_zero : forall ps, Forall inB ps -> spin 0 0 ps = ps.
Proof.
  induction 1 as [|p ps P _ IH]; [reflexivity|]. cbn [spin]. unfold inB in P. rewrite Z.add_0_r, Z.mod_small, Z.div_small by lia.
  cbn [Z.add]. now rewrite IH.
Qed.
Lemma turn_spin : forall ps D A cy, turn cy (spin D A ps) = spin (D + 1 + b2 cy) (A + 1) ps.
Proof.
  induction ps as [|p ps IH]; intros D A cy; [reflexivity|]. cbn [spin turn].
  pose proof (Z.div_mod (p + D) B ltac:(lia)) as E. pose proof (Z.mod_pos_bound (p + D) B ltac:(lia)) as R.
  set (q := (p + D) / B) in *. set (r := (p + D) mod B) in *.
  assert (C : b2 cy = 0 \/ b2 cy = 1) by (destruct cy; cbn; auto).
  set (k := b2 cy) in *. clearbody k q r.
  assert (Dv : (p + (D + 1 + k)) / B = q + b2 (B <=? r + 1 + k) /\ (p + (D + 1 + k)) mod B = (r + 1 + k) mod B).
  { destruct (Z.leb_spec B (r + 1 + k)); cbn [b2].
    - split; [symmetry; apply Z.div_unique with (r + 1 + k - B); [left; lia|lia]|].
      transitivity (r + 1 + k - B); [symmetry; apply Z.mod_unique with (q + 1); [left; lia|lia]|apply Z.mod_unique with 1; [left; lia|lia]].
    - split; [symmetry; apply Z.div_unique with (r + 1 + k); [left; lia|lia]|].
      transitivity (r + 1 + k); [symmetry; apply Z.mod_unique with q; [left; lia|lia]|symmetry; apply Z.mod_small; lia]. }
  destruct Dv as [D1 D2]. rewrite D1, D2. f_equal. rewrite IH. f_equal. lia.
Qed.

(** When the table is back where it was. *)
Fixpoint geo (j : nat) : Z := match j with O => 1 | S j => geo j + B ^ Z.of_nat (S j) end.
Lemma geo_mod : forall j, geo j mod B = 1.
Proof.
  induction j as [|j IH]; cbn [geo]; [apply Z.mod_small; lia|]. rewrite Nat2Z.inj_succ, Z.pow_succ_r by lia.
  rewrite (Z.mul_comm B), Z.mod_add by lia. exact IH.
Qed.
Lemma spin_id_from : forall ps j a, Forall inB ps ->
  (spin (a * geo j) (a * B ^ Z.of_nat j) ps = ps <-> (B ^ Z.of_nat (length ps) | a)).
Proof.
  induction ps as [|p ps IH]; intros j a F.
  - cbn [spin length]. change (B ^ Z.of_nat 0) with 1. split; [intros _; apply Z.divide_1_l|reflexivity].
  - apply Forall_cons_iff in F. destruct F as [P F]. unfold inB in P. cbn [spin length].
    assert (GM : forall x, (B | x * geo j) -> (B | x)).
    { intros x [k K]. pose proof (Z.div_mod (geo j) B ltac:(lia)) as E. rewrite geo_mod in E. exists (k - x * (geo j / B)). nia. }
    assert (K : (B | a) -> spin (a * geo j) (a * B ^ Z.of_nat j) (p :: ps) = p :: spin ((a / B) * geo (S j)) ((a / B) * B ^ Z.of_nat (S j)) ps).
    { intros [b ->]. cbn [spin]. rewrite Z.div_mul by lia. replace (p + b * B * geo j) with (p + (b * geo j) * B) by ring.
      rewrite Z.mod_add, Z.div_add, Z.mod_small, Z.div_small by lia. rewrite Z.add_0_l. cbn [geo].
      f_equal. rewrite Nat2Z.inj_succ, Z.pow_succ_r by lia. f_equal; ring. }
    rewrite Nat2Z.inj_succ, Z.pow_succ_r by lia. split.
    + intros E. assert (D : (B | a)).
      { apply (f_equal (hd 0)) in E. cbn [hd] in E. apply GM.
        pose proof (Z.div_mod (p + a * geo j) B ltac:(lia)) as Q. exists ((p + a * geo j) / B). nia. }
      change ((p + a * geo j) mod B :: spin (a * B ^ Z.of_nat j + (p + a * geo j) / B) (a * B ^ Z.of_nat j) ps) with (spin (a * geo j) (a * B ^ Z.of_nat j) (p :: ps)) in E.
      rewrite K in E by exact D. apply (f_equal (@tl Z)) in E. cbn [tl] in E. apply IH in E; [|exact F]. destruct D as [b ->]. rewrite Z.div_mul in E by lia.
      rewrite (Z.mul_comm b B). now apply Z.mul_divide_mono_l.
    + intros D. assert (DB : (B | a)) by (destruct D as [k ->]; exists (k * B ^ Z.of_nat (length ps)); ring).
      change ((p + a * geo j) mod B :: spin (a * B ^ Z.of_nat j + (p + a * geo j) / B) (a * B ^ Z.of_nat j) ps) with (spin (a * geo j) (a * B ^ Z.of_nat j) (p :: ps)).
      rewrite K by exact DB. f_equal. apply IH; [exact F|]. destruct DB as [b ->]. rewrite Z.div_mul by lia.
      rewrite (Z.mul_comm b B) in D. apply Z.mul_divide_cancel_l in D; [exact D|lia].
Qed.
Lemma spin_id : forall ps A, Forall inB ps -> (spin A A ps = ps <-> (B ^ Z.of_nat (length ps) | A)).
Proof. intros ps A F. rewrite <- (spin_id_from ps 0 A F). cbn [geo]. change (B ^ Z.of_nat 0) with 1. now rewrite Z.mul_1_r. Qed.

(** Solving for the positions: entry [i] is looked at after [K i] turns. *)
Fixpoint carried (A D : Z) (ps : list Z) : Z := match ps with [] => D | p :: rest => carried A (A + (p + D) / B) rest end.
Lemma spin_app : forall ps D A q, spin D A (ps ++ [q]) = spin D A ps ++ [(q + carried A D ps) mod B].
Proof. induction ps as [|p ps IH]; intros; cbn [spin carried app]; [reflexivity|]. now rewrite IH. Qed.
Lemma solve : forall n (K : nat -> Z) (q : nat -> Z), (forall i, (i < n)%nat -> inB (q i)) -> exists ps, length ps = n /\ Forall inB ps /\
  (forall i, (i < n)%nat -> nth i (spin (K i) (K i) ps) 0 = q i) /\
  forall ps', length ps' = n -> Forall inB ps' -> (forall i, (i < n)%nat -> nth i (spin (K i) (K i) ps') 0 = q i) -> ps' = ps.
Proof.
  induction n as [|n IH]; intros K q Q.
  - exists []. split; [reflexivity|]. split; [constructor|]. split; [intros; lia|]. intros [|] L; [reflexivity|discriminate].
  - destruct (IH K q) as (ps & L & F & E & U); [intros; apply Q; lia|].
    set (x := (q n - carried (K n) (K n) ps) mod B).
    assert (X : inB x) by (apply Z.mod_pos_bound; lia).
    assert (KEY : forall y, inB y -> ((y + carried (K n) (K n) ps) mod B = q n <-> y = x)).
    { intros y Y. pose proof (Q n ltac:(lia)) as R. unfold inB in *. unfold x. split.
      - intros H. rewrite <- H. rewrite Zminus_mod_idemp_l. replace (y + carried (K n) (K n) ps - carried (K n) (K n) ps) with y by ring.
        symmetry. apply Z.mod_small. exact Y.
      - intros ->. rewrite Zplus_mod_idemp_l. replace (q n - carried (K n) (K n) ps + carried (K n) (K n) ps) with (q n) by ring. apply Z.mod_small. exact R. }
    exists (ps ++ [x]). split; [rewrite app_length; cbn [length]; lia|]. split; [apply Forall_app; split; [exact F|now constructor]|]. split.
    + intros i I. rewrite spin_app. destruct (Nat.eq_dec i n) as [->|NE].
      * rewrite app_nth2 by (rewrite spin_length; lia). rewrite spin_length, L, Nat.sub_diag. cbn [nth]. now apply KEY.
      * rewrite app_nth1 by (rewrite spin_length; lia). apply E. lia.
    + intros ps' L' F' E'. destruct (exists_last (l := ps')) as (ps0 & y & ->); [intros ->; discriminate|].
      rewrite app_length in L'. cbn [length] in L'. assert (L0 : length ps0 = n) by lia. apply Forall_app in F'. destruct F' as [F0 FY].
      apply Forall_cons_iff in FY. destruct FY as [FY _].
      assert (ps0 = ps) as ->.
      { apply U; [exact L0|exact F0|]. intros i I. rewrite <- (E' i) by lia. rewrite spin_app, app_nth1; [reflexivity|]. rewrite spin_length. lia. }
      f_equal. f_equal. apply KEY; [exact FY|]. rewrite <- (E' n) by lia. rewrite spin_app, app_nth2 by (rewrite spin_length; lia).
      rewrite spin_length, L, Nat.sub_diag. reflexivity.
Qed.
End CYCLE.
