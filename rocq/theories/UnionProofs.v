From Coq Require Import String Ascii ZArith NArith Arith Bool Lia List.
From Verif Require Import Common MplModel MplProofs UnionModel UnionSpec.
Import ListNotations.
Local Open Scope Z_scope.

Definition rest (checks : bool) (Ts : list Z) (os : list uop) (u : union) : outcome (list event * list seen) :=
  obind (steps checks Ts os u) (fun '(u, es, xs) => obind (assertClean checks u) (fun _ => Ok (es, xs))).
Lemma rest_cons : forall k Ts o os u, rest k Ts (o :: os) u =
  obind (step k Ts o u) (fun '(u, e, x) => obind (rest k Ts os u) (fun '(es, xs) => Ok (e ++ es, x :: xs))).
Proof.
  intros. unfold rest. cbn [steps]. destruct (step k Ts o u) as [[[u1 e] x]| | |]; cbn [obind]; try reflexivity.
  destruct (steps k Ts os u1) as [[[u2 es] xs]| | |]; cbn [obind]; try reflexivity.
  destruct (assertClean k u2); reflexivity.
Qed.

Lemma zeqb : forall x y : Z, (x =? y) = true <-> x = y.
Proof. intros. apply Z.eqb_eq. Qed.
Lemma has_in : forall Ts T, In T Ts -> has Z.eqb Ts T = true.
Proof. intros Ts T H. apply (has_spec Z.eqb zeqb Ts T). exact H. Qed.
Lemma idx_in : forall Ts T, In T Ts -> exists i, getIdxOf Z.eqb Ts T = Ok i /\ 0 <= i /\
  forall T', In T' Ts -> getIdxOf Z.eqb Ts T' = Ok i -> T' = T.
Proof.
  intros Ts T H. destruct (proj1 (idxof_spec Z.eqb zeqb Ts T) H) as [i [E [N _]]].
  exists (Z.of_nat i). split; [exact E|]. split; [lia|]. intros T' H' E'.
  destruct (proj1 (idxof_spec Z.eqb zeqb Ts T') H') as [j [F [M _]]]. rewrite F in E'. injection E' as E'.
  assert (j = i) as -> by lia. congruence.
Qed.

Definition holds (checks : bool) (Ts : list Z) (cur : option (Z * Z)) (u : union) : Prop :=
  match cur with
  | None => (checks = true -> flag u = -1) /\ live u = None
  | Some (T, v) => In T Ts /\ (checks = true -> getIdxOf Z.eqb Ts T = Ok (flag u)) /\ exists i, live u = Some (i, T, v) /\ made u = S i
  end.
Definition events (cur : option (Z * Z)) (u : union) (os : list uop) : list event :=
  match cur with None => [] | Some _ => [Gone (pred (made u))] end ++
  flat_map (fun i => [Made i; Gone i]) (seq (made u) (inits os)).
Definition value (cur : option (Z * Z)) (d : Z) : Z := match cur with None => d | Some (_, v) => v end.

Lemma answers_none : forall os d d', disciplined None os = true -> answers d os = answers d' os.
Proof. intros [|[T [v|m]|T|T v|T w|T] os] d d' H; try discriminate; reflexivity. Qed.

Lemma run_good : forall k Ts os cur u d, holds k Ts cur u -> Forall (fun o => In (type_of o) Ts) os ->
  disciplined cur os = true -> rest k Ts os u = Ok (events cur u os, answers (value cur d) os).
Proof.
  intros k Ts. induction os as [|o os IH]; intros cur u d H F D.
  - destruct cur as [[T v]|]; [discriminate|]. destruct H as [H1 H2]. unfold rest. cbn [steps obind].
    unfold assertClean. destruct k; [rewrite H1 by reflexivity|]; reflexivity.
  - pose proof (Forall_inv F) as Ho. cbn in Ho. apply Forall_inv_tail in F. rewrite rest_cons.
    destruct o as [T [v|m]|T|T v|T w|T]; destruct cur as [[T' v']|]; cbn [disciplined] in D; try discriminate; cbn [type_of] in Ho;
      try (apply andb_true_iff in D; destruct D as [DT D]; apply Z.eqb_eq in DT; subst T'; destruct H as [HT [Hf [i [Hl Hm]]]]).
    + destruct H as [H1 H2]. destruct (idx_in Ts T Ho) as [i [Ei [Pi _]]].
      assert (E : step k Ts (Init T (inl v)) u = Ok (mkUnion (if k then i else flag u) (Some (made u, T, v)) (S (made u)), [Made (made u)], Nothing)).
      { cbn [step]. unfold assertClean, setDirty, initImpl, static_has. rewrite has_in by exact Ho.
        destruct k; [rewrite H1 by reflexivity; rewrite Z.eqb_refl; cbn [obind]; rewrite Ei|]; reflexivity. }
      rewrite E. cbn [obind]. rewrite (IH (Some (T, v)) _ v).
      * cbn [obind]. cbn [answers value]. f_equal.
      * split; [exact Ho|]. split; [intros ->; exact Ei|]. exists (made u). split; reflexivity.
      * exact F.
      * exact D.
    + assert (E : step k Ts (Get T) u = Ok (u, [], Value v')).
      { cbn [step]. unfold assertDirty, getImpl, static_has. rewrite has_in, Hl, Z.eqb_refl by exact Ho.
        destruct k; [rewrite Hf by reflexivity; cbn [obind]; rewrite Z.eqb_refl|]; reflexivity. }
      rewrite E. cbn [obind]. rewrite (IH (Some (T, v')) u d); [reflexivity| |exact F|exact D].
      split; [exact HT|]. split; [exact Hf|]. exists i. auto.
    + assert (E : step k Ts (Set_ T v) u = Ok (mkUnion (flag u) (Some (i, T, v)) (made u), [], Nothing)).
      { cbn [step]. unfold assertDirty, getImpl, static_has. rewrite has_in, Hl, Z.eqb_refl by exact Ho.
        destruct k; [rewrite Hf by reflexivity; cbn [obind]; rewrite Z.eqb_refl|]; reflexivity. }
      rewrite E. cbn [obind]. rewrite (IH (Some (T, v)) _ d); [reflexivity| |exact F|exact D].
      split; [exact HT|]. split; [exact Hf|]. exists i. auto.
    + assert (E : step k Ts (Take T w) u = Ok (mkUnion (flag u) (Some (i, T, w)) (made u), [], Value v')).
      { cbn [step]. unfold assertDirty, getImpl, static_has. rewrite has_in, Hl, Z.eqb_refl by exact Ho.
        destruct k; [rewrite Hf by reflexivity; cbn [obind]; rewrite Z.eqb_refl|]; reflexivity. }
      rewrite E. cbn [obind]. rewrite (IH (Some (T, w)) _ d); [reflexivity| |exact F|exact D].
      split; [exact HT|]. split; [exact Hf|]. exists i. auto.
    + assert (E : step k Ts (Deinit T) u = Ok (mkUnion (if k then -1 else flag u) None (made u), [Gone i], Nothing)).
      { cbn [step]. unfold assertDirty, deinitImpl, setClean, getImpl, static_has. rewrite has_in by exact Ho.
        destruct k; [rewrite Hf by reflexivity; cbn [obind]; rewrite Z.eqb_refl|]; cbn [obind live]; rewrite Hl, Z.eqb_refl; reflexivity. }
      rewrite E. cbn [obind]. rewrite (IH None _ d); [|split; [intros ->|]; reflexivity|exact F|exact D].
      cbn [obind value answers]. rewrite (answers_none os d v' D). unfold events. rewrite Hm. reflexivity.
Qed.

Lemma run_bad : forall Ts os cur u, holds true Ts cur u -> Forall (fun o => In (type_of o) Ts) os ->
  forallb no_throw os = true -> disciplined cur os = false -> rest true Ts os u = failed.
Proof.
  intros Ts. induction os as [|o os IH]; intros cur u H F NT D.
  - destruct cur as [[T v]|]; [|discriminate]. destruct H as [HT [Hf _]].
    destruct (idx_in Ts T HT) as [i [Ei [Pi _]]]. rewrite Hf in Ei by reflexivity. injection Ei as Ei.
    unfold rest. cbn [steps obind assertClean]. replace (flag u =? -1) with false by lia. reflexivity.
  - cbn [forallb] in NT. apply andb_true_iff in NT. destruct NT as [NT1 NT].
    pose proof (Forall_inv F) as Ho. cbn in Ho. apply Forall_inv_tail in F. rewrite rest_cons.
    destruct cur as [[T' v']|].
    + destruct H as [HT [Hf [i [Hl Hm]]]]. specialize (Hf eq_refl).
      destruct (idx_in Ts T' HT) as [x [Ex [Px Ux]]]. rewrite Hf in Ex. injection Ex as <-.
      destruct o as [T [v|m]|T|T v|T w|T]; cbn [no_throw] in NT1; try discriminate; cbn [type_of] in Ho.
      * cbn [step assertClean]. replace (flag u =? -1) with false by lia. reflexivity.
      * destruct (Z.eqb_spec T T') as [->|N].
        { assert (E : step true Ts (Get T') u = Ok (u, [], Value v')).
          { cbn [step]. unfold assertDirty, getImpl, static_has. rewrite has_in, Hl, Z.eqb_refl by exact Ho.
            rewrite Hf. cbn [obind]. rewrite Z.eqb_refl. reflexivity. }
          rewrite E. cbn [obind]. rewrite (IH (Some (T', v'))); [reflexivity| |exact F|exact NT|].
          - split; [exact HT|]. split; [auto|]. exists i. auto.
          - cbn [disciplined] in D. rewrite Z.eqb_refl in D. exact D. }
        { destruct (idx_in Ts T Ho) as [y [Ey _]]. cbn [step]. unfold assertDirty. rewrite Ey. cbn [obind].
          replace (flag u =? y) with false; [reflexivity|]. symmetry. apply Z.eqb_neq. intros <-. apply N. apply Ux; assumption. }
      * destruct (Z.eqb_spec T T') as [->|N].
        { assert (E : step true Ts (Set_ T' v) u = Ok (mkUnion (flag u) (Some (i, T', v)) (made u), [], Nothing)).
          { cbn [step]. unfold assertDirty, getImpl, static_has. rewrite has_in, Hl, Z.eqb_refl by exact Ho.
            rewrite Hf. cbn [obind]. rewrite Z.eqb_refl. reflexivity. }
          rewrite E. cbn [obind]. rewrite (IH (Some (T', v))); [reflexivity| |exact F|exact NT|].
          - split; [exact HT|]. split; [auto|]. exists i. auto.
          - cbn [disciplined] in D. rewrite Z.eqb_refl in D. exact D. }
        { destruct (idx_in Ts T Ho) as [y [Ey _]]. cbn [step]. unfold assertDirty. rewrite Ey. cbn [obind].
          replace (flag u =? y) with false; [reflexivity|]. symmetry. apply Z.eqb_neq. intros <-. apply N. apply Ux; assumption. }
      * destruct (Z.eqb_spec T T') as [->|N].
        { assert (E : step true Ts (Take T' w) u = Ok (mkUnion (flag u) (Some (i, T', w)) (made u), [], Value v')).
          { cbn [step]. unfold assertDirty, getImpl, static_has. rewrite has_in, Hl, Z.eqb_refl by exact Ho.
            rewrite Hf. cbn [obind]. rewrite Z.eqb_refl. reflexivity. }
          rewrite E. cbn [obind]. rewrite (IH (Some (T', w))); [reflexivity| |exact F|exact NT|].
          - split; [exact HT|]. split; [auto|]. exists i. auto.
          - cbn [disciplined] in D. rewrite Z.eqb_refl in D. exact D. }
        { destruct (idx_in Ts T Ho) as [y [Ey _]]. cbn [step]. unfold assertDirty. rewrite Ey. cbn [obind].
          replace (flag u =? y) with false; [reflexivity|]. symmetry. apply Z.eqb_neq. intros <-. apply N. apply Ux; assumption. }
      * destruct (Z.eqb_spec T T') as [->|N].
        { assert (E : step true Ts (Deinit T') u = Ok (mkUnion (-1) None (made u), [Gone i], Nothing)).
          { cbn [step]. unfold assertDirty, deinitImpl, setClean, getImpl, static_has. rewrite has_in by exact Ho.
            rewrite Hf. cbn [obind]. rewrite Z.eqb_refl. cbn [obind live]. rewrite Hl, Z.eqb_refl. reflexivity. }
          rewrite E. cbn [obind]. rewrite (IH None); [reflexivity|split; reflexivity|exact F|exact NT|].
          cbn [disciplined] in D. rewrite Z.eqb_refl in D. exact D. }
        { destruct (idx_in Ts T Ho) as [y [Ey _]]. cbn [step]. unfold assertDirty. rewrite Ey. cbn [obind].
          replace (flag u =? y) with false; [reflexivity|]. symmetry. apply Z.eqb_neq. intros <-. apply N. apply Ux; assumption. }
    + destruct H as [H1 H2]. specialize (H1 eq_refl). destruct (idx_in Ts (type_of o) Ho) as [y [Ey [Py _]]].
      assert (Ny : (flag u =? y) = false) by (rewrite H1; apply Z.eqb_neq; lia).
      destruct o as [T [v|m]|T|T v|T w|T]; cbn [no_throw] in NT1; try discriminate; cbn [type_of] in Ho, Ey;
        try (cbn [step]; unfold assertDirty; rewrite Ey; cbn [obind]; rewrite Ny; reflexivity).
      assert (E : step true Ts (Init T (inl v)) u = Ok (mkUnion y (Some (made u, T, v)) (S (made u)), [Made (made u)], Nothing)).
      { cbn [step]. unfold assertClean, setDirty, initImpl, static_has. rewrite has_in by exact Ho.
        rewrite H1, Z.eqb_refl. cbn [obind]. rewrite Ey. reflexivity. }
      rewrite E. cbn [obind]. rewrite (IH (Some (T, v))); [reflexivity| |exact F|exact NT|exact D].
      split; [exact Ho|]. split; [intros _; exact Ey|]. exists (made u). split; reflexivity.
Qed.

Lemma life_good : forall checks Ts os, unique Z.eqb Ts = true -> Forall (fun o => In (type_of o) Ts) os ->
  disciplined None os = true -> life checks Ts os = Ok (in_turn (inits os), answers 0 os).
Proof.
  intros k Ts os U F D. unfold life. rewrite U. apply (run_good k Ts os None (mkUnion (-1) None 0) 0); auto. split; reflexivity.
Qed.
Lemma life_bad : forall Ts os, unique Z.eqb Ts = true -> Forall (fun o => In (type_of o) Ts) os ->
  forallb no_throw os = true -> disciplined None os = false -> life true Ts os = failed.
Proof.
  intros Ts os U F N D. unfold life. rewrite U. apply (run_bad Ts os None (mkUnion (-1) None 0)); auto. split; reflexivity.
Qed.

(** After a constructor has thrown. *)
Lemma thrown : forall Ts T m os, unique Z.eqb Ts = true -> In T Ts -> Forall (fun o => In (type_of o) Ts) os ->
  life true Ts (Init T (inr m) :: os) = failed \/ life true Ts (Init T (inr m) :: os) = UB.
Proof.
  intros Ts T m os U HT F. unfold life. rewrite U.
  change (rest true Ts (Init T (inr m) :: os) (mkUnion (-1) None 0) = failed \/ rest true Ts (Init T (inr m) :: os) (mkUnion (-1) None 0) = UB).
  rewrite rest_cons. destruct (idx_in Ts T HT) as [i [Ei [Pi Ui]]].
  cbn [step assertClean flag]. rewrite Z.eqb_refl. cbn [obind setDirty]. rewrite Ei. cbn [obind].
  unfold initImpl, static_has. rewrite has_in by exact HT. cbn [obind flag made live].
  destruct os as [|o os].
  - left. unfold rest. cbn [steps obind assertClean flag]. replace (i =? -1) with false by lia. reflexivity.
  - rewrite rest_cons. pose proof (Forall_inv F) as Ho. cbn in Ho.
    destruct (idx_in Ts (type_of o) Ho) as [y [Ey _]].
    destruct o as [T2 r|T2|T2 v|T2 w|T2]; cbn [type_of] in Ho, Ey; cbn [step].
    + left. cbn [assertClean flag]. replace (i =? -1) with false by lia. reflexivity.
    + unfold assertDirty. rewrite Ey. cbn [obind flag]. destruct (i =? y); [|left; reflexivity].
      right. unfold getImpl, static_has. rewrite has_in by exact Ho. reflexivity.
    + unfold assertDirty. rewrite Ey. cbn [obind flag]. destruct (i =? y); [|left; reflexivity].
      right. unfold getImpl, static_has. rewrite has_in by exact Ho. reflexivity.
    + unfold assertDirty. rewrite Ey. cbn [obind flag]. destruct (i =? y); [|left; reflexivity].
      right. unfold getImpl, static_has. rewrite has_in by exact Ho. reflexivity.
    + unfold assertDirty. rewrite Ey. cbn [obind flag]. destruct (i =? y); [|left; reflexivity].
      right. unfold deinitImpl, getImpl, static_has. rewrite has_in by exact Ho. reflexivity.
Qed.

Lemma storage_fits : forall sizeof alignof Ts T, (forall x, exists k, alignof x = 2 ^ k /\ 0 <= k) -> In T Ts ->
  sizeof T <= storage_size sizeof Ts /\ (alignof T | storage_align alignof Ts).
Proof.
  intros sizeof alignof Ts T A H. assert (N : Ts <> []) by (intros ->; exact H).
  destruct (typemax_spec sizeof Ts N) as [_ S]. destruct (typemax_spec alignof Ts N) as [[M [_ E]] B].
  split; [apply S; exact H|]. unfold storage_align. rewrite E. specialize (B T H). rewrite E in B.
  destruct (A T) as [a [Ea Pa]], (A M) as [b [Eb Pb]]. rewrite Ea, Eb in *.
  apply Z.pow_le_mono_r_iff in B; [|lia|lia]. exists (2 ^ (b - a)). rewrite <- Z.pow_add_r by lia. f_equal. lia.
Qed.

Lemma pod_run : forall Ts os cur u, Forall (fun o => In (pod_type o) Ts) os ->
  (match cur with None => live u = None | Some (T, v) => exists i, live u = Some (i, T, v) end) ->
  match pod_answers cur os with
  | Some xs => exists u', psteps Ts os u = Ok (u', xs)
  | None => psteps Ts os u = UB
  end.
Proof.
  intros Ts. induction os as [|o os IH]; intros cur u F H; [cbn; eexists; reflexivity|].
  pose proof (Forall_inv F) as Ho. cbn in Ho. apply Forall_inv_tail in F.
  destruct o as [T v|T|T v]; cbn [pod_answers psteps pstep pod_type] in *; unfold initImpl, getImpl, static_has; rewrite has_in by exact Ho; cbn [obind].
  - specialize (IH (Some (T, v)) (mkUnion (flag u) (Some (made u, T, v)) (S (made u))) F (ex_intro _ _ eq_refl)).
    destruct (pod_answers (Some (T, v)) os) as [xs|]; [destruct IH as [u' ->]|rewrite IH]; cbn; eauto.
  - destruct cur as [[T' v']|]; [|rewrite H; reflexivity]. destruct H as [i H]. rewrite H. rewrite (Z.eqb_sym T' T).
    destruct (Z.eqb_spec T T') as [<-|N]; [|reflexivity]. cbn [obind].
    specialize (IH (Some (T, v')) u F (ex_intro _ _ H)).
    destruct (pod_answers (Some (T, v')) os) as [xs|]; cbn [option_map]; [destruct IH as [u' ->]|rewrite IH]; cbn; eauto.
  - destruct cur as [[T' v']|]; [|rewrite H; reflexivity]. destruct H as [i H]. rewrite H. rewrite (Z.eqb_sym T' T).
    destruct (Z.eqb_spec T T') as [<-|N]; [|reflexivity]. cbn [obind].
    specialize (IH (Some (T, v)) (mkUnion (flag u) (Some (i, T, v)) (made u)) F (ex_intro _ _ eq_refl)).
    destruct (pod_answers (Some (T, v)) os) as [xs|]; [destruct IH as [u' ->]|rewrite IH]; cbn; eauto.
Qed.

Lemma maybe_good : forall checks T os, disciplined None (map (maybe_op T) os) = true ->
  maybe_life checks T os = Ok (in_turn (inits (map (maybe_op T) os)), answers 0 (map (maybe_op T) os)).
Proof.
  intros k T os D. apply life_good.
  - cbn. rewrite Z.eqb_refl. reflexivity.
  - apply Forall_forall. intros o H. apply in_map_iff in H. destruct H as [[r| |v|w|] [<- _]]; left; reflexivity.
  - exact D.
Qed.
