From Coq Require Import String Ascii ZArith NArith Arith Bool Lia List.
From Verif Require Import Common VecSpec MplModel MplProofs BimapModel BimapSpec BimapProofs JsonModel JsonReadProofs EnumModel EnumSpec.
Import ListNotations.
Local Open Scope Z_scope.

Lemma read_foreach : forall A E (g : A -> E) l, l <> [] ->
  read_list (foreach_reverse (fun i a => Entry (g a) :: comma_if i) l) = Ok (map g l).
Proof.
  intros A E g. induction l as [|a l IH]; [contradiction|]. intros _. destruct l as [|b l]; [reflexivity|].
  specialize (IH ltac:(discriminate)).
  change (obind (read_list (foreach_reverse (fun i a => Entry (g a) :: comma_if i) (b :: l))) (fun r => Ok (g a :: r)) = Ok (map g (a :: b :: l))).
  rewrite IH. reflexivity.
Qed.

Lemma assign_vals : forall lo hi l p,
  assign_values lo hi p (map (fun a => (fst a, Some (snd a))) l) =
  if forallb (fun e : bytes * Z => (lo <=? snd e) && (snd e <=? hi)) l then Ok l else illformed.
Proof.
  intros lo hi. induction l as [|[n v] l IH]; intros p; [reflexivity|]. cbn [map fst snd assign_values forallb].
  destruct ((lo <=? v) && (v <=? hi)); [|reflexivity]. cbn [andb]. rewrite IH. destruct (forallb _ l); reflexivity.
Qed.
Lemma assign_defs : forall lo hi l p,
  assign_values lo hi (Z.of_nat p - 1) (map (fun a => (a, None)) l) =
  if forallb (fun e : bytes * Z => (lo <=? snd e) && (snd e <=? hi)) (combine l (map Z.of_nat (seq p (length l))))
  then Ok (combine l (map Z.of_nat (seq p (length l)))) else illformed.
Proof.
  intros lo hi. induction l as [|n l IH]; intros p; [reflexivity|]. cbn [map fst snd assign_values length seq combine forallb].
  replace (Z.of_nat p - 1 + 1) with (Z.of_nat p) by lia.
  destruct ((lo <=? Z.of_nat p) && (Z.of_nat p <=? hi)); [|reflexivity]. cbn [andb].
  replace (Z.of_nat p) with (Z.of_nat (S p) - 1) at 1 by lia. rewrite IH. destruct (forallb _ _); reflexivity.
Qed.

Lemma combine_fst : forall A B (l : list A) (m : list B), length m = length l -> map fst (combine l m) = l.
Proof. intros A B. induction l as [|x l IH]; intros [|y m] H; try discriminate; [reflexivity|]. cbn. f_equal. apply IH. now injection H. Qed.
Lemma elements_names : forall d, map fst (elements d) = single_names d.
Proof.
  intros [l|l]; [reflexivity|]. cbn [elements single_names]. apply combine_fst. rewrite map_length, seq_length. reflexivity.
Qed.
Lemma elements_length : forall d, length (elements d) = argcount d.
Proof. intros [l|l]; [reflexivity|]. cbn. rewrite combine_length, map_length, seq_length. lia. Qed.
Lemma elements_nil : forall d, elements d = [] <-> single_names d = [].
Proof. intros d. rewrite <- elements_names. split; [intros ->; reflexivity|apply map_eq_nil]. Qed.

Lemma read_enumerators : forall lo hi d, elements d <> [] ->
  obind (read_list (enumerators d)) (assign_values lo hi (-1)) =
  if forallb (fun e => (lo <=? snd e) && (snd e <=? hi)) (elements d) then Ok (elements d) else illformed.
Proof.
  intros lo hi [l|l] N.
  - cbn [enumerators elements] in *. unfold mk_elem_vals.
    rewrite (read_foreach _ _ (fun a => (fst a, Some (snd a)))) by exact N. cbn [obind]. apply assign_vals.
  - assert (N' : l <> []) by (intros ->; apply N; reflexivity). cbn [enumerators elements].
    unfold mk_elem_defs. rewrite (read_foreach _ _ (fun a => (a, None))) by exact N'. cbn [obind].
    exact (assign_defs lo hi l 0).
Qed.
Lemma read_bimap : forall d, elements d <> [] -> read_list (bimap_toks d) = Ok (map (fun n => (n, n)) (single_names d)).
Proof.
  intros [l|l] N.
  - cbn [bimap_toks single_names]. rewrite (read_foreach _ _ (fun a => (fst a, fst a))) by exact N. rewrite map_map. reflexivity.
  - assert (N' : l <> []) by (intros ->; apply N; reflexivity). apply (read_foreach _ _ (fun a => (a, a))). exact N'.
Qed.
Lemma read_names : forall d, elements d <> [] -> read_list (names_toks d) = Ok (single_names d).
Proof.
  intros [l|l] N.
  - apply (read_foreach _ _ fst). exact N.
  - assert (N' : l <> []) by (intros ->; apply N; reflexivity). cbn [names_toks single_names].
    rewrite (read_foreach _ _ (fun a => a)) by exact N'. rewrite map_id. reflexivity.
Qed.

Lemma value_found : forall es n v, NoDup (map fst es) -> In (n, v) es -> value_of es n = Ok v.
Proof.
  intros es n v. unfold value_of. induction es as [|[m w] es IH]; intros D I; [contradiction|]. cbn [find fst].
  cbn [map fst] in D. apply NoDup_cons_iff in D. destruct D as [D1 D2]. destruct I as [E|I].
  - injection E as -> ->. rewrite (proj2 (bytes_eqb_eq n n) eq_refl). reflexivity.
  - destruct (bytes_eqb m n) eqn:Q; [|apply IH; assumption]. apply bytes_eqb_eq in Q. subst m. destruct D1.
    apply (in_map fst) in I. exact I.
Qed.
Lemma all_found : forall A (g : bytes -> Z -> A) es l, NoDup (map fst es) -> (forall e, In e l -> In e es) ->
  all_ok (map (fun n => obind (value_of es n) (fun v => Ok (g n v))) (map fst l)) = Ok (map (fun e => g (fst e) (snd e)) l).
Proof.
  intros A g es. induction l as [|[n v] l IH]; intros D I; [reflexivity|]. cbn [map fst snd all_ok].
  rewrite (value_found es n v D (I _ (or_introl eq_refl))). cbn [obind].
  rewrite IH by (auto; intros; apply I; right; assumption). reflexivity.
Qed.

Lemma bad_if : forall lo hi d, ~ acceptable lo hi d -> define lo hi d = illformed.
Proof.
  intros lo hi d NA. unfold define.
  destruct (elements d) as [|e0 es0] eqn:EN.
  { apply elements_nil in EN. destruct d as [[|]|[|]]; try discriminate; reflexivity. }
  assert (N : elements d <> []) by (rewrite EN; discriminate). clear e0 es0 EN.
  pose proof (read_enumerators lo hi d N) as R. destruct (read_list (enumerators d)) as [es| | |]; cbn [obind] in R |- *.
  2-4: destruct (forallb _ _); [discriminate|unfold illformed in *; congruence].
  rewrite R. clear R.
  destruct (forallb (fun e => (lo <=? snd e) && (snd e <=? hi)) (elements d)) eqn:Fr; [|reflexivity]. cbn [obind].
  destruct (unique bytes_eqb (map fst (elements d))) eqn:U; [|reflexivity]. cbn [negb].
  apply (unique_spec bytes_eqb bytes_eqb_eq) in U.
  rewrite read_bimap by exact N. cbn [obind]. rewrite map_map. cbn [fst snd].
  rewrite <- (elements_names d). rewrite (all_found _ (fun n v => (n, v)) (elements d) (elements d) U (fun e H => H)). cbn [obind].
  rewrite read_names by exact N. cbn [obind]. rewrite <- (elements_names d).
  assert (V : all_ok (map (value_of (elements d)) (map fst (elements d))) = Ok (map snd (elements d))).
  { pose proof (all_found _ (fun n v => v) (elements d) (elements d) U (fun e H => H)) as Q. etransitivity; [|exact Q].
    f_equal. apply map_ext. intros a. destruct (value_of (elements d) a); reflexivity. }
  rewrite V. cbn [obind]. rewrite (all_found _ (fun n v => (v, n)) (elements d) (elements d) U (fun e H => H)). cbn [obind].
  rewrite map_map. cbn [fst]. destruct (unique Z.eqb (map (fun x => snd x) (elements d))) eqn:W; [|reflexivity].
  exfalso. apply NA. apply (unique_spec Z.eqb Z.eqb_eq) in W. repeat split; try assumption.
  apply Forall_forall. intros e I. rewrite forallb_forall in Fr. specialize (Fr e I). lia.
Qed.

Lemma good_if : forall lo hi d, acceptable lo hi d ->
  define lo hi d = Ok (mkMgr (elements d) (argcount d) (elements d) (map snd (elements d)) (map fst (elements d)) (map (fun e => (snd e, fst e)) (elements d))).
Proof.
  intros lo hi d (N & U & W & Fr). unfold define.
  pose proof (read_enumerators lo hi d N) as R. destruct (read_list (enumerators d)) as [es| | |]; cbn [obind] in R |- *;
    replace (forallb (fun e => (lo <=? snd e) && (snd e <=? hi)) (elements d)) with true in R
      by (symmetry; apply forallb_forall; intros e I; rewrite Forall_forall in Fr; specialize (Fr e I); cbn in Fr; lia);
    [|discriminate..].
  rewrite R. clear R. cbn [obind].
  rewrite (proj2 (unique_spec bytes_eqb bytes_eqb_eq _) U). cbn [negb].
  rewrite read_bimap by exact N. cbn [obind]. rewrite map_map. cbn [fst snd].
  rewrite <- (elements_names d). rewrite (all_found _ (fun n v => (n, v)) (elements d) (elements d) U (fun e H => H)). cbn [obind].
  rewrite read_names by exact N. cbn [obind]. rewrite <- (elements_names d).
  assert (V : all_ok (map (value_of (elements d)) (map fst (elements d))) = Ok (map snd (elements d))).
  { pose proof (all_found _ (fun n v => v) (elements d) (elements d) U (fun e H => H)) as Q. etransitivity; [|exact Q].
    f_equal. apply map_ext. intros a. destruct (value_of (elements d) a); reflexivity. }
  rewrite V. cbn [obind]. rewrite (all_found _ (fun n v => (v, n)) (elements d) (elements d) U (fun e H => H)). cbn [obind].
  rewrite map_map. cbn [fst]. change (map (fun x : bytes * Z => snd x) (elements d)) with (map snd (elements d)). rewrite (proj2 (unique_spec Z.eqb Z.eqb_eq _) W). repeat f_equal.
  rewrite <- (map_id (elements d)) at 2. apply map_ext. intros [a b]. reflexivity.
Qed.

Lemma accepted_iff : forall lo hi d,
  (acceptable lo hi d -> exists m, define lo hi d = Ok m) /\ (~ acceptable lo hi d -> define lo hi d = illformed).
Proof. intros. split; [intros A; eexists; apply good_if; exact A|apply bad_if]. Qed.

(** The bimap. *)
Definition ops (l : list (bytes * Z)) : list (bm_op bytes Z) := map (fun e => Emplace (fst e) (snd e)) l.
Lemma fill_run : forall l b, fill l b = bm_run bytes_ltb Z.ltb b (ops l).
Proof. induction l as [|[n v] l IH]; intros b; [reflexivity|]. cbn [fill ops map bm_run bm_step fst snd]. destruct (emplace bytes_ltb Z.ltb b n v); cbn [obind]; auto. Qed.
Lemma z_order : strict_total Z.ltb Z.eqb.
Proof. constructor; intros; rewrite ?Z.ltb_lt, ?Z.eqb_eq, ?Z.ltb_irrefl in *; lia. Qed.
Lemma spec_fill : forall l acc, NoDup (map fst (acc ++ l)) -> NoDup (map snd (acc ++ l)) ->
  spec_run bytes_eqb Z.eqb acc (ops l) = Some (acc ++ l).
Proof.
  induction l as [|[n v] l IH]; intros acc D1 D2; [now rewrite app_nil_r|].
  cbn [ops map spec_run spec_step fst snd].
  assert (E1 : existsb (uses1 bytes_eqb n) acc = false).
  { destruct (existsb (uses1 bytes_eqb n) acc) eqn:Q; [|reflexivity]. apply existsb_exists in Q. destruct Q as [e [I Q]].
    apply bytes_eqb_eq in Q. subst n. rewrite map_app in D1. cbn [map] in D1. apply NoDup_remove_2 in D1. destruct D1.
    apply in_or_app. left. exact (in_map fst _ _ I). }
  assert (E2 : existsb (uses2 Z.eqb v) acc = false).
  { destruct (existsb (uses2 Z.eqb v) acc) eqn:Q; [|reflexivity]. apply existsb_exists in Q. destruct Q as [e [I Q]].
    apply Z.eqb_eq in Q. subst v. rewrite map_app in D2. cbn [map] in D2. apply NoDup_remove_2 in D2. destruct D2.
    apply in_or_app. left. exact (in_map snd _ _ I). }
  rewrite E1, E2. cbn [orb]. change (map (fun e : bytes * Z => Emplace (fst e) (snd e)) l) with (ops l). rewrite IH; rewrite <- app_assoc; auto.
Qed.

Lemma enum_means : forall lo hi d m, acceptable lo hi d -> define lo hi d = Ok m ->
  getSize m = Z.of_nat (length (elements d)) /\ getValues m = map snd (elements d) /\ getElementNames m = map fst (elements d) /\
  forall ndebug,
    (forall n v, getAsStr ndebug m v = Ok n <-> In (n, v) (elements d)) /\
    (forall n v, getFromStr ndebug m n = Ok v <-> In (n, v) (elements d)) /\
    (forall n v, In (n, v) (elements d) -> getAsStrOf m v = Ok n) /\
    (forall v, ~ In v (map snd (elements d)) ->
       getAsStr ndebug m v = (if ndebug then terminate else UB) /\ getAsStrOf m v = illformed) /\
    (forall s, ~ In s (map fst (elements d)) -> getFromStr ndebug m s = if ndebug then terminate else UB).
Proof.
  intros lo hi d m A D. rewrite (good_if lo hi d A) in D. injection D as <-. destruct A as (N & U & W & _).
  unfold getSize, getValues, getElementNames, getAsStr, getFromStr, getAsStrOf, getBimap. cbn [entries count values names singles].
  rewrite <- elements_length. repeat (split; [reflexivity|]). intros nd.
  pose proof (bimap_spec bytes_ltb bytes_eqb Z.ltb Z.eqb bytes_order z_order (ops (elements d))) as B.
  rewrite (spec_fill (elements d) [] U W) in B. cbn [app] in B.
  destruct B as (b & Eb & _ & _ & _ & _ & A1 & A2 & T1 & T2 & H1 & H2). rewrite fill_run, Eb. cbn [obind].
  assert (EX1 : forall s, existsb (fun p => bytes_eqb (fst p) s) (elements d) = true <-> In s (map fst (elements d))).
  { intros s. rewrite existsb_exists, in_map_iff. split; intros [e [X Y]]; exists e; [apply bytes_eqb_eq in Y|]; split; auto. apply bytes_eqb_eq. exact X. }
  assert (EX2 : forall v, existsb (fun p => Z.eqb (snd p) v) (elements d) = true <-> In v (map snd (elements d))).
  { intros s. rewrite existsb_exists, in_map_iff. split; intros [e [X Y]]; exists e; [apply Z.eqb_eq in Y|]; split; auto. apply Z.eqb_eq. exact X. }
  assert (S : forall X (o : outcome X) x, stop o = Ok x <-> o = Ok x) by (intros X [a|a| |] x; cbn; split; intros Q; try discriminate; exact Q).
  repeat split.
  - intros Q. apply A2. destruct nd; [apply S; exact Q|]. rewrite (proj1 (H2 v)) in Q. cbn [obind] in Q.
    destruct (existsb _ _); [apply S; exact Q|discriminate].
  - intros Q. pose proof (proj2 (A2 n v) Q) as G. destruct nd; [apply S; exact G|]. rewrite (proj1 (H2 v)). cbn [obind].
    rewrite (proj2 (EX2 v)) by exact (in_map snd _ _ Q). apply S. exact G.
  - intros Q. apply A1. destruct nd; [apply S; exact Q|]. rewrite (proj1 (H1 n)) in Q. cbn [obind] in Q.
    destruct (existsb _ _); [apply S; exact Q|discriminate].
  - intros Q. pose proof (proj2 (A1 n v) Q) as G. destruct nd; [apply S; exact G|]. rewrite (proj1 (H1 n)). cbn [obind].
    rewrite (proj2 (EX1 n)) by exact (in_map fst _ _ Q). apply S. exact G.
  - intros n v I. revert W I. clear. induction (elements d) as [|[n' v'] l IH]; intros W I; [contradiction|].
    cbn [map find fst snd]. cbn [map snd] in W. apply NoDup_cons_iff in W. destruct W as [W1 W]. destruct I as [E|I].
    + injection E as -> ->. rewrite Z.eqb_refl. reflexivity.
    + destruct (v' =? v) eqn:Q; [|auto]. apply Z.eqb_eq in Q. subst v'. destruct W1. exact (in_map snd _ _ I).
  - destruct nd; [rewrite (proj2 (T2 v) H); reflexivity|]. rewrite (proj1 (H2 v)). cbn [obind].
    destruct (existsb _ _) eqn:Q; [apply EX2 in Q; contradiction|reflexivity].
  - revert H. clear. induction (elements d) as [|[n' v'] l IH]; intros H; [reflexivity|]. cbn [map find fst snd] in *.
    destruct (Z.eqb_spec v' v) as [->|Q]; [destruct H; left; reflexivity|]. apply IH. intros I. apply H. right. exact I.
  - intros s H. destruct nd; [rewrite (proj2 (T1 s) H); reflexivity|]. rewrite (proj1 (H1 s)). cbn [obind].
    destruct (existsb _ _) eqn:Q; [apply EX1 in Q; contradiction|reflexivity].
Qed.
