(** Object texts, failed reads, purging, and equality of numbers. *)
From Coq Require Import String Ascii ZArith NArith Arith Bool Lia List Permutation.
From Coq Require Import Floats.SpecFloat.
From Verif Require Import Common ListAux VecModel VecSpec VecProofs IntToStrSpec.
From Verif Require Import JsonNumModel JsonModel JsonSpec JsonProofs JsonReadProofs JsonTextProofs JsonWriteProofs JsonSafeProofs.
Import ListNotations.
Local Open Scope Z_scope.

Lemma purge_spaced : forall t s, spaced t s -> purge (length s) s 0 0 = Ok (t ++ skipn (length t) s, length t).
Proof.
  intros t s H. apply spaced_strip in H.
  change (purge (length s) s 0 0) with (purge (length s) (over [] s) 0 (length (@nil ascii))).
  rewrite (purge_ok s (length s) [] 0 t) by (cbn; auto; lia). reflexivity.
Qed.
Lemma unescaped_written : forall pretty s, In (ch 34) s \/ In (ch 92) s ->
  exists t, getWriteToStr pretty (JStr s) = Ok t /\ parse_text t <> Ok (JStr s).
Proof.
  intros pretty s H. exists (quoted s). split; [|now apply unescaped].
  unfold getWriteToStr. cbn [write_val obind]. unfold wOut. cbn [needIndent]. rewrite andb_false_r. reflexivity.
Qed.

(** ** Objects *)
Definition entries (ms : list member) : list (bytes * jval) := map (fun m => (m_key m, m_val m)) ms.
Definition proper (ms : list member) : Prop := Forall (fun m => denotes (m_text m) (m_val m)) ms /\
  Forall (fun m => string_body (m_raw m) (m_key m) /\ no_final_backslash (m_raw m)) ms.
Lemma object_exists : forall ms, exists o, object_of (entries ms) o.
Proof.
  intros ms. destruct (vecmap_spec bytes_ltb bytes_eqb JNll bytes_order (assigns ms)) as (d & _ & O & I & _).
  exists d. split; [exact O|]. intros k v. rewrite I. unfold entries. rewrite assigns_meaning. reflexivity.
Qed.
Lemma object_start : forall r, not_number ("{"%char :: r).
Proof. intros r. exists "{"%char, r. split; [reflexivity|]. split; [discriminate|]. unfold is_digit. cbn. lia. Qed.
Lemma object_read : forall ms s, Forall (fun m => denotes (m_text m) (m_val m)) ms ->
  Forall (fun m => string_body (m_raw m) (m_key m) /\ no_final_backslash (m_raw m)) ms ->
  spaced ("{"%char :: join (map member_text ms) ++ ["}"%char]) s -> (N.of_nat (length s) < 2 ^ 31)%N ->
  exists o, parse_text s = Ok (JObj o) /\ ordered (fun p q => bytes_ltb (fst p) (fst q) = true) o /\
    forall k v, In (k, v) o <-> last_of k (map (fun m => (m_key m, m_val m)) ms) = Some v.
Proof.
  intros ms s D B Sp L. destruct (object_exists ms) as (o & O). exists o. split; [|exact O].
  eapply denoted_spaced; [|exact Sp|exact L|left; apply object_start]. apply d_object; assumption.
Qed.
Lemma last_of_in : forall l k v, NoDup (map fst l) -> (last_of k l = Some v <-> In (k, v) l).
Proof.
  induction l as [|(j, w) l IH]; intros k v N; cbn [last_of]; [split; [discriminate|contradiction]|].
  cbn [map fst] in N. inversion N as [|? ? Nj N']; subst. split.
  - intros E. destruct (last_of k l) as [u|] eqn:El.
    + injection E as <-. right. now apply IH.
    + destruct (bytes_eqb j k) eqn:Ej; [|discriminate]. injection E as <-. apply bytes_eqb_eq in Ej as ->. now left.
  - intros [E|I].
    + injection E as -> ->. destruct (last_of k l) as [u|] eqn:El.
      * apply IH in El; [|exact N']. destruct Nj. apply (in_map fst) in El. exact El.
      * replace (bytes_eqb k k) with true; [reflexivity|]. symmetry. now apply bytes_eqb_eq.
    + apply IH in I as ->; [reflexivity|exact N'].
Qed.
Lemma object_order : forall ms ms' s s', Forall (fun m => denotes (m_text m) (m_val m)) ms ->
  Forall (fun m => string_body (m_raw m) (m_key m) /\ no_final_backslash (m_raw m)) ms ->
  NoDup (map m_key ms) -> Permutation ms ms' ->
  spaced ("{"%char :: join (map member_text ms) ++ ["}"%char]) s -> (N.of_nat (length s) < 2 ^ 31)%N ->
  spaced ("{"%char :: join (map member_text ms') ++ ["}"%char]) s' -> (N.of_nat (length s') < 2 ^ 31)%N ->
  exists o, parse_text s = Ok (JObj o) /\ parse_text s' = Ok (JObj o) /\ length o = length ms.
Proof.
  intros ms ms' s s' D B N P S L S' L'.
  destruct (object_read ms s D B S L) as (o & E & O & I).
  destruct (object_read ms' s' (Permutation_Forall P D) (Permutation_Forall P B) S' L') as (o' & E' & O' & I').
  assert (K : forall l, map fst (map (fun m => (m_key m, m_val m)) l) = map m_key l) by (intros l; rewrite map_map; reflexivity).
  assert (N' : NoDup (map m_key ms')) by (eapply Permutation_NoDup; [apply Permutation_map; exact P|exact N]).
  assert (M : forall k v, In (k, v) o <-> In (k, v) (map (fun m => (m_key m, m_val m)) ms)).
  { intros k v. rewrite I. apply last_of_in. rewrite K. exact N. }
  assert (Eo : o = o').
  { apply (ordered_unique bytes_ltb bytes_eqb bytes_order); [exact O|exact O'|]. intros (k, v). rewrite M, I'.
    rewrite last_of_in by (rewrite K; exact N'). split; apply Permutation_in; [|apply Permutation_sym]; apply Permutation_map; exact P. }
  subst o'. exists o. split; [exact E|]. split; [exact E'|].
  replace (length ms) with (length (map (fun m => (m_key m, m_val m)) ms)) by apply map_length.
  apply Permutation_length. apply NoDup_Permutation.
  - assert (G : forall l : list (bytes * jval), ordered (fun p q => bytes_ltb (fst p) (fst q) = true) l -> NoDup l).
    { induction l as [|x l IH]; intros H; constructor; destruct H as (H1 & H2); [|now apply IH].
      intros J. apply H1 in J. rewrite bytes_ltb_irrefl in J. discriminate. }
    now apply G.
  - apply (NoDup_map_inv fst). rewrite K. exact N.
  - intros (k, v). apply M.
Qed.

(** ** Failed reads *)
Lemma read_good : forall old t s v, denotes t v -> spaced t s -> (N.of_nat (length s) < 2 ^ 31)%N ->
  not_number t \/ t = s -> readFromStr old s = Ok (true, v).
Proof. intros old t s v D Sp L H. unfold readFromStr. rewrite (denoted_spaced t s v D Sp L H). reflexivity. Qed.
Lemma read_result : forall old s, readFromStr old s = UB \/
  (exists v, readFromStr old s = Ok (true, v) /\ forall old', readFromStr old' s = Ok (true, v)) \/
  readFromStr old s = Ok (false, old).
Proof.
  intros old s. unfold readFromStr. pose proof (parse_text_terminates s) as T.
  destruct (parse_text s); eauto 6. now destruct T.
Qed.

(** ** Numbers *)
Lemma SFeqb_trans : forall a b c, SFeqb a b = true -> SFeqb b c = true -> SFeqb a c = true.
Proof.
  assert (P : forall m n, Pos.compare_cont Eq m n = Eq -> m = n) by (intros m n H; now apply Pos.compare_eq).
  assert (Z1 : forall e f, (e ?= f) = Eq -> e = f) by (intros; now apply Z.compare_eq).
  intros a b c. unfold SFeqb, SFcompare.
  destruct a as [sa|sa| |sa ma ea], b as [sb|sb| |sb mb eb]; try discriminate; try (destruct sa; discriminate); try (destruct sb; discriminate);
    destruct c as [sc|sc| |sc mc ec]; try discriminate; try (destruct sb; discriminate); try (destruct sc; discriminate); auto.
  - destruct sa, sb, sc; try discriminate; auto.
  - destruct sa, sb; try discriminate; destruct sc; try discriminate;
      destruct (ea ?= eb) eqn:E1; try discriminate; destruct (eb ?= ec) eqn:E2; try discriminate;
      apply Z1 in E1; apply Z1 in E2; subst eb; subst ec; rewrite Z.compare_refl;
      destruct (Pos.compare_cont Eq ma mb) eqn:M1; try discriminate; destruct (Pos.compare_cont Eq mb mc) eqn:M2; try discriminate;
      apply P in M1; apply P in M2; subst; rewrite Pos.compare_cont_refl; reflexivity.
Qed.
Lemma num_eq_repr : forall a b c, same_repr a b -> same_repr b c ->
  (a <> NR S754_nan -> num_eq a a = Ok true) /\ num_eq a b = num_eq b a /\
  (num_eq a b = Ok true -> num_eq b c = Ok true -> num_eq a c = Ok true).
Proof.
  intros a b c. destruct a as [x|x|x], b as [y|y|y]; try contradiction; destruct c as [z|z|z]; try contradiction;
    cbn [num_eq getIntS getIntU getReal obind]; intros _ _; (split; [|split]).
  - intros _. now rewrite Z.eqb_refl.
  - now rewrite Z.eqb_sym.
  - intros H1 H2. injection H1 as H1. injection H2 as H2. apply Z.eqb_eq in H1, H2. subst. now rewrite Z.eqb_refl.
  - intros _. now rewrite Z.eqb_refl.
  - now rewrite Z.eqb_sym.
  - intros H1 H2. injection H1 as H1. injection H2 as H2. apply Z.eqb_eq in H1, H2. subst. now rewrite Z.eqb_refl.
  - intros H. f_equal. unfold SFeqb, SFcompare. destruct x as [s|s| |s m e]; [reflexivity|now destruct s|now destruct H|].
    destruct s; rewrite Z.compare_refl, Pos.compare_cont_refl; reflexivity.
  - now rewrite SFeqb_sym.
  - intros H1 H2. injection H1 as H1. injection H2 as H2. f_equal. eapply SFeqb_trans; eauto.
Qed.
