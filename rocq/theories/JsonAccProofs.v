(** Proofs about access to JSON values. *)
From Coq Require Import String Ascii ZArith NArith Arith Bool Lia List.
From Coq Require Import Floats.SpecFloat.
From Verif Require Import Common VecModel VecSpec VecProofs JsonNumModel JsonModel JsonCnvModel JsonSpec JsonReadProofs JsonWriteProofs
  JsonSafeProofs JsonAccModel JsonAccSpec.
Import ListNotations.
Local Open Scope nat_scope.

Notation okl o := (ordered (fun p q : bytes * jval => bytes_ltb (fst p) (fst q) = true) o).

(** ** One step *)
Lemma obj_cases : forall o k, okl o ->
  (exists p u s, o = p ++ (k, u) :: s /\ (forall x, In x p -> bytes_ltb (fst x) k = true) /\ (forall x, In x s -> bytes_ltb k (fst x) = true) /\
     vm_bracket bytes_ltb bytes_eqb JNll o k = Ok (o, length p) /\ vm_atOrDefault bytes_ltb bytes_eqb JNll o k = Ok u /\
     vm_has bytes_ltb bytes_eqb o k = Ok true) \/
  (exists p s, o = p ++ s /\ (forall x, In x p -> bytes_ltb (fst x) k = true) /\ (forall x, In x s -> bytes_ltb k (fst x) = true) /\
     ~ In k (map fst o) /\
     vm_bracket bytes_ltb bytes_eqb JNll o k = Ok (p ++ (k, JNll) :: s, length p) /\ vm_atOrDefault bytes_ltb bytes_eqb JNll o k = Ok JNll /\
     vm_has bytes_ltb bytes_eqb o k = Ok false).
Proof.
  intros o k O. destruct (vm_cases bytes_ltb bytes_eqb bytes_order o k O) as (p & s & L & Hp & [(u & E & Hs)|(E & Hs)]).
  - left. exists p, u, s. split; [exact E|]. split; [exact Hp|]. split; [exact Hs|].
    unfold vm_bracket, vm_atOrDefault, vm_has. rewrite L. cbn [obind]. rewrite E.
    rewrite (is_hit bytes_ltb bytes_eqb bytes_order), nth_error_mid. auto.
  - right. exists p, s. split; [exact E|]. split; [exact Hp|]. split; [exact Hs|]. split.
    + intros H. apply in_map_iff in H as ((j, w) & Ej & H). cbn in Ej. subst j. rewrite E in H.
      exact (in_miss bytes_ltb bytes_eqb bytes_order p s k w Hp Hs H).
    + unfold vm_bracket, vm_atOrDefault, vm_has. rewrite L. cbn [obind]. rewrite E.
      rewrite (is_miss bytes_ltb bytes_eqb bytes_order) by assumption. rewrite insert_at_app. auto.
Qed.

Definition to (v : jval) (s : step) (u : jval) : Prop :=
  match s, v with K k, JObj o => In (k, u) o | I i, JArr a => nth_error a i = Some u | _, _ => False end.
Definition absent (v : jval) (s : step) : Prop :=
  match s, v with K k, JObj o => ~ In k (map fst o) | _, _ => False end.
Definition past (v : jval) (s : step) : Prop :=
  match s, v with I i, JArr a => length a <= i | _, _ => False end.

Lemma found_nil : forall v w, found v [] w <-> w = v.
Proof. intros v w. split; [intros H; now inversion H|intros ->; constructor]. Qed.
Lemma found_cons : forall v s p w, found v (s :: p) w <-> exists u, to v s u /\ found u p w.
Proof.
  intros v s p w. split.
  - intros H. inversion H; subst; eexists; (split; [|eassumption]); assumption.
  - intros (u & T & F). destruct s, v; try contradiction; econstructor; eassumption.
Qed.
Lemma found_app : forall p q v w, found v (p ++ q) w <-> exists u, found v p u /\ found u q w.
Proof.
  induction p as [|s p IH]; intros q v w; cbn [app].
  - split; [intros H; exists v; split; [constructor|exact H]|intros (u & E & H)]. apply found_nil in E. now subst.
  - rewrite found_cons. split.
    + intros (u & T & H). apply IH in H as (x & A & B). exists x. split; [apply found_cons; eauto|exact B].
    + intros (x & A & B). apply found_cons in A as (u & T & A). exists u. split; [exact T|]. apply IH. eauto.
Qed.
Lemma missing_cons : forall v s p, missing_key v (s :: p) <-> (p = [] /\ absent v s) \/ exists u, to v s u /\ missing_key u p.
Proof.
  intros v s p. split.
  - intros (q & o & k & E & F & N). destruct q as [|t q]; cbn [app] in E; injection E as -> ->.
    + left. apply found_nil in F. subst v. split; [reflexivity|exact N].
    + right. apply found_cons in F as (u & T & F). exists u. split; [exact T|]. exists q, o, k. auto.
  - intros [(-> & A)|(u & T & q & o & k & -> & F & N)].
    + destruct s, v; try contradiction. exists [], o, k. split; [reflexivity|]. split; [constructor|exact A].
    + exists (s :: q), o, k. split; [reflexivity|]. split; [apply found_cons; eauto|exact N].
Qed.
Lemma missing_nil : forall v, ~ missing_key v [].
Proof. intros v (q & o & k & E & _). destruct q; discriminate. Qed.
Lemma beyond_cons : forall v s p, beyond v (s :: p) <-> past v s \/ exists u, to v s u /\ beyond u p.
Proof.
  intros v s p. split.
  - intros (q & a & i & r & E & F & L). destruct q as [|t q]; cbn [app] in E; injection E as -> ->.
    + left. apply found_nil in F. subst v. exact L.
    + right. apply found_cons in F as (u & T & F). exists u. split; [exact T|]. exists q, a, i, r. auto.
  - intros [A|(u & T & q & a & i & r & -> & F & L)].
    + destruct s, v; try contradiction. exists [], a, i, p. split; [reflexivity|]. split; [constructor|exact A].
    + exists (s :: q), a, i, r. split; [reflexivity|]. split; [apply found_cons; eauto|exact L].
Qed.
Lemma beyond_nil : forall v, ~ beyond v [].
Proof. intros v (q & a & i & r & E & _). destruct q; discriminate. Qed.

Lemma to_keyed : forall v s u, keyed v -> to v s u -> keyed u.
Proof.
  intros v s u Kv T. destruct Kv as [o O C|a C|x|x|x|]; destruct s; try contradiction; cbn in T; [eapply C; eassumption|].
  eapply C. eapply nth_error_In. eassumption.
Qed.
Lemma found_keyed : forall p v w, keyed v -> found v p w -> keyed w.
Proof.
  induction p as [|s p IH]; intros v w Kv F.
  - apply found_nil in F. now subst.
  - apply found_cons in F as (u & T & F). eapply IH; [|exact F]. eapply to_keyed; eassumption.
Qed.
(** The four cases of a step. *)
Inductive stepping (v : jval) (s : step) : Prop :=
| st_to : forall u, to v s u -> (forall u', to v s u' -> u' = u) -> ~ absent v s -> ~ past v s -> child v s = Ok u -> stepping v s
| st_absent : absent v s -> (forall u, ~ to v s u) -> ~ past v s -> child v s = Ok JNll -> stepping v s
| st_past : past v s -> (forall u, ~ to v s u) -> ~ absent v s -> child v s = Throw "out_of_range"%string -> stepping v s
| st_none : (forall u, ~ to v s u) -> ~ absent v s -> ~ past v s -> child v s = UB -> stepping v s.
Lemma step_cases : forall v s, keyed v -> stepping v s.
Proof.
  intros v s Kv. destruct s as [k|i]; destruct Kv as [o O C|a C|x|x|x|];
    try (apply st_none; [intros u H; exact H|intros H; exact H|intros H; exact H|reflexivity]).
  - destruct (obj_cases o k O) as [(p & u & s & E & Hp & Hs & _ & D & _)|(p & s & E & Hp & Hs & N & _ & D & _)].
    + assert (Iu : In (k, u) o) by (rewrite E; apply in_or_app; right; left; reflexivity).
      apply st_to with u; [exact Iu| | |intros H; exact H|exact D].
      * intros u' H. cbn in H. rewrite E in H. now apply (in_hit bytes_ltb bytes_eqb bytes_order) in H.
      * intros H. apply H. apply (in_map fst) in Iu. exact Iu.
    + apply st_absent; [exact N| |intros H; exact H|exact D]. intros u H. apply N. apply (in_map fst) in H. exact H.
  - destruct (nth_error a i) as [u|] eqn:E.
    + apply st_to with u; [exact E| |intros H; exact H| |cbn; now rewrite E].
      * intros u' H. cbn in H. congruence.
      * cbn. assert (i < length a) by (apply nth_error_Some; congruence). lia.
    + apply st_past; [cbn; now apply nth_error_None|intros u H; cbn in H; congruence|intros H; exact H|cbn; now rewrite E].
Qed.

(** ** Reading *)
Lemma read_null : forall s p, read JNll (s :: p) = UB.
Proof. intros [k|i] p; reflexivity. Qed.
Lemma null_nowhere : forall s u, ~ to JNll s u.
Proof. intros [k|i] u H; exact H. Qed.
Lemma read_cases : forall p v, keyed v ->
  match read v p with
  | Ok w => (found v p w /\ ~ missing_key v p \/ missing_key v p /\ w = JNll /\ forall w', ~ found v p w') /\ ~ beyond v p
  | Throw m => m = "out_of_range"%string /\ beyond v p /\ ~ missing_key v p /\ forall w, ~ found v p w
  | UB => ~ beyond v p /\ ~ missing_key v p /\ forall w, ~ found v p w
  | OutOfFuel => False
  end.
Proof.
  induction p as [|s p IH]; intros v Kv.
  - cbn [read]. split; [left; split; [constructor|apply missing_nil]|apply beyond_nil].
  - cbn [read]. destruct (step_cases v s Kv) as [u T U NA NP C|A N NP C|A N NA C|N NA NP C]; rewrite C; cbn [obind].
    + specialize (IH u (to_keyed _ _ _ Kv T)).
      assert (EF : forall w, found v (s :: p) w <-> found u p w).
      { intros w. rewrite found_cons. split; [intros (x & X & F); apply U in X; now subst|eauto]. }
      assert (EM : missing_key v (s :: p) <-> missing_key u p).
      { rewrite missing_cons. split; [intros [(_ & H)|(x & X & F)]; [contradiction|apply U in X; now subst]|eauto]. }
      assert (EB : beyond v (s :: p) <-> beyond u p).
      { rewrite beyond_cons. split; [intros [H|(x & X & F)]; [contradiction|apply U in X; now subst]|eauto]. }
      assert (EN : (forall w, ~ found u p w) -> forall w, ~ found v (s :: p) w) by (intros H w Hw; apply EF in Hw; exact (H w Hw)).
      destruct (read u p) as [w|m| |].
      * destruct IH as ([(F & NM)|(M & -> & NF)] & NB).
        -- split; [left; split; [now apply EF|now rewrite EM]|now rewrite EB].
        -- split; [right; split; [now apply EM|split; [reflexivity|apply EN; exact NF]]|now rewrite EB].
      * destruct IH as (-> & B & NM & NF). split; [reflexivity|]. split; [now apply EB|]. split; [now rewrite EM|apply EN; exact NF].
      * destruct IH as (NB & NM & NF). split; [now rewrite EB|]. split; [now rewrite EM|apply EN; exact NF].
      * contradiction.
    + destruct p as [|t p].
      * cbn [read]. split; [right; split; [apply missing_cons; left; auto|split; [reflexivity|]]|].
        -- intros w' F. apply found_cons in F as (u & T & _). exact (N u T).
        -- intros B. apply beyond_cons in B as [B|(u & T & _)]; [contradiction|exact (N u T)].
      * rewrite read_null. split; [|split].
        -- intros B. apply beyond_cons in B as [B|(u & T & _)]; [contradiction|exact (N u T)].
        -- intros M. apply missing_cons in M as [(E & _)|(u & T & _)]; [discriminate|exact (N u T)].
        -- intros w' F. apply found_cons in F as (u & T & _). exact (N u T).
    + split; [reflexivity|]. split; [apply beyond_cons; now left|]. split.
      * intros M. apply missing_cons in M as [(E & H)|(u & T & _)]; [contradiction|exact (N u T)].
      * intros w' F. apply found_cons in F as (u & T & _). exact (N u T).
    + split; [|split].
      * intros B. apply beyond_cons in B as [B|(u & T & _)]; [contradiction|exact (N u T)].
      * intros M. apply missing_cons in M as [(E & H)|(u & T & _)]; [contradiction|exact (N u T)].
      * intros w' F. apply found_cons in F as (u & T & _). exact (N u T).
Qed.
Lemma read_spec : forall v p, keyed v ->
  (forall w, read v p = Ok w <-> found v p w \/ missing_key v p /\ w = JNll) /\
  (forall m, read v p = Throw m <-> beyond v p /\ m = "out_of_range"%string) /\
  (read v p = UB <-> ~ beyond v p /\ ~ missing_key v p /\ forall w, ~ found v p w).
Proof.
  intros v p Kv. pose proof (read_cases p v Kv) as R.
  assert (U : forall w w', found v p w -> found v p w' -> w = w').
  { clear R. revert v Kv. induction p as [|s p IH]; intros v Kv w w' F F'.
    - apply found_nil in F, F'. congruence.
    - apply found_cons in F as (u & T & F), F' as (u' & T' & F').
      destruct (step_cases v s Kv) as [x X Ux _ _ _|A N _ _|A N _ _|N _ _ _]; try (destruct (N _ T); fail).
      apply Ux in T as E, T' as E'. subst u u'. eapply IH; [|exact F|exact F']. eapply to_keyed; eassumption. }
  destruct (read v p) as [x|m| |]; [| | |contradiction].
  - destruct R as (R & NB). split; [|split].
    + intros w. split.
      * intros E. injection E as <-. destruct R as [(F & _)|(M & -> & _)]; auto.
      * destruct R as [(F & NM)|(M & -> & NF)]; intros [H|(H & ->)].
        -- f_equal. eapply U; eassumption.
        -- contradiction.
        -- destruct (NF _ H).
        -- reflexivity.
    + intros m. split; [discriminate|]. intros (B & _). contradiction.
    + split; [discriminate|]. intros (_ & NM & NF). destruct R as [(F & _)|(M & _)]; [destruct (NF _ F)|contradiction].
  - destruct R as (-> & B & NM & NF). split; [|split].
    + intros w. split; [discriminate|]. intros [F|(M & _)]; [destruct (NF _ F)|contradiction].
    + intros m. split; [intros E; injection E as <-; auto|intros (_ & ->); reflexivity].
    + split; [discriminate|]. intros (NB & _). contradiction.
  - split; [|split].
    + intros w. split; [discriminate|]. destruct R as (_ & NM & NF). intros [F|(M & _)]; [destruct (NF _ F)|contradiction].
    + intros m. split; [discriminate|]. destruct R as (NB & _). intros (B & _). contradiction.
    + tauto.
Qed.

(** ** Changing *)
(** One element replaced. *)
Record replaces (v : jval) (s : step) (u : jval) (rep : jval -> jval) : Prop := {
  rp_access : forall p f, access v (s :: p) f = obind (access u p f) (fun y => Ok (rep y));
  rp_to : forall y z, to (rep y) s z <-> z = y;
  rp_frame : forall y t z, t <> s -> (to v t z <-> to (rep y) t z);
  rp_keyed : forall y, keyed y -> keyed (rep y) }.
Lemma obj_replaces : forall o k u p s,
  okl (p ++ s) -> (forall x, In x p -> bytes_ltb (fst x) k = true) -> (forall x, In x s -> bytes_ltb k (fst x) = true) ->
  (forall j w, In (j, w) (p ++ s) -> keyed w) -> vm_bracket bytes_ltb bytes_eqb JNll o k = Ok (p ++ (k, u) :: s, length p) ->
  (forall j w, j <> k -> In (j, w) o <-> In (j, w) (p ++ s)) ->
  replaces (JObj o) (K k) u (fun y => JObj (p ++ (k, y) :: s)).
Proof.
  intros o k u p s O Hp Hs C B M. constructor.
  - intros q f. cbn [access]. rewrite B. cbn [obind fst snd]. rewrite nth_error_mid.
    destruct (access u q f); cbn [obind]; try reflexivity. now rewrite set_at_app.
  - intros y z. apply (in_hit bytes_ltb bytes_eqb bytes_order); assumption.
  - intros y [j|i] z N; [|reflexivity]. cbn [to]. assert (j <> k) by congruence. rewrite M, !in_app_iff by assumption. cbn [In].
    split; [intros [?|?]; auto|intros [?|[E|?]]; auto]. congruence.
  - intros y Ky. constructor.
    + apply (ordered_mid bytes_ltb p s k y); assumption.
    + intros j w H. apply in_app_or in H as [H|[H|H]]; [|congruence|]; apply (C j w); apply in_or_app; auto.
Qed.
Lemma step_replaces : forall v s u, keyed v -> to v s u -> exists rep, replaces v s u rep /\ rep u = v.
Proof.
  intros v s u Kv T. destruct s as [k|i]; destruct Kv as [o O C|a C|x|x|x|]; try contradiction; cbn in T.
  - destruct (obj_cases o k O) as [(p & u' & s & E & Hp & Hs & B & D & _)|(p & s & E & Hp & Hs & N & _)].
    + assert (u' = u). { rewrite E in T. now apply (in_hit bytes_ltb bytes_eqb bytes_order) in T. } subst u'.
      exists (fun y => JObj (p ++ (k, y) :: s)). split; [|now rewrite E]. apply obj_replaces.
      * rewrite E in O. apply ordered_app in O as (A1 & (_ & A2) & A3). apply ordered_app. split; [exact A1|]. split; [exact A2|].
        intros x y Hx Hy. apply A3; [exact Hx|right; exact Hy].
      * exact Hp.
      * exact Hs.
      * intros j w H. apply (C j w). rewrite E. apply in_app_or in H as [H|H]; apply in_or_app; [left|right; right]; exact H.
      * now rewrite E in B |- *.
      * intros j w N. rewrite E, !in_app_iff. cbn [In]. split; [intros [?|[?|?]]; auto; congruence|intros [?|?]; auto].
    + destruct N. apply (in_map fst) in T. exact T.
  - destruct (nth_error_split _ _ T) as (p & s & -> & <-). exists (fun y => JArr (p ++ y :: s)). split; [|reflexivity]. constructor.
    + intros q f. cbn [access]. rewrite T. destruct (access u q f); cbn [obind]; try reflexivity. now rewrite set_at_app.
    + intros y z. cbn [to]. rewrite nth_error_mid. split; congruence.
    + intros y [j|j] z N; [reflexivity|]. cbn [to]. assert (j <> length p) by congruence.
      destruct (Nat.lt_ge_cases j (length p)) as [L|L].
      * now rewrite !nth_error_app1 by exact L.
      * rewrite !nth_error_app2 by exact L. destruct (j - length p) eqn:Ej; [lia|]. reflexivity.
    + intros y Ky. constructor. intros w H. apply in_app_or in H as [H|[<-|H]]; [|exact Ky|]; apply C; apply in_or_app; [left|right; right]; exact H.
Qed.
Lemma absent_replaces : forall v s, keyed v -> absent v s -> exists rep, replaces v s JNll rep.
Proof.
  intros v s Kv A. destruct s as [k|i]; destruct Kv as [o O C|a C|x|x|x|]; try contradiction; cbn in A.
  destruct (obj_cases o k O) as [(p & u' & s & E & _)|(p & s & E & Hp & Hs & N & B & _)].
  - destruct A. rewrite E, map_app. apply in_or_app. right. left. reflexivity.
  - exists (fun y => JObj (p ++ (k, y) :: s)). apply obj_replaces; try assumption.
    + now rewrite <- E.
    + intros j w H. apply (C j w). now rewrite E.
    + intros j w _. now rewrite E.
Qed.
Lemma part_cons : forall s p q, part (s :: p) q -> exists t q', q = t :: q' /\ (t <> s \/ t = s /\ part p q').
Proof.
  intros s p q (c & a & b & p' & q' & E & -> & N). destruct c as [|x c]; cbn [app] in *.
  - injection E as -> ->. exists b, q'. split; [reflexivity|]. left. congruence.
  - injection E as -> ->. exists x, (c ++ b :: q'). split; [reflexivity|]. right. split; [reflexivity|]. exists c, a, b, p', q'. auto.
Qed.
Lemma part_nil : forall q, ~ part [] q.
Proof. intros q (c & a & b & p' & q' & E & _). destruct c; discriminate. Qed.

Definition place (v : jval) (p : list step) (w : jval) : Prop := found v p w \/ missing_key v p /\ w = JNll.
Lemma place_cons : forall v s p w, keyed v -> place v (s :: p) w ->
  (exists u, to v s u /\ place u p w) \/ (absent v s /\ p = [] /\ w = JNll).
Proof.
  intros v s p w Kv [F|(M & ->)].
  - apply found_cons in F as (u & T & F). left. exists u. split; [exact T|left; exact F].
  - apply missing_cons in M as [(-> & A)|(u & T & M)]; [right; auto|]. left. exists u. split; [exact T|right; auto].
Qed.
(** The paths of a value with one element replaced. *)
Lemma replaced_paths : forall v s u rep p y, replaces v s u rep -> (forall z, to v s z -> z = u) ->
  (to v s u \/ u = JNll /\ p = []) -> (forall q z, part p q -> (found u q z <-> found y q z)) ->
  forall q z, part (s :: p) q -> (found v q z <-> found (rep y) q z).
Proof.
  intros v s u rep p y R U T F q z P. apply part_cons in P as (t & q' & -> & [N|(-> & P)]).
  - rewrite !found_cons. split; intros (x & X & H); exists x; (split; [|exact H]); apply (rp_frame _ _ _ _ R y t x N); exact X.
  - rewrite !found_cons. destruct T as [T|(_ & ->)]; [|destruct (part_nil _ P)]. split.
    + intros (x & X & H). apply U in X. subst x. exists y. split; [now apply (rp_to _ _ _ _ R)|]. now apply F.
    + intros (x & X & H). apply (rp_to _ _ _ _ R) in X. subst x. exists u. split; [exact T|]. now apply F.
Qed.
Lemma to_unique : forall v s u u', keyed v -> to v s u -> to v s u' -> u' = u.
Proof.
  intros v s u u' Kv T T'. destruct (step_cases v s Kv) as [x X Ux _ _ _|A N _ _|A N _ _|N _ _ _]; try (destruct (N _ T); fail).
  apply Ux in T, T'. congruence.
Qed.
Lemma absent_not_to : forall v s u, absent v s -> ~ to v s u.
Proof. intros v s u A T. destruct s, v; try contradiction. apply A. apply (in_map fst) in T. exact T. Qed.
Lemma access_spec : forall p v f w x, keyed v -> place v p w -> f w = Ok x ->
  exists v', access v p f = Ok v' /\ found v' p x /\ (keyed x -> keyed v') /\ (forall q u, part p q -> (found v q u <-> found v' q u)).
Proof.
  induction p as [|s p IH]; intros v f w x Kv P Fx.
  - destruct P as [F|(M & _)]; [|destruct (missing_nil _ M)]. apply found_nil in F. subst w. exists x. split; [exact Fx|].
    split; [constructor|]. split; [auto|]. intros q u H. destruct (part_nil _ H).
  - apply place_cons in P as [(u & T & P)|(A & -> & ->)]; [| |exact Kv].
    + destruct (step_replaces v s u Kv T) as (rep & R & _). destruct (IH u f w x (to_keyed _ _ _ Kv T) P Fx) as (y & E & F & Ky & Fr).
      exists (rep y). rewrite (rp_access _ _ _ _ R), E. split; [reflexivity|]. split; [|split].
      * apply found_cons. exists y. split; [now apply (rp_to _ _ _ _ R)|exact F].
      * intros Kx. apply (rp_keyed _ _ _ _ R). auto.
      * apply (replaced_paths v s u rep p y R); [|left; exact T|exact Fr]. intros z Z. eapply to_unique; eassumption.
    + destruct (absent_replaces v s Kv A) as (rep & R). exists (rep x). rewrite (rp_access _ _ _ _ R). cbn [access]. rewrite Fx.
      split; [reflexivity|]. split; [|split].
      * apply found_cons. exists x. split; [now apply (rp_to _ _ _ _ R)|constructor].
      * apply (rp_keyed _ _ _ _ R).
      * apply (replaced_paths v s JNll rep [] x R); [|right; auto|].
        -- intros z Z. destruct (absent_not_to _ _ _ A Z).
        -- intros q z P. destruct (part_nil _ P).
Qed.
Lemma access_bad : forall p v f w, keyed v -> place v p w -> f w = UB -> access v p f = UB.
Proof.
  induction p as [|s p IH]; intros v f w Kv P Fx.
  - destruct P as [F|(M & _)]; [|destruct (missing_nil _ M)]. apply found_nil in F. now subst w.
  - apply place_cons in P as [(u & T & P)|(A & -> & ->)]; [| |exact Kv].
    + destruct (step_replaces v s u Kv T) as (rep & R & _). rewrite (rp_access _ _ _ _ R), (IH u f w (to_keyed _ _ _ Kv T) P Fx). reflexivity.
    + destruct (absent_replaces v s Kv A) as (rep & R). rewrite (rp_access _ _ _ _ R). cbn [access]. now rewrite Fx.
Qed.
Lemma access_null : forall p f, p <> [] -> access JNll p f = UB.
Proof. intros [|[k|i] p] f H; [congruence|reflexivity|reflexivity]. Qed.
Lemma access_nowhere : forall p v f, keyed v -> (forall w, ~ place v p w) -> access v p f = UB.
Proof.
  induction p as [|s p IH]; intros v f Kv N.
  - destruct (N v). left. constructor.
  - destruct (step_cases v s Kv) as [u T U NA NP C|A N' NP C|A N' NA C|N' NA NP C].
    + destruct (step_replaces v s u Kv T) as (rep & R & _). rewrite (rp_access _ _ _ _ R), (IH u f (to_keyed _ _ _ Kv T)); [reflexivity|].
      intros w [F|(M & E)]; apply (N w); [left; apply found_cons; eauto|right; split; [apply missing_cons; eauto|exact E]].
    + destruct (absent_replaces v s Kv A) as (rep & R). rewrite (rp_access _ _ _ _ R). rewrite access_null; [reflexivity|].
      intros ->. apply (N JNll). right. split; [apply missing_cons; auto|reflexivity].
    + destruct s, v; try contradiction. cbn [access]. cbn in A. apply nth_error_None in A. now rewrite A.
    + destruct s as [k|i], v; try reflexivity.
      * destruct Kv as [o' O _| | | | |]; try (now cbn [access]). destruct (obj_cases o' k O) as [(q & u & t & E & _)|(q & t & E & _ & _ & X & _)].
        -- destruct (N' u). cbn. rewrite E. apply in_or_app. right. left. reflexivity.
        -- contradiction.
      * cbn [access]. destruct (nth_error a i) eqn:E; [|reflexivity]. destruct (N' _ E).
Qed.
Lemma touch_found : forall p v w, keyed v -> found v p w -> touch v p = Ok v.
Proof.
  unfold touch. induction p as [|s p IH]; intros v w Kv F; [reflexivity|].
  apply found_cons in F as (u & T & F). destruct (step_replaces v s u Kv T) as (rep & R & E).
  rewrite (rp_access _ _ _ _ R), (IH u w (to_keyed _ _ _ Kv T) F). cbn [obind]. now rewrite E.
Qed.

(** What the property file says. *)
Lemma assign_spec : forall v p x, keyed v ->
  ((exists w, found v p w) \/ missing_key v p ->
   exists v', assign v p x = Ok v' /\ found v' p x /\ (keyed x -> keyed v') /\ forall q u, part p q -> (found v q u <-> found v' q u)) /\
  ((forall w, ~ found v p w) -> ~ missing_key v p -> assign v p x = UB).
Proof.
  intros v p x Kv. split.
  - intros [(w & F)|M].
    + apply access_spec with (w := w); [exact Kv|left; exact F|reflexivity].
    + apply access_spec with (w := JNll); [exact Kv|right; auto|reflexivity].
  - intros NF NM. apply access_nowhere; [exact Kv|]. intros w [F|(M & _)]; [exact (NF w F)|contradiction].
Qed.
Lemma touch_spec : forall v p, keyed v ->
  (forall w, found v p w -> touch v p = Ok v) /\
  (missing_key v p -> exists v', touch v p = Ok v' /\ v' <> v /\ found v' p JNll /\ keyed v' /\ forall q u, part p q -> (found v q u <-> found v' q u)) /\
  ((forall w, ~ found v p w) -> ~ missing_key v p -> touch v p = UB).
Proof.
  intros v p Kv. split; [|split].
  - intros w F. eapply touch_found; eassumption.
  - intros M. destruct (access_spec p v Ok JNll JNll Kv (or_intror (conj M eq_refl)) eq_refl) as (v' & E & F & Ky & Fr).
    exists v'. split; [exact E|]. split; [|split; [exact F|]; split; [apply Ky; constructor|exact Fr]].
    intros ->. clear -M F Kv. pose proof (read_cases p v Kv) as R.
    destruct (read v p); [|destruct R as (_ & _ & N & _); contradiction|destruct R as (_ & N & _); contradiction|contradiction].
    destruct R as ([(_ & N)|(_ & _ & N)] & _); [contradiction|exact (N _ F)].
  - intros NF NM. apply access_nowhere; [exact Kv|]. intros w [F|(M & _)]; [exact (NF w F)|contradiction].
Qed.
Lemma emplace_spec : forall v p x, keyed v ->
  (forall a, found v p (JArr a) -> exists v', emplace v p x = Ok v' /\ found v' p (JArr (a ++ [x])) /\ (keyed x -> keyed v') /\
     forall q u, part p q -> (found v q u <-> found v' q u)) /\
  ((forall a, ~ found v p (JArr a)) -> emplace v p x = UB).
Proof.
  intros v p x Kv. split.
  - intros a F. destruct (access_spec p v (fun u => match u with JArr a => Ok (JArr (a ++ [x])) | _ => UB end) (JArr a) (JArr (a ++ [x])) Kv (or_introl F) eq_refl)
      as (v' & E & F' & Ky & Fr).
    exists v'. split; [exact E|]. split; [exact F'|]. split; [|exact Fr]. intros Kx. apply Ky. constructor. intros u H.
    apply in_app_or in H as [H|[<-|[]]]; [|exact Kx]. pose proof (found_keyed _ _ _ Kv F) as Ka. inversion Ka as [|? C| | | |]; subst. auto.
  - intros N. pose proof (read_cases p v Kv) as R. destruct (read v p) as [w|m| |] eqn:E; [| | |contradiction].
    + assert (P : place v p w) by (destruct R as ([(F & _)|(M & -> & _)] & _); [left; exact F|right; auto]).
      eapply access_bad; [exact Kv|exact P|]. destruct w; try reflexivity. exfalso.
      destruct P as [F|(_ & D)]; [exact (N _ F)|discriminate].
    + destruct R as (_ & _ & NM & NF). apply access_nowhere; [exact Kv|]. intros w [F|(M & _)]; [exact (NF w F)|contradiction].
    + destruct R as (_ & NM & NF). apply access_nowhere; [exact Kv|]. intros w [F|(M & _)]; [exact (NF w F)|contradiction].
Qed.

(** ** Questions *)
Lemma has_spec : forall o a k i, keyed (JObj o) ->
  (exists b, has (JObj o) (K k) = Ok b /\ (b = true <-> exists u, In (k, u) o)) /\
  (exists b, has (JArr a) (I i) = Ok b /\ (b = true <-> exists u, nth_error a i = Some u)).
Proof.
  intros o a k i Ko. inversion Ko as [? O C| | | | |]; subst. split.
  - destruct (obj_cases o k O) as [(p & u & s & E & _ & _ & _ & _ & H)|(p & s & E & _ & _ & N & _ & _ & H)]; eexists; (split; [exact H|]).
    + split; [|reflexivity]. intros _. exists u. rewrite E. apply in_or_app. right. left. reflexivity.
    + split; [discriminate|]. intros (u & Hu). destruct N. apply (in_map fst) in Hu. exact Hu.
  - exists (i <? length a). split; [reflexivity|]. rewrite Nat.ltb_lt. rewrite <- nth_error_Some. destruct (nth_error a i) as [u|].
    + split; [eauto|discriminate].
    + split; [congruence|intros (u & H); discriminate].
Qed.
Lemma getIfHas_spec : forall t v s def, keyed v ->
  (forall u, found v [s] u -> getIfHas t v s def = as_ t u) /\
  ((forall u, ~ found v [s] u) -> getIfHas t v s def = Ok def \/ getIfHas t v s def = UB /\ read v [s] = UB).
Proof.
  intros t v s def Kv. assert (EQ : forall u, found v [s] u <-> to v s u).
  { intros u. rewrite found_cons. split; [intros (x & T & F); apply found_nil in F; now subst|intros T; exists u; split; [exact T|constructor]]. }
  unfold getIfHas. destruct s as [k|i]; inversion Kv as [o O C|a C|x|x|x|]; subst;
    try (split; [intros u F; apply EQ in F; contradiction|intros _; right; split; reflexivity]).
  - destruct (obj_cases o k O) as [(p & u & s & E & Hp & Hs & _ & D & H)|(p & s & E & _ & _ & N & _ & _ & H)]; cbn [has child]; rewrite H; cbn [obind].
    + rewrite D. cbn [obind]. split; [|intros X; destruct (X u); apply EQ; cbn; rewrite E; apply in_or_app; right; left; reflexivity].
      intros u' F. apply EQ in F. cbn in F. rewrite E in F. apply (in_hit bytes_ltb bytes_eqb bytes_order) in F; [now subst|assumption|assumption].
    + split; [|now left]. intros u F. apply EQ in F. destruct N. apply (in_map fst) in F. exact F.
  - cbn [has child obind]. destruct (i <? length a) eqn:L.
    + split; [intros u F; apply EQ in F; cbn in F; rewrite F; reflexivity|]. intros X. apply Nat.ltb_lt in L. apply nth_error_Some in L.
      destruct (nth_error a i) as [u|] eqn:E; [|congruence]. destruct (X u). now apply EQ.
    + split; [|now left]. intros u F. apply EQ in F. cbn in F. apply Nat.ltb_ge in L. apply nth_error_None in L. congruence.
Qed.

(** ** Makers *)
Lemma mkObj_spec : forall l, exists o, mkObj l = Ok (JObj o) /\ object_of l o.
Proof.
  intros l. set (ms := map (fun e : bytes * jval => {| m_raw := []; m_key := fst e; m_text := []; m_val := snd e |}) l).
  assert (A : map (fun e => Assign (fst e) (snd e)) l = assigns ms) by (unfold assigns, ms; rewrite map_map; reflexivity).
  assert (B : map (fun m => (m_key m, m_val m)) ms = l).
  { unfold ms. rewrite map_map. cbn. transitivity (map (fun x : bytes * jval => x) l); [apply map_ext; now intros []|apply map_id]. }
  destruct (vecmap_spec bytes_ltb bytes_eqb JNll bytes_order (assigns ms)) as (d & E & O & M & _).
  exists d. unfold mkObj. rewrite A, E. split; [reflexivity|]. split; [exact O|]. intros k v. rewrite M, assigns_meaning, B. reflexivity.
Qed.
Lemma mkObj_keyed : forall l v, mkObj l = Ok v -> Forall keyed (map snd l) -> keyed v.
Proof.
  intros l v E F. destruct (mkObj_spec l) as (o & E' & O & M). assert (v = JObj o) by congruence. subst v. constructor; [exact O|].
  intros k u H. apply M in H. clear - F H. induction l as [|(j, w) l IH]; cbn [last_of] in H; [discriminate|]. inversion F as [|? ? Kw F']; subst.
  destruct (last_of k l) eqn:E; [injection H as ->; apply IH; auto|]. destruct (bytes_eqb j k); [|discriminate]. injection H as <-. exact Kw.
Qed.

(** ** Equality *)
Lemma ordered_fst : forall o : list (bytes * jval), okl o -> okl (map (fun e => (fst e, JNll)) o).
Proof.
  induction o as [|x o IH]; intros O; [exact O|]. destruct O as (A & B). split; [|apply IH; exact B].
  intros y H. apply in_map_iff in H as (z & <- & H). apply (A z H).
Qed.
Lemma keys_same : forall o p : list (bytes * jval), okl o -> okl p ->
  ((forall k, In k (map fst o) <-> In k (map fst p)) <-> map fst o = map fst p).
Proof.
  intros o p O P. split; [|intros ->; reflexivity]. intros H.
  assert (E : map (fun e => (fst e, JNll)) o = map (fun e => (fst e, JNll)) p).
  { apply (ordered_unique bytes_ltb bytes_eqb bytes_order); try (apply ordered_fst; assumption).
    intros (k, v). specialize (H k). rewrite !in_map_iff in *. split; intros (x & Ex & I); injection Ex as <- <-.
    - destruct (proj1 H (ex_intro _ x (conj eq_refl I))) as (y & Ey & J). exists y. rewrite Ey. auto.
    - destruct (proj2 H (ex_intro _ x (conj eq_refl I))) as (y & Ey & J). exists y. rewrite Ey. auto. }
  apply (f_equal (map fst)) in E. rewrite !map_map in E. exact E.
Qed.
Lemma keys_nodup : forall o : list (bytes * jval), okl o -> NoDup (map fst o).
Proof.
  induction o as [|(k, u) o IH]; intros O; [constructor|]. destruct O as (A & B). cbn [map fst]. constructor; [|apply IH; exact B].
  intros H. apply in_map_iff in H as (z & E & H). specialize (A z H). cbn in A. rewrite E in A.
  rewrite (st_irrefl _ _ bytes_order) in A. discriminate.
Qed.
Lemma members_alike : forall o p : list (bytes * jval), map fst o = map fst p -> NoDup (map fst o) ->
  ((forall k u w, In (k, u) o -> In (k, w) p -> alike u w) <-> Forall2 alike (map snd o) (map snd p)).
Proof.
  induction o as [|(k, u) o IH]; intros [|(j, w) p] E N; try discriminate.
  - split; [intros; constructor|intros _ k u w []].
  - cbn [map fst snd] in *. injection E as <- E. inversion N as [|? ? Nk N']; subst. split.
    + intros H. constructor; [apply (H k); left; reflexivity|]. apply IH; auto. intros k' u' w' A B. apply (H k'); right; assumption.
    + intros F. inversion F as [|? ? ? ? Al F']; subst. intros k' u' w' [A|A] [B|B].
      * congruence.
      * injection A as <- <-. destruct Nk. rewrite E. apply (in_map fst) in B. exact B.
      * injection B as <- <-. destruct Nk. apply (in_map fst) in A. exact A.
      * apply (proj2 (IH p E N') F' k'); assumption.
Qed.
Lemma items_alike : forall a b : list jval, length a = length b ->
  ((forall i u w, nth_error a i = Some u -> nth_error b i = Some w -> alike u w) <-> Forall2 alike a b).
Proof.
  induction a as [|u a IH]; intros [|w b] E; try discriminate.
  - split; [intros; constructor|intros _ [|i] u w A; discriminate].
  - cbn in E. injection E as E. split.
    + intros H. constructor; [apply (H 0); reflexivity|]. apply IH; [exact E|]. intros i u' w' A B. apply (H (S i)); assumption.
    + intros F. inversion F as [|? ? ? ? Al F']; subst. intros [|i] u' w' A B; cbn in A, B; [congruence|].
      apply (proj2 (IH b E) F' i); assumption.
Qed.
Definition comparable (a b : jval) : Prop :=
  keyed a /\ keyed b /\ numbers whole_number a /\ numbers whole_number b /\ (numbers not_unsigned a \/ numbers not_real b).
Definition decided (a : jval) : Prop := forall b, comparable a b -> exists r, val_eq a b = Ok r /\ (r = true <-> alike a b).
Lemma holds_unique : forall x y n, (Z.abs x <= 2 ^ 53)%Z -> (Z.abs y <= 2 ^ 53)%Z -> holds x n -> holds y n -> x = y.
Proof.
  intros x y n Bx By Hx Hy. assert (E : num_eq n n = Ok (x =? y)%Z).
  { apply same_number_eq; auto. intros u E1 E2. rewrite E1 in E2. discriminate. }
  assert (E2 : num_eq n n = Ok (x =? x)%Z).
  { apply same_number_eq; auto. intros u E1 E3. rewrite E1 in E3. discriminate. }
  rewrite Z.eqb_refl in E2. rewrite E2 in E. injection E as E. symmetry in E. now apply Z.eqb_eq in E.
Qed.
Lemma comparable_members : forall k u o j w p, comparable (JObj ((k, u) :: o)) (JObj ((j, w) :: p)) ->
  comparable u w /\ comparable (JObj o) (JObj p).
Proof.
  intros k u o j w p (A & B & C & D & E).
  inversion A as [? Oa Ka| | | | |]; subst. inversion B as [? Ob Kb| | | | |]; subst.
  inversion C as [? Na| | | | |]; subst. inversion D as [? Nb| | | | |]; subst.
  assert (E1 : numbers not_unsigned u /\ numbers not_unsigned (JObj o) \/ numbers not_real w /\ numbers not_real (JObj p)).
  { destruct E as [E|E]; [left|right]; inversion E as [? Ne| | | | |]; subst; split.
    - apply (Ne k u). now left. - constructor. intros k' u' H. apply (Ne k' u'). now right.
    - apply (Ne j w). now left. - constructor. intros k' u' H. apply (Ne k' u'). now right. }
  split; (split; [|split; [|split; [|split]]]).
  - apply (Ka k u). now left. - apply (Kb j w). now left. - apply (Na k u). now left. - apply (Nb j w). now left. - tauto.
  - constructor; [apply Oa|]. intros k' u' H. apply (Ka k' u'). now right.
  - constructor; [apply Ob|]. intros k' u' H. apply (Kb k' u'). now right.
  - constructor. intros k' u' H. apply (Na k' u'). now right.
  - constructor. intros k' u' H. apply (Nb k' u'). now right.
  - tauto.
Qed.
Lemma comparable_items : forall u o w p, comparable (JArr (u :: o)) (JArr (w :: p)) -> comparable u w /\ comparable (JArr o) (JArr p).
Proof.
  intros u o w p (A & B & C & D & E).
  inversion A as [|? Ka| | | |]; subst. inversion B as [|? Kb| | | |]; subst.
  inversion C as [|? Na| | | |]; subst. inversion D as [|? Nb| | | |]; subst.
  assert (E1 : numbers not_unsigned u /\ numbers not_unsigned (JArr o) \/ numbers not_real w /\ numbers not_real (JArr p)).
  { destruct E as [E|E]; [left|right]; inversion E as [|? Ne| | | |]; subst; split.
    - apply Ne. now left. - constructor. intros u' H. apply Ne. now right.
    - apply Ne. now left. - constructor. intros u' H. apply Ne. now right. }
  split; (split; [|split; [|split; [|split]]]).
  - apply Ka. now left. - apply Kb. now left. - apply Na. now left. - apply Nb. now left. - tauto.
  - constructor. intros u' H. apply Ka. now right.
  - constructor. intros u' H. apply Kb. now right.
  - constructor. intros u' H. apply Na. now right.
  - constructor. intros u' H. apply Nb. now right.
  - tauto.
Qed.
Lemma members_decided : forall o p, Forall decided (map snd o) -> comparable (JObj o) (JObj p) -> length o = length p ->
  exists r, members_eq o p = Ok r /\ (r = true <-> map fst o = map fst p /\ Forall2 alike (map snd o) (map snd p)).
Proof.
  induction o as [|(k, u) o IH]; intros [|(j, w) p] D C L; try discriminate.
  - exists true. split; [reflexivity|]. split; [intros _; split; constructor|reflexivity].
  - cbn [map fst snd members_eq] in *. inversion D as [|? ? Du D']; subst. apply comparable_members in C as (C1 & C2).
    cbn in L. injection L as L. destruct (IH p D' C2 L) as (r & E & R). destruct (bytes_eqb k j) eqn:Ek.
    + apply bytes_eqb_eq in Ek. subst j. destruct (Du w C1) as (r1 & E1 & R1). rewrite E1. cbn [obind]. destruct r1.
      * exists r. split; [exact E|]. rewrite R. split; intros (A & B).
        -- split; [congruence|]. constructor; [now apply R1|exact B].
        -- inversion B; subst. split; [congruence|assumption].
      * exists false. split; [reflexivity|]. split; [discriminate|]. intros (_ & B). inversion B; subst. apply R1. assumption.
    + exists false. split; [reflexivity|]. split; [discriminate|]. intros (A & _). injection A as -> _. rewrite bytes_eqb_same in Ek. discriminate.
Qed.
Lemma items_decided : forall o p, Forall decided o -> comparable (JArr o) (JArr p) -> length o = length p ->
  exists r, items_eq o p = Ok r /\ (r = true <-> Forall2 alike o p).
Proof.
  induction o as [|u o IH]; intros [|w p] D C L; try discriminate.
  - exists true. split; [reflexivity|]. split; [intros _; constructor|reflexivity].
  - cbn [items_eq] in *. inversion D as [|? ? Du D']; subst. apply comparable_items in C as (C1 & C2).
    cbn in L. injection L as L. destruct (IH p D' C2 L) as (r & E & R). destruct (Du w C1) as (r1 & E1 & R1). rewrite E1. cbn [obind]. destruct r1.
    + exists r. split; [exact E|]. rewrite R. split; intros B; [constructor; [now apply R1|exact B]|now inversion B].
    + exists false. split; [reflexivity|]. split; [discriminate|]. intros B. inversion B; subst. apply R1. assumption.
Qed.
Lemma value_decided : forall a, decided a.
Proof.
  induction a as [o IH|a IH|s|n|x|] using jval_nested; intros b C.
  - destruct b as [p|b|t|m|y|]; try (exists false; split; [reflexivity|split; [discriminate|intros H; inversion H]]).
    rewrite val_eq_obj. assert (Oo : okl o) by (destruct C as (K1 & _); inversion K1; assumption).
    assert (Op : okl p) by (destruct C as (_ & K2 & _); inversion K2; assumption).
    destruct (length o =? length p) eqn:L; cbn [negb].
    + apply Nat.eqb_eq in L. destruct (members_decided o p IH C L) as (r & E & R). exists r. split; [exact E|]. rewrite R. split.
      * intros (A & B). constructor; [now apply keys_same|]. apply members_alike; [exact A|now apply keys_nodup|exact B].
      * intros H. inversion H as [? ? A B| | | | |]; subst. apply keys_same in A; [|exact Oo|exact Op]. split; [exact A|].
        apply members_alike; [exact A|now apply keys_nodup|exact B].
    + exists false. split; [reflexivity|]. split; [discriminate|]. intros H. inversion H as [? ? A B| | | | |]; subst.
      apply keys_same in A; [|exact Oo|exact Op]. apply (f_equal (@length _)) in A. rewrite !map_length in A. apply Nat.eqb_neq in L. contradiction.
  - destruct b as [p|b|t|m|y|]; try (exists false; split; [reflexivity|split; [discriminate|intros H; inversion H]]).
    rewrite val_eq_arr. destruct (length a =? length b) eqn:L; cbn [negb].
    + apply Nat.eqb_eq in L. destruct (items_decided a b IH C L) as (r & E & R). exists r. split; [exact E|]. rewrite R. split.
      * intros B. constructor; [exact L|]. now apply items_alike.
      * intros H. inversion H as [|? ? _ B| | | |]; subst. now apply items_alike.
    + exists false. split; [reflexivity|]. split; [discriminate|]. intros H. inversion H; subst. apply Nat.eqb_neq in L. contradiction.
  - destruct b as [p|b|t|m|y|]; try (exists false; split; [reflexivity|split; [discriminate|intros H; inversion H]]).
    cbn [val_eq]. exists (bytes_eqb s t). split; [reflexivity|]. rewrite bytes_eqb_eq. split; [intros ->; constructor|intros H; now inversion H].
  - destruct b as [p|b|t|m|y|]; try (exists false; split; [reflexivity|split; [discriminate|intros H; inversion H]]).
    cbn [val_eq]. destruct C as (_ & _ & Nn & Nm & U). inversion Nn as [| | |? (z & Hz & Bz)| |]; subst. inversion Nm as [| | |? (y & Hy & By)| |]; subst.
    exists (z =? y)%Z. split.
    + apply same_number_eq; auto. intros u E1 E2. exfalso. destruct U as [U|U]; inversion U as [| | |? X| |]; subst; [exact (X _ eq_refl)|exact (X _ eq_refl)].
    + rewrite Z.eqb_eq. split; [intros <-; econstructor; eassumption|]. intros H. inversion H as [| | |x ? ? Bx H1 H2| |]; subst.
      rewrite (holds_unique z x n), (holds_unique y x m); auto.
  - destruct b as [p|b|t|m|y|]; try (exists false; split; [reflexivity|split; [discriminate|intros H; inversion H]]).
    cbn [val_eq]. exists (Bool.eqb x y). split; [reflexivity|]. rewrite Bool.eqb_true_iff. split; [intros ->; constructor|intros H; now inversion H].
  - destruct b as [p|b|t|m|y|]; try (exists false; split; [reflexivity|split; [discriminate|intros H; inversion H]]).
    exists true. split; [reflexivity|]. split; [constructor|reflexivity].
Qed.

(** ** Values that arise *)
Fixpoint denoted_keyed t v (D : denotes t v) {struct D} : keyed v.
Proof.
  destruct D as [| | |t neg m e n _ _|r d _ _|ts vs F|ms o F B O]; try constructor.
  - induction F as [|t v ts vs D F IH]; intros u [].
    + subst u. exact (denoted_keyed t v D).
    + apply IH. assumption.
  - apply O.
  - intros k u H. apply O in H. clear O B o.
    induction F as [|m ms D F IH]; cbn [map last_of] in H; [discriminate|].
    destruct (last_of k (map (fun m => (m_key m, m_val m)) ms)); [apply IH; exact H|].
    destruct (bytes_eqb (m_key m) k); [|discriminate]. injection H as <-. exact (denoted_keyed _ _ D).
Qed.
Lemma mkArr_keyed : forall l v, mkArr l = Ok v -> Forall keyed l -> keyed v.
Proof. intros l v E F. injection E as <-. constructor. intros u H. rewrite Forall_forall in F. auto. Qed.

(** ** Sizes *)
Lemma found_key1 : forall o k u, found (JObj o) [K k] u <-> In (k, u) o.
Proof.
  intros o k u. split.
  - intros H. inversion H; subst. match goal with F : found _ [] _ |- _ => inversion F; subst end. assumption.
  - intros H. apply f_key with (u := u); [exact H|constructor].
Qed.
Lemma sizes_spec : forall v, keyed v ->
  (forall a, v = JArr a -> getSizeArr v = Ok (length a) /\ exists b, isEmptyArr v = Ok b /\ (b = true <-> a = [])) /\
  (forall o, v = JObj o -> exists ks, NoDup ks /\ (forall k, In k ks <-> exists u, found v [K k] u) /\ getSizeObj v = Ok (length ks) /\
     exists b, isEmptyObj v = Ok b /\ (b = true <-> forall k u, ~ found v [K k] u)) /\
  ((forall a, v <> JArr a) -> getSizeArr v = UB /\ isEmptyArr v = UB) /\
  ((forall o, v <> JObj o) -> getSizeObj v = UB /\ isEmptyObj v = UB).
Proof.
  intros v Kv. split; [|split; [|split]].
  - intros a ->. split; [reflexivity|]. eexists. split; [reflexivity|]. destruct a; cbn; split; congruence.
  - intros o ->. exists (map fst o). inversion Kv; subst. split; [apply keys_nodup; assumption|]. split; [|split].
    + intros k. rewrite in_map_iff. split.
      * intros ((k', u) & <- & H). exists u. apply found_key1. exact H.
      * intros (u & H). apply found_key1 in H. exists (k, u). auto.
    + cbn [getSizeObj]. rewrite map_length. reflexivity.
    + eexists. split; [reflexivity|]. rewrite Nat.eqb_eq. split.
      * intros E k u H. apply found_key1 in H. destruct o; [destruct H|discriminate].
      * intros H. destruct o as [|[k u] o]; [reflexivity|]. exfalso. apply (H k u). apply found_key1. left. reflexivity.
  - intros H. destruct v; try (split; reflexivity). exfalso. apply (H a eq_refl).
  - intros H. destruct v; try (split; reflexivity). exfalso. apply (H o eq_refl).
Qed.
