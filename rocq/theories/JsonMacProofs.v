(** Extraction from JSON values that are not constant, with converters made by macros. *)
From Coq Require Import String Ascii ZArith NArith Arith Bool Lia List.
From Verif Require Import Common JsonNumModel JsonModel JsonCnvModel JsonCnvSpec JsonCnvProofs JsonShapeModel JsonShapeSpec JsonShapeProofs JsonMutModel JsonMutSpec JsonMutProofs.
Import ListNotations.

(** [p] reads what [c] reads and leaves [x] alone, or is undefined where [c] fails. *)
Definition like {A B} (p : outcome (A * B)) (c : outcome A) (x : B) : Prop :=
  match p with
  | Ok (a, x') => x' = x /\ c = Ok a
  | Throw m => c = Throw m
  | OutOfFuel => c = OutOfFuel
  | UB => forall a, c <> Ok a
  end.
Lemma like_bind {A B A' B'} : forall (p : outcome (A * B)) c x (f : A * B -> outcome (A' * B')) g y,
  like p c x -> (forall a, like (f (a, x)) (g a) y) -> like (obind p f) (obind c g) y.
Proof.
  intros p c x f g y L H. destruct p as [(a, x')| | |]; cbn [like obind] in *.
  - destruct L as [-> ->]. cbn [obind]. apply H.
  - rewrite L. reflexivity.
  - intros a E. destruct c as [b| | |]; try discriminate. exact (L b eq_refl).
  - rewrite L. reflexivity.
Qed.
Lemma like_const {A B} : forall (c : outcome A) (x : B), like (obind c (fun a => Ok (a, x))) c x.
Proof. intros [a|m| |] x; cbn; auto. discriminate. Qed.
Lemma like_asserted {A B} : forall nd b (p : outcome (A * B)) c x, like p c x -> like (asserted nd b p) (asserted nd b c) x.
Proof. intros nd b p c x L. unfold asserted. destruct (nd || b); [exact L|]. intros a. discriminate. Qed.
Lemma like_noexcept {A B} : forall (p : outcome (A * B)) c x, like p c x -> like (noexcept p) (noexcept c) x.
Proof.
  intros p c x L. destruct p as [(a, x')|m| |]; cbn [like noexcept] in *.
  - destruct L as [-> ->]. auto.
  - rewrite L. reflexivity.
  - intros a E. rewrite noexcept_ok in E. exact (L a E).
  - rewrite L. reflexivity.
Qed.

Section LOOPS.
Context (nd : bool).
Fixpoint ptup_loop (ts : list ty) (l : list jval) {struct ts} : outcome (list cv * list jval) :=
  match ts with
  | [] => Ok ([], l)
  | t :: ts =>
    match l with
    | [] => UB
    | x :: l => obind (asserted nd (isNoNum t x) (pextr nd t x (fresh t))) (fun '(c, x) => obind (ptup_loop ts l) (fun '(cs, l) => Ok (c :: cs, x :: l)))
    end
  end.
Section AB.
Context (a b : ty).
Definition ppair_of (e : jval) : outcome ((cv * cv) * jval) :=
  match e with
  | JArr (x :: y :: r) =>
    obind (asserted nd (isNoNum a x) (pextr nd a x (fresh a))) (fun '(c, x) =>
    obind (asserted nd (isNoNum b y) (pextr nd b y (fresh b))) (fun '(d, y) => Ok ((c, d), JArr (x :: y :: r))))
  | _ => UB
  end.
Fixpoint ppairs_loop (l : list jval) (m : list (cv * cv)) : outcome (list (cv * cv) * list jval) :=
  match l with
  | [] => Ok (m, [])
  | e :: l => obind (noexcept (asserted nd (isNoNum (TyPair a b) e) (ppair_of e))) (fun '(p, e) =>
      obind (ppairs_loop l (map_set (fst p) (snd p) m)) (fun '(m, l) => Ok (m, e :: l)))
  end.
End AB.
Definition plain (t : ty) : Prop := forall v old, like (pextr nd t v old) (cextr nd t v old) v.
Lemma plain_tup : forall ts, Forall plain ts -> forall l, like (ptup_loop ts l) (arr_loop nd ts l []) l.
Proof.
  induction 1 as [|t ts Ht F IH]; intros l; cbn [ptup_loop arr_loop hd tl]; [split; reflexivity|]. destruct l as [|x l].
  - intros a E. unfold asserted, out_of_range in E. destruct nd; discriminate.
  - eapply like_bind; [apply like_asserted; apply Ht|]. intros c. eapply like_bind; [apply IH|]. intros cs. split; reflexivity.
Qed.
Lemma plain_pair : forall a b, plain a -> plain b -> forall e, like (ppair_of a b e) (pair_of nd a b e) e.
Proof.
  intros a b Ha Hb e. unfold ppair_of, pair_of. destruct e as [o|l|s|z|b0|]; try (intros p E; discriminate E). destruct l as [|x [|y r]].
  - intros p E. discriminate.
  - intros p E. destruct (asserted nd (isNoNum a x) (cextr nd a x (fresh a))); discriminate.
  - eapply like_bind; [apply like_asserted; apply Ha|]. intros c. eapply like_bind; [apply like_asserted; apply Hb|]. intros d. split; reflexivity.
Qed.
Lemma plain_pairs : forall a b, plain a -> plain b -> forall l m, like (ppairs_loop a b l m) (pairs_loop nd a b l m) l.
Proof.
  intros a b Ha Hb. induction l as [|e l IH]; intros m; cbn [ppairs_loop pairs_loop]; [split; reflexivity|].
  eapply like_bind; [apply like_noexcept, like_asserted, (plain_pair a b Ha Hb)|]. intros p. cbv beta iota.
  specialize (IH (map_set (fst p) (snd p) m)). unfold like in *. destruct (ppairs_loop a b l _) as [(m', l')| | |]; cbn [obind]; [|exact IH..].
  destruct IH as [-> ->]. auto.
Qed.
Lemma all_plain : forall t, plain t.
Proof.
  apply ty_nested.
  - intros t. destruct t; try exact I; intros v old; match goal with |- like (pextr _ ?t _ _) _ _ => exact (like_const (cextr nd t v old) v) end.
  - intros a b Ha Hb v old.
    assert (Em : pextr nd (TyPair a b) v old = obind (ppair_of a b v) (fun '(p, x) => Ok (VPair (fst p) (snd p), x))).
    { cbn [pextr]. unfold ppair_of. destruct v as [o|l|s|z|b0|]; try reflexivity. destruct l as [|x [|y r]]; try reflexivity.
      destruct (asserted nd (isNoNum a x) (pextr nd a x (fresh a))) as [(c, x1)| | |]; try reflexivity. cbn [obind].
      destruct (asserted nd (isNoNum b y) (pextr nd b y (fresh b))) as [(d, y1)| | |]; reflexivity. }
    rewrite Em, cextr_pair. eapply like_bind; [apply (plain_pair a b Ha Hb)|]. intros p. split; reflexivity.
  - intros ts F v old. destruct ts as [|t ts]; [split; reflexivity|]. destruct v as [o|l|s|z|b0|]; try (intros c E; discriminate E).
    change (pextr nd (TyTuple (t :: ts)) (JArr l) old) with (obind (ptup_loop (t :: ts) l) (fun '(cs, l) => Ok (VTup cs, JArr l))).
    rewrite cextr_tuple, tup_index. eapply like_bind; [apply (plain_tup (t :: ts) F)|]. intros cs. split; reflexivity.
  - intros t Ht v old. exact (like_const (cextr nd (TyVec t) v old) v).
  - intros a b Ha Hb v old. destruct v as [o|l|s|z|b0|]; try (split; reflexivity).
    change (pextr nd (TyMap a b) (JArr l) old) with (obind (ppairs_loop a b l (match old with VMap m => m | _ => [] end)) (fun '(m, l) => Ok (VMap m, JArr l))).
    rewrite cextr_map. eapply like_bind; [apply (plain_pairs a b Ha Hb)|]. intros m. split; reflexivity.
  - intros ts F v old. exact (like_const (cextr nd (TyStructArr ts) v old) v).
  - intros fs F v old. exact (like_const (cextr nd (TyStructObj fs) v old) v).
Qed.
End LOOPS.
Lemma macro_value : forall nd t v old c v', pextr nd t v old = Ok (c, v') <-> v' = v /\ cextr nd t v old = Ok c.
Proof.
  intros nd t v old c v'. pose proof (all_plain nd t v old) as L. unfold like in L. destruct (pextr nd t v old) as [(c0, v0)|m| |].
  - destruct L as [-> ->]. split; [intros [= <- <-]; auto|intros [-> [= <-]]; reflexivity].
  - rewrite L. split; [discriminate|intros [_ ?]; discriminate].
  - split; [discriminate|]. intros [_ E]. contradiction (L _ E).
  - rewrite L. split; [discriminate|intros [_ ?]; discriminate].
Qed.
Lemma macro_throws : forall nd t v old m, pextr nd t v old = Throw m -> cextr nd t v old = Throw m.
Proof. intros nd t v old m E. pose proof (all_plain nd t v old) as L. rewrite E in L. exact L. Qed.
Lemma macro_short : forall nd a b l old, (length l < 2)%nat -> pextr nd (TyPair a b) (JArr l) old = UB.
Proof. intros nd a b [|x [|y l]] old H; [reflexivity..|]. cbn in H. lia. Qed.
Lemma macro_class : forall nd ts fs v old m,
  (pextr nd (TyStructArr ts) v old = Throw m <-> cextr nd (TyStructArr ts) v old = Throw m) /\
  (pextr nd (TyStructObj fs) v old = Throw m <-> cextr nd (TyStructObj fs) v old = Throw m).
Proof.
  assert (G : forall (o : outcome cv) (v : jval) (m : string), obind o (fun c => Ok (c, v)) = Throw m <-> o = Throw m).
  { intros [c|n| |] v m; cbn; split; intros E; try discriminate; injection E as ->; reflexivity. }
  intros nd ts fs v old m. split; [apply (G (cextr nd (TyStructArr ts) v old))|apply (G (cextr nd (TyStructObj fs) v old))].
Qed.
Lemma ptup_cut : forall ts l, (length l < length ts)%nat ->
  Forall2 (fun t x => exists c, asserted true (isNoNum t x) (cextr true t x (fresh t)) = Ok c) (firstn (length l) ts) l -> ptup_loop true ts l = UB.
Proof.
  induction ts as [|t ts IH]; intros l H F; cbn in H; [lia|]. destruct l as [|x l]; [reflexivity|]. cbn [length firstn] in F.
  inversion F as [|? ? ? ? (c & E) F']; subst. cbn [ptup_loop]. cbn in H.
  assert (P : pextr true t x (fresh t) = Ok (c, x)) by (apply macro_value; split; [reflexivity|exact E]).
  unfold asserted in *. cbn [orb] in *. rewrite P. cbn [obind]. rewrite (IH l); [reflexivity|lia|exact F'].
Qed.
Lemma macro_short_tuple : forall ts l old, (length l < length ts)%nat -> Forall2 (fun t x => exists c, cextr true t x (fresh t) = Ok c) (firstn (length l) ts) l ->
  pextr true (TyTuple ts) (JArr l) old = UB.
Proof.
  intros [|t ts] l old H F; [cbn in H; lia|].
  change (pextr true (TyTuple (t :: ts)) (JArr l) old) with (obind (ptup_loop true (t :: ts) l) (fun '(cs, l) => Ok (VTup cs, JArr l))).
  rewrite (ptup_cut (t :: ts) l H F). reflexivity.
Qed.
