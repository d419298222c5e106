(** Extraction from JSON values that are not constant. *)
From Coq Require Import String Ascii ZArith NArith Arith Bool Lia List.
From Verif Require Import Common JsonNumModel JsonModel JsonCnvModel JsonCnvSpec JsonCnvProofs JsonShapeModel JsonShapeSpec JsonShapeProofs JsonMutModel JsonMutSpec.
Import ListNotations.

Lemma lookup_update : forall j k v o, lookup j (obj_update k v o) = if bytes_eqb k j then match lookup k o with Some _ => Some v | None => None end else lookup j o.
Proof.
  unfold lookup. induction o as [|(i, w) o IH]; cbn [obj_update find fst]; [destruct (bytes_eqb k j); reflexivity|].
  destruct (bytes_eqb i k) eqn:E.
  - apply bytes_eqb_eq in E as ->. cbn [find fst]. destruct (bytes_eqb k j); reflexivity.
  - cbn [find fst]. destruct (bytes_eqb i j) eqn:E2; [|exact IH]. destruct (bytes_eqb k j) eqn:E3; [|reflexivity]. apply bytes_eqb_eq in E3 as ->. congruence.
Qed.
Lemma update_same : forall k v o, lookup k o = Some v -> obj_update k v o = o.
Proof.
  unfold lookup. induction o as [|(i, w) o IH]; cbn [obj_update find fst]; [reflexivity|]. destruct (bytes_eqb i k); [now intros [= ->]|]. intros H. f_equal. now apply IH.
Qed.

Section LOOPS.
Context (nd : bool).
Fixpoint arr_loop (ts : list ty) (l : list jval) (old : list cv) {struct ts} : outcome (list cv) :=
  match ts with
  | [] => Ok []
  | t :: ts =>
    match l with
    | [] => asserted nd false out_of_range
    | x :: l => obind (asserted nd (isNoNum t x) (cextr nd t x (hd (fresh t) old))) (fun c => obind (arr_loop ts l (tl old)) (fun cs => Ok (c :: cs)))
    end
  end.
Fixpoint marr_loop (ts : list ty) (l : list jval) (old : list cv) {struct ts} : outcome (list cv * list jval) :=
  match ts with
  | [] => Ok ([], l)
  | t :: ts =>
    match l with
    | [] => UB
    | x :: l => obind (asserted nd (isNoNum t x) (mextr nd t x (hd (fresh t) old))) (fun '(c, x) => obind (marr_loop ts l (tl old)) (fun '(cs, l) => Ok (c :: cs, x :: l)))
    end
  end.
Fixpoint mtup_loop (ts : list ty) (l : list jval) {struct ts} : outcome (list cv * list jval) :=
  match ts with
  | [] => Ok ([], l)
  | t :: ts =>
    match l with
    | [] => UB
    | x :: l => obind (asserted nd (isNoNum t x) (mextr nd t x (fresh t))) (fun '(c, x) => obind (mtup_loop ts l) (fun '(cs, l) => Ok (c :: cs, x :: l)))
    end
  end.
Fixpoint mobj_loop (fs : list (bytes * ty)) (o : list (bytes * jval)) (old : list cv) {struct fs} : outcome (list cv * list (bytes * jval)) :=
  match fs with
  | [] => Ok ([], o)
  | (n, t) :: fs =>
    obind match lookup n o with
          | None => asserted nd false (obind (mextr nd t JNll (hd (fresh t) old)) (fun '(c, x) => Ok (c, obj_set n x o)))
          | Some y => obind (mextr nd t y (hd (fresh t) old)) (fun '(c, x) => Ok (c, obj_update n x o))
          end (fun '(c, o) => obind (mobj_loop fs o (tl old)) (fun '(cs, o) => Ok (c :: cs, o)))
  end.
Section AB.
Context (a b : ty).
Definition mpair_of (e : jval) : outcome ((cv * cv) * jval) :=
  match e with
  | JArr (x :: y :: r) =>
    obind (asserted nd (isNoNum a x) (mextr nd a x (fresh a))) (fun '(c, x) =>
    obind (asserted nd (isNoNum b y) (mextr nd b y (fresh b))) (fun '(d, y) => Ok ((c, d), JArr (x :: y :: r))))
  | _ => UB
  end.
Fixpoint mpairs_loop (l : list jval) (m : list (cv * cv)) : outcome (list (cv * cv) * list jval) :=
  match l with
  | [] => Ok (m, [])
  | e :: l => obind (noexcept (asserted nd (isNoNum (TyPair a b) e) (mpair_of e))) (fun '(p, e) =>
      obind (mpairs_loop l (map_set (fst p) (snd p) m)) (fun '(m, l) => Ok (m, e :: l)))
  end.
End AB.
Lemma arr_index : forall ts l i old, sarr_loop nd (JArr l) ts i old = arr_loop ts (skipn i l) old.
Proof.
  induction ts as [|t ts IH]; intros l i old; [reflexivity|]. cbn [sarr_loop arr_loop]. pose proof (skipn_nth l i) as N. destruct (nth_error l i) as [x|]; rewrite N; [|reflexivity].
  rewrite IH. reflexivity.
Qed.
Lemma tup_index : forall ts l i, tup_loop nd (JArr l) ts i = arr_loop ts (skipn i l) [].
Proof.
  induction ts as [|t ts IH]; intros l i; [reflexivity|]. cbn [tup_loop arr_loop hd tl]. pose proof (skipn_nth l i) as N. destruct (nth_error l i) as [x|]; rewrite N; [|reflexivity].
  rewrite IH. reflexivity.
Qed.
Lemma mtup_arr : forall ts l, mtup_loop ts l = marr_loop ts l [].
Proof. induction ts as [|t ts IH]; intros l; [reflexivity|]. cbn [mtup_loop marr_loop hd tl]. destruct l as [|x l]; [reflexivity|]. rewrite IH. reflexivity. Qed.

(** [m] reads what [c] reads from [x], and leaves a source from which the same is read. *)
Definition keeps {A B} (R : B -> B -> Prop) (m : outcome (A * B)) (c : B -> outcome A) (x : B) : Prop :=
  (forall a x', m = Ok (a, x') -> c x = Ok a /\ (nd = false -> x' = x) /\ R x x' /\ c x' = Ok a) /\ (forall a, c x = Ok a -> exists x', m = Ok (a, x')).
Definition tracks (t : ty) : Prop := distinct t -> forall v old, keeps grown (mextr nd t v old) (fun v => cextr nd t v old) v.
Lemma keeps_const {A} : forall (c : jval -> outcome A) x, keeps grown (obind (c x) (fun a => Ok (a, x))) c x.
Proof.
  intros c x. split.
  - intros a x' H. destruct (c x) as [b| | |] eqn:E; try discriminate. cbn [obind] in H. injection H as <- <-. repeat split; trivial. constructor.
  - intros a ->. now exists x.
Qed.
Lemma keeps_asserted {A} : forall (ch : jval -> bool) m (c : jval -> outcome A) x, keeps grown m c x -> keeps grown (asserted nd (ch x) m) (fun x => asserted nd (ch x) (c x)) x.
Proof.
  intros ch m c x (K1 & K2). unfold asserted. destruct nd eqn:D.
  - cbn [orb]. split; [|exact K2]. intros a x' H. destruct (K1 a x' H) as (E1 & _ & E3 & E4). split; [exact E1|]. split; [intros Z; congruence|]. now split.
  - cbn [orb]. destruct (ch x) eqn:C.
    + split; [|intros a H; rewrite C in H; now apply K2]. intros a x' H. destruct (K1 a x' H) as (E1 & E2 & E3 & E4). rewrite (E2 eq_refl). rewrite C.
      split; [exact E1|]. split; [reflexivity|]. split; [constructor|exact E1].
    + split; [intros; discriminate|intros a H; rewrite C in H; discriminate].
Qed.
Lemma keeps_arr : forall ts, Forall tracks ts -> Forall distinct ts -> forall l old, keeps (Forall2 grown) (marr_loop ts l old) (fun l => arr_loop ts l old) l.
Proof.
  induction 1 as [|t ts Ht F IH]; intros D l old.
  - cbn [marr_loop arr_loop]. split.
    + intros a x' [= <- <-]. repeat split; trivial. clear. induction l; constructor; [constructor|assumption].
    + intros a [= <-]. now exists l.
  - inversion D as [|? ? Dt D']; subst. cbn [marr_loop arr_loop]. destruct l as [|x l].
    + split; [intros; discriminate|]. intros a H. unfold asserted, out_of_range in H. destruct nd; discriminate.
    + destruct (keeps_asserted (isNoNum t) _ _ x (Ht Dt x (hd (fresh t) old))) as (K1 & K2). destruct (IH D' l (tl old)) as (J1 & J2). split.
      * intros a x' H. destruct (asserted nd (isNoNum t x) (mextr nd t x (hd (fresh t) old))) as [(c, y)| | |] eqn:E; try discriminate. cbn [obind] in H.
        destruct (marr_loop ts l (tl old)) as [(cs, l')| | |] eqn:E'; try discriminate. cbn [obind] in H. injection H as <- <-.
        destruct (K1 c y eq_refl) as (A1 & A2 & A3 & A4), (J1 cs l' eq_refl) as (B1 & B2 & B3 & B4). rewrite A1, A4. cbn [obind]. rewrite B1, B4.
        split; [reflexivity|]. split; [intros Z; now rewrite (A2 Z), (B2 Z)|]. split; [now constructor|reflexivity].
      * intros a H. destruct (asserted nd (isNoNum t x) (cextr nd t x (hd (fresh t) old))) as [c| | |] eqn:E; try discriminate. cbn [obind] in H.
        destruct (arr_loop ts l (tl old)) as [cs| | |] eqn:E'; try discriminate. cbn [obind] in H. injection H as <-.
        destruct (K2 c eq_refl) as (y & ->), (J2 cs eq_refl) as (l' & E2). exists (y :: l'). cbn [obind]. now rewrite E2.
Qed.
Lemma keeps_pair : forall a b, tracks a -> distinct a -> tracks b -> distinct b -> forall e, keeps grown (mpair_of a b e) (pair_of nd a b) e.
Proof.
  intros a b Ta Da Tb Db e. unfold mpair_of. destruct e as [o|l|s|z|b0|]; try (split; [intros; discriminate|intros ? H; discriminate]).
  destruct l as [|x [|y r]].
  - split; [intros; discriminate|intros ? H; discriminate].
  - split; [intros; discriminate|]. intros p H. unfold pair_of in H. destruct (asserted nd (isNoNum a x) (cextr nd a x (fresh a))); discriminate.
  - destruct (keeps_asserted (isNoNum a) _ _ x (Ta Da x (fresh a))) as (K1 & K2). destruct (keeps_asserted (isNoNum b) _ _ y (Tb Db y (fresh b))) as (J1 & J2). split.
    + intros p x' H. destruct (asserted nd (isNoNum a x) (mextr nd a x (fresh a))) as [(c, x1)| | |] eqn:E; try discriminate. cbn [obind] in H.
      destruct (asserted nd (isNoNum b y) (mextr nd b y (fresh b))) as [(d, y1)| | |] eqn:E'; try discriminate. cbn [obind] in H. injection H as <- <-.
      destruct (K1 c x1 eq_refl) as (A1 & A2 & A3 & A4), (J1 d y1 eq_refl) as (B1 & B2 & B3 & B4). unfold pair_of. rewrite A1, A4. cbn [obind]. rewrite B1, B4.
      split; [reflexivity|]. split; [intros Z; now rewrite (A2 Z), (B2 Z)|]. split; [|reflexivity]. apply grown_arr. constructor; [exact A3|]. constructor; [exact B3|].
      clear. induction r; constructor; [constructor|assumption].
    + intros p H. unfold pair_of in H. destruct (asserted nd (isNoNum a x) (cextr nd a x (fresh a))) as [c| | |] eqn:E; try discriminate. cbn [obind] in H.
      destruct (asserted nd (isNoNum b y) (cextr nd b y (fresh b))) as [d| | |] eqn:E'; try discriminate. cbn [obind] in H. injection H as <-.
      destruct (K2 c eq_refl) as (x1 & ->), (J2 d eq_refl) as (y1 & E2). exists (JArr (x1 :: y1 :: r)). cbn [obind]. now rewrite E2.
Qed.
Lemma noexcept_ok {A} : forall (o : outcome A) c, noexcept o = Ok c <-> o = Ok c.
Proof. intros [x|s| |] c; cbn [noexcept]; try tauto; split; discriminate. Qed.
Lemma keeps_noexcept {A} : forall m (c : jval -> outcome A) x, keeps grown m c x -> keeps grown (noexcept m) (fun x => noexcept (c x)) x.
Proof.
  intros m c x (K1 & K2). split.
  - intros a x' H. rewrite noexcept_ok in H. rewrite !noexcept_ok. now apply K1.
  - intros a H. rewrite noexcept_ok in H. destruct (K2 a H) as (x' & E). exists x'. now rewrite noexcept_ok.
Qed.
Lemma keeps_pairs : forall a b, tracks a -> distinct a -> tracks b -> distinct b -> forall l m,
  keeps (Forall2 grown) (mpairs_loop a b l m) (fun l => pairs_loop nd a b l m) l.
Proof.
  intros a b Ta Da Tb Db. induction l as [|e l IH]; intros m; cbn [mpairs_loop pairs_loop].
  - split; [intros p x' [= <- <-]; repeat split; trivial; constructor|]. intros p [= <-]. now exists [].
  - destruct (keeps_noexcept _ _ _ (keeps_asserted (isNoNum (TyPair a b)) _ _ e (keeps_pair a b Ta Da Tb Db e))) as (K1 & K2). split.
    + intros p x' H. destruct (noexcept (asserted nd (isNoNum (TyPair a b) e) (mpair_of a b e))) as [(c, e1)| | |] eqn:E; try discriminate. cbn [obind] in H.
      destruct (mpairs_loop a b l (map_set (fst c) (snd c) m)) as [(m1, l1)| | |] eqn:E'; try discriminate. cbn [obind] in H. injection H as <- <-.
      destruct (K1 c e1 eq_refl) as (A1 & A2 & A3 & A4). destruct (IH (map_set (fst c) (snd c) m)) as (J1 & J2). destruct (J1 m1 l1 E') as (B1 & B2 & B3 & B4).
      cbn [pairs_loop]. rewrite A1, A4. cbn [obind]. cbn [obind]. rewrite B1, B4. split; [reflexivity|]. split; [intros Z; now rewrite (A2 Z), (B2 Z)|]. split; [now constructor|reflexivity].
    + intros p H. cbn [pairs_loop] in H. destruct (noexcept (asserted nd (isNoNum (TyPair a b) e) (pair_of nd a b e))) as [c| | |] eqn:E; try discriminate. cbn [obind] in H.
      destruct (K2 c eq_refl) as (e1 & ->). destruct (IH (map_set (fst c) (snd c) m)) as (J1 & J2). destruct (J2 p H) as (l1 & E2). exists (e1 :: l1). cbn [obind]. now rewrite E2.
Qed.

Lemma obj_ext : forall fs o o' old, (forall n, In n (map fst fs) -> lookup n o = lookup n o') -> sobj_loop nd (JObj o) fs old = sobj_loop nd (JObj o') fs old.
Proof.
  induction fs as [|(n, t) fs IH]; intros o o' old H; [reflexivity|]. cbn [sobj_loop]. rewrite (H n) by now left. rewrite (IH o o'); [reflexivity|].
  intros m I. apply H. now right.
Qed.
(** What a class's members do to the object. *)
Definition grows (names : list bytes) (o o' : list (bytes * jval)) : Prop :=
  (forall n, ~ In n names -> lookup n o' = lookup n o) /\
  (forall n, In n names -> match lookup n o with Some x => exists x', lookup n o' = Some x' /\ grown x x' | None => lookup n o' = Some JNll end).
Lemma keeps_obj : forall fs, Forall (fun f => tracks (snd f)) fs -> Forall (fun f => distinct (snd f)) fs -> NoDup (map fst fs) ->
  forall o old, keeps (grows (map fst fs)) (mobj_loop fs o old) (fun o => sobj_loop nd (JObj o) fs old) o.
Proof.
  induction 1 as [|(n, t) fs Ht F IH]; intros D N o old.
  - cbn [mobj_loop sobj_loop]. split; [intros a x' [= <- <-]; repeat split; trivial; intros n []|]. intros a [= <-]. now exists o.
  - inversion D as [|? ? Dt D']; subst. cbn [snd] in Ht, Dt. cbn [map fst] in N. inversion N as [|? ? Nn N']; subst.
    (* the first member *)
    set (m1 := match lookup n o with
          | None => asserted nd false (obind (mextr nd t JNll (hd (fresh t) old)) (fun '(c, x) => Ok (c, obj_set n x o)))
          | Some y => obind (mextr nd t y (hd (fresh t) old)) (fun '(c, x) => Ok (c, obj_update n x o))
          end).
    set (c1 := fun o => match lookup n o with None => asserted nd false (cextr nd t JNll (hd (fresh t) old)) | Some x => cextr nd t x (hd (fresh t) old) end).
    assert (K1 : forall c o1, m1 = Ok (c, o1) -> c1 o = Ok c /\ (nd = false -> o1 = o) /\ (forall m, m <> n -> lookup m o1 = lookup m o) /\
      exists x', lookup n o1 = Some x' /\ cextr nd t x' (hd (fresh t) old) = Ok c /\ match lookup n o with Some x => grown x x' | None => x' = JNll end).
    { intros c o1 H. subst m1 c1. cbv beta. destruct (lookup n o) as [x|] eqn:L.
      - destruct (mextr nd t x (hd (fresh t) old)) as [(c', x')| | |] eqn:E; try discriminate. cbn [obind] in H. injection H as <- <-.
        destruct (Ht Dt x (hd (fresh t) old)) as (G & _). destruct (G _ _ E) as (A1 & A2 & A3 & A4). split; [exact A1|].
        split; [intros Z; rewrite (A2 Z); now apply update_same|]. split; [intros m Ne; rewrite lookup_update, bytes_eqb_neq' by congruence; reflexivity|].
        exists x'. rewrite lookup_update, bytes_eqb_refl', L. now split.
      - unfold asserted in H |- *. destruct nd eqn:Z; [|discriminate]. cbn [orb] in H |- *. rewrite <- Z in *.
        destruct (mextr nd t JNll (hd (fresh t) old)) as [(c', x')| | |] eqn:E; try discriminate. cbn [obind] in H. injection H as <- <-.
        destruct (Ht Dt JNll (hd (fresh t) old)) as (G & _). destruct (G _ _ E) as (A1 & A2 & A3 & A4). split; [exact A1|]. split; [congruence|].
        split; [intros m Ne; rewrite lookup_set, bytes_eqb_neq' by congruence; reflexivity|]. exists x'. rewrite lookup_set, bytes_eqb_refl'. split; [reflexivity|]. split; [exact A4|].
        now inversion A3. }
    assert (K2 : forall c, c1 o = Ok c -> exists o1, m1 = Ok (c, o1)).
    { intros c H. subst m1 c1. cbv beta in H. destruct (lookup n o) as [x|] eqn:L.
      - destruct (Ht Dt x (hd (fresh t) old)) as (_ & G). destruct (G c H) as (x' & ->). cbn [obind]. eauto.
      - unfold asserted in H |- *. destruct nd eqn:Z; [|discriminate]. cbn [orb] in H |- *. rewrite <- Z in *.
        destruct (Ht Dt JNll (hd (fresh t) old)) as (_ & G). destruct (G c H) as (x' & ->). cbn [obind]. eauto. }
    change (mobj_loop ((n, t) :: fs) o old) with (obind m1 (fun '(c, o) => obind (mobj_loop fs o (tl old)) (fun '(cs, o) => Ok (c :: cs, o)))).
    assert (Ec : forall o, sobj_loop nd (JObj o) ((n, t) :: fs) old = obind (c1 o) (fun c => obind (sobj_loop nd (JObj o) fs (tl old)) (fun cs => Ok (c :: cs)))) by reflexivity.
    split.
    + intros a o' H. destruct m1 as [(c, o1)| | |] eqn:E; try discriminate. cbn [obind] in H.
      destruct (mobj_loop fs o1 (tl old)) as [(cs, o2)| | |] eqn:E'; try discriminate. cbn [obind] in H. injection H as <- <-.
      destruct (K1 c o1 eq_refl) as (A1 & A2 & A3 & x' & A4 & A5 & A6). destruct (IH D' N' o1 (tl old)) as (J1 & _). destruct (J1 _ _ E') as (B1 & B2 & (B3 & B4) & B5).
      assert (Ext : sobj_loop nd (JObj o) fs (tl old) = sobj_loop nd (JObj o1) fs (tl old)).
      { apply obj_ext. intros m I. symmetry. apply A3. intros ->. contradiction. }
      rewrite !Ec. rewrite A1. cbn [obind]. rewrite Ext, B1, B5. split; [reflexivity|]. split; [intros Z; rewrite (B2 Z); now apply A2|]. split.
      * cbn [map fst]. split.
        -- intros m I. rewrite B3 by (intros I'; apply I; now right). apply A3. intros ->. apply I. now left.
        -- intros m [<-|I].
           ++ rewrite (B3 n Nn), A4. destruct (lookup n o); [exists x'; now split|now subst x'].
           ++ specialize (B4 m I). rewrite A3 in B4 by (intros ->; contradiction). exact B4.
      * assert (Z : c1 o2 = Ok c) by (subst c1; cbv beta; rewrite (B3 n Nn), A4; exact A5). rewrite Z. reflexivity.
    + intros a H. rewrite Ec in H. destruct (c1 o) as [c| | |] eqn:E; try discriminate. cbn [obind] in H. destruct (K2 c eq_refl) as (o1 & Em).
      destruct (K1 c o1 Em) as (A1 & A2 & A3 & _). rewrite Em. cbn [obind].
      assert (Ext : sobj_loop nd (JObj o) fs (tl old) = sobj_loop nd (JObj o1) fs (tl old)).
      { apply obj_ext. intros m I. symmetry. apply A3. intros ->. contradiction. }
      rewrite Ext in H. destruct (sobj_loop nd (JObj o1) fs (tl old)) as [cs| | |] eqn:E'; try discriminate. cbn [obind] in H. injection H as <-.
      destruct (IH D' N' o1 (tl old)) as (_ & J2). destruct (J2 cs E') as (o2 & ->). exists o2. reflexivity.
Qed.
Lemma grows_grown : forall names o o', grows names o o' -> grown (JObj o) (JObj o').
Proof.
  intros names o o' (G1 & G2). apply grown_obj.
  - intros n x M. apply lookup_member in M. destruct (in_dec (list_eq_dec Ascii.ascii_dec) n names) as [I|I].
    + specialize (G2 n I). rewrite M in G2. destruct G2 as (x' & L & G). exists x'. split; [now apply lookup_member|exact G].
    + exists x. split; [apply lookup_member; now rewrite (G1 n I)|constructor].
  - intros n x' Mi M. apply lookup_missing in Mi. apply lookup_member in M. destruct (in_dec (list_eq_dec Ascii.ascii_dec) n names) as [I|I].
    + specialize (G2 n I). rewrite Mi in G2. congruence.
    + rewrite (G1 n I) in M. congruence.
Qed.
Lemma dist_list : forall ts, (fix all (ts : list ty) : Prop := match ts with [] => True | t :: ts => distinct t /\ all ts end) ts -> Forall distinct ts.
Proof. induction ts as [|t ts IH]; intros H; constructor; [apply H|apply IH; apply H]. Qed.
Lemma dist_fields : forall fs, (fix all (fs : list (bytes * ty)) : Prop := match fs with [] => True | (_, t) :: fs => distinct t /\ all fs end) fs -> Forall (fun f => distinct (snd f)) fs.
Proof. induction fs as [|(n, t) fs IH]; intros H; constructor; [apply H|apply IH; apply H]. Qed.

Lemma keeps_list {S} : forall (R : S -> S -> Prop) (w : S -> jval) (m : outcome (list cv * S)) (c : S -> outcome (list cv)) l (g : jval -> outcome cv),
  (forall l l', R l l' -> grown (w l) (w l')) -> (forall l, g (w l) = obind (c l) (fun cs => Ok (VTup cs))) -> keeps R m c l ->
  keeps grown (obind m (fun '(cs, l) => Ok (VTup cs, w l))) g (w l).
Proof.
  intros R w m c l g HR Hg (K1 & K2). split.
  - intros a x' H. destruct m as [(cs, l')| | |] eqn:E; try discriminate. cbn [obind] in H. injection H as <- <-. destruct (K1 cs l' eq_refl) as (A1 & A2 & A3 & A4).
    rewrite !Hg, A1, A4. split; [reflexivity|]. split; [intros Z; now rewrite (A2 Z)|]. split; [now apply HR|reflexivity].
  - intros a H. rewrite Hg in H. destruct (c l) as [cs| | |] eqn:E; try discriminate. cbn [obind] in H. injection H as <-. destruct (K2 cs eq_refl) as (l' & ->). now exists (w l').
Qed.
Lemma all_track : forall t, tracks t.
Proof.
  apply ty_nested.
  - intros t. destruct t; try exact I; intros D v old; match goal with |- keeps _ (mextr _ ?t _ _) _ _ => exact (keeps_const (fun v => cextr nd t v old) v) end.
  - intros a b Ta Tb (Da & Db) v old. destruct (keeps_pair a b Ta Da Tb Db v) as (K1 & K2).
    assert (Em : mextr nd (TyPair a b) v old = obind (mpair_of a b v) (fun '(p, x) => Ok (VPair (fst p) (snd p), x))).
    { cbn [mextr]. unfold mpair_of. destruct v as [o|l|s|z|b0|]; try reflexivity. destruct l as [|x [|y r]]; try reflexivity.
      destruct (asserted nd (isNoNum a x) (mextr nd a x (fresh a))) as [(c, x1)| | |]; try reflexivity. cbn [obind].
      destruct (asserted nd (isNoNum b y) (mextr nd b y (fresh b))) as [(d, y1)| | |]; reflexivity. }
    rewrite Em. split.
    + intros c x' H. destruct (mpair_of a b v) as [(p, x1)| | |] eqn:E; try discriminate. cbn [obind] in H. injection H as <- <-. destruct (K1 p x1 eq_refl) as (A1 & A2 & A3 & A4).
      rewrite !cextr_pair, A1, A4. repeat split; assumption.
    + intros c H. rewrite cextr_pair in H. destruct (pair_of nd a b v) as [p| | |] eqn:E; try discriminate. cbn [obind] in H. injection H as <-. destruct (K2 p eq_refl) as (x' & ->). now exists x'.
  - intros ts F D v old. apply dist_list in D. destruct ts as [|t ts]; [exact (keeps_const (fun v => Ok (VTup [])) v)|].
    destruct v as [o|l|s|z|b0|]; try (split; [intros; discriminate|intros a H; discriminate]).
    change (mextr nd (TyTuple (t :: ts)) (JArr l) old) with (obind (mtup_loop (t :: ts) l) (fun '(cs, l) => Ok (VTup cs, JArr l))). rewrite mtup_arr.
    apply (keeps_list (Forall2 grown) JArr _ (fun l => arr_loop (t :: ts) l [])); [apply grown_arr| |apply keeps_arr; assumption].
    intros k. rewrite cextr_tuple, tup_index. reflexivity.
  - intros t Tt D v old. exact (keeps_const (fun v => cextr nd (TyVec t) v old) v).
  - intros a b Ta Tb (Da & Db) v old. destruct v as [o|l|s|z|b0|];
      try (split; [intros c x' H; injection H as <- <-; split; [reflexivity|]; split; [reflexivity|]; split; [constructor|reflexivity]|intros c H; injection H as <-; eexists; reflexivity]).
    destruct (keeps_pairs a b Ta Da Tb Db l (match old with VMap m => m | _ => [] end)) as (K1 & K2).
    change (mextr nd (TyMap a b) (JArr l) old) with (obind (mpairs_loop a b l (match old with VMap m => m | _ => [] end)) (fun '(m, l) => Ok (VMap m, JArr l))). split.
    + intros c x' H. destruct (mpairs_loop a b l _) as [(m, l1)| | |] eqn:E; try discriminate. cbn [obind] in H. injection H as <- <-. destruct (K1 m l1 eq_refl) as (A1 & A2 & A3 & A4).
      rewrite !cextr_map, A1, A4. split; [reflexivity|]. split; [intros Z; now rewrite (A2 Z)|]. split; [now apply grown_arr|reflexivity].
    + intros c H. rewrite cextr_map in H. destruct (pairs_loop nd a b l _) as [m| | |] eqn:E; try discriminate. cbn [obind] in H. injection H as <-. destruct (K2 m eq_refl) as (l1 & ->). now exists (JArr l1).
  - intros ts F D v old. apply dist_list in D. destruct ts as [|t ts]; [exact (keeps_const (fun v => Ok (VTup [])) v)|].
    destruct v as [o|l|s|z|b0|]; try (split; [intros; discriminate|intros a H; discriminate]).
    change (mextr nd (TyStructArr (t :: ts)) (JArr l) old) with (obind (marr_loop (t :: ts) l (match old with VTup cs => cs | _ => [] end)) (fun '(cs, l) => Ok (VTup cs, JArr l))).
    apply (keeps_list (Forall2 grown) JArr _ (fun l => arr_loop (t :: ts) l (match old with VTup cs => cs | _ => [] end))); [apply grown_arr| |apply keeps_arr; assumption].
    intros k. rewrite cextr_sarr, arr_index. reflexivity.
  - intros fs F (N & D) v old. apply dist_fields in D. destruct fs as [|(n, t) fs]; [exact (keeps_const (fun v => Ok (VTup [])) v)|].
    destruct v as [o|l|s|z|b0|]; try (split; [intros; discriminate|intros a H; discriminate]).
    change (mextr nd (TyStructObj ((n, t) :: fs)) (JObj o) old) with (obind (mobj_loop ((n, t) :: fs) o (match old with VTup cs => cs | _ => [] end)) (fun '(cs, o) => Ok (VTup cs, JObj o))).
    apply (keeps_list (grows (map fst ((n, t) :: fs))) JObj _ (fun o => sobj_loop nd (JObj o) ((n, t) :: fs) (match old with VTup cs => cs | _ => [] end)));
      [apply grows_grown| |apply keeps_obj; assumption].
    intros k. rewrite cextr_sobj. reflexivity.
Qed.
End LOOPS.

Lemma same_value : forall nd t v old c, distinct t -> ((exists v', mextr nd t v old = Ok (c, v')) <-> cextr nd t v old = Ok c).
Proof.
  intros nd t v old c D. destruct (all_track nd t D v old) as (K1 & K2). split; [|apply K2]. intros (v' & H). now apply (K1 c v').
Qed.
Lemma source : forall nd t v old c v', distinct t -> mextr nd t v old = Ok (c, v') -> (nd = false -> v' = v) /\ grown v v' /\ cextr nd t v' old = Ok c.
Proof. intros nd t v old c v' D H. destruct (all_track nd t D v old) as (K1 & _). destruct (K1 c v' H) as (_ & A). exact A. Qed.
Lemma magree_pair : forall a b, (forall v old, agree (mextr false a v old) (mextr true a v old)) ->
  (forall v old, agree (mextr false b v old) (mextr true b v old)) -> forall e, agree (mpair_of false a b e) (mpair_of true a b e).
Proof.
  intros a b Ha Hb e. unfold mpair_of. destruct e as [o|l|s|z|b0|]; try apply agree_refl. destruct l as [|x [|y r]]; try apply agree_refl.
  apply agree_bind; [now apply agree_asserted|]. intros (c, x1). apply agree_bind; [now apply agree_asserted|]. intros (d, y1). apply agree_refl.
Qed.
Lemma magree_arr : forall ts, Forall (fun t => forall v old, agree (mextr false t v old) (mextr true t v old)) ts ->
  forall l old, agree (marr_loop false ts l old) (marr_loop true ts l old).
Proof.
  induction 1 as [|t ts Ht F IH]; intros l old; [apply agree_refl|]. cbn [marr_loop]. destruct l as [|x l]; [apply agree_refl|].
  apply agree_bind; [now apply agree_asserted|]. intros (c, x1). apply agree_bind; [apply IH|]. intros (cs, l1). apply agree_refl.
Qed.
Lemma mbuilds : forall t v old, agree (mextr false t v old) (mextr true t v old).
Proof.
  apply (ty_nested (fun t => forall v old, agree (mextr false t v old) (mextr true t v old))).
  - intros t. destruct t; try exact I; intros v old; apply agree_refl.
  - intros a b Ha Hb v old. cbn [mextr]. destruct v as [o|l|s|z|b0|]; try apply agree_refl. destruct l as [|x [|y r]]; try apply agree_refl.
    apply agree_bind; [now apply agree_asserted|]. intros (c, x1). apply agree_bind; [now apply agree_asserted|]. intros (d, y1). apply agree_refl.
  - intros ts F v old. destruct ts as [|t ts]; [apply agree_refl|]. destruct v as [o|l|s|z|b0|]; try apply agree_refl.
    change (agree (obind (mtup_loop false (t :: ts) l) (fun '(cs, l) => Ok (VTup cs, JArr l))) (obind (mtup_loop true (t :: ts) l) (fun '(cs, l) => Ok (VTup cs, JArr l)))).
    rewrite !mtup_arr. apply agree_bind; [now apply magree_arr|]. intros (cs, l1). apply agree_refl.
  - intros t Ht v old. change (agree (obind (cextr false (TyVec t) v old) (fun c => Ok (c, v))) (obind (cextr true (TyVec t) v old) (fun c => Ok (c, v)))).
    apply agree_bind; [apply builds|]. intros c. apply agree_refl.
  - intros a b Ha Hb v old. destruct v as [o|l|s|z|b0|]; try apply agree_refl.
    change (agree (obind (mpairs_loop false a b l (match old with VMap m => m | _ => [] end)) (fun '(m, l) => Ok (VMap m, JArr l)))
      (obind (mpairs_loop true a b l (match old with VMap m => m | _ => [] end)) (fun '(m, l) => Ok (VMap m, JArr l)))).
    apply agree_bind; [|intros (m, l1); apply agree_refl]. generalize (match old with VMap m => m | _ => [] end).
    induction l as [|e l IH]; intros m; [apply agree_refl|]. cbn [mpairs_loop]. apply agree_bind; [apply agree_noexcept, agree_asserted; now apply magree_pair|].
    intros (p, e1). apply agree_bind; [apply IH|]. intros (m1, l1). apply agree_refl.
  - intros ts F v old. destruct ts as [|t ts]; [apply agree_refl|]. destruct v as [o|l|s|z|b0|]; try apply agree_refl.
    change (agree (obind (marr_loop false (t :: ts) l (match old with VTup m => m | _ => [] end)) (fun '(cs, l) => Ok (VTup cs, JArr l)))
      (obind (marr_loop true (t :: ts) l (match old with VTup m => m | _ => [] end)) (fun '(cs, l) => Ok (VTup cs, JArr l)))).
    apply agree_bind; [now apply magree_arr|]. intros (cs, l1). apply agree_refl.
  - intros fs F v old. destruct fs as [|f fs]; [apply agree_refl|]. destruct v as [o|l|s|z|b0|]; try apply agree_refl.
    change (agree (obind (mobj_loop false (f :: fs) o (match old with VTup m => m | _ => [] end)) (fun '(cs, o) => Ok (VTup cs, JObj o)))
      (obind (mobj_loop true (f :: fs) o (match old with VTup m => m | _ => [] end)) (fun '(cs, o) => Ok (VTup cs, JObj o)))).
    apply agree_bind; [|intros (m, l1); apply agree_refl]. generalize (match old with VTup m => m | _ => [] end). revert o. generalize (f :: fs) F. clear f fs F. intros fs F.
    induction F as [|(n, t) fs Ht F IH]; intros o cs; [apply agree_refl|]. cbn [mobj_loop]. cbn [snd] in Ht.
    apply agree_bind; [destruct (lookup n o); [|now right]|]; [apply agree_bind; [apply Ht|intros (c, x); apply agree_refl]|].
    intros (c, o1). apply agree_bind; [apply IH|]. intros (m, l1). apply agree_refl.
Qed.
Lemma archived_source : forall t c nd, has_type t c -> distinct t -> mgetExtr nd t (getArch t c) = Ok (c, getArch t c).
Proof.
  intros t c nd H D. unfold mgetExtr. destruct (archived t c false H) as (_ & E). unfold cgetExtr in E.
  destruct (proj2 (same_value false t _ _ c D) E) as (v' & M). destruct (source _ _ _ _ _ _ D M) as (S & _). rewrite (S eq_refl) in M.
  destruct nd; [|exact M]. destruct (mbuilds t (getArch t c) (fresh t)) as [G|G]; congruence.
Qed.
Lemma mshort_pair : forall nd a b l old, (length l < 2)%nat -> mextr nd (TyPair a b) (JArr l) old = UB.
Proof. intros nd a b l old L. destruct l as [|x [|y l]]; [reflexivity|reflexivity|cbn in L; lia]. Qed.
Lemma mshort_tuple : forall ts l old, distinct (TyTuple ts) -> (length l < length ts)%nat -> Forall2 (reads false) (firstn (length l) ts) l ->
  mextr true (TyTuple ts) (JArr l) old = UB /\ mextr true (TyStructArr ts) (JArr l) old = UB.
Proof.
  intros ts l old D L F. cbn [distinct] in D. apply dist_list in D.
  assert (G : forall m, marr_loop true ts l m = UB).
  { revert l L F. induction D as [|t ts Dt D IH]; intros l L F m; [cbn in L; lia|]. cbn [marr_loop]. destruct l as [|x l]; [reflexivity|].
    cbn [length firstn] in L, F. inversion F as [|? ? ? ? R F']; subst. destruct (proj2 (defined false t x (hd (fresh t) m)) R) as (c & E). cbn [negb] in E.
    destruct (proj2 (same_value true t _ _ c Dt) E) as (x' & E'). unfold asserted. cbn [orb]. rewrite E'. cbn [obind]. rewrite IH by (trivial; lia). reflexivity. }
  destruct ts as [|t ts]; [cbn in L; lia|]. split.
  - change (obind (mtup_loop true (t :: ts) l) (fun '(cs, l) => Ok (VTup cs, JArr l)) = UB). rewrite mtup_arr, G. reflexivity.
  - change (obind (marr_loop true (t :: ts) l (match old with VTup m => m | _ => [] end)) (fun '(cs, l) => Ok (VTup cs, JArr l)) = UB). rewrite G. reflexivity.
Qed.

(** ** The source, exactly *)
Section FILLED.
Fixpoint fill_list (ts : list ty) (l l' : list jval) {struct ts} : Prop :=
  match ts, l, l' with [], _, _ => l' = l | t :: ts, x :: l, x' :: l' => filled t x x' /\ fill_list ts l l' | _, _, _ => False end.
Section OO.
Context (o o' : list (bytes * jval)).
Fixpoint fill_fields (fs : list (bytes * ty)) : Prop :=
  match fs with
  | [] => True
  | (n, t) :: fs => ((exists x x', member o n x /\ member o' n x' /\ filled t x x') \/ (missing o n /\ member o' n JNll)) /\ fill_fields fs
  end.
End OO.
Definition fills (t : ty) : Prop := distinct t -> forall v old c v', mextr true t v old = Ok (c, v') -> filled t v v'.
Lemma fill_arr : forall ts, Forall fills ts -> Forall distinct ts -> forall l old cs l', marr_loop true ts l old = Ok (cs, l') -> fill_list ts l l'.
Proof.
  induction 1 as [|t ts Ht F IH]; intros D l old cs l' H; cbn [marr_loop] in H; [now injection H as <- <-|]. inversion D as [|? ? Dt D']; subst.
  destruct l as [|x l]; [discriminate|]. unfold asserted in H. cbn [orb] in H. destruct (mextr true t x (hd (fresh t) old)) as [(c, x1)| | |] eqn:E; try discriminate. cbn [obind] in H.
  destruct (marr_loop true ts l (tl old)) as [(cs1, l1)| | |] eqn:E'; try discriminate. cbn [obind] in H. injection H as <- <-. cbn [fill_list].
  split; [exact (Ht Dt _ _ _ _ E)|exact (IH D' _ _ _ _ E')].
Qed.
Lemma fill_pair : forall a b, fills a -> distinct a -> fills b -> distinct b -> forall e p e', mpair_of true a b e = Ok (p, e') ->
  exists x y r x' y', e = JArr (x :: y :: r) /\ e' = JArr (x' :: y' :: r) /\ filled a x x' /\ filled b y y'.
Proof.
  intros a b Fa Da Fb Db e p e' H. unfold mpair_of in H. destruct e as [o|l|s|z|b0|]; try discriminate. destruct l as [|x [|y r]]; try discriminate.
  unfold asserted in H. cbn [orb] in H. destruct (mextr true a x (fresh a)) as [(c, x1)| | |] eqn:E; try discriminate. cbn [obind] in H.
  destruct (mextr true b y (fresh b)) as [(d, y1)| | |] eqn:E'; try discriminate. cbn [obind] in H. injection H as <- <-.
  exists x, y, r, x1, y1. split; [reflexivity|]. split; [reflexivity|]. split; [exact (Fa Da _ _ _ _ E)|exact (Fb Db _ _ _ _ E')].
Qed.
Lemma fill_obj : forall fs, Forall (fun f => fills (snd f)) fs -> Forall (fun f => distinct (snd f)) fs -> NoDup (map fst fs) -> forall o old cs o',
  mobj_loop true fs o old = Ok (cs, o') -> (forall n, ~ In n (map fst fs) -> lookup n o' = lookup n o) /\ fill_fields o o' fs.
Proof.
  induction 1 as [|(n, t) fs Ht F IH]; intros D N o old cs o' H; cbn [mobj_loop] in H; [injection H as <- <-; split; [reflexivity|exact I]|].
  inversion D as [|? ? Dt D']; subst. cbn [snd] in Ht, Dt. cbn [map fst] in N |- *. inversion N as [|? ? Nn N']; subst.
  match type of H with obind ?m _ = _ => destruct m as [(c, o1)| | |] eqn:E; try discriminate end. cbn [obind] in H.
  destruct (mobj_loop true fs o1 (tl old)) as [(cs1, o2)| | |] eqn:E'; try discriminate. cbn [obind] in H. injection H as <- <-.
  destruct (IH D' N' _ _ _ _ E') as (G1 & G2).
  assert (S : (forall m, m <> n -> lookup m o1 = lookup m o) /\
    match lookup n o with Some x => exists x', lookup n o1 = Some x' /\ filled t x x' | None => lookup n o1 = Some JNll end).
  { destruct (lookup n o) as [x|] eqn:L.
    - destruct (mextr true t x (hd (fresh t) old)) as [(c', x')| | |] eqn:Em; try discriminate. cbn [obind] in E. injection E as <- <-. split.
      + intros m Ne. rewrite lookup_update, bytes_eqb_neq' by congruence. reflexivity.
      + exists x'. rewrite lookup_update, bytes_eqb_refl', L. split; [reflexivity|]. exact (Ht Dt _ _ _ _ Em).
    - unfold asserted in E. cbn [orb] in E. destruct (mextr true t JNll (hd (fresh t) old)) as [(c', x')| | |] eqn:Em; try discriminate. cbn [obind] in E. injection E as <- <-.
      destruct (source true t _ _ _ _ Dt Em) as (_ & G & _). inversion G; subst. split.
      + intros m Ne. rewrite lookup_set, bytes_eqb_neq' by congruence. reflexivity.
      + now rewrite lookup_set, bytes_eqb_refl'. }
  destruct S as (S1 & S2). split.
  - intros m I. rewrite G1 by (intros I'; apply I; now right). apply S1. intros ->. apply I. now left.
  - cbn [fill_fields]. split.
    + destruct (lookup n o) as [x|] eqn:L.
      * left. destruct S2 as (x' & L' & Fx). exists x, x'. split; [now apply lookup_member|]. split; [apply lookup_member; now rewrite (G1 n Nn)|exact Fx].
      * right. split; [now apply lookup_missing|]. apply lookup_member. now rewrite (G1 n Nn).
    + assert (G : forall gs, ~ In n (map fst gs) -> fill_fields o1 o2 gs -> fill_fields o o2 gs).
      { clear - S1. induction gs as [|(m, u) gs IHg]; [trivial|]. intros Ni (H1 & H2). cbn [map fst] in Ni. split; [|apply IHg; [intros I; apply Ni; now right|exact H2]].
        assert (Ne : m <> n) by (intros ->; apply Ni; now left). destruct H1 as [(x & x' & M1 & M2 & Fx)|(M1 & M2)].
        - left. exists x, x'. split; [|now split]. apply lookup_member. rewrite <- (S1 m Ne). now apply lookup_member.
        - right. split; [|exact M2]. apply lookup_missing. rewrite <- (S1 m Ne). now apply lookup_missing. }
      exact (G fs Nn G2).
Qed.
Lemma all_fill : forall t, fills t.
Proof.
  apply ty_nested.
  - intros t. destruct t; try exact I; intros D v old c v' H; cbn [filled]; match type of H with mextr true ?t _ _ = _ => change (obind (cextr true t v old) (fun c => Ok (c, v)) = Ok (c, v')) in H end;
      match type of H with obind ?m _ = _ => destruct m; try discriminate end; cbn [obind] in H; now injection H as <- <-.
  - intros a b Fa Fb (Da & Db) v old c v' H. cbn [filled].
    assert (G : exists p, mpair_of true a b v = Ok (p, v')).
    { cbn [mextr] in H. unfold mpair_of. destruct v as [o|l|s|z|b0|]; try discriminate. destruct l as [|x [|y r]]; try discriminate.
      destruct (asserted true (isNoNum a x) (mextr true a x (fresh a))) as [(c', x1)| | |]; try discriminate. cbn [obind] in H |- *.
      destruct (asserted true (isNoNum b y) (mextr true b y (fresh b))) as [(d, y1)| | |]; try discriminate. cbn [obind] in H |- *. injection H as <- <-. eauto. }
    destruct G as (p & G). exact (fill_pair a b Fa Da Fb Db v p v' G).
  - intros ts F D v old c v' H. apply dist_list in D. cbn [filled]. destruct ts as [|t ts]; [left; cbn [mextr] in H; now injection H as <- <-|]. right.
    destruct v as [o|l|s|z|b0|]; try discriminate.
    change (obind (mtup_loop true (t :: ts) l) (fun '(cs, l) => Ok (VTup cs, JArr l)) = Ok (c, v')) in H. rewrite mtup_arr in H.
    destruct (marr_loop true (t :: ts) l []) as [(cs, l1)| | |] eqn:E; try discriminate. cbn [obind] in H. injection H as <- <-. exists l, l1.
    split; [reflexivity|]. split; [reflexivity|]. exact (fill_arr _ F D _ _ _ _ E).
  - intros t Ft D v old c v' H. change (obind (cextr true (TyVec t) v old) (fun c => Ok (c, v)) = Ok (c, v')) in H. destruct (cextr true (TyVec t) v old); try discriminate.
    cbn [obind] in H. now injection H as <- <-.
  - intros a b Fa Fb (Da & Db) v old c v' H. cbn [filled]. destruct v as [o|l|s|z|b0|]; try (left; injection H as <- <-; split; [discriminate|reflexivity]). right.
    change (obind (mpairs_loop true a b l (match old with VMap m => m | _ => [] end)) (fun '(m, l) => Ok (VMap m, JArr l)) = Ok (c, v')) in H.
    destruct (mpairs_loop true a b l _) as [(m, l1)| | |] eqn:E; try discriminate. cbn [obind] in H. injection H as <- <-. exists l, l1. split; [reflexivity|]. split; [reflexivity|].
    revert E. generalize (match old with VMap m => m | _ => [] end). revert m l1. induction l as [|e l IH]; intros m l1 m0 E; cbn [mpairs_loop] in E; [injection E as <- <-; constructor|].
    destruct (noexcept (asserted true (isNoNum (TyPair a b) e) (mpair_of true a b e))) as [(p, e1)| | |] eqn:E1; try discriminate. cbn [obind] in E.
    destruct (mpairs_loop true a b l _) as [(m2, l2)| | |] eqn:E2; try discriminate. cbn [obind] in E. injection E as <- <-. constructor; [|exact (IH _ _ _ E2)].
    rewrite noexcept_ok in E1. unfold asserted in E1. cbn [orb] in E1. exact (fill_pair a b Fa Da Fb Db e p e1 E1).
  - intros ts F D v old c v' H. apply dist_list in D. cbn [filled]. destruct ts as [|t ts]; [left; cbn [mextr] in H; now injection H as <- <-|]. right.
    destruct v as [o|l|s|z|b0|]; try discriminate.
    change (obind (marr_loop true (t :: ts) l (match old with VTup cs => cs | _ => [] end)) (fun '(cs, l) => Ok (VTup cs, JArr l)) = Ok (c, v')) in H.
    destruct (marr_loop true (t :: ts) l _) as [(cs, l1)| | |] eqn:E; try discriminate. cbn [obind] in H. injection H as <- <-. exists l, l1.
    split; [reflexivity|]. split; [reflexivity|]. exact (fill_arr _ F D _ _ _ _ E).
  - intros fs F (N & D) v old c v' H. apply dist_fields in D. cbn [filled]. destruct fs as [|f fs]; [left; cbn [mextr] in H; now injection H as <- <-|]. right.
    destruct v as [o|l|s|z|b0|]; try discriminate.
    change (obind (mobj_loop true (f :: fs) o (match old with VTup cs => cs | _ => [] end)) (fun '(cs, o) => Ok (VTup cs, JObj o)) = Ok (c, v')) in H.
    destruct (mobj_loop true (f :: fs) o _) as [(cs, o1)| | |] eqn:E; try discriminate. cbn [obind] in H. injection H as <- <-. exists o, o1.
    split; [reflexivity|]. split; [reflexivity|]. destruct (fill_obj _ F D N _ _ _ _ E) as (G1 & G2). split; [|exact G2].
    intros n x I. rewrite <- !lookup_member. now rewrite (G1 n I).
Qed.
End FILLED.
Lemma filled_source : forall t v old c v', distinct t -> mextr true t v old = Ok (c, v') -> filled t v v'.
Proof. intros t v old c v' D H. exact (all_fill t D v old c v' H). Qed.
