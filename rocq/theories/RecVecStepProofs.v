(** Recycled vectors: every operation does to the memory what the plain lists say. *)
From Coq Require Import String Ascii ZArith NArith Arith Bool Lia List Permutation.
From Verif Require Import Common ListAux MemModel MemSpec MemProofs MemHeapProofs RecVecModel RecVecSpec RecVecProofs.
Import ListNotations.

Lemma nth_upd : forall {A} (l : list A) s x d g, s < length l -> nth g (upd l s x) d = if g =? s then x else nth g l d.
Proof.
  induction l as [|y l IH]; intros [|s] x d [|g] H; cbn in *; try lia; auto. apply IH. lia.
Qed.
Lemma upd_nth : forall {A} (l : list A) s x g, s < length l -> nth_error (upd l s x) g = if g =? s then Some x else nth_error l g.
Proof.
  intros. destruct (Nat.eqb_spec g s) as [->|N]; [apply upd_eq; assumption|apply upd_neq; congruence].
Qed.
Lemma F2_nth : forall {A B} (R : A -> B -> Prop) l m i, Forall2 R l m ->
  match nth_error l i, nth_error m i with Some a, Some b => R a b | None, None => True | _, _ => False end.
Proof. intros A B R l m i H. revert i. induction H; intros [|i]; cbn; auto. apply IHForall2. Qed.
Lemma F2_upd : forall {A B} (R : A -> B -> Prop) l m i a b, Forall2 R l m -> R a b -> Forall2 R (upd l i a) (upd m i b).
Proof. intros A B R l m i a b H Hab. revert i. induction H; intros [|i]; cbn; constructor; auto. Qed.
Lemma F2_len : forall {A B} (R : A -> B -> Prop) l m, Forall2 R l m -> length l = length m.
Proof. intros A B R l m H. induction H; cbn; auto. Qed.
Lemma F2_firstn : forall {A B} (R : A -> B -> Prop) l m i, Forall2 R l m -> Forall2 R (firstn i l) (firstn i m).
Proof. intros A B R l m i H. revert i. induction H; intros [|i]; cbn; constructor; auto. Qed.
Lemma F2_skipn : forall {A B} (R : A -> B -> Prop) l m i, Forall2 R l m -> Forall2 R (skipn i l) (skipn i m).
Proof. intros A B R l m i H. revert i. induction H; intros [|i]; cbn; auto. Qed.

Section Step.
  Context (kind : placement) (base : ty).
  Notation inv := (inv base).

  Lemma cells_frame : forall h h' l m, Forall2 (cell_rel h) l m ->
    (forall x, In x (flat_map blk l) -> nth_error h' x = nth_error h x) -> Forall2 (cell_rel h') l m.
  Proof.
    intros h h' l m H. induction H as [|p q l m R H IH]; intros F; constructor.
    - destruct p as [[s [pt k]]|], q as [[id hm]|]; cbn in *; auto.
      destruct R as [-> [b [t [f [-> [-> N]]]]]]. split; [reflexivity|]. exists b, t, f.
      split; [reflexivity|]. split; [reflexivity|]. rewrite F; [exact N|]. cbn. auto.
    - apply IH. intros x Hx. apply F. cbn [flat_map]. apply in_or_app. auto.
  Qed.
  Lemma vecs_frame : forall h h' l m, Forall2 (vec_rel h) l m ->
    (forall x, In x (flat_map vblk l) -> nth_error h' x = nth_error h x) -> Forall2 (vec_rel h') l m.
  Proof.
    intros h h' l m H. induction H as [|p q l m R H IH]; intros F; constructor.
    - destruct p as [v|], q as [[hm c]|]; cbn in *; auto. destruct R as [E R]. split; [exact E|].
      eapply cells_frame; [exact R|]. intros x Hx. apply F. apply in_or_app. auto.
    - apply IH. intros x Hx. apply F. cbn [flat_map]. apply in_or_app. auto.
  Qed.
  (** A live home has a table. *)
  Lemma home_table : forall w s el sl frs g, inv w s el sl frs ->
    if nth g (homes s) false
    then g < length (tables w) /\ exists c, nth_error (tables w) g = Some (Some c) /\ storeok base (wheap w) c (nth g frs [])
    else nth_error (tables w) g = None \/ nth_error (tables w) g = Some None.
  Proof.
    intros w s el sl frs g I. pose proof (v_tab _ _ _ _ _ _ I g) as T. pose proof (v_len1 _ _ _ _ _ _ I) as L.
    destruct (nth g (homes s) false) eqn:N.
    - assert (Lg : g < length (homes s)).
      { destruct (le_lt_dec (length (homes s)) g) as [H|H]; [|exact H]. rewrite nth_overflow in N by exact H. discriminate. }
      split; [lia|]. destruct (nth_error (tables w) g) as [[c|]|] eqn:E.
      + exists c. split; [reflexivity|]. exact (proj2 (T _ eq_refl)).
      + destruct (T _ eq_refl) as [X _]. discriminate.
      + apply nth_error_None in E. lia.
    - destruct (nth_error (tables w) g) as [[c|]|] eqn:E; auto. destruct (T _ eq_refl) as [X _]. discriminate.
  Qed.
  Lemma tabs_upd : forall h h' (ts : list (option table)) (hs hs' : list bool) frs g c' fr',
    length ts = length hs -> length ts = length frs -> g < length ts ->
    (forall i c, nth_error ts i = Some c -> tab_rel base h c (nth i hs false) (nth i frs [])) ->
    tab_rel base h' c' (nth g hs' false) fr' ->
    (forall i, i <> g -> nth i hs' false = nth i hs false) ->
    (forall i x, i <> g -> In x (sblk (nth i frs [])) -> nth_error h' x = nth_error h x) ->
    forall i c, nth_error (upd ts g c') i = Some c -> tab_rel base h' c (nth i hs' false) (nth i (upd frs g fr') []).
  Proof.
    intros h h' ts hs hs' frs g c' fr' L1 L2 Lg T R Hh F i c E.
    rewrite upd_nth in E by exact Lg. rewrite nth_upd by lia.
    destruct (Nat.eqb_spec i g) as [->|N].
    - injection E as <-. exact R.
    - rewrite Hh by exact N. specialize (T i c E). destruct c as [c|]; [|exact T].
      destruct T as [T1 T2]. split; [exact T1|]. eapply store_frame; [exact T2|]. intros x. apply F. exact N.
  Qed.
  Lemma free_le : forall frs g x, cnt x (sblk (nth g frs [])) <= cnt x (flat_map sblk frs).
  Proof.
    intros frs g x. destruct (nth_error frs g) as [fr|] eqn:E.
    - rewrite (nth_error_nth _ _ _ E). exact (cnt_nth sblk x frs g fr E).
    - apply nth_error_None in E. rewrite nth_overflow by exact E. cbn. lia.
  Qed.
  Lemma free_le2 : forall frs g i x, g <> i -> g < length frs ->
    cnt x (sblk (nth g frs [])) + cnt x (sblk (nth i frs [])) <= cnt x (flat_map sblk frs).
  Proof.
    intros frs g i x N Lg. destruct (nth_error frs g) as [fr|] eqn:E; [|apply nth_error_None in E; lia].
    rewrite (nth_error_nth _ _ _ E). destruct (nth_error frs i) as [fi|] eqn:E2.
    - rewrite (nth_error_nth _ _ _ E2). exact (cnt_nth2 sblk x frs g i fr fi E E2 N).
    - apply nth_error_None in E2. rewrite (nth_overflow _ _ E2). cbn. pose proof (cnt_nth sblk x frs g fr E). lia.
  Qed.
  Lemma free_upd : forall frs g fr' x, g < length frs ->
    cnt x (flat_map sblk (upd frs g fr')) + cnt x (sblk (nth g frs [])) = cnt x (flat_map sblk frs) + cnt x (sblk fr').
  Proof.
    intros frs g fr' x Lg. destruct (nth_error frs g) as [fr|] eqn:E; [|apply nth_error_None in E; lia].
    rewrite (nth_error_nth _ _ _ E). exact (cnt_upd sblk x frs g fr fr' E).
  Qed.

  Lemma drop_ok : forall w s p q el sl frs, inv w s (p :: el) (q :: sl) frs ->
    match bury q s with
    | Some s' => exists w' frs', drop base p w = Ok w' /\ inv w' s' el sl frs' /\ vecs w' = vecs w /\ plain s' = plain s
                                 /\ homes s' = homes s
    | None => drop base p w = UB
    end.
  Proof.
    intros w s p q el sl frs I. pose proof I as [I1 I2 I3 I4 I5 I6 I7 I8 I9 I10 I11].
    inversion I5 as [|? ? ? ? R I5']; subst.
    destruct p as [[g [pt k]]|], q as [[id hm]|]; cbn in R; try contradiction.
    2:{ cbn. exists w, frs. split; [reflexivity|]. split; [|auto]. constructor; auto. }
    destruct R as [-> [b [t [f [-> [-> N]]]]]]. cbn [bury drop].
    pose proof (home_table _ _ _ _ _ hm I) as HT. destruct (nth hm (homes s) false) eqn:Hm.
    2:{ destruct HT as [E|E]; rewrite E; reflexivity. }
    destruct HT as [Lg [c [E S0]]]. rewrite E.
    assert (Lb : b < length (wheap w)) by (apply nth_error_Some; congruence).
    assert (CB : forall x, cnt x (flat_map vblk (vecs w)) + (cnt x [b] + cnt x (flat_map blk el)) + cnt x (flat_map sblk frs)
                      + cnt x (deallocs (wtrace w)) = if x <? length (wheap w) then 1 else 0).
    { intros x. rewrite <- I6. cbn [flat_map blk]. rewrite cnt_app. reflexivity. }
    assert (CBb := CB b). rewrite cnt_cons, cnt_nil, Nat.eqb_refl in CBb.
    assert (Tb : (b <? length (wheap w)) = true) by (apply Nat.ltb_lt; exact Lb). rewrite Tb in CBb.
    assert (NI : ~ In b (sblk (nth hm frs []))).
    { rewrite cnt_in. pose proof (free_le frs hm b). lia. }
    destruct (recycle_framed base (wheap w) c (wtrace w) t f id b _ S0 N NI) as [m' [fr' [E' [T' [L' [F' [C' S']]]]]]].
    match goal with |- context [obind ?e _] => replace e with (Ok m') by (symmetry; exact E') end. cbn [obind].
    eexists _, (upd frs hm fr'). split; [reflexivity|]. split; [|cbn; auto].
    constructor; cbn [set_table wheap wtrace tables vecs count homes plain born died].
    - rewrite upd_length. exact I1.
    - rewrite !upd_length. exact I2.
    - eapply (tabs_upd (wheap w)); try eassumption; [rewrite Hm; split; [reflexivity|exact S']|reflexivity|].
      intros i x Ni Hx. apply F'. intros ->. apply cnt_in in Hx. pose proof (free_le frs i b). lia.
    - eapply vecs_frame; [exact I4|]. intros x Hx. apply F'. intros ->. apply cnt_in in Hx. lia.
    - eapply cells_frame; [exact I5'|]. intros x Hx. apply F'. intros ->. apply cnt_in in Hx. lia.
    - intros x. rewrite L', T', deallocs_app. change (deallocs [EDtor id]) with (@nil nat). rewrite app_nil_r.
      pose proof (free_upd frs hm fr' x ltac:(lia)) as U. rewrite C' in U. specialize (CB x). lia.
    - exact I7.
    - rewrite L', T', allocs_app. cbn [allocs flat_map app]. rewrite app_nil_r. exact I8.
    - rewrite T', ctors_app. cbn [ctors flat_map app]. rewrite app_nil_r. exact I9.
    - rewrite T', dtors_app, I10. reflexivity.
    - exact I11.
  Qed.

  Lemma drop_all_ok : forall l w s q el sl frs, inv w s (l ++ el) (q ++ sl) frs -> length l = length q ->
    match bury_all q s with
    | Some s' => exists w' frs', drop_all base l w = Ok w' /\ inv w' s' el sl frs' /\ vecs w' = vecs w /\ plain s' = plain s
                                 /\ homes s' = homes s
    | None => drop_all base l w = UB
    end.
  Proof.
    induction l as [|p l IH]; intros w s [|q m] el sl frs I L; cbn in L; try discriminate.
    - cbn. exists w, frs. auto.
    - cbn [app] in I. pose proof (drop_ok _ _ _ _ _ _ _ I) as D. cbn [bury_all drop_all].
      destruct (bury q s) as [s1|]; [|rewrite D; reflexivity].
      destruct D as [w1 [frs1 [E1 [I1 [V1 [P1 H1]]]]]]. rewrite E1. cbn [obind].
      pose proof (IH w1 s1 m el sl frs1 I1 ltac:(lia)) as D2.
      destruct (bury_all m s1) as [s2|]; [|exact D2].
      destruct D2 as [w2 [frs2 [E2 [I2 [V2 [P2 H2]]]]]]. exists w2, frs2.
      split; [exact E2|]. split; [exact I2|]. split; [congruence|]. split; congruence.
  Qed.

  (** *** Looking at a vector *)
  Lemma vec_at : forall w s el sl frs v, inv w s el sl frs ->
    match the_vec s v with
    | Some (h, l) => exists x, nth_error (vecs w) v = Some (Some x) /\ own x = h /\ Forall2 (cell_rel (wheap w)) (cells x) l
        /\ v < length (vecs w) /\ nth h (homes s) false = true
    | None => get_vec w v = UB
    end.
  Proof.
    intros w s el sl frs v I. pose proof (F2_nth _ _ _ v (v_vec _ _ _ _ _ _ I)) as F. unfold the_vec, get_vec.
    destruct (nth_error (vecs w) v) as [[x|]|] eqn:E, (nth_error (plain s) v) as [[[h l]|]|]; cbn in F; try contradiction; auto.
    destruct F as [<- F]. exists x. split; [reflexivity|]. split; [reflexivity|]. split; [exact F|].
    split; [apply nth_error_Some; congruence|].
    pose proof (v_own _ _ _ _ _ _ I (own x)) as O. pose proof (cnt_nth vown (own x) _ _ _ E) as C.
    cbn [vown] in C. rewrite cnt_cons, cnt_nil, Nat.eqb_refl in C. destruct (nth (own x) (homes s) false); [reflexivity|lia].
  Qed.
  (** Taking pointers out of a vector and putting others in: flying pointers [el] become [el']. *)
  Lemma inv_set_vec : forall w s el sl frs v x l h ys ms el' sl', inv w s el sl frs ->
    nth_error (vecs w) v = Some (Some x) -> own x = h ->
    Forall2 (cell_rel (wheap w)) ys ms -> Forall2 (cell_rel (wheap w)) el' sl' ->
    (forall z, cnt z (flat_map blk ys) + cnt z (flat_map blk el') = cnt z (flat_map blk (cells x)) + cnt z (flat_map blk el)) ->
    the_vec s v = Some (h, l) ->
    inv (set_vec w v (Some {| own := own x; cells := ys |})) (with_vec s v (Some (h, ms))) el' sl' frs.
  Proof.
    intros w s el sl frs v x l h ys ms el' sl' I E O Y Z C _. pose proof I as [I1 I2 I3 I4 I5 I6 I7 I8 I9 I10 I11].
    constructor; cbn [set_vec with_vec wheap wtrace tables vecs count homes plain born died]; auto.
    - refine (F2_upd _ _ _ _ _ _ I4 _). split; [exact O|exact Y].
    - intros z. rewrite <- I6. pose proof (cnt_upd vblk z _ _ _ (Some {| own := own x; cells := ys |}) E) as U.
      cbn [vblk cells] in U. specialize (C z). lia.
    - intros g. rewrite <- I7. pose proof (cnt_upd vown g _ _ _ (Some {| own := own x; cells := ys |}) E) as U.
      cbn [vown own] in U. lia.
  Qed.
  Lemma blk_upd : forall l i p r z, nth_error l i = Some p ->
    cnt z (flat_map blk (upd l i r)) + cnt z (blk p) = cnt z (flat_map blk l) + cnt z (blk r).
  Proof. intros. apply (cnt_upd blk). assumption. Qed.
  Lemma set_get : forall w v x, v < length (vecs w) -> get_vec (set_vec w v (Some x)) v = Ok x.
  Proof. intros. unfold get_vec. cbn [set_vec vecs]. rewrite upd_eq by assumption. reflexivity. Qed.

  Definition simulates (ow : outcome world) (os : option plainw) : Prop :=
    match os with
    | Some s' => exists w' frs', ow = Ok w' /\ inv w' s' [] [] frs'
    | None => ow = UB
    end.

  Lemma new_sim : forall w s frs, inv w s [] [] frs ->
    simulates (rv_new w) (plain_step kind VNew s).
  Proof.
    intros w s frs I. pose proof I as [I1 I2 I3 I4 I5 I6 I7 I8 I9 I10 I11]. cbn [plain_step simulates].
    eexists _, (frs ++ [[]]). split; [reflexivity|].
    constructor; cbn [wheap wtrace tables vecs count homes plain born died]; auto.
    - rewrite !app_length. cbn [length]. lia.
    - rewrite !app_length. cbn [length]. lia.
    - intros h c E. destruct (Nat.lt_ge_cases h (length (tables w))) as [L|L].
      + rewrite nth_error_app1 in E by exact L. rewrite !app_nth1 by lia. auto.
      + rewrite nth_error_app2 in E by exact L. destruct (h - length (tables w)) as [|d] eqn:D; cbn in E; [|destruct d; discriminate].
        injection E as <-. rewrite !app_nth2 by lia. replace (h - length (homes s)) with 0 by lia.
        replace (h - length frs) with 0 by lia. cbn. split; [reflexivity|]. split; [reflexivity|]. split; [constructor|].
        intros k. constructor.
    - apply Forall2_app; [exact I4|]. constructor; [|constructor]. split; [exact I1|constructor].
    - intros x. rewrite !flat_map_app, !cnt_app, <- I6. cbn. lia.
    - intros h. rewrite flat_map_app, cnt_app, I7. cbn [flat_map vown own app]. rewrite cnt_cons, cnt_nil.
      destruct (Nat.eqb_spec h (length (tables w))) as [->|N].
      + rewrite (nth_overflow (homes s)) by lia. rewrite app_nth2 by lia. replace (_ - _) with 0 by lia. reflexivity.
      + destruct (Nat.lt_ge_cases h (length (homes s))) as [L|L].
        * rewrite app_nth1 by exact L. lia.
        * rewrite (nth_overflow (homes s)) by lia. rewrite nth_overflow by (rewrite app_length; cbn; lia). reflexivity.
  Qed.

  Lemma create_at_sim : forall w s frs v i t, inv w s [] [] frs ->
    simulates (rv_create_at v i t w) (insert_new s v i).
  Proof.
    intros w s frs v i t I. pose proof I as [I1 I2 I3 I4 I5 I6 I7 I8 I9 I10 I11].
    unfold insert_new, rv_create_at. pose proof (vec_at _ _ _ _ _ v I) as V.
    destruct (the_vec s v) as [[h l]|]; [|cbn; rewrite V; reflexivity].
    destruct V as [x [E [O [R [Lv Al]]]]]. unfold get_vec. rewrite E. cbn [obind].
    pose proof (home_table _ _ _ _ _ h I) as HT. rewrite Al in HT. destruct HT as [Lg [c [Et S0]]].
    rewrite O, Et. rewrite (F2_len _ _ _ R). destruct (i <=? length l) eqn:Li; [|reflexivity].
    assert (ND : forall z, cnt z (sblk (nth h frs [])) <= 1).
    { intros z. pose proof (free_le frs h z). pose proof (I6 z) as Q. destruct (z <? length (wheap w)); lia. }
    destruct (create_framed base (wheap w) c (wtrace w) t (count w) _ S0 ND)
      as [m' [b [fr' [new [E' [New [L' [A' [D' [C' [Dt [Cn [Nb [F' S']]]]]]]]]]]]]].
    match goal with |- context [obind ?e _] => let T := type of e in replace e with (Ok (m', ((b, 0), size t)) : T) by (symmetry; exact E') end.
    cbn [obind simulates].
    assert (CB : forall z, cnt z new + (if z <? length (wheap w) then 1 else 0) = if z <? length (heap m') then 1 else 0).
    { intros z. rewrite L'. destruct New as [->| ->]; cbn [length]; rewrite ?cnt_cons, ?cnt_nil.
      - rewrite Nat.add_0_r. reflexivity.
      - destruct (Nat.eqb_spec z (length (wheap w))), (Nat.ltb_spec z (length (wheap w))), (Nat.ltb_spec z (length (wheap w) + 1)); lia. }
    (* the new block is none of those in use *)
    assert (Fb : cnt b (flat_map vblk (vecs w)) = 0 /\ forall g, g <> h -> cnt b (sblk (nth g frs [])) = 0).
    { pose proof (Cn b) as Cb. rewrite cnt_cons, cnt_nil, Nat.eqb_refl in Cb. pose proof (I6 b) as Ib.
      pose proof (CB b) as CBb. pose proof (free_le frs h b). split.
      - destruct (b <? length (heap m')), (b <? length (wheap w)); lia.
      - intros g Ng. pose proof (free_le2 frs h g b ltac:(lia) ltac:(lia)).
        destruct (b <? length (heap m')), (b <? length (wheap w)); lia. }
    destruct Fb as [Fb1 Fb2].
    assert (Lt : forall z, 0 < cnt z (flat_map vblk (vecs w)) + cnt z (flat_map sblk frs) -> z < length (wheap w)).
    { intros z Hz. apply Nat.ltb_lt. pose proof (I6 z) as Q. destruct (z <? length (wheap w)); [reflexivity|lia]. }
    assert (R' : Forall2 (cell_rel (heap m')) (cells x) l).
    { eapply cells_frame; [exact R|]. intros z Hz. apply cnt_in in Hz.
      pose proof (cnt_nth vblk z _ _ _ E) as Q. cbn [vblk] in Q. apply F'; [intros ->; lia|]. apply Lt. lia. }
    eexists _, (upd frs h fr'). split; [reflexivity|].
    constructor; cbn [set_vec set_table wheap wtrace tables vecs count homes plain born died].
    - rewrite upd_length. exact I1.
    - rewrite !upd_length. exact I2.
    - eapply (tabs_upd (wheap w)); try eassumption; [rewrite Al; split; [reflexivity|exact S']|reflexivity|].
      intros g z Ng Hz. apply cnt_in in Hz. apply F'; [intros ->; rewrite (Fb2 g Ng) in Hz; lia|].
      apply Lt. pose proof (free_le frs g z). lia.
    - refine (F2_upd _ _ _ _ _ _ _ _).
      + eapply vecs_frame; [exact I4|]. intros z Hz. apply cnt_in in Hz. apply F'; [intros ->; lia|]. apply Lt. lia.
      + split; [reflexivity|]. cbn [cells]. apply Forall2_app; [apply F2_firstn; exact R'|]. constructor; [|apply F2_skipn; exact R'].
        cbn [cell_rel]. rewrite <- I11. split; [reflexivity|]. exists b, t, true. auto.
    - constructor.
    - intros z. rewrite D', <- CB, <- I6. cbn [flat_map]. rewrite cnt_nil.
      match goal with |- context [upd (vecs w) v ?y] => pose proof (cnt_upd vblk z _ _ _ y E) as U end.
      cbn [vblk cells] in U. rewrite flat_map_app in U. cbn [flat_map blk] in U. rewrite !cnt_app in U.
      pose proof (free_upd frs h fr' z ltac:(lia)) as U2. pose proof (Cn z) as Cz.
      assert (Q : cnt z (flat_map blk (cells x)) = cnt z (flat_map blk (firstn i (cells x))) + cnt z (flat_map blk (skipn i (cells x)))).
      { rewrite <- cnt_app, <- flat_map_app, firstn_skipn. reflexivity. }
      lia.
    - intros g. rewrite <- I7. match goal with |- context [upd (vecs w) v ?y] => pose proof (cnt_upd vown g _ _ _ y E) as U end.
      cbn [vown own] in U. rewrite O in U. lia.
    - rewrite A', I8, L'. destruct New as [->| ->]; cbn [length]; [rewrite app_nil_r, Nat.add_0_r; reflexivity|].
      rewrite Nat.add_1_r, seq_S. reflexivity.
    - rewrite C', I9, I11, seq_S. reflexivity.
    - rewrite Dt. exact I10.
    - rewrite I11. reflexivity.
  Qed.

  Lemma create_sim : forall w s frs v t, inv w s [] [] frs ->
    simulates (rv_create v t w) (plain_step kind (VCreate v t) s).
  Proof.
    intros w s frs v t I. cbn [plain_step]. unfold rv_create. pose proof (vec_at _ _ _ _ _ v I) as V.
    destruct (the_vec s v) as [[h l]|]; [|cbn; rewrite V; reflexivity].
    destruct V as [x [E [O [R [Lv Al]]]]]. unfold get_vec. rewrite E. cbn [obind].
    rewrite (F2_len _ _ _ R). eapply create_at_sim. exact I.
  Qed.

  Lemma reset_sim : forall w s frs v i, inv w s [] [] frs ->
    simulates (rv_reset base v i w) (plain_step kind (VReset v i) s).
  Proof.
    intros w s frs v i I. cbn [plain_step]. unfold rv_reset. pose proof (vec_at _ _ _ _ _ v I) as V.
    destruct (the_vec s v) as [[h l]|] eqn:TV; [|cbn; rewrite V; reflexivity].
    destruct V as [x [E [O [R [Lv Al]]]]]. unfold get_vec. rewrite E. cbn [obind].
    pose proof (F2_nth _ _ _ i R) as Ri. destruct (nth_error (cells x) i) as [p|] eqn:Ep, (nth_error l i) as [q|]; try contradiction; [|reflexivity].
    assert (J : inv (set_vec w v (Some {| own := own x; cells := upd (cells x) i None |})) (with_vec s v (Some (h, put l i None))) [p] [q] frs).
    { eapply inv_set_vec; try eassumption.
      - refine (F2_upd _ _ _ _ _ _ R _). exact Logic.I.
      - constructor; [exact Ri|constructor].
      - intros z. cbn [flat_map]. rewrite app_nil_r, cnt_nil. pose proof (blk_upd _ _ _ None z Ep) as B. cbn [blk] in B. rewrite cnt_nil in B. lia. }
    pose proof (drop_ok _ _ _ _ _ _ _ J) as D. unfold simulates. destruct (bury q _); [|exact D].
    destruct D as [w' [frs' [D1 [D2 _]]]]. eauto.
  Qed.

  Lemma give_sim : forall w s frs v i v2 j, inv w s [] [] frs ->
    simulates (rv_give base v i v2 j w) (plain_step kind (VGive v i v2 j) s).
  Proof.
    intros w s frs v i v2 j I. cbn [plain_step]. unfold rv_give. pose proof (vec_at _ _ _ _ _ v I) as V.
    destruct (the_vec s v) as [[h l]|] eqn:TV; [|cbn; rewrite V; reflexivity].
    destruct V as [x [E [O [R [Lv Al]]]]]. unfold get_vec at 1. rewrite E. cbn [obind].
    pose proof (F2_nth _ _ _ i R) as Ri. destruct (nth_error (cells x) i) as [p|] eqn:Ep, (nth_error l i) as [q|]; try contradiction; [|reflexivity].
    assert (J : inv (set_vec w v (Some {| own := own x; cells := upd (cells x) i None |})) (with_vec s v (Some (h, put l i None))) [p] [q] frs).
    { eapply inv_set_vec; try eassumption.
      - refine (F2_upd _ _ _ _ _ _ R _). exact Logic.I.
      - constructor; [exact Ri|constructor].
      - intros z. cbn [flat_map]. rewrite app_nil_r, cnt_nil. pose proof (blk_upd _ _ _ None z Ep) as B. cbn [blk] in B. rewrite cnt_nil in B. lia. }
    cbv zeta. set (w1 := set_vec w v _) in *. set (s1 := with_vec s v _) in *. clearbody w1 s1.
    pose proof (vec_at _ _ _ _ _ v2 J) as V2.
    destruct (the_vec s1 v2) as [[h2 l2]|] eqn:TV2; [|rewrite V2; reflexivity].
    destruct V2 as [y [E2 [O2 [R2 [Lv2 Al2]]]]]. unfold get_vec. rewrite E2. cbn [obind].
    pose proof (F2_nth _ _ _ j R2) as Rj. destruct (nth_error (cells y) j) as [old|] eqn:Eo, (nth_error l2 j) as [oq|]; try contradiction; [|reflexivity].
    pose proof (v_fly _ _ _ _ _ _ J) as Fp. inversion Fp as [|? ? ? ? Rp _]; subst.
    assert (K : inv (set_vec w1 v2 (Some {| own := own y; cells := upd (cells y) j p |})) (with_vec s1 v2 (Some (own y, put l2 j q))) [old] [oq] frs).
    { eapply inv_set_vec; [exact J|exact E2|reflexivity| | | |exact TV2].
      - refine (F2_upd _ _ _ _ _ _ R2 Rp).
      - constructor; [exact Rj|constructor].
      - intros z. cbn [flat_map]. rewrite !app_nil_r. pose proof (blk_upd _ _ _ p z Eo) as B. lia. }
    pose proof (drop_ok _ _ _ _ _ _ _ K) as D. unfold simulates. destruct (bury oq _); [|exact D].
    destruct D as [w' [frs' [D1 [D2 _]]]]. eauto.
  Qed.

  Lemma clear_full : forall w s frs v h l, inv w s [] [] frs -> the_vec s v = Some (h, l) ->
    match bury_all l (with_vec s v (Some (h, []))) with
    | Some s' => exists w' frs', rv_clear base v w = Ok w' /\ inv w' s' [] [] frs' /\ the_vec s' v = Some (h, []) /\ homes s' = homes s
    | None => rv_clear base v w = UB
    end.
  Proof.
    intros w s frs v h l I TV. unfold rv_clear. pose proof (vec_at _ _ _ _ _ v I) as V. rewrite TV in V.
    destruct V as [x [E [O [R [Lv Al]]]]]. unfold get_vec. rewrite E. cbn [obind].
    assert (J : inv (set_vec w v (Some {| own := own x; cells := [] |})) (with_vec s v (Some (h, []))) (cells x ++ []) (l ++ []) frs).
    { eapply inv_set_vec; try eassumption; rewrite ?app_nil_r; [constructor|exact R|].
      intros z. cbn [flat_map]. rewrite cnt_nil. lia. }
    pose proof (drop_all_ok _ _ _ _ _ _ _ J (F2_len _ _ _ R)) as D.
    destruct (bury_all l _) as [s'|]; [|exact D]. destruct D as [w' [frs' [D1 [D2 [D3 [D4 D5]]]]]].
    exists w', frs'. split; [exact D1|]. split; [exact D2|]. split; [|exact D5].
    unfold the_vec. rewrite D4. cbn [with_vec plain].
    change (put (plain s) v (Some (h, []))) with (upd (plain s) v (Some (h, @nil (option obj)))).
    rewrite upd_eq; [reflexivity|]. rewrite <- (F2_len _ _ _ (v_vec _ _ _ _ _ _ I)). exact Lv.
  Qed.
  Lemma clear_sim : forall w s frs v, inv w s [] [] frs ->
    simulates (rv_clear base v w) (plain_step kind (VClear v) s).
  Proof.
    intros w s frs v I. cbn [plain_step]. destruct (the_vec s v) as [[h l]|] eqn:TV.
    - pose proof (clear_full _ _ _ _ _ _ I TV) as C. unfold simulates. destruct (bury_all l _); [|exact C].
      destruct C as [w' [frs' [C1 [C2 _]]]]. eauto.
    - pose proof (vec_at _ _ _ _ _ v I) as V. rewrite TV in V. cbn. unfold rv_clear. rewrite V. reflexivity.
  Qed.

  Lemma destroy_sim : forall w s frs v, inv w s [] [] frs ->
    simulates (rv_destroy base v w) (plain_step kind (VDestroy v) s).
  Proof.
    intros w s frs v I. cbn [plain_step]. unfold rv_destroy. pose proof (vec_at _ _ _ _ _ v I) as V.
    destruct (the_vec s v) as [[h l]|] eqn:TV; [|cbn; rewrite V; reflexivity].
    destruct V as [x0 [E0 [O0 _]]]. unfold get_vec. rewrite E0. cbn [obind]. rewrite O0. clear x0 E0 O0.
    pose proof (clear_full _ _ _ _ _ _ I TV) as C. destruct (bury_all l _) as [s1|]; [|rewrite C; reflexivity].
    destruct C as [w1 [frs1 [C1 [J [TV1 H1]]]]]. rewrite C1. cbn [obind]. clear w frs I TV C1 H1 s. rename w1 into w, s1 into s, frs1 into frs.
    pose proof J as [I1 I2 I3 I4 I5 I6 I7 I8 I9 I10 I11].
    pose proof (vec_at _ _ _ _ _ v J) as V. rewrite TV1 in V. destruct V as [x [E [O [R [Lv Al]]]]].
    inversion R as [Ec|]; subst.
    pose proof (home_table _ _ _ _ _ (own x) J) as HT. rewrite Al in HT. destruct HT as [Lg [c [Et S0]]]. rewrite Et.
    assert (ND : forall z, cnt z (sblk (nth (own x) frs [])) <= 1).
    { intros z. pose proof (free_le frs (own x) z). pose proof (I6 z) as Q. destruct (z <? length (wheap w)); lia. }
    destruct (destroy_framed base (wheap w) c (wtrace w) _ S0 ND) as [m' [E' [T' [L' F']]]].
    match goal with |- context [obind ?e _] => replace e with (Ok m') by (symmetry; exact E') end. cbn [obind simulates].
    eexists _, (upd frs (own x) []). split; [reflexivity|].
    assert (LB : forall z, cnt z (flat_map vblk (vecs w)) + cnt z (flat_map sblk frs) <= 1).
    { intros z. pose proof (I6 z) as Q. destruct (z <? length (wheap w)); lia. }
    constructor; cbn [set_vec set_table wheap wtrace tables vecs count homes plain born died].
    - change (@put bool) with (@upd bool). rewrite !upd_length. exact I1.
    - rewrite !upd_length. exact I2.
    - change (@put bool) with (@upd bool).
      eapply (tabs_upd (wheap w)); try eassumption.
      + rewrite nth_upd, Nat.eqb_refl by lia. split; reflexivity.
      + intros i Ni. rewrite nth_upd by lia. apply Nat.eqb_neq in Ni. rewrite Ni. reflexivity.
      + intros i z Ni Hz. apply F'. rewrite cnt_in. apply cnt_in in Hz.
        pose proof (free_le2 frs i (own x) z Ni) as Q. pose proof (LB z).
        destruct (Nat.lt_ge_cases i (length frs)) as [Li|Li]; [specialize (Q Li); lia|].
        rewrite nth_overflow in Hz by exact Li. cbn in Hz. lia.
    - refine (F2_upd _ _ _ _ _ _ _ _); [|exact Logic.I]. eapply vecs_frame; [exact I4|]. intros z Hz. apply F'.
      rewrite cnt_in. apply cnt_in in Hz. pose proof (LB z). pose proof (free_le frs (own x) z). lia.
    - constructor.
    - intros z. rewrite L', T', deallocs_app, deallocs_dealloc, cnt_app, <- I6.
      pose proof (free_upd frs (own x) [] z ltac:(lia)) as U. change (sblk []) with (@nil nat) in U. rewrite cnt_nil in U.
      pose proof (cnt_upd vblk z _ _ _ None E) as U2. cbn [vblk] in U2. rewrite <- Ec in U2. cbn [flat_map] in *. rewrite cnt_nil in *. lia.
    - intros g. pose proof (cnt_upd vown g _ _ _ None E) as U. cbn [vown] in U. rewrite cnt_cons, !cnt_nil, I7 in U.
      change (@put bool) with (@upd bool). rewrite nth_upd by lia.
      revert U. destruct (Nat.eqb_spec g (own x)) as [Eg|Ng]; intros U; [rewrite Eg, Al in U; rewrite Eg; lia|lia].
    - rewrite L', T', allocs_app, allocs_dealloc, app_nil_r. exact I8.
    - rewrite T', ctors_app, ctors_dealloc, app_nil_r. exact I9.
    - rewrite T', dtors_app, dtors_dealloc, app_nil_r. exact I10.
    - exact I11.
  Qed.

  Lemma fst_none : forall (c : table), map fst (map (fun kp => (fst kp, @None ptr)) c) = map fst c.
  Proof. intros. rewrite map_map. reflexivity. Qed.
  Lemma get_none : forall (c : table) k, chunk_get (map (fun kp => (fst kp, None)) c) k = None.
  Proof. induction c as [|[k' p] c IH]; intros k; cbn; [reflexivity|]. destruct (k =? k'); auto. Qed.
  Lemma empty_fr : forall (fr : list (nat * list nat)) k, fget (map (fun kl => (fst kl, @nil nat)) fr) k = [].
  Proof.
    unfold fget. induction fr as [|[k' l] fr IH]; intros k; cbn; [reflexivity|]. destruct (k' =? k); cbn; auto.
  Qed.
  Lemma empty_sblk : forall (fr : list (nat * list nat)), sblk (map (fun kl => (fst kl, @nil nat)) fr) = [].
  Proof. unfold sblk. induction fr; cbn; auto. Qed.

  Lemma move_sim : forall w s frs v, inv w s [] [] frs ->
    simulates (rv_move kind v w) (plain_step kind (VMove v) s).
  Proof.
    intros w s frs v I. pose proof I as [I1 I2 I3 I4 I5 I6 I7 I8 I9 I10 I11]. cbn [plain_step]. unfold rv_move.
    pose proof (vec_at _ _ _ _ _ v I) as V.
    destruct (the_vec s v) as [[h l]|] eqn:TV; [|cbn; rewrite V; reflexivity].
    destruct V as [x [E [O [R [Lv Al]]]]]. unfold get_vec. rewrite E. cbn [obind].
    pose proof (home_table _ _ _ _ _ h I) as HT. rewrite Al in HT. destruct HT as [Lg [c [Et S0]]]. rewrite O, Et.
    assert (NS : forall g, nth g (homes s ++ [true]) false = if g =? length (homes s) then true else nth g (homes s) false).
    { intros g. destruct (Nat.eqb_spec g (length (homes s))) as [->|N].
      - rewrite app_nth2, Nat.sub_diag by lia. reflexivity.
      - destruct (Nat.lt_ge_cases g (length (homes s))) as [L|L]; [apply app_nth1; exact L|].
        rewrite !nth_overflow; rewrite ?app_length; cbn [length]; try lia; reflexivity. }
    assert (NH : nth (length (homes s)) (homes s) false = false) by (apply nth_overflow; lia).
    destruct kind; cbn [simulates].
    - (* the map's nodes travel *)
      eexists _, (frs ++ [[]]). split; [reflexivity|].
      constructor; cbn [set_vec wheap wtrace tables vecs count homes plain born died]; auto.
      + rewrite !app_length. cbn [length]. lia.
      + rewrite !app_length. cbn [length]. lia.
      + intros g d Eg. rewrite NS. destruct (Nat.lt_ge_cases g (length (tables w))) as [L|L].
        * rewrite nth_error_app1 in Eg by exact L. rewrite app_nth1 by lia.
          destruct (Nat.eqb_spec g (length (homes s))); [lia|]. auto.
        * rewrite nth_error_app2 in Eg by exact L. destruct (g - length (tables w)) as [|d'] eqn:D; cbn in Eg; [|destruct d'; discriminate].
          injection Eg as <-. rewrite app_nth2 by lia. replace (g - length frs) with 0 by lia.
          destruct (Nat.eqb_spec g (length (homes s))); [|lia]. cbn. split; [reflexivity|]. split; [reflexivity|]. split; [constructor|].
          intros k. constructor.
      + apply Forall2_app.
        * refine (F2_upd _ _ _ _ _ _ I4 _). split; [exact I1|constructor].
        * constructor; [|constructor]. split; [reflexivity|exact R].
      + intros z. rewrite <- I6, !flat_map_app, !cnt_app. cbn [flat_map vblk cells]. rewrite !app_nil_r, !cnt_nil.
        pose proof (cnt_upd vblk z _ _ _ (Some {| own := length (tables w); cells := [] |}) E) as U. cbn [vblk cells flat_map] in U.
        rewrite cnt_nil in U. change (cnt z (sblk [])) with 0. lia.
      + intros g. rewrite NS, flat_map_app, cnt_app. cbn [flat_map vown own app].
        pose proof (cnt_upd vown g _ _ _ (Some {| own := length (tables w); cells := [] |}) E) as U. cbn [vown own] in U.
        rewrite !cnt_cons, !cnt_nil, I7, O, I1 in *.
        revert U. destruct (Nat.eqb_spec g (length (homes s))) as [Eg|N]; intros U.
        * rewrite Eg, NH in *. lia.
        * lia.
    - (* the chunks stay where they are, their chains travel *)
      set (fr0 := map (fun kl : nat * list nat => (fst kl, @nil nat)) (nth h frs [])).
      eexists _, (upd frs h fr0 ++ [nth h frs []]). split; [reflexivity|].
      constructor; cbn [set_vec wheap wtrace tables vecs count homes plain born died]; auto.
      + rewrite !app_length, upd_length. cbn [length]. lia.
      + rewrite !app_length, !upd_length. cbn [length]. lia.
      + intros g d Eg. rewrite NS. destruct (Nat.lt_ge_cases g (length (tables w))) as [L|L].
        * rewrite nth_error_app1 in Eg by (rewrite upd_length; exact L). rewrite app_nth1 by (rewrite upd_length; lia).
          destruct (Nat.eqb_spec g (length (homes s))); [lia|].
          revert g d Eg L n. assert (T : forall g d, nth_error (upd (tables w) h (Some (map (fun kp => (fst kp, None)) c))) g = Some d ->
             tab_rel base (wheap w) d (nth g (homes s) false) (nth g (upd frs h fr0) [])).
          { eapply (tabs_upd (wheap w)); try eassumption; auto. rewrite Al. split; [reflexivity|].
            destruct S0 as [S1 [S2 S3]]. split; [rewrite fst_none; unfold fr0; rewrite map_map; cbn [fst]; exact S1|].
            split; [unfold fr0; rewrite map_map; cbn [fst]; exact S2|]. intros k. rewrite get_none. unfold fr0. rewrite empty_fr. constructor. }
          intros g d Eg _ _. apply T. exact Eg.
        * rewrite nth_error_app2 in Eg by (rewrite upd_length; exact L). rewrite upd_length in Eg.
          destruct (g - length (tables w)) as [|d'] eqn:D; cbn in Eg; [|destruct d'; discriminate].
          injection Eg as <-. rewrite app_nth2 by (rewrite upd_length; lia). rewrite upd_length. replace (g - length frs) with 0 by lia.
          destruct (Nat.eqb_spec g (length (homes s))); [|lia]. cbn [nth]. split; [reflexivity|exact S0].
      + apply Forall2_app.
        * refine (F2_upd _ _ _ _ _ _ I4 _). split; [reflexivity|constructor].
        * constructor; [|constructor]. split; [exact I1|exact R].
      + intros z. rewrite <- I6, !flat_map_app, !cnt_app. cbn [flat_map vblk cells]. rewrite !app_nil_r, !cnt_nil.
        pose proof (cnt_upd vblk z _ _ _ (Some {| own := h; cells := [] |}) E) as U. cbn [vblk cells flat_map] in U.
        rewrite cnt_nil in U. pose proof (free_upd frs h fr0 z ltac:(lia)) as U2. unfold fr0 in U2 at 2. rewrite empty_sblk, cnt_nil in U2. lia.
      + intros g. rewrite NS, flat_map_app, cnt_app. cbn [flat_map vown own app].
        pose proof (cnt_upd vown g _ _ _ (Some {| own := h; cells := [] |}) E) as U. cbn [vown own] in U.
        rewrite !cnt_cons, !cnt_nil, I7, O, I1 in *.
        revert U. destruct (Nat.eqb_spec g (length (homes s))) as [Eg|N]; intros U.
        * rewrite Eg, NH in *. lia.
        * lia.
  Qed.

  Lemma step_sim : forall o w s frs, inv w s [] [] frs -> simulates (rv_step kind base o w) (plain_step kind o s).
  Proof.
    intros [|v t|v i t|v i|v i v2 j|v|v|v] w s frs I; cbn [rv_step].
    - eapply new_sim; exact I.
    - eapply create_sim; exact I.
    - cbn [plain_step]. eapply create_at_sim; exact I.
    - eapply reset_sim; exact I.
    - eapply give_sim; exact I.
    - eapply clear_sim; exact I.
    - eapply move_sim; exact I.
    - eapply destroy_sim; exact I.
  Qed.
  Lemma run_sim : forall ops w s frs, inv w s [] [] frs -> simulates (rv_run kind base ops w) (plain_run kind ops s).
  Proof.
    induction ops as [|o ops IH]; intros w s frs I; cbn [rv_run plain_run].
    - cbn. eauto.
    - pose proof (step_sim o w s frs I) as S1. destruct (plain_step kind o s) as [s1|]; cbn [simulates] in S1.
      + destruct S1 as [w1 [frs1 [E1 J]]]. rewrite E1. cbn [obind]. eapply IH. exact J.
      + rewrite S1. reflexivity.
  Qed.
End Step.
