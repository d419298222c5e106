(** Recycled vectors: consequences for whole histories. *)
From Coq Require Import String Ascii ZArith NArith Arith Bool Lia List Permutation.
From Verif Require Import Common ListAux MemModel MemSpec MemProofs MemHeapProofs RecVecModel RecVecSpec RecVecProofs RecVecStepProofs.
Import ListNotations.

(** *** Every object once, on the plain side *)
Definition oid (q : option obj) : list nat := match q with Some (id, _) => [id] | None => [] end.
Definition vids (q : option (nat * list (option obj))) : list nat := match q with Some (_, l) => flat_map oid l | None => [] end.
Definition once (s : plainw) (sl : list (option obj)) : Prop :=
  forall i, cnt i (flat_map vids (plain s)) + cnt i (flat_map oid sl) + cnt i (died s) = if i <? born s then 1 else 0.

Lemma vec_some : forall s v x, the_vec s v = Some x -> nth_error (plain s) v = Some (Some x).
Proof. intros s v x H. unfold the_vec in H. destruct (nth_error (plain s) v); [subst|discriminate]. reflexivity. Qed.
Lemma once_bury : forall s q sl s', once s (q :: sl) -> bury q s = Some s' -> once s' sl.
Proof.
  intros s [[id h]|] sl s' H B; cbn [bury] in B.
  - destruct (nth h (homes s) false); [|discriminate]. injection B as <-. intros i. specialize (H i).
    cbn [plain died born] in *. cbn [flat_map oid] in H. rewrite !cnt_app in *. lia.
  - injection B as <-. exact H.
Qed.
Lemma once_bury_all : forall l s s' sl, once s (l ++ sl) -> bury_all l s = Some s' -> once s' sl.
Proof.
  induction l as [|q l IH]; intros s s' sl H B; cbn [bury_all] in B.
  - injection B as <-. exact H.
  - destruct (bury q s) as [s1|] eqn:E; [|discriminate]. eapply IH; [|exact B]. eapply once_bury; [exact H|exact E].
Qed.
Lemma once_vec : forall s v h l x sl sl', once s sl -> the_vec s v = Some (h, l) ->
  (forall i, cnt i (vids x) + cnt i (flat_map oid sl') = cnt i (flat_map oid l) + cnt i (flat_map oid sl)) ->
  once (with_vec s v x) sl'.
Proof.
  intros s v h l x sl sl' H E C i. specialize (H i). specialize (C i). apply vec_some in E.
  pose proof (cnt_upd vids i _ _ _ x E) as U. cbn [vids] in U. cbn [with_vec plain died born].
  rewrite put_upd. lia.
Qed.
Lemma oid_put : forall l i p r z, nth_error l i = Some p ->
  cnt z (flat_map oid (put l i r)) + cnt z (oid p) = cnt z (flat_map oid l) + cnt z (oid r).
Proof. intros. rewrite put_upd. apply (cnt_upd oid). assumption. Qed.
Lemma once_insert : forall s v i s', once s [] -> insert_new s v i = Some s' -> once s' [].
Proof.
  intros s v i s' H E. unfold insert_new in E. destruct (the_vec s v) as [[h l]|] eqn:TV; [|discriminate].
  destruct (i <=? length l); [|discriminate]. injection E as <-. intros z. specialize (H z).
  apply vec_some in TV. pose proof (cnt_upd vids z _ _ _ (Some (h, firstn i l ++ Some (born s, h) :: skipn i l)) TV) as U.
  cbn [vids] in U. rewrite flat_map_app in U. cbn [flat_map oid] in U. rewrite !cnt_app, cnt_cons, cnt_nil in U.
  assert (Q : cnt z (flat_map oid l) = cnt z (flat_map oid (firstn i l)) + cnt z (flat_map oid (skipn i l)))
    by (rewrite <- cnt_app, <- flat_map_app, firstn_skipn; reflexivity).
  cbn [plain died born]. rewrite put_upd. revert H U.
  destruct (Nat.eqb_spec z (born s)), (Nat.ltb_spec z (born s)), (Nat.ltb_spec z (S (born s))); intros; lia.
Qed.
Lemma once_step : forall kind o s s', once s [] -> plain_step kind o s = Some s' -> once s' [].
Proof.
  intros kind o s s' H E. destruct o as [|v t|v i t|v i|v i v2 j|v|v|v]; cbn [plain_step] in E.
  - injection E as <-. intros i. specialize (H i). cbn [plain died born]. rewrite flat_map_app, cnt_app. cbn [flat_map vids app] in *. rewrite cnt_nil in *. lia.
  - destruct (the_vec s v) as [[h l]|]; [|discriminate]. eapply once_insert; eassumption.
  - eapply once_insert; eassumption.
  - destruct (the_vec s v) as [[h l]|] eqn:TV; [|discriminate]. destruct (nth_error l i) as [p|] eqn:P; [|discriminate].
    eapply once_bury; [|exact E]. eapply once_vec; [exact H|exact TV|]. intros z. cbn [vids flat_map].
    rewrite app_nil_r, cnt_nil. pose proof (oid_put _ _ _ None z P) as Q. cbn [oid] in Q. rewrite cnt_nil in Q. lia.
  - destruct (the_vec s v) as [[h l]|] eqn:TV; [|discriminate]. destruct (nth_error l i) as [p|] eqn:P; [|discriminate].
    cbv zeta in E. assert (J : once (with_vec s v (Some (h, put l i None))) [p]).
    { eapply once_vec; [exact H|exact TV|]. intros z. cbn [vids flat_map].
      rewrite app_nil_r, cnt_nil. pose proof (oid_put _ _ _ None z P) as Q. cbn [oid] in Q. rewrite cnt_nil in Q. lia. }
    set (s1 := with_vec s v _) in *. clearbody s1.
    destruct (the_vec s1 v2) as [[h2 l2]|] eqn:TV2; [|discriminate]. destruct (nth_error l2 j) as [old|] eqn:P2; [|discriminate].
    eapply once_bury; [|exact E]. eapply once_vec; [exact J|exact TV2|]. intros z. cbn [vids flat_map].
    rewrite !app_nil_r. pose proof (oid_put _ _ _ p z P2) as Q. lia.
  - destruct (the_vec s v) as [[h l]|] eqn:TV; [|discriminate].
    eapply once_bury_all; [|exact E]. eapply once_vec; [exact H|exact TV|]. intros z. cbn [vids flat_map]. rewrite app_nil_r, cnt_nil. lia.
  - destruct (the_vec s v) as [[h l]|] eqn:TV; [|discriminate].
    assert (X : forall a b, once {| homes := homes s ++ [true]; plain := put (plain s) v (Some (a, [])) ++ [Some (b, l)]; born := born s; died := died s |} []).
    { intros a b z. specialize (H z). apply vec_some in TV. pose proof (cnt_upd vids z _ _ _ (Some (a, [])) TV) as U.
      cbn [vids flat_map] in U, H. rewrite cnt_nil in U, H. cbn [plain died born]. rewrite flat_map_app, cnt_app, put_upd. cbn [flat_map vids].
      rewrite app_nil_r, cnt_nil. lia. }
    destruct kind; injection E as <-; apply X.
  - destruct (the_vec s v) as [[h l]|] eqn:TV; [|discriminate].
    destruct (bury_all l (with_vec s v (Some (h, [])))) as [s1|] eqn:B; [|discriminate]. injection E as <-.
    assert (J : once s1 []).
    { eapply once_bury_all; [|exact B]. eapply once_vec; [exact H|exact TV|]. intros z. cbn [vids flat_map]. rewrite app_nil_r, cnt_nil. lia. }
    assert (P1 : plain s1 = plain (with_vec s v (Some (h, [])))).
    { clear - B. revert B. generalize (with_vec s v (Some (h, []))). induction l as [|q l IH]; intros s0 B; cbn in B.
      - congruence.
      - destruct (bury q s0) as [s2|] eqn:E; [|discriminate]. rewrite (IH _ B). destruct q as [[id g]|]; cbn in E; [|congruence].
        destruct (nth g (homes s0) false); [|discriminate]. injection E as <-. reflexivity. }
    intros z. specialize (J z). cbn [plain died born]. rewrite put_upd.
    assert (N : nth_error (plain s1) v = Some (Some (h, []))).
    { rewrite P1. cbn [with_vec plain]. rewrite put_upd. apply upd_eq. apply nth_error_Some. apply vec_some in TV. congruence. }
    pose proof (cnt_upd vids z _ _ _ None N) as U. cbn [vids flat_map] in U. rewrite cnt_nil in U. lia.
Qed.
Lemma once_run : forall kind ops s s', once s [] -> plain_run kind ops s = Some s' -> once s' [].
Proof.
  induction ops as [|o ops IH]; intros s s' H E; cbn in E; [injection E as <-; exact H|].
  destruct (plain_step kind o s) as [s1|] eqn:E1; [|discriminate]. eapply IH; [|exact E]. eapply once_step; eassumption.
Qed.
Lemma once0 : once plain0 [].
Proof. intros i. reflexivity. Qed.

(** *** What the memory shows *)
Lemma shows_contents : forall base w s frs v, inv base w s [] [] frs -> shows w v = contents s v.
Proof.
  intros base w s frs v I. pose proof (F2_nth _ _ _ v (v_vec _ _ _ _ _ _ I)) as F. unfold shows, contents, the_vec.
  destruct (nth_error (vecs w) v) as [[x|]|], (nth_error (plain s) v) as [[[h l]|]|]; cbn in F; try contradiction; auto.
  destruct F as [_ F]. f_equal. induction F as [|p q c l R F IH]; cbn [map]; [reflexivity|]. f_equal; [|exact IH].
  destruct p as [[g [pt k]]|], q as [[id hm]|]; cbn in R; try contradiction; [|reflexivity].
  destruct R as [_ [b [t [f [-> [_ N]]]]]]. unfold object_at, view. cbn [fst heap option_map]. rewrite N. reflexivity.
Qed.

Lemma run_exact : forall kind base ops,
  match plain_run kind ops plain0 with
  | Some s => exists w, rv_run kind base ops empty_world = Ok w /\ (forall v, shows w v = contents s v)
      /\ ctors (wtrace w) = seq 0 (born s) /\ dtors (wtrace w) = died s
      /\ NoDup (dtors (wtrace w)) /\ incl (dtors (wtrace w)) (ctors (wtrace w))
      /\ NoDup (allocs (wtrace w)) /\ NoDup (deallocs (wtrace w)) /\ incl (deallocs (wtrace w)) (allocs (wtrace w))
  | None => rv_run kind base ops empty_world = UB
  end.
Proof.
  intros kind base ops. pose proof (run_sim kind base ops _ _ _ (inv0 base)) as R. unfold simulates in R.
  destruct (plain_run kind ops plain0) as [s|] eqn:E; [|exact R]. destruct R as [w [frs [Ew I]]].
  exists w. split; [exact Ew|]. split; [intros v; eapply shows_contents; exact I|].
  pose proof (once_run _ _ _ _ once0 E) as O. rewrite (v_ctor _ _ _ _ _ _ I), (v_dtor _ _ _ _ _ _ I), (v_alloc _ _ _ _ _ _ I).
  split; [reflexivity|]. split; [reflexivity|].
  assert (A : forall i, cnt i (died s) <= if i <? born s then 1 else 0) by (intros i; pose proof (O i); lia).
  assert (B : forall i, cnt i (deallocs (wtrace w)) <= if i <? length (wheap w) then 1 else 0)
    by (intros i; pose proof (v_blk _ _ _ _ _ _ I i); lia).
  split; [apply cnt_nodup; intros i; specialize (A i); destruct (i <? born s); lia|].
  split. { intros i Hi. apply cnt_in in Hi. specialize (A i). destruct (Nat.ltb_spec i (born s)); [apply in_seq; lia|lia]. }
  split; [apply seq_NoDup|]. split; [apply cnt_nodup; intros i; specialize (B i); destruct (i <? length (wheap w)); lia|].
  intros i Hi. apply cnt_in in Hi. specialize (B i). destruct (Nat.ltb_spec i (length (wheap w))); [apply in_seq; lia|lia].
Qed.

Lemma seq_cnt : forall l n, (forall i, cnt i l = if i <? n then 1 else 0) -> Permutation l (seq 0 n).
Proof.
  intros l n H. apply NoDup_Permutation.
  - apply cnt_nodup. intros i. rewrite H. destruct (i <? n); lia.
  - apply seq_NoDup.
  - intros i. rewrite cnt_in, H, in_seq. destruct (Nat.ltb_spec i n); lia.
Qed.
Lemma flat_nil : forall {A} (f : A -> list nat) l, (forall v a, nth_error l v = Some a -> f a = []) -> flat_map f l = [].
Proof.
  induction l as [|a l IH]; intros H; [reflexivity|]. cbn [flat_map]. rewrite (H 0 a eq_refl). apply IH. intros v b E. exact (H (S v) b E).
Qed.

Lemma all_gone : forall kind base ops s, plain_run kind ops plain0 = Some s -> (forall v, contents s v = None) ->
  exists w, rv_run kind base ops empty_world = Ok w
    /\ Permutation (dtors (wtrace w)) (ctors (wtrace w)) /\ Permutation (deallocs (wtrace w)) (allocs (wtrace w)).
Proof.
  intros kind base ops s E G. pose proof (run_sim kind base ops _ _ _ (inv0 base)) as R. unfold simulates in R. rewrite E in R.
  destruct R as [w [frs [Ew I]]]. exists w. split; [exact Ew|]. pose proof (once_run _ _ _ _ once0 E) as O.
  rewrite (v_ctor _ _ _ _ _ _ I), (v_dtor _ _ _ _ _ _ I), (v_alloc _ _ _ _ _ _ I).
  assert (NP : forall v a, nth_error (plain s) v = Some a -> a = None).
  { intros v a Ea. specialize (G v). unfold contents, the_vec in G. rewrite Ea in G. destruct a as [[h l]|]; [discriminate|reflexivity]. }
  assert (NV : forall v a, nth_error (vecs w) v = Some a -> a = None).
  { intros v a Ea. pose proof (F2_nth _ _ _ v (v_vec _ _ _ _ _ _ I)) as F. rewrite Ea in F.
    destruct (nth_error (plain s) v) as [b|] eqn:Eb; [|contradiction]. rewrite (NP v b Eb) in F. destruct a; [contradiction|reflexivity]. }
  split; apply seq_cnt; intros i.
  - rewrite <- O. rewrite (flat_nil vids); [reflexivity|]. intros v a Ea. rewrite (NP v a Ea). reflexivity.
  - rewrite <- (v_blk _ _ _ _ _ _ I i). rewrite (flat_nil vblk), (flat_nil sblk); [reflexivity| |].
    + intros g fr Eg. assert (Lg : g < length (tables w)) by (rewrite (v_len2 _ _ _ _ _ _ I); apply nth_error_Some; congruence).
      destruct (nth_error_lt _ _ Lg) as [c Ec]. pose proof (v_tab _ _ _ _ _ _ I g c Ec) as T.
      rewrite (nth_error_nth _ _ _ Eg) in T. destruct c as [c|]; cbn in T.
      * destruct T as [T _]. pose proof (v_own _ _ _ _ _ _ I g) as W. rewrite T, (flat_nil vown) in W; [discriminate|].
        intros v a Ea. rewrite (NV v a Ea). reflexivity.
      * destruct T as [_ ->]. reflexivity.
    + intros v a Ea. rewrite (NV v a Ea). reflexivity.
Qed.

(** *** Histories that stay at home *)
Record home_inv (s : plainw) : Prop := {
  k_alive : forall v h l, the_vec s v = Some (h, l) -> nth h (homes s) false = true;
  k_own : forall v h l id g, the_vec s v = Some (h, l) -> In (Some (id, g)) l -> g = h;
  k_diff : forall v v2 h l l2, the_vec s v = Some (h, l) -> the_vec s v2 = Some (h, l2) -> v = v2
}.
Definition sizes (s : plainw) : list (option nat) := map (option_map (fun x => length (snd x))) (plain s).

Lemma the_vec_put : forall p v x v2, v < length p ->
  match nth_error (put p v x) v2 with Some y => y | None => None end
  = if v2 =? v then x else match nth_error p v2 with Some y => y | None => @None (nat * list (option obj)) end.
Proof. intros. rewrite put_upd, upd_nth by assumption. destruct (v2 =? v); reflexivity. Qed.
Lemma vec_lt : forall s v x, the_vec s v = Some x -> v < length (plain s).
Proof. intros s v x H. apply vec_some in H. apply nth_error_Some. congruence. Qed.
Lemma bury_all_home : forall l s, (forall id g, In (Some (id, g)) l -> nth g (homes s) false = true) ->
  exists s', bury_all l s = Some s' /\ homes s' = homes s /\ plain s' = plain s.
Proof.
  induction l as [|q l IH]; intros s H; cbn [bury_all].
  - exists s. auto.
  - destruct q as [[id g]|]; cbn [bury].
    + rewrite (H id g (or_introl eq_refl)).
      match goal with |- context [bury_all l ?s1] => destruct (IH s1) as [s' [E [A B]]] end.
      { intros id' g' Hi. apply (H id' g'). right. exact Hi. }
      exists s'. auto.
    + destruct (IH s) as [s' R]; [|exists s'; exact R]. intros id g Hi. apply (H id g). right. exact Hi.
Qed.
Lemma size_of_sizes : forall s v, size_of (sizes s) v = option_map (fun x => length (snd x)) (the_vec s v).
Proof.
  intros s v. unfold size_of, sizes, the_vec. rewrite nth_error_map.
  destruct (nth_error (plain s) v) as [[x|]|]; reflexivity.
Qed.
Lemma sizes_put : forall p v x, map (option_map (fun y : nat * list (option obj) => length (snd y))) (put p v x)
  = put (map (option_map (fun y => length (snd y))) p) v (option_map (fun y => length (snd y)) x).
Proof. induction p as [|y p IH]; intros [|v] x; cbn; try reflexivity. rewrite IH. reflexivity. Qed.

(** Putting new contents, of the same home, into a vector. *)
Lemma home_put : forall s v h l m b d, home_inv s -> the_vec s v = Some (h, l) ->
  (forall id g, In (Some (id, g)) m -> g = h) ->
  home_inv {| homes := homes s; plain := put (plain s) v (Some (h, m)); born := b; died := d |}.
Proof.
  intros s v h l m b d [A B C] E M. pose proof (vec_lt _ _ _ E) as L.
  assert (X : forall v2 h2 l2, the_vec {| homes := homes s; plain := put (plain s) v (Some (h, m)); born := b; died := d |} v2 = Some (h2, l2) ->
     (v2 = v /\ h2 = h /\ l2 = m) \/ (v2 <> v /\ the_vec s v2 = Some (h2, l2))).
  { intros v2 h2 l2 F. unfold the_vec in F at 1. cbn [plain] in F. rewrite the_vec_put in F by exact L.
    destruct (Nat.eqb_spec v2 v); [left; injection F as <- <-; auto|right; auto]. }
  constructor; cbn [homes].
  - intros v2 h2 l2 F. destruct (X _ _ _ F) as [[-> [-> ->]]|[N G]]; eauto.
  - intros v2 h2 l2 id g F Hi. destruct (X _ _ _ F) as [[-> [-> ->]]|[N G]]; eauto.
  - intros v2 v3 h2 l2 l3 F F3. destruct (X _ _ _ F) as [[-> [-> ->]]|[N G]], (X _ _ _ F3) as [[-> [E3 ->]]|[N3 G3]]; auto; subst; eauto.
Qed.
Lemma home_same : forall s b d, home_inv s -> home_inv {| homes := homes s; plain := plain s; born := b; died := d |}.
Proof. intros s b d [A B C]. constructor; cbn [homes]; unfold the_vec in *; cbn [plain]; eauto. Qed.
Lemma home_eq : forall s s', home_inv s -> homes s' = homes s -> plain s' = plain s -> home_inv s'.
Proof. intros s [h p b d] H E1 E2. cbn in E1, E2. subst. apply home_same. exact H. Qed.
Lemma in_put : forall {A} (l : list A) i x y, In y (put l i x) -> y = x \/ In y l.
Proof. induction l as [|z l IH]; intros [|i] x y H; cbn in *; try tauto. - intuition. - destruct H as [H|H]; [auto|]. destruct (IH _ _ _ H); auto. Qed.
Lemma in_ins : forall {A} (l : list A) i x y, In y (firstn i l ++ x :: skipn i l) -> y = x \/ In y l.
Proof.
  intros A l i x y H. rewrite <- (firstn_skipn i l). rewrite !in_app_iff in *. cbn in H. intuition.
Qed.

Lemma home_insert : forall s v i h l, home_inv s -> the_vec s v = Some (h, l) -> i <= length l ->
  exists s', insert_new s v i = Some s' /\ home_inv s' /\ sizes s' = put (sizes s) v (Some (S (length l))).
Proof.
  intros s v i h l H E L. unfold insert_new. rewrite E. apply Nat.leb_le in L. rewrite L. eexists. split; [reflexivity|]. split.
  - eapply home_put; [exact H|exact E|]. intros id g Hi. apply in_ins in Hi. destruct Hi as [Hi|Hi]; [congruence|].
    exact (k_own _ H _ _ _ _ _ E Hi).
  - unfold sizes. cbn [plain]. rewrite sizes_put. cbn [option_map snd]. rewrite app_length. cbn [length].
    apply Nat.leb_le in L. rewrite firstn_length, skipn_length. f_equal. f_equal. lia.
Qed.
Lemma len_put : forall {A} (l : list A) i x, length (put l i x) = length l.
Proof. intros. rewrite put_upd. apply upd_length. Qed.
Lemma put_same : forall {A} (l : list A) i x, nth_error l i = Some x -> put l i x = l.
Proof. induction l as [|y l IH]; intros [|i] x H; cbn in *; try discriminate; [congruence|]. rewrite IH; auto. Qed.
Lemma size_same : forall s v h l, the_vec s v = Some (h, l) -> put (sizes s) v (Some (length l)) = sizes s.
Proof.
  intros s v h l E. apply put_same. unfold sizes. rewrite nth_error_map. apply vec_some in E. rewrite E. reflexivity.
Qed.
Lemma put_put : forall {A} (l : list A) i x y, put (put l i x) i y = put l i y.
Proof. induction l as [|z l IH]; intros [|i] x y; cbn; try reflexivity. rewrite IH. reflexivity. Qed.

Lemma home_step : forall kind o s z, home_inv s -> (forall v i v2 j, o <> VGive v i v2 j) ->
  (kind = InNodes \/ forall v, o <> VMove v) -> size_step o (sizes s) = Some z ->
  exists s', plain_step kind o s = Some s' /\ home_inv s' /\ sizes s' = z.
Proof.
  intros kind o s z H NG NM Z. destruct o as [|v t|v i t|v i|v i v2 j|v|v|v]; cbn [plain_step size_step] in *;
    try (rewrite size_of_sizes in Z; destruct (the_vec s v) as [[h l]|] eqn:TV; cbn [option_map snd] in Z; [|discriminate]).
  - injection Z as <-. eexists. split; [reflexivity|]. split; [|unfold sizes; cbn [plain]; rewrite map_app; reflexivity].
    destruct H as [A B C].
    assert (X : forall v2 h2 l2, the_vec {| homes := homes s ++ [true]; plain := plain s ++ [Some (length (homes s), [])]; born := born s; died := died s |} v2 = Some (h2, l2) ->
       (v2 = length (plain s) /\ h2 = length (homes s) /\ l2 = []) \/ the_vec s v2 = Some (h2, l2)).
    { intros v2 h2 l2 F. unfold the_vec in *. cbn [plain] in F. destruct (Nat.lt_ge_cases v2 (length (plain s))) as [L|L].
      - rewrite nth_error_app1 in F by exact L. auto.
      - rewrite nth_error_app2 in F by exact L. destruct (v2 - length (plain s)) as [|d] eqn:D; cbn in F; [|destruct d; discriminate].
        injection F as <- <-. left. split; [lia|auto]. }
    assert (LH : forall v2 h2 l2, the_vec s v2 = Some (h2, l2) -> h2 < length (homes s)).
    { intros v2 h2 l2 F. specialize (A _ _ _ F). destruct (Nat.lt_ge_cases h2 (length (homes s))) as [L|L]; [exact L|].
      rewrite nth_overflow in A by exact L. discriminate. }
    constructor; cbn [homes].
    + intros v2 h2 l2 F. destruct (X _ _ _ F) as [[-> [-> ->]]|G].
      * rewrite app_nth2, Nat.sub_diag by lia. reflexivity.
      * rewrite app_nth1 by (eapply LH; exact G). eapply A. exact G.
    + intros v2 h2 l2 id g F Hi. destruct (X _ _ _ F) as [[-> [-> ->]]|G]; [destruct Hi|eauto].
    + intros v2 v3 h2 l2 l3 F F3. destruct (X _ _ _ F) as [[-> [-> ->]]|G], (X _ _ _ F3) as [[-> [E3 ->]]|G3]; auto.
      * pose proof (LH _ _ _ G3). lia.
      * pose proof (LH _ _ _ G). lia.
      * eauto.
  - injection Z as <-. eapply home_insert; eauto.
  - destruct (i <=? length l) eqn:L; [|discriminate]. injection Z as <-. apply Nat.leb_le in L. eapply home_insert; eauto.
  - destruct (i <? length l) eqn:L; [|discriminate]. injection Z as <-. apply Nat.ltb_lt in L.
    destruct (nth_error_lt _ _ L) as [p P]. rewrite P.
    assert (J : home_inv (with_vec s v (Some (h, put l i None)))).
    { eapply home_put; [exact H|exact TV|]. intros id g Hi. apply in_put in Hi. destruct Hi as [Hi|Hi]; [discriminate|].
      exact (k_own _ H _ _ _ _ _ TV Hi). }
    assert (SZ : sizes (with_vec s v (Some (h, put l i None))) = sizes s).
    { unfold sizes at 1, with_vec. cbn [plain]. rewrite sizes_put. cbn [option_map snd]. rewrite len_put. exact (size_same _ _ _ _ TV). }
    destruct p as [[id g]|]; cbn [bury].
    + rewrite (k_own _ H _ _ _ _ _ TV (nth_error_In _ _ P)). cbn [with_vec homes]. rewrite (k_alive _ H _ _ _ TV).
      eexists. split; [reflexivity|]. split; [|exact SZ]. eapply home_eq; [exact J|reflexivity|reflexivity].
    + eexists. split; [reflexivity|]. split; [exact J|exact SZ].
  - destruct (NG v i v2 j eq_refl).
  - injection Z as <-. destruct (bury_all_home l (with_vec s v (Some (h, [])))) as [s' [E [E1 E2]]].
    { intros id g Hi. rewrite (k_own _ H _ _ _ _ _ TV Hi). exact (k_alive _ H _ _ _ TV). }
    exists s'. split; [exact E|]. split.
    + eapply home_eq; [|exact E1|exact E2]. eapply home_put; [exact H|exact TV|]. intros id g [].
    + unfold sizes at 1. rewrite E2. cbn [with_vec plain]. rewrite sizes_put. reflexivity.
  - destruct NM as [->|NM]; [|destruct (NM v eq_refl)]. injection Z as <-. eexists. split; [reflexivity|]. split.
    + destruct H as [A B C]. pose proof (vec_lt _ _ _ TV) as L0.
      assert (LH : forall v2 h2 l2, the_vec s v2 = Some (h2, l2) -> h2 < length (homes s)).
      { intros v2 h2 l2 F. specialize (A _ _ _ F). destruct (Nat.lt_ge_cases h2 (length (homes s))) as [L|L]; [exact L|].
        rewrite nth_overflow in A by exact L. discriminate. }
      set (s1 := {| homes := _; plain := _; born := _; died := _ |}).
      assert (X : forall v2 h2 l2, the_vec s1 v2 = Some (h2, l2) ->
         (v2 = length (plain s) /\ h2 = h /\ l2 = l) \/ (v2 = v /\ h2 = length (homes s) /\ l2 = [])
         \/ (v2 < length (plain s) /\ v2 <> v /\ the_vec s v2 = Some (h2, l2))).
      { intros v2 h2 l2 F. unfold the_vec in F. cbn [s1 plain] in F. destruct (Nat.lt_ge_cases v2 (length (plain s))) as [L|L].
        - rewrite nth_error_app1 in F by (rewrite len_put; exact L). rewrite the_vec_put in F by exact L0.
          right. destruct (Nat.eqb_spec v2 v); [left; injection F as <- <-; auto|right]. auto.
        - rewrite nth_error_app2 in F by (rewrite len_put; exact L). rewrite len_put in F.
          destruct (v2 - length (plain s)) as [|d] eqn:D; cbn in F; [|destruct d; discriminate].
          injection F as <- <-. left. split; [lia|auto]. }
      constructor; cbn [s1 homes].
      * intros v2 h2 l2 F. destruct (X _ _ _ F) as [[-> [-> ->]]|[[-> [-> ->]]|[L [N G]]]].
        -- rewrite app_nth1 by (eapply LH; exact TV). eapply A. exact TV.
        -- rewrite app_nth2, Nat.sub_diag by lia. reflexivity.
        -- rewrite app_nth1 by (eapply LH; exact G). eapply A. exact G.
      * intros v2 h2 l2 id g F Hi. destruct (X _ _ _ F) as [[-> [-> ->]]|[[-> [-> ->]]|[L [N G]]]]; [eauto|destruct Hi|eauto].
      * intros v2 v3 h2 l2 l3 F F3. destruct (X _ _ _ F) as [[-> [-> ->]]|[[-> [-> ->]]|[L [N G]]]], (X _ _ _ F3) as [[-> [E3 ->]]|[[-> [E3 ->]]|[L3 [N3 G3]]]]; auto.
        -- pose proof (LH _ _ _ TV). lia.
        -- exfalso. apply N3. exact (C _ _ _ _ _ G3 TV).
        -- pose proof (LH _ _ _ TV). lia.
        -- pose proof (LH _ _ _ G3). lia.
        -- exfalso. apply N. rewrite E3 in G. exact (C _ _ _ _ _ G TV).
        -- pose proof (LH _ _ _ G). lia.
        -- exact (C _ _ _ _ _ G G3).
    + unfold sizes. cbn [plain]. rewrite map_app, sizes_put. reflexivity.
  - injection Z as <-. destruct (bury_all_home l (with_vec s v (Some (h, [])))) as [s' [E [E1 E2]]].
    { intros id g Hi. rewrite (k_own _ H _ _ _ _ _ TV Hi). exact (k_alive _ H _ _ _ TV). }
    rewrite E. eexists. split; [reflexivity|]. cbn [with_vec homes plain] in E1, E2. pose proof (vec_lt _ _ _ TV) as L0. split.
    + rewrite E1, E2, put_put. destruct H as [A B C]. set (s1 := {| homes := _; plain := _; born := _; died := _ |}).
      assert (X : forall v2 h2 l2, the_vec s1 v2 = Some (h2, l2) -> v2 <> v /\ the_vec s v2 = Some (h2, l2)).
      { intros v2 h2 l2 F. unfold the_vec in F. cbn [s1 plain] in F. rewrite the_vec_put in F by exact L0.
        destruct (Nat.eqb_spec v2 v); [discriminate|auto]. }
      constructor; cbn [s1 homes].
      * intros v2 h2 l2 F. destruct (X _ _ _ F) as [N G]. rewrite put_upd, nth_upd.
        -- destruct (Nat.eqb_spec h2 h) as [->|]; [exfalso; apply N; eapply C; eauto|eauto].
        -- pose proof (A _ _ _ TV) as Q. destruct (Nat.lt_ge_cases h (length (homes s))) as [L|L]; [exact L|].
           rewrite nth_overflow in Q by exact L. discriminate.
      * intros v2 h2 l2 id g F Hi. destruct (X _ _ _ F) as [N G]. eauto.
      * intros v2 v3 h2 l2 l3 F F3. destruct (X _ _ _ F) as [N G], (X _ _ _ F3) as [N3 G3]. eauto.
    + unfold sizes. cbn [plain]. rewrite E2, put_put, sizes_put. reflexivity.
Qed.
Lemma home0 : home_inv plain0.
Proof. constructor; intros [|v]; discriminate. Qed.
Lemma home_run : forall kind ops s z, home_inv s -> no_give ops -> (kind = InNodes \/ no_move ops) -> size_run ops (sizes s) = Some z ->
  exists s', plain_run kind ops s = Some s' /\ home_inv s' /\ sizes s' = z.
Proof.
  induction ops as [|o ops IH]; intros s z H NG NM Z; cbn [size_run plain_run] in *.
  - injection Z as <-. exists s. auto.
  - destruct (size_step o (sizes s)) as [z1|] eqn:E; [|discriminate].
    destruct (home_step kind o s z1 H) as [s1 [E1 [H1 Z1]]]; [| |exact E|].
    + intros v i v2 j ->. apply (NG v i v2 j). left. reflexivity.
    + destruct NM as [->|NM]; [auto|]. right. intros v ->. apply (NM v). left. reflexivity.
    + rewrite E1. subst z1. apply IH; auto.
      * intros v i v2 j Hi. apply (NG v i v2 j). right. exact Hi.
      * destruct NM as [->|NM]; [auto|]. right. intros v Hi. apply (NM v). right. exact Hi.
Qed.

Lemma size_none : forall kind o s, (forall v i v2 j, o <> VGive v i v2 j) -> size_step o (sizes s) = None -> plain_step kind o s = None.
Proof.
  intros kind o s NG Z. destruct o as [|v t|v i t|v i|v i v2 j|v|v|v]; cbn [plain_step size_step] in *; unfold insert_new;
    try discriminate; try (destruct (NG v i v2 j eq_refl));
    rewrite size_of_sizes in Z; destruct (the_vec s v) as [[h l]|] eqn:TV; cbn [option_map snd] in Z; try discriminate; try reflexivity.
  - destruct (i <=? length l); [discriminate|reflexivity].
  - destruct (Nat.ltb_spec i (length l)) as [L|L]; [discriminate|]. apply nth_error_None in L. rewrite L. reflexivity.
Qed.
Lemma home_after : forall kind ops s s', home_inv s -> no_give ops -> (kind = InNodes \/ no_move ops) ->
  plain_run kind ops s = Some s' -> home_inv s'.
Proof.
  induction ops as [|o ops IH]; intros s s' H NG NM E; cbn [plain_run] in E.
  - injection E as <-. exact H.
  - assert (NGo : forall v i v2 j, o <> VGive v i v2 j) by (intros v i v2 j ->; apply (NG v i v2 j); left; reflexivity).
    assert (NMo : kind = InNodes \/ forall v, o <> VMove v)
      by (destruct NM as [->|NM]; [auto|right; intros v ->; apply (NM v); left; reflexivity]).
    destruct (size_step o (sizes s)) as [z|] eqn:Z; [|rewrite (size_none kind o s NGo Z) in E; discriminate].
    destruct (home_step kind o s z H NGo NMo Z) as [s1 [E1 [H1 _]]]. rewrite E1 in E. eapply IH; [exact H1| | |exact E].
    + intros v i v2 j Hi. apply (NG v i v2 j). right. exact Hi.
    + destruct NM as [->|NM]; [auto|]. right. intros v Hi. apply (NM v). right. exact Hi.
Qed.
Lemma bury_all_dead : forall l s id g, In (Some (id, g)) l -> nth g (homes s) false = false -> bury_all l s = None.
Proof.
  induction l as [|q l IH]; intros s id g Hi D; [destruct Hi|]. cbn [bury_all]. destruct Hi as [->|Hi].
  - cbn [bury]. rewrite D. reflexivity.
  - destruct (bury q s) as [s1|] eqn:B; [|reflexivity]. apply (IH s1 id g Hi).
    destruct q as [[i h]|]; cbn in B; [|congruence]. destruct (nth h (homes s) false); [|discriminate]. injection B as <-. exact D.
Qed.
Lemma plain_run_app : forall kind a b s, plain_run kind (a ++ b) s = match plain_run kind a s with Some s' => plain_run kind b s' | None => None end.
Proof. induction a as [|o a IH]; intros b s; cbn; [reflexivity|]. destruct (plain_step kind o s); auto. Qed.
Lemma put_app : forall {A} (l m : list A) i x, i < length l -> put (l ++ m) i x = put l i x ++ m.
Proof. induction l as [|y l IH]; intros m [|i] x H; cbn in *; try lia; [reflexivity|]. rewrite IH by lia. reflexivity. Qed.

Lemma moved_from : forall base ops s v l id, no_give ops -> no_move ops ->
  plain_run Inside ops plain0 = Some s -> contents s v = Some l -> In (Some id) l ->
  rv_run Inside base (ops ++ [VMove v; VDestroy v; VDestroy (length (plain s))]) empty_world = UB.
Proof.
  intros base ops s v l id NG NM E C Hi. pose proof (home_after Inside ops plain0 s home0 NG (or_intror NM) E) as H.
  pose proof (run_exact Inside base (ops ++ [VMove v; VDestroy v; VDestroy (length (plain s))])) as R.
  rewrite plain_run_app, E in R. unfold contents in C. destruct (the_vec s v) as [[h m]|] eqn:TV; [|discriminate]. injection C as <-.
  apply in_map_iff in Hi. destruct Hi as [[[id' g]|] [Eq Hi]]; [|discriminate]. cbn in Eq. injection Eq as ->.
  pose proof (k_own _ H _ _ _ _ _ TV Hi) as ->. pose proof (k_alive _ H _ _ _ TV) as A.
  pose proof (vec_lt _ _ _ TV) as Lv.
  assert (Lh : h < length (homes s)).
  { destruct (Nat.lt_ge_cases h (length (homes s))) as [L|L]; [exact L|]. rewrite nth_overflow in A by exact L. discriminate. }
  cbn [plain_run] in R. cbn [plain_step] in R. rewrite TV in R.
  set (s1 := {| homes := homes s ++ [true]; plain := put (plain s) v (Some (h, [])) ++ [Some (length (homes s), m)]; born := born s; died := died s |}) in R.
  assert (T1 : the_vec s1 v = Some (h, [])).
  { unfold the_vec. cbn [s1 plain]. rewrite nth_error_app1 by (rewrite len_put; exact Lv). rewrite put_upd, upd_eq by exact Lv. reflexivity. }
  rewrite T1 in R. cbn [bury_all] in R.
  set (s2 := {| homes := _; plain := _; born := _; died := _ |}) in R.
  assert (T2 : the_vec s2 (length (plain s)) = Some (length (homes s), m)).
  { unfold the_vec. cbn [s2 s1 with_vec plain]. rewrite !put_app; rewrite ?app_length, ?len_put; cbn [length]; try lia.
    rewrite nth_error_app2 by (rewrite !len_put; lia). rewrite !len_put, Nat.sub_diag. reflexivity. }
  rewrite T2 in R. rewrite (bury_all_dead m _ id h Hi) in R; [exact R|].
  cbn [s2 s1 with_vec homes]. rewrite put_upd, nth_upd, Nat.eqb_refl; [reflexivity|]. rewrite app_length. lia.
Qed.

Lemma stays : forall kind base ops z, no_give ops -> (kind = InNodes \/ no_move ops) -> size_run ops [] = Some z ->
  exists s w, plain_run kind ops plain0 = Some s /\ rv_run kind base ops empty_world = Ok w
    /\ (forall v, shows w v = contents s v) /\ (forall v, option_map (@length _) (shows w v) = size_of z v).
Proof.
  intros kind base ops z NG NM Z. destruct (home_run kind ops plain0 z home0 NG NM Z) as [s [E [_ Sz]]].
  pose proof (run_exact kind base ops) as R. rewrite E in R. destruct R as [w [Ew [Sh _]]].
  exists s, w. split; [exact E|]. split; [exact Ew|]. split; [exact Sh|]. intros v. rewrite Sh, <- Sz, size_of_sizes.
  unfold contents. destruct (the_vec s v) as [[h l]|]; [|reflexivity]. cbn. rewrite map_length. reflexivity.
Qed.
