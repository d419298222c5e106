(** Recycled vectors: the invariant relating the memory with the plain lists. *)
From Coq Require Import String Ascii ZArith NArith Arith Bool Lia List Permutation.
From Verif Require Import Common ListAux MemModel MemSpec MemProofs MemHeapProofs RecVecModel RecVecSpec.
Import ListNotations.

Lemma put_upd : forall {A} (l : list A) i x, put l i x = upd l i x.
Proof. induction l; intros [|i] x; cbn; congruence. Qed.

(** *** Counting *)
Definition cnt (x : nat) (l : list nat) : nat := count_occ Nat.eq_dec l x.
Lemma cnt_app : forall x a b, cnt x (a ++ b) = cnt x a + cnt x b.
Proof. intros. apply count_occ_app. Qed.
Lemma cnt_nil : forall x, cnt x [] = 0.
Proof. reflexivity. Qed.
Lemma cnt_cons : forall x y l, cnt x (y :: l) = (if x =? y then 1 else 0) + cnt x l.
Proof.
  intros. unfold cnt. cbn. destruct (Nat.eq_dec y x), (Nat.eqb_spec x y); subst; try reflexivity; congruence.
Qed.
Lemma cnt_in : forall x l, In x l <-> 0 < cnt x l.
Proof. intros. apply count_occ_In. Qed.
Lemma cnt_perm : forall x a b, Permutation a b -> cnt x a = cnt x b.
Proof. intros x a b P. induction P; rewrite ?cnt_cons; lia. Qed.
Lemma cnt_upd : forall {A} (f : A -> list nat) x l i a b, nth_error l i = Some a ->
  cnt x (flat_map f (upd l i b)) + cnt x (f a) = cnt x (flat_map f l) + cnt x (f b).
Proof.
  induction l as [|y l IH]; intros [|i] a b H; cbn in H; try discriminate; cbn [upd flat_map]; rewrite !cnt_app.
  - injection H as ->. lia.
  - specialize (IH i a b H). lia.
Qed.
Lemma cnt_nth : forall {A} (f : A -> list nat) x l i a, nth_error l i = Some a -> cnt x (f a) <= cnt x (flat_map f l).
Proof.
  induction l as [|y l IH]; intros [|i] a H; cbn in H; try discriminate; cbn [flat_map]; rewrite cnt_app.
  - injection H as ->. lia.
  - specialize (IH i a H). lia.
Qed.
Lemma cnt_nth2 : forall {A} (f : A -> list nat) x l i j a b, nth_error l i = Some a -> nth_error l j = Some b -> i <> j ->
  cnt x (f a) + cnt x (f b) <= cnt x (flat_map f l).
Proof.
  induction l as [|y l IH]; intros [|i] [|j] a b H H2 N; cbn in H, H2; try discriminate; cbn [flat_map]; rewrite cnt_app.
  - lia.
  - injection H as ->. pose proof (cnt_nth f x l j b H2). lia.
  - injection H2 as ->. pose proof (cnt_nth f x l i a H). lia.
  - specialize (IH i j a b H H2 ltac:(lia)). lia.
Qed.
Lemma cnt_nodup : forall l, (forall x, cnt x l <= 1) -> NoDup l.
Proof. intros l H. apply (NoDup_count_occ Nat.eq_dec). exact H. Qed.

(** *** One table *)
Section Rec.
  Context (base : ty).
  Definition sblk (fr : list (nat * list nat)) : list nat := concat (map snd fr).
  Definition storeok (h : list cell) (c : table) (fr : list (nat * list nat)) : Prop :=
    map fst c = map fst fr /\ NoDup (map fst fr) /\
    forall k, chain h (k + ioff false base) (chunk_get c k) (fget fr k).

  Lemma store_frame : forall h h' c fr, storeok h c fr ->
    (forall x, In x (sblk fr) -> nth_error h' x = nth_error h x) -> storeok h' c fr.
  Proof.
    intros h h' c fr [A [B C]] F. split; [exact A|]. split; [exact B|]. intros k.
    eapply chain_frame; [apply C|]. intros y Hy. apply F. eapply fget_in. exact Hy.
  Qed.
  Lemma chain_bound : forall h sz p l, chain h sz p l -> forall x, In x l -> x < length h.
  Proof.
    intros h sz p l H. induction H; intros y Hy; [destruct Hy|].
    destruct Hy as [<-|Hy]; [apply nth_error_Some; congruence|auto].
  Qed.
  Lemma fget_all : forall fr x, NoDup (map fst fr) -> In x (sblk fr) -> exists k, In x (fget fr k).
  Proof.
    unfold sblk. induction fr as [|[k l] fr IH]; intros x ND H; cbn in H; [destruct H|].
    inversion ND; subst. apply in_app_or in H. destruct H as [H|H].
    - exists k. rewrite fget_cons, Nat.eqb_refl by assumption. exact H.
    - destruct (IH x) as [k' Hk]; auto. exists k'. rewrite fget_cons by assumption.
      destruct (Nat.eqb_spec k' k) as [->|]; [|exact Hk]. rewrite fget_nil in Hk by assumption. destruct Hk.
  Qed.
  Lemma store_bound : forall h c fr x, storeok h c fr -> In x (sblk fr) -> x < length h.
  Proof.
    intros h c fr x [A [B C]] H. destruct (fget_all fr x B H) as [k Hk]. eapply chain_bound; [apply C|exact Hk].
  Qed.

  Lemma create_framed : forall h c tr t id fr, storeok h c fr -> (forall x, cnt x (sblk fr) <= 1) ->
    exists m' b fr' new,
      create false t id {| heap := h; chunks := c; trace := tr |} = Ok (m', ((b, 0), size t))
      /\ (new = [] \/ new = [length h]) /\ length (heap m') = length h + length new
      /\ allocs (trace m') = allocs tr ++ new /\ deallocs (trace m') = deallocs tr
      /\ ctors (trace m') = ctors tr ++ [id] /\ dtors (trace m') = dtors tr
      /\ (forall x, cnt x [b] + cnt x (sblk fr') = cnt x new + cnt x (sblk fr))
      /\ nth_error (heap m') b = Some (CObj (size t) true t id)
      /\ (forall x, x <> b -> x < length h -> nth_error (heap m') x = nth_error h x)
      /\ storeok (heap m') (chunks m') fr'.
  Proof.
    intros h c tr t id fr S0 ND. pose proof S0 as [A [B C]].
    unfold create, get_block. cbn [heap chunks trace]. pose proof (C (size t)) as Ct.
    destruct (fget fr (size t)) as [|x r] eqn:F; inversion Ct; subst.
    - cbn [obind]. unfold construct. cbn [heap chunks trace].
      rewrite nth_error_app2, Nat.sub_diag by lia. cbn [nth_error]. rewrite Nat.leb_refl. cbn [obind].
      rewrite (upd_app h []).
      eexists _, (length h), (fset fr (size t) []), [length h]. split; [reflexivity|]. cbn [heap chunks trace].
      split; [auto|]. split; [rewrite app_length; reflexivity|].
      rewrite !allocs_app, !deallocs_app, !ctors_app, !dtors_app. cbn [allocs deallocs ctors dtors flat_map app].
      rewrite !app_nil_r. split; [reflexivity|]. split; [reflexivity|]. split; [reflexivity|]. split; [reflexivity|].
      split; [|split; [|split]].
      + intros x. f_equal. pose proof (fset_perm fr (size t) [] B) as P. rewrite F in P. cbn [app] in P. apply cnt_perm. exact P.
      + rewrite nth_error_app2, Nat.sub_diag by lia. reflexivity.
      + intros x _ Lx. apply nth_error_app1. exact Lx.
      + split; [apply cset_keys; assumption|]. split; [apply fset_nodup; assumption|].
        intros k. rewrite fset_get by assumption. rewrite cset_get.
        destruct (Nat.eqb_spec k (size t)) as [->|Nk]; [constructor|].
        eapply chain_frame; [apply C|]. intros y Hy. apply nth_error_app1. eapply chain_bound; [apply C|exact Hy].
    - match goal with H : nth_error h x = Some (CLink _ ?n) |- _ => rename H into Hx; rename n into nx0 end.
      match goal with H : chain _ _ _ r |- _ => rename H into Hr end.
      rewrite Hx. cbn [obind]. unfold construct. cbn [heap chunks trace].
      assert (Lx : x < length h) by (apply nth_error_Some; congruence).
      rewrite upd_eq by exact Lx.
      assert (LE : (lsize false t <=? size t + ioff false base) = true) by (apply Nat.leb_le; unfold lsize, ioff; lia).
      rewrite LE. cbn [obind].
      pose proof (fset_perm fr (size t) r B) as P. rewrite F in P.
      assert (Q : forall y, cnt y [x] + cnt y (sblk (fset fr (size t) r)) = cnt y (sblk fr)).
      { intros y. pose proof (cnt_perm y _ _ P) as Py. rewrite !cnt_app in Py.
        rewrite (cnt_cons y x r) in Py. rewrite cnt_cons, cnt_nil. unfold sblk. lia. }
      eexists _, x, (fset fr (size t) r), []. split; [reflexivity|]. cbn [heap chunks trace].
      split; [auto|]. split; [rewrite !upd_length; cbn [length]; lia|].
      rewrite !allocs_app, !deallocs_app, !ctors_app, !dtors_app. cbn [allocs deallocs ctors dtors flat_map app].
      rewrite !app_nil_r. split; [reflexivity|]. split; [reflexivity|]. split; [reflexivity|]. split; [reflexivity|].
      split; [|split; [|split]].
      + intros y. rewrite Q. reflexivity.
      + rewrite upd_eq by (rewrite upd_length; exact Lx). unfold ioff. rewrite Nat.add_0_r. reflexivity.
      + intros y N _. rewrite !upd_neq by congruence. reflexivity.
      + split; [apply cset_keys; assumption|]. split; [apply fset_nodup; assumption|].
        intros k. rewrite fset_get by assumption. rewrite cset_get.
        assert (NI : ~ In x (if k =? size t then r else fget fr k)).
        { intros Hin. assert (I2 : In x (sblk (fset fr (size t) r)))
            by (eapply (fget_in _ k); rewrite fset_get by assumption; exact Hin).
          apply cnt_in in I2. pose proof (Q x) as Qx. rewrite cnt_cons, Nat.eqb_refl in Qx. pose proof (ND x). lia. }
        assert (FR : forall p l, chain h (k + ioff false base) p l -> ~ In x l ->
                  chain (upd (upd h x (CRaw (size t + ioff false base))) x
                             (CObj (size t + ioff false base) true t id)) (k + ioff false base) p l).
        { intros p l Hc Hn. eapply chain_frame; [exact Hc|]. intros y Hy.
          rewrite !upd_neq; [reflexivity| |]; intros ->; contradiction. }
        destruct (Nat.eqb_spec k (size t)) as [Ek|Nk].
        * apply FR; [rewrite Ek; exact Hr|exact NI].
        * apply FR; [apply C|exact NI].
  Qed.

  Lemma recycle_framed : forall h c tr t f id b fr, storeok h c fr ->
    nth_error h b = Some (CObj (size t) f t id) -> ~ In b (sblk fr) ->
    exists m' fr', recycle false base ((b, 0), size t) {| heap := h; chunks := c; trace := tr |} = Ok m'
      /\ trace m' = tr ++ [EDtor id] /\ length (heap m') = length h
      /\ (forall x, x <> b -> nth_error (heap m') x = nth_error h x)
      /\ (forall x, cnt x (sblk fr') = cnt x [b] + cnt x (sblk fr))
      /\ storeok (heap m') (chunks m') fr'.
  Proof.
    intros h c tr t f id b fr [A [B C]] N NI.
    unfold recycle. cbn [fst snd heap]. rewrite N. change (ioff false t) with 0. rewrite Nat.eqb_refl.
    unfold getLayout. change (ioff false base) with 0. cbn [fst snd Nat.leb obind Nat.sub Nat.eqb heap chunks trace].
    set (k := size t).
    eexists _, (fset fr k (b :: fget fr k)). split; [reflexivity|]. cbn [heap chunks trace].
    split; [reflexivity|]. split; [apply upd_length|].
    split; [intros x Nx; apply upd_neq; congruence|]. split.
    - intros x. pose proof (fset_perm fr k (b :: fget fr k) B) as P. apply (cnt_perm x) in P.
      rewrite !cnt_app in P. rewrite (cnt_cons x b (fget fr k)) in P. rewrite cnt_cons, cnt_nil. unfold sblk. lia.
    - split; [apply cset_keys; assumption|]. split; [apply fset_nodup; assumption|].
      intros k'. rewrite fset_get by assumption. rewrite cset_get.
      assert (Lb : b < length h) by (apply nth_error_Some; congruence).
      assert (FR : forall k'', chain (upd h b (CLink k (chunk_get c k))) (k'' + ioff false base) (chunk_get c k'') (fget fr k'')).
      { intros k''. eapply chain_frame; [apply C|]. intros y Hy. apply upd_neq. intros ->. apply NI. eapply fget_in. exact Hy. }
      destruct (Nat.eqb_spec k' k) as [->|Nk]; [|apply FR].
      econstructor; [|apply FR]. rewrite upd_eq by exact Lb. unfold ioff. rewrite Nat.add_0_r. reflexivity.
  Qed.

  Lemma destroy_framed : forall h c tr fr, storeok h c fr -> (forall x, cnt x (sblk fr) <= 1) ->
    exists m', destroy_storage {| heap := h; chunks := c; trace := tr |} = Ok m'
      /\ trace m' = tr ++ map EDealloc (sblk fr) /\ length (heap m') = length h
      /\ (forall x, ~ In x (sblk fr) -> nth_error (heap m') x = nth_error h x).
  Proof.
    intros h c tr fr [A [B C]] ND.
    destruct (free_chunks_ok false base fr c {| heap := h; chunks := c; trace := tr |} A B) as [m' [E [T [L F]]]].
    { intros k _. apply C. } { apply cnt_nodup. exact ND. }
    unfold destroy_storage. cbn [chunks]. rewrite E. cbn [obind]. eexists. split; [reflexivity|]. cbn [heap trace] in *.
    split; [exact T|]. split; [exact L|]. intros x Hx. rewrite F.
    destruct (existsb (Nat.eqb x) (concat (map snd fr))) eqn:X; [|reflexivity].
    apply existsb_exists in X. destruct X as [z [Hz Ez]]. apply Nat.eqb_eq in Ez. subst z. contradiction.
  Qed.

  (** *** All of it *)
  Definition blk (p : option held) : list nat := match p with Some (_, ((b, _), _)) => [b] | None => [] end.
  Definition vblk (v : option rvec) : list nat := match v with Some x => flat_map blk (cells x) | None => [] end.
  Definition vown (v : option rvec) : list nat := match v with Some x => [own x] | None => [] end.
  Definition cell_rel (h : list cell) (p : option held) (q : option obj) : Prop :=
    match p, q with
    | None, None => True
    | Some (s, (pt, k)), Some (id, hm) => s = hm /\ exists b t f, pt = (b, 0) /\ k = size t
        /\ nth_error h b = Some (CObj (size t) f t id)
    | _, _ => False
    end.
  Definition vec_rel (h : list cell) (v : option rvec) (q : option (nat * list (option obj))) : Prop :=
    match v, q with
    | None, None => True
    | Some x, Some (hm, l) => own x = hm /\ Forall2 (cell_rel h) (cells x) l
    | _, _ => False
    end.
  Definition tab_rel (h : list cell) (c : option table) (a : bool) (fr : list (nat * list nat)) : Prop :=
    match c with Some c => a = true /\ storeok h c fr | None => a = false /\ fr = [] end.

  Record inv (w : world) (s : plainw) (el : list (option held)) (sl : list (option obj))
             (frs : list (list (nat * list nat))) : Prop := {
    v_len1 : length (tables w) = length (homes s);
    v_len2 : length (tables w) = length frs;
    v_tab : forall h c, nth_error (tables w) h = Some c -> tab_rel (wheap w) c (nth h (homes s) false) (nth h frs []);
    v_vec : Forall2 (vec_rel (wheap w)) (vecs w) (plain s);
    v_fly : Forall2 (cell_rel (wheap w)) el sl;
    v_blk : forall x, cnt x (flat_map vblk (vecs w)) + cnt x (flat_map blk el) + cnt x (flat_map sblk frs)
                      + cnt x (deallocs (wtrace w)) = if x <? length (wheap w) then 1 else 0;
    v_own : forall h, cnt h (flat_map vown (vecs w)) = if nth h (homes s) false then 1 else 0;
    v_alloc : allocs (wtrace w) = seq 0 (length (wheap w));
    v_ctor : ctors (wtrace w) = seq 0 (born s);
    v_dtor : dtors (wtrace w) = died s;
    v_count : count w = born s
  }.

  Lemma inv0 : inv empty_world plain0 [] [] [].
  Proof.
    constructor; cbn; auto.
    - intros [|h] c H; discriminate H.
    - intros [|h]; reflexivity.
  Qed.
End Rec.
