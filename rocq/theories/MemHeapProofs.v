(** The heap invariant of the recycler and its preservation by each operation. *)
From Coq Require Import String Ascii ZArith NArith Arith Bool Lia List Permutation.
From Verif Require Import Common ListAux MemModel MemSpec MemProofs.
Import ListNotations.

(** A live object: number, type, block, flag. *)
Record lent := { l_id : nat; l_ty : ty; l_blk : nat; l_flag : bool }.

Section Heap.
  Context (hasb : bool) (base : ty).
  Definition tok (t : ty) : Prop := hasb = true -> align t = align base.
  Definition up (e : lent) : uptr := ((l_blk e, ioff hasb (l_ty e)), size (l_ty e)).

  Lemma tok_ioff : forall t, tok t -> ioff hasb t = ioff hasb base.
  Proof. unfold tok, ioff. destruct hasb; auto. Qed.

  Inductive chain (h : list cell) (sz : nat) : option ptr -> list nat -> Prop :=
  | chain_nil : chain h sz None []
  | chain_cons : forall x nx l, nth_error h x = Some (CLink sz nx) -> chain h sz nx l ->
      chain h sz (Some (x, 0)) (x :: l).

  Record minv (m : mem) (live : list lent) (fr : list (nat * list nat)) : Prop := {
    i_keys : map fst (chunks m) = map fst fr;
    i_nodup : NoDup (map fst fr);
    i_blk : Permutation (map l_blk live ++ concat (map snd fr)) (seq 0 (length (heap m)));
    i_live : Forall (fun e => tok (l_ty e) /\
      nth_error (heap m) (l_blk e) = Some (CObj (lsize hasb (l_ty e)) (l_flag e) (l_ty e) (l_id e))) live;
    i_chain : forall k, chain (heap m) (k + ioff hasb base) (chunk_get (chunks m) k)
                              (concat (map snd (filter (fun x => fst x =? k) fr)));
    i_alloc : allocs (trace m) = seq 0 (length (heap m));
    i_dealloc : deallocs (trace m) = []
  }.

  (** Free lists as an association list. *)
  Definition fget (fr : list (nat * list nat)) (k : nat) : list nat := concat (map snd (filter (fun x => fst x =? k) fr)).
  Fixpoint fset (fr : list (nat * list nat)) (k : nat) (l : list nat) : list (nat * list nat) :=
    match fr with
    | [] => [(k, l)]
    | (k', l') :: fr' => if k =? k' then (k', l) :: fr' else (k', l') :: fset fr' k l
    end.

  Lemma fget_nil : forall fr k, ~ In k (map fst fr) -> fget fr k = [].
  Proof.
    unfold fget. induction fr as [|[k' l] fr IH]; intros k H; cbn [filter]; [reflexivity|].
    cbn [map fst In] in H. cbn [fst]. destruct (Nat.eqb_spec k' k); [tauto|]. apply IH. tauto.
  Qed.
  Lemma fget_cons : forall fr k k' l, ~ In k' (map fst fr) ->
    fget ((k', l) :: fr) k = if k =? k' then l else fget fr k.
  Proof.
    intros fr k k' l H. unfold fget at 1. cbn [filter fst]. rewrite (Nat.eqb_sym k' k).
    destruct (Nat.eqb_spec k k') as [->|N]; [|reflexivity].
    cbn [map snd concat]. pose proof (fget_nil fr k' H) as E. unfold fget in E. rewrite E. apply app_nil_r.
  Qed.
  Lemma fset_keys : forall fr k l, forall x, In x (map fst (fset fr k l)) <-> x = k \/ In x (map fst fr).
  Proof.
    induction fr as [|[k' l'] fr IH]; intros k l x; cbn [fset].
    - cbn. intuition.
    - destruct (Nat.eqb_spec k k') as [->|N]; cbn [map fst In]; [intuition|]. rewrite IH. intuition.
  Qed.
  Lemma fset_nodup : forall fr k l, NoDup (map fst fr) -> NoDup (map fst (fset fr k l)).
  Proof.
    induction fr as [|[k' l'] fr IH]; intros k l H; cbn [fset].
    - constructor; [auto|constructor].
    - destruct (Nat.eqb_spec k k') as [->|N]; [exact H|]. cbn [map fst] in *. inversion H; subst.
      constructor; [|apply IH; assumption]. rewrite fset_keys. intuition.
  Qed.
  Lemma fset_get : forall fr k l, NoDup (map fst fr) -> forall k', fget (fset fr k l) k' = if k' =? k then l else fget fr k'.
  Proof.
    induction fr as [|[k0 l0] fr IH]; intros k l H k'; cbn [fset].
    - rewrite fget_cons by (cbn; auto). reflexivity.
    - cbn [map fst] in H. inversion H; subst. destruct (Nat.eqb_spec k k0) as [->|N].
      + rewrite !fget_cons by assumption. destruct (k' =? k0); reflexivity.
      + rewrite fget_cons by (rewrite fset_keys; intuition).
        rewrite fget_cons by assumption. rewrite IH by assumption.
        destruct (Nat.eqb_spec k' k0) as [->|N2]; [|reflexivity].
        destruct (Nat.eqb_spec k0 k); [congruence|reflexivity].
  Qed.
  Lemma fset_perm : forall fr k l, NoDup (map fst fr) ->
    Permutation (fget fr k ++ concat (map snd (fset fr k l))) (l ++ concat (map snd fr)).
  Proof.
    induction fr as [|[k0 l0] fr IH]; intros k l H; cbn [fset].
    - cbn. reflexivity.
    - cbn [map fst] in H. inversion H; subst. rewrite fget_cons by assumption.
      destruct (Nat.eqb_spec k k0) as [->|N]; cbn [map snd concat].
      + rewrite !app_assoc. apply Permutation_app_tail. apply Permutation_app_comm.
      + rewrite !app_assoc, (Permutation_app_comm _ l0), <- app_assoc, IH by assumption.
        rewrite !app_assoc. apply Permutation_app_tail. apply Permutation_app_comm.
  Qed.
  Lemma cset_keys : forall c k p fr l, map fst c = map fst fr -> map fst (chunk_set c k p) = map fst (fset fr k l).
  Proof.
    induction c as [|[k' q] c IH]; intros k p [|[k0 l0] fr] l H; cbn in H; try discriminate; cbn [chunk_set fset]; [reflexivity|].
    injection H as -> H. destruct (k =? k0); cbn [map fst]; f_equal; auto.
  Qed.
  Lemma cset_get : forall c k p k', chunk_get (chunk_set c k p) k' = if k' =? k then p else chunk_get c k'.
  Proof.
    induction c as [|[k0 q] c IH]; intros k p k'; cbn [chunk_set chunk_get]; [reflexivity|].
    destruct (Nat.eqb_spec k k0) as [->|N]; cbn [chunk_get].
    - destruct (k' =? k0); reflexivity.
    - rewrite IH. destruct (Nat.eqb_spec k' k0) as [->|N2]; [|reflexivity].
      destruct (Nat.eqb_spec k0 k); [congruence|reflexivity].
  Qed.

  Lemma chain_frame : forall h h' sz p l, chain h sz p l ->
    (forall x, In x l -> nth_error h' x = nth_error h x) -> chain h' sz p l.
  Proof.
    induction 1 as [|x nx l Hx Hc IH]; intros F; [apply chain_nil|]. apply chain_cons with (nx := nx).
    - rewrite F by (left; reflexivity). exact Hx.
    - apply IH. intros y Hy. apply F. right. exact Hy.
  Qed.

  Lemma fget_in : forall fr k x, In x (fget fr k) -> In x (concat (map snd fr)).
  Proof.
    intros fr k x. unfold fget. rewrite !in_concat. intros [l [H Hx]]. exists l. split; [|exact Hx].
    apply in_map_iff in H. destruct H as [[k' l'] [<- Hf]]. apply filter_In in Hf. apply in_map_iff.
    exists (k', l'). split; [reflexivity|]. apply Hf.
  Qed.

  Lemma minv_perm : forall m live live' fr, Permutation live live' -> minv m live fr -> minv m live' fr.
  Proof.
    intros m live live' fr P [I1 I2 I3 I4 I5 I6 I7]. constructor; auto.
    - rewrite <- I3. apply Permutation_app_tail. apply Permutation_map. symmetry. exact P.
    - eapply Permutation_Forall; eassumption.
  Qed.

  Lemma perm_lt : forall m live fr x, minv m live fr -> In x (map l_blk live ++ concat (map snd fr)) -> x < length (heap m).
  Proof.
    intros m live fr x I H. eapply Permutation_in in H; [|apply (i_blk _ _ _ I)]. apply in_seq in H. lia.
  Qed.
  Lemma all_nodup : forall m live fr, minv m live fr -> NoDup (map l_blk live ++ concat (map snd fr)).
  Proof.
    intros m live fr I. eapply Permutation_NoDup; [symmetry; apply (i_blk _ _ _ I)|]. apply seq_NoDup.
  Qed.

  Lemma NoDup_app_r : forall {A} (a b : list A) x, NoDup (a ++ b) -> In x a -> In x b -> False.
  Proof.
    induction a as [|y a IH]; intros b x H Ha Hb; [contradiction|]. cbn in H. inversion H; subst.
    destruct Ha as [->|Ha]; [|eauto]. apply H2. apply in_or_app. auto.
  Qed.

  Lemma minv_empty : minv empty_mem [] [].
  Proof. constructor; cbn; auto; try constructor. Qed.

  Lemma allocs_app : forall a b, allocs (a ++ b) = allocs a ++ allocs b.
  Proof. intros. apply flat_map_app. Qed.
  Lemma deallocs_app : forall a b, deallocs (a ++ b) = deallocs a ++ deallocs b.
  Proof. intros. apply flat_map_app. Qed.
  Lemma ctors_app : forall a b, ctors (a ++ b) = ctors a ++ ctors b.
  Proof. intros. apply flat_map_app. Qed.
  Lemma dtors_app : forall a b, dtors (a ++ b) = dtors a ++ dtors b.
  Proof. intros. apply flat_map_app. Qed.

  (** *** create *)
  Lemma create_ok : forall m live fr t id, minv m live fr -> tok t ->
    exists m' b fr', create hasb t id m = Ok (m', up {| l_id := id; l_ty := t; l_blk := b; l_flag := true |})
      /\ minv m' ({| l_id := id; l_ty := t; l_blk := b; l_flag := true |} :: live) fr'
      /\ dtors (trace m') = dtors (trace m) /\ ctors (trace m') = ctors (trace m) ++ [id]
      /\ match fget fr (size t) with
         | [] => b = length (heap m) /\ length (heap m') = S (length (heap m)) /\ fr' = fset fr (size t) []
         | x :: r => b = x /\ length (heap m') = length (heap m) /\ fr' = fset fr (size t) r
         end.
  Proof.
    intros m live fr t id I Ht. pose proof I as [I1 I2 I3 I4 I5 I6 I7].
    unfold create, get_block. pose proof (I5 (size t)) as C. fold (fget fr (size t)) in C.
    destruct (fget fr (size t)) as [|x r] eqn:F; inversion C; subst.
    - (* fresh block *)
      cbn [obind]. unfold construct. cbn [heap chunks trace].
      rewrite nth_error_app2, Nat.sub_diag by lia. cbn [nth_error].
      rewrite Nat.leb_refl. cbn [obind].
      rewrite (upd_app (heap m) []).
      eexists _, (length (heap m)), (fset fr (size t) []). split; [reflexivity|].
      split; [|cbn [trace heap]; rewrite !dtors_app, !ctors_app, app_length; cbn; rewrite ?app_nil_r; repeat split; lia].
      constructor; cbn [heap chunks trace].
      + apply cset_keys. assumption.
      + apply fset_nodup. assumption.
      + pose proof (fset_perm fr (size t) [] I2) as P. rewrite F in P. cbn [app] in P.
        cbn [map l_blk]. rewrite P. cbn [app]. rewrite I3, app_length. cbn [length].
        rewrite Nat.add_1_r, seq_S. cbn [Nat.add]. apply Permutation_cons_append.
      + constructor; cbn [l_ty l_blk l_flag l_id].
        * split; [assumption|]. rewrite nth_error_app2, Nat.sub_diag by lia. reflexivity.
        * eapply Forall_impl; [|exact I4]. cbn beta. intros e [T N]. split; [exact T|].
          rewrite nth_error_app1; [exact N|]. apply nth_error_Some. congruence.
      + intros k. fold (fget (fset fr (size t) []) k). rewrite fset_get by assumption. rewrite cset_get.
        destruct (Nat.eqb_spec k (size t)) as [->|Nk]; [constructor|].
        eapply chain_frame; [apply I5|]. intros y Hy. apply fget_in in Hy.
        rewrite nth_error_app1; [reflexivity|]. eapply perm_lt; [exact I|]. apply in_or_app. auto.
      + rewrite !allocs_app, app_length. cbn [allocs flat_map app length]. rewrite app_nil_r, I6, Nat.add_1_r, seq_S. reflexivity.
      + rewrite !deallocs_app, I7. reflexivity.
    - (* recycled block *)
      match goal with H : nth_error (heap m) x = Some (CLink _ ?n) |- _ => rename H into Hx; rename n into nx0 end.
      match goal with H : chain _ _ _ r |- _ => rename H into Hr end.
      rewrite Hx. cbn [obind]. unfold construct. cbn [heap chunks trace].
      assert (Lx : x < length (heap m)) by (apply nth_error_Some; congruence).
      rewrite upd_eq by exact Lx.
      assert (LE : (lsize hasb t <=? size t + ioff hasb base) = true)
        by (apply Nat.leb_le; unfold lsize; rewrite (tok_ioff t Ht); lia).
      rewrite LE. cbn [obind].
      eexists _, x, (fset fr (size t) r). split; [reflexivity|].
      split; [|cbn [trace heap]; rewrite !dtors_app, !ctors_app, !upd_length; cbn; rewrite ?app_nil_r; repeat split; lia].
      pose proof (fset_perm fr (size t) r I2) as P. rewrite F in P. cbn [app] in P.
      pose proof (all_nodup _ _ _ I) as ND.
      assert (Ix : In x (concat (map snd fr))) by (apply (fget_in fr (size t)); rewrite F; left; reflexivity).
      assert (NL : ~ In x (map l_blk live)) by (intros HL; eapply NoDup_app_r; eassumption).
      assert (ND2 : NoDup (concat (map snd fr))).
      { clear - ND. induction (map l_blk live); [exact ND|]. inversion ND. auto. }
      assert (NX : NoDup (x :: concat (map snd (fset fr (size t) r)))).
      { assert (Q : Permutation (x :: concat (map snd (fset fr (size t) r))) (concat (map snd fr))).
        { apply (Permutation_app_inv_l r). rewrite <- P. symmetry. apply Permutation_middle. }
        eapply Permutation_NoDup; [symmetry; exact Q|exact ND2]. }
      constructor; cbn [heap chunks trace].
      + apply cset_keys. assumption.
      + apply fset_nodup. assumption.
      + cbn [map l_blk]. rewrite !upd_length, <- I3. cbn [app].
        rewrite Permutation_middle. apply Permutation_app_head.
        apply (Permutation_app_inv_l r). rewrite <- P. symmetry. apply Permutation_middle.
      + constructor; cbn [l_ty l_blk l_flag l_id].
        * split; [assumption|]. rewrite upd_eq by (rewrite upd_length; exact Lx).
          unfold lsize. rewrite (tok_ioff t Ht), Nat.add_comm. reflexivity.
        * rewrite Forall_forall in *. intros e He. destruct (I4 e He) as [T N]. split; [exact T|].
          rewrite !upd_neq; [exact N| |]; intros ->; apply NL; apply in_map; exact He.
      + intros k. fold (fget (fset fr (size t) r) k). rewrite fset_get by assumption. rewrite cset_get.
        assert (FR : forall p l, chain (heap m) (k + ioff hasb base) p l -> ~ In x l ->
                  chain (upd (upd (heap m) x (CRaw (size t + ioff hasb base))) x
                             (CObj (size t + ioff hasb base) true t id)) (k + ioff hasb base) p l).
        { intros p l Hc Hn. eapply chain_frame; [exact Hc|]. intros y Hy.
          rewrite !upd_neq; [reflexivity| |]; intros ->; contradiction. }
        assert (NI : ~ In x (if k =? size t then r else fget fr k)).
        { inversion NX as [|? ? NX1 NX2]; subst. intros Hin. apply NX1. eapply (fget_in _ k). rewrite fset_get by assumption. exact Hin. }
        destruct (Nat.eqb_spec k (size t)) as [->|Nk]; apply FR; auto. apply I5.
      + rewrite !allocs_app, !upd_length. cbn [allocs flat_map app]. rewrite app_nil_r. exact I6.
      + rewrite !deallocs_app, I7. reflexivity.
  Qed.

  (** *** recycle *)
  Lemma recycle_ok : forall m live fr e, minv m (e :: live) fr ->
    exists m', recycle hasb base (up e) m = Ok m'
      /\ minv m' live (fset fr (size (l_ty e)) (l_blk e :: fget fr (size (l_ty e))))
      /\ trace m' = trace m ++ [EDtor (l_id e)] /\ length (heap m') = length (heap m).
  Proof.
    intros m live fr e I. pose proof I as [I1 I2 I3 I4 I5 I6 I7].
    inversion I4 as [|? ? [T N] I4']; subst.
    unfold recycle, up. cbn [fst snd]. rewrite N. rewrite Nat.eqb_refl.
    unfold getLayout. cbn [fst snd]. rewrite (tok_ioff _ T), Nat.leb_refl. cbn [obind fst snd].
    rewrite Nat.sub_diag. cbn [Nat.eqb].
    eexists. split; [reflexivity|]. cbn [trace heap]. split; [|split; [reflexivity|apply upd_length]].
    set (k := size (l_ty e)). set (b := l_blk e) in *.
    pose proof (all_nodup _ _ _ I) as ND. cbn [map app] in ND. fold b in ND. inversion ND as [|? ? Nb ND']; subst.
    assert (Lb : b < length (heap m)) by (apply nth_error_Some; congruence).
    constructor; cbn [heap chunks trace].
    - apply cset_keys. assumption.
    - apply fset_nodup. assumption.
    - rewrite upd_length, <- I3. cbn [map app]. fold b.
      pose proof (fset_perm fr k (b :: fget fr k) I2) as P.
      change ((b :: fget fr k) ++ concat (map snd fr)) with (b :: (fget fr k ++ concat (map snd fr))) in P.
      rewrite Permutation_middle in P. apply Permutation_app_inv_l in P.
      rewrite P. symmetry. apply Permutation_middle.
    - rewrite Forall_forall in *. intros e' He. destruct (I4' e' He) as [T' N']. split; [exact T'|].
      rewrite upd_neq; [exact N'|]. intros E. apply Nb. apply in_or_app. left. rewrite E. apply in_map. exact He.
    - intros k'. fold (fget (fset fr k (b :: fget fr k)) k'). rewrite fset_get by assumption. rewrite cset_get.
      assert (FR : forall k'', chain (upd (heap m) b (CLink (lsize hasb (l_ty e)) (chunk_get (chunks m) k))) (k'' + ioff hasb base)
                     (chunk_get (chunks m) k'') (fget fr k'')).
      { intros k''. eapply chain_frame; [apply I5|]. intros y Hy. rewrite upd_neq; [reflexivity|].
        intros ->. apply Nb. apply in_or_app. right. eapply fget_in. exact Hy. }
      destruct (Nat.eqb_spec k' k) as [->|Nk]; [|apply FR].
      econstructor; [|apply FR]. rewrite upd_eq by exact Lb.
      unfold lsize, k. rewrite (tok_ioff _ T), Nat.add_comm. reflexivity.
    - rewrite allocs_app, upd_length. cbn [allocs flat_map app]. rewrite app_nil_r. exact I6.
    - rewrite deallocs_app, I7. reflexivity.
  Qed.

  (** *** flags *)
  Lemma getBool_ok : forall m live fr e, minv m live fr -> In e live -> getBool hasb base (fst (up e)) m = Ok (l_flag e).
  Proof.
    intros m live fr e [I1 I2 I3 I4 I5 I6 I7] H. rewrite Forall_forall in I4. destruct (I4 e H) as [T N].
    unfold getBool, getLayout, up. cbn [fst snd]. rewrite (tok_ioff _ T), Nat.leb_refl. cbn [obind fst snd].
    rewrite Nat.sub_diag, N. reflexivity.
  Qed.
  Definition set_flag (e : lent) (x : bool) : lent :=
    {| l_id := l_id e; l_ty := l_ty e; l_blk := l_blk e; l_flag := x |}.
  Lemma setBool_ok : forall m e live fr x, minv m (e :: live) fr ->
    exists m', setBool hasb base (fst (up e)) x m = Ok m' /\ minv m' (set_flag e x :: live) fr /\ trace m' = trace m.
  Proof.
    intros m e live fr x I. pose proof I as [I1 I2 I3 I4 I5 I6 I7].
    inversion I4 as [|? ? [T N] I4']; subst.
    unfold setBool, getLayout, up. cbn [fst snd]. rewrite (tok_ioff _ T), Nat.leb_refl. cbn [obind fst snd].
    rewrite Nat.sub_diag, N. eexists. split; [reflexivity|]. split; [|reflexivity].
    set (b := l_blk e) in *.
    pose proof (all_nodup _ _ _ I) as ND. cbn [map app] in ND. fold b in ND. inversion ND as [|? ? Nb ND']; subst.
    assert (Lb : b < length (heap m)) by (apply nth_error_Some; congruence).
    constructor; cbn [heap chunks trace]; auto.
    - rewrite upd_length. exact I3.
    - constructor; cbn [set_flag l_ty l_blk l_flag l_id].
      + split; [exact T|]. fold b. rewrite upd_eq by exact Lb. reflexivity.
      + rewrite Forall_forall in *. intros e' He. destruct (I4' e' He) as [T' N']. split; [exact T'|].
        rewrite upd_neq; [exact N'|]. intros E. apply Nb. apply in_or_app. left. rewrite E. apply in_map. exact He.
    - intros k. eapply chain_frame; [apply I5|]. intros y Hy. rewrite upd_neq; [reflexivity|].
      intros ->. apply Nb. apply in_or_app. right. eapply fget_in. exact Hy.
    - rewrite upd_length. exact I6.
  Qed.

  Lemma object_ok : forall m live fr e, minv m live fr -> In e live -> object_at m (fst (up e)) = Some (l_id e).
  Proof.
    intros m live fr e [I1 I2 I3 I4 I5 I6 I7] H. rewrite Forall_forall in I4. destruct (I4 e H) as [T N].
    unfold object_at, up. cbn [fst]. rewrite N. reflexivity.
  Qed.

  (** *** destruction of the storage *)
  Lemma chain_len : forall h sz p l, chain h sz p l -> NoDup l -> length l <= length h.
  Proof.
    intros h sz p l H ND. rewrite <- (seq_length (length h) 0). apply NoDup_incl_length; [exact ND|].
    intros x Hx. apply in_seq. split; [lia|]. cbn. clear ND. induction H; [contradiction|].
    destruct Hx as [->|Hx]; [|auto]. apply nth_error_Some. congruence.
  Qed.

  Lemma free_chain_ok : forall l fuel sz p m, chain (heap m) sz p l -> NoDup l -> length l <= fuel ->
    exists m', free_chain fuel p m = Ok m' /\ trace m' = trace m ++ map EDealloc l
      /\ length (heap m') = length (heap m) /\ chunks m' = chunks m
      /\ forall x, nth_error (heap m') x = if existsb (Nat.eqb x) l then Some CFreed else nth_error (heap m) x.
  Proof.
    induction l as [|x l IH]; intros fuel sz p m H ND Hf; inversion H; subst.
    - exists m. destruct fuel; cbn; rewrite app_nil_r; repeat split.
    - destruct fuel as [|f]; [cbn in Hf; lia|]. cbn [free_chain]. rewrite H3.
      inversion ND; subst.
      assert (Lx : x < length (heap m)) by (apply nth_error_Some; congruence).
      edestruct (IH f sz nx {| heap := upd (heap m) x CFreed; chunks := chunks m; trace := trace m ++ [EDealloc x] |})
        as [m' [E [T [L [C F]]]]]; [|assumption|cbn in Hf; lia|].
      { cbn [heap]. eapply chain_frame; [eassumption|]. intros y Hy. apply upd_neq. intros ->. contradiction. }
      exists m'. cbn [heap chunks trace] in *. rewrite upd_length in L. split; [exact E|]. split; [|split; [exact L|split; [exact C|]]].
      + rewrite T, <- app_assoc. reflexivity.
      + intros y. rewrite F. cbn [existsb]. destruct (Nat.eqb_spec y x) as [->|N]; cbn [orb].
        * destruct (existsb (Nat.eqb x) l); [reflexivity|]. apply upd_eq. exact Lx.
        * destruct (existsb (Nat.eqb y) l); [reflexivity|]. apply upd_neq. congruence.
  Qed.

  Lemma free_chunks_ok : forall fr c m, map fst c = map fst fr -> NoDup (map fst fr) ->
    (forall k, In k (map fst fr) -> chain (heap m) (k + ioff hasb base) (chunk_get c k) (fget fr k)) ->
    NoDup (concat (map snd fr)) ->
    exists m', free_chunks c m = Ok m' /\ trace m' = trace m ++ map EDealloc (concat (map snd fr))
      /\ length (heap m') = length (heap m)
      /\ forall x, nth_error (heap m') x = if existsb (Nat.eqb x) (concat (map snd fr)) then Some CFreed else nth_error (heap m) x.
  Proof.
    induction fr as [|[k l] fr IH]; intros [|[k' p] c] m K ND C NDb; cbn in K; try discriminate.
    - exists m. cbn. rewrite app_nil_r. repeat split.
    - injection K as -> K. cbn [map fst snd concat] in *. inversion ND as [|? ? Nk ND']; subst.
      pose proof (C k (or_introl eq_refl)) as C1. rewrite fget_cons, Nat.eqb_refl in C1 by assumption.
      cbn [chunk_get] in C1. rewrite Nat.eqb_refl in C1.
      assert (NDl : NoDup l) by (clear - NDb; induction l; [constructor|inversion NDb; subst; constructor; [rewrite in_app_iff in *; tauto|auto]]).
      assert (NDr : NoDup (concat (map snd fr))) by (clear - NDb; induction l; [exact NDb|inversion NDb; auto]).
      destruct (free_chain_ok l (length (heap m)) _ _ m C1 NDl (chain_len _ _ _ _ C1 NDl)) as [m1 [E1 [T1 [L1 [_ F1]]]]].
      destruct (IH c m1) as [m2 [E2 [T2 [L2 F2]]]]; auto.
      { intros k2 Hk. pose proof (C k2 (or_intror Hk)) as C2. rewrite fget_cons in C2 by assumption.
        cbn [chunk_get] in C2. destruct (Nat.eqb_spec k2 k) as [->|Nq]; [contradiction|].
        eapply chain_frame; [exact C2|]. intros y Hy. rewrite F1.
        destruct (existsb (Nat.eqb y) l) eqn:X; [|reflexivity]. apply existsb_exists in X. destruct X as [z [Hz Ez]].
        apply Nat.eqb_eq in Ez. subst z. exfalso. eapply NoDup_app_r; [exact NDb|exact Hz|]. eapply fget_in. exact Hy. }
      exists m2. cbn [free_chunks]. rewrite E1. cbn [obind]. split; [exact E2|]. split; [|split; [congruence|]].
      + rewrite T2, T1, map_app, app_assoc. reflexivity.
      + intros x. rewrite F2, F1, existsb_app.
        destruct (existsb (Nat.eqb x) l), (existsb (Nat.eqb x) (concat (map snd fr))); reflexivity.
  Qed.

  Lemma allocs_dealloc : forall l, allocs (map EDealloc l) = [].
  Proof. induction l; cbn; auto. Qed.
  Lemma deallocs_dealloc : forall l, deallocs (map EDealloc l) = l.
  Proof. induction l; cbn; f_equal; auto. Qed.
  Lemma dtors_dealloc : forall l, dtors (map EDealloc l) = [].
  Proof. induction l; cbn; auto. Qed.
  Lemma ctors_dealloc : forall l, ctors (map EDealloc l) = [].
  Proof. induction l; cbn; auto. Qed.

  Lemma destroy_storage_ok : forall m fr, minv m [] fr ->
    exists m', destroy_storage m = Ok m'
      /\ Permutation (deallocs (trace m')) (allocs (trace m')) /\ NoDup (deallocs (trace m'))
      /\ allocs (trace m') = allocs (trace m)
      /\ ctors (trace m') = ctors (trace m) /\ dtors (trace m') = dtors (trace m)
      /\ Forall (fun c => c = CFreed) (heap m').
  Proof.
    intros m fr I. pose proof I as [I1 I2 I3 I4 I5 I6 I7]. cbn [map app] in I3.
    destruct (free_chunks_ok fr (chunks m) m I1 I2) as [m' [E [T [L F]]]].
    { intros k _. apply I5. }
    { eapply Permutation_NoDup; [symmetry; exact I3|apply seq_NoDup]. }
    unfold destroy_storage. rewrite E. cbn [obind]. eexists. split; [reflexivity|]. cbn [trace heap].
    rewrite T, deallocs_app, allocs_app, allocs_dealloc, deallocs_dealloc, I7, app_nil_r.
    rewrite dtors_app, dtors_dealloc, app_nil_r, ctors_app, ctors_dealloc, app_nil_r. cbn [app].
    split; [rewrite I6; exact I3|]. split; [eapply Permutation_NoDup; [symmetry; exact I3|apply seq_NoDup]|].
    repeat split. rewrite Forall_forall. intros c Hc. apply In_nth_error in Hc. destruct Hc as [x Hx].
    rewrite F in Hx. assert (Lx : x < length (heap m)) by (rewrite <- L; apply nth_error_Some; rewrite F; congruence).
    assert (Ix : In x (concat (map snd fr))) by (eapply Permutation_in; [symmetry; exact I3|apply in_seq; lia]).
    assert (X : existsb (Nat.eqb x) (concat (map snd fr)) = true)
      by (apply existsb_exists; exists x; split; [exact Ix|apply Nat.eqb_refl]).
    rewrite X in Hx. congruence.
  Qed.
End Heap.
