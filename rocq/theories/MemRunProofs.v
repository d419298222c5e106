(** Histories of the recycler and of the manager refine their specifications. *)
From Coq Require Import String Ascii ZArith NArith Arith Bool Lia List Permutation.
From Verif Require Import Common ListAux MemModel MemSpec MemProofs MemHeapProofs.
Import ListNotations.

Definition somes {A} (l : list (option A)) : list A := flat_map (fun x => match x with Some e => [e] | None => [] end) l.
Lemma somes_app : forall {A} (a b : list (option A)), somes (a ++ b) = somes a ++ somes b.
Proof. intros. apply flat_map_app. Qed.
Lemma somes_map : forall {A} (l : list A), somes (map Some l) = l.
Proof. induction l; cbn; f_equal; auto. Qed.
Lemma somes_none : forall {A} n, somes (repeat (@None A) n) = [].
Proof. induction n; cbn; auto. Qed.
Lemma somes_upd : forall {A} (l : list (option A)) k e, nth_error l k = Some (Some e) ->
  Permutation (somes l) (e :: somes (upd l k None)).
Proof.
  intros A l k e H. destruct (nth_error_split' _ _ _ H) as [a [b [-> <-]]]. rewrite upd_app.
  rewrite !somes_app. cbn. symmetry. apply Permutation_middle.
Qed.
Lemma perm_eq : forall {A} (l r : list A), l = r -> Permutation l r.
Proof. intros A l r ->. apply Permutation_refl. Qed.
Lemma perm_filter' : forall {A} (p : A -> bool) l r, Permutation l r -> Permutation (filter p l) (filter p r).
Proof.
  intros A p l r H. induction H; cbn; auto.
  - destruct (p x); auto.
  - destruct (p x), (p y); auto. constructor.
  - etransitivity; eassumption.
Qed.

(** ** Recycler *)
Section Rec.
  Context (hasb : bool) (base : ty).
  Definition rinv (s : rstate) (sp : rspec) : Prop :=
    exists L fr,
      minv hasb base (fst s) (somes L) fr /\ (forall k, fget fr k = stack sp k) /\ length (heap (fst s)) = fresh sp
      /\ snd s = map (option_map (up hasb)) L /\ placed sp = map (option_map (fun e => (l_ty e, l_blk e))) L
      /\ (forall k e, nth_error L k = Some (Some e) -> l_id e = k)
      /\ ctors (trace (fst s)) = seq 0 (length L)
      /\ (forall k, In k (dtors (trace (fst s))) <-> nth_error L k = Some None) /\ NoDup (dtors (trace (fst s))).

  Lemma rec_step_ok : forall o s sp sp', rinv s sp ->
    (forall t, o = RCreate t -> tok hasb base t) ->
    rspec_step o sp = Some sp' -> exists s', rec_step hasb base o s = Ok s' /\ rinv s' sp'.
  Proof.
    intros o [m held] sp sp' (L & fr & I & Hs & Hf & Hh & Hp & Hid & Hc & Hd & Hn) Ht Hsp. cbn [fst snd] in *.
    destruct o as [t|k]; cbn [rec_step rspec_step] in *.
    - destruct (create_ok hasb base m (somes L) fr t (length held) I (Ht t eq_refl))
        as (m' & b & fr' & E & I' & D & C & B).
      rewrite E. cbn [obind]. eexists. split; [reflexivity|].
      assert (LL : length L = length held) by (rewrite Hh, map_length; reflexivity).
      exists (L ++ [Some {| l_id := length held; l_ty := t; l_blk := b; l_flag := true |}]), fr'. cbn [fst snd].
      pose proof (i_nodup _ _ _ _ _ I) as NDk.
      assert (X : (forall k, fget fr' k = stack sp' k) /\ length (heap m') = fresh sp'
                  /\ placed sp' = placed sp ++ [Some (t, b)]).
      { rewrite Hs in B. destruct (stack sp (size t)) as [|x r] eqn:S; injection Hsp as <-; cbn [stack fresh placed];
          destruct B as (-> & HL & ->); rewrite ?HL, ?Hf; (split; [|split; [try lia|reflexivity]]);
          intros k; rewrite fset_get, ?Hs by assumption; unfold set_stack;
          destruct (Nat.eqb_spec k (size t)) as [->|]; auto. }
      destruct X as (X1 & X2 & X3).
      split; [|split; [exact X1|split; [exact X2|split; [|split; [|split; [|split; [|split]]]]]]].
      + eapply minv_perm; [|exact I']. rewrite somes_app. cbn. apply Permutation_cons_append.
      + rewrite map_app, Hh. reflexivity.
      + rewrite X3, map_app, Hp. reflexivity.
      + intros k e Hk. destruct (Nat.lt_ge_cases k (length L)) as [Q|Q].
        * rewrite nth_error_app1 in Hk by exact Q. auto.
        * rewrite nth_error_app2 in Hk by exact Q. destruct (k - length L) as [|j] eqn:J; cbn in Hk.
          -- injection Hk as <-. cbn. lia.
          -- destruct j; discriminate.
      + rewrite C, Hc, app_length, <- LL. cbn [length]. rewrite Nat.add_1_r, seq_S. reflexivity.
      + intros k. rewrite D, Hd. destruct (Nat.lt_ge_cases k (length L)) as [Q|Q].
        * rewrite nth_error_app1 by exact Q. reflexivity.
        * rewrite nth_error_app2 by exact Q. split; intros Hk.
          -- assert (k < length L) by (apply nth_error_Some; congruence). lia.
          -- destruct (k - length L) as [|j]; cbn in Hk; [discriminate|destruct j; discriminate].
      + rewrite D. exact Hn.
    - rewrite Hp, nth_error_map in Hsp. rewrite Hh, nth_error_map.
      destruct (nth_error L k) as [[e|]|] eqn:K; cbn [option_map] in *; [| |discriminate].
      + injection Hsp as <-.
        pose proof (minv_perm _ _ _ _ _ _ (somes_upd L k e K) I) as I'.
        destruct (recycle_ok hasb base m _ fr e I') as (m' & E & I'' & T & HL).
        rewrite E. cbn [obind]. eexists. split; [reflexivity|].
        exists (upd L k None), (fset fr (size (l_ty e)) (l_blk e :: fget fr (size (l_ty e)))).
        cbn [fst snd stack fresh placed].
        assert (Kl : k < length L) by (apply nth_error_Some; congruence).
        pose proof (i_nodup _ _ _ _ _ I) as NDk.
        split; [exact I''|]. split; [|split; [congruence|split; [|split; [|split; [|split; [|split]]]]]].
        * intros k'. rewrite fset_get by assumption. unfold set_stack. rewrite !Hs. reflexivity.
        * rewrite upd_notin_map. reflexivity.
        * rewrite upd_notin_map. reflexivity.
        * intros k' e' Hk'. destruct (Nat.eq_dec k k') as [->|N].
          -- rewrite upd_eq in Hk' by exact Kl. discriminate.
          -- rewrite upd_neq in Hk' by exact N. auto.
        * rewrite T, ctors_app, upd_length. cbn. rewrite app_nil_r. exact Hc.
        * intros k'. rewrite T, dtors_app, in_app_iff, Hd. cbn.
          rewrite (Hid k e K). destruct (Nat.eq_dec k k') as [->|N].
          -- rewrite upd_eq by exact Kl. tauto.
          -- rewrite upd_neq by exact N. tauto.
        * rewrite T, dtors_app. cbn. rewrite <- Permutation_cons_append.
          constructor; [|exact Hn]. rewrite Hd, (Hid k e K), K. discriminate.
      + injection Hsp as <-. eexists. split; [reflexivity|]. exists L, fr. cbn [fst snd]. repeat (split; [assumption || reflexivity|]). assumption.
  Qed.

  Lemma rec_step_none : forall o s sp, rinv s sp -> rspec_step o sp = None -> rec_step hasb base o s = UB.
  Proof.
    intros o [m held] sp (L & fr & I & Hs & Hf & Hh & Hp & R) Hn. cbn [fst snd] in *.
    destruct o as [t|k]; cbn [rec_step rspec_step] in *.
    - destruct (stack sp (size t)); discriminate.
    - rewrite Hp, nth_error_map in Hn. rewrite Hh, nth_error_map.
      destruct (nth_error L k) as [[e|]|]; cbn in *; try discriminate. reflexivity.
  Qed.

  Lemma rinv0 : rinv (empty_mem, []) rspec0.
  Proof.
    exists [], []. cbn [fst snd]. split; [apply minv_empty|]. cbn. repeat split; auto.
    - intros k e H. destruct k; discriminate.
    - intros [].
    - destruct k; discriminate.
    - constructor.
  Qed.

  Lemma rec_run_ok : forall ops s sp sp', rinv s sp ->
    (forall t, In (RCreate t) ops -> tok hasb base t) ->
    rspec_run ops sp = Some sp' -> exists s', rec_run hasb base ops s = Ok s' /\ rinv s' sp'.
  Proof.
    induction ops as [|o ops IH]; intros s sp sp' I Ht H; cbn [rec_run rspec_run] in *.
    - injection H as <-. exists s. auto.
    - destruct (rspec_step o sp) as [sp1|] eqn:E; [|discriminate].
      destruct (rec_step_ok o s sp sp1 I) as [s1 [E1 I1]]; [|exact E|].
      { intros t ->. apply Ht. left. reflexivity. }
      rewrite E1. cbn [obind]. apply (IH s1 sp1); auto. intros t Hin. apply Ht. right. exact Hin.
  Qed.
  Lemma rec_run_none : forall ops s sp, rinv s sp ->
    (forall t, In (RCreate t) ops -> tok hasb base t) ->
    rspec_run ops sp = None -> rec_run hasb base ops s = UB.
  Proof.
    induction ops as [|o ops IH]; intros s sp I Ht H; cbn [rec_run rspec_run] in *; [discriminate|].
    destruct (rspec_step o sp) as [sp1|] eqn:E.
    - destruct (rec_step_ok o s sp sp1 I) as [s1 [E1 I1]]; [|exact E|].
      { intros t ->. apply Ht. left. reflexivity. }
      rewrite E1. cbn [obind]. apply (IH s1 sp1); auto. intros t Hin. apply Ht. right. exact Hin.
    - rewrite (rec_step_none o s sp I E). reflexivity.
  Qed.

  Lemma in_use_somes : forall L sp, placed sp = map (option_map (fun e => (l_ty e, l_blk e))) L ->
    in_use sp = map l_blk (somes L).
  Proof.
    intros L sp H. unfold in_use. rewrite H. clear H. induction L as [|[e|] L IH]; cbn; f_equal; auto.
  Qed.

  Lemma recycler : forall ops sp,
    (forall t, In (RCreate t) ops -> hasb = true -> align t = align base) ->
    rspec_run ops rspec0 = Some sp ->
    exists m held, rec_run hasb base ops (empty_mem, []) = Ok (m, held)
      /\ map (option_map (fun u : uptr => fst (fst u))) held = map (option_map snd) (placed sp)
      /\ (forall k u, nth_error held k = Some (Some u) -> object_at m (fst u) = Some k)
      /\ NoDup (in_use sp)
      /\ allocs (trace m) = seq 0 (fresh sp) /\ deallocs (trace m) = []
      /\ ctors (trace m) = seq 0 (length held)
      /\ (forall k, In k (dtors (trace m)) <-> nth_error held k = Some None) /\ NoDup (dtors (trace m))
      /\ (in_use sp = [] -> exists m', destroy_storage m = Ok m'
            /\ Permutation (deallocs (trace m')) (seq 0 (fresh sp)) /\ dtors (trace m') = dtors (trace m)).
  Proof.
    intros ops sp Ht H. destruct (rec_run_ok ops _ _ _ rinv0 Ht H) as [[m held] [E I]].
    destruct I as (L & fr & I & Hs & Hf & Hh & Hp & Hid & Hc & Hd & Hn). cbn [fst snd] in *.
    pose proof (in_use_somes L sp Hp) as U.
    exists m, held. split; [exact E|]. split; [|split; [|split; [|split; [|split; [|split; [|split; [|split]]]]]]].
    - rewrite Hh, Hp, !map_map. apply map_ext. intros [e|]; reflexivity.
    - intros k u Hk. rewrite Hh, nth_error_map in Hk. destruct (nth_error L k) as [[e|]|] eqn:K; try discriminate.
      cbn in Hk. injection Hk as <-. rewrite <- (Hid k e K). eapply object_ok; [exact I|].
      eapply Permutation_in; [symmetry; apply (somes_upd L k e K)|]. left. reflexivity.
    - rewrite U. pose proof (all_nodup _ _ _ _ _ I) as ND. clear - ND.
      induction (map l_blk (somes L)); [constructor|]. inversion ND; subst. rewrite in_app_iff in *. constructor; tauto.
    - rewrite <- Hf. apply (i_alloc _ _ _ _ _ I).
    - apply (i_dealloc _ _ _ _ _ I).
    - rewrite Hc, Hh, map_length. reflexivity.
    - intros k. rewrite Hd, Hh, nth_error_map. destruct (nth_error L k) as [[e|]|]; cbn; split; congruence.
    - exact Hn.
    - intros U0. rewrite U in U0. apply map_eq_nil in U0. rewrite U0 in I.
      destruct (destroy_storage_ok hasb base m fr I) as (m' & E' & P & ND & A & C & D & F).
      exists m'. split; [exact E'|]. split; [|exact D]. rewrite P, A. rewrite <- Hf. rewrite (i_alloc _ _ _ _ _ I). reflexivity.
  Qed.

  Lemma recycler_invalid : forall ops,
    (forall t, In (RCreate t) ops -> hasb = true -> align t = align base) ->
    rspec_run ops rspec0 = None -> rec_run hasb base ops (empty_mem, []) = UB.
  Proof. intros ops Ht H. eapply rec_run_none; eauto using rinv0. Qed.

  (** Block sizes. *)
  Lemma recycler_sizes : forall ops sp,
    (forall t, In (RCreate t) ops -> hasb = true -> align t = align base) ->
    rspec_run ops rspec0 = Some sp ->
    exists m held, rec_run hasb base ops (empty_mem, []) = Ok (m, held)
      /\ forall k t b, nth_error (placed sp) k = Some (Some (t, b)) ->
           exists f, nth_error (heap m) b = Some (CObj (lsize hasb t) f t k).
  Proof.
    intros ops sp Ht H. destruct (rec_run_ok ops _ _ _ rinv0 Ht H) as [[m held] [E I]].
    destruct I as (L & fr & I & Hs & Hf & Hh & Hp & Hid & Hc & Hd & Hn). cbn [fst snd] in *.
    exists m, held. split; [exact E|]. intros k t b Hk. rewrite Hp, nth_error_map in Hk.
    destruct (nth_error L k) as [[e|]|] eqn:K; try discriminate. cbn in Hk. injection Hk as <- <-.
    pose proof (i_live _ _ _ _ _ I) as F. rewrite Forall_forall in F.
    destruct (F e) as [_ N].
    { eapply Permutation_in; [symmetry; apply (somes_upd L k e K)|]. left. reflexivity. }
    exists (l_flag e). rewrite N, (Hid k e K). reflexivity.
  Qed.
End Rec.

(** Number of blocks for objects of one size: the largest number alive together. *)
Lemma in_use_snoc : forall sp t b f n, 
  in_use {| stack := f; fresh := n; placed := placed sp ++ [Some (t, b)] |} = in_use sp ++ [b].
Proof. intros. unfold in_use. cbn [placed]. rewrite flat_map_app. reflexivity. Qed.

Lemma drop_length : forall (l : list (option (ty * nat))) k t b, nth_error l k = Some (Some (t, b)) ->
  length (flat_map (fun x => match x with Some (_, b) => [b] | None => [] end) l)
  = S (length (flat_map (fun x => match x with Some (_, b) => [b] | None => [] end) (upd l k None))).
Proof.
  intros l k t b H. destruct (nth_error_split' _ _ _ H) as [a [c [-> <-]]]. rewrite upd_app.
  rewrite !flat_map_app, !app_length. cbn. lia.
Qed.

Lemma peak_run : forall sz ops sp sp', (forall t, In (RCreate t) ops -> size t = sz) ->
  (forall t b, In (Some (t, b)) (placed sp) -> size t = sz) ->
  rspec_run ops sp = Some sp' ->
  n_live sp + length (stack sp sz) = fresh sp ->
  fresh sp' = Nat.max (fresh sp) (peak ops sp).
Proof.
  intros sz. induction ops as [|o ops IH]; intros sp sp' Ht Hp H Hf; cbn [rspec_run peak] in *.
  - injection H as <-. lia.
  - destruct (rspec_step o sp) as [sp1|] eqn:E; [|discriminate].
    assert (X : n_live sp1 + length (stack sp1 sz) = fresh sp1
                /\ (forall t b, In (Some (t, b)) (placed sp1) -> size t = sz)
                /\ fresh sp1 = Nat.max (fresh sp) (n_live sp1)).
    { destruct o as [t|k]; cbn [rspec_step] in E.
      - pose proof (Ht t (or_introl eq_refl)) as St. rewrite St in E.
        destruct (stack sp sz) as [|b r] eqn:S; injection E as <-; unfold n_live; rewrite in_use_snoc, app_length;
          cbn [stack fresh placed length]; unfold set_stack; rewrite ?Nat.eqb_refl, ?S; cbn [length] in *;
          unfold n_live in Hf; (split; [lia|split; [|lia]]);
          intros t' b' Hin; apply in_app_or in Hin; destruct Hin as [Hin|[Hin|[]]]; eauto; congruence.
      - destruct (nth_error (placed sp) k) as [[[t b]|]|] eqn:K; [| |discriminate]; injection E as <-.
        + unfold n_live, in_use in *. cbn [stack fresh placed].
          rewrite (drop_length _ _ _ _ K) in Hf.
          rewrite (Hp t b) by (eapply nth_error_In; exact K). unfold set_stack. rewrite Nat.eqb_refl. cbn [length].
          split; [lia|split; [|lia]].
          intros t' b' Hin. apply In_nth_error in Hin. destruct Hin as [j Hj].
          destruct (Nat.eq_dec k j) as [->|N].
          * rewrite upd_eq in Hj; [discriminate|]. apply nth_error_Some. congruence.
          * rewrite upd_neq in Hj by exact N. apply nth_error_In in Hj. eauto.
        + split; [exact Hf|split; [exact Hp|]]. lia. }
    destruct X as (X1 & X2 & X3).
    rewrite (IH sp1 sp'); auto; [|intros t Hin; apply Ht; right; exact Hin].
    assert (PL : forall ops s, n_live s <= peak ops s).
    { clear. intros [|o ops] s; cbn [peak]; [lia|]. destruct (rspec_step o s); lia. }
    pose proof (PL ops sp1). lia.
Qed.

Lemma recycler_peak : forall hasb base sz ops sp,
  (forall t, In (RCreate t) ops -> size t = sz /\ (hasb = true -> align t = align base)) ->
  rspec_run ops rspec0 = Some sp ->
  exists m held, rec_run hasb base ops (empty_mem, []) = Ok (m, held) /\ length (allocs (trace m)) = peak ops rspec0.
Proof.
  intros hasb base sz ops sp Ht H.
  destruct (recycler hasb base ops sp) as (m & held & E & _ & _ & _ & A & _).
  { intros t Hin. apply Ht. exact Hin. }
  { exact H. }
  exists m, held. split; [exact E|]. rewrite A, seq_length.
  rewrite (peak_run sz ops rspec0 sp); auto.
  - intros t Hin. apply Ht. exact Hin.
  - intros t b [].
Qed.

(** ** Refresh by simulation *)
Section Sim.
  Context {S1 S2 : Type} (R : S1 -> S2 -> Prop)
    (al1 : S1 -> nat -> outcome bool) (al2 : S2 -> nat -> outcome bool)
    (sw1 : S1 -> nat -> nat -> outcome S1) (sw2 : S2 -> nat -> nat -> outcome S2)
    (de1 : S1 -> nat -> outcome S1) (de2 : S2 -> nat -> outcome S2).
  Hypothesis al_sim : forall a b i r, R a b -> al2 b i = Ok r -> al1 a i = Ok r.
  Hypothesis sw_sim : forall a b i j b', R a b -> sw2 b i j = Ok b' -> exists a', sw1 a i j = Ok a' /\ R a' b'.
  Hypothesis de_sim : forall a b i b', R a b -> de2 b i = Ok b' -> exists a', de1 a i = Ok a' /\ R a' b'.

  Lemma obind_ok : forall {X Y} (o : outcome X) (f : X -> outcome Y) y, obind o f = Ok y -> exists x, o = Ok x /\ f x = Ok y.
  Proof. intros X Y [x| | |] f y H; cbn in H; try discriminate. eauto. Qed.

  Lemma left_sim : forall fuel a b iD iA r, R a b -> scan_left al2 fuel b iD iA = Ok r -> scan_left al1 fuel a iD iA = Ok r.
  Proof.
    induction fuel as [|f IH]; intros a b iD iA r HR H; cbn [scan_left] in *; [discriminate|].
    destruct (iA <? iD); [exact H|]. apply obind_ok in H. destruct H as [x [E H]].
    rewrite (al_sim _ _ _ _ HR E). cbn [obind]. destruct x; [|exact H]. eapply IH; eassumption.
  Qed.
  Lemma right_sim : forall fuel a b iD iA b' r, R a b -> scan_right al2 de2 fuel b iD iA = Ok (b', r) ->
    exists a', scan_right al1 de1 fuel a iD iA = Ok (a', r) /\ R a' b'.
  Proof.
    induction fuel as [|f IH]; intros a b iD iA b' r HR H; cbn [scan_right] in *; [discriminate|].
    apply obind_ok in H. destruct H as [x [E H]]. rewrite (al_sim _ _ _ _ HR E). cbn [obind].
    destruct x; [injection H as <- <-; eauto|].
    apply obind_ok in H. destruct H as [b1 [E1 H]]. destruct (de_sim _ _ _ _ HR E1) as [a1 [Ea Ra]].
    rewrite Ea. cbn [obind]. destruct (iA <=? iD); [injection H as <- <-; eauto|].
    destruct iA; [discriminate|]. eapply IH; eassumption.
  Qed.
  Lemma loop_sim : forall fuel a b iD iA b' n, R a b -> refresh_loop al2 sw2 de2 fuel b iD iA = Ok (b', n) ->
    exists a', refresh_loop al1 sw1 de1 fuel a iD iA = Ok (a', n) /\ R a' b'.
  Proof.
    induction fuel as [|f IH]; intros a b iD iA b' n HR H; cbn [refresh_loop] in *; [discriminate|].
    apply obind_ok in H. destruct H as [[ret d] [E H]]. rewrite (left_sim _ _ _ _ _ _ HR E). cbn [obind].
    destruct ret; [injection H as <- <-; eauto|].
    apply obind_ok in H. destruct H as [[b1 o] [E1 H]]. destruct (right_sim _ _ _ _ _ _ _ HR E1) as [a1 [Ea Ra]].
    rewrite Ea. cbn [obind]. destruct o as [iA1|]; [|injection H as <- <-; eauto].
    apply obind_ok in H. destruct H as [x [Ex H]]. rewrite (al_sim _ _ _ _ Ra Ex). cbn [obind].
    apply obind_ok in H. destruct H as [y [Ey H]]. rewrite (al_sim _ _ _ _ Ra Ey). cbn [obind].
    destruct (negb x && y); [|discriminate].
    apply obind_ok in H. destruct H as [b2 [E2 H]]. destruct (sw_sim _ _ _ _ _ Ra E2) as [a2 [Ea2 Ra2]].
    rewrite Ea2. cbn [obind].
    apply obind_ok in H. destruct H as [b3 [E3 H]]. destruct (de_sim _ _ _ _ Ra2 E3) as [a3 [Ea3 Ra3]].
    rewrite Ea3. cbn [obind]. destruct iA1; [discriminate|]. eapply IH; eassumption.
  Qed.
  Lemma refresh_sim : forall a b n b' k, R a b -> refresh_impl al2 sw2 de2 b n = Ok (b', k) ->
    exists a', refresh_impl al1 sw1 de1 a n = Ok (a', k) /\ R a' b'.
  Proof.
    intros a b [|n] b' k HR H; unfold refresh_impl in *.
    - injection H as <- <-. eauto.
    - eapply loop_sim; eassumption.
  Qed.
End Sim.

(** ** Manager *)
Section Mgr.
  Context (base : ty).
  Notation upb := (up true).
  Definition R (D0 C0 : list nat) (s : mstate) (a : arr (A := lent)) : Prop :=
    exists fr, minv true base (fst s) (somes (fst a)) fr /\ snd s = map (option_map upb) (fst a)
      /\ dtors (trace (fst s)) = D0 ++ map l_id (snd a) /\ ctors (trace (fst s)) = C0.

  Lemma R_alive : forall D0 C0 s a i r, R D0 C0 s a -> arr_alive l_flag a i = Ok r -> m_alive base s i = Ok r.
  Proof.
    intros D0 C0 [m its] [sl lg] i r (fr & I & Hi & _) H. cbn [fst snd] in *. unfold arr_alive, m_alive in *. cbn [fst snd] in *.
    rewrite Hi, nth_error_map. destruct (nth_error sl i) as [[e|]|] eqn:E; try discriminate. cbn [option_map].
    injection H as <-. eapply getBool_ok; [exact I|].
    eapply Permutation_in; [symmetry; apply (somes_upd sl i e E)|]. left. reflexivity.
  Qed.
  Lemma somes_swap : forall (l : list (option lent)) i j a b, nth_error l i = Some (Some a) -> nth_error l j = Some (Some b) ->
    Permutation (somes l) (somes (upd (upd l i (Some b)) j (Some a))).
  Proof.
    intros l i j a b Hi Hj.
    destruct (nth_error_split' _ _ _ Hi) as [p [q [-> Lp]]]. subst i. rewrite upd_app.
    destruct (Nat.lt_trichotomy j (length p)) as [C|[C|C]].
    - rewrite nth_error_app1 in Hj by exact C. destruct (nth_error_split' _ _ _ Hj) as [p1 [p2 [-> Lp]]]. subst j.
      rewrite <- !app_assoc. cbn [app]. rewrite upd_app. rewrite !somes_app. cbn [somes flat_map].
      fold (somes p2). rewrite !flat_map_app. cbn. fold (somes p2) (somes q).
      apply Permutation_app_head. 
      rewrite <- !Permutation_middle. constructor.
    - subst j. rewrite nth_error_app_mid in Hj by reflexivity. injection Hj as <-. rewrite upd_app. reflexivity.
    - rewrite nth_error_app2 in Hj by lia. destruct (j - length p) as [|k] eqn:K; [lia|]. cbn in Hj.
      destruct (nth_error_split' _ _ _ Hj) as [q1 [q2 [-> Lq]]].
      replace (p ++ Some b :: q1 ++ Some b :: q2) with ((p ++ Some b :: q1) ++ Some b :: q2)
        by (rewrite <- app_assoc; reflexivity).
      rewrite upd_app' by (rewrite app_length; cbn; lia). rewrite <- app_assoc. cbn [app].
      rewrite !somes_app. apply Permutation_app_head. cbn. rewrite !flat_map_app. cbn.
      rewrite <- !Permutation_middle. constructor.
  Qed.
  Lemma R_swap : forall D0 C0 s a i j a', R D0 C0 s a -> arr_swap a i j = Ok a' -> exists s', m_swap s i j = Ok s' /\ R D0 C0 s' a'.
  Proof.
    intros D0 C0 [m its] [sl lg] i j a' (fr & I & Hi & Hd & Hc) H. unfold arr_swap, m_swap in *. cbn [fst snd] in *.
    rewrite Hi, !nth_error_map. destruct (nth_error sl i) as [[e1|]|] eqn:E1; try discriminate.
    destruct (nth_error sl j) as [[e2|]|] eqn:E2; try discriminate. injection H as <-. cbn [option_map].
    eexists. split; [reflexivity|]. exists fr. cbn [fst snd]. split; [|split; [|auto]].
    - eapply minv_perm; [|exact I]. apply somes_swap; assumption.
    - rewrite !upd_notin_map. reflexivity.
  Qed.
  Lemma R_deinit : forall D0 C0 s a i a', R D0 C0 s a -> arr_deinit a i = Ok a' -> exists s', m_deinit base s i = Ok s' /\ R D0 C0 s' a'.
  Proof.
    intros D0 C0 [m its] [sl lg] i a' (fr & I & Hi & Hd & Hc) H. unfold arr_deinit, m_deinit in *. cbn [fst snd] in *.
    rewrite Hi, !nth_error_map. destruct (nth_error sl i) as [[e|]|] eqn:E; try discriminate.
    injection H as <-. cbn [option_map].
    pose proof (minv_perm _ _ _ _ _ _ (somes_upd sl i e E) I) as I'.
    destruct (recycle_ok true base m _ fr e I') as (m' & Er & I'' & T & HL). rewrite Er. cbn [obind].
    eexists. split; [reflexivity|]. eexists. cbn [fst snd]. split; [exact I''|]. split; [|split].
    - rewrite upd_notin_map. reflexivity.
    - rewrite T, dtors_app, Hd, map_app, app_assoc. reflexivity.
    - rewrite T, ctors_app. cbn. rewrite app_nil_r. exact Hc.
  Qed.

  (** The clear loop. *)
  Lemma clear_loop_ok : forall n fuel i live post lg D0 C0 m,
    (N.of_nat (i + n) < UINT_WRAP)%N -> length live = n -> n < fuel ->
    R D0 C0 (m, map (option_map upb) (repeat None i ++ map Some live ++ post)) (repeat None i ++ map Some live ++ post, lg) ->
    exists m', clear_loop base fuel (N.of_nat i) (N.of_nat (i + n)) (m, map (option_map upb) (repeat None i ++ map Some live ++ post))
        = Ok (m', map (option_map upb) (repeat None (i + n) ++ post))
      /\ R D0 C0 (m', map (option_map upb) (repeat None (i + n) ++ post)) (repeat None (i + n) ++ post, lg ++ live).
  Proof.
    induction n as [|n IH]; intros fuel i live post lg D0 C0 m Hw Hl Hf HR.
    - destruct live; [|discriminate]. destruct fuel; [lia|]. cbn [clear_loop]. rewrite Nat.add_0_r, N.ltb_irrefl.
      cbn [map app] in *. rewrite app_nil_r. eauto.
    - destruct live as [|e live]; [discriminate|]. injection Hl as Hl. destruct fuel as [|f]; [lia|]. cbn [clear_loop].
      destruct (N.ltb_spec (N.of_nat i) (N.of_nat (i + S n))); [|lia]. rewrite Nat2N.id.
      destruct (R_deinit D0 C0 _ _ i (repeat None (S i) ++ map Some live ++ post, lg ++ [e]) HR) as [[m1 its1] [E1 HR1]].
      { unfold arr_deinit. cbn [fst snd map app]. rewrite nth_error_app_mid by (rewrite repeat_length; reflexivity).
        rewrite upd_app' by (rewrite repeat_length; reflexivity).
        f_equal. f_equal. replace (S i) with (i + 1) by lia. rewrite repeat_app. cbn. rewrite <- app_assoc. reflexivity. }
      rewrite E1. cbn [obind]. rewrite N.mod_small by lia.
      replace (N.of_nat i + 1)%N with (N.of_nat (S i)) by lia. replace (i + S n) with (S i + n) by lia.
      pose proof HR1 as (fr1 & _ & Hi & _). cbn [fst snd] in Hi. subst its1.
      destruct (IH f (S i) live post (lg ++ [e]) D0 C0 m1) as [m2 [E2 HR2]]; try lia; auto.
      exists m2. split; [exact E2|]. rewrite <- app_assoc in HR2. exact HR2.
  Qed.

  Definition ginv (bound : nat) (s : mrun_state) (sp : mspec) : Prop :=
    exists live fr, let g := fst s in
      minv true base (mm g) live fr
      /\ length live <= capacity g /\ items g = map (option_map upb) (map Some live ++ repeat None (capacity g - length live))
      /\ sizeNext g = length live /\ capacity g = room sp /\ 0 < capacity g
      /\ Permutation (map (fun e => (l_id e, l_flag e)) live) (owned sp)
      /\ msize g <= length live /\ Permutation (map l_id (firstn (msize g) live)) (shown sp)
      /\ length (snd s) = made sp
      /\ (forall e, In e live -> nth_error (snd s) (l_id e) = Some (fst (upb e)))
      /\ Permutation (gone sp ++ map fst (owned sp)) (seq 0 (made sp))
      /\ Permutation (dtors (trace (mm g))) (gone sp) /\ ctors (trace (mm g)) = seq 0 (made sp)
      /\ made sp <= bound.

  Definition okop (o : mop) : Prop :=
    match o with MCreate t => align t = align base | MReserve n => (N.of_nat n < UINT_WRAP)%N | _ => True end.

  Lemma ids_nodup : forall live sp, Permutation (map (fun e => (l_id e, l_flag e)) live) (owned sp) ->
    Permutation (gone sp ++ map fst (owned sp)) (seq 0 (made sp)) -> NoDup (map l_id live).
  Proof.
    intros live sp P1 P2. assert (ND : NoDup (gone sp ++ map fst (owned sp)))
      by (eapply Permutation_NoDup; [symmetry; exact P2|apply seq_NoDup]).
    assert (P3 : Permutation (map l_id live) (map fst (owned sp))).
    { rewrite <- P1, map_map. reflexivity. }
    eapply Permutation_NoDup; [symmetry; exact P3|].
    clear - ND. induction (gone sp); [exact ND|]. inversion ND. auto.
  Qed.

  Lemma reserve_ok : forall g n (L : list (option lent)), length L = capacity g -> items g = map (option_map upb) L ->
    capacity g < n -> (N.of_nat (capacity g) < UINT_WRAP)%N ->
    reserve n g = Ok {| mm := mm g; items := map (option_map upb) (L ++ repeat None (n - capacity g)); msize := msize g;
                        sizeNext := sizeNext g; capacity := n |}.
  Proof.
    intros g n L HL Hi Hn Hw. unfold reserve. destruct (Nat.ltb_spec (capacity g) n) as [_|]; [|lia].
    assert (Li : length (items g) = capacity g) by (rewrite Hi, map_length; exact HL).
    destruct (grow_ok (@None uptr) (S (capacity g)) (items g) (N.of_nat (capacity g)) (N.of_nat n)) as [r [E [Lr J]]];
      try (rewrite ?Nat2N.id; lia).
    rewrite E. cbn [obind]. rewrite !Nat2N.id in J.
    replace r with (map (option_map upb) (L ++ repeat None (n - capacity g))); [reflexivity|].
    apply nth_error_ext. intros j. rewrite J, Hi, map_app.
    destruct (Nat.ltb_spec j (capacity g)) as [Q|Q].
    - rewrite nth_error_app1 by (rewrite map_length; lia). reflexivity.
    - rewrite nth_error_app2 by (rewrite map_length; lia). rewrite map_length, HL.
      rewrite nth_error_map, nth_error_repeat.
      destruct (Nat.ltb_spec (j - capacity g) (n - capacity g)), (Nat.ltb_spec j n); try lia; reflexivity.
  Qed.

  Lemma perm_set : forall (l : list lent) k, NoDup (map l_id l) -> forall e, In e l -> l_id e = k ->
    exists l1 l2, l = l1 ++ e :: l2
      /\ map (fun x => if l_id x =? k then set_flag x false else x) l = l1 ++ set_flag e false :: l2.
  Proof.
    intros l k ND e He Hk. apply in_split in He. destruct He as [l1 [l2 ->]]. exists l1, l2. split; [reflexivity|].
    rewrite map_app in *. cbn [map] in *. apply NoDup_remove_2 in ND. rewrite in_app_iff in ND.
    assert (Z : forall l, ~ In (l_id e) (map l_id l) -> map (fun x => if l_id x =? k then set_flag x false else x) l = l).
    { induction l as [|x l IH]; intros H; cbn; [reflexivity|]. cbn in H.
      destruct (Nat.eqb_spec (l_id x) k) as [Q|Q]; [exfalso; apply H; left; congruence|]. f_equal. apply IH. tauto. }
    rewrite !Z by tauto. rewrite Hk, Nat.eqb_refl. reflexivity.
  Qed.

  Lemma mgr_step_ok : forall o s sp sp' bd, ginv bd s sp -> okop o -> (N.of_nat bd < UINT_WRAP)%N ->
    mspec_step o sp = Some sp' -> exists s', mgr_step base o s = Ok s' /\ ginv (S bd) s' sp'.
  Proof.
    intros o [g refs] sp sp' bd (live & fr & I & Hcap & Hit & Hsn & Hroom & Hpos & Hown & Hms & Hsh & Hmade & Href & Hall & Hdt & Hct & Hb)
      Hok Hw Hsp. cbn [fst snd] in *.
    assert (Hlm : length live <= made sp).
    { pose proof (Permutation_length Hall) as PL. rewrite app_length, map_length, seq_length in PL.
      pose proof (Permutation_length Hown) as PO. rewrite map_length in PO. lia. }
    assert (Hlo : length (owned sp) = length live) by (rewrite <- (Permutation_length Hown), map_length; reflexivity).
    pose proof (ids_nodup live sp Hown Hall) as NDi.
    destruct o as [t|k| | |n]; cbn [mgr_step mspec_step okop] in *.
    - (* create *)
      injection Hsp as <-. unfold mcreate.
      assert (Tk : tok true base t) by (intros _; exact Hok).
      destruct (create_ok true base (mm g) live fr t (length refs) I Tk) as (m' & b & fr' & E & I' & D & C & _).
      rewrite E. cbn [obind capacity sizeNext mm items msize].
      set (e := {| l_id := length refs; l_ty := t; l_blk := b; l_flag := true |}) in *.
      assert (X : exists cap', cap' = (if room sp <=? length (owned sp) then room sp * 3 else room sp)
        /\ (if capacity g <=? sizeNext g
            then reserve (capacity g * 3) {| mm := m'; items := items g; msize := msize g; sizeNext := sizeNext g; capacity := capacity g |}
            else Ok {| mm := m'; items := items g; msize := msize g; sizeNext := sizeNext g; capacity := capacity g |})
           = Ok {| mm := m'; items := map (option_map upb) (map Some live ++ repeat None (cap' - length live)); msize := msize g;
                   sizeNext := sizeNext g; capacity := cap' |} /\ length live < cap').
      { eexists. split; [reflexivity|]. rewrite <- Hroom, Hlo, Hsn.
        destruct (Nat.leb_spec (capacity g) (length live)) as [Q|Q].
        - rewrite (reserve_ok _ _ (map Some live ++ repeat None (capacity g - length live))); cbn [capacity items mm msize sizeNext].
          + split; [|lia]. do 2 f_equal. f_equal. rewrite <- app_assoc, <- repeat_app. do 2 f_equal. lia.
          + rewrite app_length, map_length, repeat_length. lia.
          + exact Hit.
          + lia.
          + lia.
        - split; [|lia]. rewrite Hit. reflexivity. }
      destruct X as (cap' & Hc' & -> & Hlt). cbn [obind sizeNext items mm msize capacity]. rewrite Hsn.
      rewrite map_length, app_length, map_length, repeat_length.
      destruct (Nat.ltb_spec (length live) (length live + (cap' - length live))) as [_|]; [|lia].
      cbn [obind]. eexists. split; [reflexivity|].
      exists (live ++ [e]), fr'. cbn [fst snd mm items msize sizeNext capacity owned shown made gone room].
      split; [eapply minv_perm; [apply Permutation_cons_append|exact I']|].
      split; [rewrite app_length; cbn; lia|]. split.
      { destruct (cap' - length live) as [|r] eqn:Er; [lia|]. cbn [repeat].
        rewrite map_app. cbn [map]. rewrite upd_app' by (rewrite !map_length; reflexivity).
        rewrite map_app, app_length. cbn [length map].
        replace (cap' - (length live + 1)) with r by lia. rewrite !map_app. rewrite <- app_assoc. reflexivity. }
      split; [rewrite app_length; cbn; lia|].
      split; [exact Hc'|]. split; [lia|].
      split; [rewrite map_app; cbn; rewrite Hmade; apply Permutation_app_tail; exact Hown|].
      split; [rewrite app_length; cbn; lia|].
      split; [rewrite firstn_app; replace (msize g - length live) with 0 by lia; cbn [firstn]; rewrite app_nil_r; exact Hsh|].
      split; [rewrite app_length; cbn; lia|].
      split.
      { intros e' He. apply in_app_or in He. destruct He as [He|[<-|[]]].
        - pose proof (Href e' He) as Q. rewrite nth_error_app1; [exact Q|]. apply nth_error_Some. congruence.
        - cbn [l_id e]. rewrite nth_error_app2, Nat.sub_diag by lia. reflexivity. }
      split; [rewrite map_app, app_assoc; cbn [map fst]; rewrite Hall, Nat.add_1_r, seq_S; reflexivity|].
      split; [rewrite D; exact Hdt|]. split; [rewrite C, Hct, Hmade, Nat.add_1_r, seq_S; reflexivity|lia].
    - (* del *)
      destruct (existsb (fun x => fst x =? k) (owned sp)) eqn:X; [|discriminate]. injection Hsp as <-.
      apply existsb_exists in X. destruct X as [[k' f] [Hin Hk]]. cbn in Hk. apply Nat.eqb_eq in Hk. subst k'.
      eapply Permutation_in in Hin; [|symmetry; exact Hown]. apply in_map_iff in Hin. destruct Hin as [e [Ee He]].
      assert (Ek : l_id e = k) by congruence.
      pose proof (Href e He) as Hr. rewrite Ek in Hr. rewrite Hr.
      destruct (perm_set live k NDi e He Ek) as (l1 & l2 & El & Em).
      assert (I1 : minv true base (mm g) (e :: l1 ++ l2) fr)
        by (eapply minv_perm; [|exact I]; rewrite El; symmetry; apply Permutation_middle).
      destruct (setBool_ok true base (mm g) e (l1 ++ l2) fr false I1) as (m' & E & I' & T).
      unfold mdel. rewrite E. cbn [obind]. eexists. split; [reflexivity|].
      exists (l1 ++ set_flag e false :: l2), fr. cbn [fst snd mm items msize sizeNext capacity owned shown made gone room].
      assert (LL : length (l1 ++ set_flag e false :: l2) = length live) by (rewrite El, !app_length; reflexivity).
      assert (MI : map l_id (l1 ++ set_flag e false :: l2) = map l_id live) by (rewrite El, !map_app; reflexivity).
      assert (MF : map fst (map (fun x : nat * bool => if fst x =? k then (fst x, false) else x) (owned sp)) = map fst (owned sp)).
      { rewrite map_map. apply map_ext. intros [a b]. cbn. destruct (a =? k); reflexivity. }
      split; [eapply minv_perm; [apply Permutation_middle|exact I']|].
      rewrite LL. split; [exact Hcap|]. split; [rewrite Hit, El, !map_app; cbn; reflexivity|].
      split; [exact Hsn|]. split; [exact Hroom|]. split; [exact Hpos|].
      split.
      { rewrite <- Em, map_map. rewrite <- Hown, map_map. apply perm_eq. apply map_ext. intros x. cbn.
        destruct (l_id x =? k); reflexivity. }
      split; [exact Hms|]. split; [rewrite <- firstn_map, MI, firstn_map; exact Hsh|].
      split; [exact Hmade|].
      split.
      { intros e' He'. apply in_app_or in He'. cbn [In] in He'. destruct He' as [He'|[<-|He']].
        - apply Href. rewrite El. apply in_or_app. auto.
        - cbn. rewrite Ek. rewrite Hr. reflexivity.
        - apply Href. rewrite El. apply in_or_app. cbn. auto. }
      rewrite MF, T. repeat split; auto.
    - (* refresh *)
      injection Hsp as <-. unfold mrefresh.
      assert (HR : R (dtors (trace (mm g))) (ctors (trace (mm g))) (mm g, items g)
                     (map Some live ++ repeat None (capacity g - length live), [])).
      { exists fr. cbn [fst snd]. rewrite somes_app, somes_map, somes_none, !app_nil_r. auto. }
      destruct (refresh_ok l_flag live (repeat None (capacity g - length live)) []) as (out & log & E & Po & Pl & _).
      unfold arr_refresh in E. cbn [app] in E.
      destruct (refresh_sim _ _ _ _ _ _ _ (R_alive _ _) (R_swap _ _) (R_deinit _ _) _ _ _ _ _ HR E) as [[m' its'] [E' HR']].
      rewrite Hsn, E'. cbn [obind fst snd]. eexists. split; [reflexivity|].
      destruct HR' as (fr' & I' & Hi' & Hd' & Hc'). cbn [fst snd] in *.
      exists out, fr'. cbn [fst snd mm items msize sizeNext capacity owned shown made gone room].
      assert (Lo : length out <= length live).
      { rewrite (Permutation_length Po). clear. induction live as [|a l IH]; cbn; [lia|]. destruct (l_flag a); cbn; lia. }
      assert (FO : Permutation (map (fun e => (l_id e, l_flag e)) out) (filter (fun x => snd x) (owned sp))).
      { rewrite <- (perm_filter' _ _ _ Hown), Po. clear.
        induction live as [|a l IH]; cbn; [constructor|]. destruct (l_flag a) eqn:F; cbn; rewrite ?F; auto. }
      assert (FL : Permutation (map l_id log) (map fst (filter (fun x => negb (snd x)) (owned sp)))).
      { rewrite <- (perm_filter' _ _ _ Hown), Pl. clear.
        induction live as [|a l IH]; cbn; [constructor|]. destruct (l_flag a) eqn:F; cbn; auto. }
      split; [rewrite !somes_app, somes_map, !somes_none, !app_nil_r in I'; exact I'|].
      split; [lia|].
      split; [rewrite Hi', <- repeat_app; do 3 f_equal; lia|].
      split; [reflexivity|]. split; [exact Hroom|]. split; [exact Hpos|]. split; [exact FO|].
      split; [lia|]. split; [rewrite firstn_all; rewrite <- FO, map_map; reflexivity|].
      split; [exact Hmade|].
      split.
      { intros e He. apply Href. eapply Permutation_in in He; [|exact Po]. apply filter_In in He. apply He. }
      split.
      { rewrite <- app_assoc. rewrite <- Hall. apply Permutation_app_head. rewrite <- map_app. apply Permutation_map.
        clear. induction (owned sp) as [|[a b] l IH]; cbn; [constructor|]. destruct b; cbn.
        - rewrite <- Permutation_middle. constructor. exact IH.
        - constructor. exact IH. }
      split; [rewrite Hd'; apply Permutation_app; assumption|].
      split; [rewrite Hc'; exact Hct|lia].
    - (* clear *)
      injection Hsp as <-. unfold mclear.
      assert (HR : R (dtors (trace (mm g))) (ctors (trace (mm g))) (mm g, items g)
                     (map Some live ++ repeat None (capacity g - length live), [])).
      { exists fr. cbn [fst snd]. rewrite somes_app, somes_map, somes_none, !app_nil_r. auto. }
      rewrite Hit in HR |- *. rewrite Hsn.
      destruct (clear_loop_ok (length live) (S (length live)) 0 live (repeat None (capacity g - length live)) []
                  (dtors (trace (mm g))) (ctors (trace (mm g))) (mm g)) as [m' [E HR']]; try (cbn; lia); auto.
      cbn [N.of_nat Nat.add repeat app] in E. rewrite E. cbn [obind fst snd]. eexists. split; [reflexivity|].
      destruct HR' as (fr' & I' & Hi' & Hd' & Hc'). cbn [fst snd Nat.add app] in *.
      exists [], fr'. cbn [fst snd mm items msize sizeNext capacity owned shown made gone room length map app firstn].
      split; [rewrite !somes_app, !somes_none in I'; exact I'|].
      split; [lia|].
      split; [rewrite <- repeat_app; do 2 f_equal; lia|].
      split; [reflexivity|]. split; [exact Hroom|]. split; [exact Hpos|]. split; [constructor|].
      split; [lia|]. split; [constructor|]. split; [exact Hmade|].
      split; [intros e []|].
      split; [rewrite app_nil_r; exact Hall|].
      split; [rewrite Hd'; apply Permutation_app; [exact Hdt|]; rewrite <- Hown, map_map; reflexivity|].
      split; [rewrite Hc'; exact Hct|lia].
    - (* reserve *)
      destruct (Nat.ltb_spec (room sp) n) as [Q|Q]; [|discriminate]. injection Hsp as <-.
      rewrite (reserve_ok g n (map Some live ++ repeat None (capacity g - length live))); try assumption; try lia;
        [|rewrite app_length, map_length, repeat_length; lia].
      cbn [obind]. eexists. split; [reflexivity|].
      exists live, fr. cbn [fst snd mm items msize sizeNext capacity owned shown made gone room].
      split; [exact I|]. split; [lia|].
      split; [rewrite <- app_assoc, <- repeat_app; do 3 f_equal; lia|].
      repeat split; auto; lia.
  Qed.

  Lemma ginv0 : exists g0, new_mgr = Ok g0 /\ ginv 0 (g0, []) mspec0.
  Proof.
    eexists. split; [vm_compute; reflexivity|]. exists [], []. cbn [fst snd mm items msize sizeNext capacity].
    split; [apply minv_empty|]. cbn. repeat split; auto; try lia.
  Qed.

  Lemma ginv_made : forall bd s sp, ginv bd s sp -> ginv (made sp) s sp.
  Proof.
    intros bd s sp (live & fr & I & A). exists live, fr. cbv zeta in *. split; [exact I|].
    destruct A as (A1 & A2 & A3 & A4 & A5 & A6 & A7 & A8 & A9 & A10 & A11 & A12 & A13 & A14).
    repeat (split; [assumption|]). lia.
  Qed.
  Lemma made_step : forall o sp sp', mspec_step o sp = Some sp' -> made sp <= made sp'.
  Proof.
    intros o sp sp' E. destruct o as [t|k| | |n]; cbn [mspec_step] in E;
      try (destruct (existsb _ _); [|discriminate]); try (destruct (room sp <? n); [|discriminate]); injection E as <-; cbn; lia.
  Qed.
  Lemma made_run : forall ops sp sp', mspec_run ops sp = Some sp' -> made sp <= made sp'.
  Proof.
    induction ops as [|o ops IH]; intros sp sp' H; cbn [mspec_run] in H; [injection H as <-; lia|].
    destruct (mspec_step o sp) as [s1|] eqn:E; [|discriminate]. apply made_step in E. apply IH in H. lia.
  Qed.

  Lemma mgr_run_ok : forall ops s sp sp', ginv (made sp) s sp -> Forall okop ops ->
    mspec_run ops sp = Some sp' -> (N.of_nat (made sp') < UINT_WRAP)%N ->
    exists s', mgr_run base ops s = Ok s' /\ ginv (made sp') s' sp'.
  Proof.
    induction ops as [|o ops IH]; intros s sp sp' I Hk H Hw; cbn [mgr_run mspec_run] in *.
    - injection H as <-. exists s. auto.
    - inversion Hk; subst. destruct (mspec_step o sp) as [sp1|] eqn:E; [|discriminate].
      pose proof (made_step _ _ _ E). pose proof (made_run _ _ _ H).
      destruct (mgr_step_ok o s sp sp1 (made sp) I) as [s1 [E1 I1]]; auto; [lia|].
      rewrite E1. cbn [obind]. eapply IH; try eassumption. eapply ginv_made, I1.
  Qed.

  Lemma ginv_view : forall sp g refs, ginv (made sp) (g, refs) sp ->
      msize g = length (shown sp) /\ Permutation (iterate g) (map Some (shown sp))
      /\ (forall k f, In (k, f) (owned sp) -> exists p, nth_error refs k = Some p
            /\ object_at (mm g) p = Some k /\ getBool true base p (mm g) = Ok f)
      /\ Permutation (gone sp ++ map fst (owned sp)) (seq 0 (made sp))
      /\ ctors (trace (mm g)) = seq 0 (made sp) /\ Permutation (dtors (trace (mm g))) (gone sp)
      /\ ((N.of_nat (length (owned sp)) < UINT_WRAP)%N -> exists m', mdestroy base g = Ok m' /\ Permutation (dtors (trace m')) (seq 0 (made sp))
            /\ Permutation (deallocs (trace m')) (allocs (trace m')) /\ NoDup (allocs (trace m'))).
  Proof.
    intros sp g refs I.
    destruct I as (live & fr & I & Hcap & Hit & Hsn & Hroom & Hpos & Hown & Hms & Hsh & Hmade & Href & Hall & Hdt & Hct & Hb).
    cbn [fst snd] in *.
    split; [rewrite <- (Permutation_length Hsh), map_length, firstn_length; lia|].
    split.
    { rewrite <- Hsh. unfold iterate. rewrite Hit, map_app, firstn_app, !map_length.
      replace (msize g - length live) with 0 by lia. cbn [firstn]. rewrite app_nil_r, !firstn_map, !map_map.
      apply perm_eq.
      apply map_ext_in. intros e He. cbn [option_map].
      eapply object_ok; [exact I|]. rewrite <- (firstn_skipn (msize g) live). apply in_or_app. auto. }
    split.
    { intros k f Hin. eapply Permutation_in in Hin; [|symmetry; exact Hown]. apply in_map_iff in Hin.
      destruct Hin as [e [Ee He]]. injection Ee as <- <-. exists (fst (upb e)).
      split; [apply Href; exact He|]. split; [eapply object_ok; eassumption|eapply getBool_ok; eassumption]. }
    split; [exact Hall|]. split; [exact Hct|]. split; [exact Hdt|].
    intros Hlt.
    assert (Hlo : length (owned sp) = length live) by (rewrite <- (Permutation_length Hown), map_length; reflexivity).
    assert (HR : R (dtors (trace (mm g))) (ctors (trace (mm g))) (mm g, items g)
                   (map Some live ++ repeat None (capacity g - length live), [])).
    { exists fr. cbn [fst snd]. rewrite somes_app, somes_map, somes_none, !app_nil_r. auto. }
    unfold mdestroy, mclear. rewrite Hit in HR |- *. rewrite Hsn.
    destruct (clear_loop_ok (length live) (S (length live)) 0 live (repeat None (capacity g - length live)) []
                (dtors (trace (mm g))) (ctors (trace (mm g))) (mm g)) as [m' [E1 HR']]; try (cbn; lia); auto.
    cbn [N.of_nat Nat.add repeat app] in E1. rewrite E1. cbn [obind fst snd mm].
    destruct HR' as (fr' & I' & Hi' & Hd' & Hc'). cbn [fst snd Nat.add app] in *.
    rewrite !somes_app, !somes_none in I'. cbn [app] in I'.
    destruct (destroy_storage_ok true base m' fr' I') as (m2 & E2 & P & ND & A & C & D & F).
    exists m2. split; [exact E2|]. split.
    - rewrite D, Hd', Hdt, <- Hall. apply Permutation_app_head. rewrite <- Hown, map_map. reflexivity.
    - split; [exact P|]. eapply Permutation_NoDup; [exact P|exact ND].
  Qed.
End Mgr.

Lemma manager' : forall base ops sp,
  (forall t, In (MCreate t) ops -> align t = align base) ->
  (forall n, In (MReserve n) ops -> (N.of_nat n < UINT_WRAP)%N) ->
  mspec_run ops mspec0 = Some sp -> (N.of_nat (made sp) < UINT_WRAP)%N ->
  exists g0 g refs, new_mgr = Ok g0 /\ mgr_run base ops (g0, []) = Ok (g, refs)
    /\ msize g = length (shown sp) /\ Permutation (iterate g) (map Some (shown sp))
    /\ (forall k f, In (k, f) (owned sp) -> exists p, nth_error refs k = Some p
          /\ object_at (mm g) p = Some k /\ getBool true base p (mm g) = Ok f)
    /\ Permutation (gone sp ++ map fst (owned sp)) (seq 0 (made sp))
    /\ ctors (trace (mm g)) = seq 0 (made sp) /\ Permutation (dtors (trace (mm g))) (gone sp)
    /\ exists m', mdestroy base g = Ok m' /\ Permutation (dtors (trace m')) (seq 0 (made sp))
          /\ Permutation (deallocs (trace m')) (allocs (trace m')) /\ NoDup (allocs (trace m')).
Proof.
  intros base ops sp H1 H2 H3 H4. destruct (ginv0 base) as [g0 [E0 I0]].
  destruct (mgr_run_ok base ops (g0, []) mspec0 sp I0) as [[g refs] [E I]]; auto.
  { rewrite Forall_forall. intros o Ho. destruct o; cbn; auto. }
  destruct (ginv_view base sp g refs I) as (C & D & X & F & G & H & K).
  exists g0, g, refs. repeat (split; [assumption|]). apply K.
  assert (length (owned sp) <= made sp); [|lia].
  pose proof (Permutation_length F) as Q. rewrite app_length, map_length, seq_length in Q. lia.
Qed.

(** Looking up the flag of a freshly created object through the base layout. *)
Lemma flag_lookup : forall base t id m m' u, create true t id m = Ok (m', u) ->
  (getBool true base (fst u) m' = Ok true <-> align t = align base).
Proof.
  intros base t id m m' u H. unfold create in H.
  destruct (get_block true t m) as [[m1 b]| | |]; cbn [obind] in H; try discriminate.
  unfold construct in H. destruct (nth_error (heap m1) b) as [c|] eqn:N; [|discriminate].
  destruct c as [sz| | |]; try discriminate. destruct (lsize true t <=? sz); [|discriminate].
  cbn [obind] in H. injection H as <- <-. unfold getBool, getLayout, ioff. cbn [fst snd heap].
  assert (Lb : b < length (heap m1)) by (apply nth_error_Some; congruence).
  destruct (Nat.leb_spec (align base) (align t)); cbn [obind fst snd].
  - rewrite upd_eq by exact Lb. destruct (align t - align base) as [|k] eqn:K; split; intros Q; try reflexivity; try discriminate; lia.
  - split; intros Q; [discriminate|lia].
Qed.
