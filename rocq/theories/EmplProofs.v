(** Lemmas about emplacing owned objects. *)
From Coq Require Import String Arith Bool Lia List.
From Verif Require Import Common EmplModel EmplSpec.
Import ListNotations.

Section P.
Context {K : Type} (keqb : K -> K -> bool) (KE : forall a b, keqb a b = true <-> a = b) (isa : nat -> nat -> bool).
Notation own := (own K).
Notation call := (call K).
Notation emplace := (emplace keqb isa).
Notation at_key := (at_key keqb).
Notation first_put := (first_put keqb).

Section IND.
Context (P : call -> Prop) (H1 : forall ty body th, Forall P body -> P (EPush ty body th))
  (H2 : forall k ty body th, Forall P body -> P (EPut k ty body th)).
Fixpoint call_ind2 (c : call) : P c :=
  let all := fix all (l : list call) : Forall P l := match l with [] => Forall_nil P | c :: l => Forall_cons c (call_ind2 c) (all l) end in
  match c with EPush ty body th => H1 ty body th (all body) | EPut k ty body th => H2 k ty body th (all body) end.
End IND.

Fixpoint ctor (l : list call) (s : own) {struct l} : outcome (own * bool) :=
  match l with
  | [] => Ok (s, true)
  | c :: l => obind (emplace c s) (fun x => let (s, r) := x in match r with Some _ => ctor l s | None => Ok (s, false) end)
  end.
Fixpoint call_all (l : list call) : list (option K * nat) * bool :=
  match l with
  | [] => ([], true)
  | c :: l => let r := completed c in if snd r then (fst r ++ fst (call_all l), snd (call_all l)) else (fst r, false)
  end.
Section USES.
Context (f : K -> nat).
Fixpoint uses_all (l : list call) : Prop := match l with [] => True | c :: l => uses f c /\ uses_all l end.
End USES.

Lemma push_eq : forall ty body th s, emplace (EPush ty body th) s =
  obind (ctor body (alloc ty s)) (fun x => let (s1, ok) := x in
    if ok && negb th then
      cast_up isa ty (last (vec (set_life (length (heap s)) Alive s1) ++ [length (heap s)]) 0)
        (Own (heap (set_life (length (heap s)) Alive s1)) (vec (set_life (length (heap s)) Alive s1) ++ [length (heap s)])
          (mp (set_life (length (heap s)) Alive s1)))
    else Ok (set_life (length (heap s)) Dead s1, None)).
Proof. reflexivity. Qed.
Lemma put_eq : forall k ty body th s, emplace (EPut k ty body th) s =
  obind (ctor body (alloc ty s)) (fun x => let (s1, ok) := x in
    if ok && negb th then
      match at_key k (mp (set_life (length (heap s)) Alive s1)) with
      | None => cast_up isa ty (length (heap s)) (Own (heap (set_life (length (heap s)) Alive s1)) (vec (set_life (length (heap s)) Alive s1))
          (mp (set_life (length (heap s)) Alive s1) ++ [(k, length (heap s))]))
      | Some b => cast_up isa ty b (set_life (length (heap s)) Dead (set_life (length (heap s)) Alive s1))
      end
    else Ok (set_life (length (heap s)) Dead s1, None)).
Proof. reflexivity. Qed.
Lemma push_done : forall ty body th, completed (K:=K) (EPush ty body th) =
  if snd (call_all body) && negb th then (fst (call_all body) ++ [(None, ty)], true) else (fst (call_all body), false).
Proof. reflexivity. Qed.
Lemma put_done : forall (k : K) ty body th, completed (EPut k ty body th) =
  if snd (call_all body) && negb th then (fst (call_all body) ++ [(Some k, ty)], true) else (fst (call_all body), false).
Proof. reflexivity. Qed.

(** Keys. *)
Lemma at_key_app : forall k m n, at_key k (m ++ n) = match at_key k m with Some a => Some a | None => at_key k n end.
Proof. induction m as [|[j a] m IH]; intros n; cbn [app EmplModel.at_key]; [reflexivity|]. destruct (keqb j k); [reflexivity|apply IH]. Qed.
Lemma at_key_in : forall k m a, at_key k m = Some a -> In (k, a) m.
Proof.
  induction m as [|[j b] m IH]; intros a; cbn [EmplModel.at_key]; [discriminate|]. destruct (keqb j k) eqn:E.
  - apply KE in E. intros [= ->]. left. congruence.
  - intros H. right. apply IH. exact H.
Qed.
Lemma at_key_none : forall k m, at_key k m = None -> ~ In k (map fst m).
Proof.
  induction m as [|[j b] m IH]; cbn [EmplModel.at_key map fst In]; [auto|]. destruct (keqb j k) eqn:E; [discriminate|].
  intros H [X|X]; [|exact (IH H X)]. apply KE in X. congruence.
Qed.
Lemma first_app : forall k e1 e2, first_put k (e1 ++ e2) = match first_put k e1 with Some t => Some t | None => first_put k e2 end.
Proof.
  induction e1 as [|[[j|] t] e1 IH]; intros e2; cbn [app EmplSpec.first_put]; [reflexivity| |apply IH].
  destruct (keqb j k); [reflexivity|apply IH].
Qed.
Lemma pushed_app : forall (e1 e2 : list (option K * nat)), pushed (e1 ++ e2) = pushed e1 ++ pushed e2.
Proof. intros. apply flat_map_app. Qed.

(** Types of objects. *)
Definition ty_at (h : list (nat * life)) (a : nat) : option nat := option_map fst (nth_error h a).
Lemma ty_app : forall h h' a t, ty_at h a = Some t -> ty_at (h ++ h') a = Some t.
Proof.
  intros h h' a t H. unfold ty_at in *. destruct (nth_error h a) eqn:E; [|discriminate].
  rewrite nth_error_app1; [rewrite E; exact H|]. apply nth_error_Some. congruence.
Qed.
Lemma nth_error_app_l : forall A (l l' : list A) n x, nth_error l n = Some x -> nth_error (l ++ l') n = Some x.
Proof. intros A l l' n x H. rewrite nth_error_app1; [exact H|]. apply nth_error_Some. congruence. Qed.

Definition W (s : own) : Prop :=
  NoDup (owned s) /\ NoDup (map fst (mp s)) /\ forall a, In a (owned s) <-> exists t, exists_as s a t.
Definition nb (p : nat * life) : Prop := snd p <> Building.
Definition post (s s' : own) (ev : list (option K * nat)) : Prop :=
  W s' /\ exists h v m, heap s' = heap s ++ h /\ Forall nb h /\ vec s' = vec s ++ v /\ mp s' = mp s ++ m /\
  map (ty_at (heap s')) v = map Some (pushed ev) /\
  forall k, match at_key k (mp s') with Some b => ty_at (heap s') b | None => None end =
            match at_key k (mp s) with Some b => ty_at (heap s') b | None => first_put k ev end.

Lemma owned_ty : forall s a, W s -> In a (owned s) -> exists t, ty_at (heap s) a = Some t.
Proof. intros s a (_ & _ & H) I. apply H in I. destruct I as [t E]. exists t. unfold ty_at. rewrite E. reflexivity. Qed.
Lemma key_owned : forall (s : own) k b, at_key k (mp s) = Some b -> In b (owned s).
Proof. intros s k b H. apply at_key_in in H. apply in_or_app. right. apply (in_map snd) in H. exact H. Qed.
Lemma key_ty : forall s k b, W s -> at_key k (mp s) = Some b -> exists t, ty_at (heap s) b = Some t.
Proof. intros s k b H E. apply owned_ty; [exact H|]. eapply key_owned. exact E. Qed.

Lemma post_refl : forall s, W s -> post s s [].
Proof.
  intros s H. split; [exact H|]. exists [], [], []. rewrite !app_nil_r. repeat split; auto.
Qed.
Lemma map_ty_app : forall h h' v l, map (ty_at h) v = map Some l -> map (ty_at (h ++ h')) v = map Some l.
Proof.
  induction v as [|a v IH]; intros [|t l] E; cbn [map] in *; try discriminate; [reflexivity|].
  injection E as E1 E2. rewrite (ty_app _ _ _ _ E1), (IH _ E2). reflexivity.
Qed.
Lemma post_trans : forall s1 s2 s3 e1 e2, post s1 s2 e1 -> post s2 s3 e2 -> post s1 s3 (e1 ++ e2).
Proof.
  intros s1 s2 s3 e1 e2 (W2 & h & v & m & Hh & Nh & Hv & Hm & Tv & F) (W3 & h' & v' & m' & Hh' & Nh' & Hv' & Hm' & Tv' & F').
  split; [exact W3|]. exists (h ++ h'), (v ++ v'), (m ++ m'). rewrite !app_assoc, <- Hh, <- Hv, <- Hm.
  split; [exact Hh'|]. split; [apply Forall_app; auto|]. split; [exact Hv'|]. split; [exact Hm'|]. split.
  - rewrite map_app, pushed_app, map_app. rewrite Tv'. f_equal. rewrite Hh'. apply map_ty_app. exact Tv.
  - intros k. rewrite F', first_app. specialize (F k). destruct (at_key k (mp s2)) as [b|] eqn:A2.
    + destruct (key_ty s2 k b W2 A2) as [t T]. rewrite T in F. rewrite Hh' at 1. rewrite (ty_app _ _ _ _ T).
      destruct (at_key k (mp s1)) as [b'|]; [|rewrite <- F; reflexivity]. rewrite Hh'. symmetry. apply ty_app. auto.
    + rewrite Hm, at_key_app in A2. destruct (at_key k (mp s1)); [discriminate|]. rewrite <- F. reflexivity.
Qed.

(** Finishing an object. *)
Lemma life_eq : forall (s : own) h ty x y, heap s = h ++ (ty, x) :: skipn (S (length h)) (heap s) ->
  set_life (length h) y s = Own (h ++ (ty, y) :: skipn (S (length h)) (heap s)) (vec s) (mp s).
Proof.
  intros s h ty x y E. unfold set_life. rewrite E at 1. rewrite nth_error_app2, Nat.sub_diag by lia. cbn [nth_error].
  f_equal. f_equal. rewrite E. rewrite firstn_app, Nat.sub_diag, firstn_all. cbn [firstn]. apply app_nil_r.
Qed.
Lemma life_app : forall (s : own) h ty x y r, heap s = h ++ (ty, x) :: r ->
  set_life (length h) y s = Own (h ++ (ty, y) :: r) (vec s) (mp s).
Proof.
  intros s h ty x y r E. assert (R : skipn (S (length h)) (heap s) = r).
  { rewrite E. replace (S (length h)) with (length (h ++ [(ty, x)])) by (rewrite app_length; cbn; lia).
    replace (h ++ (ty, x) :: r) with ((h ++ [(ty, x)]) ++ r) by (rewrite <- app_assoc; reflexivity).
    rewrite skipn_app, skipn_all, Nat.sub_diag. reflexivity. }
  rewrite (life_eq s h ty x y); rewrite R; [reflexivity|exact E].
Qed.
Lemma nth_set : forall (h r : list (nat * life)) ty x y b z, b <> length h ->
  nth_error (h ++ (ty, x) :: r) b = Some z -> nth_error (h ++ (ty, y) :: r) b = Some z.
Proof.
  intros h r ty x y b z N. destruct (lt_dec b (length h)).
  - rewrite !nth_error_app1 by lia. auto.
  - rewrite !nth_error_app2 by lia. destruct (b - length h) eqn:E; [lia|]. cbn [nth_error]. auto.
Qed.
Lemma nth_mid : forall (h r : list (nat * life)) x, nth_error (h ++ x :: r) (length h) = Some x.
Proof. intros. rewrite nth_error_app2, Nat.sub_diag by lia. reflexivity. Qed.
Lemma ty_set : forall h r ty x y b, ty_at (h ++ (ty, x) :: r) b = ty_at (h ++ (ty, y) :: r) b.
Proof.
  intros. unfold ty_at. destruct (lt_dec b (length h)).
  - rewrite !nth_error_app1 by lia. reflexivity.
  - rewrite !nth_error_app2 by lia. destruct (b - length h); reflexivity.
Qed.
Lemma W_alloc : forall ty s, W s -> W (alloc ty s).
Proof.
  intros ty s (A & B & C). split; [exact A|]. split; [exact B|]. intros a. unfold owned, alloc, exists_as in *. cbn [heap vec mp].
  rewrite C. split; intros [t E].
  - exists t. apply nth_error_app_l. exact E.
  - exists t. destruct (lt_dec a (length (heap s))).
    + rewrite nth_error_app1 in E by lia. exact E.
    + rewrite nth_error_app2 in E by lia. destruct (a - length (heap s)) as [|[|n0]]; cbn in E; congruence.
Qed.

Section FIN.
Context (s s1 : own) (ty : nat) (ev : list (option K * nat)) (Ws : W s) (PO : post (alloc ty s) s1 ev).
Notation a := (length (heap s)).
Lemma fin_heap : exists r, heap s1 = heap s ++ (ty, Building) :: r /\ Forall nb r.
Proof.
  destruct PO as (_ & h & _ & _ & E & N & _). cbn [alloc heap] in E. exists h. split; [|exact N].
  rewrite E, <- app_assoc. reflexivity.
Qed.
Lemma fin_fresh : ~ In a (owned s1).
Proof.
  destruct PO as ((_ & _ & C) & _). rewrite C. intros [t E]. unfold exists_as in E.
  destruct fin_heap as (r & H & _). rewrite H, nth_mid in E. discriminate.
Qed.
(** The object [a] becomes [x]; [v] and [m] are the containers then. *)
Lemma fin : forall x v m e r,
  heap s1 = heap s ++ (ty, Building) :: r ->
  (x = Dead /\ v = vec s1 /\ m = mp s1 /\ (e = [] \/ exists k, e = [(Some k, ty)] /\ at_key k (mp s1) <> None) \/
   x = Alive /\ v = vec s1 ++ [a] /\ m = mp s1 /\ e = [(None, ty)] \/
   exists k, x = Alive /\ v = vec s1 /\ m = mp s1 ++ [(k, a)] /\ at_key k (mp s1) = None /\ e = [(Some k, ty)]) ->
  post s (Own (heap s ++ (ty, x) :: r) v m) (ev ++ e).
Proof.
  intros x v m e r HH CS. pose proof fin_fresh as FR.
  destruct PO as (W1 & h & v1 & m1 & Hh & Nh & Hv & Hm & Tv & F).
  assert (h = r) as ->. { cbn [alloc heap] in Hh. rewrite HH, <- app_assoc in Hh. apply app_inv_head in Hh. cbn in Hh. congruence. }
  pose proof W1 as (A & B & C).
  assert (NE : forall b, In b (owned s1) -> b <> a) by (intros b I ->; exact (FR I)).
  assert (EX : forall b, b <> a -> (exists t, exists_as s1 b t) <-> exists t, nth_error (heap s ++ (ty, x) :: r) b = Some (t, Alive)).
  { intros b N. unfold exists_as. rewrite HH. split; intros [t E]; exists t; eapply nth_set; eassumption. }
  assert (TY : forall b, ty_at (heap s ++ (ty, x) :: r) b = ty_at (heap s1) b) by (intros b; rewrite HH; apply ty_set).
  assert (TA : ty_at (heap s1) a = Some ty) by (rewrite HH; unfold ty_at; rewrite nth_mid; reflexivity).
  assert (WW : W (Own (heap s ++ (ty, x) :: r) v m)).
  { unfold W, owned, exists_as. cbn [heap vec mp].
    destruct CS as [(-> & -> & -> & _)|[(-> & -> & -> & _)|(k & -> & -> & -> & NK & _)]].
    - split; [exact A|]. split; [exact B|]. intros b. fold (owned s1).
      destruct (Nat.eq_dec b a) as [->|N]; [|rewrite C; apply EX; exact N].
      split; [intros I; contradiction (FR I)|]. intros [t E]. rewrite nth_mid in E. discriminate.
    - split; [|split; [exact B|]].
      + rewrite <- app_assoc. apply NoDup_Add with (a := a) (l := owned s1); [apply Add_app|]. split; [exact A|exact FR].
      + intros b. rewrite <- app_assoc, in_app_iff. cbn [app In].
        destruct (Nat.eq_dec b a) as [->|N].
        * split; [intros _; exists ty; apply nth_mid|auto].
        * rewrite <- EX by exact N. rewrite <- C. unfold owned. rewrite in_app_iff. intuition congruence.
    - split; [|split].
      + rewrite map_app. cbn [map snd]. rewrite app_assoc.
        apply NoDup_Add with (a := a) (l := owned s1 ++ []); [apply Add_app|]. rewrite app_nil_r. split; [exact A|exact FR].
      + rewrite map_app. cbn [map fst].
        apply NoDup_Add with (a := k) (l := map fst (mp s1) ++ []); [apply Add_app|]. rewrite app_nil_r. split; [exact B|].
        apply at_key_none. exact NK.
      + intros b. rewrite map_app. cbn [map snd]. rewrite app_assoc, in_app_iff. cbn [In]. fold (owned s1).
        destruct (Nat.eq_dec b a) as [->|N].
        * split; [intros _; exists ty; apply nth_mid|auto].
        * rewrite <- EX by exact N. rewrite <- C. intuition congruence. }
  split; [exact WW|]. cbn [heap vec mp]. cbn [alloc vec mp] in Hv, Hm.
  assert (KT : forall k b, at_key k (mp s) = Some b -> at_key k (mp s1) = Some b).
  { intros k b E. rewrite Hm, at_key_app, E. reflexivity. }
  destruct CS as [(-> & -> & -> & CE)|[(-> & -> & -> & ->)|(k0 & -> & -> & -> & NK & ->)]].
  - exists ((ty, Dead) :: r), v1, m1. split; [reflexivity|]. split; [constructor; [discriminate|exact Nh]|].
    split; [exact Hv|]. split; [exact Hm|]. split.
    + rewrite pushed_app. replace (pushed e) with (@nil nat) by (destruct CE as [->|(k & -> & _)]; reflexivity).
      rewrite app_nil_r, <- Tv. apply map_ext. intros b. apply TY.
    + intros k. specialize (F k). cbn [alloc mp] in F. rewrite first_app.
      transitivity (match at_key k (mp s1) with Some b => ty_at (heap s1) b | None => None end).
      { destruct (at_key k (mp s1)); [apply TY|reflexivity]. }
      rewrite F. destruct (at_key k (mp s)) as [b|] eqn:E; [symmetry; apply TY|].
      destruct (first_put k ev) eqn:G; [reflexivity|].
      destruct CE as [->|(k' & -> & NN)]; [reflexivity|]. cbn [EmplSpec.first_put]. destruct (keqb k' k) eqn:Q; [|reflexivity].
      apply KE in Q. subst k'. destruct (at_key k (mp s1)) as [b|] eqn:E1; [|congruence].
      destruct (key_ty s1 k b W1 E1) as [t T]. congruence.
  - exists ((ty, Alive) :: r), (v1 ++ [a]), m1. split; [reflexivity|]. split; [constructor; [discriminate|exact Nh]|].
    split; [rewrite Hv, app_assoc; reflexivity|]. split; [exact Hm|]. split.
    + rewrite pushed_app, !map_app. cbn [map pushed flat_map fst snd app]. rewrite TY, TA. f_equal. rewrite <- Tv. apply map_ext. intros b. apply TY.
    + intros k. specialize (F k). cbn [alloc mp] in F. rewrite first_app. cbn [EmplSpec.first_put].
      transitivity (match at_key k (mp s1) with Some b => ty_at (heap s1) b | None => None end).
      { destruct (at_key k (mp s1)); [apply TY|reflexivity]. }
      rewrite F. destruct (at_key k (mp s)) as [b|]; [symmetry; apply TY|]. destruct (first_put k ev); reflexivity.
  - exists ((ty, Alive) :: r), v1, (m1 ++ [(k0, a)]). split; [reflexivity|]. split; [constructor; [discriminate|exact Nh]|].
    split; [exact Hv|]. split; [rewrite Hm, app_assoc; reflexivity|]. split.
    + rewrite pushed_app. cbn [pushed flat_map fst snd app]. rewrite app_nil_r, <- Tv. apply map_ext. intros b. apply TY.
    + intros k. specialize (F k). cbn [alloc mp] in F. rewrite first_app, at_key_app. cbn [EmplSpec.first_put EmplModel.at_key].
      destruct (at_key k (mp s1)) as [b|] eqn:E1.
      * rewrite TY, F. destruct (at_key k (mp s)) as [b'|]; [symmetry; apply TY|].
        destruct (key_ty s1 k b W1 E1) as [t T]. rewrite T in F. rewrite <- F. reflexivity.
      * destruct (at_key k (mp s)) as [b'|] eqn:E0; [rewrite (KT _ _ E0) in E1; discriminate|]. rewrite <- F.
        destruct (keqb k0 k); [rewrite TY; exact TA|reflexivity].
Qed.
End FIN.

Definition good (c : call) : Prop := forall s, W s ->
  match emplace c s with
  | Ok (s', r) => post s s' (fst (completed c)) /\ snd (completed c) = match r with Some _ => true | None => false end
  | UB => True
  | _ => False
  end.
Lemma ctor_good : forall l, Forall good l -> forall s, W s ->
  match ctor l s with
  | Ok (s', ok) => post s s' (fst (call_all l)) /\ snd (call_all l) = ok
  | UB => True
  | _ => False
  end.
Proof.
  induction 1 as [|c l G _ IH]; intros s H; cbn [ctor call_all]; [split; [apply post_refl; exact H|reflexivity]|].
  specialize (G s H). destruct (emplace c s) as [[s' r]| | |]; cbn [obind]; try exact G. destruct G as [P1 E].
  destruct r as [a|]; cbv zeta; rewrite E; cbn [fst snd]; [|auto].
  specialize (IH s' (proj1 P1)). destruct (ctor l s') as [[s2 ok]| | |]; try exact IH. destruct IH as [P2 E2].
  split; [eapply post_trans; eassumption|exact E2].
Qed.
Lemma cast_cases : forall ty b (s : own), cast_up isa ty b s = Ok (s, Some b) /\ (exists u, exists_as s b u /\ isa u ty = true) \/ cast_up isa ty b s = UB.
Proof.
  intros ty b s. unfold cast_up, exists_as. destruct (nth_error (heap s) b) as [[u x]|]; [|auto]. destruct x; auto.
  destruct (isa u ty) eqn:E; [|auto]. left. split; [reflexivity|]. exists u. auto.
Qed.
Lemma push_fin : forall s s1 ty ev, W s -> post (alloc ty s) s1 ev -> exists r,
  heap s1 = heap s ++ (ty, Building) :: r /\
  (let s2 := set_life (length (heap s)) Alive s1 in
   Own (heap s2) (vec s2 ++ [length (heap s)]) (mp s2) = Own (heap s ++ (ty, Alive) :: r) (vec s1 ++ [length (heap s)]) (mp s1)) /\
  post s (Own (heap s ++ (ty, Alive) :: r) (vec s1 ++ [length (heap s)]) (mp s1)) (ev ++ [(None, ty)]).
Proof.
  intros s s1 ty ev Ws PO. destruct (fin_heap s s1 ty ev PO) as (r & H & _). exists r. split; [exact H|].
  cbv zeta. rewrite (life_app s1 (heap s) ty Building Alive r H). cbn [heap vec mp]. split; [reflexivity|].
  eapply fin; [exact PO|exact H|]. right. left. auto.
Qed.
Lemma dead_fin : forall s s1 ty ev, W s -> post (alloc ty s) s1 ev -> post s (set_life (length (heap s)) Dead s1) ev.
Proof.
  intros s s1 ty ev Ws PO. destruct (fin_heap s s1 ty ev PO) as (r & H & _).
  rewrite (life_app s1 (heap s) ty Building Dead r H). rewrite <- (app_nil_r ev). eapply fin; [exact PO|exact H|]. left. auto 6.
Qed.
Lemma put_fin : forall s s1 ty ev k, W s -> post (alloc ty s) s1 ev ->
  let s2 := set_life (length (heap s)) Alive s1 in
  mp s2 = mp s1 /\
  (at_key k (mp s1) = None -> post s (Own (heap s2) (vec s2) (mp s2 ++ [(k, length (heap s))])) (ev ++ [(Some k, ty)])) /\
  (at_key k (mp s1) <> None -> post s (set_life (length (heap s)) Dead s2) (ev ++ [(Some k, ty)]) /\ mp (set_life (length (heap s)) Dead s2) = mp s1).
Proof.
  intros s s1 ty ev k Ws PO. destruct (fin_heap s s1 ty ev PO) as (r & H & _). cbv zeta.
  rewrite (life_app s1 (heap s) ty Building Alive r H). cbn [heap vec mp]. split; [reflexivity|]. split.
  - intros N. eapply fin; [exact PO|exact H|]. right. right. exists k. auto.
  - intros N. rewrite (life_app _ (heap s) ty Alive Dead r) by reflexivity. cbn [vec mp]. split; [|reflexivity].
    eapply fin; [exact PO|exact H|]. left. repeat split; auto. right. exists k. auto.
Qed.
Lemma all_good : forall c, good c.
Proof.
  apply call_ind2.
  - intros ty body th F s H. rewrite push_eq, push_done. pose proof (ctor_good body F (alloc ty s) (W_alloc ty s H)) as C.
    destruct (ctor body (alloc ty s)) as [[s1 ok]| | |]; cbn [obind]; try exact C. destruct C as [PO E]. rewrite E.
    destruct (ok && negb th); cbn [fst snd].
    + destruct (push_fin s s1 ty _ H PO) as (r & _ & Q & PF). cbv zeta in Q. rewrite Q.
      match goal with |- match cast_up isa ?t ?b ?x with _ => _ end => destruct (cast_cases t b x) as [[-> _]| ->] end; [|exact I].
      split; [exact PF|reflexivity].
    + split; [eapply dead_fin; eassumption|reflexivity].
  - intros k ty body th F s H. rewrite put_eq, put_done. pose proof (ctor_good body F (alloc ty s) (W_alloc ty s H)) as C.
    destruct (ctor body (alloc ty s)) as [[s1 ok]| | |]; cbn [obind]; try exact C. destruct C as [PO E]. rewrite E.
    destruct (ok && negb th); cbn [fst snd].
    + destruct (put_fin s s1 ty _ k H PO) as (M & PN & PY). rewrite M. rewrite M in PN.
      destruct (at_key k (mp s1)) as [b|].
      * match goal with |- match cast_up isa ?t ?b ?x with _ => _ end => destruct (cast_cases t b x) as [[-> _]| ->] end; [|exact I].
        split; [apply PY; discriminate|reflexivity].
      * match goal with |- match cast_up isa ?t ?b ?x with _ => _ end => destruct (cast_cases t b x) as [[-> _]| ->] end; [|exact I].
        split; [apply PN; reflexivity|reflexivity].
    + split; [eapply dead_fin; eassumption|reflexivity].
Qed.
Lemma ctor_ok : forall l s, W s ->
  match ctor l s with
  | Ok (s', ok) => post s s' (fst (call_all l)) /\ snd (call_all l) = ok
  | UB => True
  | _ => False
  end.
Proof. intros l. apply ctor_good. apply Forall_forall. intros c _. apply all_good. Qed.
Lemma program_post : forall l s, W s ->
  match program keqb isa l s with
  | Ok (s', rs) => post s s' (history l) /\ map (fun c => snd (completed c)) l = map (fun r => match r with Some _ => true | None => false end) rs
  | UB => True
  | _ => False
  end.
Proof.
  induction l as [|c l IH]; intros s H; cbn [program]; [split; [apply post_refl; exact H|reflexivity]|].
  pose proof (all_good c s H) as G. destruct (emplace c s) as [[s' r]| | |]; cbn [obind]; try exact G. destruct G as [P1 E].
  specialize (IH s' (proj1 P1)). destruct (program keqb isa l s') as [[s2 rs]| | |]; cbn [obind]; try exact IH. destruct IH as [P2 E2].
  split; [exact (post_trans _ _ _ _ _ P1 P2)|]. cbn [map]. rewrite E, E2. reflexivity.
Qed.
Lemma W_nothing : W nothing.
Proof.
  split; [constructor|]. split; [constructor|]. intros a. split; [intros []|]. intros [t E].
  unfold exists_as in E. destruct a; discriminate E.
Qed.
Lemma reached : forall p s rs, program keqb isa p nothing = Ok (s, rs) ->
  post nothing s (history p) /\ map (fun c => snd (completed c)) p = map (fun r => match r with Some _ => true | None => false end) rs.
Proof. intros p s rs E. pose proof (program_post p nothing W_nothing) as P. rewrite E in P. exact P. Qed.

(** The statements. *)
Lemma st_tidy : forall p s rs, program keqb isa p nothing = Ok (s, rs) -> tidy s.
Proof.
  intros p s rs E. destruct (reached p s rs E) as [((A & B & C) & h & v & m & Hh & N & _) _].
  split; [exact A|]. split; [exact B|]. split; [exact C|]. intros a t x Q. cbn [nothing heap app] in Hh. rewrite Hh in Q.
  apply nth_error_In in Q. rewrite Forall_forall in N. specialize (N _ Q). unfold nb in N. cbn [snd] in N. destruct x; auto. contradiction.
Qed.
Lemma st_holds : forall p s rs, program keqb isa p nothing = Ok (s, rs) ->
  Forall2 (exists_as s) (vec s) (pushed (history p)) /\
  (forall k, match first_put k (history p) with
             | Some t => exists a, at_key k (mp s) = Some a /\ exists_as s a t
             | None => at_key k (mp s) = None
             end) /\
  map (fun c => snd (completed c)) p = map (fun r => match r with Some _ => true | None => false end) rs.
Proof.
  intros p s rs E. destruct (reached p s rs E) as [(WW & h & v & m & Hh & N & Hv & Hm & T & F) R].
  cbn [nothing vec mp app] in Hv, Hm, F. split; [|split; [|exact R]].
  - rewrite Hv. assert (O : forall a, In a v -> In a (owned s)). { intros a I. apply in_or_app. left. rewrite Hv. exact I. }
    clear Hv. revert T O. generalize (pushed (history p)). induction v as [|a v IH]; intros [|t l] T O; cbn [map] in T; try discriminate; constructor.
    + injection T as T _. pose proof (proj1 (proj2 (proj2 WW) a) (O a (or_introl eq_refl))) as [u X]. unfold exists_as, ty_at in *.
      rewrite X in *. cbn in T. congruence.
    + injection T as _ T. apply IH; [exact T|]. intros b I. apply O. right. exact I.
  - intros k. specialize (F k). cbn [EmplModel.at_key] in F. destruct (at_key k (mp s)) as [b|] eqn:A.
    + rewrite <- F. pose proof (proj1 (proj2 (proj2 WW) b) (key_owned s k b A)) as [u X]. unfold ty_at. rewrite X. cbn. exists b. auto.
    + rewrite <- F. reflexivity.
Qed.
Lemma st_kept : forall p s rs c s' r, program keqb isa p nothing = Ok (s, rs) -> emplace c s = Ok (s', r) ->
  (forall a t, exists_as s a t -> exists_as s' a t) /\
  (exists v, vec s' = vec s ++ v) /\ (forall k a, at_key k (mp s) = Some a -> at_key k (mp s') = Some a).
Proof.
  intros p s rs c s' r E E'. destruct (reached p s rs E) as [(WW & _) _]. pose proof (all_good c s WW) as G. rewrite E' in G.
  destruct G as [(_ & h & v & m & Hh & _ & Hv & Hm & _) _]. split; [|split; [eauto|]].
  - intros a t X. unfold exists_as. rewrite Hh. apply nth_error_app_l. exact X.
  - intros k a X. rewrite Hm, at_key_app, X. reflexivity.
Qed.
Lemma st_push : forall p s rs ty body th s' a, program keqb isa p nothing = Ok (s, rs) ->
  emplace (EPush ty body th) s = Ok (s', Some a) ->
  nth_error (heap s) a = None /\ exists_as s' a ty /\ exists v, vec s' = v ++ [a].
Proof.
  intros p s rs ty body th s' a E E'. destruct (reached p s rs E) as [(WW & _) _]. rewrite push_eq in E'.
  pose proof (ctor_ok body _ (W_alloc ty s WW)) as C. destruct (ctor body (alloc ty s)) as [[s1 ok]| | |]; cbn [obind] in E'; try discriminate.
  destruct C as [PO _]. destruct (ok && negb th); [|discriminate]. destruct (push_fin s s1 ty _ WW PO) as (r & _ & Q & _). cbv zeta in Q. rewrite Q in E'.
  rewrite last_last in E'. destruct (cast_cases ty (length (heap s)) (Own (heap s ++ (ty, Alive) :: r) (vec s1 ++ [length (heap s)]) (mp s1))) as [[X _]|X];
  rewrite X in E'; [|discriminate]. injection E' as <- <-. split; [apply nth_error_None; lia|]. split; [apply nth_mid|]. cbn [vec]. eauto.
Qed.
Lemma all_history : forall l, snd (call_all l) = true -> fst (call_all l) = history l.
Proof.
  induction l as [|c l IH]; cbn [call_all history flat_map]; [reflexivity|]. cbv zeta. destruct (snd (completed c)); cbn [fst snd]; [|discriminate].
  intros H. rewrite (IH H). reflexivity.
Qed.
Lemma st_put : forall p s rs k ty body th s' a, program keqb isa p nothing = Ok (s, rs) ->
  emplace (EPut k ty body th) s = Ok (s', Some a) ->
  at_key k (mp s') = Some a /\ (exists u, exists_as s' a u /\ isa u ty = true) /\
  (forall b, at_key k (mp s) = Some b -> a = b) /\
  (at_key k (mp s) = None -> nth_error (heap s) a = None) /\
  (at_key k (mp s) = None -> first_put k (history body) = None -> exists_as s' a ty).
Proof.
  intros p s rs k ty body th s' a E E'. destruct (reached p s rs E) as [(WW & _) _].
  pose proof (all_good (EPut k ty body th) s WW) as G. rewrite E' in G.
  destruct G as [(WW' & h & v & m & Hh & _ & Hv & Hm & _ & F) D].
  assert (KEPT : forall b, at_key k (mp s) = Some b -> at_key k (mp s') = Some b) by (intros b X; rewrite Hm, at_key_app, X; reflexivity).
  assert (A : at_key k (mp s') = Some a /\ exists u, exists_as s' a u /\ isa u ty = true).
  { rewrite put_eq in E'. pose proof (ctor_ok body _ (W_alloc ty s WW)) as C.
    destruct (ctor body (alloc ty s)) as [[s1 ok]| | |]; cbn [obind] in E'; try discriminate. destruct C as [PO EB].
    destruct (ok && negb th); [|discriminate]. destruct (put_fin s s1 ty _ k WW PO) as (M & _ & PY). rewrite M in E'.
    destruct (at_key k (mp s1)) as [b|] eqn:Q.
    - destruct (cast_cases ty b (set_life (length (heap s)) Dead (set_life (length (heap s)) Alive s1))) as [[X Y]|X]; rewrite X in E'; [|discriminate].
      injection E' as <- <-. destruct PY as [_ PY]; [discriminate|]. split; [rewrite PY; exact Q|exact Y].
    - match type of E' with cast_up isa ?t ?b ?x = _ => destruct (cast_cases t b x) as [[X Y]|X] end; rewrite X in E'; [|discriminate].
      injection E' as <- <-. split; [|exact Y]. cbn [mp]. rewrite at_key_app, Q. cbn [EmplModel.at_key].
      rewrite (proj2 (KE k k) eq_refl). reflexivity. }
  destruct A as [A U]. split; [exact A|]. split; [exact U|]. split; [intros b X; apply KEPT in X; congruence|]. split.
  - intros X. destruct (nth_error (heap s) a) as [[u x]|] eqn:Y; [|reflexivity]. exfalso.
    pose proof (proj1 (proj2 (proj2 WW') a) (key_owned s' k a A)) as [t Z]. unfold exists_as in Z. rewrite Hh, (nth_error_app_l _ _ _ _ _ Y) in Z.
    injection Z as -> ->.
    assert (O : In a (owned s)) by (apply (proj2 (proj2 (proj2 WW) a)); exists t; exact Y).
    rewrite Hm, at_key_app, X in A. apply at_key_in, (in_map snd) in A. cbn [snd] in A. apply in_split in A. destruct A as (m1 & m2 & Q).
    destruct WW' as (ND & _). unfold owned in ND. rewrite Hv, Hm, map_app, Q in ND. apply in_app_or in O.
    rewrite !app_assoc in ND. apply NoDup_remove_2 in ND. apply ND. rewrite !in_app_iff. tauto.
  - intros X Y. specialize (F k). rewrite A, X in F. rewrite put_done in D, F.
    destruct (snd (call_all body) && negb th) eqn:Q; [|discriminate]. apply andb_prop in Q. destruct Q as [Q _]. cbn [fst] in F.
    rewrite first_app, (all_history body Q), Y in F. cbn [EmplSpec.first_put] in F. rewrite (proj2 (KE k k) eq_refl) in F.
    pose proof (proj1 (proj2 (proj2 WW') a) (key_owned s' k a A)) as [t Z]. unfold exists_as, ty_at in *. rewrite Z in *. cbn in F. congruence.
Qed.

(** Definedness. *)
Context (REFL : forall t, isa t t = true) (ty_of : K -> nat).
Definition typed (s : own) : Prop := forall k b, at_key k (mp s) = Some b -> ty_at (heap s) b = Some (ty_of k).
Lemma uses_first : forall c, uses ty_of c -> forall k t, first_put k (fst (completed c)) = Some t -> t = ty_of k.
Proof.
  apply (call_ind2 (fun c => uses ty_of c -> forall k t, first_put k (fst (completed c)) = Some t -> t = ty_of k)).
  - intros ty body th F U k t. rewrite push_done. change (uses_all ty_of body) in U.
    assert (B : forall t, first_put k (fst (call_all body)) = Some t -> t = ty_of k).
    { clear t. induction F as [|c l G _ IH]; intros t; cbn [call_all]; [discriminate|]. destruct U as [U1 U2]. cbv zeta.
      destruct (snd (completed c)); cbn [fst]; [|apply G; exact U1]. rewrite first_app.
      destruct (first_put k (fst (completed c))) eqn:Q; [|apply IH; exact U2]. intros [= <-]. exact (G U1 _ _ Q). }
    destruct (_ && _); cbn [fst]; [|apply B]. rewrite first_app. cbn [EmplSpec.first_put]. destruct (first_put k (fst (call_all body))) eqn:Q; [|discriminate].
    intros [= <-]. apply B. reflexivity.
  - intros j ty body th F U k t. rewrite put_done. change (ty = ty_of j /\ uses_all ty_of body) in U. destruct U as [E U].
    assert (B : forall t, first_put k (fst (call_all body)) = Some t -> t = ty_of k).
    { clear t. induction F as [|c l G _ IH]; intros t; cbn [call_all]; [discriminate|]. destruct U as [U1 U2]. cbv zeta.
      destruct (snd (completed c)); cbn [fst]; [|apply G; exact U1]. rewrite first_app.
      destruct (first_put k (fst (completed c))) eqn:Q; [|apply IH; exact U2]. intros [= <-]. exact (G U1 _ _ Q). }
    destruct (_ && _); cbn [fst]; [|apply B]. rewrite first_app. cbn [EmplSpec.first_put]. destruct (first_put k (fst (call_all body))) eqn:Q.
    + intros [= <-]. apply B. reflexivity.
    + destruct (keqb j k) eqn:J; [|discriminate]. apply KE in J. congruence.
Qed.
Lemma typed_post : forall s s' ev, W s -> typed s -> post s s' ev -> (forall k t, first_put k ev = Some t -> t = ty_of k) -> typed s'.
Proof.
  intros s s' ev WW T (WW' & h & v & m & Hh & _ & _ & _ & _ & F) FP k b A. specialize (F k). rewrite A in F.
  destruct (key_ty s' k b WW' A) as [t X]. rewrite X in *. destruct (at_key k (mp s)) as [b'|] eqn:Q.
  - rewrite Hh, (ty_app _ _ _ _ (T k b' Q)) in F. exact F.
  - symmetry in F. apply FP in F. congruence.
Qed.
Definition safe (c : call) : Prop := uses ty_of c -> forall s, W s -> typed s -> emplace c s <> UB.
Lemma ctor_safe : forall l, Forall safe l -> uses_all ty_of l -> forall s, W s -> typed s ->
  match ctor l s with Ok (s', _) => typed s' | _ => False end.
Proof.
  induction 1 as [|c l G _ IH]; intros U s WW T; cbn [ctor]; [exact T|]. destruct U as [U1 U2].
  pose proof (all_good c s WW) as A. specialize (G U1 s WW T). destruct (emplace c s) as [[s' r]| | |]; cbn [obind]; try contradiction.
  destruct A as [A _]. pose proof (typed_post _ _ _ WW T A (uses_first c U1)) as T'. destruct r; [|exact T'].
  apply IH; [exact U2|exact (proj1 A)|exact T'].
Qed.
Lemma typed_alloc : forall ty s, typed s -> typed (alloc ty s).
Proof. intros ty s T k b A. cbn [alloc heap mp] in *. apply ty_app. apply T. exact A. Qed.
Lemma all_safe : forall c, safe c.
Proof.
  apply call_ind2.
  - intros ty body th F U s WW T. change (uses_all ty_of body) in U. rewrite push_eq.
    pose proof (ctor_safe body F U _ (W_alloc ty s WW) (typed_alloc ty s T)) as C. pose proof (ctor_ok body _ (W_alloc ty s WW)) as C'.
    destruct (ctor body (alloc ty s)) as [[s1 ok]| | |]; cbn [obind]; try contradiction. destruct C' as [PO _].
    destruct (ok && negb th); [|discriminate]. destruct (push_fin s s1 ty _ WW PO) as (r & _ & Q & _). cbv zeta in Q. rewrite Q, last_last.
    unfold cast_up. cbn [heap]. rewrite nth_mid, REFL. discriminate.
  - intros k ty body th F U s WW T. change (ty = ty_of k /\ uses_all ty_of body) in U. destruct U as [E U]. rewrite put_eq.
    pose proof (ctor_safe body F U _ (W_alloc ty s WW) (typed_alloc ty s T)) as C. pose proof (ctor_ok body _ (W_alloc ty s WW)) as C'.
    destruct (ctor body (alloc ty s)) as [[s1 ok]| | |]; cbn [obind]; try contradiction. destruct C' as [PO _].
    destruct (ok && negb th); [|discriminate]. destruct (put_fin s s1 ty _ k WW PO) as (M & _ & PY). rewrite M.
    destruct (fin_heap s s1 ty _ PO) as (r & H & _).
    destruct (at_key k (mp s1)) as [b|] eqn:Q.
    + destruct PY as [((_ & _ & O) & _) M2]; [discriminate|]. unfold cast_up.
      assert (I : In b (owned (set_life (length (heap s)) Dead (set_life (length (heap s)) Alive s1)))).
      { apply (key_owned _ k). rewrite M2. exact Q. }
      apply O in I. destruct I as [u X]. unfold exists_as in X. rewrite X.
      assert (u = ty) as ->; [|rewrite REFL; discriminate].
      pose proof (C k b Q) as Y. rewrite (life_app s1 (heap s) ty Building Alive r H) in X.
      rewrite (life_app _ (heap s) ty Alive Dead r) in X by reflexivity. cbn [heap] in X.
      rewrite H, (ty_set _ _ _ _ Dead) in Y. unfold ty_at in Y. rewrite X in Y. cbn in Y. congruence.
    + unfold cast_up. rewrite (life_app s1 (heap s) ty Building Alive r H). cbn [heap]. rewrite nth_mid, REFL. discriminate.
Qed.
Lemma st_defined : forall p, Forall (uses ty_of) p -> exists s rs, program keqb isa p nothing = Ok (s, rs).
Proof.
  intros p U. assert (G : forall s, W s -> typed s -> exists s' rs, program keqb isa p s = Ok (s', rs)).
  { induction U as [|c l U1 _ IH]; intros s WW T; cbn [program]; [eauto|].
    pose proof (all_good c s WW) as A. pose proof (all_safe c U1 s WW T) as G. destruct (emplace c s) as [[s' r]| | |]; cbn [obind]; try contradiction.
    destruct A as [A _]. destruct (IH s' (proj1 A) (typed_post _ _ _ WW T A (uses_first c U1))) as (s2 & rs & E). rewrite E. cbn [obind]. eauto. }
  apply G; [exact W_nothing|]. intros k b A. discriminate A.
Qed.
End P.
