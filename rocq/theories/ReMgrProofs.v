(** Managers whose objects use them. *)
From Coq Require Import Arith Bool Lia List Permutation.
From Verif Require Import Common MemModel ReMgrModel ReMgrSpec.
Import ListNotations.

(** *** Lists *)
Lemma upd_length : forall {A} (l : list A) i x, length (upd l i x) = length l.
Proof. induction l as [|a l IH]; intros [|i] x; cbn; auto. Qed.
Lemma upd_nth : forall {A} (l : list A) i x j, nth_error (upd l i x) j = if (j =? i) && (i <? length l) then Some x else nth_error l j.
Proof.
  induction l as [|a l IH]; intros [|i] x [|j]; cbn; try reflexivity.
  - rewrite Bool.andb_false_r. reflexivity.
  - rewrite IH. reflexivity.
Qed.
Lemma upd_app : forall {A} (a b : list A) y x, upd (a ++ y :: b) (length a) x = a ++ x :: b.
Proof. induction a as [|c a IH]; intros b y x; cbn; [reflexivity|]. rewrite IH. reflexivity. Qed.
Lemma firstn_upd : forall {A} (l : list A) i x n, i < n -> firstn n (upd l i x) = upd (firstn n l) i x.
Proof.
  induction l as [|a l IH]; intros i x n H; [destruct i, n; reflexivity|]. destruct i as [|i], n as [|n]; try lia; cbn; [reflexivity|].
  rewrite IH by lia. reflexivity.
Qed.
Lemma firstn_upd_out : forall {A} (l : list A) i x n, n <= i -> firstn n (upd l i x) = firstn n l.
Proof.
  induction l as [|a l IH]; intros i x n H; [destruct i; reflexivity|]. destruct i as [|i], n as [|n]; try lia; cbn; try reflexivity. rewrite IH by lia. reflexivity.
Qed.
Lemma nth_firstn : forall {A} (l : list A) n i, i < n -> nth_error (firstn n l) i = nth_error l i.
Proof. induction l as [|a l IH]; intros [|n] [|i] H; cbn; try reflexivity; try lia. apply IH. lia. Qed.
Lemma firstn_less : forall {A} (l l' : list A) m n, n <= m -> firstn m l = firstn m l' -> firstn n l = firstn n l'.
Proof. intros A l l' m n H E. rewrite <- (firstn_firstn l n m), <- (firstn_firstn l' n m) || idtac. assert (X : forall q : list A, firstn n q = firstn n (firstn m q)) by (intros q; rewrite firstn_firstn, Nat.min_l by lia; reflexivity). rewrite (X l), (X l'), E. reflexivity. Qed.

Lemma act_ind' : forall P : act -> Prop, (forall k, P (ADel k)) -> (forall l, Forall P l -> P (ANew l)) -> forall a, P a.
Proof.
  intros P Hd Hn. fix IH 1. intros [k|l]; [apply Hd|]. apply Hn. induction l as [|a l IHl]; constructor; [apply IH|exact IHl].
Qed.
Lemma do_new : forall ins l s, do_act ins (ANew l) s = obind (do_acts ins l (with_objs (objs s ++ [There true]) s)) (place ins (length (objs s))).
Proof.
  intros ins l s. cbn [do_act].
  assert (E : forall l s, (fix go (l : list act) (s : st) : outcome st := match l with [] => Ok s | b :: l' => obind (do_act ins b s) (fun s => go l' s) end) l s = do_acts ins l s).
  { clear. induction l as [|a l IH]; intros s; cbn [do_acts]; [reflexivity|]. destruct (do_act ins a s); cbn [obind]; try reflexivity. apply IH. }
  rewrite E. reflexivity.
Qed.

(** *** What actions leave as it is *)
Definition keeps (P : nat -> Prop) (s s' : st) : Prop :=
  log s' = log s /\ vis s' = vis s /\
  (forall k, nth_error (objs s) k = Some Gone -> nth_error (objs s') k = Some Gone) /\
  (forall k f, nth_error (objs s) k = Some (There f) -> exists f', nth_error (objs s') k = Some (There f') /\ (f = false -> f' = false) /\ (f' = f \/ P k)) /\
  length (objs s) <= length (objs s') /\
  (forall k, length (objs s) <= k -> k < length (objs s') -> exists f, nth_error (objs s') k = Some (There f)) /\
  (exists N, next s' = next s + length N /\ firstn (next s') (slots s') = firstn (next s) (slots s) ++ map Some N /\ NoDup N /\
     Forall (fun id => length (objs s) <= id /\ id < length (objs s')) N).
Definition sized (s : st) : Prop := length (slots s) = cap s /\ next s <= cap s /\ 0 < cap s.
Definition effect (ins : bool) (P : nat -> Prop) (s : st) (o : outcome st) : Prop :=
  match o with
  | Ok s' => keeps P s s' /\ sized s' /\ cap s <= cap s' /\ (ins = true -> cap s' = cap s)
  | UB => True
  | _ => False
  end.
Lemma keeps_refl : forall P s, keeps P s s.
Proof.
  intros P s. split; [reflexivity|]. split; [reflexivity|]. split; [auto|]. split; [intros k f H; exists f; auto|]. split; [lia|]. split; [intros; lia|].
  exists []. cbn. rewrite Nat.add_0_r, app_nil_r. repeat split; constructor.
Qed.
Lemma keeps_trans : forall P s1 s2 s3, keeps P s1 s2 -> keeps P s2 s3 -> keeps P s1 s3.
Proof.
  intros P s1 s2 s3 (A1 & A2 & A3 & A4 & A5 & A6 & N & A7 & A8 & A9 & A10) (B1 & B2 & B3 & B4 & B5 & B6 & M & B7 & B8 & B9 & B10).
  split; [congruence|]. split; [congruence|]. split; [auto|]. split.
  { intros k f H. destruct (A4 k f H) as (f1 & F1 & F2 & F3). destruct (B4 k f1 F1) as (f2 & G1 & G2 & G3). exists f2. split; [exact G1|]. split; [auto|].
    destruct G3 as [->|G3]; [|right; exact G3]. exact F3. }
  split; [lia|]. split.
  { intros k L U. destruct (Nat.lt_ge_cases k (length (objs s2))) as [C|C]; [|apply B6; assumption]. destruct (A6 k L C) as (f & F). destruct (B4 k f F) as (f' & F' & _). eauto. }
  exists (N ++ M). rewrite app_length. split; [lia|]. split.
  { rewrite B8, A8, map_app, app_assoc. reflexivity. }
  rewrite Forall_forall in A10, B10. split.
  { clear - A9 B9 A10 B10. induction N as [|x N IH]; cbn; [exact B9|]. inversion A9; subst. constructor.
    - rewrite in_app_iff. intros [H|H]; [contradiction|]. pose proof (A10 x (or_introl eq_refl)). pose proof (B10 x H). lia.
    - apply IH; [assumption|]. intros y Hy. apply A10. right. exact Hy. }
  apply Forall_forall. intros x H. apply in_app_iff in H. destruct H as [H|H]; [specialize (A10 x H)|specialize (B10 x H)]; lia.
Qed.
Lemma keeps_weak : forall (P Q : nat -> Prop) s s', (forall k, P k -> Q k) -> keeps P s s' -> keeps Q s s'.
Proof.
  intros P Q s s' H (A1 & A2 & A3 & A4 & A5 & A6 & A7). split; [exact A1|]. split; [exact A2|]. split; [exact A3|]. split; [|split; [exact A5|split; [exact A6|exact A7]]].
  intros k f F. destruct (A4 k f F) as (f' & F1 & F2 & [F3|F3]); exists f'; auto.
Qed.
Lemma del_keeps : forall k s, sized s -> effect true (eq k) s (del k s).
Proof.
  intros k s Sz. unfold del. destruct (nth_error (objs s) k) as [[f|]|] eqn:E; cbn [effect]; auto.
  assert (L : k < length (objs s)) by (apply nth_error_Some; congruence). split; [|split; [exact Sz|split; [cbn; lia|reflexivity]]].
  split; [reflexivity|]. split; [reflexivity|]. cbn [with_objs objs slots next]. split.
  { intros j H. rewrite upd_nth. destruct (Nat.eqb_spec j k) as [->|C]; [congruence|]. exact H. }
  split.
  { intros j f' H. rewrite upd_nth. destruct (Nat.eqb_spec j k) as [->|C]; cbn [andb]; [|exists f'; auto].
    destruct (Nat.ltb_spec k (length (objs s))) as [_|C]; [|lia]. exists false. auto. }
  rewrite upd_length. split; [lia|]. split; [intros; lia|]. exists []. cbn. rewrite Nat.add_0_r, app_nil_r. repeat split; constructor.
Qed.
Lemma place_effect : forall ins id s, sized s -> match place ins id s with
  | Ok s' => objs s' = objs s /\ log s' = log s /\ vis s' = vis s /\ next s' = next s + 1 /\ firstn (next s') (slots s') = firstn (next s) (slots s) ++ [Some id] /\
      sized s' /\ cap s <= cap s' /\ (ins = true -> cap s' = cap s)
  | UB => ins = true /\ cap s <= next s | _ => False end.
Proof.
  intros ins id s (L & N & C). unfold place. destruct (Nat.leb_spec (cap s) (next s)) as [H|H].
  - destruct ins; [auto|]. cbn. split; [reflexivity|]. split; [reflexivity|]. split; [reflexivity|]. split; [reflexivity|].
    assert (E : next s = cap s) by lia. split.
    { rewrite firstn_upd by lia. rewrite firstn_app. rewrite L, E. replace (cap s + 1 - cap s) with 1 by lia. rewrite (firstn_all2 (n := cap s + 1)) by lia. rewrite (firstn_all2 (n := cap s)) by lia.
      destruct (cap s * 3 - cap s) as [|m] eqn:X; [lia|]. cbn [repeat firstn]. rewrite <- L at 1. rewrite upd_app. reflexivity. }
    split; [|split; [lia|discriminate]]. unfold sized. cbn. rewrite upd_length, app_length, repeat_length. lia.
  - cbn. split; [reflexivity|]. split; [reflexivity|]. split; [reflexivity|]. split; [reflexivity|]. split.
    { rewrite firstn_upd by lia. assert (X : exists y, nth_error (slots s) (next s) = Some y) by (destruct (nth_error (slots s) (next s)) eqn:Y; [eauto|apply nth_error_None in Y; lia]).
      destruct X as [y Y]. destruct (nth_error_split _ _ Y) as (a & b & Eab & La). rewrite Eab, <- La.
      rewrite !firstn_app. replace (length a + 1 - length a) with 1 by lia. replace (length a - length a) with 0 by lia. rewrite (firstn_all2 (n := length a + 1)) by lia. rewrite firstn_all. cbn [firstn]. rewrite upd_app, app_nil_r. reflexivity. }
    split; [|split; [lia|reflexivity]]. unfold sized. cbn. rewrite upd_length. lia.
Qed.
Lemma act_effect : forall ins a s, sized s -> effect ins (fun k => deletes k a) s (do_act ins a s).
Proof.
  intros ins a. induction a as [k|l IH] using act_ind'; intros s Sz.
  - cbn [do_act]. pose proof (del_keeps k s Sz) as H. destruct (del k s) as [s'| | |]; cbn [effect] in *; auto. destruct H as (K & S' & C & E).
    split; [|split; [exact S'|split; [exact C|auto]]]. apply (keeps_weak (eq k)); [|exact K]. intros j ->. constructor.
  - rewrite do_new.
    assert (L : forall l0 s0, (forall a, In a l0 -> In a l) -> sized s0 -> effect ins (fun k => deletes k (ANew l)) s0 (do_acts ins l0 s0)).
    { induction l0 as [|a l0 IHl]; intros s0 I0 S0; cbn [do_acts]; [cbn; split; [apply keeps_refl|split; [exact S0|split; [lia|reflexivity]]]|].
      rewrite Forall_forall in IH. pose proof (IH a (I0 a (or_introl eq_refl)) s0 S0) as A. destruct (do_act ins a s0) as [s1| | |]; cbn [effect obind] in *; auto. destruct A as (A & B & C & D).
      pose proof (IHl s1 ltac:(intros b Hb; apply I0; right; exact Hb) B) as R. destruct (do_acts ins l0 s1) as [s2| | |]; cbn [effect] in *; auto. destruct R as (R & R2 & R3 & R4).
      split; [|split; [exact R2|split; [lia|intros E; rewrite R4, D by exact E; reflexivity]]]. apply (keeps_trans _ s0 s1 s2); [|exact R].
      apply (keeps_weak (fun k => deletes k a)); [|exact A]. intros k Hk. apply (deletes_in k a); [apply I0; left; reflexivity|exact Hk]. }
    specialize (L l (with_objs (objs s ++ [There true]) s) ltac:(auto) Sz).
    destruct (do_acts ins l (with_objs (objs s ++ [There true]) s)) as [s1| | |]; cbn [effect obind] in *; auto. destruct L as ((A1 & A2 & A3 & A4 & A5 & A6 & N & A7 & A8 & A9 & A10) & B & C & D).
    pose proof (place_effect ins (length (objs s)) s1 B) as P. destruct (place ins (length (objs s)) s1) as [s2| | |]; cbn [effect]; auto. destruct P as (P1 & P2 & P3 & P4 & P5 & P6 & P7 & P8).
    cbn [with_objs objs slots next log vis cap] in *. rewrite app_length in A5, A6, A10. cbn [length] in A5, A6, A10.
    split; [|split; [exact P6|split; [lia|intros E; rewrite P8, D by exact E; reflexivity]]].
    split; [congruence|]. split; [congruence|]. rewrite P1. split.
    { intros k H. apply A3. rewrite nth_error_app1 by (apply nth_error_Some; congruence). exact H. }
    split.
    { intros k f H. apply A4. rewrite nth_error_app1 by (apply nth_error_Some; congruence). exact H. }
    split; [lia|]. split.
    { intros k L U. destruct (Nat.eq_dec k (length (objs s))) as [->|X]; [|apply A6; lia].
      destruct (A4 (length (objs s)) true) as (f & F & _); [rewrite nth_error_app2, Nat.sub_diag by lia; reflexivity|]. eauto. }
    exists (N ++ [length (objs s)]). rewrite app_length. cbn [length]. split; [lia|]. split; [rewrite P5, A8, map_app, <- app_assoc; reflexivity|].
    rewrite Forall_forall in A10. split.
    { apply (Permutation_NoDup (Permutation_cons_append N (length (objs s)))). constructor; [|exact A9]. intros H. specialize (A10 _ H). lia. }
    apply Forall_forall. intros x H. apply in_app_iff in H. destruct H as [H|[<-|[]]]; [specialize (A10 x H)|]; lia.
Qed.
Lemma acts_effect : forall ins l s, sized s -> effect ins (fun k => deletes_one_of k l) s (do_acts ins l s).
Proof.
  intros ins l. induction l as [|a l IH]; intros s Sz; cbn [do_acts]; [cbn; split; [apply keeps_refl|split; [exact Sz|split; [lia|reflexivity]]]|].
  pose proof (act_effect ins a s Sz) as A. destruct (do_act ins a s) as [s1| | |]; cbn [effect obind] in *; auto. destruct A as (A & B & C & D).
  pose proof (IH s1 B) as R. destruct (do_acts ins l s1) as [s2| | |]; cbn [effect] in *; auto. destruct R as (R & R2 & R3 & R4).
  split; [|split; [exact R2|split; [lia|intros E; rewrite R4, D by exact E; reflexivity]]].
  apply (keeps_trans _ s s1 s2); [apply (keeps_weak (fun k => deletes k a)); [|exact A]|apply (keeps_weak (fun k => deletes_one_of k l)); [|exact R]].
  - intros k Hk. exists a. split; [left; reflexivity|exact Hk].
  - intros k (b & Hb & Hk). exists b. split; [right; exact Hb|exact Hk].
Qed.

Lemma keeps_deleted : forall P s s' k, keeps P s s' -> deleted s k -> deleted s' k.
Proof. intros P s s' k (_ & _ & _ & K4 & _) H. destruct (K4 k false H) as (f' & F' & F2 & _). unfold deleted. rewrite F', (F2 eq_refl). reflexivity. Qed.
Lemma act_done : forall ins a s s' k, sized s -> do_act ins a s = Ok s' -> deletes k a -> deleted s' k.
Proof.
  intros ins a. induction a as [k0|l IH] using act_ind'; intros s s' k Sz E H.
  - inversion H; subst. cbn in E. unfold del in E. destruct (nth_error (objs s) k0) as [[f|]|] eqn:F; try discriminate. injection E as <-.
    unfold deleted. cbn. rewrite upd_nth, Nat.eqb_refl. assert (k0 < length (objs s)) by (apply nth_error_Some; congruence). destruct (Nat.ltb_spec k0 (length (objs s))); [reflexivity|lia].
  - rewrite do_new in E. inversion H as [|a l0 Ha Hk]; subst. set (t := with_objs (objs s ++ [There true]) s) in *. assert (St : sized t) by exact Sz. clearbody t.
    destruct (do_acts ins l t) as [s1| | |] eqn:Da; try discriminate. cbn [obind] in E.
    assert (X : deleted s1 k /\ sized s1).
    { clear E. revert t St Da Ha. induction IH as [|b l Hb _ IHl]; intros t St Da Ha; [destruct Ha|]. cbn [do_acts] in Da. destruct (do_act ins b t) as [t1| | |] eqn:Db; try discriminate. cbn [obind] in Da.
      pose proof (act_effect ins b t St) as Eb. rewrite Db in Eb. destruct Eb as (_ & St1 & _). pose proof (acts_effect ins l t1 St1) as El. rewrite Da in El. destruct El as (Kl & Sl & _).
      split; [|exact Sl]. destruct Ha as [->|Ha]; [exact (keeps_deleted _ _ _ _ Kl (Hb _ _ _ St Db Hk))|]. apply (IHl (deletes_in k a l Ha Hk) t1 St1 Da Ha). }
    destruct X as (X & S1). pose proof (place_effect ins (length (objs s)) s1 S1) as Pe. rewrite E in Pe. destruct Pe as (Pe & _). unfold deleted. rewrite Pe. exact X.
Qed.
Lemma acts_done : forall ins l s s' k, sized s -> do_acts ins l s = Ok s' -> deletes_one_of k l -> deleted s' k.
Proof.
  intros ins l. induction l as [|b l IHl]; intros t s1 k St Da (a & Ha & Hk); [destruct Ha|]. cbn [do_acts] in Da. destruct (do_act ins b t) as [t1| | |] eqn:Db; try discriminate. cbn [obind] in Da.
  pose proof (act_effect ins b t St) as Eb. rewrite Db in Eb. destruct Eb as (_ & St1 & _). pose proof (acts_effect ins l t1 St1) as El. rewrite Da in El. destruct El as (Kl & Sl & _).
  destruct Ha as [->|Ha]; [exact (keeps_deleted _ _ _ _ Kl (act_done _ _ _ _ _ St Db Hk))|]. apply (IHl t1 s1 k St1 Da). exists a. auto.
Qed.
Lemma act_count : forall ins a s s', do_act ins a s = Ok s' -> length (objs s') + next s = length (objs s) + next s'.
Proof.
  intros ins a. induction a as [k0|l IH] using act_ind'; intros s s' E.
  - cbn in E. unfold del in E. destruct (nth_error (objs s) k0) as [[f|]|] eqn:F; try discriminate. injection E as <-. cbn. rewrite upd_length. reflexivity.
  - rewrite do_new in E. assert (X : forall t s1, do_acts ins l t = Ok s1 -> length (objs s1) + next t = length (objs t) + next s1).
    { clear E. induction IH as [|b l Hb _ IHl]; intros t s1 Da; cbn [do_acts] in Da; [injection Da as <-; reflexivity|]. destruct (do_act ins b t) as [t1| | |] eqn:Db; try discriminate. cbn [obind] in Da.
      specialize (Hb _ _ Db). specialize (IHl _ _ Da). lia. }
    destruct (do_acts ins l (with_objs (objs s ++ [There true]) s)) as [s1| | |] eqn:Da; try discriminate. cbn [obind] in E. apply X in Da. cbn in Da. rewrite app_length in Da. cbn in Da.
    unfold place in E. destruct (cap s1 <=? next s1); [destruct ins; [discriminate|]|]; injection E as <-; cbn; lia.
Qed.
Lemma acts_count : forall ins l s s', do_acts ins l s = Ok s' -> length (objs s') + next s = length (objs s) + next s'.
Proof.
  intros ins l. induction l as [|b l IHl]; intros t s1 Da; cbn [do_acts] in Da; [injection Da as <-; reflexivity|]. destruct (do_act ins b t) as [t1| | |] eqn:Db; try discriminate. cbn [obind] in Da.
  specialize (IHl _ _ Da). apply act_count in Db. lia.
Qed.

(** *** States between calls *)
Definition wf (s : st) : Prop := sized s /\ vis s <= next s /\ firstn (next s) (slots s) = map Some (listed s) /\ length (listed s) = next s /\
  NoDup (listed s) /\ Forall (exists_in s) (listed s) /\ NoDup (log s) /\ (forall id, In id (log s) <-> nth_error (objs s) id = Some Gone).
Lemma flat_some : forall L : list nat, flat_map (fun x => match x with Some id => [id] | None => [] end) (map Some L) = L.
Proof. induction L as [|x L IH]; cbn; [reflexivity|]. rewrite IH. reflexivity. Qed.
Lemma listed_is : forall s L, firstn (next s) (slots s) = map Some L -> listed s = L.
Proof. intros s L H. unfold listed. rewrite H. apply flat_some. Qed.
Lemma nodup_r : forall {A} (l m : list A), NoDup (l ++ m) -> NoDup m.
Proof. induction l as [|x l IH]; intros m H; [exact H|]. cbn in H. apply NoDup_cons_iff in H. apply IH, H. Qed.
Lemma nth_lt : forall {A} (l : list A) i x, nth_error l i = Some x -> i < length l.
Proof. intros. apply nth_error_Some. congruence. Qed.

Section Run.
Variable script : nat -> list act.

(** *** The loop: [P] is what was passed from the left, [Q] what is still between, [D] what was destroyed. *)
Record inv (s0 s : st) (P Q D : list nat) : Prop := {
  i_size : sized s; i_cap : cap s = cap s0; i_vis : vis s = vis s0; i_next : next s0 <= next s;
  i_slots : firstn (next s0) (slots s) = map Some P ++ map Some Q ++ repeat None (length D);
  i_log : log s = log s0 ++ D;
  i_perm : Permutation (listed s0) (P ++ Q ++ D);
  i_there : forall id, In id P \/ In id Q -> exists_in s id;
  i_gone : forall id, In id (log s) <-> nth_error (objs s) id = Some Gone;
  i_len : length (objs s0) <= length (objs s);
  i_passed : forall id, In id P -> living s0 id;
  i_mono : forall id, deleted s0 id -> deleted s id \/ In id D;
  i_dead : forall id, deleted s id \/ In id D -> id < length (objs s0) -> deleted s0 id \/ exists j, In j D /\ deletes_one_of id (script j);
  i_old : forall id, exists_in s0 id -> exists_in s id \/ In id D;
  i_new : forall id, length (objs s0) <= id -> id < length (objs s) -> exists_in s id;
  i_fate : forall id, In id D -> doomed script s0 id;
  i_ran : forall j k, In j D -> deletes_one_of k (script j) -> deleted s k \/ In k D }.

Lemma inv_lengths : forall s0 s P Q D, wf s0 -> inv s0 s P Q D -> length P + length Q + length D = next s0.
Proof.
  intros s0 s P Q D (_ & _ & _ & L & _) I. pose proof (Permutation_length (i_perm _ _ _ _ _ I)) as E. rewrite !app_length in E. lia.
Qed.
Lemma inv_nodup : forall s0 s P Q D, wf s0 -> inv s0 s P Q D -> NoDup (P ++ Q ++ D).
Proof. intros s0 s P Q D (_ & _ & _ & _ & N & _) I. apply (Permutation_NoDup (i_perm _ _ _ _ _ I) N). Qed.
Lemma old_id : forall s0 s P Q D id, wf s0 -> inv s0 s P Q D -> In id (P ++ Q ++ D) -> exists_in s0 id.
Proof.
  intros s0 s P Q D id (_ & _ & _ & _ & _ & F & _) I H. rewrite Forall_forall in F. apply F. apply (Permutation_in _ (Permutation_sym (i_perm _ _ _ _ _ I)) H).
Qed.
Lemma slot_P : forall s0 s P Q D a P' , inv s0 s P Q D -> wf s0 -> P ++ Q = P' ++ a -> forall id rest, a = id :: rest -> nth_error (slots s) (length P') = Some (Some id).
Proof.
  intros s0 s P Q D a P' I W E id rest ->. pose proof (inv_lengths _ _ _ _ _ W I) as L. assert (Le : length P + length Q = length P' + S (length rest)) by (rewrite <- (app_length P Q), E, app_length; reflexivity).
  rewrite <- (nth_firstn (slots s) (next s0)) by lia. rewrite (i_slots _ _ _ _ _ I), app_assoc, <- map_app, E.
  rewrite nth_error_app1 by (rewrite map_length, app_length; cbn; lia). rewrite map_app, nth_error_app2 by (rewrite map_length; lia).
  rewrite map_length, Nat.sub_diag. reflexivity.
Qed.
Lemma alive_is : forall s id i f, nth_error (slots s) i = Some (Some id) -> nth_error (objs s) id = Some (There f) -> alive_at s i = Ok f.
Proof. intros s id i f H1 H2. unfold alive_at. rewrite H1, H2. reflexivity. Qed.

Definition culprit (s0 : st) : Prop := exists s P Q D id, inv s0 s P Q D /\ In id Q /\ deleted s id /\ do_acts true (script id) s = UB.

(** Destroying the last of those between. *)
Lemma deinit_last : forall s0 s P Q D id, wf s0 -> inv s0 s P (Q ++ [id]) D -> deleted s id ->
  match deinit_at script s (length P + length Q) with Ok s' => inv s0 s' P Q (D ++ [id]) | UB => culprit s0 | _ => False end.
Proof.
  intros s0 s P Q D id W I Hd. pose proof (slot_P _ _ _ _ _ [id] (P ++ Q) I W ltac:(rewrite app_assoc; reflexivity) id [] eq_refl) as Sl. rewrite app_length in Sl.
  pose proof (inv_lengths _ _ _ _ _ W I) as Le. rewrite app_length in Le. cbn [length] in Le. pose proof (inv_nodup _ _ _ _ _ W I) as Nd.
  unfold deinit_at. rewrite Sl, Hd. pose proof (acts_effect true (script id) s (i_size _ _ _ _ _ I)) as E.
  destruct (do_acts true (script id) s) as [s1| | |] eqn:Da; cbn [effect obind] in *; try contradiction.
  2: { exists s, P, (Q ++ [id]), D, id. split; [exact I|]. split; [apply in_app_iff; right; left; reflexivity|]. split; assumption. }
  destruct E as ((K1 & K2 & K3 & K4 & K5 & K6 & N & K7 & K8 & K9 & K10) & Sz & Cp1 & Cp). specialize (Cp eq_refl). destruct I as [I1 I2 I3 I4 I5 I6 I7 I8 I9 I10 I11 I12 I13 I14 I15 I16 I17].
  assert (Hid : id < length (objs s)) by (apply (nth_lt _ _ _ Hd)).
  assert (Io : forall k, nth_error (upd (objs s1) id Gone) k = if k =? id then Some Gone else nth_error (objs s1) k).
  { intros k. rewrite upd_nth. destruct (Nat.eqb_spec k id) as [->|]; [|reflexivity]. destruct (Nat.ltb_spec id (length (objs s1))) as [_|X]; [reflexivity|lia]. }
  assert (Fx : firstn (next s0) (slots s1) = firstn (next s0) (slots s)).
  { apply (firstn_less _ _ (next s)); [exact I4|]. assert (X : firstn (next s) (firstn (next s1) (slots s1)) = firstn (next s) (slots s)).
    { rewrite K8, firstn_app. destruct I1 as (Ls & Ns & _). rewrite firstn_firstn, Nat.min_id. rewrite firstn_length_le by lia. rewrite Nat.sub_diag. cbn [firstn]. apply app_nil_r. }
    rewrite firstn_firstn, Nat.min_l in X by lia. exact X. }
  assert (Nid : ~ In id P /\ ~ In id Q /\ ~ In id D).
  { assert (X : Permutation (P ++ (Q ++ [id]) ++ D) (id :: P ++ Q ++ D)) by (rewrite <- app_assoc; cbn [app]; rewrite app_assoc, (app_assoc P Q D); symmetry; apply Permutation_middle).
    pose proof (Permutation_NoDup X Nd) as Y. inversion Y as [|? ? Y1 Y2]; subst. rewrite !in_app_iff in Y1. tauto. }
  destruct Nid as (NP & NQ & ND). assert (Ex : forall k, exists_in s k -> k <> id -> exists f, nth_error (upd (objs s1) id Gone) k = Some (There f)).
  { intros k [f F] C. rewrite Io. destruct (Nat.eqb_spec k id); [contradiction|]. destruct (K4 k f F) as (f' & F' & _). eauto. }
  constructor; cbn [slots objs vis next cap log].
  - destruct Sz as (S1 & S2 & S3). unfold sized; cbn. rewrite upd_length. auto.
  - congruence.
  - congruence.
  - lia.
  - rewrite firstn_upd by lia. rewrite Fx, I5, app_length. cbn [length]. rewrite map_app, <- !app_assoc. cbn [map app]. rewrite app_assoc.
    replace (length P + length Q) with (length (map Some P ++ map Some Q)) by (rewrite app_length, !map_length; reflexivity).
    rewrite upd_app, <- app_assoc. do 2 f_equal. rewrite Nat.add_1_r. reflexivity.
  - rewrite K1, I6, app_assoc. reflexivity.
  - rewrite I7. apply Permutation_app_head. rewrite <- !app_assoc. apply Permutation_app_head. cbn. apply Permutation_cons_append.
  - intros k H. apply Ex; [apply I8; rewrite in_app_iff; tauto|]. intros ->. tauto.
  - intros k. rewrite in_app_iff, Io, K1, I9. cbn [In]. destruct (Nat.eqb_spec k id) as [->|C].
    + split; auto.
    + split.
      * intros [H|[H|[]]]; [apply K3; exact H|congruence].
      * intros H. left. destruct (nth_error (objs s) k) as [[f|]|] eqn:F; [destruct (K4 k f F) as (f' & F' & _); congruence|reflexivity|].
        apply nth_error_None in F. assert (U : k < length (objs s1)) by (apply (nth_lt _ _ _ H)). destruct (K6 k F U) as (f & F'). congruence.
  - rewrite upd_length. lia.
  - exact I11.
  - intros k H. rewrite in_app_iff. unfold deleted. cbn. rewrite Io. destruct (Nat.eqb_spec k id) as [->|C]; [right; right; left; reflexivity|].
    destruct (I12 k H) as [F|F]; [|auto]. destruct (K4 k false F) as (f' & F' & F2 & _). rewrite F' in *. rewrite (F2 eq_refl). auto.
  - intros k H U. destruct (Nat.eq_dec k id) as [->|C].
    + destruct (I13 id (or_introl Hd) U) as [X|(j & J1 & J2)]; [left; exact X|right; exists j; rewrite in_app_iff; auto].
    + assert (Hd' : nth_error (objs s1) k = Some (There false) \/ In k D).
      { destruct H as [H|H]; [left|right; apply in_app_iff in H; destruct H as [H|[H|[]]]; [exact H|congruence]]. unfold deleted in H. cbn in H. rewrite Io in H. destruct (Nat.eqb_spec k id); [contradiction|exact H]. }
      destruct Hd' as [H'|H']; [|destruct (I13 k (or_intror H') U) as [X|(j & J1 & J2)]; [left; exact X|right; exists j; rewrite in_app_iff; auto]].
      destruct (nth_error (objs s) k) as [[f|]|] eqn:F.
      * destruct (K4 k f F) as (f' & F1 & F2 & [F3|F3]).
        -- rewrite H' in F1. injection F1 as <-. subst f. destruct (I13 k (or_introl F) U) as [X|(j & J1 & J2)]; [left; exact X|right; exists j; rewrite in_app_iff; auto].
        -- right. exists id. rewrite in_app_iff. split; [right; left; reflexivity|exact F3].
      * rewrite (K3 k F) in H'. discriminate.
      * apply nth_error_None in F. lia.
  - intros k H. destruct (Nat.eq_dec k id) as [->|C]; [right; apply in_app_iff; right; left; reflexivity|]. destruct (I14 k H) as [F|F]; [left; apply Ex; assumption|right; apply in_app_iff; auto].
  - rewrite upd_length. intros k L U. destruct (Nat.lt_ge_cases k (length (objs s))) as [C|C].
    + apply Ex; [apply I15; assumption|]. intros ->. destruct (old_id s0 s P (Q ++ [id]) D id W {| i_size := I1; i_cap := I2; i_vis := I3; i_next := I4; i_slots := I5; i_log := I6; i_perm := I7; i_there := I8; i_gone := I9; i_len := I10; i_passed := I11; i_mono := I12; i_dead := I13; i_old := I14; i_new := I15; i_fate := I16; i_ran := I17 |}) as [f F]; [rewrite !in_app_iff; cbn; tauto|]. apply nth_lt in F. lia.
    + destruct (K6 k C U) as (f & F). exists f. cbn. rewrite Io. destruct (Nat.eqb_spec k id); [lia|exact F].
  - intros k. rewrite in_app_iff. intros [H|[<-|[]]]; [auto|]. assert (Lid : In id (listed s0)) by (apply (Permutation_in _ (Permutation_sym I7)); rewrite !in_app_iff; cbn; tauto).
    assert (U : id < length (objs s0)) by (destruct W as (_ & _ & _ & _ & _ & F & _); rewrite Forall_forall in F; destruct (F id Lid) as [f E]; apply (nth_lt _ _ _ E)).
    destruct (I13 id (or_introl Hd) U) as [X|(j & J1 & J2)]; [apply doomed_now; assumption|apply (doomed_then _ _ j); auto].
  - intros j k. rewrite !in_app_iff. cbn [In]. intros Hj Hk. destruct (Nat.eq_dec k id) as [->|C]; [tauto|].
    assert (X : nth_error (objs s1) k = Some (There false) \/ In k D).
    { destruct Hj as [Hj|[<-|[]]]; [|left; exact (acts_done _ _ _ _ _ I1 Da Hk)]. destruct (I17 j k Hj Hk) as [F|F]; [|auto]. destruct (K4 k false F) as (f' & F' & F2 & _). rewrite F' in *. rewrite (F2 eq_refl). auto. }
    destruct X as [X|X]; [|auto]. left. unfold deleted. cbn. rewrite Io. destruct (Nat.eqb_spec k id); [contradiction|exact X].
Qed.

Lemma flag_of : forall s0 s P Q D id, inv s0 s P Q D -> In id P \/ In id Q -> exists f, nth_error (objs s) id = Some (There f).
Proof. intros s0 s P Q D id I H. exact (i_there _ _ _ _ _ I id H). Qed.
Lemma was_living : forall s0 s P Q D id, wf s0 -> inv s0 s P Q D -> In id (P ++ Q) -> living s id -> living s0 id.
Proof.
  intros s0 s P Q D id W I Hi H. pose proof (old_id _ _ _ _ _ id W I ltac:(rewrite app_assoc, in_app_iff; auto)) as [f0 F0]. destruct f0; [exact F0|exfalso].
  destruct (i_mono _ _ _ _ _ I id F0) as [X|X].
  - unfold living, deleted in *. congruence.
  - assert (Y : In id (log s)) by (rewrite (i_log _ _ _ _ _ I), in_app_iff; auto). apply (i_gone _ _ _ _ _ I) in Y. unfold living in H. congruence.
Qed.
Lemma pass : forall s0 s P id Q D, inv s0 s P (id :: Q) D -> living s0 id -> inv s0 s (P ++ [id]) Q D.
Proof.
  intros s0 s P id Q D I H. destruct I as [I1 I2 I3 I4 I5 I6 I7 I8 I9 I10 I11 I12 I13 I14 I15 I16 I17]. constructor; auto.
  - rewrite I5, map_app, <- app_assoc. reflexivity.
  - rewrite I7, <- app_assoc. reflexivity.
  - intros k. rewrite in_app_iff. cbn [In]. intros X. apply I8. cbn. tauto.
  - intros k. rewrite in_app_iff. cbn [In]. intros [X|[<-|[]]]; auto.
Qed.
Lemma left_ok : forall fuel s0 s P Q D, wf s0 -> inv s0 s P Q D -> 1 <= length P + length Q -> length Q < fuel ->
  exists b i, scan_left alive_at fuel s (length P) (length P + length Q - 1) = Ok (b, i) /\
    if b then inv s0 s (P ++ Q) [] D /\ i = length (P ++ Q) /\ Forall (living s) Q
    else exists A d R, Q = A ++ d :: R /\ inv s0 s (P ++ A) (d :: R) D /\ i = length (P ++ A) /\ deleted s d.
Proof.
  induction fuel as [|fuel IH]; intros s0 s P Q D W I H1 Hf; [lia|]. cbn [scan_left]. destruct Q as [|id Q].
  - cbn [length] in *. destruct (Nat.ltb_spec (length P + 0 - 1) (length P)) as [_|X]; [|lia]. exists true, (length P). split; [reflexivity|]. rewrite app_nil_r. auto.
  - cbn [length] in *. destruct (Nat.ltb_spec (length P + S (length Q) - 1) (length P)) as [X|_]; [lia|].
    destruct (flag_of _ _ _ _ _ id I ltac:(right; left; reflexivity)) as [f F].
    rewrite (alive_is s id (length P) f (slot_P _ _ _ _ _ (id :: Q) P I W eq_refl id Q eq_refl) F). cbn [obind]. destruct f.
    + destruct (IH s0 s (P ++ [id]) Q D W (pass _ _ _ _ _ _ I (was_living _ _ _ _ _ _ W I ltac:(rewrite in_app_iff; right; left; reflexivity) F)) ltac:(rewrite app_length; cbn; lia) ltac:(lia)) as (b & i & E & X). rewrite app_length in E. cbn [length] in E.
      replace (length P + 1 + length Q - 1) with (length P + S (length Q) - 1) in E by lia. exists b, i. split; [exact E|]. destruct b.
      * destruct X as (X1 & X2 & X3). rewrite <- app_assoc in X1, X2. split; [exact X1|]. split; [exact X2|constructor; assumption].
      * destruct X as (A & d & R & -> & X2 & X3 & X4). exists (id :: A), d, R. rewrite <- app_assoc in X2, X3. auto.
    + exists false, (length P). split; [reflexivity|]. exists [], id, Q. rewrite app_nil_r. auto.
Qed.
Lemma deleted_stays : forall s i id s' k, sized s -> nth_error (slots s) i = Some (Some id) -> deinit_at script s i = Ok s' -> deleted s k -> k <> id -> deleted s' k.
Proof.
  intros s i id s' k Sz Sl E H C. unfold deinit_at in E. rewrite Sl in E. destruct (nth_error (objs s) id) as [[f|]|]; try discriminate.
  pose proof (acts_effect true (script id) s Sz) as X. destruct (do_acts true (script id) s) as [s1| | |]; try discriminate. cbn in E, X. injection E as <-.
  destruct X as ((_ & _ & _ & K4 & _) & _). destruct (K4 k false H) as (f' & F' & F2 & _). unfold deleted. cbn. rewrite upd_nth. destruct (Nat.eqb_spec k id); [contradiction|].
  rewrite F'. rewrite (F2 eq_refl). reflexivity.
Qed.
Lemma right_ok : forall fuel s0 s P d R D, wf s0 -> inv s0 s P (d :: R) D -> deleted s d -> length R < fuel ->
  match scan_right alive_at (deinit_at script) fuel s (length P) (length P + length R) with
  | Ok (s', None) => exists D', inv s0 s' P [] D'
  | Ok (s', Some i) => exists M a D', inv s0 s' P (d :: M ++ [a]) D' /\ i = length P + S (length M) /\ living s' a /\ deleted s' d /\ length M < length R
  | UB => culprit s0
  | _ => False
  end.
Proof.
  induction fuel as [|fuel IH]; intros s0 s P d R D W I Hd Hf; [lia|]. cbn [scan_right].
  destruct (exists_last (l := d :: R) ltac:(discriminate)) as (Q & id & E). assert (LQ : length Q = length R) by (apply (f_equal (@length _)) in E; rewrite app_length in E; cbn in E; lia).
  rewrite E in I. destruct (flag_of _ _ _ _ _ id I ltac:(right; apply in_app_iff; right; left; reflexivity)) as [f F].
  pose proof (slot_P _ _ _ _ _ [id] (P ++ Q) I W ltac:(rewrite app_assoc; reflexivity) id [] eq_refl) as Sl. rewrite app_length, LQ in Sl.
  rewrite (alive_is s id _ f Sl F). cbn [obind]. destruct f.
  - destruct Q as [|d' M]; [cbn in E; injection E as -> ->; unfold deleted in Hd; congruence|]. cbn in E. injection E as <- ->. cbn in LQ.
    exists M, id, D. split; [exact I|]. split; [lia|]. split; [exact F|]. split; [exact Hd|]. rewrite app_length. cbn. lia.
  - pose proof (deinit_last _ _ _ _ _ _ W I F) as Dl. rewrite LQ in Dl. destruct (deinit_at script s (length P + length R)) as [s1| | |] eqn:De; cbn [obind]; try exact Dl.
    destruct (Nat.leb_spec (length P + length R) (length P)) as [C|C].
    + assert (R = []) by (destruct R; [reflexivity|cbn in C; lia]). subst R. destruct Q; [|cbn in LQ; lia]. exists (D ++ [id]). exact Dl.
    + destruct Q as [|d' M]; [cbn in LQ; lia|]. cbn in E. injection E as <- ->. cbn in LQ. replace (length P + length (M ++ [id])) with (S (length P + length M)) by (rewrite app_length; cbn; lia).
      assert (Hd1 : deleted s1 d).
      { apply (deleted_stays s (length P + S (length M)) id s1 d (i_size _ _ _ _ _ I)); [rewrite <- LQ in Sl; exact Sl|rewrite <- LQ in De; exact De|exact Hd|].
        intros ->. pose proof (inv_nodup _ _ _ _ _ W I) as Nd. apply nodup_r in Nd. cbn in Nd. apply NoDup_cons_iff in Nd. rewrite !in_app_iff in Nd. cbn in Nd. tauto. }
      specialize (IH s0 s1 P d M (D ++ [id]) W Dl Hd1 ltac:(rewrite app_length in Hf; cbn in Hf; lia)).
      destruct (scan_right alive_at (deinit_at script) fuel s1 (length P) (length P + length M)) as [[s2 [i|]]| | |]; auto.
      destruct IH as (M' & a & D' & A1 & A2 & A3 & A4 & A5). exists M', a, D'. refine (conj A1 (conj A2 (conj A3 (conj A4 _)))). rewrite app_length. cbn. lia.
Qed.

Lemma swapped : forall s0 s P d M a D, wf s0 -> inv s0 s P (d :: M ++ [a]) D -> deleted s d -> living s a ->
  exists s', swap_at s (length P) (length P + S (length M)) = Ok s' /\ inv s0 s' P (a :: M ++ [d]) D /\ deleted s' d /\ living s' a.
Proof.
  intros s0 s P d M a D W I Hd Ha. unfold swap_at. rewrite (slot_P _ _ _ _ _ (d :: M ++ [a]) P I W eq_refl d _ eq_refl).
  pose proof (slot_P _ _ _ _ _ [a] (P ++ d :: M) I W ltac:(rewrite <- app_assoc; reflexivity) a [] eq_refl) as Sl. rewrite app_length in Sl. cbn [length] in Sl. rewrite Sl.
  eexists. split; [reflexivity|]. split; [|split; assumption]. pose proof (inv_lengths _ _ _ _ _ W I) as Le. cbn [length] in Le. rewrite app_length in Le. cbn [length] in Le.
  destruct I as [I1 I2 I3 I4 I5 I6 I7 I8 I9 I10 I11 I12 I13 I14 I15 I16 I17]. constructor; cbn [with_slots slots objs vis next cap log]; auto.
  - destruct I1 as (S1 & S2 & S3). unfold sized. cbn. rewrite !upd_length. auto.
  - rewrite !firstn_upd by lia. rewrite I5. cbn [map app]. rewrite !map_app. cbn [map]. rewrite <- !app_assoc. cbn [app].
    replace (length P) with (length (map (@Some nat) P)) at 1 by apply map_length. rewrite upd_app.
    replace (map Some P ++ Some a :: map Some M ++ Some a :: repeat None (length D)) with ((map Some P ++ Some a :: map Some M) ++ Some a :: repeat None (length D)) by (rewrite <- app_assoc; reflexivity).
    replace (length P + S (length M)) with (length (map Some P ++ Some a :: map Some M)) by (rewrite app_length; cbn; rewrite !map_length; lia).
    rewrite upd_app, <- app_assoc. reflexivity.
  - rewrite I7. apply Permutation_app_head. apply Permutation_app_tail. rewrite <- (Permutation_cons_append M a), <- (Permutation_cons_append M d). apply perm_swap.
  - intros k H. apply I8. cbn in *. rewrite in_app_iff in *. cbn in *. tauto.
Qed.

Lemma loop_ok : forall fuel s0 s P Q D, wf s0 -> inv s0 s P Q D -> 1 <= length P + length Q -> length Q + 1 < fuel ->
  match refresh_loop alive_at swap_at (deinit_at script) fuel s (length P) (length P + length Q - 1) with
  | Ok (s', n) => exists P' D', inv s0 s' P' [] D' /\ n = length P'
  | UB => culprit s0
  | _ => False
  end.
Proof.
  induction fuel as [|fuel IH]; intros s0 s P Q D W I H1 Hf; [lia|]. cbn [refresh_loop].
  destruct (left_ok (S fuel) s0 s P Q D W I H1 ltac:(lia)) as (b & i & E & X). rewrite E. cbn [obind]. destruct b.
  - destruct X as (X1 & X2 & X3). eauto.
  - destruct X as (A & d & R & -> & X2 & -> & X4). assert (LR : length (A ++ d :: R) = length A + S (length R)) by apply app_length. rewrite LR in *.
    assert (LP : length P + (length A + S (length R)) - 1 = length (P ++ A) + length R) by (rewrite app_length; lia). rewrite LP.
    pose proof (right_ok (S fuel) s0 s (P ++ A) d R D W X2 X4 ltac:(lia)) as Y.
    destruct (scan_right alive_at (deinit_at script) (S fuel) s (length (P ++ A)) (length (P ++ A) + length R)) as [[s1 [i|]]| | |]; cbn [obind]; try exact Y.
    + destruct Y as (M & a & D' & Y1 & -> & Y3 & Y4 & Y5).
      rewrite (alive_is s1 d _ false (slot_P _ _ _ _ _ _ (P ++ A) Y1 W eq_refl d _ eq_refl) Y4). cbn [obind].
      pose proof (slot_P _ _ _ _ _ [a] ((P ++ A) ++ d :: M) Y1 W ltac:(rewrite <- !app_assoc; reflexivity) a [] eq_refl) as Sl. rewrite (app_length (P ++ A)) in Sl. cbn [length] in Sl.
      rewrite (alive_is s1 a _ true Sl Y3). cbn [obind negb andb].
      destruct (swapped _ _ _ _ _ _ _ W Y1 Y4 Y3) as (s2 & -> & Z1 & Z2 & Z3). cbn [obind].
      pose proof (deinit_last s0 s2 (P ++ A) (a :: M) D' d W Z1 Z2) as Dl. cbn [length] in Dl.
      pose proof (slot_P _ _ _ _ _ [d] ((P ++ A) ++ a :: M) Z1 W ltac:(rewrite <- !app_assoc; reflexivity) d [] eq_refl) as Sd. rewrite (app_length (P ++ A)) in Sd. cbn [length] in Sd.
      destruct (deinit_at script s2 (length (P ++ A) + S (length M))) as [s3| | |] eqn:De; cbn [obind]; try exact Dl.
      replace (length (P ++ A) + S (length M)) with (S (length (P ++ A) + length M)) by lia.
      assert (Ha : living s0 a) by (apply (was_living _ _ _ _ _ a W Y1); [rewrite !in_app_iff; cbn; rewrite in_app_iff; cbn; tauto|exact Y3]).
      pose proof (IH s0 s3 ((P ++ A) ++ [a]) M (D' ++ [d]) W (pass _ _ _ _ _ _ Dl Ha) ltac:(rewrite !app_length; cbn; lia) ltac:(lia)) as G.
      replace (length ((P ++ A) ++ [a])) with (length (P ++ A) + 1) in G by (rewrite (app_length (P ++ A)); reflexivity).
      replace (length (P ++ A) + 1 + length M - 1) with (length (P ++ A) + length M) in G by lia. exact G.
    + destruct Y as (D' & Y). exists (P ++ A), D'. auto.
Qed.

(** *** [refresh] *)
Definition closed (s : st) (n : nat) : st := {| slots := slots s; objs := objs s; vis := n; next := n; cap := cap s; log := log s |}.
Lemma inv_start : forall s, wf s -> inv s s [] (listed s) [].
Proof.
  intros s (W1 & W2 & W3 & W4 & W5 & W6 & W7 & W8). constructor; auto; cbn; try tauto.
  - rewrite app_nil_r. exact W3.
  - rewrite app_nil_r. reflexivity.
  - rewrite app_nil_r. reflexivity.
  - intros id [[]|H]. rewrite Forall_forall in W6. auto.
  - intros id H U. lia.
Qed.
Lemma inv_end : forall s0 s P D, wf s0 -> inv s0 s P [] D -> wf (closed s (length P)) /\ listed (closed s (length P)) = P.
Proof.
  intros s0 s P D W I. pose proof (inv_lengths _ _ _ _ _ W I) as Le. cbn in Le. pose proof (inv_nodup _ _ _ _ _ W I) as Nd. cbn in Nd.
  assert (F : firstn (length P) (slots s) = map Some P).
  { assert (X : firstn (length P) (firstn (next s0) (slots s)) = map Some P).
    { rewrite (i_slots _ _ _ _ _ I). rewrite firstn_app, map_length, Nat.sub_diag. cbn [firstn]. rewrite app_nil_r. rewrite firstn_all2 by (rewrite map_length; lia). reflexivity. }
    rewrite firstn_firstn, Nat.min_l in X by lia. exact X. }
  assert (Li : listed (closed s (length P)) = P) by (apply listed_is; exact F). split; [|exact Li]. unfold wf. rewrite Li. cbn [closed slots objs vis next cap log].
  destruct W as (W1 & W2 & W3 & W4 & W5 & W6 & W7 & W8). destruct I as [I1 I2 I3 I4 I5 I6 I7 I8 I9 I10 I11 I12 I13 I14 I15 I16 I17]. destruct I1 as (S1 & S2 & S3).
  refine (conj (conj S1 (conj _ S3)) (conj (le_n _) (conj F (conj eq_refl (conj _ (conj _ (conj _ I9))))))).
  - cbn. lia.
  - clear - Nd. induction P as [|x P IH]; [constructor|]. cbn in Nd. apply NoDup_cons_iff in Nd. rewrite in_app_iff in Nd. constructor; tauto.
  - apply Forall_forall. intros id H. apply I8. auto.
  - rewrite I6. assert (X : forall id, In id D -> ~ In id (log s0)).
    { intros id H C. apply W8 in C. rewrite Forall_forall in W6. destruct (W6 id) as [f E]; [apply (Permutation_in _ (Permutation_sym I7)); cbn; apply in_app_iff; auto|congruence]. }
    clear - Nd X W7. apply nodup_r in Nd. induction (log s0) as [|x l IH]; [exact Nd|]. cbn. apply NoDup_cons_iff in W7. constructor.
    + rewrite in_app_iff. intros [H|H]; [tauto|]. apply (X x H). left. reflexivity.
    + apply IH; [tauto|]. intros id H C. apply (X id H). right. exact C.
Qed.
Lemma firstn_one_more : forall {A} n (l : list A) x, nth_error l n = Some x -> firstn (S n) l = firstn n l ++ [x].
Proof. induction n as [|n IH]; intros [|y l] x H; try discriminate; [injection H as ->; reflexivity|]. cbn in H. cbn [firstn app]. f_equal. apply IH. exact H. Qed.
Lemma all_alive_is : forall n s, wf s -> n <= next s -> exists b, all_alive n s = Ok b /\ (b = true -> Forall (living s) (firstn n (listed s))) /\ (b = false -> ~ Forall (living s) (listed s)).
Proof.
  intros n s W. pose proof W as (W1 & W2 & W3 & W4 & W5 & W6 & W7 & W8). induction n as [|n IH]; intros Hn; cbn [all_alive].
  - exists true. split; [reflexivity|]. split; [constructor|discriminate].
  - destruct (IH ltac:(lia)) as (b & -> & B1 & B2). cbn [obind]. destruct (nth_error (listed s) n) as [id|] eqn:E; [|apply nth_error_None in E; lia].
    assert (Sl : nth_error (slots s) n = Some (Some id)) by (rewrite <- (nth_firstn (slots s) (next s)) by lia; rewrite W3, nth_error_map, E; reflexivity).
    pose proof (nth_error_In _ _ E) as Hin. rewrite Forall_forall in W6. destruct (W6 id Hin) as [f F]. rewrite (alive_is s id n f Sl F). cbn [obind]. eexists. split; [reflexivity|]. split.
    + intros H. apply andb_true_iff in H as [-> ->]. rewrite (firstn_one_more _ _ _ E). apply Forall_app. split; [auto|]. constructor; [exact F|constructor].
    + intros H C. apply andb_false_iff in H as [->| ->]; [exact (B2 eq_refl C)|]. rewrite Forall_forall in C. specialize (C id Hin). unfold living in C. congruence.
Qed.
Lemma refresh_ok : forall debug s, wf s -> match refresh script debug s with
  | Ok s' => exists t D, inv s t (listed s') [] D /\ s' = closed t (length (listed s')) /\ wf s' /\ (debug = true -> Forall (living s') (listed s'))
  | UB => culprit s \/ debug = true /\ exists s' D, refresh script false s = Ok s' /\ log s' = log s ++ D /\ exists id, In id (listed s') /\ deleted s' id
  | _ => False end.
Proof.
  intros debug s W. unfold refresh. assert (L : match refresh_impl alive_at swap_at (deinit_at script) s (next s) with
    | Ok (s', n) => exists P D, inv s s' P [] D /\ n = length P | UB => culprit s | _ => False end).
  { pose proof W as (W1 & W2 & W3 & W4 & _). unfold refresh_impl. destruct (next s) as [|n] eqn:N.
    - exists [], []. split; [|reflexivity]. pose proof (inv_start s W) as I. destruct (listed s); [exact I|discriminate].
    - pose proof (loop_ok (S n + 2) s s [] (listed s) [] W (inv_start s W)) as X. rewrite W4 in X. cbn [length] in X. replace (0 + S n - 1) with n in X by lia. apply X; lia. }
  destruct (refresh_impl alive_at swap_at (deinit_at script) s (next s)) as [[t n]| | |]; cbn [obind]; try contradiction; [|left; exact L].
  destruct L as (P & D & I & ->). destruct (inv_end _ _ _ _ W I) as (W' & Li). fold (closed t (length P)).
  assert (Base : exists t0 D0, inv s t0 (listed (closed t (length P))) [] D0 /\ closed t (length P) = closed t0 (length (listed (closed t (length P))))) by (exists t, D; rewrite Li; auto).
  destruct debug.
  - destruct (all_alive_is (length P) (closed t (length P)) W' (le_n _)) as (b & -> & B1 & B2). cbn [obind]. destruct b.
    + destruct Base as (t0 & D0 & J1 & J2). exists t0, D0. refine (conj J1 (conj J2 (conj W' (fun _ => _)))). specialize (B1 eq_refl). rewrite Li in *. rewrite firstn_all in B1. exact B1.
    + right. split; [reflexivity|]. exists (closed t (length P)), D. split; [reflexivity|]. split; [exact (i_log _ _ _ _ _ I)|]. specialize (B2 eq_refl). rewrite Li in *.
      assert (X : forall l, (forall id, In id l -> exists_in (closed t (length P)) id) -> ~ Forall (living (closed t (length P))) l -> exists id, In id l /\ deleted (closed t (length P)) id).
      { clear. induction l as [|x l IH]; intros Ex H; [exfalso; apply H; constructor|]. destruct (Ex x (or_introl eq_refl)) as [[|] F].
        - destruct IH as (id & H1 & H2); [intros; apply Ex; right; assumption|intros C; apply H; constructor; assumption|]. exists id. cbn. auto.
        - exists x. cbn. auto. }
      apply X; [|exact B2]. intros id H. exact (i_there _ _ _ _ _ I id (or_introl H)).
  - destruct Base as (t0 & D0 & J1 & J2). exists t0, D0. refine (conj J1 (conj J2 (conj W' _))). discriminate.
Qed.

(** *** [clear] *)
Definition cinv (s : st) (i : nat) (L : list nat) : Prop := sized s /\ firstn (next s) (slots s) = repeat None i ++ map Some L /\ NoDup L /\ Forall (exists_in s) L /\
  NoDup (log s) /\ (forall id, In id (log s) <-> nth_error (objs s) id = Some Gone).
Lemma cinv_next : forall s i L, cinv s i L -> next s = i + length L.
Proof. intros s i L ((S1 & S2 & _) & F & _). apply (f_equal (@length _)) in F. rewrite firstn_length_le, app_length, repeat_length, map_length in F by lia. exact F. Qed.
Lemma wf_cinv : forall s, wf s -> cinv s 0 (listed s).
Proof. intros s (W1 & W2 & W3 & W4 & W5 & W6 & W7 & W8). unfold cinv. auto 8. Qed.
Lemma clear_step : forall s i id L, cinv s i (id :: L) ->
  match deinit_at script s i with
  | Ok s' => exists N, cinv s' (i + 1) (L ++ N) /\ log s' = log s ++ [id] /\ cap s' = cap s /\ (forall k, In k N <-> length (objs s) <= k /\ k < length (objs s')) /\ NoDup N /\
      (forall k, exists_in s k -> k <> id -> exists_in s' k) /\ length (objs s') = length (objs s) + length N
  | UB => do_acts true (script id) s = UB
  | _ => False end.
Proof.
  intros s i id L C. pose proof (cinv_next _ _ _ C) as Nx. cbn [length] in Nx. destruct C as (Sz & F & Nd & Ex & Ndl & G).
  assert (Sl : nth_error (slots s) i = Some (Some id)) by (rewrite <- (nth_firstn (slots s) (next s)) by lia; rewrite F, nth_error_app2, repeat_length, Nat.sub_diag by (rewrite repeat_length; lia); reflexivity).
  apply Forall_cons_iff in Ex as [[f Hf] Ex]. apply NoDup_cons_iff in Nd as [Nd1 Nd]. unfold deinit_at. rewrite Sl, Hf. pose proof (acts_effect true (script id) s Sz) as E. destruct (do_acts true (script id) s) as [s1| | |] eqn:Da; cbn [obind effect] in *; try contradiction; [|reflexivity].
  destruct E as ((K1 & K2 & K3 & K4 & K5 & K6 & N & K7 & K8 & K9 & K10) & Sz1 & Cp1 & Cp). specialize (Cp eq_refl). apply acts_count in Da.
  assert (Io : forall k, nth_error (upd (objs s1) id Gone) k = if k =? id then Some Gone else nth_error (objs s1) k).
  { intros k. rewrite upd_nth. destruct (Nat.eqb_spec k id) as [->|]; [|reflexivity]. apply nth_lt in Hf. destruct (Nat.ltb_spec id (length (objs s1))) as [_|X]; [reflexivity|lia]. }
  assert (Un : forall k, exists_in s k -> k <> id -> exists f, nth_error (upd (objs s1) id Gone) k = Some (There f)).
  { intros k [g Hg] Hk. destruct (K4 k g Hg) as (f' & F' & _). rewrite Io. destruct (Nat.eqb_spec k id); [contradiction|]. eauto. }
  assert (Ln : length (objs s1) = length (objs s) + length N) by lia. rewrite Forall_forall in K10.
  assert (Nn : forall k, In k N <-> length (objs s) <= k /\ k < length (objs s1)).
  { intros k. split; [apply K10|]. intros H. assert (Hs : incl (seq (length (objs s)) (length N)) N).
    { apply NoDup_length_incl; [exact K9|rewrite seq_length; lia|]. intros x Hx. apply in_seq. specialize (K10 x Hx). lia. }
    apply Hs. apply in_seq. lia. }
  exists N. cbn [log cap objs]. split; [|split; [rewrite K1; reflexivity|split; [exact Cp|split; [rewrite upd_length; exact Nn|split; [exact K9|split; [exact Un|rewrite upd_length; exact Ln]]]]]].
  destruct Sz1 as (T1 & T2 & T3). unfold cinv. cbn [slots objs vis next cap log]. split; [unfold sized; cbn; rewrite upd_length; auto|]. split.
  - rewrite firstn_upd by lia. rewrite K8, F, <- app_assoc. cbn [map app]. pose proof (upd_app (repeat None i) (map Some L ++ map Some N) (Some id) (@None nat)) as Up. rewrite repeat_length in Up. rewrite Up. rewrite repeat_app. cbn [repeat]. rewrite <- !app_assoc, map_app. reflexivity.
  - split.
    + clear - Nd K9 Ex K10. induction L as [|x L IH]; [exact K9|]. cbn. apply Forall_cons_iff in Ex as [[g Hg] Ex]. apply NoDup_cons_iff in Nd. constructor; [|apply IH; tauto].
      rewrite in_app_iff. intros [H|H]; [tauto|]. apply K10 in H. apply nth_lt in Hg. lia.
    + split; [|split].
      * apply Forall_app. split; apply Forall_forall.
        -- intros k Hk. rewrite Forall_forall in Ex. apply Un; [auto|]. intros ->. contradiction.
        -- intros k Hk. apply K10 in Hk as [H1 H2]. destruct (K6 k H1 H2) as [g Hg]. exists g. cbn. rewrite Io. destruct (Nat.eqb_spec k id) as [->|]; [apply nth_lt in Hf; lia|exact Hg].
      * rewrite K1. assert (X : ~ In id (log s)) by (intros H; apply G in H; congruence). clear - Ndl X. induction (log s) as [|x l IH]; cbn; [constructor; [intros []|constructor]|]. apply NoDup_cons_iff in Ndl. cbn in X. constructor; [|apply IH; tauto].
        rewrite in_app_iff. cbn. intros [H|[H|[]]]; [tauto|]. subst. tauto.
      * intros k. rewrite K1, in_app_iff, Io, G. cbn [In]. destruct (Nat.eqb_spec k id) as [->|Hk]; [tauto|]. split.
        -- intros [H|[H|[]]]; [auto|congruence].
        -- intros H. left. destruct (nth_error (objs s) k) as [[g|]|] eqn:Hg; [destruct (K4 k g Hg) as (f' & F' & _); congruence|reflexivity|].
           apply nth_error_None in Hg. pose proof (nth_lt _ _ _ H) as U. destruct (K6 k Hg U) as (g & F'). congruence.
Qed.
Lemma clear_ok : forall fuel s i L, cinv s i L -> cap s < fuel + i ->
  match clear_from script fuel i s with
  | Ok s' => exists E, log s' = log s ++ L ++ E /\ (forall k, In k E <-> length (objs s) <= k /\ k < length (objs s')) /\ wf s' /\ next s' = 0 /\ vis s' = 0 /\
      length (objs s) <= length (objs s') /\ (forall k, exists_in s k -> exists_in s' k \/ In k L)
  | UB => True
  | _ => False end.
Proof.
  induction fuel as [|fuel IH]; intros s i L C Hf.
  - pose proof (cinv_next _ _ _ C) as Nx. destruct C as ((S1 & S2 & S3) & _). lia.
  - cbn [clear_from]. pose proof (cinv_next _ _ _ C) as Nx. destruct (Nat.ltb_spec i (next s)) as [X|X].
    + destruct L as [|id L]; [cbn in Nx; lia|]. pose proof (clear_step s i id L C) as St. destruct (deinit_at script s i) as [s1| | |]; cbn [obind]; auto.
      destruct St as (N & C1 & L1 & Cp & Nn & Nd & Un & Ln). specialize (IH s1 (i + 1) (L ++ N) C1 ltac:(lia)). destruct (clear_from script fuel (i + 1) s1) as [s2| | |]; auto.
      destruct IH as (E & R1 & R2 & R3 & R4 & R5 & R6 & R7). exists (N ++ E). split; [rewrite R1, L1, <- !app_assoc; reflexivity|]. split.
      * intros k. rewrite in_app_iff, Nn, R2. lia.
      * split; [exact R3|]. split; [exact R4|]. split; [exact R5|]. split; [lia|]. intros k [g Hg]. destruct (Nat.eq_dec k id) as [->|Hk]; [right; left; reflexivity|].
        destruct (R7 k (Un k (ex_intro _ g Hg) Hk)) as [H|H]; [auto|]. apply in_app_iff in H as [H|H]; [right; right; exact H|]. apply Nn in H. apply nth_lt in Hg. lia.
    + assert (L = []) by (destruct L; [reflexivity|cbn in Nx; lia]). subst L. exists []. cbn [log objs next vis app]. rewrite app_nil_r. split; [reflexivity|]. split; [intros k; cbn; lia|]. split; [|auto 6].
      destruct C as ((S1 & S2 & S3) & F & Nd & Ex & Ndl & G). unfold wf, listed. cbn. unfold sized. cbn. repeat split; auto; try lia; try constructor; apply G.
Qed.
Lemma clear_total : forall s, wf s -> match clear script s with
  | Ok s' => exists E, log s' = log s ++ listed s ++ E /\ (forall k, In k E <-> length (objs s) <= k /\ k < length (objs s')) /\ wf s' /\ next s' = 0 /\ vis s' = 0 /\
      length (objs s) <= length (objs s') /\ (forall k, exists_in s k -> exists_in s' k \/ In k (listed s))
  | UB => True
  | _ => False end.
Proof. intros s W. unfold clear. apply clear_ok; [apply wf_cinv; exact W|lia]. Qed.
End Run.

(** *** Histories *)
Lemma keeps_wf : forall P s s', wf s -> keeps P s s' -> sized s' -> wf s' /\ exists N, listed s' = listed s ++ N /\ Forall (fun id => length (objs s) <= id) N.
Proof.
  intros P s s' (W1 & W2 & W3 & W4 & W5 & W6 & W7 & W8) (K1 & K2 & K3 & K4 & K5 & K6 & N & K7 & K8 & K9 & K10) Sz.
  assert (Li : listed s' = listed s ++ N) by (apply listed_is; rewrite K8, W3, map_app; reflexivity). rewrite Forall_forall in K10, W6. split.
  - unfold wf. rewrite Li, K1, K2. refine (conj Sz (conj _ (conj _ (conj _ (conj _ (conj _ (conj W7 _))))))).
    + lia.
    + rewrite K8, W3, map_app. reflexivity.
    + rewrite app_length. lia.
    + clear - W5 K9 W6 K10. induction (listed s) as [|x L IH]; [exact K9|]. cbn. apply NoDup_cons_iff in W5. constructor; [|apply IH; [tauto|intros; apply W6; right; assumption]].
      rewrite in_app_iff. intros [H|H]; [tauto|]. apply K10 in H. destruct (W6 x (or_introl eq_refl)) as [f F]. apply nth_lt in F. lia.
    + apply Forall_forall. intros k Hk. apply in_app_iff in Hk as [Hk|Hk].
      * destruct (W6 k Hk) as [f F]. destruct (K4 k f F) as (f' & F' & _). exists f'. exact F'.
      * destruct (K10 k Hk) as [H1 H2]. destruct (K6 k H1 H2) as (f & F). exists f. exact F.
    + intros k. rewrite W8. split; [apply K3|]. intros H. destruct (nth_error (objs s) k) as [[g|]|] eqn:Hg; [destruct (K4 k g Hg) as (f' & F' & _); congruence|reflexivity|].
      apply nth_error_None in Hg. pose proof (nth_lt _ _ _ H) as U. destruct (K6 k Hg U) as (g & F'). congruence.
  - exists N. split; [exact Li|]. apply Forall_forall. intros k Hk. apply K10 in Hk. lia.
Qed.
Lemma wf_fresh : wf fresh.
Proof. unfold wf, fresh, listed, sized. cbn. repeat split; try lia; try constructor; try contradiction. intros H. destruct id; discriminate. Qed.
Section Hist.
Variable script : nat -> list act.
(** What no later call can reach. *)
Definition astray (s : st) (id : nat) : Prop := exists_in s id /\ ~ In id (listed s).
Lemma step_ok : forall o s, wf s -> match step script o s with Ok s' => wf s' /\ (forall id, astray s id -> astray s' id) | UB => True | _ => False end.
Proof.
  assert (K : forall P s s', wf s -> keeps P s s' -> sized s' -> wf s' /\ (forall id, astray s id -> astray s' id)).
  { intros P s s' W Kp Sz. destruct (keeps_wf _ _ _ W Kp Sz) as (W' & N & Li & Fn). split; [exact W'|]. intros id ([f F] & H). destruct Kp as (_ & _ & _ & K4 & _). split.
    - destruct (K4 id f F) as (f' & F' & _). exists f'. exact F'.
    - rewrite Li, in_app_iff. intros [C|C]; [auto|]. rewrite Forall_forall in Fn. apply Fn in C. apply nth_lt in F. lia. }
  intros [l|k|debug|] s W; cbn [step].
  - pose proof (act_effect false (ANew l) s (proj1 W)) as E. destruct (do_act false (ANew l) s) as [s'| | |]; cbn in E; auto. destruct E as (E1 & E2 & _). exact (K _ _ _ W E1 E2).
  - pose proof (del_keeps k s (proj1 W)) as E. destruct (del k s) as [s'| | |]; cbn in E; auto. destruct E as (E1 & E2 & _). exact (K _ _ _ W E1 E2).
  - pose proof (refresh_ok script debug s W) as E. destruct (refresh script debug s) as [s'| | |]; auto. destruct E as (t & D & I & E & W' & _). split; [exact W'|].
    intros id (Ex & H). assert (Hl : forall k, In k (listed s') \/ In k D -> In k (listed s)) by (intros k Hk; apply (Permutation_in _ (Permutation_sym (i_perm _ _ _ _ _ _ I))); cbn; apply in_app_iff; exact Hk). split; [|intros C; apply H; auto].
    rewrite E. destruct (i_old _ _ _ _ _ _ I id Ex) as [X|X]; [exact X|]. exfalso. apply H. auto.
  - pose proof (clear_total script s W) as E. destruct (clear script s) as [s'| | |]; auto. destruct E as (E & R1 & R2 & R3 & R4 & R5 & R6 & R7). split; [exact R3|].
    intros id (Ex & H). split; [destruct (R7 id Ex) as [X|X]; [exact X|contradiction]|]. unfold listed. rewrite R4. intros [].
Qed.
Lemma run_ok : forall ops s, wf s -> match run script ops s with Ok s' => wf s' /\ (forall id, astray s id -> astray s' id) | UB => True | _ => False end.
Proof.
  induction ops as [|o ops IH]; intros s W; cbn [run]; [auto|]. pose proof (step_ok o s W) as St. destruct (step script o s) as [s1| | |]; cbn [obind]; auto. destruct St as (W1 & A1).
  specialize (IH s1 W1). destruct (run script ops s1) as [s2| | |]; auto. destruct IH as (W2 & A2). auto.
Qed.
Lemma reach : forall ops s, run script ops fresh = Ok s -> wf s.
Proof. intros ops s E. pose proof (run_ok ops fresh wf_fresh) as H. rewrite E in H. apply H. Qed.

Lemma sound : forall ops s, run script ops fresh = Ok s ->
  exists L, shown s = map Some L /\ length L = vis s /\ NoDup L /\ (exists R, listed s = L ++ R) /\ NoDup (listed s) /\ NoDup (log s) /\ forall id, In id (listed s) -> ~ In id (log s).
Proof.
  intros ops s E. pose proof (reach ops s E) as (W1 & W2 & W3 & W4 & W5 & W6 & W7 & W8). exists (firstn (vis s) (listed s)).
  assert (Sh : shown s = map Some (firstn (vis s) (listed s))).
  { unfold shown. rewrite <- firstn_map, <- W3, firstn_firstn, Nat.min_l by lia. reflexivity. }
  refine (conj Sh (conj _ (conj _ (conj _ (conj W5 (conj W7 _)))))).
  - rewrite firstn_length_le by lia. reflexivity.
  - rewrite <- (firstn_skipn (vis s) (listed s)) in W5. clear - W5. induction (firstn (vis s) (listed s)) as [|x l IH]; [constructor|]. cbn in W5. apply NoDup_cons_iff in W5. rewrite in_app_iff in W5. constructor; tauto.
  - exists (skipn (vis s) (listed s)). symmetry. apply firstn_skipn.
  - intros id H C. apply W8 in C. rewrite Forall_forall in W6. destruct (W6 id H) as [f F]. congruence.
Qed.
Lemma ends : forall ops s o, run script ops fresh = Ok s -> (exists s', step script o s = Ok s') \/ step script o s = UB.
Proof. intros ops s o E. pose proof (step_ok o s (reach ops s E)) as H. destruct (step script o s); eauto; contradiction. Qed.

(** A refresh, as told by the specification. *)
Lemma refresh_spec : forall debug s s', wf s -> refresh script debug s = Ok s' -> exists D,
  log s' = log s ++ D /\ Permutation (listed s) (listed s' ++ D) /\ shown s' = map Some (listed s') /\
  (forall id, In id (listed s) -> deleted s id -> In id D) /\ (forall id, In id D -> doomed script s id) /\
  (forall id, In id (listed s') -> deleted s' id -> exists j, In j D /\ deletes_one_of id (script j)) /\
  (forall j k, In j D -> deletes_one_of k (script j) -> In k (listed s') -> deleted s' k) /\
  (debug = true -> Forall (living s') (listed s')).
Proof.
  intros debug s s' W E. pose proof (refresh_ok script debug s W) as H. rewrite E in H. destruct H as (t & D & I & Es & W' & Db). exists D. rewrite Es. cbn [closed log]. rewrite <- Es.
  assert (Fl : forall k, deleted s' k <-> deleted t k) by (intros k; rewrite Es; reflexivity).
  refine (conj (i_log _ _ _ _ _ _ I) (conj (i_perm _ _ _ _ _ _ I) (conj _ (conj _ (conj (i_fate _ _ _ _ _ _ I) (conj _ (conj _ Db))))))).
  - destruct W' as (_ & _ & W3 & W4 & _). assert (V : vis s' = next s') by (rewrite Es; reflexivity). unfold shown. rewrite V. exact W3.
  - intros id H1 H2. apply (Permutation_in _ (i_perm _ _ _ _ _ _ I)) in H1. cbn in H1. apply in_app_iff in H1 as [H1|H1]; [|exact H1].
    pose proof (i_passed _ _ _ _ _ _ I id H1) as X. unfold living, deleted in *. congruence.
  - intros id H1 H2. apply Fl in H2. pose proof (i_passed _ _ _ _ _ _ I id H1) as X. destruct (i_dead _ _ _ _ _ _ I id (or_introl H2) (nth_lt _ _ _ X)) as [Y|Y]; [unfold living, deleted in *; congruence|exact Y].
  - intros j k Hj Hk H1. apply Fl. destruct (i_ran _ _ _ _ _ _ I j k Hj Hk) as [X|X]; [exact X|]. exfalso. pose proof (inv_nodup _ _ _ _ _ _ W I) as Nd. cbn in Nd. clear - Nd X H1. induction (listed s') as [|x l IH]; [destruct H1|].
    cbn in Nd. apply NoDup_cons_iff in Nd. destruct H1 as [->|H1]; [apply (proj1 Nd); apply in_app_iff; auto|apply IH; tauto].
Qed.
Lemma lost : forall debug ops s s' ops' s'' id, run script ops fresh = Ok s -> refresh script debug s = Ok s' -> length (objs s) <= id -> id < length (objs s') -> run script ops' s' = Ok s'' ->
  ~ In (Some id) (shown s'') /\ ~ In id (log s'') /\ exists_in s'' id.
Proof.
  intros debug ops s s' ops' s'' id R E Lo Hi R2. pose proof (reach _ _ R) as W. pose proof (refresh_ok script debug s W) as H. rewrite E in H. destruct H as (t & D & I & Es & W' & Db).
  assert (A : astray s' id).
  { split; [rewrite Es in *; exact (i_new _ _ _ _ _ _ I id Lo Hi)|]. intros C. pose proof (i_passed _ _ _ _ _ _ I id C) as X. apply nth_lt in X. lia. }
  pose proof (run_ok ops' s' W') as H. rewrite R2 in H. destruct H as (W2 & H). specialize (H id A). destruct H as ([f F] & H). destruct W2 as (_ & V2 & V3 & _ & _ & _ & _ & V8). split; [|split].
  - intros C. apply H. unfold shown in C. assert (X : In (Some id) (firstn (next s'') (slots s''))).
    { rewrite <- (firstn_skipn (vis s'') (firstn (next s'') (slots s''))). apply in_app_iff. left. rewrite firstn_firstn, Nat.min_l by lia. exact C. }
    rewrite V3 in X. apply in_map_iff in X as (x & Hx & X). injection Hx as ->. exact X.
  - rewrite V8, F. discriminate.
  - exists f. exact F.
Qed.

(** *** Owners *)
Hypothesis onlyd : forall id, only_deletes (script id).
Lemma del_listed : forall j k, deletes_one_of k (script j) -> In (ADel k) (script j).
Proof. intros j k (a & Ha & Hk). destruct (onlyd j a Ha) as [k' ->]. inversion Hk; subst. exact Ha. Qed.
Lemma dels_ok : forall l s, (forall a, In a l -> exists k, a = ADel k) -> (forall k, In (ADel k) l -> exists_in s k) -> exists s', do_acts true l s = Ok s' /\ length (objs s') = length (objs s).
Proof.
  induction l as [|a l IH]; intros s Hl H; [cbn; eauto|]. destruct (Hl a (or_introl eq_refl)) as [k ->]. cbn [do_acts do_act]. destruct (H k (or_introl eq_refl)) as [f F]. unfold del. rewrite F. cbn [obind].
  destruct (IH (with_objs (upd (objs s) k (There false)) s)) as (s' & E & Le).
  - intros; apply Hl; right; assumption.
  - intros k' Hk. destruct (H k' (or_intror Hk)) as [f' F']. unfold exists_in. cbn. rewrite upd_nth. destruct (Nat.eqb_spec k' k) as [->|]; [|exists f'; exact F']. exists false. apply nth_lt in F. destruct (Nat.ltb_spec k (length (objs s))); [reflexivity|lia].
  - exists s'. split; [exact E|]. rewrite Le. cbn. apply upd_length.
Qed.
Lemma no_culprit : forall s, wf s -> owned_once script s -> ~ culprit script s.
Proof.
  intros s W (O1 & O2) (t & P & Q & D & id & I & Hq & Hd & E). destruct (dels_ok (script id) t (onlyd id)) as (s' & E' & _); [|congruence]. intros k Hk.
  assert (Ei : In id (listed s)) by (apply (Permutation_in _ (Permutation_sym (i_perm _ _ _ _ _ _ I))); rewrite !in_app_iff; auto).
  destruct (O2 id k Ei Hk) as [->|L]; [exists false; exact Hd|]. destruct (i_old _ _ _ _ _ _ I k (ex_intro _ true L)) as [X|X]; [exact X|]. exfalso.
  destruct (i_dead _ _ _ _ _ _ I k (or_intror X) (nth_lt _ _ _ L)) as [Y|(j & J1 & J2)]; [unfold living, deleted in *; congruence|]. apply del_listed in J2. rewrite (O1 _ _ _ J2 Hk) in J1.
  pose proof (inv_nodup _ _ _ _ _ _ W I) as Nd. apply nodup_r in Nd. clear - Nd J1 Hq. induction Q as [|x l IH]; [destruct Hq|].
  cbn in Nd. apply NoDup_cons_iff in Nd. destruct Hq as [->|H1]; [apply (proj1 Nd); apply in_app_iff; auto|apply IH; tauto].
Qed.
Lemma refresh_owned : forall s, wf s -> owned_once script s -> exists s', refresh script false s = Ok s' /\ wf s' /\ owned_once script s'.
Proof.
  intros s W O. pose proof (refresh_ok script false s W) as H. destruct (refresh script false s) as [s'| | |] eqn:E; try contradiction.
  2: { destruct H as [H|[H _]]; [destruct (no_culprit s W O H)|discriminate]. }
  destruct H as (t & D & I & Es & W' & _). exists s'. split; [reflexivity|]. split; [exact W'|]. destruct O as (O1 & O2). split; [exact O1|]. intros i k Hi Hk.
  assert (Es' : objs s' = objs t) by (rewrite Es; reflexivity).
  assert (Hl : forall k, In k (listed s') \/ In k D -> In k (listed s)) by (intros x Hx; apply (Permutation_in _ (Permutation_sym (i_perm _ _ _ _ _ _ I))); cbn; apply in_app_iff; exact Hx).
  assert (Ei : exists_in t i) by exact (i_there _ _ _ _ _ _ I i (or_introl Hi)).
  destruct (O2 i k (Hl i (or_introl Hi)) Hk) as [H|H]; [auto|]. right. unfold living. rewrite Es'.
  assert (ND : ~ In i D). { intros C. assert (X : In i (log t)) by (rewrite (i_log _ _ _ _ _ _ I), in_app_iff; auto). apply (i_gone _ _ _ _ _ _ I) in X. destruct Ei as [f F]. congruence. }
  assert (Nk : ~ (deleted t k \/ In k D)).
  { intros C. destruct (i_dead _ _ _ _ _ _ I k C (nth_lt _ _ _ H)) as [Y|(j & J1 & J2)]; [unfold living, deleted in *; congruence|]. apply del_listed in J2. rewrite (O1 _ _ _ J2 Hk) in J1. contradiction. }
  destruct (i_old _ _ _ _ _ _ I k (ex_intro _ true H)) as [[[|] F]|X]; [exact F|exfalso; apply Nk; left; exact F|exfalso; apply Nk; auto].
Qed.
Lemma doomed_some : forall s id, doomed script s id -> exists k, In k (listed s) /\ deleted s k.
Proof. intros s id H. induction H; eauto. Qed.
Lemma doomed_listed : forall s id, doomed script s id -> In id (listed s).
Proof. intros s id H. destruct H; auto. Qed.
Lemma exists_split : forall s l, (forall id, In id l -> exists_in s id) -> Forall (living s) l \/ exists id, In id l /\ deleted s id.
Proof.
  induction l as [|x l IH]; intros Ex; [left; constructor|]. destruct (Ex x (or_introl eq_refl)) as [[|] F]; [|right; exists x; cbn; auto].
  destruct IH as [H|(id & H1 & H2)]; [intros; apply Ex; right; assumption|left; constructor; assumption|right; exists id; cbn; auto].
Qed.
(** One refresh, for the induction below. *)
Lemma refresh_owned_spec : forall s, wf s -> owned_once script s -> exists s' D, refresh script false s = Ok s' /\ wf s' /\ owned_once script s' /\
  log s' = log s ++ D /\ Permutation (listed s) (listed s' ++ D) /\ (forall id, In id D -> doomed script s id) /\ (forall id, In id (listed s) -> deleted s id -> In id D) /\
  (forall id, doomed script s' id -> doomed script s id) /\ (forall id, doomed script s id -> In id D \/ doomed script s' id).
Proof.
  intros s W O. destruct (refresh_owned s W O) as (s' & E & W' & O'). exists s'. pose proof (refresh_spec false s s' W E) as (D & R1 & R2 & R3 & R4 & R5 & R6 & R7 & R8). exists D.
  assert (Hl : forall k, In k (listed s') \/ In k D -> In k (listed s)) by (intros x Hx; apply (Permutation_in _ (Permutation_sym R2)); apply in_app_iff; exact Hx).
  refine (conj E (conj W' (conj O' (conj R1 (conj R2 (conj R5 (conj R4 (conj _ _)))))))).
  - intros id H. induction H as [id H1 H2|id k H IH H2 H3]; [|apply (doomed_then _ _ id); auto]. destruct (R6 id H1 H2) as (j & J1 & J2). apply (doomed_then _ _ j); auto.
  - intros id H. induction H as [id H1 H2|id k H IH H2 H3]; [left; auto|]. apply (Permutation_in _ R2) in H3. apply in_app_iff in H3 as [H3|H3]; [|auto]. right.
    destruct IH as [IH|IH]; [apply doomed_now; [exact H3|apply (R7 id); assumption]|apply (doomed_then _ _ id); auto].
Qed.
Lemma cascade_all : forall n s, wf s -> owned_once script s -> exists s' D, refreshes script n s = Ok s' /\ wf s' /\ log s' = log s ++ D /\ Permutation (listed s) (listed s' ++ D) /\
  (forall id, In id D -> doomed script s id) /\ (forall id, doomed script s id -> In id D \/ doomed script s' id) /\ (length (listed s) <= n \/ Forall (living s) (listed s) -> Forall (living s') (listed s')).
Proof.
  induction n as [|n IH]; intros s W O; cbn [refreshes].
  - exists s, []. rewrite !app_nil_r. refine (conj eq_refl (conj W (conj eq_refl (conj (Permutation_refl _) (conj _ (conj _ _)))))); [intros id []|auto|]. intros [H|H]; [destruct (listed s); [constructor|cbn in H; lia]|exact H].
  - destruct (refresh_owned_spec s W O) as (s1 & D1 & E & W1 & O1 & R1 & R2 & R3 & R6 & R4 & R5). rewrite E. cbn [obind].
    destruct (IH s1 W1 O1) as (s2 & D2 & E2 & W2 & Q1 & Q2 & Q3 & Q4 & Q5). exists s2, (D1 ++ D2). refine (conj E2 (conj W2 (conj _ (conj _ (conj _ (conj _ _)))))).
    + rewrite Q1, R1, app_assoc. reflexivity.
    + rewrite R2, Q2, <- app_assoc. apply Permutation_app_head. apply Permutation_app_comm.
    + intros id. rewrite in_app_iff. intros [H|H]; auto.
    + intros id H. rewrite in_app_iff. destruct (R5 id H) as [X|X]; [auto|]. destruct (Q4 id X); auto.
    + intros H. assert (Fs : Forall (living s) (listed s) -> D1 = [] /\ Forall (living s1) (listed s1)).
      { intros F. rewrite Forall_forall in F. assert (Nd : forall id, ~ doomed script s id).
        { intros id C. destruct (doomed_some s id C) as (k & K1 & K2). specialize (F k K1). unfold living, deleted in *. congruence. }
        split; [destruct D1 as [|x D1]; [reflexivity|destruct (Nd x (R3 x (or_introl eq_refl)))]|].
        destruct (exists_split s1 (listed s1)) as [X|(id & X1 & X2)]; [destruct W1 as (_ & _ & _ & _ & _ & X & _); rewrite Forall_forall in X; exact X|exact X|].
        exfalso. apply (Nd id). apply R4. apply doomed_now; assumption. }
      destruct H as [H|H]; [|apply Q5; right; apply Fs; exact H]. pose proof (Permutation_length R2) as Le. rewrite app_length in Le. destruct D1 as [|x D1]; [|cbn in Le; apply Q5; left; lia].
      apply Q5. right. apply Fs. destruct (exists_split s (listed s)) as [X|(id & X1 & X2)]; [destruct W as (_ & _ & _ & _ & _ & X & _); rewrite Forall_forall in X; exact X|exact X|].
      destruct (R6 id X1 X2).
Qed.
Lemma cascade : forall ops s, run script ops fresh = Ok s -> owned_once script s -> exists s' D, refreshes script (length (listed s)) s = Ok s' /\ log s' = log s ++ D /\
  Permutation (listed s) (listed s' ++ D) /\ Forall (living s') (listed s') /\ forall id, In id D <-> doomed script s id.
Proof.
  intros ops s R O. destruct (cascade_all (length (listed s)) s (reach _ _ R) O) as (s' & D & E & W' & R1 & R2 & R3 & R4 & R5). specialize (R5 (or_introl (le_n _))). exists s', D.
  refine (conj E (conj R1 (conj R2 (conj R5 _)))). intros id. split; [auto|]. intros H. destruct (R4 id H) as [X|X]; [exact X|]. destruct (doomed_some s' id X) as (k & K1 & K2). rewrite Forall_forall in R5. specialize (R5 k K1). unfold living, deleted in *. congruence.
Qed.

(** *** Destroying everything *)
Definition in_order (s : st) (L : list nat) : Prop := forall A id B, L = A ++ id :: B -> forall k, In (ADel k) (script id) -> exists_in s k /\ ~ In k A.
Lemma dels_ub : forall l s s', (forall a, In a l -> exists k, a = ADel k) -> do_acts true l s = Ok s' -> (forall k, In (ADel k) l -> exists_in s k) /\ length (objs s') = length (objs s).
Proof.
  induction l as [|a l IH]; intros s s' Hl E; [cbn in E; injection E as <-; split; [intros k []|reflexivity]|]. destruct (Hl a (or_introl eq_refl)) as [k ->]. cbn [do_acts do_act] in E. unfold del in E. destruct (nth_error (objs s) k) as [[f|]|] eqn:F; try discriminate. cbn [obind] in E.
  destruct (IH _ _ (fun b Hb => Hl b (or_intror Hb)) E) as (X & Le). cbn in Le. rewrite upd_length in Le. split; [|exact Le]. intros k' [H|H]; [injection H as <-; exists f; exact F|].
  destruct (X k' H) as [f' F']. cbn in F'. rewrite upd_nth in F'. destruct (Nat.eqb_spec k' k) as [->|]; [exists f; exact F|exists f'; exact F'].
Qed.
Lemma clear_iff : forall L fuel s i, cinv s i L -> cap s < fuel + i ->
  (in_order s L -> exists s', clear_from script fuel i s = Ok s' /\ log s' = log s ++ L) /\ (~ in_order s L -> clear_from script fuel i s = UB).
Proof.
  induction L as [|id L IH]; intros fuel s i C Hf.
  - pose proof (cinv_next _ _ _ C) as Nx. cbn in Nx. split.
    + intros _. assert (E : i <? next s = false) by (apply Nat.ltb_ge; lia). destruct fuel; cbn [clear_from]; rewrite E; eexists; (split; [reflexivity|]); cbn; rewrite app_nil_r; reflexivity.
    + intros H. exfalso. apply H. intros [|] ? ? E; discriminate.
  - pose proof (cinv_next _ _ _ C) as Nx. cbn in Nx. assert (Sz := proj1 C). destruct Sz as (S1 & S2 & S3). destruct fuel as [|fuel]; [lia|]. cbn [clear_from].
    assert (E : i <? next s = true) by (apply Nat.ltb_lt; lia). rewrite E. pose proof (clear_step script s i id L C) as St.
    assert (Hid : exists_in s id) by (destruct C as (_ & _ & _ & Ex & _); apply Forall_cons_iff in Ex; apply Ex).
    assert (Nid : ~ In id L) by (destruct C as (_ & _ & Nd & _); apply NoDup_cons_iff in Nd; apply Nd).
    destruct (deinit_at script s i) as [s1| | |] eqn:De; cbn [obind]; try contradiction.
    + destruct St as (N & C1 & L1 & Cp & Nn & Nd & Un & Ln). assert (Da : exists s0, do_acts true (script id) s = Ok s0 /\ length (objs s0) = length (objs s1)).
      { unfold deinit_at in De. destruct (nth_error (slots s) i) as [[x|]|] eqn:Sl; try discriminate.
        assert (x = id). { destruct C as (_ & F & _). rewrite <- (nth_firstn (slots s) (next s)) in Sl by lia. rewrite F, nth_error_app2, repeat_length, Nat.sub_diag in Sl by (rewrite repeat_length; lia). cbn in Sl. congruence. }
        subst x. destruct (nth_error (objs s) id) as [[f|]|]; try discriminate. destruct (do_acts true (script id) s) as [s0| | |]; try discriminate. cbn in De. injection De as <-. exists s0. cbn. rewrite upd_length. auto. }
      destruct Da as (s0 & Da & Le). destruct (dels_ub _ _ _ (onlyd id) Da) as (Ex & Le2). assert (N = []) by (destruct N; [reflexivity|cbn in Ln; lia]). subst N. rewrite app_nil_r in C1.
      assert (Back : forall k, exists_in s1 k -> exists_in s k /\ k <> id).
      { intros k [f F]. destruct C as (_ & _ & _ & _ & _ & G). destruct C1 as (_ & _ & _ & _ & _ & G1). assert (Nl : ~ In k (log s1)) by (rewrite G1, F; discriminate). rewrite L1, in_app_iff in Nl. cbn in Nl.
        split; [|intros ->; tauto]. destruct (nth_error (objs s) k) as [[g|]|] eqn:Hg; [exists g; exact Hg|exfalso; apply G in Hg; tauto|]. apply nth_error_None in Hg. apply nth_lt in F. lia. }
      assert (Iff : in_order s (id :: L) <-> in_order s1 L).
      { split.
        - intros H A x B EL k Hk. destruct (H (id :: A) x B ltac:(cbn; rewrite EL; reflexivity) k Hk) as [H1 H2]. cbn in H2. split; [apply Un; [exact H1|intros ->; tauto]|tauto].
        - intros H A x B EL k Hk. destruct A as [|y A]; [injection EL as <- <-; split; [auto|intros []]|]. injection EL as <- EL. destruct (H A x B EL k Hk) as [H1 H2]. destruct (Back k H1) as [H3 H4]. split; [exact H3|]. intros [->|X]; tauto. }
      destruct (IH fuel s1 (i + 1) C1 ltac:(lia)) as [I1 I2]. split.
      * intros H. apply Iff in H. destruct (I1 H) as (s2 & E2 & L2). exists s2. split; [exact E2|]. rewrite L2, L1, <- app_assoc. reflexivity.
      * intros H. apply I2. intros X. apply H, Iff, X.
    + split; [|reflexivity]. intros H. exfalso. destruct (dels_ok (script id) s (onlyd id)) as (s' & E' & _); [|congruence]. intros k Hk. apply (H [] id L eq_refl k Hk).
Qed.
Lemma clear_order : forall ops s, run script ops fresh = Ok s ->
  (in_order s (listed s) -> exists s', clear script s = Ok s' /\ log s' = log s ++ listed s /\ shown s' = []) /\ (~ in_order s (listed s) -> clear script s = UB).
Proof.
  intros ops s R. pose proof (reach _ _ R) as W. destruct (clear_iff (listed s) (S (cap s)) s 0 (wf_cinv s W) ltac:(lia)) as [H1 H2]. split; [|exact H2]. intros H. destruct (H1 H) as (s' & E & L). exists s'. split; [exact E|]. split; [exact L|].
  pose proof (clear_total script s W) as T. unfold clear in T. rewrite E in T. destruct T as (_ & _ & _ & _ & _ & V & _). unfold shown. rewrite V. reflexivity.
Qed.
End Hist.

(** *** Destructors that create *)
Lemma creates_more : forall ins l s s', sized s -> creates l -> do_acts ins l s = Ok s' -> next s < next s'.
Proof.
  intros ins l. induction l as [|a l IH]; intros s s' Sz (m & Hm) E; [destruct Hm|]. cbn [do_acts] in E. destruct (do_act ins a s) as [s1| | |] eqn:Da; try discriminate. cbn [obind] in E.
  pose proof (act_effect ins a s Sz) as A. rewrite Da in A. destruct A as ((_ & _ & _ & _ & _ & _ & N & A7 & _) & Sz1 & _). pose proof (acts_effect ins l s1 Sz1) as B. rewrite E in B. destruct B as ((_ & _ & _ & _ & _ & _ & N' & B7 & _) & _).
  destruct Hm as [->|Hm]; [|pose proof (IH s1 s' Sz1 (ex_intro _ m Hm) E); lia]. rewrite do_new in Da. set (t := with_objs (objs s ++ [There true]) s) in *. assert (St : sized t) by exact Sz. assert (Nt : next t = next s) by reflexivity. clearbody t.
  pose proof (acts_effect ins m t St) as C. destruct (do_acts ins m t) as [t1| | |]; try discriminate. cbn [obind effect] in *. destruct C as ((_ & _ & _ & _ & _ & _ & N2 & C7 & _) & St1 & _).
  pose proof (place_effect ins (length (objs s)) t1 St1) as Pl. rewrite Da in Pl. destruct Pl as (_ & _ & _ & Pl & _). lia.
Qed.
Lemma clear_creating : forall script ops s, (forall id, creates (script id)) -> run script ops fresh = Ok s -> listed s <> [] -> clear script s = UB.
Proof.
  intros script ops s Hc R Ne. pose proof (reach _ _ _ R) as W.
  assert (X : forall fuel s i L, cinv s i L -> L <> [] -> forall s', clear_from script fuel i s <> Ok s').
  { induction fuel as [|fuel IH]; intros t i L C HL s'; pose proof (cinv_next _ _ _ C) as Nx; (destruct L as [|id L]; [contradiction|]); cbn in Nx; cbn [clear_from]; (assert (E : i <? next t = true) by (apply Nat.ltb_lt; lia)); rewrite E; [discriminate|].
    pose proof (clear_step script t i id L C) as St. destruct (deinit_at script t i) as [s1| | |] eqn:De; cbn [obind]; try discriminate. destruct St as (N & C1 & L1 & Cp & Nn & Nd & Un & Ln). apply (IH s1 (i + 1) (L ++ N) C1).
    assert (Lt : next t < next s1).
    { unfold deinit_at in De. destruct (nth_error (slots t) i) as [[x|]|]; try discriminate. destruct (nth_error (objs t) x) as [[f|]|]; try discriminate. destruct (do_acts true (script x) t) as [s0| | |] eqn:Da; try discriminate. cbn in De. injection De as <-. cbn.
      exact (creates_more true (script x) t s0 (proj1 C) (Hc x) Da). }
    pose proof (cinv_next _ _ _ C1) as N1. rewrite app_length in N1. destruct L, N; cbn in *; try discriminate; lia. }
  pose proof (clear_total script s W) as T. unfold clear in *. specialize (X (S (cap s)) s 0 (listed s) (wf_cinv s W) Ne). destruct (clear_from script (S (cap s)) 0 s) as [s'| | |]; try contradiction; [destruct (X s' eq_refl)|reflexivity].
Qed.

(** *** Constructors that create *)
Definition borns (l : list act) (n : nat) : list nat * nat := (fix go (l : list act) (n : nat) : list nat * nat :=
        match l with [] => ([], n) | b :: l' => let (x, n') := born b n in let (y, n'') := go l' n' in (x ++ y, n'') end) l n.
Lemma construct_act : forall a s, sized s -> (forall k, ~ deletes k a) -> exists s', do_act false a s = Ok s' /\ sized s' /\ log s' = log s /\ vis s' = vis s /\
  (exists m, objs s' = objs s ++ repeat (There true) m) /\ length (objs s') = snd (born a (length (objs s))) /\ firstn (next s') (slots s') = firstn (next s) (slots s) ++ map Some (fst (born a (length (objs s)))).
Proof.
  intros a. induction a as [k|l IH] using act_ind'; intros s Sz Hd; [destruct (Hd k); constructor|].
  assert (L : forall t, sized t -> exists s', do_acts false l t = Ok s' /\ sized s' /\ log s' = log t /\ vis s' = vis t /\
    (exists m, objs s' = objs t ++ repeat (There true) m) /\ length (objs s') = snd (borns l (length (objs t))) /\ firstn (next s') (slots s') = firstn (next t) (slots t) ++ map Some (fst (borns l (length (objs t))))).
  { clear s Sz. assert (Hl : forall b, In b l -> forall k, ~ deletes k b) by (intros b Hb k C; apply (Hd k); apply (deletes_in k b l Hb C)). clear Hd.
    induction IH as [|b l Hb _ IHl]; intros t St.
    - exists t. cbn. rewrite app_nil_r. refine (conj eq_refl (conj St (conj eq_refl (conj eq_refl (conj _ (conj eq_refl eq_refl)))))). exists 0. cbn. rewrite app_nil_r. reflexivity.
    - cbn [do_acts]. destruct (Hb t St (Hl b (or_introl eq_refl))) as (t1 & -> & S1 & A1 & A2 & (m1 & A3) & A4 & A5). cbn [obind].
      destruct (IHl (fun c Hc => Hl c (or_intror Hc)) t1 S1) as (t2 & -> & S2 & B1 & B2 & (m2 & B3) & B4 & B5). exists t2. cbn [borns]. fold (borns l). rewrite A4 in B4, B5. destruct (born b (length (objs t))) as [x n'] eqn:Eb. cbn [fst snd] in *.
      change ((fix go (l0 : list act) (n : nat) {struct l0} : list nat * nat := match l0 with [] => ([], n) | b0 :: l' => let (x0, n'0) := born b0 n in let (y, n'') := go l' n'0 in (x0 ++ y, n'') end) l n') with (borns l n').
      destruct (borns l n') as [y n''] eqn:El. cbn [fst snd] in *.
      refine (conj eq_refl (conj S2 (conj _ (conj _ (conj _ (conj B4 _)))))); try congruence.
      + exists (m1 + m2). rewrite B3, A3, repeat_app, app_assoc. reflexivity.
      + rewrite B5, A5, map_app, app_assoc. reflexivity. }
  rewrite do_new. destruct (L (with_objs (objs s ++ [There true]) s) Sz) as (t & -> & St & A1 & A2 & (m & A3) & A4 & A5). cbn [obind with_objs objs slots next log vis] in *.
  pose proof (place_effect false (length (objs s)) t St) as Pl. destruct (place false (length (objs s)) t) as [s'| | |]; try contradiction; [|destruct Pl; discriminate]. destruct Pl as (P1 & P2 & P3 & P4 & P5 & P6 & _).
  exists s'. cbn [born]. change ((fix go (l0 : list act) (n : nat) {struct l0} : list nat * nat := match l0 with [] => ([], n) | b0 :: l' => let (x0, n'0) := born b0 n in let (y, n'') := go l' n'0 in (x0 ++ y, n'') end) l (S (length (objs s)))) with (borns l (S (length (objs s)))).
  rewrite app_length in A4, A5. cbn [length] in A4, A5. rewrite Nat.add_1_r in A4, A5. cbn [fst snd].
  refine (conj eq_refl (conj P6 (conj _ (conj _ (conj _ (conj _ _)))))); try congruence.
  - exists (S m). rewrite P1, A3, <- app_assoc. reflexivity.
  - rewrite P5, A5, map_app, app_assoc. reflexivity.
Qed.
Lemma constructor_ok : forall script ops s l, run script ops fresh = Ok s -> (forall k, ~ deletes_one_of k l) ->
  exists s', step script (OMake l) s = Ok s' /\ listed s' = listed s ++ fst (born (ANew l) (length (objs s))) /\ log s' = log s /\ shown s' = shown s /\
    (exists m, objs s' = objs s ++ repeat (There true) m) /\ length (objs s') = snd (born (ANew l) (length (objs s))).
Proof.
  intros script ops s l R Hd. pose proof (reach _ _ _ R) as W. assert (Hn : forall k, ~ deletes k (ANew l)) by (intros k C; inversion C as [|a l0 Ha Hk]; subst; apply (Hd k); exists a; auto).
  destruct (construct_act (ANew l) s (proj1 W) Hn) as (s' & E & Sz & A1 & A2 & A3 & A4 & A5). exists s'. split; [exact E|]. destruct W as (_ & W2 & W3 & _). split.
  - apply listed_is. rewrite A5, W3, map_app. reflexivity.
  - split; [exact A1|]. split; [|split; assumption]. unfold shown. rewrite A2. assert (Nx : next s <= next s').
    { pose proof (act_count _ _ _ _ E) as C. destruct A3 as [m A3]. apply (f_equal (@length _)) in A3. rewrite app_length in A3. lia. }
    assert (X : firstn (vis s) (firstn (next s') (slots s')) = firstn (vis s) (slots s)).
    { rewrite A5, firstn_app, firstn_firstn, Nat.min_l by lia. assert (Z0 : length (firstn (next s) (slots s)) = next s) by (rewrite firstn_length_le by (destruct (proj1 (reach _ _ _ R)) as (? & ? & _); lia); reflexivity).
      rewrite Z0. replace (vis s - next s) with 0 by lia. cbn. apply app_nil_r. }
    rewrite firstn_firstn, Nat.min_l in X by lia. exact X.
Qed.
Lemma clear_everything : forall script ops s s', run script ops fresh = Ok s -> clear script s = Ok s' ->
  exists E, log s' = log s ++ listed s ++ E /\ forall id, In id E <-> length (objs s) <= id /\ id < length (objs s').
Proof. intros script ops s s' R E. pose proof (clear_total script s (reach _ _ _ R)) as T. rewrite E in T. destruct T as (D & T1 & T2 & _). eauto. Qed.
