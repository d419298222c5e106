(** Lemmas on several bimaps. *)
From Coq Require Import String Arith Bool Lia List Permutation.
From Verif Require Import Common VecSpec VecProofs BimapModel BimapSpec BimapProofs BmWorldModel BmWorldSpec.
Import ListNotations.

(** ** Lists *)
Lemma set_at_replace : forall A (l : list A) k x, set_at k x l = replace k x l.
Proof. induction l as [|a l IH]; intros [|k] x; cbn; rewrite ?IH; reflexivity. Qed.
Lemma nth_replace : forall A (l : list A) k x j,
  nth_error (replace k x l) j = if j =? k then (match nth_error l j with Some _ => Some x | None => None end) else nth_error l j.
Proof.
  induction l as [|a l IH]; intros [|k] x [|j]; cbn; try reflexivity.
  - destruct (j =? k); reflexivity.
  - rewrite IH. reflexivity.
Qed.
Lemma replace_length : forall A (l : list A) k x, length (replace k x l) = length l.
Proof. induction l as [|a l IH]; intros [|k] x; cbn; rewrite ?IH; reflexivity. Qed.
Lemma F2_nth : forall A B (R : A -> B -> Prop) a b, Forall2 R a b -> forall k,
  match nth_error a k, nth_error b k with Some x, Some y => R x y | None, None => True | _, _ => False end.
Proof.
  intros A B R a b H. induction H as [|x y a b Hx H IH]; intros [|k]; cbn; auto. apply IH.
Qed.
Lemma F2_replace : forall A B (R : A -> B -> Prop) a b, Forall2 R a b -> forall k x y, R x y ->
  Forall2 R (replace k x a) (replace k y b).
Proof.
  intros A B R a b H. induction H as [|x y a b Hx H IH]; intros [|k] u v Huv; cbn; constructor; auto.
Qed.
Lemma F2_len : forall A B (R : A -> B -> Prop) a b, Forall2 R a b -> length a = length b.
Proof. intros A B R a b H. induction H; cbn; congruence. Qed.
Lemma F2_impl : forall A B (R S : A -> B -> Prop), (forall x y, R x y -> S x y) -> forall a b, Forall2 R a b -> Forall2 S a b.
Proof. intros A B R S HI a b H. induction H; constructor; auto. Qed.
Lemma F2_snoc : forall A B (R : A -> B -> Prop) a b x y, Forall2 R a b -> R x y -> Forall2 R (a ++ [x]) (b ++ [y]).
Proof. intros A B R a b x y H Hx. induction H; cbn; constructor; auto. Qed.

Section BW.
Context {T1 T2 : Type} (lt1 eq1 : T1 -> T1 -> bool) (lt2 eq2 : T2 -> T2 -> bool)
  (ST1 : strict_total lt1 eq1) (ST2 : strict_total lt2 eq2).
Notation inv := (inv lt1 lt2).

(** ** One bimap with numbered pairs *)
Lemma has_first_iff : forall x (l : contents T1 T2), has_first eq1 x l = existsb (uses1 eq1 x) (map snd l).
Proof. intros x l. unfold has_first. induction l as [|e l IH]; [reflexivity|]. cbn [existsb map]. rewrite IH. reflexivity. Qed.
Lemma has_second_iff : forall x (l : contents T1 T2), has_second eq2 x l = existsb (uses2 eq2 x) (map snd l).
Proof. intros x l. unfold has_second. induction l as [|e l IH]; [reflexivity|]. cbn [existsb map]. rewrite IH. reflexivity. Qed.

Lemma inv_with : forall (b : bimap T1 T2) n, inv b -> next b <= n -> inv (with_next n b).
Proof.
  intros b n [A B C D E F] H. constructor; cbn [with_next storage set1 set2 next]; auto.
  intros i Hi. specialize (B i Hi). cbn. lia.
Qed.
Lemma with_with : forall (b : bimap T1 T2) n m, with_next n (with_next m b) = with_next n b.
Proof. reflexivity. Qed.
Lemma with_self : forall (b : bimap T1 T2), with_next (next b) b = b.
Proof. intros []. reflexivity. Qed.

Lemma emplace_named : forall nd b x y, inv b ->
  match add eq1 eq2 (next b) (storage b) x y with
  | Some (l, n) => exists b', call lt1 lt2 nd b (Emplace x y) = Ok b' /\ inv b' /\ storage b' = l /\ next b' = n
  | None => nd = false -> call lt1 lt2 nd b (Emplace x y) = UB
  end.
Proof.
  intros nd b x y I. pose proof (emplace_spec lt1 eq1 lt2 eq2 ST1 ST2 b x y I) as S. cbn [spec_step] in S.
  unfold add. rewrite has_first_iff, has_second_iff. change (map snd (storage b)) with (pairs b).
  destruct (existsb (uses1 eq1 x) (pairs b) || existsb (uses2 eq2 y) (pairs b)) eqn:X.
  - intros ->. exact S.
  - destruct S as (b' & E & I' & _). exists b'.
    assert (EE : emplace lt1 lt2 b x y = emplace_ndebug lt1 lt2 b x y).
    { unfold emplace. rewrite (has1_spec lt1 eq1 lt2 ST1 b x I), (has2_spec lt1 lt2 eq2 ST2 b y I). cbn [obind]. rewrite X. reflexivity. }
    split; [destruct nd; cbn [call bm_step]; [rewrite <- EE|]; exact E|]. split; [exact I'|].
    rewrite EE in E. unfold emplace_ndebug in E.
    destruct (ps_insert _ _ _ (set1 b) _ _); cbn [obind] in E; try discriminate.
    destruct (ps_insert _ _ _ (set2 b) _ _); cbn [obind] in E; try discriminate.
    injection E as <-. cbn [storage next]. auto.
Qed.

Lemma erase_pair_next : forall b i b', erase_pair lt1 lt2 b i = Ok b' -> next b' = next b.
Proof.
  intros b i b' E. unfold erase_pair in E. destruct (deref b i); [|discriminate].
  destruct (ps_erase fst _ _ _ _); cbn [obind] in E; try discriminate.
  destruct (ps_erase snd _ _ _ _); cbn [obind] in E; try discriminate. injection E as <-. reflexivity.
Qed.
Lemma filter_named : forall (l : contents T1 T2) (f : nat * (T1 * T2) -> bool) i,
  (forall e, In e l -> (f e = true <-> fst e = i)) ->
  filter (fun e => negb (fst e =? i)) l = filter (fun e => negb (f e)) l.
Proof.
  intros l f i H. induction l as [|e l IH]; [reflexivity|]. cbn [filter].
  assert (He : (fst e =? i) = f e).
  { destruct (Nat.eqb_spec (fst e) i) as [Q|Q]; symmetry.
    - apply (H e); [left; reflexivity|exact Q].
    - apply not_true_iff_false. intros C. apply Q, (H e); [left; reflexivity|exact C]. }
  rewrite He, IH by (intros e' He'; apply H; right; exact He'). reflexivity.
Qed.
Lemma filter_one : forall (l : contents T1 T2) i p, NoDup (map fst l) -> In (i, p) l ->
  S (length (filter (fun e => negb (fst e =? i)) l)) = length l.
Proof.
  induction l as [|[j q] l IH]; intros i p N H; [destruct H|]. cbn [map fst] in N. inversion N as [|? ? N1 N2]; subst.
  cbn [filter fst]. destruct (Nat.eqb_spec j i) as [->|Ne]; cbn [negb length].
  - f_equal. clear IH H N. induction l as [|[k r] l IH]; [reflexivity|]. cbn [filter fst map] in *.
    destruct (Nat.eqb_spec k i) as [->|Nk]; [exfalso; apply N1; left; reflexivity|]. cbn [negb length].
    inversion N2; subst. rewrite IH; [reflexivity| |assumption]. intros C. apply N1. right. exact C.
  - destruct H as [H|H]; [congruence|]. rewrite (IH i p N2 H). reflexivity.
Qed.

Lemma erase1_named : forall b x, inv b ->
  if has_first eq1 x (storage b) then
    exists b', erase1_ndebug lt1 lt2 b x = Ok b' /\ inv b' /\ storage b' = drop_first eq1 x (storage b) /\ next b' = next b /\
      has1 lt1 b' x = Ok false /\ S (length (storage b')) = length (storage b)
  else erase1_ndebug lt1 lt2 b x = UB.
Proof.
  intros b x I. rewrite has_first_iff. change (map snd (storage b)) with (pairs b). unfold erase1_ndebug.
  destruct (find1_spec lt1 eq1 lt2 ST1 b x I) as [(i & p & H1 & H2 & H3 & H4)|(N & H)].
  - assert (X : existsb (uses1 eq1 x) (pairs b) = true).
    { apply (ex1 lt1 eq1 ST1). exists p. split; [apply (in_map snd) in H1; exact H1|exact H2]. }
    rewrite X, H3. cbn [obind]. destruct (erase_pair_spec lt1 eq1 lt2 eq2 ST1 ST2 b i p I H1) as (b' & E & I' & S).
    assert (Dr : storage b' = drop_first eq1 x (storage b)).
    { rewrite S. unfold drop_first. apply filter_named. intros [j q] Hq. cbn [fst snd]. rewrite (st_eqb _ _ ST1). split.
      - intros E'. eapply (same1 lt1 eq1 lt2 ST1 b); [exact I|exact Hq|exact H1|congruence].
      - intros ->. apply (deref_iff lt1 lt2) in Hq; [|exact I]. congruence. }
    exists b'. split; [exact E|]. split; [exact I'|]. split; [exact Dr|]. split; [exact (erase_pair_next b i b' E)|]. split.
    + rewrite (has1_spec lt1 eq1 lt2 ST1 b' x I'). f_equal. apply not_true_iff_false. intros Q.
      unfold pairs in Q. rewrite <- has_first_iff, Dr in Q. unfold has_first, drop_first in Q.
      apply existsb_exists in Q. destruct Q as (e & He & U). apply filter_In in He. destruct He as [_ He]. rewrite U in He. discriminate.
    + rewrite S. eapply filter_one; [exact (inv_ids _ _ b I)|exact H1].
  - assert (X : existsb (uses1 eq1 x) (pairs b) = false).
    { eapply bool_iff; [apply (ex1 lt1 eq1 ST1)|]. intros (p & Hp & E). exact (N p Hp E). }
    rewrite X, H. reflexivity.
Qed.
Lemma erase2_named : forall b y, inv b ->
  if has_second eq2 y (storage b) then
    exists b', erase2_ndebug lt1 lt2 b y = Ok b' /\ inv b' /\ storage b' = drop_second eq2 y (storage b) /\ next b' = next b /\
      has2 lt2 b' y = Ok false /\ S (length (storage b')) = length (storage b)
  else erase2_ndebug lt1 lt2 b y = UB.
Proof.
  intros b x I. rewrite has_second_iff. change (map snd (storage b)) with (pairs b). unfold erase2_ndebug.
  destruct (find2_spec lt1 lt2 eq2 ST2 b x I) as [(i & p & H1 & H2 & H3 & H4)|(N & H)].
  - assert (X : existsb (uses2 eq2 x) (pairs b) = true).
    { apply (ex2 lt2 eq2 ST2). exists p. split; [apply (in_map snd) in H1; exact H1|exact H2]. }
    rewrite X, H3. cbn [obind]. destruct (erase_pair_spec lt1 eq1 lt2 eq2 ST1 ST2 b i p I H1) as (b' & E & I' & S).
    assert (Dr : storage b' = drop_second eq2 x (storage b)).
    { rewrite S. unfold drop_second. apply filter_named. intros [j q] Hq. cbn [fst snd]. rewrite (st_eqb _ _ ST2). split.
      - intros E'. eapply (same2 lt1 lt2 eq2 ST2 b); [exact I|exact Hq|exact H1|congruence].
      - intros ->. apply (deref_iff lt1 lt2) in Hq; [|exact I]. congruence. }
    exists b'. split; [exact E|]. split; [exact I'|]. split; [exact Dr|]. split; [exact (erase_pair_next b i b' E)|]. split.
    + rewrite (has2_spec lt1 lt2 eq2 ST2 b' x I'). f_equal. apply not_true_iff_false. intros Q.
      unfold pairs in Q. rewrite <- has_second_iff, Dr in Q. unfold has_second, drop_second in Q.
      apply existsb_exists in Q. destruct Q as (e & He & U). apply filter_In in He. destruct He as [_ He]. rewrite U in He. discriminate.
    + rewrite S. eapply filter_one; [exact (inv_ids _ _ b I)|exact H1].
  - assert (X : existsb (uses2 eq2 x) (pairs b) = false).
    { eapply bool_iff; [apply (ex2 lt2 eq2 ST2)|]. intros (p & Hp & E). exact (N p Hp E). }
    rewrite X, H. reflexivity.
Qed.

Lemma erase1_split : forall b x, erase1 lt1 lt2 b x =
  obind (erase1_ndebug lt1 lt2 b x) (fun b' => obind (has1 lt1 b' x) (fun h => if h then UB else Ok b')).
Proof.
  intros b x. unfold erase1, erase1_ndebug. destruct (find1 lt1 b x) as [[i|]| | |]; reflexivity.
Qed.
Lemma erase2_split : forall b x, erase2 lt1 lt2 b x =
  obind (erase2_ndebug lt1 lt2 b x) (fun b' => obind (has2 lt2 b' x) (fun h => if h then UB else Ok b')).
Proof.
  intros b x. unfold erase2, erase2_ndebug. destruct (find2 lt2 b x) as [[i|]| | |]; reflexivity.
Qed.

Lemma call_named : forall nd b o, inv b ->
  match called eq1 eq2 (next b) (storage b) o with
  | Some (l, n) => exists b', call lt1 lt2 nd b o = Ok b' /\ inv b' /\ storage b' = l /\ next b' = n
  | None => nd = false -> call lt1 lt2 nd b o = UB
  end.
Proof.
  intros nd b [x y|x|y|] I; cbn [called].
  - apply emplace_named. exact I.
  - pose proof (erase1_named b x I) as E. destruct (has_first eq1 x (storage b)).
    + destruct E as (b' & E & I' & S & Nx & Hh & _). exists b'. split; [|auto].
      destruct nd; cbn [call bm_step]; [exact E|]. rewrite erase1_split, E. cbn [obind]. rewrite Hh. reflexivity.
    + intros ->. cbn [call bm_step]. rewrite erase1_split, E. reflexivity.
  - pose proof (erase2_named b y I) as E. destruct (has_second eq2 y (storage b)).
    + destruct E as (b' & E & I' & S & Nx & Hh & _). exists b'. split; [|auto].
      destruct nd; cbn [call bm_step]; [exact E|]. rewrite erase2_split, E. cbn [obind]. rewrite Hh. reflexivity.
    + intros ->. cbn [call bm_step]. rewrite erase2_split, E. reflexivity.
  - exists (clear b). split; [destruct nd; reflexivity|]. split; [apply inv_empty|]. split; reflexivity.
Qed.
Lemma construct_named : forall nd ps b, inv b ->
  match add_all eq1 eq2 (next b) (storage b) ps with
  | Some (l, n) => exists b', construct lt1 lt2 nd b ps = Ok b' /\ inv b' /\ storage b' = l /\ next b' = n
  | None => nd = false -> construct lt1 lt2 nd b ps = UB
  end.
Proof.
  intros nd. induction ps as [|[x y] ps IH]; intros b I.
  - exists b. auto.
  - cbn [add_all construct fst snd]. pose proof (emplace_named nd b x y I) as E.
    destruct (add eq1 eq2 (next b) (storage b) x y) as [[l n]|].
    + destruct E as (b' & E & I' & <- & <-). rewrite E. cbn [obind]. apply IH. exact I'.
    + intros N. rewrite (E N). reflexivity.
Qed.

(** ** Numbers *)
Lemma add_ids : forall n (l : contents T1 T2) x y l' n', add eq1 eq2 n l x y = Some (l', n') ->
  n <= n' /\ forall i, In i (map fst l') -> In i (map fst l) \/ n <= i.
Proof.
  intros n l x y l' n' H. unfold add in H. destruct (_ || _); [discriminate|]. injection H as <- <-. split; [lia|].
  intros i Hi. rewrite map_app in Hi. apply in_app_or in Hi. destruct Hi as [Hi|[<-|[]]]; [left; exact Hi|right; cbn; lia].
Qed.
Lemma add_all_ids : forall ps n (l : contents T1 T2) l' n', add_all eq1 eq2 n l ps = Some (l', n') ->
  n <= n' /\ forall i, In i (map fst l') -> In i (map fst l) \/ n <= i.
Proof.
  induction ps as [|[x y] ps IH]; intros n l l' n' H; cbn [add_all] in H.
  - injection H as <- <-. split; [lia|]. auto.
  - destruct (add eq1 eq2 n l x y) as [[l1 n1]|] eqn:E; [|discriminate]. apply add_ids in E. destruct E as [E1 E2].
    apply IH in H. destruct H as [H1 H2]. split; [lia|]. intros i Hi. destruct (H2 i Hi) as [Q|Q]; [apply E2; exact Q|right; lia].
Qed.
Lemma filter_ids : forall (f : nat * (T1 * T2) -> bool) l i, In i (map fst (filter f l)) -> In i (map fst l).
Proof.
  intros f l i H. apply in_map_iff in H. destruct H as (e & <- & He). apply filter_In in He. apply in_map. tauto.
Qed.
Lemma called_ids : forall n (l : contents T1 T2) o l' n', called eq1 eq2 n l o = Some (l', n') ->
  n <= n' /\ forall i, In i (map fst l') -> In i (map fst l) \/ n <= i.
Proof.
  intros n l [x y|x|y|] l' n' H; cbn [called] in H.
  - eapply add_ids; exact H.
  - destruct (has_first eq1 x l); [|discriminate]. injection H as <- <-. split; [lia|]. intros i Hi. left. eapply filter_ids; exact Hi.
  - destruct (has_second eq2 y l); [|discriminate]. injection H as <- <-. split; [lia|]. intros i Hi. left. eapply filter_ids; exact Hi.
  - injection H as <- <-. split; [lia|]. intros i [].
Qed.

Definition uniq (ls : list (option (contents T1 T2))) : Prop :=
  forall k j lk lj i, nth_error ls k = Some (Some lk) -> nth_error ls j = Some (Some lj) ->
    In i (map fst lk) -> In i (map fst lj) -> k = j.
Definition bounded (n : nat) (ls : list (option (contents T1 T2))) : Prop :=
  forall k l i, nth_error ls k = Some (Some l) -> In i (map fst l) -> i < n.
Lemma uniq_step : forall ls ls' n c (g : nat -> nat), uniq ls -> bounded n ls ->
  (forall k' l' i, nth_error ls' k' = Some (Some l') -> In i (map fst l') ->
     (n <= i /\ k' = c) \/ exists k l, k' = g k /\ nth_error ls k = Some (Some l) /\ In i (map fst l)) ->
  uniq ls'.
Proof.
  intros ls ls' n c g U B H k j lk lj i Hk Hj Ik Ij.
  destruct (H k lk i Hk Ik) as [[A ->]|(k0 & l0 & -> & A1 & A2)]; destruct (H j lj i Hj Ij) as [[C ->]|(j0 & l1 & -> & C1 & C2)].
  - reflexivity.
  - specialize (B j0 l1 i C1 C2). lia.
  - specialize (B k0 l0 i A1 A2). lia.
  - f_equal. exact (U k0 j0 l0 l1 i A1 C1 A2 C2).
Qed.

(** ** Values by number *)
Lemma value_some : forall (ls : list (option (contents T1 T2))) i p, value_in ls i = Some p ->
  exists k l, nth_error ls k = Some (Some l) /\ In (i, p) l.
Proof.
  induction ls as [|o ls IH]; intros i p H; cbn [value_in] in H; [discriminate|].
  destruct (find _ _) as [e|] eqn:F.
  - injection H as <-. apply find_some in F. destruct F as [F1 F2]. apply Nat.eqb_eq in F2. destruct e as [j q]. cbn in F2. subst j.
    destruct o as [l|]; [|destruct F1]. exists 0, l. split; [reflexivity|exact F1].
  - destruct (IH i p H) as (k & l & A & C). exists (S k), l. auto.
Qed.
Lemma value_none : forall (ls : list (option (contents T1 T2))) i, value_in ls i = None ->
  forall k l, nth_error ls k = Some (Some l) -> ~ In i (map fst l).
Proof.
  induction ls as [|o ls IH]; intros i H k l Hk Hi; cbn [value_in] in H; [destruct k; discriminate|].
  destruct (find _ _) as [e|] eqn:F; [discriminate|]. destruct k as [|k].
  - cbn in Hk. injection Hk as ->. apply in_map_iff in Hi. destruct Hi as (e & E & He). pose proof (find_none _ _ F e He) as Q.
    cbn in Q. rewrite E, Nat.eqb_refl in Q. discriminate.
  - exact (IH i H k l Hk Hi).
Qed.

(** ** The relation *)
Definition relm (n : nat) (o : option (bimap T1 T2)) (c : option (contents T1 T2)) : Prop :=
  match o, c with
  | Some b, Some l => inv (with_next n b) /\ storage b = l
  | None, None => True
  | _, _ => False
  end.
Definition rel (w : world T1 T2) (s : state T1 T2) : Prop :=
  Forall2 (relm (snd s)) (maps w) (fst s) /\ fresh w = snd s /\ uniq (fst s).

Lemma relm_mono : forall n m o c, n <= m -> relm n o c -> relm m o c.
Proof.
  intros n m [b|] [l|] H R; cbn in *; auto. destruct R as [R1 R2]. split; [|exact R2].
  rewrite <- (with_with b m n). apply inv_with; [exact R1|exact H].
Qed.
Lemma relm_empty : forall n m, relm n (Some (fresh_bimap m)) (Some []).
Proof. intros n m. split; [apply inv_empty|reflexivity]. Qed.
Lemma rel_bounded : forall w s, rel w s -> bounded (snd s) (fst s).
Proof.
  intros w s (F & _ & _) k l i Hk Hi. pose proof (F2_nth _ _ _ _ _ F k) as Q. rewrite Hk in Q.
  destruct (nth_error (maps w) k) as [[b|]|]; try contradiction. destruct Q as [I <-]. exact (inv_next _ _ _ I i Hi).
Qed.
Lemma rel_var : forall w s k, rel w s ->
  match var s k with
  | Some l => exists b, nth_error (maps w) k = Some (Some b) /\ inv (with_next (snd s) b) /\ storage b = l /\ nth_error (fst s) k = Some (Some l)
  | None => match nth_error (maps w) k with Some (Some _) => False | _ => True end
  end.
Proof.
  intros w s k (F & _ & _). pose proof (F2_nth _ _ _ _ _ F k) as Q. unfold var.
  destruct (nth_error (fst s) k) as [[l|]|] eqn:E; destruct (nth_error (maps w) k) as [[b|]|] eqn:E'; try contradiction; auto.
  exists b. destruct Q as [Q1 Q2]. auto.
Qed.
Lemma read_value : forall n ms ls i, Forall2 (relm n) ms ls -> read ms i = value_in ls i.
Proof.
  intros n ms ls i H. induction H as [|o c ms ls Hr H IH]; [reflexivity|]. cbn [read value_in].
  destruct o as [b|], c as [l|]; cbn [relm] in Hr; try contradiction.
  - destruct Hr as [_ <-]. unfold deref. destruct (find _ (storage b)) as [e|]; cbn [option_map]; auto.
  - cbn [find]. exact IH.
Qed.
Lemma rel_nodup : forall w s k l, rel w s -> nth_error (fst s) k = Some (Some l) -> NoDup (map fst l).
Proof.
  intros w s k l (F & _ & _) Hk. pose proof (F2_nth _ _ _ _ _ F k) as Q. rewrite Hk in Q.
  destruct (nth_error (maps w) k) as [[b|]|]; try contradiction. destruct Q as [I <-]. exact (inv_ids _ _ _ I).
Qed.
Lemma nodup_fun : forall (l : contents T1 T2) i p q, NoDup (map fst l) -> In (i, p) l -> In (i, q) l -> p = q.
Proof.
  intros l i p q N H1 H2. apply (find_assoc l i p N) in H1. apply (find_assoc l i q N) in H2. congruence.
Qed.
Lemma holds_iff : forall i (l : contents T1 T2), holds i l = true <-> In i (map fst l).
Proof.
  intros i l. unfold holds. rewrite existsb_exists, in_map_iff. split; intros (e & A & C); exists e.
  - apply Nat.eqb_eq in C. auto.
  - split; [exact C|]. apply Nat.eqb_eq. exact A.
Qed.

(** Replacing the contents of one variable by a part of them, plus pairs with fresh numbers. *)
Lemma uniq_replace : forall n ls k l o, uniq ls -> bounded n ls -> nth_error ls k = Some (Some l) ->
  (forall l' i, o = Some l' -> In i (map fst l') -> In i (map fst l) \/ n <= i) -> uniq (replace k o ls).
Proof.
  intros n ls k l o U B Hk H. apply (uniq_step ls _ n k (fun m => m) U B). intros m l' i Hm Hi. rewrite nth_replace in Hm.
  destruct (Nat.eqb_spec m k) as [Em|Ne].
  - subst m. rewrite Hk in Hm. injection Hm as ->. destruct (H l' i eq_refl Hi) as [Q|Q]; [right; exists k, l; auto|left; auto].
  - right. exists m, l'. auto.
Qed.

(** Erasing by a key that is read through a reference: what the last assertion finds. *)
Lemma value_after : forall ls k l l' i p, uniq ls -> (forall m c, nth_error ls m = Some (Some c) -> NoDup (map fst c)) ->
  nth_error ls k = Some (Some l) -> value_in ls i = Some p ->
  (forall j, In j (map fst l') -> In j (map fst l)) ->
  (In i (map fst l) -> ~ In i (map fst l')) ->
  value_in (replace k (Some l') ls) i = if holds i l then None else Some p.
Proof.
  intros ls k l l' i p U N Hk V Sub Gone.
  destruct (value_some ls i p V) as (m & c & Hm & Hc).
  destruct (value_in (replace k (Some l') ls) i) as [q|] eqn:W.
  - destruct (value_some _ _ _ W) as (m' & c' & Hm' & Hc'). rewrite nth_replace in Hm'.
    destruct (Nat.eqb_spec m' k) as [->|Ne].
    + rewrite Hk in Hm'. injection Hm' as <-. exfalso. apply (in_map fst) in Hc'. cbn in Hc'. apply Gone; [apply Sub|]; exact Hc'.
    + assert (m' = m) by (eapply (U m' m c' c i); eauto using (in_map fst); [apply (in_map fst) in Hc'; exact Hc'|apply (in_map fst) in Hc; exact Hc]).
      subst m'. rewrite Hm in Hm'. injection Hm' as ->.
      assert (q = p) by (eapply nodup_fun; [eapply N; exact Hm|exact Hc'|exact Hc]). subst q.
      destruct (holds i l) eqn:Hh; [|reflexivity]. exfalso. apply holds_iff in Hh. apply Ne.
      apply (in_map fst) in Hc. exact (U m k c' l i Hm Hk Hc Hh).
  - destruct (holds i l) eqn:Hh; [reflexivity|]. exfalso. assert (m <> k).
    { intros ->. rewrite Hk in Hm. injection Hm as <-. apply (in_map fst) in Hc. cbn [fst] in Hc. apply holds_iff in Hc. congruence. }
    apply (value_none _ _ W m c); [|apply (in_map fst) in Hc; exact Hc]. rewrite nth_replace.
    destruct (Nat.eqb_spec m k); [contradiction|exact Hm].
Qed.
Lemma set1_nil : forall b n, inv (with_next n b) -> (set1 b = [] <-> storage b = []).
Proof.
  intros b n I. pose proof (inv_p1 _ _ _ I) as P. unfold ids in P. cbn [with_next set1 storage] in P. split; intros H; rewrite H in P.
  - apply Permutation_nil in P. destruct (storage b); [reflexivity|discriminate].
  - apply Permutation_sym, Permutation_nil in P. exact P.
Qed.
Lemma set2_nil : forall b n, inv (with_next n b) -> (set2 b = [] <-> storage b = []).
Proof.
  intros b n I. pose proof (inv_p2 _ _ _ I) as P. unfold ids in P. cbn [with_next set2 storage] in P. split; intros H; rewrite H in P.
  - apply Permutation_nil in P. destruct (storage b); [reflexivity|discriminate].
  - apply Permutation_sym, Permutation_nil in P. exact P.
Qed.
Lemma erase1_with : forall n b x b', erase1_ndebug lt1 lt2 (with_next n b) x = Ok b' ->
  exists b0, erase1_ndebug lt1 lt2 b x = Ok b0 /\ with_next n b0 = b' /\ set1 b0 = set1 b' /\ set2 b0 = set2 b' /\ storage b0 = storage b'.
Proof.
  intros n b x b' E. unfold erase1_ndebug in *. change (find1 lt1 (with_next n b) x) with (find1 lt1 b x) in E.
  destruct (find1 lt1 b x) as [[i|]| | |]; cbn [obind] in *; try discriminate. unfold erase_pair in *.
  change (deref (with_next n b)) with (deref b) in E. destruct (deref b i) as [p|]; [|discriminate].
  cbn [with_next set1 set2 storage next] in E.
  destruct (ps_erase fst _ _ _ _); cbn [obind] in *; try discriminate.
  destruct (ps_erase snd _ _ _ _); cbn [obind] in *; try discriminate. injection E as <-.
  eexists. split; [reflexivity|]. repeat split; reflexivity.
Qed.
Lemma erase1_with_ub : forall n b x, erase1_ndebug lt1 lt2 (with_next n b) x = UB -> erase1_ndebug lt1 lt2 b x = UB.
Proof.
  intros n b x E. unfold erase1_ndebug in *. change (find1 lt1 (with_next n b) x) with (find1 lt1 b x) in E.
  destruct (find1 lt1 b x) as [[i|]| | |]; cbn [obind] in *; try discriminate; try reflexivity. unfold erase_pair in *.
  change (deref (with_next n b)) with (deref b) in E. destruct (deref b i) as [p|]; [|reflexivity].
  cbn [with_next set1 set2 storage next] in E.
  destruct (ps_erase fst _ _ _ _); cbn [obind] in *; try discriminate; try reflexivity.
  destruct (ps_erase snd _ _ _ _); cbn [obind] in *; try discriminate; reflexivity.
Qed.
Lemma erase2_with : forall n b x b', erase2_ndebug lt1 lt2 (with_next n b) x = Ok b' ->
  exists b0, erase2_ndebug lt1 lt2 b x = Ok b0 /\ with_next n b0 = b' /\ set1 b0 = set1 b' /\ set2 b0 = set2 b' /\ storage b0 = storage b'.
Proof.
  intros n b x b' E. unfold erase2_ndebug in *. change (find2 lt2 (with_next n b) x) with (find2 lt2 b x) in E.
  destruct (find2 lt2 b x) as [[i|]| | |]; cbn [obind] in *; try discriminate. unfold erase_pair in *.
  change (deref (with_next n b)) with (deref b) in E. destruct (deref b i) as [p|]; [|discriminate].
  cbn [with_next set1 set2 storage next] in E.
  destruct (ps_erase fst _ _ _ _); cbn [obind] in *; try discriminate.
  destruct (ps_erase snd _ _ _ _); cbn [obind] in *; try discriminate. injection E as <-.
  eexists. split; [reflexivity|]. repeat split; reflexivity.
Qed.
Lemma erase2_with_ub : forall n b x, erase2_ndebug lt1 lt2 (with_next n b) x = UB -> erase2_ndebug lt1 lt2 b x = UB.
Proof.
  intros n b x E. unfold erase2_ndebug in *. change (find2 lt2 (with_next n b) x) with (find2 lt2 b x) in E.
  destruct (find2 lt2 b x) as [[i|]| | |]; cbn [obind] in *; try discriminate; try reflexivity. unfold erase_pair in *.
  change (deref (with_next n b)) with (deref b) in E. destruct (deref b i) as [p|]; [|reflexivity].
  cbn [with_next set1 set2 storage next] in E.
  destruct (ps_erase fst _ _ _ _); cbn [obind] in *; try discriminate; try reflexivity.
  destruct (ps_erase snd _ _ _ _); cbn [obind] in *; try discriminate; reflexivity.
Qed.

Lemma w_step_spec : forall nd w s o, rel w s ->
  match w_spec eq1 eq2 (negb nd) s o with
  | Some s' => exists w', w_step lt1 lt2 nd w o = Ok w' /\ rel w' s'
  | None => nd = false -> w_step lt1 lt2 nd w o = UB
  end.
Proof.
  intros nd w s o R. pose proof (rel_bounded w s R) as B. destruct R as (F & Fr & U).
  assert (R : rel w s) by (split; [exact F|split; [exact Fr|exact U]]).
  destruct o as [ps|j|k j|k|k o|k i|k i]; cbn [w_spec w_step].
  - (* Construct *)
    pose proof (construct_named nd ps (fresh_bimap (snd s)) (inv_empty lt1 lt2 (snd s))) as C. cbn [fresh_bimap next storage] in C.
    rewrite Fr. change {| storage := []; set1 := []; set2 := []; next := snd s |} with (fresh_bimap (T1 := T1) (T2 := T2) (snd s)) in C.
    destruct (add_all eq1 eq2 (snd s) [] ps) as [[l n]|] eqn:A.
    + destruct C as (b' & E & I' & Sb & Nx). rewrite E. cbn [obind]. eexists. split; [reflexivity|].
      destruct (add_all_ids ps _ _ _ _ A) as [Le Ids]. split; [|split].
      * cbn [fst snd maps]. apply F2_snoc.
        -- eapply F2_impl; [|exact F]. intros x y. apply relm_mono. exact Le.
        -- split; [rewrite <- Nx, with_self; exact I'|exact Sb].
      * exact Nx.
      * cbn [fst]. apply (uniq_step (fst s) _ (snd s) (length (fst s)) (fun m => m) U B). intros m l' i Hm Hi.
        destruct (Nat.lt_ge_cases m (length (fst s))) as [Lt|Ge].
        -- rewrite nth_error_app1 in Hm by exact Lt. right. exists m, l'. auto.
        -- rewrite nth_error_app2 in Hm by exact Ge. destruct (m - length (fst s)) as [|d] eqn:D; [|destruct d; discriminate].
           cbn in Hm. injection Hm as <-. left. destruct (Ids i Hi) as [[]|Q]. split; [exact Q|lia].
    + intros N. rewrite (C N). reflexivity.
  - (* MoveConstruct *)
    pose proof (rel_var w s j R) as V. destruct (var s j) as [l|].
    + destruct V as (b & E & I & Sb & Hj). rewrite E. eexists. split; [reflexivity|]. split; [|split].
      * cbn [fst snd maps]. rewrite set_at_replace. apply F2_snoc; [apply F2_replace; [exact F|apply relm_empty]|]. split; assumption.
      * exact Fr.
      * cbn [fst]. apply (uniq_step (fst s) _ (snd s) 0 (fun m => if m =? j then length (fst s) else m) U B). intros m l' i Hm Hi. right.
        destruct (Nat.lt_ge_cases m (length (fst s))) as [Lt|Ge].
        -- rewrite nth_error_app1 in Hm by (rewrite replace_length; exact Lt). rewrite nth_replace in Hm.
           destruct (Nat.eqb_spec m j) as [->|Ne].
           ++ rewrite Hj in Hm. injection Hm as <-. destruct Hi.
           ++ exists m, l'. apply Nat.eqb_neq in Ne. rewrite Ne. auto.
        -- rewrite nth_error_app2 in Hm by (rewrite replace_length; exact Ge). rewrite replace_length in Hm.
           destruct (m - length (fst s)) as [|d] eqn:D; [|destruct d; discriminate].
           cbn in Hm. injection Hm as <-. exists j, l. rewrite Nat.eqb_refl. split; [lia|auto].
    + intros _. destruct (nth_error (maps w) j) as [[b|]|]; [contradiction|reflexivity|reflexivity].
  - (* MoveAssign *)
    pose proof (rel_var w s k R) as Vk. pose proof (rel_var w s j R) as V. destruct (var s k) as [lk|].
    2:{ intros _. destruct (nth_error (maps w) k) as [[b|]|]; [contradiction|reflexivity|reflexivity]. }
    destruct Vk as (bk & Ek & Ik & Sk & Hk). rewrite Ek. destruct (var s j) as [l|].
    2:{ intros _. destruct (nth_error (maps w) j) as [[b|]|]; [contradiction|reflexivity|reflexivity]. }
    destruct V as (b & E & I & Sb & Hj). rewrite E. eexists. split; [reflexivity|]. split; [|split].
    + cbn [fst snd maps]. rewrite !set_at_replace. apply F2_replace; [apply F2_replace; [exact F|split; assumption]|apply relm_empty].
    + exact Fr.
    + cbn [fst]. apply (uniq_step (fst s) _ (snd s) 0 (fun m => if m =? j then k else m) U B). intros m l' i Hm Hi. right.
      rewrite !nth_replace in Hm. destruct (Nat.eqb_spec m j) as [->|Ne].
      * destruct (j =? k) in Hm; rewrite Hj in Hm; injection Hm as <-; destruct Hi.
      * destruct (Nat.eqb_spec m k) as [->|Nk].
        -- rewrite Hk in Hm. injection Hm as <-. exists j, l. rewrite Nat.eqb_refl. auto.
        -- exists m, l'. apply Nat.eqb_neq in Ne. rewrite Ne. auto.
  - (* Destroy *)
    pose proof (rel_var w s k R) as V. destruct (var s k) as [l|].
    + destruct V as (b & E & I & Sb & Hk). rewrite E. eexists. split; [reflexivity|]. split; [|split].
      * cbn [fst snd maps]. rewrite set_at_replace. apply F2_replace; [exact F|exact Logic.I].
      * exact Fr.
      * cbn [fst]. eapply (uniq_replace (snd s)); [exact U|exact B|exact Hk|]. intros l' i Q. discriminate.
    + intros _. destruct (nth_error (maps w) k) as [[b|]|]; [contradiction|reflexivity|reflexivity].
  - (* Call *)
    pose proof (rel_var w s k R) as V. destruct (var s k) as [l|].
    2:{ intros _. destruct (nth_error (maps w) k) as [[b|]|]; [contradiction|reflexivity|reflexivity]. }
    destruct V as (b & E & I & Sb & Hk). rewrite E, Fr. pose proof (call_named nd (with_next (snd s) b) o I) as C.
    cbn [with_next next storage] in C. rewrite Sb in C.
    change {| storage := storage b; set1 := set1 b; set2 := set2 b; next := snd s |} with (with_next (snd s) b) in C.
    destruct (called eq1 eq2 (snd s) l o) as [[l' n]|] eqn:A.
    + destruct C as (b' & E' & I' & Sb' & Nx). rewrite E'. cbn [obind]. eexists. split; [reflexivity|].
      destruct (called_ids _ _ _ _ _ A) as [Le Ids]. split; [|split].
      * cbn [fst snd maps]. rewrite set_at_replace. apply F2_replace.
        -- eapply F2_impl; [|exact F]. intros x y. apply relm_mono. exact Le.
        -- split; [rewrite <- Nx, with_self; exact I'|exact Sb'].
      * exact Nx.
      * cbn [fst]. eapply (uniq_replace (snd s)); [exact U|exact B|exact Hk|]. intros l0 i Q. injection Q as <-. apply Ids.
    + intros N. rewrite (C N). reflexivity.
  - (* EraseRef1 *)
    pose proof (rel_var w s k R) as V. destruct (var s k) as [l|].
    2:{ intros _. destruct (nth_error (maps w) k) as [[b|]|]; [contradiction|reflexivity|reflexivity]. }
    destruct V as (b & E & I & Sb & Hk). rewrite E, (read_value (snd s) (maps w) (fst s) i F). unfold value.
    destruct (value_in (fst s) i) as [[x y]|] eqn:Vi; [|intros _; reflexivity]. cbn [fst].
    pose proof (erase1_named (with_next (snd s) b) x I) as Er. cbn [with_next storage next] in Er. rewrite Sb in Er.
    destruct (has_first eq1 x l) eqn:Hx; cbn [andb].
    2:{ intros _. rewrite (erase1_with_ub (snd s) b x); [reflexivity|]. exact Er. }
    destruct Er as (b' & E' & I' & Sb' & Nx & Hh & Len).
    destruct (erase1_with (snd s) b x b' E') as (b0 & E0 & W0 & S10 & S20 & St0).
    rewrite E0. cbn [obind]. cbv zeta.
    assert (I0 : inv (with_next (snd s) b0)).
    { rewrite W0. exact I'. }
    assert (F' : Forall2 (relm (snd s)) (set_at k (Some b0) (maps w)) (replace k (Some (drop_first eq1 x l)) (fst s))).
    { rewrite set_at_replace. apply F2_replace; [exact F|]. split; [exact I0|]. rewrite St0. exact Sb'. }
    assert (Ids : forall j, In j (map fst (drop_first eq1 x l)) -> In j (map fst l)) by (intros j; apply filter_ids).
    assert (Rel' : rel {| maps := set_at k (Some b0) (maps w); fresh := fresh w |} (replace k (Some (drop_first eq1 x l)) (fst s), snd s)).
    { split; [exact F'|]. split; [exact Fr|]. cbn [fst]. eapply (uniq_replace (snd s)); [exact U|exact B|exact Hk|].
      intros l0 m Q Hm. injection Q as <-. left. apply Ids. exact Hm. }
    assert (Va : value_in (replace k (Some (drop_first eq1 x l)) (fst s)) i = if holds i l then None else Some (x, y)).
    { apply (value_after (fst s) k l); [exact U|intros m c Hm; eapply rel_nodup; [exact R|exact Hm]|exact Hk|exact Vi|exact Ids|].
      intros Hi Hd. destruct (value_some _ _ _ Vi) as (m & c & Hm & Hc).
      assert (m = k) by (apply (in_map fst) in Hc; exact (U m k c l i Hm Hk Hc Hi)). subst m. rewrite Hk in Hm. injection Hm as <-.
      apply in_map_iff in Hd. destruct Hd as ([i' q] & Ei & Hq). cbn in Ei. subst i'. apply filter_In in Hq. destruct Hq as [Hq Hn].
      assert (q = (x, y)) by (eapply nodup_fun; [eapply rel_nodup; [exact R|exact Hk]|exact Hq|exact Hc]). subst q. cbn [fst snd] in Hn.
      rewrite (proj2 (st_eqb _ _ ST1 x x) eq_refl) in Hn. discriminate. }
    assert (Hh0 : has1 lt1 b0 x = Ok false).
    { rewrite <- Hh, <- W0. reflexivity. }
    assert (Nil : set1 b0 = [] <-> length l = 1).
    { rewrite (set1_nil b0 (snd s) I0), St0, Sb'. rewrite Sb' in Len. split; intros Q.
      - rewrite Q in Len. rewrite <- Len. reflexivity.
      - destruct (drop_first eq1 x l); [reflexivity|]. cbn [length] in Len. lia. }
    destruct nd.
    + cbn [negb allowed andb]. cbn [obind]. eexists. split; [reflexivity|exact Rel'].
    + cbn [negb]. unfold allowed. cbn [andb]. unfold recheck1. rewrite (read_value (snd s) _ _ i F'), Va.
      destruct (holds i l) eqn:Ho; cbn [andb].
      * destruct (Nat.eqb_spec (length l) 1) as [L1|L1]; cbn [negb].
        -- destruct (set1 b0) eqn:S1; [|exfalso; apply Nil in L1; discriminate]. cbn [obind]. eexists. split; [reflexivity|exact Rel'].
        -- intros _. destruct (set1 b0) eqn:S1; [exfalso; apply L1, Nil; reflexivity|]. reflexivity.
      * cbn [negb]. cbn [fst]. rewrite Hh0. destruct (set1 b0); cbn [obind]; (eexists; split; [reflexivity|exact Rel']).
  - (* EraseRef2 *)
    pose proof (rel_var w s k R) as V. destruct (var s k) as [l|].
    2:{ intros _. destruct (nth_error (maps w) k) as [[b|]|]; [contradiction|reflexivity|reflexivity]. }
    destruct V as (b & E & I & Sb & Hk). rewrite E, (read_value (snd s) (maps w) (fst s) i F). unfold value.
    destruct (value_in (fst s) i) as [[x y]|] eqn:Vi; [|intros _; reflexivity]. cbn [snd].
    pose proof (erase2_named (with_next (snd s) b) y I) as Er. cbn [with_next storage next] in Er. rewrite Sb in Er.
    destruct (has_second eq2 y l) eqn:Hx; cbn [andb].
    2:{ intros _. rewrite (erase2_with_ub (snd s) b y); [reflexivity|]. exact Er. }
    destruct Er as (b' & E' & I' & Sb' & Nx & Hh & Len).
    destruct (erase2_with (snd s) b y b' E') as (b0 & E0 & W0 & S10 & S20 & St0).
    rewrite E0. cbn [obind]. cbv zeta.
    assert (I0 : inv (with_next (snd s) b0)).
    { rewrite W0. exact I'. }
    assert (F' : Forall2 (relm (snd s)) (set_at k (Some b0) (maps w)) (replace k (Some (drop_second eq2 y l)) (fst s))).
    { rewrite set_at_replace. apply F2_replace; [exact F|]. split; [exact I0|]. rewrite St0. exact Sb'. }
    assert (Ids : forall j, In j (map fst (drop_second eq2 y l)) -> In j (map fst l)) by (intros j; apply filter_ids).
    assert (Rel' : rel {| maps := set_at k (Some b0) (maps w); fresh := fresh w |} (replace k (Some (drop_second eq2 y l)) (fst s), snd s)).
    { split; [exact F'|]. split; [exact Fr|]. cbn [fst]. eapply (uniq_replace (snd s)); [exact U|exact B|exact Hk|].
      intros l0 m Q Hm. injection Q as <-. left. apply Ids. exact Hm. }
    assert (Va : value_in (replace k (Some (drop_second eq2 y l)) (fst s)) i = if holds i l then None else Some (x, y)).
    { apply (value_after (fst s) k l); [exact U|intros m c Hm; eapply rel_nodup; [exact R|exact Hm]|exact Hk|exact Vi|exact Ids|].
      intros Hi Hd. destruct (value_some _ _ _ Vi) as (m & c & Hm & Hc).
      assert (m = k) by (apply (in_map fst) in Hc; exact (U m k c l i Hm Hk Hc Hi)). subst m. rewrite Hk in Hm. injection Hm as <-.
      apply in_map_iff in Hd. destruct Hd as ([i' q] & Ei & Hq). cbn in Ei. subst i'. apply filter_In in Hq. destruct Hq as [Hq Hn].
      assert (q = (x, y)) by (eapply nodup_fun; [eapply rel_nodup; [exact R|exact Hk]|exact Hq|exact Hc]). subst q. cbn [fst snd] in Hn.
      rewrite (proj2 (st_eqb _ _ ST2 y y) eq_refl) in Hn. discriminate. }
    assert (Hh0 : has2 lt2 b0 y = Ok false).
    { rewrite <- Hh, <- W0. reflexivity. }
    assert (Nil : set2 b0 = [] <-> length l = 1).
    { rewrite (set2_nil b0 (snd s) I0), St0, Sb'. rewrite Sb' in Len. split; intros Q.
      - rewrite Q in Len. rewrite <- Len. reflexivity.
      - destruct (drop_second eq2 y l); [reflexivity|]. cbn [length] in Len. lia. }
    destruct nd.
    + cbn [negb allowed andb]. cbn [obind]. eexists. split; [reflexivity|exact Rel'].
    + cbn [negb]. unfold allowed. cbn [andb]. unfold recheck2. rewrite (read_value (snd s) _ _ i F'), Va.
      destruct (holds i l) eqn:Ho; cbn [andb].
      * destruct (Nat.eqb_spec (length l) 1) as [L1|L1]; cbn [negb].
        -- destruct (set2 b0) eqn:S1; [|exfalso; apply Nil in L1; discriminate]. cbn [obind]. eexists. split; [reflexivity|exact Rel'].
        -- intros _. destruct (set2 b0) eqn:S1; [exfalso; apply L1, Nil; reflexivity|]. reflexivity.
      * cbn [negb]. cbn [snd]. rewrite Hh0. destruct (set2 b0); cbn [obind]; (eexists; split; [reflexivity|exact Rel']).
Qed.

Lemma w_run_spec : forall nd h w s, rel w s ->
  match w_specs eq1 eq2 (negb nd) s h with
  | Some s' => exists w', w_run lt1 lt2 nd w h = Ok w' /\ rel w' s'
  | None => nd = false -> w_run lt1 lt2 nd w h = UB
  end.
Proof.
  intros nd. induction h as [|o h IH]; intros w s R.
  - exists w. auto.
  - cbn [w_specs w_run]. pose proof (w_step_spec nd w s o R) as S. destruct (w_spec eq1 eq2 (negb nd) s o) as [s'|].
    + destruct S as (w' & E & R'). rewrite E. cbn [obind]. apply IH. exact R'.
    + intros N. rewrite (S N). reflexivity.
Qed.
Lemma rel_start : rel empty_world ([], 0).
Proof. split; [constructor|]. split; [reflexivity|]. intros k j lk lj i Hk. destruct k; discriminate. Qed.

Lemma answers_inv : forall b, inv b -> answers eq1 eq2 lt1 lt2 b (pairs b).
Proof.
  intros b I. destruct (nodup_map_inj lt1 eq1 lt2 eq2 ST1 ST2 b I) as [N1 N2].
  destruct (at_spec lt1 eq1 lt2 eq2 ST1 ST2 b I) as (A1 & A2 & _ & _).
  split; [reflexivity|]. split; [unfold size, pairs; rewrite map_length; reflexivity|]. split; [exact N1|]. split; [exact N2|].
  split; [exact A1|]. split; [exact A2|]. split; [intros x|intros y].
  - rewrite (has1_spec lt1 eq1 lt2 ST1 b x I). reflexivity.
  - rewrite (has2_spec lt1 lt2 eq2 ST2 b y I). reflexivity.
Qed.
Lemma answers_with : forall n b l, answers eq1 eq2 lt1 lt2 (with_next n b) l -> answers eq1 eq2 lt1 lt2 b l.
Proof. intros n b l H. exact H. Qed.

Lemma histories : forall nd h,
  match w_specs eq1 eq2 (negb nd) ([], 0) h with
  | Some s => exists w, w_run lt1 lt2 nd empty_world h = Ok w /\
      length (maps w) = length (fst s) /\
      (forall i, read (maps w) i = value s i) /\
      forall k, match nth_error (maps w) k with
        | Some (Some b) => exists l, var s k = Some l /\ answers eq1 eq2 lt1 lt2 b (map snd l)
        | _ => var s k = None
        end
  | None => nd = false -> w_run lt1 lt2 nd empty_world h = UB
  end.
Proof.
  intros nd h. pose proof (w_run_spec nd h empty_world ([], 0) rel_start) as H.
  destruct (w_specs eq1 eq2 (negb nd) ([], 0) h) as [s|]; [|exact H]. destruct H as (w & E & R). exists w. split; [exact E|].
  split; [exact (F2_len _ _ _ _ _ (proj1 R))|]. split; [intros i; exact (read_value _ _ _ i (proj1 R))|].
  intros k. pose proof (rel_var w s k R) as V. destruct (var s k) as [l|].
  - destruct V as (b & Eb & I & Sb & _). rewrite Eb. exists l. split; [reflexivity|]. rewrite <- Sb.
    apply (answers_with (snd s)). exact (answers_inv _ I).
  - destruct (nth_error (maps w) k) as [[b|]|]; [contradiction|reflexivity|reflexivity].
Qed.

(** Both builds behave alike unless a key of the bimap itself is used to erase one of several pairs. *)
Lemma specs_weaken : forall h s s', w_specs eq1 eq2 true s h = Some s' -> w_specs eq1 eq2 false s h = Some s'.
Proof.
  assert (St : forall s o s', w_spec eq1 eq2 true s o = Some s' -> w_spec eq1 eq2 false s o = Some s').
  { intros s o s' H. destruct o; cbn [w_spec] in *; try exact H.
    - destruct (var s k) as [c|]; [|discriminate]. destruct (value s i) as [[x y]|]; [|discriminate].
      destruct (has_first eq1 x c); [|discriminate]. cbn [andb] in *. destruct (allowed true i c); [exact H|discriminate].
    - destruct (var s k) as [c|]; [|discriminate]. destruct (value s i) as [[x y]|]; [|discriminate].
      destruct (has_second eq2 y c); [|discriminate]. cbn [andb] in *. destruct (allowed true i c); [exact H|discriminate]. }
  induction h as [|o h IH]; intros s s' H; [exact H|]. cbn [w_specs] in *.
  destruct (w_spec eq1 eq2 true s o) as [s1|] eqn:E; [|discriminate]. rewrite (St _ _ _ E). apply IH. exact H.
Qed.
(** The two builds produce the very same bimaps. *)
Lemma step_agree : forall w s o s', rel w s -> w_spec eq1 eq2 true s o = Some s' ->
  w_step lt1 lt2 true w o = w_step lt1 lt2 false w o.
Proof.
  intros w s o s' R H. pose proof (rel_bounded w s R) as B.
  assert (Em : forall b x y, inv b -> has_first eq1 x (storage b) || has_second eq2 y (storage b) = false ->
    call lt1 lt2 true b (Emplace x y) = call lt1 lt2 false b (Emplace x y)).
  { intros b x y I X. cbn [call bm_step]. unfold emplace. rewrite (has1_spec lt1 eq1 lt2 ST1 b x I), (has2_spec lt1 lt2 eq2 ST2 b y I).
    cbn [obind]. rewrite has_first_iff, has_second_iff in X. change (map snd (storage b)) with (pairs b) in X. rewrite X. reflexivity. }
  destruct o as [ps|j|k j|k|k o|k i|k i]; cbn [w_spec w_step] in *; try reflexivity.
  - f_equal. assert (G : forall qs b r, inv b -> add_all eq1 eq2 (next b) (storage b) qs = Some r ->
      construct lt1 lt2 true b qs = construct lt1 lt2 false b qs).
    { clear H. induction qs as [|[x y] qs IH]; intros b r I Hr; [reflexivity|]. cbn [add_all construct fst snd] in *.
      pose proof (emplace_named true b x y I) as E. destruct (add eq1 eq2 (next b) (storage b) x y) as [[l n]|] eqn:A; [|discriminate].
      unfold add in A. destruct (has_first eq1 x (storage b) || has_second eq2 y (storage b)) eqn:X; [discriminate|].
      rewrite <- (Em b x y I X). destruct E as (b' & E & I' & <- & <-). rewrite E. cbn [obind]. eapply IH; [exact I'|exact Hr]. }
    destruct (add_all eq1 eq2 (snd s) [] ps) as [r|] eqn:A; [|discriminate].
    eapply (G ps (fresh_bimap (fresh w)) r); [apply inv_empty|]. cbn [fresh_bimap next storage]. rewrite (proj1 (proj2 R)). exact A.
  - pose proof (rel_var w s k R) as V. destruct (var s k) as [l|]; [|discriminate].
    destruct V as (b & E & I & Sb & _). rewrite E. f_equal. rewrite (proj1 (proj2 R)).
    destruct (called eq1 eq2 (snd s) l o) as [[l' n]|] eqn:A; [|discriminate].
    destruct o as [x y|x|y|]; cbn [called] in A.
    + apply Em; [exact I|]. unfold add in A. rewrite <- Sb in A. cbn [with_next storage].
      destruct (has_first eq1 x (storage b) || has_second eq2 y (storage b)); [discriminate|reflexivity].
    + pose proof (erase1_named (with_next (snd s) b) x I) as Q. cbn [with_next storage] in Q. rewrite Sb in Q.
      destruct (has_first eq1 x l); [|discriminate]. destruct Q as (b' & Q & _ & _ & _ & Hh & _).
      cbn [call bm_step]. rewrite erase1_split. rewrite Q. cbn [obind]. rewrite Hh. reflexivity.
    + pose proof (erase2_named (with_next (snd s) b) y I) as Q. cbn [with_next storage] in Q. rewrite Sb in Q.
      destruct (has_second eq2 y l); [|discriminate]. destruct Q as (b' & Q & _ & _ & _ & Hh & _).
      cbn [call bm_step]. rewrite erase2_split. rewrite Q. cbn [obind]. rewrite Hh. reflexivity.
    + reflexivity.
  - pose proof (w_step_spec false w s (EraseRef1 k i) R) as D. cbn [w_spec negb] in D. rewrite H in D. destruct D as (w' & D & _).
    cbn [w_step] in D. destruct (nth_error (maps w) k) as [[b|]|]; try discriminate. destruct (read (maps w) i) as [p|]; [|discriminate].
    destruct (erase1_ndebug lt1 lt2 b (fst p)) as [b'| | |]; cbn [obind] in *; try discriminate. cbv zeta in *.
    destruct (recheck1 _ _ _ _) as [[]| | |]; cbn [obind] in *; try discriminate. reflexivity.
  - pose proof (w_step_spec false w s (EraseRef2 k i) R) as D. cbn [w_spec negb] in D. rewrite H in D. destruct D as (w' & D & _).
    cbn [w_step] in D. destruct (nth_error (maps w) k) as [[b|]|]; try discriminate. destruct (read (maps w) i) as [p|]; [|discriminate].
    destruct (erase2_ndebug lt1 lt2 b (snd p)) as [b'| | |]; cbn [obind] in *; try discriminate. cbv zeta in *.
    destruct (recheck2 _ _ _ _) as [[]| | |]; cbn [obind] in *; try discriminate. reflexivity.
Qed.
Lemma builds_agree : forall h w, w_run lt1 lt2 false empty_world h = Ok w -> w_run lt1 lt2 true empty_world h = Ok w.
Proof.
  assert (G : forall h w0 s0 w, rel w0 s0 -> w_run lt1 lt2 false w0 h = Ok w -> w_run lt1 lt2 true w0 h = Ok w).
  { induction h as [|o h IH]; intros w0 s0 w R H; [exact H|]. cbn [w_run] in *.
    pose proof (w_step_spec false w0 s0 o R) as S. cbn [negb] in S. destruct (w_spec eq1 eq2 true s0 o) as [s1|] eqn:E.
    - rewrite (step_agree w0 s0 o s1 R E). destruct S as (w1 & E1 & R1). rewrite E1 in *. cbn [obind] in *. eapply IH; [exact R1|exact H].
    - rewrite (S eq_refl) in H. discriminate. }
  intros h w H. exact (G h empty_world ([], 0) w rel_start H).
Qed.

(** ** Writing through a reference *)
Lemma ids_write2 : forall (b : bimap T1 T2) i y, ids (write2 b i y) = ids b.
Proof.
  intros b i y. unfold ids, write2. cbn [storage]. rewrite map_map. apply map_ext. intros [j p]. cbn. destruct (j =? i); reflexivity.
Qed.
Lemma ids_write1 : forall (b : bimap T1 T2) i x, ids (write1 b i x) = ids b.
Proof.
  intros b i y. unfold ids, write1. cbn [storage]. rewrite map_map. apply map_ext. intros [j p]. cbn. destruct (j =? i); reflexivity.
Qed.
Lemma find_map_entry : forall (f : nat * (T1 * T2) -> nat * (T1 * T2)) j, (forall e, fst (f e) = fst e) ->
  forall l, find (fun e => fst e =? j) (map f l) = option_map f (find (fun e => fst e =? j) l).
Proof.
  intros f j Hf. induction l as [|e l IH]; [reflexivity|]. cbn [map find]. rewrite Hf. destruct (fst e =? j); [reflexivity|exact IH].
Qed.
Lemma deref_write2 : forall (b : bimap T1 T2) i y j,
  deref (write2 b i y) j = if j =? i then option_map (fun p => (fst p, y)) (deref b j) else deref b j.
Proof.
  intros b i y j. unfold deref, write2. cbn [storage]. rewrite find_map_entry by (intros [k p]; cbn; destruct (k =? i); reflexivity).
  destruct (find (fun e => fst e =? j) (storage b)) as [[k p]|] eqn:E; cbn [option_map].
  - apply find_some in E. destruct E as [_ E]. cbn in E. apply Nat.eqb_eq in E. subst k. cbn. destruct (j =? i); reflexivity.
  - destruct (j =? i); reflexivity.
Qed.
Lemma deref_write1 : forall (b : bimap T1 T2) i x j,
  deref (write1 b i x) j = if j =? i then option_map (fun p => (x, snd p)) (deref b j) else deref b j.
Proof.
  intros b i y j. unfold deref, write1. cbn [storage]. rewrite find_map_entry by (intros [k p]; cbn; destruct (k =? i); reflexivity).
  destruct (find (fun e => fst e =? j) (storage b)) as [[k p]|] eqn:E; cbn [option_map].
  - apply find_some in E. destruct E as [_ E]. cbn in E. apply Nat.eqb_eq in E. subst k. cbn. destruct (j =? i); reflexivity.
  - destruct (j =? i); reflexivity.
Qed.
Lemma ordered_impl : forall A (R S : A -> A -> Prop) l, (forall a b, In a l -> In b l -> a <> b -> R a b -> S a b) -> NoDup l -> ordered R l -> ordered S l.
Proof.
  intros A R S l. induction l as [|a l IH]; intros H N O; [exact I|]. destruct O as [Oa O]. inversion N; subst. split.
  - intros b Hb. apply H; [left; reflexivity|right; exact Hb|intros ->; contradiction|apply Oa; exact Hb].
  - apply IH; [|assumption|exact O]. intros u v Hu Hv. apply H; right; assumption.
Qed.

Lemma write2_inv : forall b i x y y', inv b -> In (i, (x, y)) (storage b) ->
  (forall j q, In (j, q) (storage b) -> j <> i -> lt2 (snd q) y = lt2 (snd q) y' /\ lt2 y (snd q) = lt2 y' (snd q)) ->
  inv (write2 b i y').
Proof.
  intros b i x y y' I Hi Hy. pose proof I as [A B C D E F].
  assert (Di : deref b i = Some (x, y)) by (apply (deref_iff lt1 lt2); assumption).
  assert (Nd1 : NoDup (set1 b)) by (eapply Permutation_NoDup; [apply Permutation_sym; exact C|exact A]).
  assert (Nd2 : NoDup (set2 b)) by (eapply Permutation_NoDup; [apply Permutation_sym; exact D|exact A]).
  constructor; try (rewrite ids_write2); auto.
  - destruct E as [L O]. split.
    + intros j Hj. rewrite deref_write2. specialize (L j Hj). destruct (deref b j); [destruct (j =? i); discriminate|contradiction].
    + cbn [write2 set1]. eapply ordered_impl; [|exact Nd1|exact O]. cbn beta. intros u v Hu Hv Ne G p q Hp Hq. rewrite deref_write2 in Hp, Hq.
      assert (Hp' : exists p0, deref b u = Some p0 /\ fst p0 = fst p).
      { destruct (u =? i); [destruct (deref b u) as [p0|]; cbn in Hp; [injection Hp as <-; exists p0; auto|discriminate]|exists p; auto]. }
      assert (Hq' : exists q0, deref b v = Some q0 /\ fst q0 = fst q).
      { destruct (v =? i); [destruct (deref b v) as [q0|]; cbn in Hq; [injection Hq as <-; exists q0; auto|discriminate]|exists q; auto]. }
      destruct Hp' as (p0 & P1 & P2). destruct Hq' as (q0 & Q1 & Q2). rewrite <- P2, <- Q2. apply G; assumption.
  - destruct F as [L O]. split.
    + intros j Hj. rewrite deref_write2. specialize (L j Hj). destruct (deref b j); [destruct (j =? i); discriminate|contradiction].
    + cbn [write2 set2]. eapply ordered_impl; [|exact Nd2|exact O]. cbn beta. intros u v Hu Hv Ne G p q Hp Hq. rewrite deref_write2 in Hp, Hq.
      destruct (Nat.eqb_spec u i) as [->|Nu]; destruct (Nat.eqb_spec v i) as [->|Nv].
      * congruence.
      * rewrite Di in Hp. cbn in Hp. injection Hp as <-. cbn [snd]. specialize (G _ _ Di Hq). cbn [snd] in G.
        rewrite <- (proj2 (Hy v q (proj1 (deref_iff lt1 lt2 b v q I) Hq) Nv)). exact G.
      * rewrite Di in Hq. cbn in Hq. injection Hq as <-. cbn [snd]. specialize (G _ _ Hp Di). cbn [snd] in G.
        rewrite <- (proj1 (Hy u p (proj1 (deref_iff lt1 lt2 b u p I) Hp) Nu)). exact G.
      * apply G; assumption.
Qed.
Lemma write1_inv : forall b i x y x', inv b -> In (i, (x, y)) (storage b) ->
  (forall j q, In (j, q) (storage b) -> j <> i -> lt1 (fst q) x = lt1 (fst q) x' /\ lt1 x (fst q) = lt1 x' (fst q)) ->
  inv (write1 b i x').
Proof.
  intros b i x y y' I Hi Hy. pose proof I as [A B C D E F].
  assert (Di : deref b i = Some (x, y)) by (apply (deref_iff lt1 lt2); assumption).
  assert (Nd1 : NoDup (set1 b)) by (eapply Permutation_NoDup; [apply Permutation_sym; exact C|exact A]).
  assert (Nd2 : NoDup (set2 b)) by (eapply Permutation_NoDup; [apply Permutation_sym; exact D|exact A]).
  constructor; try (rewrite ids_write1); auto.
  - destruct E as [L O]. split.
    + intros j Hj. rewrite deref_write1. specialize (L j Hj). destruct (deref b j); [destruct (j =? i); discriminate|contradiction].
    + cbn [write1 set1]. eapply ordered_impl; [|exact Nd1|exact O]. cbn beta. intros u v Hu Hv Ne G p q Hp Hq. rewrite deref_write1 in Hp, Hq.
      destruct (Nat.eqb_spec u i) as [->|Nu]; destruct (Nat.eqb_spec v i) as [->|Nv].
      * congruence.
      * rewrite Di in Hp. cbn in Hp. injection Hp as <-. cbn [fst]. specialize (G _ _ Di Hq). cbn [fst] in G.
        rewrite <- (proj2 (Hy v q (proj1 (deref_iff lt1 lt2 b v q I) Hq) Nv)). exact G.
      * rewrite Di in Hq. cbn in Hq. injection Hq as <-. cbn [fst]. specialize (G _ _ Hp Di). cbn [fst] in G.
        rewrite <- (proj1 (Hy u p (proj1 (deref_iff lt1 lt2 b u p I) Hp) Nu)). exact G.
      * apply G; assumption.
  - destruct F as [L O]. split.
    + intros j Hj. rewrite deref_write1. specialize (L j Hj). destruct (deref b j); [destruct (j =? i); discriminate|contradiction].
    + cbn [write1 set2]. eapply ordered_impl; [|exact Nd2|exact O]. cbn beta. intros u v Hu Hv Ne G p q Hp Hq. rewrite deref_write1 in Hp, Hq.
      assert (Hp' : exists p0, deref b u = Some p0 /\ snd p0 = snd p).
      { destruct (u =? i); [destruct (deref b u) as [p0|]; cbn in Hp; [injection Hp as <-; exists p0; auto|discriminate]|exists p; auto]. }
      assert (Hq' : exists q0, deref b v = Some q0 /\ snd q0 = snd q).
      { destruct (v =? i); [destruct (deref b v) as [q0|]; cbn in Hq; [injection Hq as <-; exists q0; auto|discriminate]|exists q; auto]. }
      destruct Hp' as (p0 & P1 & P2). destruct Hq' as (q0 & Q1 & Q2). rewrite <- P2, <- Q2. apply G; assumption.
Qed.

Lemma reached : forall h l b, spec_run eq1 eq2 [] h = Some l -> bm_run lt1 lt2 empty_bimap h = Ok b -> inv b /\ pairs b = l.
Proof.
  intros h l b Hl Hb. pose proof (run_spec lt1 eq1 lt2 eq2 ST1 ST2 h empty_bimap (inv_empty lt1 lt2 0)) as R.
  change (pairs empty_bimap) with (@nil (T1 * T2)) in R. rewrite Hl in R. destruct R as (b0 & E & I & P).
  rewrite Hb in E. injection E as <-. auto.
Qed.

Lemma written2 : forall h l b x y y' i h2, spec_run eq1 eq2 [] h = Some l -> bm_run lt1 lt2 empty_bimap h = Ok b ->
  In (x, y) l -> find1 lt1 b x = Ok (Some i) ->
  (forall p, In p l -> p <> (x, y) -> lt2 (snd p) y = lt2 (snd p) y' /\ lt2 y (snd p) = lt2 y' (snd p)) ->
  match spec_run eq1 eq2 (map (fun p => if eq1 (fst p) x then (fst p, y') else p) l) h2 with
  | Some l2 => exists b2, bm_run lt1 lt2 (write2 b i y') h2 = Ok b2 /\ answers eq1 eq2 lt1 lt2 b2 l2
  | None => bm_run lt1 lt2 (write2 b i y') h2 = UB
  end.
Proof.
  intros h l b x y y' i h2 Hl Hb Hin Hf Hord. destruct (reached h l b Hl Hb) as [I P].
  assert (Hi : In (i, (x, y)) (storage b)).
  { destruct (find1_spec lt1 eq1 lt2 ST1 b x I) as [(i0 & p & H1 & H2 & H3 & H4)|(N & F)]; [|congruence].
    rewrite Hf in H3. injection H3 as <-. rewrite <- P in Hin. unfold pairs in Hin. apply in_map_iff in Hin.
    destruct Hin as ([j q] & Eq & Hq). cbn in Eq. subst q.
    assert (j = i) by (eapply (same1 lt1 eq1 lt2 ST1 b); [exact I|exact Hq|exact H1|symmetry; exact H2]). subst j. exact Hq. }
  assert (I' : inv (write2 b i y')).
  { eapply (write2_inv b i x y y' I Hi). intros j q Hq Ne. apply Hord.
    - rewrite <- P. apply (in_map snd) in Hq. exact Hq.
    - intros ->. apply Ne. eapply (same1 lt1 eq1 lt2 ST1 b); [exact I|exact Hq|exact Hi|reflexivity]. }
  assert (P' : pairs (write2 b i y') = map (fun p => if eq1 (fst p) x then (fst p, y') else p) l).
  { rewrite <- P. unfold pairs, write2. cbn [storage]. rewrite !map_map. apply map_ext_in. intros [j [u v]] Hj. cbn [fst snd].
    destruct (Nat.eqb_spec j i) as [->|Ne].
    - assert (Q : (u, v) = (x, y)) by (eapply nodup_fun; [exact (inv_ids _ _ b I)|exact Hj|exact Hi]). injection Q as -> ->.
      rewrite (proj2 (st_eqb _ _ ST1 x x) eq_refl). reflexivity.
    - destruct (eq1 u x) eqn:Q; [|reflexivity]. apply (st_eqb _ _ ST1) in Q. subst u. exfalso. apply Ne.
      eapply (same1 lt1 eq1 lt2 ST1 b); [exact I|exact Hj|exact Hi|reflexivity]. }
  pose proof (run_spec lt1 eq1 lt2 eq2 ST1 ST2 h2 _ I') as R. rewrite P' in R.
  destruct (spec_run eq1 eq2 _ h2) as [l2|]; [|exact R]. destruct R as (b2 & E2 & I2 & <-). exists b2. split; [exact E2|].
  exact (answers_inv b2 I2).
Qed.
Lemma written1 : forall h l b x y x' i h2, spec_run eq1 eq2 [] h = Some l -> bm_run lt1 lt2 empty_bimap h = Ok b ->
  In (x, y) l -> find2 lt2 b y = Ok (Some i) ->
  (forall p, In p l -> p <> (x, y) -> lt1 (fst p) x = lt1 (fst p) x' /\ lt1 x (fst p) = lt1 x' (fst p)) ->
  match spec_run eq1 eq2 (map (fun p => if eq2 (snd p) y then (x', snd p) else p) l) h2 with
  | Some l2 => exists b2, bm_run lt1 lt2 (write1 b i x') h2 = Ok b2 /\ answers eq1 eq2 lt1 lt2 b2 l2
  | None => bm_run lt1 lt2 (write1 b i x') h2 = UB
  end.
Proof.
  intros h l b x y y' i h2 Hl Hb Hin Hf Hord. destruct (reached h l b Hl Hb) as [I P].
  assert (Hi : In (i, (x, y)) (storage b)).
  { destruct (find2_spec lt1 lt2 eq2 ST2 b y I) as [(i0 & p & H1 & H2 & H3 & H4)|(N & F)]; [|congruence].
    rewrite Hf in H3. injection H3 as <-. rewrite <- P in Hin. unfold pairs in Hin. apply in_map_iff in Hin.
    destruct Hin as ([j q] & Eq & Hq). cbn in Eq. subst q.
    assert (j = i) by (eapply (same2 lt1 lt2 eq2 ST2 b); [exact I|exact Hq|exact H1|symmetry; exact H2]). subst j. exact Hq. }
  assert (I' : inv (write1 b i y')).
  { eapply (write1_inv b i x y y' I Hi). intros j q Hq Ne. apply Hord.
    - rewrite <- P. apply (in_map snd) in Hq. exact Hq.
    - intros ->. apply Ne. eapply (same2 lt1 lt2 eq2 ST2 b); [exact I|exact Hq|exact Hi|reflexivity]. }
  assert (P' : pairs (write1 b i y') = map (fun p => if eq2 (snd p) y then (y', snd p) else p) l).
  { rewrite <- P. unfold pairs, write1. cbn [storage]. rewrite !map_map. apply map_ext_in. intros [j [u v]] Hj. cbn [fst snd].
    destruct (Nat.eqb_spec j i) as [->|Ne].
    - assert (Q : (u, v) = (x, y)) by (eapply nodup_fun; [exact (inv_ids _ _ b I)|exact Hj|exact Hi]). injection Q as -> ->.
      rewrite (proj2 (st_eqb _ _ ST2 y y) eq_refl). reflexivity.
    - destruct (eq2 v y) eqn:Q; [|reflexivity]. apply (st_eqb _ _ ST2) in Q. subst v. exfalso. apply Ne.
      eapply (same2 lt1 lt2 eq2 ST2 b); [exact I|exact Hj|exact Hi|reflexivity]. }
  pose proof (run_spec lt1 eq1 lt2 eq2 ST1 ST2 h2 _ I') as R. rewrite P' in R.
  destruct (spec_run eq1 eq2 _ h2) as [l2|]; [|exact R]. destruct R as (b2 & E2 & I2 & <-). exists b2. split; [exact E2|].
  exact (answers_inv b2 I2).
Qed.
End BW.
