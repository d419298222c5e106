(** Round trips of the C++ conversions. *)
From Coq Require Import String Ascii ZArith NArith Arith Bool Lia List.
From Coq Require Import Floats.SpecFloat.
From Verif Require Import Common JsonNumModel JsonModel JsonProofs JsonCnvModel JsonCnvSpec.
Import ListNotations.
Local Open Scope Z_scope.

Section NESTED.
Variable P : ty -> Prop.
Hypothesis h_leaf : forall t, match t with TyPair _ _ | TyTuple _ | TyVec _ | TyMap _ _ | TyStructArr _ | TyStructObj _ => True | _ => P t end.
Hypothesis h_pair : forall a b, P a -> P b -> P (TyPair a b).
Hypothesis h_tuple : forall ts, Forall P ts -> P (TyTuple ts).
Hypothesis h_vec : forall t, P t -> P (TyVec t).
Hypothesis h_map : forall k v, P k -> P v -> P (TyMap k v).
Hypothesis h_sarr : forall ts, Forall P ts -> P (TyStructArr ts).
Hypothesis h_sobj : forall fs, Forall (fun f => P (snd f)) fs -> P (TyStructObj fs).
Fixpoint ty_nested (t : ty) : P t :=
  match t with
  | TyPair a b => h_pair a b (ty_nested a) (ty_nested b)
  | TyTuple ts => h_tuple ts ((fix all ts : Forall P ts := match ts with [] => Forall_nil _ | t :: ts => Forall_cons t (ty_nested t) (all ts) end) ts)
  | TyVec t => h_vec t (ty_nested t)
  | TyMap k v => h_map k v (ty_nested k) (ty_nested v)
  | TyStructArr ts => h_sarr ts ((fix all ts : Forall P ts := match ts with [] => Forall_nil _ | t :: ts => Forall_cons t (ty_nested t) (all ts) end) ts)
  | TyStructObj fs => h_sobj fs ((fix all fs : Forall (fun f => P (snd f)) fs := match fs with [] => Forall_nil _ | f :: fs => Forall_cons f (ty_nested (snd f)) (all fs) end) fs)
  | TyBool => h_leaf TyBool | TyInt k => h_leaf (TyInt k) | TyReal => h_leaf TyReal | TyStr => h_leaf TyStr
  | TyNull => h_leaf TyNull | TyVal => h_leaf TyVal | TyEnum k => h_leaf (TyEnum k) | TyBits n => h_leaf (TyBits n)
  end.
End NESTED.

Lemma k_wrap_id : forall k z, k_min k <= z <= k_max k -> k_wrap k z = z.
Proof.
  intros k z H. assert (E : k_max k = k_min k + 2 ^ k_bits k - 1) by (destruct k; reflexivity).
  unfold k_wrap. rewrite Z.mod_small; lia.
Qed.
Lemma num_as_ok : forall k z, k_min k <= z <= k_max k -> num_as k (num_of_int k z) = Ok z.
Proof. intros k z H. unfold num_as, num_of_int. destruct (k_signed k) eqn:E; cbn; now rewrite k_wrap_id. Qed.
Lemma bits_ok : forall l, bits_of (length l) (map bit_char l) = Ok l.
Proof.
  intros l. unfold bits_of. rewrite firstn_all2 by (rewrite map_length; lia).
  assert (F : forallb (fun c => Ascii.eqb c "0" || Ascii.eqb c "1") (map bit_char l) = true).
  { apply forallb_forall. intros c I. apply in_map_iff in I as (x & <- & _). destruct x; reflexivity. }
  rewrite F. rewrite map_length, Nat.sub_diag. cbn [repeat app]. f_equal. rewrite map_map. rewrite <- (map_id l) at 2.
  apply map_ext. intros []; reflexivity.
Qed.

Lemma key_eqb_true : forall a b, key_eqb a b = true -> a = b.
Proof.
  induction a as [| | | | | | |x IHx y IHy| | |]; intros b H; destruct b; try discriminate; cbn in H.
  - apply Bool.eqb_prop in H. now subst.
  - apply Z.eqb_eq in H. now subst.
  - apply bytes_eqb_eq in H. now subst.
  - apply andb_true_iff in H as (H1 & H2). apply IHx in H1. apply IHy in H2. now subst.
Qed.
Lemma key_eqb_neq : forall a b, a <> b -> key_eqb a b = false.
Proof. intros a b N. destruct (key_eqb a b) eqn:E; [|reflexivity]. now apply key_eqb_true in E. Qed.
Lemma key_eqb_refl : forall t c, key_type t -> has_type t c -> key_eqb c c = true.
Proof.
  induction t as [| | | | | | | |a IHa b IHb| | | | |]; intros c K H; try contradiction; destruct c; cbn in H; try contradiction; cbn.
  - apply Bool.eqb_reflx.
  - apply Z.eqb_refl.
  - now apply bytes_eqb_eq.
  - apply Z.eqb_refl.
  - destruct K as (Ka & Kb), H as (Ha & Hb). rewrite IHa, IHb by assumption. reflexivity.
Qed.
Lemma map_set_new : forall k v m, ~ In k (map fst m) -> map_set k v m = m ++ [(k, v)].
Proof.
  induction m as [|(j, w) m IH]; intros N; [reflexivity|]. cbn [map_set]. cbn in N. rewrite key_eqb_neq by tauto.
  rewrite IH by tauto. reflexivity.
Qed.
Lemma map_get_set : forall j k v m, map_get j (map_set k v m) = if key_eqb k j then Some v else map_get j m.
Proof.
  induction m as [|(i, w) m IH]; cbn [map_set map_get]; [reflexivity|]. destruct (key_eqb i k) eqn:E.
  - apply key_eqb_true in E as ->. cbn [map_get]. destruct (key_eqb k j); reflexivity.
  - cbn [map_get]. rewrite IH. destruct (key_eqb i j) eqn:E2; [|reflexivity]. destruct (key_eqb k j) eqn:E3; [|reflexivity].
    apply key_eqb_true in E3. pose proof (key_eqb_true _ _ E2). subst. congruence.
Qed.

Lemma lookup_set : forall j k v o, lookup j (obj_set k v o) = if bytes_eqb k j then Some v else lookup j o.
Proof.
  unfold lookup. induction o as [|(i, w) o IH]; cbn [obj_set find fst].
  - destruct (bytes_eqb k j); reflexivity.
  - destruct (bytes_eqb i k) eqn:E.
    + apply bytes_eqb_eq in E as ->. cbn [find fst]. destruct (bytes_eqb k j); reflexivity.
    + destruct (bytes_ltb k i).
      * cbn [find fst]. destruct (bytes_eqb k j); reflexivity.
      * cbn [find fst]. destruct (bytes_eqb i j) eqn:E2; [|exact IH].
        destruct (bytes_eqb k j) eqn:E3; [|reflexivity]. apply bytes_eqb_eq in E3 as ->. congruence.
Qed.
Lemma bytes_eqb_refl' : forall s, bytes_eqb s s = true.
Proof. intros. now apply bytes_eqb_eq. Qed.
Lemma bytes_eqb_neq' : forall s t, s <> t -> bytes_eqb s t = false.
Proof. intros s t N. destruct (bytes_eqb s t) eqn:E; [|reflexivity]. now apply bytes_eqb_eq in E. Qed.

(** ** The inner loops, named *)
Section LOOPS.
Context (hook : unit).
Fixpoint all_to (ts : list ty) (cs : list cv) {struct ts} : list jval :=
  match ts, cs with t :: ts, c :: cs => toVal t c :: all_to ts cs | _, _ => [] end.
Fixpoint fields_to (fs : list (bytes * ty)) (cs : list cv) (o : list (bytes * jval)) {struct fs} : list (bytes * jval) :=
  match fs, cs with (n, t) :: fs, c :: cs => fields_to fs cs (obj_set n (toVal t c) o) | _, _ => o end.
End LOOPS.
Definition trips (t : ty) : Prop := forall c, has_type t c -> isNoNum t (toVal t c) = true /\ extr t (toVal t c) (fresh t) = Ok c.

Lemma map_loop : forall a b, trips a -> trips b -> key_type a -> forall m acc, NoDup (map fst acc ++ map fst m) ->
  (forall p, In p m -> has_type a (fst p) /\ has_type b (snd p)) ->
  (fix all (l : list jval) (m : list (cv * cv)) : outcome (list (cv * cv)) :=
        match l with
        | [] => Ok m
        | JArr [x; y] :: l =>
          if isNoNum a x && isNoNum b y
          then obind (extr a x (fresh a)) (fun c => obind (extr b y (fresh b)) (fun d => all l (map_set c d m))) else UB
        | _ :: _ => UB
        end) (map (fun p => JArr [toVal a (fst p); toVal b (snd p)]) m) acc = Ok (acc ++ m).
Proof.
  intros a b Ta Tb Ka. induction m as [|(k, v) m IH]; intros acc N H; cbn [map]; [now rewrite app_nil_r|].
  cbn [fst snd]. destruct (H (k, v)) as (Hk & Hv); [now left|]. cbn [fst snd] in Hk, Hv.
  destruct (Ta k Hk) as (Ca & Ea), (Tb v Hv) as (Cb & Eb). rewrite Ca, Cb, Ea. cbn [andb obind]. rewrite Eb. cbn [obind].
  cbn [map fst] in N.
  assert (Nk : ~ In k (map fst acc)).
  { intros I. apply NoDup_remove_2 in N. apply N. apply in_or_app. now left. }
  rewrite map_set_new by exact Nk. rewrite IH.
  - now rewrite <- app_assoc.
  - rewrite map_app. cbn [map fst]. rewrite <- app_assoc. exact N.
  - intros p I. apply H. now right.
Qed.
Lemma map_merge : forall a b, trips a -> trips b -> forall m acc, NoDup (map fst m) ->
  (forall p, In p m -> has_type a (fst p) /\ has_type b (snd p)) ->
  exists r, (fix all (l : list jval) (m : list (cv * cv)) : outcome (list (cv * cv)) :=
        match l with
        | [] => Ok m
        | JArr [x; y] :: l =>
          if isNoNum a x && isNoNum b y
          then obind (extr a x (fresh a)) (fun c => obind (extr b y (fresh b)) (fun d => all l (map_set c d m))) else UB
        | _ :: _ => UB
        end) (map (fun p => JArr [toVal a (fst p); toVal b (snd p)]) m) acc = Ok r /\
    forall j, map_get j r = match map_get j m with Some w => Some w | None => map_get j acc end.
Proof.
  intros a b Ta Tb. induction m as [|(k, v) m IH]; intros acc N H; cbn [map]; [exists acc; split; [reflexivity|reflexivity]|].
  cbn [fst snd]. destruct (H (k, v)) as (Hk & Hv); [now left|]. cbn [fst snd] in Hk, Hv.
  destruct (Ta k Hk) as (Ca & Ea), (Tb v Hv) as (Cb & Eb). rewrite Ca, Cb, Ea. cbn [andb obind]. rewrite Eb. cbn [obind].
  cbn [map fst] in N. inversion N as [|? ? Nk N']; subst.
  destruct (IH (map_set k v acc) N') as (r & E & G); [intros p I; apply H; now right|].
  exists r. split; [exact E|]. intros j. rewrite G, map_get_set. cbn [map_get].
  destruct (key_eqb k j) eqn:Ek; [|reflexivity]. apply key_eqb_true in Ek as ->.
  assert (Z : map_get j m = None); [|now rewrite Z].
  clear - Nk. induction m as [|(i, w) m IH]; [reflexivity|]. cbn [map_get]. cbn in Nk. rewrite key_eqb_neq by tauto. apply IH. tauto.
Qed.

Lemma conversions : forall t, trips t.
Proof.
  apply ty_nested.
  - intros t. destruct t; auto; intros c H; destruct c; cbn in H; try contradiction; cbn [toVal isNoNum extr]; try (split; reflexivity).
    + rewrite num_as_ok by exact H. split; reflexivity.
    + rewrite num_as_ok by exact H. split; reflexivity.
    + rewrite map_length. subst n. rewrite bits_ok. split; [now apply Nat.eqb_eq|reflexivity].
  - intros a b Pa Pb c H. destruct c; try contradiction. destruct H as (Ha & Hb). destruct (Pa _ Ha) as (C1 & E1), (Pb _ Hb) as (C2 & E2).
    cbn [toVal isNoNum extr]. rewrite C1, C2, E1, E2. split; reflexivity.
  - intros ts F c H. destruct c as [| | | | | | | |cs| |]; try contradiction. cbn [has_type] in H. cbn [toVal isNoNum extr].
    cut ((length (all_to ts cs) =? length ts)%nat = true /\
      (fix all (ts : list ty) (l : list jval) {struct ts} : bool :=
        match ts, l with t :: ts, x :: l => isNoNum t x && all ts l | _, _ => true end) ts (all_to ts cs) = true /\
      (fix all (ts : list ty) (l : list jval) {struct ts} : outcome (list cv) :=
        match ts with
        | [] => Ok []
        | t :: ts => match l with [] => UB | x :: l =>
          obind (if isNoNum t x then extr t x (fresh t) else UB) (fun c => obind (all ts l) (fun cs => Ok (c :: cs))) end
        end) ts (all_to ts cs) = Ok cs).
    { intros (L & C & E). change ((fix all (ts0 : list ty) (cs0 : list cv) {struct ts0} : list jval := match ts0 with [] => [] | t :: ts1 => match cs0 with [] => [] | c :: cs1 => toVal t c :: all ts1 cs1 end end) ts cs) with (all_to ts cs).
      rewrite L, C, E. split; reflexivity. }
    revert cs H. induction F as [|t ts Pt F IH]; intros cs H.
    + destruct cs; [|contradiction]. repeat split; reflexivity.
    + destruct cs as [|c cs]; [contradiction|]. destruct H as (Hc & H). destruct (Pt c Hc) as (C1 & E1). destruct (IH cs H) as (L & C & E).
      cbn [all_to length]. rewrite C1, E1, C, E. repeat split; try reflexivity. exact L.
  - intros t Pt c H. destruct c as [| | | | | | | | |cs|]; try contradiction. cbn [has_type] in H. cbn [toVal isNoNum extr].
    cut (forallb (isNoNum t) (map (toVal t) cs) = true /\
      (fix all (l : list jval) : outcome (list cv) :=
        match l with
        | [] => Ok []
        | x :: l => obind (if isNoNum t x then extr t x (fresh t) else UB) (fun c => obind (all l) (fun cs => Ok (c :: cs)))
        end) (map (toVal t) cs) = Ok cs).
    { intros (C & E). rewrite C, E. split; reflexivity. }
    induction cs as [|c cs IH]; [split; reflexivity|]. destruct (Pt c) as (C1 & E1); [apply H; now left|].
    destruct IH as (C & E); [intros d I; apply H; now right|]. cbn [map forallb]. rewrite C1, E1, C, E. split; reflexivity.
  - intros a b Pa Pb c H. destruct c as [| | | | | | | | | |m]; try contradiction. destruct H as (K & N & H). split; [reflexivity|].
    cbn [toVal extr fresh]. rewrite (map_loop a b Pa Pb K m []) by assumption. reflexivity.
  - intros ts F c H. destruct c as [| | | | | | | |cs| |]; try contradiction. cbn [has_type] in H. split; [reflexivity|]. cbn [toVal extr fresh].
    cut ((fix all (ts : list ty) (l : list jval) (old : list cv) {struct ts} : outcome (list cv) :=
        match ts with
        | [] => Ok []
        | t :: ts => match l with [] => UB | x :: l =>
          obind (if isNoNum t x then extr t x (hd (fresh t) old) else UB) (fun c => obind (all ts l (tl old)) (fun cs => Ok (c :: cs))) end
        end) ts (all_to ts cs) (map fresh ts) = Ok cs).
    { intros E. change ((fix all (ts0 : list ty) (cs0 : list cv) {struct ts0} : list jval := match ts0 with [] => [] | t :: ts1 => match cs0 with [] => [] | c :: cs1 => toVal t c :: all ts1 cs1 end end) ts cs) with (all_to ts cs).
      rewrite E. reflexivity. }
    revert cs H. induction F as [|t ts Pt F IH]; intros cs H.
    + destruct cs; [|contradiction]. reflexivity.
    + destruct cs as [|c cs]; [contradiction|]. destruct H as (Hc & H). destruct (Pt c Hc) as (C1 & E1). specialize (IH cs H).
      cbn [all_to map hd tl]. rewrite C1, E1, IH. reflexivity.
  - intros fs F c H. destruct c as [| | | | | | | |cs| |]; try contradiction. cbn [has_type] in H. destruct H as (N & H). split; [reflexivity|]. cbn [toVal extr fresh].
    change ((fix all (fs0 : list (bytes * ty)) (cs0 : list cv) (o : list (bytes * jval)) {struct fs0} : list (bytes * jval) := match fs0 with [] => o | (n, t) :: fs1 => match cs0 with [] => o | c :: cs1 => all fs1 cs1 (obj_set n (toVal t c) o) end end) fs cs []) with (fields_to fs cs []).
    assert (Keep : forall fs cs o n, ~ In n (map fst fs) -> lookup n (fields_to fs cs o) = lookup n o).
    { clear. induction fs as [|(m, t) fs IH]; intros cs o n Nn; [reflexivity|]. destruct cs as [|c cs]; [reflexivity|]. cbn [fields_to]. cbn in Nn.
      rewrite IH by tauto. rewrite lookup_set. rewrite bytes_eqb_neq' by tauto. reflexivity. }
    assert (Get : forall fs0 o, exists w, w = fields_to fs0 cs o) by eauto. clear Get.
    cut (forall big o, big = fields_to fs cs o -> (fix all (fs : list (bytes * ty)) (old : list cv) {struct fs} : outcome (list cv) :=
        match fs with
        | [] => Ok []
        | (n, t) :: fs => match lookup n big with None => UB | Some x =>
          obind (extr t x (hd (fresh t) old)) (fun c => obind (all fs (tl old)) (fun cs => Ok (c :: cs))) end
        end) fs (map (fun f => fresh (snd f)) fs) = Ok cs).
    { intros G. rewrite (G _ [] eq_refl). reflexivity. }
    revert cs H. induction F as [|(n, t) fs Pt F IH]; intros cs H big o Eb.
    + destruct cs; [|contradiction]. reflexivity.
    + destruct cs as [|c cs]; [contradiction|]. destruct H as (Hc & H). cbn [snd] in Pt. destruct (Pt c Hc) as (_ & E1).
      cbn [fields_to] in Eb. cbn [map fst] in N. inversion N as [|? ? Nn N']; subst x l.
      assert (L : lookup n big = Some (toVal t c)).
      { rewrite Eb, Keep by exact Nn. rewrite lookup_set, bytes_eqb_refl'. reflexivity. }
      rewrite L. cbn [map snd hd tl]. rewrite E1. cbn [obind]. rewrite (IH N' cs H big _ Eb). reflexivity.
Qed.
Lemma converted : forall t c, has_type t c ->
  isNoNum t (getArch t c) = true /\ is_ t (getArch t c) <> Some false /\ as_ t (getArch t c) = Ok c /\ getExtr t (getArch t c) = Ok c.
Proof.
  intros t c H. destruct (conversions t c H) as (C & E). unfold getArch, as_, getExtr. rewrite C. split; [reflexivity|]. split; [|now split].
  destruct t; cbn [is_]; rewrite ?C; try discriminate.
  - destruct c; try contradiction. destruct k; cbn; discriminate.
  - destruct c; try contradiction. discriminate.
Qed.
Lemma extr_replaces : forall t, replaces t -> forall v old, extr t v old = extr t v (fresh t).
Proof.
  apply (ty_nested (fun t => replaces t -> forall v old, extr t v old = extr t v (fresh t))).
  - intros t. destruct t; try exact I; intros R v old; reflexivity.
  - intros; reflexivity.
  - intros; reflexivity.
  - intros; reflexivity.
  - intros k v Hk Hv [].
  - intros ts H R v old. cbn [extr]. destruct v; auto. f_equal. cbn [fresh]. clear - H R.
    assert (G : forall l o1 o2, 
      (fix all (ts : list ty) (l : list jval) (old : list cv) {struct ts} : outcome (list cv) :=
        match ts with
        | [] => Ok []
        | t :: ts => match l with [] => UB | x :: l =>
          obind (if isNoNum t x then extr t x (hd (fresh t) old) else UB) (fun c => obind (all ts l (tl old)) (fun cs => Ok (c :: cs))) end
        end) ts l o1 =
      (fix all (ts : list ty) (l : list jval) (old : list cv) {struct ts} : outcome (list cv) :=
        match ts with
        | [] => Ok []
        | t :: ts => match l with [] => UB | x :: l =>
          obind (if isNoNum t x then extr t x (hd (fresh t) old) else UB) (fun c => obind (all ts l (tl old)) (fun cs => Ok (c :: cs))) end
        end) ts l o2); [|apply G].
    cbn [replaces] in R. revert R. induction H as [|t ts Ht H IH]; intros R l o1 o2; [reflexivity|]. destruct R as (R1 & R2).
    destruct l as [|x l]; [reflexivity|]. rewrite (Ht R1 x (hd (fresh t) o1)), (Ht R1 x (hd (fresh t) o2)). rewrite (IH R2 l (tl o1) (tl o2)). reflexivity.
  - intros fs H R v old. cbn [extr]. destruct v; auto. f_equal. cbn [fresh]. clear - H R.
    assert (G : forall o1 o2, 
      (fix all (fs : list (bytes * ty)) (old : list cv) {struct fs} : outcome (list cv) :=
        match fs with
        | [] => Ok []
        | (n, t) :: fs => match lookup n o with None => UB | Some x =>
          obind (extr t x (hd (fresh t) old)) (fun c => obind (all fs (tl old)) (fun cs => Ok (c :: cs))) end
        end) fs o1 =
      (fix all (fs : list (bytes * ty)) (old : list cv) {struct fs} : outcome (list cv) :=
        match fs with
        | [] => Ok []
        | (n, t) :: fs => match lookup n o with None => UB | Some x =>
          obind (extr t x (hd (fresh t) old)) (fun c => obind (all fs (tl old)) (fun cs => Ok (c :: cs))) end
        end) fs o2); [|apply G].
    cbn [replaces] in R. revert R. induction H as [|(n, t) fs Ht H IH]; intros R o1 o2; [reflexivity|]. destruct R as (R1 & R2). cbn [snd] in Ht.
    destruct (lookup n o) as [x|]; [|reflexivity]. rewrite (Ht R1 x (hd (fresh t) o1)), (Ht R1 x (hd (fresh t) o2)). rewrite (IH R2 (tl o1) (tl o2)). reflexivity.
Qed.
Lemma converted_into : forall t c old, has_type t c -> replaces t -> extr t (getArch t c) old = Ok c.
Proof. intros t c old H R. rewrite extr_replaces by exact R. now apply conversions. Qed.
Lemma merged : forall k v m old, has_type (TyMap k v) (VMap m) ->
  exists r, extr (TyMap k v) (getArch (TyMap k v) (VMap m)) (VMap old) = Ok (VMap r) /\
    forall j, map_get j r = match map_get j m with Some w => Some w | None => map_get j old end.
Proof.
  intros k v m old (K & N & H). unfold getArch. cbn [toVal extr].
  destruct (map_merge k v (conversions k) (conversions v) m old N H) as (r & E & G). exists r. rewrite E. split; [reflexivity|exact G].
Qed.
Lemma array_converted : forall t cs n, length cs = n -> (forall c, In c cs -> has_type t c) ->
  is_array n t (toVal_array t cs) = true /\ extr_carray n t (toVal_array t cs) = Ok cs.
Proof.
  intros t cs n <-. unfold is_array, toVal_array, extr_carray. rewrite map_length, Nat.eqb_refl. cbn [andb].
  induction cs as [|c cs IH]; intros H; [split; reflexivity|]. destruct (conversions t c) as (C & E); [apply H; now left|].
  destruct IH as (I1 & I2); [intros d I; apply H; now right|]. cbn [map forallb length extr_array]. unfold as_. rewrite C, E, I1, I2. split; reflexivity.
Qed.
(** Literals: all characters before the final NUL are non-NUL. *)
Lemma copy_chars_ok : forall s p, copy_chars (S (length s)) (length p) (p ++ s) = Ok (s ++ [nul]).
Proof.
  induction s as [|c s IH]; intros p.
  - cbn [copy_chars length]. rewrite app_nil_r, getC_end. reflexivity.
  - cbn [length]. change (copy_chars (S (S (length s))) (length p) (p ++ c :: s)) with
      (obind (getC (p ++ c :: s) (length p)) (fun d => obind (copy_chars (S (length s)) (S (length p)) (p ++ c :: s)) (fun r => Ok (d :: r)))).
    rewrite getC_app. cbn [obind]. replace (p ++ c :: s) with ((p ++ [c]) ++ s) by (rewrite <- app_assoc; reflexivity).
    replace (S (length p)) with (length (p ++ [c])) by (rewrite app_length; cbn; lia). rewrite IH. reflexivity.
Qed.
Lemma chars_converted : forall s, ~ In nul s -> toVal_chars (s ++ [nul]) = Ok (JStr s) /\
  extr_chars (S (length s)) (JStr s) = Ok (s ++ [nul]) /\ is_chars (S (length s)) (JStr s) = false.
Proof.
  intros s N. split; [|split].
  - unfold toVal_chars. cut (c_str (s ++ [nul]) = Ok s); [intros ->; reflexivity|]. induction s as [|c s IH]; [reflexivity|]. cbn [app c_str].
    destruct (Ascii.eqb_spec c nul) as [->|]; [destruct N; now left|]. rewrite IH; [reflexivity|]. intros I. apply N. now right.
  - apply (copy_chars_ok s []).
  - unfold is_chars. apply Nat.eqb_neq. lia.
Qed.
Lemma chars_short : forall s n, ~ In nul s -> (S (length s) < n)%nat ->
  toVal_chars (s ++ repeat nul (n - length s)) = Ok (JStr s) /\ extr_chars n (JStr s) = UB.
Proof.
  intros s n N L. split.
  - unfold toVal_chars. cut (c_str (s ++ repeat nul (n - length s)) = Ok s); [intros ->; reflexivity|]. destruct (n - length s)%nat as [|k] eqn:E; [lia|]. clear L E.
    induction s as [|c s IH]; [reflexivity|]. cbn [app c_str]. destruct (Ascii.eqb_spec c nul) as [->|]; [destruct N; now left|].
    rewrite IH; [reflexivity|]. intros I. apply N. now right.
  - unfold extr_chars. cut (forall k i, (i <= S (length s) < i + k)%nat -> copy_chars k i s = UB); [intros G; apply (G n 0%nat); lia|].
    induction k as [|k IH]; intros i Hi; [lia|]. cbn [copy_chars]. destruct (Nat.eq_dec i (S (length s))) as [->|Ne].
    + unfold getC. rewrite (proj2 (nth_error_None s (S (length s)))) by lia. replace (S (length s) =? length s)%nat with false; [reflexivity|]. symmetry. apply Nat.eqb_neq. lia.
    + destruct (getC s i) as [c| | |] eqn:E; cbn [obind]; [rewrite IH by lia; reflexivity| | |]; unfold getC in E; destruct (nth_error s i); try discriminate; destruct (i =? length s)%nat; try discriminate; reflexivity.
Qed.

Lemma check_exact : forall t v, isNoNum t v = true <-> fits t v.
Proof.
  apply (ty_nested (fun t => forall v, isNoNum t v = true <-> fits t v)).
  - intros [|k| | | | |k|n| | | | | |]; try exact I; intros v; (split;
      [intros H; destruct v; try discriminate; try constructor|intros H; inversion H; subst; try reflexivity]).
    + cbn in H. apply Nat.eqb_eq in H. subst n. constructor.
    + cbn. apply Nat.eqb_refl.
  - intros a b Ha Hb v. split.
    + intros H. destruct v as [o|l|s|n|b0|]; try discriminate. destruct l as [|x [|y [|]]]; try discriminate.
      cbn [isNoNum] in H. apply andb_true_iff in H as [H1 H2]. constructor; [apply Ha|apply Hb]; assumption.
    + intros H. inversion H; subst. cbn [isNoNum]. apply andb_true_iff. split; [apply Ha|apply Hb]; assumption.
  - intros ts Hts v. split.
    + intros H. destruct v as [o|l|s|n|b0|]; try discriminate. constructor.
      cbn [isNoNum] in H. apply andb_true_iff in H as [H1 H2]. apply Nat.eqb_eq in H1.
      revert l H1 H2. induction Hts as [|t ts Ht Hts IH]; intros [|x l] H1 H2; try discriminate; [constructor|].
      apply andb_true_iff in H2 as [H2 H3]. constructor; [apply Ht; exact H2|].
      apply IH; [cbn in H1; lia|exact H3].
    + intros H. inversion H as [| | | | | | |ts' l HF| | | | | |]; subst. cbn [isNoNum]. apply andb_true_iff. split.
      * apply Nat.eqb_eq. clear - HF. induction HF; cbn; congruence.
      * clear H. revert l HF. induction Hts as [|t ts Ht Hts IH]; intros l HF; inversion HF; subst; [reflexivity|].
        apply andb_true_iff. split; [apply Ht; assumption|apply IH; assumption].
  - intros t Ht v. split.
    + intros H. destruct v as [o|l|s|n|b0|]; try discriminate. constructor. cbn [isNoNum] in H.
      apply Forall_forall. intros x Hx. apply Ht. rewrite forallb_forall in H. apply H. exact Hx.
    + intros H. inversion H as [| | | | | | | |t' l HF| | | | |]; subst. cbn [isNoNum]. apply forallb_forall.
      intros x Hx. apply Ht. rewrite Forall_forall in HF. apply HF. exact Hx.
  - intros k v _ _ j. split; [constructor|reflexivity].
  - intros ts _ j. split; [constructor|reflexivity].
  - intros fs _ j. split; [constructor|reflexivity].
Qed.
Lemma check_strict : forall t v b, is_ t v = Some b -> (b = true <-> strict_kind t v).
Proof.
  intros t v b H.
  assert (G : forall t', Some (isNoNum t' v) = Some b -> (b = true <-> fits t' v)).
  { intros t' E. injection E as <-. apply check_exact. }
  destruct t as [|k| | | | |k|n| | | | | |]; cbn [strict_kind]; try (apply G; exact H).
  - destruct k; try discriminate; cbn [is_] in H; injection H as <-; (split;
      [intros H; destruct v as [o|l|s|n|b0|]; try discriminate; destruct n; try discriminate; eexists; reflexivity
      |intros [z ->]; reflexivity]).
  - cbn [is_] in H; injection H as <-; (split;
      [intros H; destruct v as [o|l|s|n|b0|]; try discriminate; destruct n; try discriminate; eexists; reflexivity
      |intros [z ->]; reflexivity]).
Qed.
