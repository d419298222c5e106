(** Extraction from JSON of any shape. *)
From Coq Require Import String Ascii ZArith NArith Arith Bool Lia List.
From Coq Require Import Floats.SpecFloat.
From Verif Require Import Common JsonNumModel JsonModel JsonCnvModel JsonCnvSpec JsonCnvProofs JsonShapeModel JsonShapeSpec.
Import ListNotations.
Local Open Scope Z_scope.

(** ** The inner loops, named *)
Section LOOPS.
Context (nd : bool).
Section V.
Context (v : jval).
Fixpoint tup_loop (ts : list ty) (i : nat) {struct ts} : outcome (list cv) :=
  match ts with
  | [] => Ok []
  | t :: ts =>
    match v with
    | JArr l =>
      match nth_error l i with
      | None => asserted nd false out_of_range
      | Some x => obind (asserted nd (isNoNum t x) (cextr nd t x (fresh t))) (fun c => obind (tup_loop ts (S i)) (fun cs => Ok (c :: cs)))
      end
    | _ => UB
    end
  end.
End V.
Section T.
Context (t : ty).
Fixpoint vec_loop (l : list jval) : outcome (list cv) :=
  match l with
  | [] => Ok []
  | x :: l => obind (asserted nd (isNoNum t x) (cextr nd t x (fresh t))) (fun c => obind (vec_loop l) (fun cs => Ok (c :: cs)))
  end.
End T.
Section AB.
Context (a b : ty).
Definition pair_of (e : jval) : outcome (cv * cv) :=
  match e with
  | JArr [] => out_of_range
  | JArr (x :: r) =>
    obind (asserted nd (isNoNum a x) (cextr nd a x (fresh a))) (fun c =>
    match r with
    | [] => out_of_range
    | y :: _ => obind (asserted nd (isNoNum b y) (cextr nd b y (fresh b))) (fun d => Ok (c, d))
    end)
  | _ => UB
  end.
Fixpoint pairs_loop (l : list jval) (m : list (cv * cv)) : outcome (list (cv * cv)) :=
  match l with
  | [] => Ok m
  | e :: l => obind (noexcept (asserted nd (isNoNum (TyPair a b) e) (pair_of e))) (fun p => pairs_loop l (map_set (fst p) (snd p) m))
  end.
End AB.
Section W.
Context (v : jval).
Fixpoint sarr_loop (ts : list ty) (i : nat) (old : list cv) {struct ts} : outcome (list cv) :=
  match ts with
  | [] => Ok []
  | t :: ts =>
    match v with
    | JArr l =>
      match nth_error l i with
      | None => asserted nd false out_of_range
      | Some x => obind (asserted nd (isNoNum t x) (cextr nd t x (hd (fresh t) old))) (fun c => obind (sarr_loop ts (S i) (tl old)) (fun cs => Ok (c :: cs)))
      end
    | _ => UB
    end
  end.
Fixpoint sobj_loop (fs : list (bytes * ty)) (old : list cv) {struct fs} : outcome (list cv) :=
  match fs with
  | [] => Ok []
  | (n, t) :: fs =>
    match v with
    | JObj o =>
      obind match lookup n o with
            | None => asserted nd false (cextr nd t JNll (hd (fresh t) old))
            | Some x => cextr nd t x (hd (fresh t) old)
            end (fun c => obind (sobj_loop fs (tl old)) (fun cs => Ok (c :: cs)))
    | _ => UB
    end
  end.
End W.
Lemma cextr_pair : forall a b v old, cextr nd (TyPair a b) v old = obind (pair_of a b v) (fun p => Ok (VPair (fst p) (snd p))).
Proof.
  intros a b v old. cbn [cextr]. unfold pair_of. destruct v as [o|l|s|n|b0|]; try reflexivity. destruct l as [|x r]; [reflexivity|].
  destruct (asserted nd (isNoNum a x) (cextr nd a x (fresh a))); try reflexivity. cbn [obind]. destruct r as [|y r]; [reflexivity|].
  destruct (asserted nd (isNoNum b y) (cextr nd b y (fresh b))); reflexivity.
Qed.
Lemma cextr_tuple : forall ts v old, cextr nd (TyTuple ts) v old = obind (tup_loop v ts 0) (fun cs => Ok (VTup cs)).
Proof. reflexivity. Qed.
Lemma cextr_vec : forall t v old, cextr nd (TyVec t) v old = match v with JArr l => obind (vec_loop t l) (fun cs => Ok (VVec cs)) | _ => UB end.
Proof. reflexivity. Qed.
Lemma cextr_map : forall a b v old, cextr nd (TyMap a b) v old =
  match v with JArr l => obind (pairs_loop a b l (match old with VMap m => m | _ => [] end)) (fun m => Ok (VMap m)) | _ => Ok old end.
Proof. reflexivity. Qed.
Lemma cextr_sarr : forall ts v old, cextr nd (TyStructArr ts) v old =
  obind (sarr_loop v ts 0 (match old with VTup cs => cs | _ => [] end)) (fun cs => Ok (VTup cs)).
Proof. reflexivity. Qed.
Lemma cextr_sobj : forall fs v old, cextr nd (TyStructObj fs) v old =
  obind (sobj_loop v fs (match old with VTup cs => cs | _ => [] end)) (fun cs => Ok (VTup cs)).
Proof. reflexivity. Qed.
End LOOPS.

(** ** Both builds *)
Definition agree {A} (o1 o2 : outcome A) : Prop := o1 = o2 \/ o1 = UB.
Lemma agree_refl {A} : forall o : outcome A, agree o o. Proof. now left. Qed.
Lemma agree_bind {A B} : forall (a b : outcome A) (f g : A -> outcome B), agree a b -> (forall x, agree (f x) (g x)) -> agree (obind a f) (obind b g).
Proof. intros a b f g [-> | ->] H; [|now right]. destruct b; try now left. apply H. Qed.
Lemma agree_asserted {A} : forall b (o1 o2 : outcome A), agree o1 o2 -> agree (asserted false b o1) (asserted true b o2).
Proof. intros [] o1 o2 H; [exact H|now right]. Qed.
Lemma agree_noexcept {A} : forall o1 o2 : outcome A, agree o1 o2 -> agree (noexcept o1) (noexcept o2).
Proof. intros o1 o2 [-> | ->]; [now left|now right]. Qed.
Lemma agree_pair : forall a b, (forall v old, agree (cextr false a v old) (cextr true a v old)) ->
  (forall v old, agree (cextr false b v old) (cextr true b v old)) -> forall e, agree (pair_of false a b e) (pair_of true a b e).
Proof.
  intros a b Ha Hb e. unfold pair_of. destruct e as [o|l|s|z|b0|]; try apply agree_refl. destruct l as [|x r]; [apply agree_refl|].
  apply agree_bind; [now apply agree_asserted|]. intros c. destruct r as [|y r]; [apply agree_refl|].
  apply agree_bind; [now apply agree_asserted|]. intros d. apply agree_refl.
Qed.
Lemma builds : forall t v old, agree (cextr false t v old) (cextr true t v old).
Proof.
  apply (ty_nested (fun t => forall v old, agree (cextr false t v old) (cextr true t v old))).
  - intros t. destruct t; try exact I; intros v old; apply agree_refl.
  - intros a b Ha Hb v old. rewrite !cextr_pair. apply agree_bind; [|intros; apply agree_refl]. now apply agree_pair.
  - intros ts F v old. rewrite !cextr_tuple. apply agree_bind; [|intros; apply agree_refl]. generalize 0%nat as i.
    induction F as [|t ts Ht F IH]; intros i; [apply agree_refl|]. cbn [tup_loop]. destruct v as [o|l|s|z|b0|]; try apply agree_refl.
    destruct (nth_error l i) as [x|]; [|now right]. apply agree_bind; [now apply agree_asserted|]. intros c. apply agree_bind; [apply IH|intros; apply agree_refl].
  - intros t Ht v old. rewrite !cextr_vec. destruct v as [o|l|s|z|b0|]; try apply agree_refl. apply agree_bind; [|intros; apply agree_refl].
    induction l as [|x l IH]; [apply agree_refl|]. cbn [vec_loop]. apply agree_bind; [now apply agree_asserted|]. intros c. apply agree_bind; [apply IH|intros; apply agree_refl].
  - intros a b Ha Hb v old. rewrite !cextr_map. destruct v as [o|l|s|z|b0|]; try apply agree_refl. apply agree_bind; [|intros; apply agree_refl].
    generalize (match old with VMap m => m | _ => [] end). induction l as [|e l IH]; intros m; [apply agree_refl|]. cbn [pairs_loop].
    apply agree_bind; [|intros; apply IH]. apply agree_noexcept, agree_asserted. now apply agree_pair.
  - intros ts F v old. rewrite !cextr_sarr. apply agree_bind; [|intros; apply agree_refl]. generalize (match old with VTup m => m | _ => [] end). generalize 0%nat as i.
    induction F as [|t ts Ht F IH]; intros i cs; [apply agree_refl|]. cbn [sarr_loop]. destruct v as [o|l|s|z|b0|]; try apply agree_refl.
    destruct (nth_error l i) as [x|]; [|now right]. apply agree_bind; [now apply agree_asserted|]. intros c. apply agree_bind; [apply IH|intros; apply agree_refl].
  - intros fs F v old. rewrite !cextr_sobj. apply agree_bind; [|intros; apply agree_refl]. generalize (match old with VTup m => m | _ => [] end).
    induction F as [|(n, t) fs Ht F IH]; intros cs; [apply agree_refl|]. cbn [sobj_loop]. cbn [snd] in Ht. destruct v as [o|l|s|z|b0|]; try apply agree_refl.
    apply agree_bind; [destruct (lookup n o); [apply Ht|now right]|]. intros c. apply agree_bind; [apply IH|intros; apply agree_refl].
Qed.

(** ** Which values are read *)
Definition okp {A} (o : outcome A) : Prop := exists c, o = Ok c.
Lemma okp_ok {A} : forall x : A, okp (Ok x) <-> True. Proof. intros x. split; [trivial|]. intros _. now exists x. Qed.
Lemma okp_ub {A} : okp (UB : outcome A) <-> False. Proof. split; [intros (c & H); discriminate|tauto]. Qed.
Lemma okp_throw {A} : forall s, okp (Throw s : outcome A) <-> False. Proof. intros s. split; [intros (c & H); discriminate|tauto]. Qed.
Lemma okp_bind {A B} : forall (a : outcome A) (f : A -> outcome B) P Q, (okp a <-> P) -> (forall x, okp (f x) <-> Q) -> (okp (obind a f) <-> P /\ Q).
Proof.
  intros a f P Q Ha Hf. rewrite <- Ha. destruct a as [x| | |]; cbn [obind].
  - rewrite Hf, okp_ok. tauto.
  - rewrite !okp_throw. tauto.
  - rewrite !okp_ub. tauto.
  - split; [intros (c & H); discriminate|]. intros ((c & H) & _). discriminate.
Qed.
Lemma okp_map {A B} : forall (a : outcome A) (f : A -> B) P, (okp a <-> P) -> (okp (obind a (fun x => Ok (f x))) <-> P).
Proof. intros a f P H. rewrite (okp_bind a _ P True H); [tauto|]. intros x. apply okp_ok. Qed.
Lemma okp_asserted {A} : forall d b (o : outcome A) P, (okp o <-> P) -> (okp (asserted (negb d) b o) <-> P /\ (d = true -> b = true)).
Proof. intros [] [] o P H; unfold asserted; cbn [negb orb]; rewrite ?okp_ub, ?H; intuition congruence. Qed.
Lemma okp_noexcept {A} : forall (o : outcome A), okp (noexcept o) <-> okp o.
Proof. intros [c|s| |]; cbn [noexcept]; rewrite ?okp_throw; tauto. Qed.
Lemma ints : forall k n, okp (num_as k n) <-> int_readable (k_signed k) n.
Proof.
  intros k n. unfold num_as. rewrite (okp_map _ _ (int_readable (k_signed k) n)); [reflexivity|].
  unfold int_readable, getIntS, getIntU, double_to_long, double_to_ulong, truncate, whole_part.
  destruct (k_signed k); destruct n as [z|z|[s|s| |s m e]]; try (rewrite ?okp_ok, ?okp_ub; tauto); try (cbn; rewrite okp_ok; tauto);
    cbv zeta; match goal with |- okp (if (_ <=? ?z) && _ then _ else _) <-> _ => generalize z; intros z0 end.
  - unfold LONG_MIN, LONG_MAX. destruct (Z.leb_spec (-9223372036854775808) z0); destruct (Z.leb_spec z0 9223372036854775807); cbn [andb]; rewrite ?okp_ok, ?okp_ub; lia.
  - unfold ULONG_MOD. destruct (Z.leb_spec 0 z0); destruct (Z.ltb_spec z0 18446744073709551616); cbn [andb]; rewrite ?okp_ok, ?okp_ub; lia.
Qed.
Lemma bits_read : forall n s, okp (bits_of n s) <-> forall c, In c (firstn n s) -> c = "0"%char \/ c = "1"%char.
Proof.
  intros n s. unfold bits_of. cbv zeta. destruct (forallb _ (firstn n s)) eqn:E.
  - rewrite okp_ok. split; [|trivial]. intros _ c I. rewrite forallb_forall in E. specialize (E c I). apply orb_true_iff in E as [E|E]; apply Ascii.eqb_eq in E; tauto.
  - rewrite okp_throw. split; [tauto|]. intros H. assert (F : forallb (fun c => Ascii.eqb c "0" || Ascii.eqb c "1") (firstn n s) = true); [|congruence].
    apply forallb_forall. intros c I. destruct (H c I) as [-> | ->]; reflexivity.
Qed.
Lemma lookup_member : forall o n x, lookup n o = Some x <-> member o n x.
Proof.
  unfold lookup, member. induction o as [|(m, y) o IH]; intros n x; cbn [find fst].
  - split; [discriminate|]. intros ([|] & ? & E & _); discriminate.
  - destruct (bytes_eqb m n) eqn:E.
    + apply bytes_eqb_eq in E as ->. split.
      * intros [= ->]. exists [], o. split; [reflexivity|intros []].
      * intros ([|(k, z) o1] & o2 & [= ] & N); [congruence|]. subst. destruct N. now left.
    + rewrite IH. split.
      * intros (o1 & o2 & -> & N). exists ((m, y) :: o1), o2. split; [reflexivity|]. cbn [map fst]. intros [->|I]; [now rewrite bytes_eqb_refl' in E|now apply N].
      * intros ([|(k, z) o1] & o2 & [= ] & N); [subst; now rewrite bytes_eqb_refl' in E|]. subst. exists o1, o2. split; [reflexivity|]. intros I. apply N. now right.
Qed.
Lemma lookup_missing : forall o n, lookup n o = None <-> missing o n.
Proof.
  unfold lookup, missing. induction o as [|(m, y) o IH]; intros n; cbn [find fst map In]; [tauto|].
  destruct (bytes_eqb m n) eqn:E.
  - apply bytes_eqb_eq in E as ->. split; [discriminate|]. intros H. destruct H. now left.
  - rewrite IH. split; [|tauto]. intros H [->|I]; [now rewrite bytes_eqb_refl' in E|tauto].
Qed.
Lemma member_one : forall o n x y, member o n x -> member o n y -> x = y.
Proof. intros o n x y H1 H2. apply lookup_member in H1, H2. congruence. Qed.
Lemma member_not_missing : forall o n x, member o n x -> missing o n -> False.
Proof. intros o n x H1 H2. apply lookup_member in H1. apply lookup_missing in H2. congruence. Qed.
Lemma skipn_nth : forall (l : list jval) i, match nth_error l i with Some x => skipn i l = x :: skipn (S i) l | None => skipn i l = [] end.
Proof. induction l as [|x l IH]; intros [|i]; cbn [nth_error skipn]; try reflexivity. specialize (IH i). destruct (nth_error l i); exact IH. Qed.

Section DEFINED.
Context (d : bool).
Notation nd := (negb d).
Definition exactly (t : ty) : Prop := forall v old, okp (cextr nd t v old) <-> reads d t v.
Lemma one : forall t x old, exactly t -> (okp (asserted nd (isNoNum t x) (cextr nd t x old)) <-> reads d t x /\ (d = true -> fits t x)).
Proof. intros t x old H. rewrite okp_asserted by apply H. rewrite check_exact. tauto. Qed.
Lemma pair_read : forall a b, exactly a -> exactly b -> forall e, okp (pair_of nd a b e) <->
  exists x y r, e = JArr (x :: y :: r) /\ reads d a x /\ reads d b y /\ (d = true -> fits a x /\ fits b y).
Proof.
  intros a b Ha Hb e. unfold pair_of. destruct e as [o|l|s|n|b0|]; try (rewrite okp_ub; split; [tauto|intros (x & y & r & E & _); discriminate]).
  destruct l as [|x [|y r]].
  - unfold out_of_range. rewrite okp_throw. split; [tauto|]. intros (x & y & r & E & _). discriminate.
  - rewrite (okp_bind _ _ _ False (one a x (fresh a) Ha)); [|intros; apply okp_throw]. split; [tauto|]. intros (x' & y & r & E & _). discriminate.
  - rewrite (okp_bind _ _ _ (reads d b y /\ (d = true -> fits b y)) (one a x (fresh a) Ha)) by (intros c; apply okp_map; apply (one b y (fresh b) Hb)). split.
    + intros ((R1 & F1) & R2 & F2). exists x, y, r. tauto.
    + intros (x' & y' & r' & E & R1 & R2 & F). injection E as <- <- <-. tauto.
Qed.
Fixpoint elems (ts : list ty) (l : list jval) {struct ts} : Prop :=
  match ts, l with [], _ => True | t :: ts, x :: l => reads d t x /\ (d = true -> fits t x) /\ elems ts l | _, _ => False end.
Section O.
Context (o : list (bytes * jval)).
Fixpoint membs (fs : list (bytes * ty)) {struct fs} : Prop :=
  match fs with
  | [] => True
  | (n, t) :: fs => ((exists x, member o n x /\ reads d t x) \/ (missing o n /\ d = false /\ reads d t JNll)) /\ membs fs
  end.
End O.
Lemma tup_read : forall ts, Forall exactly ts -> forall l i, okp (tup_loop nd (JArr l) ts i) <-> elems ts (skipn i l).
Proof.
  induction 1 as [|t ts Ht F IH]; intros l i; cbn [tup_loop elems]; [rewrite okp_ok; tauto|].
  pose proof (skipn_nth l i) as N. destruct (nth_error l i) as [x|]; rewrite N.
  - rewrite (okp_bind _ _ _ (elems ts (skipn (S i) l)) (one t x (fresh t) Ht)) by (intros c; apply okp_map; apply IH). tauto.
  - rewrite (okp_asserted d false _ False); [tauto|apply okp_throw].
Qed.
Lemma sarr_read : forall ts, Forall exactly ts -> forall l i old, okp (sarr_loop nd (JArr l) ts i old) <-> elems ts (skipn i l).
Proof.
  induction 1 as [|t ts Ht F IH]; intros l i old; cbn [sarr_loop elems]; [rewrite okp_ok; tauto|].
  pose proof (skipn_nth l i) as N. destruct (nth_error l i) as [x|]; rewrite N.
  - rewrite (okp_bind _ _ _ (elems ts (skipn (S i) l)) (one t x _ Ht)) by (intros c; apply okp_map; apply IH). tauto.
  - rewrite (okp_asserted d false _ False); [tauto|apply okp_throw].
Qed.
Lemma sobj_read : forall fs, Forall (fun f => exactly (snd f)) fs -> forall o old, okp (sobj_loop nd (JObj o) fs old) <-> membs o fs.
Proof.
  induction 1 as [|(n, t) fs Ht F IH]; intros o old; cbn [sobj_loop membs]; [rewrite okp_ok; tauto|]. cbn [snd] in Ht.
  apply okp_bind; [|intros c; apply okp_map; apply IH]. destruct (lookup n o) as [x|] eqn:E.
  - apply lookup_member in E. rewrite (Ht x _). split; [intros R; left; now exists x|].
    intros [(y & M & R)|(M & _)]; [now rewrite (member_one _ _ _ _ E M)|]. now destruct (member_not_missing _ _ _ E M).
  - apply lookup_missing in E. rewrite (okp_asserted d false _ _ (Ht JNll _)). split.
    + intros (R & D). right. split; [exact E|]. split; [destruct d; intuition congruence|exact R].
    + intros [(y & M & _)|(_ & D & R)]; [now destruct (member_not_missing _ _ _ M E)|]. split; [exact R|congruence].
Qed.
Lemma vec_read : forall t, exactly t -> forall l, okp (vec_loop nd t l) <-> forall x, In x l -> reads d t x /\ (d = true -> fits t x).
Proof.
  intros t Ht. induction l as [|x l IH]; cbn [vec_loop]; [rewrite okp_ok; split; [intros _ x []|trivial]|].
  rewrite (okp_bind _ _ _ (forall x, In x l -> reads d t x /\ (d = true -> fits t x)) (one t x _ Ht)) by (intros c; apply okp_map; apply IH). split.
  - intros (R & H) y [<-|I]; [exact R|now apply H].
  - intros H. split; [apply H; now left|]. intros y I. apply H. now right.
Qed.
Lemma pairs_read : forall a b, exactly a -> exactly b -> forall l m, okp (pairs_loop nd a b l m) <->
  forall e, In e l -> exists x y r, e = JArr (x :: y :: r) /\ reads d a x /\ reads d b y /\ (d = true -> r = [] /\ fits a x /\ fits b y).
Proof.
  intros a b Ha Hb. induction l as [|e l IH]; intros m; cbn [pairs_loop]; [rewrite okp_ok; split; [intros _ e []|trivial]|].
  assert (G : okp (noexcept (asserted nd (isNoNum (TyPair a b) e) (pair_of nd a b e))) <->
    exists x y r, e = JArr (x :: y :: r) /\ reads d a x /\ reads d b y /\ (d = true -> r = [] /\ fits a x /\ fits b y)).
  { rewrite okp_noexcept. rewrite (okp_asserted d _ _ _ (pair_read a b Ha Hb e)). rewrite check_exact. split.
    - intros ((x & y & r & -> & R1 & R2 & _) & F). exists x, y, r. repeat split; try assumption.
      + specialize (F H). now inversion F.
      + specialize (F H). now inversion F.
      + specialize (F H). now inversion F.
    - intros (x & y & r & -> & R1 & R2 & F). split.
      + exists x, y, r. repeat split; try assumption; now apply F.
      + intros D. destruct (F D) as (-> & F1 & F2). now constructor. }
  rewrite (okp_bind _ _ _ _ G (fun p => IH _)). split.
  - intros (R & H) y [<-|I]; [exact R|now apply H].
  - intros H. split; [apply H; now left|]. intros y I. apply H. now right.
Qed.
Lemma defined : forall t, exactly t.
Proof.
  apply ty_nested.
  - intros t. destruct t; try exact I; intros v old; cbn [cextr reads].
    1, 3, 4: destruct v; rewrite ?okp_ok, ?okp_ub; split; try tauto; try (intros (z & E); discriminate); intros _; eauto.
    2: destruct v; rewrite ?okp_ok, ?okp_ub; split; try tauto; discriminate.
    2: rewrite okp_ok; tauto.
    1, 2: destruct v as [o|l|s|z|b0|]; try (rewrite okp_ub; split; [tauto|intros (z & E & _); discriminate]);
      rewrite (okp_map _ _ _ (ints k z)); split; [intros R; now exists z|intros (y & E & R); now injection E as <-].
    destruct v as [o|l|s|z|b0|]; try (rewrite okp_ub; split; [tauto|intros (z' & E & _); discriminate]).
    rewrite (okp_map _ _ _ (bits_read n s)). split; [intros R; now exists s|intros (y & E & R); now injection E as <-].
  - intros a b Ha Hb v old. rewrite cextr_pair. apply okp_map. exact (pair_read a b Ha Hb v).
  - intros ts F v old. rewrite cextr_tuple. apply okp_map. destruct ts as [|t ts]; [cbn [tup_loop reads]; rewrite okp_ok; tauto|].
    destruct v as [o|l|s|z|b0|]; try (cbn [tup_loop reads]; rewrite okp_ub; split; [tauto|intros [E|(l & E & _)]; discriminate]).
    rewrite (tup_read _ F l 0). cbn [skipn]. change (elems (t :: ts) l <-> t :: ts = [] \/ exists l', JArr l = JArr l' /\ elems (t :: ts) l'). split.
    + intros R. right. now exists l.
    + intros [E|(l' & E & R)]; [discriminate|]. now injection E as <-.
  - intros t Ht v old. rewrite cextr_vec. cbn [reads]. destruct v as [o|l|s|z|b0|]; try (rewrite okp_ub; split; [tauto|intros (l & E & _); discriminate]).
    rewrite (okp_map _ _ _ (vec_read t Ht l)). split; [intros R; now exists l|intros (y & E & R); now injection E as <-].
  - intros a b Ha Hb v old. rewrite cextr_map. cbn [reads]. destruct v as [o|l|s|z|b0|]; try (rewrite okp_ok; split; [intros _ l E; discriminate|trivial]).
    rewrite (okp_map _ _ _ (pairs_read a b Ha Hb l _)). split; [intros R l' E; injection E as <-; exact R|intros R; now apply R].
  - intros ts F v old. rewrite cextr_sarr. apply okp_map. destruct ts as [|t ts]; [cbn [sarr_loop reads]; rewrite okp_ok; tauto|].
    destruct v as [o|l|s|z|b0|]; try (cbn [sarr_loop reads]; rewrite okp_ub; split; [tauto|intros [E|(l & E & _)]; discriminate]).
    rewrite (sarr_read _ F l 0). cbn [skipn]. change (elems (t :: ts) l <-> t :: ts = [] \/ exists l', JArr l = JArr l' /\ elems (t :: ts) l'). split.
    + intros R. right. now exists l.
    + intros [E|(l' & E & R)]; [discriminate|]. now injection E as <-.
  - intros fs F v old. rewrite cextr_sobj. apply okp_map. destruct fs as [|(n, t) fs]; [cbn [sobj_loop reads]; rewrite okp_ok; tauto|].
    destruct v as [o|l|s|z|b0|]; try (cbn [sobj_loop reads]; rewrite okp_ub; split; [tauto|intros [E|(l' & E & _)]; discriminate]).
    rewrite (sobj_read _ F o). change (membs o ((n, t) :: fs) <-> (n, t) :: fs = [] \/ exists o', JObj o = JObj o' /\ membs o' ((n, t) :: fs)). split.
    + intros R. right. now exists o.
    + intros [E|(l' & E & R)]; [discriminate|]. now injection E as <-.
Qed.
End DEFINED.

(** ** Values *)
Lemma same_debug : forall t v old c, extr t v old = Ok c -> cextr false t v old = Ok c.
Proof.
    apply (ty_nested (fun t => forall v old c, extr t v old = Ok c -> cextr false t v old = Ok c)).
    - intros t. destruct t; try exact I; intros v old c H; exact H.
    - intros a b Ha Hb v old c H. rewrite cextr_pair. cbn [extr] in H. destruct v as [o|l|s|z|b0|]; try discriminate. destruct l as [|x [|y r]]; try discriminate.
      unfold pair_of, asserted. cbn [orb]. destruct (isNoNum a x); [|discriminate]. destruct (extr a x (fresh a)) eqn:E1; try discriminate. rewrite (Ha _ _ _ E1). cbn [obind] in H |- *.
      destruct (isNoNum b y); [|discriminate]. destruct (extr b y (fresh b)) eqn:E2; try discriminate. rewrite (Hb _ _ _ E2). exact H.
    - intros ts F v old c H. rewrite cextr_tuple. cbn [extr] in H. destruct v as [o|l|s|z|b0|]; try discriminate.
      match type of H with obind ?a _ = _ => destruct a as [cs| | |] eqn:E; try discriminate end. cbn [obind] in H.
      assert (G : forall p, l = skipn (length p) (p ++ l)) by (intros p; rewrite skipn_app, skipn_all, Nat.sub_diag; reflexivity).
      cut (tup_loop false (JArr l) ts 0 = Ok cs); [intros ->; exact H|]. clear H c.
      cut (forall L i, l = skipn i L -> tup_loop false (JArr L) ts i = Ok cs); [intros K; now apply K|]. clear G.
      revert l cs E. induction F as [|t ts Ht F IH]; intros l cs E L i Hs; [exact E|]. cbn [tup_loop]. destruct l as [|x l]; [discriminate|].
      pose proof (skipn_nth L i) as N. rewrite <- Hs in N. destruct (nth_error L i) as [x'|]; [|discriminate]. injection N as <- N.
      unfold asserted. cbn [orb]. destruct (isNoNum t x); [|discriminate]. destruct (extr t x (fresh t)) eqn:E1; try discriminate. rewrite (Ht _ _ _ E1). cbn [obind] in E |- *.
      match type of E with obind ?a _ = _ => destruct a as [cs'| | |] eqn:E'; try discriminate end. now rewrite (IH l cs' E' L (S i) N).
    - intros t Ht v old c H. rewrite cextr_vec. cbn [extr] in H. destruct v as [o|l|s|z|b0|]; try discriminate.
      match type of H with obind ?a _ = _ => destruct a as [cs| | |] eqn:E; try discriminate end. cbn [obind] in H.
      cut (vec_loop false t l = Ok cs); [intros ->; exact H|]. clear H c. revert cs E. induction l as [|x l IH]; intros cs E; [exact E|]. cbn [vec_loop].
      unfold asserted. cbn [orb]. destruct (isNoNum t x); [|discriminate]. destruct (extr t x (fresh t)) eqn:E1; try discriminate. rewrite (Ht _ _ _ E1). cbn [obind] in E |- *.
      match type of E with obind ?a _ = _ => destruct a as [cs'| | |] eqn:E'; try discriminate end. now rewrite (IH cs' eq_refl).
    - intros a b Ha Hb v old c H. rewrite cextr_map. cbn [extr] in H. destruct v as [o|l|s|z|b0|]; try exact H.
      match type of H with obind ?a _ = _ => destruct a as [cs| | |] eqn:E; try discriminate end. cbn [obind] in H.
      match type of E with _ ?m0 = _ => cut (pairs_loop false a b l m0 = Ok cs); [intros ->; exact H|]; clear H c; revert cs E; generalize m0 end.
      induction l as [|e l IH]; intros m cs E; [exact E|]. destruct e as [o|r|s|z|b0|]; try discriminate. destruct r as [|x [|y [|]]]; try discriminate.
      cbn [pairs_loop pair_of isNoNum]. unfold asserted. cbn [orb]. destruct (isNoNum a x) eqn:C1; [|discriminate]. destruct (isNoNum b y) eqn:C2; [|discriminate].
      cbn [andb] in E |- *. destruct (extr a x (fresh a)) eqn:E1; try discriminate. rewrite (Ha _ _ _ E1). cbn [obind] in E |- *.
      destruct (extr b y (fresh b)) eqn:E2; try discriminate. rewrite (Hb _ _ _ E2). cbn [obind noexcept fst snd] in E |- *. now apply IH.
    - intros ts F v old c H. rewrite cextr_sarr. cbn [extr] in H. destruct v as [o|l|s|z|b0|]; try discriminate.
      match type of H with obind ?a _ = _ => destruct a as [cs| | |] eqn:E; try discriminate end. cbn [obind] in H.
      match type of E with _ ?m0 = _ => cut (sarr_loop false (JArr l) ts 0 m0 = Ok cs); [intros ->; exact H|]; clear H c; revert E; generalize m0 end. intros m E.
      cut (forall L i, l = skipn i L -> sarr_loop false (JArr L) ts i m = Ok cs); [intros K; now apply K|].
      revert l cs m E. induction F as [|t ts Ht F IH]; intros l cs m E L i Hs; [exact E|]. cbn [sarr_loop]. destruct l as [|x l]; [discriminate|].
      pose proof (skipn_nth L i) as N. rewrite <- Hs in N. destruct (nth_error L i) as [x'|]; [|discriminate]. injection N as <- N.
      unfold asserted. cbn [orb]. destruct (isNoNum t x); [|discriminate]. destruct (extr t x (hd (fresh t) m)) eqn:E1; try discriminate. rewrite (Ht _ _ _ E1). cbn [obind] in E |- *.
      match type of E with obind ?a _ = _ => destruct a as [cs'| | |] eqn:E'; try discriminate end. now rewrite (IH l cs' _ E' L (S i) N).
    - intros fs F v old c H. rewrite cextr_sobj. cbn [extr] in H. destruct v as [o|l|s|z|b0|]; try discriminate.
      match type of H with obind ?a _ = _ => destruct a as [cs| | |] eqn:E; try discriminate end. cbn [obind] in H.
      match type of E with _ ?m0 = _ => cut (sobj_loop false (JObj o) fs m0 = Ok cs); [intros ->; exact H|]; clear H c; revert cs E; generalize m0 end.
      induction F as [|(n, t) fs Ht F IH]; intros m cs E; [exact E|]. cbn [sobj_loop]. cbn [snd] in Ht. destruct (lookup n o) as [x|]; [|discriminate].
      destruct (extr t x (hd (fresh t) m)) eqn:E1; try discriminate. rewrite (Ht _ _ _ E1). cbn [obind] in E |- *.
      match type of E with obind ?a _ = _ => destruct a as [cs'| | |] eqn:E'; try discriminate end. now rewrite (IH _ cs' E').
Qed.
Lemma same : forall nd t v old c, extr t v old = Ok c -> cextr nd t v old = Ok c.
Proof. intros nd t v old c E. apply same_debug in E. destruct nd; [|exact E]. destruct (builds t v old) as [G|G]; congruence. Qed.
Lemma archived : forall t c nd, has_type t c -> cas nd t (getArch t c) = Ok c /\ cgetExtr nd t (getArch t c) = Ok c.
Proof.
  intros t c nd H. destruct (conversions t c H) as (C & E). apply (same nd) in E. unfold cas, cgetExtr, getArch, asserted. rewrite C, orb_true_r. now split.
Qed.
Lemma into : forall t c nd old, has_type t c -> replaces t -> cextr nd t (getArch t c) old = Ok c.
Proof. intros t c nd old H R. apply same. now apply converted_into. Qed.
Lemma into_map : forall k v m nd old, has_type (TyMap k v) (VMap m) ->
  exists r, cextr nd (TyMap k v) (getArch (TyMap k v) (VMap m)) (VMap old) = Ok (VMap r) /\
    forall j, map_get j r = match map_get j m with Some w => Some w | None => map_get j old end.
Proof. intros k v m nd old H. destruct (merged k v m old H) as (r & E & G). exists r. split; [|exact G]. now apply same. Qed.
Lemma other_map : forall k v j nd old, (forall l, j <> JArr l) -> cextr nd (TyMap k v) j old = Ok old.
Proof. intros k v j nd old H. destruct j as [o|l|s|z|b0|]; try reflexivity. now destruct (H l). Qed.
Lemma surplus : forall ts l r old, length l = length ts ->
  cextr true (TyTuple ts) (JArr (l ++ r)) old = cextr true (TyTuple ts) (JArr l) old /\
  cextr true (TyStructArr ts) (JArr (l ++ r)) old = cextr true (TyStructArr ts) (JArr l) old.
Proof.
  intros ts l r old L. rewrite !cextr_tuple, !cextr_sarr. split; f_equal.
  - cut (forall i, (i + length ts = length l)%nat -> tup_loop true (JArr (l ++ r)) ts i = tup_loop true (JArr l) ts i); [intros G; apply G; lia|]. clear L.
    induction ts as [|t ts IH]; intros i L; [reflexivity|]. cbn [tup_loop]. cbn [length] in L. rewrite nth_error_app1 by lia. rewrite IH by lia. reflexivity.
  - generalize (match old with VTup cs => cs | _ => [] end).
    cut (forall i, (i + length ts = length l)%nat -> forall m, sarr_loop true (JArr (l ++ r)) ts i m = sarr_loop true (JArr l) ts i m); [intros G; apply G; lia|]. clear L.
    induction ts as [|t ts IH]; intros i L m; [reflexivity|]. cbn [sarr_loop]. cbn [length] in L. rewrite nth_error_app1 by lia. rewrite IH by lia. reflexivity.
Qed.
Lemma surplus_pair : forall a b x y r old, cextr true (TyPair a b) (JArr (x :: y :: r)) old = cextr true (TyPair a b) (JArr [x; y]) old.
Proof. reflexivity. Qed.
Lemma surplus_map : forall a b l l' old, Forall2 (fun e e' => exists x y r, e = JArr (x :: y :: r) /\ e' = JArr [x; y]) l l' ->
  cextr true (TyMap a b) (JArr l) old = cextr true (TyMap a b) (JArr l') old.
Proof.
  intros a b l l' old H. rewrite !cextr_map. f_equal. generalize (match old with VMap m => m | _ => [] end).
  induction H as [|e e' l l' (x & y & r & -> & ->) H IH]; intros m; [reflexivity|]. cbn [pairs_loop]. 
  change (asserted true (isNoNum (TyPair a b) (JArr (x :: y :: r))) (pair_of true a b (JArr (x :: y :: r)))) with
    (asserted true (isNoNum (TyPair a b) (JArr [x; y])) (pair_of true a b (JArr [x; y]))).
  destruct (noexcept _); try reflexivity. apply IH.
Qed.
Lemma missing_null : forall fs o n old, missing o n -> cextr true (TyStructObj fs) (JObj o) old = cextr true (TyStructObj fs) (JObj (o ++ [(n, JNll)])) old.
Proof.
  intros fs o n old M. rewrite !cextr_sobj. f_equal. generalize (match old with VTup cs => cs | _ => [] end).
  induction fs as [|(m, t) fs IH]; intros cs; [reflexivity|]. cbn [sobj_loop]. rewrite IH.
  assert (E : lookup m (o ++ [(n, JNll)]) = match lookup m o with Some x => Some x | None => if bytes_eqb n m then Some JNll else None end).
  { clear. unfold lookup. induction o as [|(k, x) o IH]; cbn [app find fst]; [destruct (bytes_eqb n m); reflexivity|]. destruct (bytes_eqb k m); [reflexivity|exact IH]. }
  rewrite E. destruct (lookup m o); [reflexivity|]. destruct (bytes_eqb n m); reflexivity.
Qed.
Lemma short_pair : forall nd a b x old, cextr nd (TyPair a b) (JArr []) old = Throw "out_of_range"%string /\
  (reads (negb nd) a x -> (nd = false -> fits a x) -> cextr nd (TyPair a b) (JArr [x]) old = Throw "out_of_range"%string).
Proof.
  intros nd a b x old. split; [reflexivity|]. intros R F. rewrite cextr_pair. unfold pair_of.
  assert (G : okp (asserted nd (isNoNum a x) (cextr nd a x (fresh a)))).
  { pose proof (one (negb nd) a x (fresh a) (defined (negb nd) a)) as O. rewrite negb_involutive in O. apply O. split; [exact R|]. intros N. apply F. now apply negb_true_iff. }
  destruct G as (c & ->). reflexivity.
Qed.
Lemma short_tuple : forall ts l old, (length l < length ts)%nat -> Forall2 (reads false) (firstn (length l) ts) l ->
  cextr true (TyTuple ts) (JArr l) old = Throw "out_of_range"%string /\ cextr true (TyStructArr ts) (JArr l) old = Throw "out_of_range"%string.
Proof.
  intros ts l old L F. rewrite cextr_tuple, cextr_sarr.
  assert (G : forall ts k i, k = skipn i l -> (length k < length ts)%nat -> Forall2 (reads false) (firstn (length k) ts) k ->
    tup_loop true (JArr l) ts i = Throw "out_of_range"%string /\ forall m, sarr_loop true (JArr l) ts i m = Throw "out_of_range"%string).
  { clear. induction ts as [|t ts IH]; intros k i E L F; [cbn in L; lia|]. cbn [tup_loop sarr_loop].
    pose proof (skipn_nth l i) as N. rewrite <- E in N. destruct (nth_error l i) as [x|]; [|split; reflexivity]. subst k.
    rewrite N in L, F. cbn [length firstn] in L, F. inversion F as [|? ? ? ? R F']; subst. destruct (IH _ (S i) eq_refl) as (I1 & I2); [lia|exact F'|].
    pose proof (defined false t x) as D. unfold asserted. cbn [negb orb] in D |- *. split; [|intros m].
    - destruct (proj2 (D (fresh t)) R) as (c & ->). cbn [obind]. now rewrite I1.
    - destruct (proj2 (D (hd (fresh t) m)) R) as (c & ->). cbn [obind]. now rewrite I2. }
  destruct (G ts l 0%nat eq_refl L F) as (G1 & G2). rewrite G1, G2. split; reflexivity.
Qed.
Lemma short_map : forall a b l1 e l2 old, reads false (TyMap a b) (JArr l1) -> (e = JArr [] \/ exists x, e = JArr [x] /\ reads false a x) ->
  cextr true (TyMap a b) (JArr (l1 ++ e :: l2)) old = Throw "terminate"%string.
Proof.
  intros a b l1 e l2 old R E. rewrite cextr_map. generalize (match old with VMap m => m | _ => [] end). cbn [reads] in R. specialize (R l1 eq_refl).
  induction l1 as [|e1 l1 IH]; intros m; cbn [app pairs_loop].
  - unfold asserted. cbn [orb]. destruct E as [->|(x & -> & Rx)]; [reflexivity|]. cbn [pair_of]. unfold asserted. cbn [orb].
    destruct (proj2 (defined false a x (fresh a)) Rx) as (c & Ec). cbn [negb] in Ec. rewrite Ec. reflexivity.
  - destruct (R e1) as (x & y & r & -> & R1 & R2 & _); [now left|]. unfold asserted at 1. cbn [orb pair_of]. unfold asserted. cbn [orb].
    destruct (proj2 (defined false a x (fresh a)) R1) as (c & Ec), (proj2 (defined false b y (fresh b)) R2) as (d & Ed). cbn [negb] in Ec, Ed.
    rewrite Ec. cbn [obind]. rewrite Ed. cbn [obind noexcept fst snd]. apply IH. intros e0 I. apply R. now right.
Qed.
Lemma read_exactly : forall strict t v old, (exists c, cextr (negb strict) t v old = Ok c) <-> reads strict t v.
Proof. intros. apply (defined strict t v old). Qed.

(** ** C arrays *)
Lemma elems_tuple : forall nd t v l, v = JArr l -> forall n i cs, cextr_elems nd t n i l = Ok cs <-> tup_loop nd v (repeat t n) i = Ok cs.
Proof.
  intros nd t v l ->. induction n as [|n IH]; intros i cs; cbn [cextr_elems repeat tup_loop]; [tauto|]. destruct (nth_error l i) as [x|].
  - unfold cas. destruct (asserted nd (isNoNum t x) (cextr nd t x (fresh t))) as [c| | |]; cbn [obind]; try tauto.
    specialize (IH (S i)). destruct (cextr_elems nd t n (S i) l) as [a| | |] eqn:E1; destruct (tup_loop nd (JArr l) (repeat t n) (S i)) as [b| | |] eqn:E2; cbn [obind];
      try (destruct (IH a) as (I1 & I2)); try (destruct (IH b) as (J1 & J2));
      try specialize (I1 eq_refl); try specialize (J2 eq_refl); try discriminate; try (split; discriminate).
    injection J2 as ->. tauto.
  - unfold asserted, out_of_range. destruct nd; split; discriminate.
Qed.
Lemma elems_length : forall nd t n i l cs, cextr_elems nd t n i l = Ok cs -> (n = 0 \/ i + n <= length l)%nat.
Proof.
  induction n as [|n IH]; intros i l cs H; [now left|]. right. cbn [cextr_elems] in H. destruct (nth_error l i) as [x|] eqn:E; [|discriminate].
  assert (L : (i < length l)%nat) by (apply nth_error_Some; congruence). destruct (cas nd t x) as [c| | |]; try discriminate. cbn [obind] in H.
  destruct (cextr_elems nd t n (S i) l) as [a| | |] eqn:E1; try discriminate. destruct (IH _ _ _ E1); lia.
Qed.
Lemma carray_tuple : forall nd t n v cs old, (0 < n)%nat -> (cextr_carray nd n t v = Ok cs <-> cextr nd (TyTuple (repeat t n)) v old = Ok (VTup cs)).
Proof.
  intros nd t n v cs old P. rewrite cextr_tuple. unfold cextr_carray. destruct n as [|n]; [lia|]. destruct v as [o|l|s|z|b0|]; try (cbn [repeat tup_loop obind]; split; discriminate).
  transitivity (tup_loop nd (JArr l) (repeat t (S n)) 0 = Ok cs).
  - rewrite <- (elems_tuple nd t (JArr l) l eq_refl). unfold asserted. destruct (nd || (S n <=? length l)%nat) eqn:E; [tauto|]. split; [discriminate|].
    intros H. apply elems_length in H. apply orb_false_iff in E as (_ & E). apply Nat.leb_gt in E. lia.
  - destruct (tup_loop nd (JArr l) (repeat t (S n)) 0) as [a| | |]; cbn [obind]; split; try discriminate; intros H; injection H as ->; reflexivity.
Qed.
Lemma getC_full : forall s i, (i <= length s)%nat -> exists c, getC s i = Ok c /\ firstn 1 (skipn i (s ++ [nul])) = [c].
Proof.
  induction s as [|d s IH]; intros i L; destruct i as [|i]; cbn [length] in L; try lia.
  - exists nul. split; reflexivity.
  - exists d. split; reflexivity.
  - destruct (IH i) as (c & E & F); [lia|]. exists c. split; [|exact F]. rewrite <- E. unfold getC. cbn [nth_error length]. reflexivity.
Qed.
Lemma getC_past : forall s i, (length s < i)%nat -> getC s i = UB.
Proof.
  intros s i L. unfold getC. rewrite (proj2 (nth_error_None s i)) by lia. replace (i =? length s)%nat with false; [reflexivity|]. symmetry. apply Nat.eqb_neq. lia.
Qed.
Lemma chars_read : forall n v cs, extr_chars n v = Ok cs <-> exists s, v = JStr s /\ (n <= S (length s))%nat /\ cs = firstn n (s ++ [nul]).
Proof.
  intros n v cs. destruct v as [o|l|s|z|b0|]; try (split; [discriminate|intros (s & E & _); discriminate]). cbn [extr_chars].
  assert (G : forall n i, copy_chars n i s = if (n =? 0)%nat || (n + i <=? S (length s))%nat then Ok (firstn n (skipn i (s ++ [nul]))) else UB).
  { induction n0 as [|k IH]; intros i; [reflexivity|]. cbn [copy_chars]. change (S k =? 0)%nat with false. cbn [orb]. destruct (le_lt_dec i (length s)) as [L|L].
    - destruct (getC_full s i L) as (c & E & F). rewrite E. cbn [obind]. rewrite IH.
      assert (F' : skipn i (s ++ [nul]) = c :: skipn (S i) (s ++ [nul])).
      { clear - F. revert i F. generalize (s ++ [nul]). induction l as [|d l IHl]; intros [|i] F; try discriminate; [now injection F as ->|]. exact (IHl i F). }
      rewrite F'. destruct (Nat.leb_spec (S k + i) (S (length s))).
      + replace ((k =? 0)%nat || (k + S i <=? S (length s))%nat) with true; [reflexivity|]. symmetry. apply orb_true_iff. right. apply Nat.leb_le. lia.
      + replace ((k =? 0)%nat || (k + S i <=? S (length s))%nat) with false; [reflexivity|]. symmetry. apply orb_false_iff. split; [apply Nat.eqb_neq|apply Nat.leb_gt]; lia.
    - rewrite getC_past by exact L. cbn [obind]. destruct (Nat.leb_spec (S k + i) (S (length s))); [lia|reflexivity]. }
  rewrite G. rewrite Nat.add_0_r. cbn [skipn]. split.
  - intros H. exists s. split; [reflexivity|]. destruct ((n =? 0)%nat || (n <=? S (length s))%nat) eqn:E; [|discriminate]. injection H as <-. split; [|reflexivity].
    apply orb_true_iff in E as [E|E]; [apply Nat.eqb_eq in E|apply Nat.leb_le in E]; lia.
  - intros (s' & E & L & ->). injection E as <-. replace (n <=? S (length s))%nat with true by (symmetry; now apply Nat.leb_le). rewrite orb_true_r. reflexivity.
Qed.
