(** Lemmas on argument packs, tuples and delegates. *)
From Coq Require Import String ZArith Arith Bool Lia List ZifyBool ZifyNat.
Import ListNotations.
From Verif Require Import Common MplModel MplProofs TupModel TupSpec.

Section Calls.
Context {S A : Type}.
Implicit Types (f : S -> list A -> ending S unit) (xs : list A) (s : S).

Lemma pack_elems : forall (xs : list A) base n, base + n <= length xs ->
  pack (fun c => elem (Z.of_nat (base + c)) xs) (seq 0 n) = Ok (firstn n (skipn base xs)).
Proof.
  intros xs base n H. destruct n as [|n]; [reflexivity|]. destruct xs as [|d xs']; [cbn in H; lia|]. set (xs := d :: xs') in *. clearbody xs.
  rewrite (pack_ok _ _ _ (fun c => nth (base + c) xs d)).
  - f_equal. rewrite <- (map_seq_nth _ d) by lia.
    replace (seq base (Datatypes.S n)) with (map (fun i => base + i) (seq 0 (Datatypes.S n))).
    + rewrite map_map. reflexivity.
    + generalize (Datatypes.S n). clear. intros n.
      assert (G : forall j, map (fun i => base + i) (seq j n) = seq (base + j) n).
      { induction n as [|n IH]; intros j; [reflexivity|]. cbn [seq map]. f_equal. rewrite IH. f_equal. lia. }
      rewrite G. f_equal. lia.
  - intros i Hi. apply in_seq in Hi. rewrite (elem_some d) by (unfold size; lia). now rewrite Nat2Z.id.
Qed.

Lemma groups_aux : forall n f gs pre s, 0 < n -> Forall (fun g => length g = n) pre -> Forall (fun g => length g = n) gs ->
  exec_groups n (seq (length pre) (length gs)) f (concat (pre ++ gs)) s = Ok (in_order (map (fun g s => f s g) gs) s).
Proof.
  intros n f gs. induction gs as [|g gs IH]; intros pre s N P G; [reflexivity|]. cbn [length seq exec_groups].
  pose proof (Forall_inv G) as G1. pose proof (Forall_inv_tail G) as G2. cbv beta in G1.
  assert (L : forall l : list (list A), Forall (fun g => length g = n) l -> length (concat l) = length l * n).
  { clear. intros l H. induction H as [|x l E F IH]; [reflexivity|]. cbn [concat]. rewrite app_length, IH, E. cbn. lia. }
  unfold execN. rewrite pack_elems.
  - rewrite concat_app, <- (L pre P). rewrite skipn_app, skipn_all, Nat.sub_diag. cbn [app skipn concat].
    rewrite firstn_app, G1, Nat.sub_diag, firstn_O, app_nil_r, <- G1, firstn_all. rewrite G1.
    cbn [map in_order]. destruct (f s g) as [s' []|s' m|]; [|reflexivity|reflexivity].
    specialize (IH (pre ++ [g]) s' N). rewrite app_length in IH. cbn [length] in IH.
    replace (Datatypes.S (length pre)) with (length pre + 1) by lia.
    replace (concat pre ++ g ++ concat gs) with (concat ((pre ++ [g]) ++ gs)) by (rewrite !concat_app; cbn; now rewrite app_nil_r, <- app_assoc).
    apply IH; [|exact G2]. apply Forall_app. split; [exact P|]. constructor; [exact G1|constructor].
  - rewrite concat_app, app_length, (L pre P). cbn [concat]. rewrite app_length. lia.
Qed.
Lemma forArgs_groups : forall n f gs s, 0 < n -> Forall (fun g => length g = n) gs ->
  forArgs n f (concat gs) s = Ok (in_order (map (fun g s => f s g) gs) s).
Proof.
  intros n f gs s N G. unfold forArgs. destruct n as [|n]; [lia|]. set (k := Datatypes.S n) in *.
  assert (L : length (concat gs) = length gs * k).
  { clear - G. induction G as [|x l E F IH]; [reflexivity|]. cbn [concat]. rewrite app_length, IH, E. cbn. lia. }
  rewrite L, Nat.mod_mul, Nat.div_mul by lia. cbn [Nat.eqb]. exact (groups_aux k f gs [] s N ltac:(constructor) G).
Qed.
Lemma forArgs_refused : forall n f xs s, n = 0 \/ length xs mod n <> 0 -> forArgs n f xs s = illformed.
Proof.
  intros n f xs s H. unfold forArgs. destruct n as [|n]; [reflexivity|]. destruct (Nat.eqb _ 0) eqn:E; [|reflexivity].
  apply Nat.eqb_eq in E. destruct H as [H|H]; [discriminate|contradiction].
Qed.
Lemma divisible_groups : forall n xs, 0 < n -> length xs mod n = 0 -> exists gs, concat gs = xs /\ Forall (fun g => length g = n) gs.
Proof.
  intros n xs N H. apply Nat.mod_divides in H; [|lia]. destruct H as (k & H). revert xs H. induction k as [|k IH]; intros xs H.
  - exists []. split; [|constructor]. destruct xs; [reflexivity|cbn in H; lia].
  - destruct (IH (skipn n xs)) as (gs & E & F); [rewrite skipn_length; lia|].
    exists (firstn n xs :: gs). split; [cbn; rewrite E; apply firstn_skipn|]. constructor; [rewrite firstn_length; lia|exact F].
Qed.

(** ** Tuples *)
Lemma getMinOf_spec : forall r a, (getMinOf a r = a \/ In (getMinOf a r) r) /\ getMinOf a r <= a /\ forall x, In x r -> getMinOf a r <= x.
Proof.
  induction r as [|b r IH]; intros a; cbn [getMinOf].
  - split; [now left|]. split; [lia|easy].
  - destruct (IH b) as (E & M & F). set (m := getMinOf b r) in *. clearbody m. destruct (a <? m) eqn:L.
    + split; [now left|]. split; [lia|]. intros x [->|X]; [lia|]. specialize (F x X). lia.
    + split; [right; destruct E as [->|E]; [now left|now right]|]. split; [lia|]. intros x [->|X]; [lia|exact (F x X)].
Qed.
Implicit Types (h : S -> nat -> list A -> ending S unit).
Definition row (d : A) (tpls : list (list A)) (i : nat) : list A := map (fun t => nth i t d) tpls.
Lemma pack_row : forall d (tpls : list (list A)) i, (forall t, In t tpls -> i < length t) ->
  pack (fun t => elem (Z.of_nat i) t) tpls = Ok (row d tpls i).
Proof.
  intros d tpls i H. apply pack_ok. intros t Ht. rewrite (elem_some d) by (unfold size; specialize (H t Ht); lia). now rewrite Nat2Z.id.
Qed.
Lemma exec_tpl_returned : forall d nx h (tpls : list (list A)) k i s, (forall t, In t tpls -> i + k <= length t) ->
  match in_order (map (fun j s => h s j (row d tpls j)) (seq i k)) s with
  | Raised s' m => (forall j, i <= j < i + k -> nx j = false) -> exec_tpl nx h tpls k i s = Ok (Raised s' m)
  | e => exec_tpl nx h tpls k i s = Ok e
  end.
Proof.
  intros d nx h tpls k. induction k as [|k IH]; intros i s H; [reflexivity|].
  cbn [seq map in_order exec_tpl]. rewrite (pack_row d) by (intros t Ht; specialize (H t Ht); lia).
  destruct (h s i (row d tpls i)) as [s' []|s' m|] eqn:E; cbn [guarded].
  - replace (i + 1) with (Datatypes.S i) by lia.
    assert (H' : forall t, In t tpls -> Datatypes.S i + k <= length t) by (intros t Ht; specialize (H t Ht); lia).
    specialize (IH (Datatypes.S i) s' H').
    destruct (in_order (map (fun j s => h s j (row d tpls j)) (seq (Datatypes.S i) k)) s') as [s'' []|s'' m|] eqn:F.
    + rewrite IH. reflexivity.
    + intros N. rewrite IH by (intros j Hj; apply N; lia). cbn [guarded]. rewrite N by lia. reflexivity.
    + rewrite IH. reflexivity.
  - intros N. rewrite N by lia. reflexivity.
  - reflexivity.
Qed.
Lemma exec_tpl_raised : forall d nx h (tpls : list (list A)) k i s s' m, (forall t, In t tpls -> i + k <= length t) -> nx i = true ->
  in_order (map (fun j s => h s j (row d tpls j)) (seq i k)) s = Raised s' m -> exec_tpl nx h tpls k i s = Ok Terminated.
Proof.
  intros d nx h tpls k i s s' m H N E. destruct k as [|k]; [discriminate|].
  cbn [seq map in_order exec_tpl] in *. rewrite (pack_row d) by (intros t Ht; specialize (H t Ht); lia).
  destruct (h s i (row d tpls i)) as [s1 []|s1 m1|] eqn:F; cbn [guarded]; [|now rewrite N|discriminate].
  assert (G : forall k i s, (forall t, In t tpls -> i + k <= length t) -> forall s' m,
    in_order (map (fun j s => h s j (row d tpls j)) (seq i k)) s = Raised s' m ->
    exec_tpl nx h tpls k i s = Ok (Raised s' m) \/ exec_tpl nx h tpls k i s = Ok Terminated).
  { clear. induction k as [|k IH]; intros i s H s' m E; [discriminate|]. cbn [seq map in_order exec_tpl] in *.
    rewrite (pack_row d) by (intros t Ht; specialize (H t Ht); lia).
    destruct (h s i (row d tpls i)) as [s1 []|s1 m1|] eqn:F; cbn [guarded]; [| |discriminate].
    - replace (i + 1) with (Datatypes.S i) by lia.
      destruct (IH (Datatypes.S i) s1 ltac:(intros t Ht; specialize (H t Ht); lia) s' m E) as [G|G]; rewrite G; cbn [guarded]; [|now right].
      destruct (nx i); [now right|now left].
    - injection E as -> ->. destruct (nx i); [now right|now left]. }
  replace (i + 1) with (Datatypes.S i) by lia.
  destruct (G k (Datatypes.S i) s1 ltac:(intros t Ht; specialize (H t Ht); lia) s' m E) as [X|X]; rewrite X; cbn [guarded]; [now rewrite N|reflexivity].
Qed.
(** The number of positions all tuples have. *)
Definition shortest (tpls : list (list A)) (n : nat) : Prop := (exists t, In t tpls /\ length t = n) /\ forall t, In t tpls -> n <= length t.
Lemma shortest_unique : forall tpls n n', shortest tpls n -> shortest tpls n' -> n = n'.
Proof. intros tpls n n' [(t & T & E) M] [(t' & T' & E') M']. specialize (M t' T'). specialize (M' t T). lia. Qed.
Lemma tplFor_unfold : forall nx h tpls n s, shortest tpls n -> tplFor nx h tpls s = match n with O => illformed | _ => exec_tpl nx h tpls n 0 s end.
Proof.
  intros nx h tpls n s H. unfold tplFor. destruct tpls as [|t r]; [destruct H as [(t & [] & _) _]|].
  assert (M : shortest (t :: r) (getMinOf (length t) (map (@length A) r))).
  { destruct (getMinOf_spec (map (@length A) r) (length t)) as (E & M & F). split.
    - destruct E as [E|E]; [exists t; split; [now left|symmetry; exact E]|]. apply in_map_iff in E. destruct E as (u & U & I). exists u. split; [now right|exact U].
    - intros u [->|U]; [exact M|]. apply F. now apply in_map. }
  rewrite (shortest_unique _ _ _ M H). destruct n; reflexivity.
Qed.
Lemma tplFor_spec : forall d nx h tpls n s, shortest tpls n -> 0 < n ->
  match in_order (map (fun j s => h s j (row d tpls j)) (seq 0 n)) s with
  | Raised s' m => ((forall j, j < n -> nx j = false) -> tplFor nx h tpls s = Ok (Raised s' m)) /\
                   (nx 0 = true -> tplFor nx h tpls s = Ok Terminated)
  | e => tplFor nx h tpls s = Ok e
  end.
Proof.
  intros d nx h tpls n s H N. rewrite (tplFor_unfold nx h tpls n s H). destruct n as [|n]; [lia|]. set (k := Datatypes.S n) in *.
  assert (B : forall t, In t tpls -> 0 + k <= length t) by (intros t Ht; apply H in Ht; lia).
  pose proof (exec_tpl_returned d nx h tpls k 0 s B) as X.
  destruct (in_order _ s) as [s' []|s' m|] eqn:E; [exact X| |exact X].
  split; [intros Y; apply X; intros j Hj; apply Y; lia|]. intros Y. exact (exec_tpl_raised d nx h tpls k 0 s s' m B Y E).
Qed.
Lemma tplFor_empty : forall nx h tpls s, tpls = [] \/ shortest tpls 0 -> tplFor nx h tpls s = illformed.
Proof. intros nx h tpls s [->|H]; [reflexivity|]. now rewrite (tplFor_unfold nx h tpls 0 s H). Qed.

Lemma exploder_spec : forall R (f : S -> list A -> ending S R) t n args s, n <= length t ->
  exploder n f t args s = Ok (guarded (0 <? n) (f s (firstn n t ++ args))).
Proof.
  intros R f t n. induction n as [|n IH]; intros args s H.
  - cbn. destruct (f s args); reflexivity.
  - cbn [exploder]. destruct t as [|d t'] eqn:T; [cbn in H; lia|]. rewrite <- T in *. rewrite (elem_some d) by (unfold size; lia). rewrite Nat2Z.id.
    rewrite IH by lia. assert (E : firstn n t ++ nth n t d :: args = firstn (Datatypes.S n) t ++ args).
    { change (nth n t d :: args) with ([nth n t d] ++ args). rewrite app_assoc. f_equal. clear - H.
      revert n H. induction t as [|x t IH]; intros [|n] H; cbn in *; try lia; [reflexivity|]. f_equal. apply IH. lia. }
    rewrite E. destruct (f s _); cbn [guarded]; try reflexivity. destruct (0 <? n); reflexivity.
Qed.
Lemma explode_spec : forall R (f : S -> list A -> ending S R) t s,
  explode f t s = Ok (match f s t with Raised s' m => match t with [] => Raised s' m | _ => Terminated end | e => e end).
Proof.
  intros R f t s. unfold explode. rewrite exploder_spec by lia. rewrite firstn_all, app_nil_r. f_equal.
  destruct (f s t) as [| |]; cbn [guarded]; try reflexivity. destruct t; reflexivity.
Qed.

Lemma tplIdx_spec : forall eqb, (forall x y : A, eqb x y = true <-> x = y) -> forall x t,
  (In x t -> exists i, getTplIdxOf eqb x t = Ok i /\ nth_error t i = Some x /\ forall j, j < i -> nth_error t j <> Some x) /\
  (~ In x t -> getTplIdxOf eqb x t = illformed).
Proof.
  intros eqb H x t. induction t as [|y t [IH1 IH2]]; [split; [easy|reflexivity]|]. cbn [getTplIdxOf]. destruct (eqb x y) eqn:E.
  - apply H in E. subst y. split; [|intros N; exfalso; apply N; now left]. intros _. exists 0. split; [reflexivity|]. split; [reflexivity|]. intros j Hj. lia.
  - assert (N : x <> y) by (intros ->; assert (eqb y y = true) by (now apply H); congruence). split.
    + intros [->|I]; [contradiction|]. destruct (IH1 I) as (i & E1 & E2 & E3). exists (1 + i). rewrite E1. split; [reflexivity|]. split; [exact E2|].
      intros [|j] Hj; cbn; [congruence|]. apply E3. lia.
    + intros I. rewrite IH2; [reflexivity|]. intros K. apply I. now right.
Qed.
Lemma tplRepeat_spec : forall (x : A) n, TplRepeat x n = repeat x n.
Proof.
  intros x n. unfold TplRepeat. assert (G : forall n args, TplRepeatHelper x n args = args ++ repeat x n).
  { clear. induction n as [|n IH]; intros args; cbn; [now rewrite app_nil_r|]. now rewrite IH, <- app_assoc. }
  apply G.
Qed.
End Calls.

(** ** Maps and vectors from arguments *)
Lemma mkVector_spec : forall A (xs : list A), mkVector xs = xs.
Proof.
  intros A xs. unfold mkVector. assert (G : forall xs r : list A, fold_left (fun r x => r ++ [x]) xs r = r ++ xs).
  { clear. induction xs as [|x xs IH]; intros r; cbn; [now rewrite app_nil_r|]. now rewrite IH, <- app_assoc. }
  apply G.
Qed.
Section Map.
Context {A : Type} (keqb : A -> A -> bool).
Hypothesis keqb_eq : forall x y, keqb x y = true <-> x = y.
Lemma emplace_keys : forall (m : list (A * A)) k v, NoDup (map fst m) -> NoDup (map fst (emplace keqb m k v)).
Proof.
  intros m k v H. unfold emplace. destruct (existsb _ m) eqn:E; [exact H|]. rewrite map_app. cbn [map fst].
  apply NoDup_rev in H. rewrite <- (rev_involutive (map fst m ++ [k])). apply NoDup_rev. rewrite rev_app_distr. cbn. constructor; [|exact H].
  intros I. apply in_rev in I. apply in_map_iff in I. destruct I as ((k', v') & K & I). cbn in K. subst k'.
  assert (existsb (fun e => keqb k (fst e)) m = true) by (apply existsb_exists; exists (k, v'); split; [exact I|now apply keqb_eq]). congruence.
Qed.
Definition first_for (ps : list (A * A)) (k v : A) : Prop := exists a b, ps = a ++ (k, v) :: b /\ ~ In k (map fst a).
Lemma emplace_first : forall (done : list (A * A)) m k0 v0, (forall k v, In (k, v) m <-> first_for done k v) ->
  forall k v, In (k, v) (emplace keqb m k0 v0) <-> first_for (done ++ [(k0, v0)]) k v.
Proof.
  intros done m k0 v0 H k v.
  assert (KM : forall k, In k (map fst m) <-> In k (map fst done)).
  { intros q. split; intros I.
    - apply in_map_iff in I. destruct I as ((k', v') & <- & I). apply H in I. destruct I as (a & b & -> & _). rewrite map_app. apply in_or_app. right. now left.
    - assert (X : exists v, first_for done q v).
      { clear - I keqb_eq. induction done as [|(k1, v1) done IH]; [easy|]. destruct (keqb q k1) eqn:E.
        - apply keqb_eq in E. subst. exists v1, [], done. split; [reflexivity|easy].
        - cbn in I. destruct I as [->|I]; [assert (keqb q q = true) by (now apply keqb_eq); congruence|].
          destruct (IH I) as (v & a & b & -> & N). exists v, ((k1, v1) :: a), b. split; [reflexivity|]. cbn. intros [->|K]; [|contradiction].
          assert (keqb q q = true) by (now apply keqb_eq). congruence. }
      destruct X as (v1 & X). apply H in X. now apply (in_map fst) in X. }
  assert (FF : first_for (done ++ [(k0, v0)]) k v <-> first_for done k v \/ (~ In k0 (map fst done) /\ k = k0 /\ v = v0)).
  { split.
    - intros (a & b & E & N). destruct b as [|p b] using rev_ind.
      + apply app_inj_tail in E. destruct E as [-> [= -> ->]]. right. auto.
      + clear IHb. rewrite app_comm_cons, app_assoc in E. apply app_inj_tail in E. destruct E as [-> _]. left. exists a, b. auto.
    - intros [(a & b & -> & N)|(N & -> & ->)].
      + exists a, (b ++ [(k0, v0)]). split; [now rewrite <- app_assoc|exact N].
      + exists done, []. auto. }
  rewrite FF. unfold emplace. destruct (existsb (fun e => keqb k0 (fst e)) m) eqn:E.
  - rewrite H. split; [auto|]. intros [X|(N & _)]; [exact X|]. exfalso. apply N. apply KM.
    apply existsb_exists in E. destruct E as ((k', v') & I & E). apply keqb_eq in E. cbn in E. subst k'. now apply (in_map fst) in I.
  - rewrite in_app_iff, H. cbn [In]. split.
    + intros [X|[[= -> ->]|[]]]; [auto|]. right. split; [|auto]. intros I. apply KM in I. apply in_map_iff in I. destruct I as ((k', v') & K & I). cbn in K. subst k'.
      assert (existsb (fun e => keqb k (fst e)) m = true) by (apply existsb_exists; exists (k, v'); split; [exact I|now apply keqb_eq]). congruence.
    + intros [X|(_ & -> & ->)]; auto.
Qed.
Lemma mkMap_spec : forall ps : list (A * A), exists m, mkUnorderedMap keqb (flat_map (fun p => [fst p; snd p]) ps) = Ok (Returned m tt) /\
  NoDup (map fst m) /\ forall k v, In (k, v) m <-> first_for ps k v.
Proof.
  intros ps. unfold mkUnorderedMap. rewrite flat_map_concat_map. rewrite forArgs_groups.
  - rewrite map_map.
    assert (G : forall ps done m, NoDup (map fst m) -> (forall k v, In (k, v) m <-> first_for done k v) ->
      exists m', in_order (map (fun (p : A * A) (s : list (A * A)) => Returned (emplace keqb s (fst p) (snd p)) tt) ps) m = Returned m' tt /\
        NoDup (map fst m') /\ forall k v, In (k, v) m' <-> first_for (done ++ ps) k v).
    { clear ps. induction ps as [|(k0, v0) ps IH]; intros done m N H; cbn [map in_order].
      - exists m. rewrite app_nil_r. auto.
      - cbn [fst snd]. replace (done ++ (k0, v0) :: ps) with ((done ++ [(k0, v0)]) ++ ps) by (now rewrite <- app_assoc).
        apply IH; [now apply emplace_keys|now apply emplace_first]. }
    destruct (G ps [] []) as (m & E & N & H); [constructor|intros k v; split; [easy|intros (a & b & K & _); destruct a; discriminate]|].
    exists m. split; [f_equal; exact E|]. auto.
  - lia.
  - apply Forall_forall. intros g Hg. apply in_map_iff in Hg. destruct Hg as (p & <- & _). reflexivity.
Qed.
End Map.

(** ** Delegates *)
Section Delegates.
Context {S Args R : Type}.
Notation func := (@func S Args R).
Lemma exec_spec : forall (d : list func) args s acc, (forall f s', In f d -> snd (f s' args) = Same) ->
  exec d args s acc = Ok (match collect (map (fun (f : func) s => fst (f s args)) d) s with
                          | Returned s' xs => Returned s' (acc ++ xs) | Raised s' m => Raised s' m | Terminated => Terminated end).
Proof.
  induction d as [|f d IH]; intros args s acc H; cbn [exec map collect]; [now rewrite app_nil_r|].
  pose proof (H f s (or_introl eq_refl)) as Hf. destruct (f s args) as [[s' r|s' m|] c]; cbn [fst snd] in *; subst c; [|reflexivity|reflexivity].
  rewrite IH by (intros g s1 Hg; apply H; now right). destruct (collect _ s'); try reflexivity. now rewrite <- app_assoc.
Qed.
Lemma call_spec : forall (d : list func) args s, (forall f s', In f d -> snd (f s' args) = Same) ->
  call d args s = Ok (collect (map (fun (f : func) s => fst (f s args)) d) s).
Proof. intros d args s H. unfold call. rewrite exec_spec by exact H. destruct (collect _ s); reflexivity. Qed.
Lemma after_adds : forall (fs : list func) d0, fold_left (fun d o => match o with Add f => add d f | Clear => clear d end) (map (@Add func) fs) d0 = d0 ++ fs.
Proof. induction fs as [|f fs IH]; intros d0; cbn; [now rewrite app_nil_r|]. rewrite IH. unfold add. now rewrite <- app_assoc. Qed.
Lemma history_spec : forall (h : list (op func)) fs, after (map (@Add func) fs) = fs /\ after (h ++ Clear :: map (@Add func) fs) = fs.
Proof.
  intros h fs. split; [apply (after_adds fs [])|]. unfold after. rewrite fold_left_app. cbn [fold_left]. apply (after_adds fs []).
Qed.
Lemma history_form : forall h : list (op func), exists fs, h = map (@Add func) fs \/ exists h', h = h' ++ Clear :: map (@Add func) fs.
Proof.
  intros h. induction h as [|o h IH] using rev_ind; [exists []; now left|]. destruct o as [f|].
  - destruct IH as (fs & [->|(h' & ->)]); exists (fs ++ [f]); rewrite map_app; [now left|]. right. exists h'. now rewrite <- app_assoc.
  - exists []. right. exists h. reflexivity.
Qed.
Lemma change_ub : forall (a b : list func) f args s s1 xs s2 r, (forall g s', In g a -> snd (g s' args) = Same) ->
  collect (map (fun (g : func) s => fst (g s args)) a) s = Returned s1 xs -> f s1 args = (Returned s2 r, Changed) ->
  call (a ++ f :: b) args s = UB.
Proof.
  intros a b f args s s1 xs s2 r H E F. unfold call. generalize (@nil R). revert s xs E. induction a as [|g a IH]; intros s xs E acc.
  - cbn in E. injection E as -> <-. cbn [app exec]. now rewrite F.
  - cbn [map collect] in E. cbn [app exec]. pose proof (H g s (or_introl eq_refl)) as Hg.
    destruct (g s args) as [[s' r'|s' m|] c]; cbn [fst snd] in *; subst c; try discriminate.
    destruct (collect (map (fun (g0 : func) (s0 : S) => fst (g0 s0 args)) a) s') as [s3 xs'|s3 m|] eqn:G; try discriminate. injection E as -> <-.
    apply (IH (fun g' s'' Hg' => H g' s'' (or_intror Hg')) s' xs' G).
Qed.
End Delegates.
Lemma history_full : forall S Args R (h : list (op (@func S Args R))),
  exists fs, (h = map Add fs \/ exists h', h = h' ++ Clear :: map Add fs) /\ after h = fs /\
  (isEmpty (after h) = true <-> fs = []).
Proof.
  intros S Args R h. destruct (history_form h) as (fs & E). exists fs. split; [exact E|].
  assert (A : after h = fs) by (destruct E as [->|(h' & ->)]; apply (history_spec [] fs) || apply (history_spec h' fs)).
  split; [exact A|]. rewrite A. destruct fs; cbn; split; congruence.
Qed.
Lemma tplFor_with_empty : forall S A nx (h : S -> nat -> list A -> ending S unit) tpls s, In [] tpls -> tplFor nx h tpls s = illformed.
Proof.
  intros S A nx h tpls s H. apply tplFor_empty. right. split; [exists []; split; [exact H|reflexivity]|]. intros. lia.
Qed.
