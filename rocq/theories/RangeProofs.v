From Coq Require Import String Ascii ZArith Arith Bool Lia List.
From Verif Require Import Common JsonNumModel JsonModel JsonCnvModel RangeModel RangeSpec.
Import ListNotations.

Lemma elem_app : forall A (a : list A) x b, elem (a ++ x :: b) (length a) = Ok x.
Proof. intros. unfold elem. rewrite nth_error_app2, Nat.sub_diag by lia. reflexivity. Qed.
Lemma moved_ok : forall A (c : list A) p off, (0 <= Z.of_nat p + off <= Z.of_nat (length c))%Z -> moved c p off = Ok (Z.to_nat (Z.of_nat p + off)).
Proof. intros A c p off H. unfold moved. destruct (Z.leb_spec 0 (Z.of_nat p + off)), (Z.leb_spec (Z.of_nat p + off) (Z.of_nat (length c))); cbn [andb]; (reflexivity || lia). Qed.
Lemma move_next : forall A (c : list A) p, p < length c -> move c (Fwd p) 1 = Ok (Fwd (S p)).
Proof. intros A c p H. unfold move. rewrite moved_ok by lia. cbn [obind]. do 2 f_equal. lia. Qed.
Lemma move_rnext : forall A (c : list A) p, p < length c -> move c (Rev (S p)) 1 = Ok (Rev p).
Proof. intros A c p H. unfold move. rewrite moved_ok by lia. cbn [obind]. do 2 f_equal. lia. Qed.

Section VISIT.
Context {A B S : Type} (get : A -> outcome B) (body : S -> B -> outcome S).
Lemma for_forward : forall m a b fuel st, length m < fuel ->
  for_range (a ++ m ++ b) get body fuel (Fwd (length a)) (Fwd (length a + length m)) st = visit get body m st.
Proof.
  induction m as [|x m IH]; intros a b fuel st F; (destruct fuel as [|fuel]; [cbn in F; lia|]); cbn [for_range length]; unfold a_eq, itr_eqb.
  - rewrite Nat.add_0_r, Nat.eqb_refl. reflexivity.
  - destruct (Nat.eqb_spec (length a) (length a + Datatypes.S (length m))); [lia|]. unfold a_deref. cbn [deref app].
    rewrite elem_app. cbn [obind visit]. destruct (get x) as [y| | |]; [|reflexivity..]. cbn [obind].
    destruct (body st y) as [st'| | |]; [|reflexivity..]. cbn [obind]. unfold a_inc. rewrite move_next by (rewrite app_length; cbn; lia). cbn [obind].
    cbn [length] in F.
    replace (a ++ x :: m ++ b) with ((a ++ [x]) ++ m ++ b) by (rewrite <- app_assoc; reflexivity).
    replace (Datatypes.S (length a)) with (length (a ++ [x])) by (rewrite app_length; cbn; lia).
    replace (length a + Datatypes.S (length m)) with (length (a ++ [x]) + length m) by (rewrite app_length; cbn; lia).
    apply IH. lia.
Qed.
Lemma for_backward : forall m a b fuel st, length m < fuel ->
  for_range (a ++ m ++ b) get body fuel (Rev (length a + length m)) (Rev (length a)) st = visit get body (rev m) st.
Proof.
  induction m as [|x m IH] using rev_ind; intros a b fuel st F; (destruct fuel as [|fuel]; [cbn in F; lia|]); cbn [for_range]; unfold a_eq, itr_eqb.
  - cbn [length]. rewrite Nat.add_0_r, Nat.eqb_refl. reflexivity.
  - rewrite app_length in *. cbn [length] in *. destruct (Nat.eqb_spec (length a + (length m + 1)) (length a)); [lia|].
    rewrite rev_unit. cbn [visit]. replace (length a + (length m + 1)) with (Datatypes.S (length a + length m)) by lia.
    unfold a_deref. cbn [deref]. rewrite <- app_assoc. cbn [app].
    replace (elem (a ++ m ++ x :: b) (length a + length m)) with (Ok x).
    2:{ rewrite app_assoc, <- app_length. symmetry. apply elem_app. }
    cbn [obind]. destruct (get x) as [y| | |]; [|reflexivity..]. cbn [obind].
    destruct (body st y) as [st'| | |]; [|reflexivity..]. cbn [obind]. unfold a_inc. rewrite move_rnext by (rewrite !app_length; cbn; lia). cbn [obind].
    apply (IH a (x :: b)). lia.
Qed.
Lemma range_whole : forall c fuel st, length c < fuel -> for_range c get body fuel (fst (asRange c)) (snd (asRange c)) st = visit get body c st.
Proof.
  intros c fuel st F. pose proof (for_forward c [] [] fuel st F) as H. cbn [app length] in H. rewrite app_nil_r, Nat.add_0_l in H. exact H.
Qed.
Lemma range_reverse : forall c fuel st, length c < fuel -> for_range c get body fuel (fst (asRangeReverse c)) (snd (asRangeReverse c)) st = visit get body (rev c) st.
Proof.
  intros c fuel st F. pose proof (for_backward c [] [] fuel st F) as H. cbn [app length] in H. rewrite app_nil_r, Nat.add_0_l in H. exact H.
Qed.
Lemma range_slice : forall c i j fuel st, i <= j <= length c -> length c < fuel ->
  for_range c get body fuel (Fwd i) (Fwd j) st = visit get body (slice i j c) st /\
  for_range c get body fuel (Rev j) (Rev i) st = visit get body (rev (slice i j c)) st.
Proof.
  intros c i j fuel st H F.
  assert (E : c = firstn i c ++ slice i j c ++ skipn (j - i) (skipn i c)) by (unfold slice; rewrite firstn_skipn, firstn_skipn; reflexivity).
  assert (Li : length (firstn i c) = i) by (rewrite firstn_length; lia).
  assert (Lm : length (slice i j c) = j - i) by (unfold slice; rewrite firstn_length, skipn_length; lia).
  pose proof (for_forward (slice i j c) (firstn i c) (skipn (j - i) (skipn i c)) fuel st ltac:(lia)) as H1.
  pose proof (for_backward (slice i j c) (firstn i c) (skipn (j - i) (skipn i c)) fuel st ltac:(lia)) as H2.
  rewrite <- E, Li, Lm in H1, H2. replace (i + (j - i)) with j in * by lia. split; assumption.
Qed.
(** The end before the beginning: the loop leaves the container. *)
Lemma range_inverted : forall c, (forall x, In x c -> exists y, get x = Ok y) -> (forall st y, exists st', body st y = Ok st') ->
  forall fuel k i st, k = length c - i -> k < fuel -> i <= length c -> forall j, j < i -> for_range c get body fuel (Fwd i) (Fwd j) st = UB.
Proof.
  intros c G Bd. induction fuel as [|fuel IH]; intros k i st K F I j J; [lia|]. cbn [for_range]. unfold a_eq, itr_eqb. destruct (Nat.eqb_spec i j); [lia|].
  unfold a_deref. cbn [deref]. unfold elem. destruct (nth_error c i) as [x|] eqn:N; [|reflexivity]. cbn [obind].
  destruct (G x (nth_error_In _ _ N)) as [y ->]. cbn [obind]. destruct (Bd st y) as [st' ->]. cbn [obind].
  assert (i < length c) by (apply nth_error_Some; congruence). unfold a_inc. rewrite move_next by assumption. cbn [obind].
  apply (IH (k - 1)); lia.
Qed.
(** Standard postfix increment in a loop: each element is visited. *)
Lemma while_std : forall m a b fuel st, length m < fuel ->
  while_post (a ++ m ++ b) get body (std_inc_post (a ++ m ++ b)) fuel (Fwd (length a)) (Fwd (length a + length m)) st = visit get body m st.
Proof.
  induction m as [|x m IH]; intros a b fuel st F; (destruct fuel as [|fuel]; [cbn in F; lia|]); cbn [while_post length]; unfold a_eq, itr_eqb.
  - rewrite Nat.add_0_r, Nat.eqb_refl. reflexivity.
  - destruct (Nat.eqb_spec (length a) (length a + Datatypes.S (length m))); [lia|]. unfold std_inc_post at 1.
    rewrite move_next by (rewrite app_length; cbn; lia). cbn [obind]. unfold a_deref. cbn [deref app].
    rewrite elem_app. cbn [obind visit]. destruct (get x) as [y| | |]; [|reflexivity..]. cbn [obind].
    destruct (body st y) as [st'| | |]; [|reflexivity..]. cbn [obind].
    cbn [length] in F.
    replace (a ++ x :: m ++ b) with ((a ++ [x]) ++ m ++ b) by (rewrite <- app_assoc; reflexivity).
    replace (Datatypes.S (length a)) with (length (a ++ [x])) by (rewrite app_length; cbn; lia).
    replace (length a + Datatypes.S (length m)) with (length (a ++ [x]) + length m) by (rewrite app_length; cbn; lia).
    apply IH. lia.
Qed.
(** That of the adaptors: the first element is left out, and after the last one the end is read. *)
Lemma while_adaptor : forall c, c <> [] -> (forall x, In x c -> exists y, get x = Ok y) -> (forall st y, exists st', body st y = Ok st') ->
  forall fuel st, length c < fuel -> while_post c get body (a_inc_post c) fuel (Fwd 0) (Fwd (length c)) st = UB.
Proof.
  intros c NE G Bd. assert (L : 0 < length c) by (destruct c; [congruence|cbn; lia]).
  assert (W : forall fuel i st, i < length c -> length c - i < fuel -> while_post c get body (a_inc_post c) fuel (Fwd i) (Fwd (length c)) st = UB).
  { induction fuel as [|fuel IH]; intros i st I F; [lia|]. cbn [while_post]. unfold a_eq, itr_eqb. destruct (Nat.eqb_spec i (length c)); [lia|].
    unfold a_inc_post at 1. rewrite move_next by assumption. cbn [obind]. unfold a_deref. cbn [deref]. unfold elem.
    destruct (nth_error c (Datatypes.S i)) as [x|] eqn:N; [|reflexivity]. cbn [obind].
    destruct (G x (nth_error_In _ _ N)) as [y ->]. cbn [obind]. destruct (Bd st y) as [st' ->]. cbn [obind].
    assert (Datatypes.S i < length c) by (apply nth_error_Some; congruence). apply IH; lia. }
  intros fuel st F. apply W; lia.
Qed.
End VISIT.

(** Random access. *)
Lemma random_access : forall A (c : list A) p off, p <= length c -> (0 <= Z.of_nat p + off <= Z.of_nat (length c))%Z ->
  exists q, (Z.of_nat q = Z.of_nat p + off)%Z /\ a_add c (Fwd p) off = Ok (Fwd q) /\ a_sub c (Fwd q) off = Ok (Fwd p) /\
    a_lt (Fwd p) (Fwd q) = (0 <? off)%Z /\ a_eq (Fwd p) (Fwd q) = (off =? 0)%Z /\ deref c (Fwd q) = elem c q.
Proof.
  intros A c p off P H. exists (Z.to_nat (Z.of_nat p + off)). assert (E : Z.of_nat (Z.to_nat (Z.of_nat p + off)) = (Z.of_nat p + off)%Z) by lia.
  split; [exact E|]. unfold a_add, a_sub, move. rewrite !moved_ok by lia. cbn [obind]. repeat split.
  - do 2 f_equal. lia.
  - cbn [a_lt]. destruct (Z.ltb_spec 0 off), (Nat.ltb_spec p (Z.to_nat (Z.of_nat p + off))); (reflexivity || lia).
  - unfold a_eq, itr_eqb. destruct (Z.eqb_spec off 0), (Nat.eqb_spec p (Z.to_nat (Z.of_nat p + off))); (reflexivity || lia).
Qed.

Lemma steps_back : forall A (c : list A) p, p <= length c ->
  (p < length c -> a_inc c (Fwd p) = Ok (Fwd (S p), Fwd (S p)) /\ a_dec c (Fwd (S p)) = Ok (Fwd p, Fwd p) /\
                   a_inc c (Rev (S p)) = Ok (Rev p, Rev p) /\ a_dec c (Rev p) = Ok (Rev (S p), Rev (S p))) /\
  (p = length c -> a_inc c (Fwd p) = UB /\ a_dec c (Rev p) = UB) /\
  (p = 0 -> a_dec c (Fwd p) = UB /\ a_inc c (Rev p) = UB).
Proof.
  intros A c p P. unfold a_inc, a_dec, move. split; [|split].
  - intros H. rewrite !moved_ok by lia. cbn [obind]. repeat split; do 2 f_equal; f_equal; lia.
  - intros ->. unfold moved. split; (match goal with |- context [if ?b then _ else _] => replace b with false; [reflexivity|] end);
      symmetry; apply andb_false_intro2, Z.leb_gt; lia.
  - intros ->. split; reflexivity.
Qed.

(** JSON. *)
Lemma for_arr : forall S t a (body : S -> cv -> outcome S) st, forArrAs t (JArr a) body st = visit (get_arr t) body a st.
Proof. intros. cbn [forArrAs forUncheckedArrAs]. apply range_whole. lia. Qed.
Lemma for_obj : forall S t o (body : S -> bytes * cv -> outcome S) st, forObjAs t (JObj o) body st = visit (get_obj t) body o st.
Proof. intros. cbn [forObjAs forUncheckedObjAs]. apply range_whole. lia. Qed.
Lemma visit_ext : forall A B S (g h : A -> outcome B) (b : S -> B -> outcome S) l st, (forall x, In x l -> g x = h x) -> visit g b l st = visit h b l st.
Proof.
  intros A B S g h b. induction l as [|x l IH]; intros st H; [reflexivity|]. cbn [visit]. rewrite (H x) by (left; reflexivity).
  destruct (h x); [|reflexivity..]. cbn [obind]. destruct (b st a); [|reflexivity..]. cbn [obind]. apply IH. intros y Hy. apply H. right. exact Hy.
Qed.
Lemma visit_ok : forall A B S (g : A -> outcome B) (f : A -> B) (b : S -> B -> outcome S) l st, (forall x, In x l -> g x = Ok (f x)) ->
  visit g b l st = visit (fun y => Ok y) b (map f l) st.
Proof.
  intros A B S g f b. induction l as [|x l IH]; intros st H; [reflexivity|]. cbn [visit map]. rewrite (H x) by (left; reflexivity).
  cbn [obind]. destruct (b st (f x)); [|reflexivity..]. cbn [obind]. apply IH. intros y Hy. apply H. right. exact Hy.
Qed.
Lemma for_typed : forall S t,
  (forall a xs (body : S -> cv -> outcome S) st, Forall2 (fun v x => as_ t v = Ok x) a xs ->
     forArrAs t (JArr a) body st = visit (fun x => Ok x) body xs st /\ forUncheckedArrAs t (JArr a) body st = visit (fun x => Ok x) body xs st) /\
  (forall o xs (body : S -> bytes * cv -> outcome S) st, Forall2 (fun m x => fst m = fst x /\ as_ t (snd m) = Ok (snd x)) o xs ->
     forObjAs t (JObj o) body st = visit (fun x => Ok x) body xs st /\ forUncheckedObjAs t (JObj o) body st = visit (fun x => Ok x) body xs st).
Proof.
  intros S t. split.
  - intros a xs body st F. assert (E : visit (get_arr t) body a st = visit (fun x => Ok x) body xs st).
    { revert st. induction F as [|v x a xs H F IH]; intros st; [reflexivity|]. cbn [visit]. unfold get_arr at 1. rewrite H. cbn [nothrow obind].
      destruct (body st x); [|reflexivity..]. cbn [obind]. apply IH. }
    split; [rewrite for_arr|pose proof (for_arr S t a body st) as FA; cbn [forArrAs] in FA; rewrite FA]; exact E.
  - intros o xs body st F. assert (E : visit (get_obj t) body o st = visit (fun x => Ok x) body xs st).
    { revert st. induction F as [|v x a xs [H1 H2] F IH]; intros st; [reflexivity|]. cbn [visit]. unfold get_obj at 1. rewrite H2. cbn [nothrow obind].
      rewrite H1, <- surjective_pairing. destruct (body st x); [|reflexivity..]. cbn [obind]. apply IH. }
    split; [rewrite for_obj|pose proof (for_obj S t o body st) as FA; cbn [forObjAs] in FA; rewrite FA]; exact E.
Qed.
Lemma for_values : forall S,
  (forall a (body : S -> cv -> outcome S) st, forArr (JArr a) body st = visit (fun x => Ok x) body (map VJson a) st) /\
  (forall o (body : S -> bytes * cv -> outcome S) st, forObj (JObj o) body st = visit (fun x => Ok x) body (map (fun m => (fst m, VJson (snd m))) o) st).
Proof.
  intros S. split; intros.
  - apply (for_typed S TyVal). induction a; constructor; auto.
  - apply (for_typed S TyVal). induction o; constructor; auto.
Qed.
Lemma for_other : forall S t,
  (forall v (body : S -> cv -> outcome S) st, (forall a, v <> JArr a) -> forArrAs t v body st = Ok st /\ forUncheckedArrAs t v body st = UB) /\
  (forall v (body : S -> bytes * cv -> outcome S) st, (forall o, v <> JObj o) -> forObjAs t v body st = Ok st /\ forUncheckedObjAs t v body st = UB).
Proof.
  intros S t. split; intros v body st H; destruct v; try (split; reflexivity); exfalso; eapply H; reflexivity.
Qed.

Lemma cast_first : forall own_table sizes k object, Forall (fun s => 0 < s)%Z sizes -> k < length sizes ->
  (castPtr (object + base_offset own_table sizes k) = object <-> own_table = false /\ k = 0).
Proof.
  intros own sizes k object Hs Hk. unfold castPtr, base_offset.
  assert (H0 : forall l k, Forall (fun s => 0 < s)%Z l -> (0 <= fold_right Z.add 0 (firstn k l))%Z).
  { induction l as [|x l IH]; intros [|k'] Hl; cbn [firstn fold_right]; try apply Z.le_refl. inversion Hl; subst. specialize (IH k' H2). lia. }
  destruct k as [|k]; [cbn [firstn fold_right]; destruct own; split; [lia|intros [? ?]; discriminate|auto|intros _; lia]|].
  destruct sizes as [|x l]; [cbn in Hk; lia|]. inversion Hs; subst. cbn [firstn fold_right]. specialize (H0 l k ltac:(assumption)).
  split; [|intros [_ H]; discriminate]. destruct own; lia.
Qed.

Lemma random_access_reverse : forall A (c : list A) p off, p <= length c -> (0 <= Z.of_nat p - off <= Z.of_nat (length c))%Z ->
  exists q, (Z.of_nat q = Z.of_nat p - off)%Z /\ a_add c (Rev p) off = Ok (Rev q) /\ a_sub c (Rev q) off = Ok (Rev p) /\
    a_lt (Rev p) (Rev q) = (0 <? off)%Z /\ a_eq (Rev p) (Rev q) = (off =? 0)%Z /\ (forall r, q = S r -> deref c (Rev q) = elem c r).
Proof.
  intros A c p off L H. exists (Z.to_nat (Z.of_nat p - off)). rewrite Z2Nat.id by lia. split; [reflexivity|].
  assert (M : forall x y o, (Z.of_nat x + o = Z.of_nat y)%Z -> y <= length c -> moved c x o = Ok y).
  { intros x y o E K. unfold moved. rewrite E. destruct (Z.leb_spec 0 (Z.of_nat y)); [|lia]. destruct (Z.leb_spec (Z.of_nat y) (Z.of_nat (length c))); [|lia].
    cbn [andb]. rewrite Nat2Z.id. reflexivity. }
  unfold a_add, a_sub, move. rewrite (M p (Z.to_nat (Z.of_nat p - off)) (- off)%Z) by lia. rewrite (M (Z.to_nat (Z.of_nat p - off)) p (- - off)%Z) by lia.
  cbn [obind]. split; [reflexivity|]. split; [reflexivity|]. split; [|split].
  - cbn [a_lt]. destruct (Z.ltb_spec 0 off), (Nat.ltb_spec (Z.to_nat (Z.of_nat p - off)) p); (reflexivity || lia).
  - cbn [a_eq itr_eqb]. unfold a_eq, itr_eqb. destruct (Z.eqb_spec off 0), (Nat.eqb_spec p (Z.to_nat (Z.of_nat p - off))); (reflexivity || lia).
  - intros r ->. reflexivity.
Qed.
