(** Lemmas on type lists. *)
From Coq Require Import String ZArith Arith Bool Lia List Sorted ZifyBool ZifyNat.
Import ListNotations.
From Verif Require Import Common CInt MathModel MplModel MplSpec.
Local Open Scope Z_scope.

Lemma pack_ok : forall I X (f : I -> outcome X) g is, (forall i, In i is -> f i = Ok (g i)) -> pack f is = Ok (map g is).
Proof.
  intros I X f g is. induction is as [|i is IH]; intros H; [reflexivity|]. cbn [pack map].
  rewrite (H i) by (now left). cbn [obind]. rewrite IH by (intros; apply H; now right). reflexivity.
Qed.
Lemma index_sequence_ok : forall n, 0 <= n -> index_sequence n = Ok (map Z.of_nat (seq 0 (Z.to_nat n))).
Proof. intros n H. unfold index_sequence. destruct (n <? 0) eqn:E; [lia|reflexivity]. Qed.
Lemma elem_ok : forall X i (l : list X) x, 0 <= i -> nth_error l (Z.to_nat i) = Some x -> elem i l = Ok x.
Proof. intros X i l x H E. unfold elem. destruct (i <? 0) eqn:F; [lia|]. now rewrite E. Qed.
Lemma map_seq_nth : forall X (d : X) (l : list X) n k, (n + k <= length l)%nat ->
  map (fun i => nth i l d) (seq n k) = firstn k (skipn n l).
Proof.
  intros X d l n k. revert n. induction k as [|k IH]; intros n H; [reflexivity|]. cbn [seq map].
  rewrite IH by lia. assert (L : (n < length l)%nat) by lia.
  assert (E : skipn n l = nth n l d :: skipn (S n) l).
  { clear - L. revert n L. induction l as [|x l IH]; intros [|n] L; cbn in *; try lia; [reflexivity|]. apply IH. lia. }
  rewrite E. reflexivity.
Qed.
Lemma nth_error_nth' : forall X (d : X) (l : list X) n, (n < length l)%nat -> nth_error l n = Some (nth n l d).
Proof. intros X d l n H. apply nth_error_nth'. exact H. Qed.

Lemma skipn_skipn : forall X a b (l : list X), skipn a (skipn b l) = skipn (b + a) l.
Proof. intros X a b. induction b as [|b IH]; intros l; [reflexivity|]. destruct l as [|x l]; [now rewrite !skipn_nil|]. cbn. apply IH. Qed.
Lemma i32_u64 : forall x, - 2147483648 <= x < 2147483648 -> to_i32 (x mod ULONG_MOD) = x.
Proof.
  intros x H. unfold to_i32.
  assert (E : (x mod ULONG_MOD) mod UINT_MOD = x mod UINT_MOD).
  { symmetry. apply Znumtheory.Zmod_div_mod; [reflexivity|reflexivity|]. exists 4294967296. reflexivity. }
  cbv zeta. rewrite E. destruct (Z_lt_ge_dec x 0) as [N|N].
  - assert (F : x mod UINT_MOD = x + 4294967296) by (symmetry; apply (Z.mod_unique_pos x UINT_MOD (-1)); unfold UINT_MOD; lia).
    rewrite F. unfold INT_MAX, UINT_MOD. destruct (_ <=? _) eqn:G; lia.
  - rewrite Z.mod_small by (unfold UINT_MOD; lia). unfold INT_MAX. destruct (_ <=? _) eqn:G; lia.
Qed.

Section Types.
Context {A : Type}.

Lemma elem_some : forall (d : A) i l, 0 <= i < size l -> elem i l = Ok (nth (Z.to_nat i) l d).
Proof. intros d i l H. unfold size in H. apply elem_ok; [lia|]. apply nth_error_nth'. lia. Qed.
Lemma elem_bad : forall i (l : list A), i < 0 \/ size l <= i -> elem i l = illformed.
Proof.
  intros i l H. unfold elem, size in *. destruct (i <? 0) eqn:E; [reflexivity|].
  destruct (nth_error l (Z.to_nat i)) eqn:F; [|reflexivity]. assert (Z.to_nat i < length l)%nat by (apply nth_error_Some; congruence). lia.
Qed.

(** ** Insert, Remove, ends *)
Lemma insert_spec : forall (l : list A) t n, l <> [] -> 0 <= n ->
  Insert l t n = if n <=? size l then Ok (firstn (Z.to_nat n) l ++ t :: skipn (Z.to_nat n) l) else illformed.
Proof.
  intros l t n NE H. unfold Insert. destruct l as [|a l']; [contradiction|]. set (l := a :: l') in *. clearbody l.
  destruct (n <=? size l) eqn:B; [|reflexivity]. rewrite index_sequence_ok by (unfold size; lia). cbn [obind].
  replace (Z.to_nat (size l + 1)) with (S (length l)) by (unfold size; lia).
  set (k := Z.to_nat n). assert (K : (k <= length l)%nat) by (unfold size in B; lia).
  rewrite (pack_ok _ _ _ (fun i => nth (Z.to_nat i) (firstn k l ++ t :: skipn k l) t)).
  - rewrite map_map. f_equal.
    transitivity (map (fun i => nth i (firstn k l ++ t :: skipn k l) t) (seq 0 (S (length l)))).
    { apply map_ext. intros i. now rewrite Nat2Z.id. }
    rewrite map_seq_nth.
    + cbn [skipn]. apply firstn_all2. rewrite app_length, firstn_length. cbn [length]. rewrite skipn_length. lia.
    + rewrite app_length, firstn_length. cbn [length]. rewrite skipn_length. lia.
  - intros i Hi. apply in_map_iff in Hi. destruct Hi as (j & <- & Hj). apply in_seq in Hj. rewrite Nat2Z.id.
    unfold getMapIns. destruct (Z.of_nat j <? n) eqn:E1.
    + rewrite (elem_some t) by (unfold size; rewrite app_length; cbn [length]; lia).
      rewrite Nat2Z.id. f_equal. rewrite !app_nth1; [|rewrite firstn_length; lia|lia].
      rewrite <- (firstn_skipn k l) at 1. rewrite app_nth1; [reflexivity|]. rewrite firstn_length. lia.
    + destruct (Z.of_nat j =? n) eqn:E2.
      * rewrite (elem_some t) by (unfold size; rewrite app_length; cbn [length]; lia).
        f_equal. unfold size. rewrite Nat2Z.id. rewrite !app_nth2; try lia; [|rewrite firstn_length; lia].
        rewrite firstn_length, Nat.sub_diag. replace (j - Nat.min k (length l))%nat with O by lia. reflexivity.
      * rewrite (elem_some t) by (unfold size; rewrite app_length; cbn [length]; lia). f_equal.
        rewrite app_nth1 by lia. rewrite app_nth2 by (rewrite firstn_length; lia). rewrite firstn_length.
        replace (j - Nat.min k (length l))%nat with (S (j - 1 - k)) by lia. cbn [nth].
        rewrite <- (firstn_skipn k l) at 1. rewrite app_nth2 by (rewrite firstn_length; lia).
        rewrite firstn_length. f_equal. lia.
Qed.
Lemma remove_spec : forall (l : list A) n, 0 <= n ->
  Remove l n = if n <? size l then Ok (firstn (Z.to_nat n) l ++ skipn (S (Z.to_nat n)) l) else illformed.
Proof.
  intros l n H. unfold Remove. destruct l as [|a l']; [destruct (n <? size []) eqn:E; [unfold size in E; cbn in E; lia|reflexivity]|].
  set (l := a :: l') in *. assert (NE : (0 < length l)%nat) by (cbn; lia). clearbody l.
  destruct (n <? size l) eqn:B; [|reflexivity]. rewrite index_sequence_ok by (unfold size; lia). cbn [obind].
  replace (Z.to_nat (size l - 1)) with (pred (length l)) by (unfold size; lia).
  set (k := Z.to_nat n). assert (K : (k < length l)%nat) by (unfold size in B; lia).
  rewrite (pack_ok _ _ _ (fun i => nth (Z.to_nat i) (firstn k l ++ skipn (S k) l) a)).
  - rewrite map_map. f_equal.
    transitivity (map (fun i => nth i (firstn k l ++ skipn (S k) l) a) (seq 0 (pred (length l)))).
    { apply map_ext. intros i. now rewrite Nat2Z.id. }
    rewrite map_seq_nth.
    + rewrite skipn_O. apply firstn_all2. rewrite app_length, firstn_length, skipn_length. lia.
    + rewrite app_length, firstn_length, skipn_length. lia.
  - intros i Hi. apply in_map_iff in Hi. destruct Hi as (j & <- & Hj). apply in_seq in Hj. rewrite Nat2Z.id.
    unfold getMapRem. destruct (Z.of_nat j <? n) eqn:E1; rewrite (elem_some a) by (unfold size; lia); f_equal.
    + rewrite Nat2Z.id. rewrite app_nth1; [|rewrite firstn_length; lia].
      rewrite <- (firstn_skipn k l) at 1. rewrite app_nth1; [reflexivity|]. rewrite firstn_length. lia.
    + rewrite app_nth2 by (rewrite firstn_length; lia). rewrite firstn_length.
      rewrite <- (firstn_skipn (S k) l) at 1. rewrite app_nth2 by (rewrite firstn_length; lia).
      rewrite firstn_length. f_equal. lia.
Qed.
Lemma remove_empty : forall n, Remove (@nil A) n = illformed.
Proof. reflexivity. Qed.
Lemma insert_remove : forall (l : list A) t n l', l <> [] -> 0 <= n -> Insert l t n = Ok l' -> Remove l' n = Ok l.
Proof.
  intros l t n l' NE H E. rewrite insert_spec in E by assumption. destruct (n <=? size l) eqn:B; [|discriminate]. injection E as <-.
  set (k := Z.to_nat n). assert (K : (k <= length l)%nat) by (unfold size in B; lia).
  rewrite remove_spec by assumption. fold k.
  replace (n <? _) with true.
  - f_equal. rewrite firstn_app, firstn_firstn, firstn_length. replace (k - Nat.min k (length l))%nat with O by lia.
    rewrite Nat.min_id, firstn_O, app_nil_r. rewrite skipn_app, firstn_length.
    rewrite skipn_all2 by (rewrite firstn_length; lia). replace (S k - Nat.min k (length l))%nat with 1%nat by lia.
    cbn. apply firstn_skipn.
  - symmetry. apply Z.ltb_lt. unfold size. rewrite app_length, firstn_length. cbn [length]. rewrite skipn_length. lia.
Qed.
Lemma head_spec : forall (l : list A), Head l = match l with [] => illformed | x :: _ => Ok x end.
Proof. intros [|x l]; reflexivity. Qed.
Lemma tail_spec : forall (l : list A) x, Tail (l ++ [x]) = Ok x /\ Tail (@nil A) = illformed.
Proof.
  intros l x. split; [|reflexivity]. unfold Tail, At. rewrite (elem_some x) by (unfold size; rewrite app_length; cbn [length]; lia).
  f_equal. unfold size. rewrite app_length, app_nth2; cbn [length]; [|lia].
  replace (Z.to_nat (Z.of_nat (length l + 1) - 1) - length l)%nat with O by lia. reflexivity.
Qed.
Lemma popfront_spec : forall x (l : list A), PopFront (x :: l) = Ok l.
Proof.
  intros x l. unfold PopFront. rewrite remove_spec by lia. replace (0 <? size (x :: l)) with true by (unfold size; cbn [length]; lia).
  reflexivity.
Qed.
Lemma popback_spec : forall x (l : list A), PopBack (l ++ [x]) = Ok l.
Proof.
  intros x l. unfold PopBack. rewrite remove_spec by (unfold size; rewrite app_length; cbn [length]; lia).
  replace (size (l ++ [x]) - 1 <? size (l ++ [x])) with true by lia.
  f_equal. unfold size. rewrite app_length. cbn [length]. replace (Z.to_nat (Z.of_nat (length l + 1) - 1)) with (length l) by lia.
  rewrite firstn_app, Nat.sub_diag, firstn_O, app_nil_r, firstn_all. rewrite skipn_all2; [apply app_nil_r|].
  rewrite app_length. cbn [length]. lia.
Qed.
Lemma at_spec : forall (l : list A) i x, 0 <= i -> (At l i = Ok x <-> nth_error l (Z.to_nat i) = Some x).
Proof.
  intros l i x H. unfold At, elem. destruct (i <? 0) eqn:E; [lia|]. destruct (nth_error l (Z.to_nat i)); split; intros K; try discriminate; congruence.
Qed.

(** ** Append, Reverse *)
Lemma append_spec : forall l m : list A, Append l m = l ++ m /\ Prepend l m = m ++ l.
Proof. intros [|a l] m; cbn; [now rewrite app_nil_r|]. split; reflexivity. Qed.
Lemma reverse_spec : forall l : list A, Reverse l = rev l.
Proof.
  intros l. unfold Reverse. assert (G : forall l r : list A, ReverseHlpr l r = rev l ++ r).
  { clear. induction l as [|x l IH]; intros r; [reflexivity|]. cbn [ReverseHlpr rev]. unfold PushFront. rewrite IH, <- app_assoc. reflexivity. }
  rewrite G. apply app_nil_r.
Qed.

(** ** Filter, all, any, Apply *)
Lemma filter_spec : forall p (l : list A), Filter p l = filter p l.
Proof.
  intros p l. unfold Filter. assert (G : forall l r : list A, FilterHlpr p l r = r ++ filter p l).
  { clear. induction l as [|x l IH]; intros r; cbn [FilterHlpr filter]; [now rewrite app_nil_r|].
    destruct (p x); cbn [negb]; rewrite IH; [|reflexivity]. unfold PushBack. now rewrite <- app_assoc. }
  now rewrite G.
Qed.
Lemma filteridx_spec : forall p (l : list A),
  FilterIdx p l = map snd (filter (fun ix => p (Z.of_nat (fst ix))) (combine (seq 0 (length l)) l)).
Proof.
  intros p l. unfold FilterIdx.
  assert (G : forall (l : list A) k r, FilterIdxHlpr p (Z.of_nat k) l r =
    r ++ map snd (filter (fun ix => p (Z.of_nat (fst ix))) (combine (seq k (length l)) l))).
  { clear. induction l as [|x l IH]; intros k r; cbn [FilterIdxHlpr length seq combine filter map]; [now rewrite app_nil_r|]. cbn [fst].
    replace (Z.of_nat k + 1) with (Z.of_nat (S k)) by lia. destruct (p (Z.of_nat k)); cbn [negb map]; rewrite IH; [|reflexivity].
    unfold PushBack. now rewrite <- app_assoc. }
  exact (G l O []).
Qed.
Lemma filter_length_le : forall (p : A -> bool) l, (length (filter p l) <= length l)%nat.
Proof. intros p l. induction l as [|x l IH]; [reflexivity|]. cbn. destruct (p x); cbn; lia. Qed.
Lemma all_spec : forall p (l : list A), all p l = true <-> l <> [] /\ forall x, In x l -> p x = true.
Proof.
  intros p l. unfold all. destruct l as [|a l']; [split; [discriminate|intros [H _]; contradiction]|]. set (l := a :: l').
  assert (NE : l <> []) by discriminate. clearbody l. rewrite filter_spec, Z.eqb_eq. unfold size. split.
  - intros H. split; [exact NE|]. apply Nat2Z.inj in H. clear NE. induction l as [|x l IH]; intros y Hy; [easy|]. cbn in *.
    pose proof (filter_length_le p l). destruct (p x) eqn:E; cbn in H; [|lia]. destruct Hy as [->|Hy]; [exact E|]. apply IH; [lia|exact Hy].
  - intros [_ H]. f_equal. clear NE. induction l as [|x l IH]; [reflexivity|]. cbn. rewrite (H x) by (now left). cbn. f_equal. apply IH. intros. apply H. now right.
Qed.
Lemma any_spec : forall p (l : list A), any p l = true <-> exists x, In x l /\ p x = true.
Proof.
  intros p l. unfold any. destruct l as [|a l']; [split; [discriminate|intros (x & [] & _)]|]. set (l := a :: l'). clearbody l.
  rewrite filter_spec, Z.ltb_lt. unfold size. split.
  - intros H. destruct (filter p l) as [|x r] eqn:E; [cbn in H; lia|]. exists x. apply filter_In. rewrite E. now left.
  - intros (x & H). apply filter_In in H. destruct (filter p l); [easy|cbn; lia].
Qed.
Lemma typemax_spec : forall (f : A -> Z) l, l <> [] -> (exists x, In x l /\ typeMax f l = f x) /\ forall x, In x l -> f x <= typeMax f l.
Proof.
  intros f l NE. unfold typeMax. destruct l as [|a l]; [contradiction|]. clear NE. cbn [map]. revert a.
  induction l as [|b l IH]; intros a; cbn [map getMax].
  - split; [exists a; split; [now left|reflexivity]|]. intros x [->|[]]. lia.
  - destruct (IH b) as ((x & X & E) & M). set (m := getMax (f b) (map f l)) in *. clearbody m. destruct (m <? f a) eqn:L.
    + split; [exists a; split; [now left|reflexivity]|]. intros y [->|Y]; [lia|]. specialize (M y Y). lia.
    + split; [exists x; split; [now right|exact E]|]. intros y [->|Y]; [lia|]. exact (M y Y).
Qed.

(** ** Slice *)
Lemma clamp_idx : forall (l : list A) x, size l <= INT_MAX -> INT_MIN <= x <= INT_MAX ->
  clampListIdx l x = Ok (if x <? 0 then size l else Z.min x (size l)).
Proof.
  intros l x H X. assert (S0 : 0 <= size l) by (unfold size; lia).
  unfold clampListIdx, getClamped. cbn [fst common]. unfold cconv, cle, clt, cgt, ccmp. cbn [fst snd common cvt].
  unfold INT_MAX, INT_MIN in *.
  assert (M : forall z, 0 <= z < ULONG_MOD -> to_u64 z = z) by (intros z Hz; unfold to_u64; now apply Z.mod_small).
  assert (U : ULONG_MOD = 18446744073709551616) by reflexivity.
  rewrite !(M 0), !(M (size l)) by lia. replace (0 <=? size l) with true by lia. cbn [cassert obind].
  assert (I : forall z, 0 <= z <= 2147483647 -> to_i32 z = z).
  { intros z Hz. unfold to_i32. assert (E : to_u32 z = z) by (unfold to_u32; apply Z.mod_small; unfold UINT_MOD; lia).
    rewrite ?E. destruct (_ <=? _) eqn:F; unfold UINT_MOD, INT_MAX in *; lia. }
  destruct (x <? 0) eqn:N.
  - assert (E : to_u64 x = x + ULONG_MOD).
    { unfold to_u64. symmetry. apply (Z.mod_unique_pos x ULONG_MOD (-1)); lia. }
    rewrite !E, !(M (x + ULONG_MOD)) by lia.
    replace (x + ULONG_MOD <? 0) with false by lia. replace (x + ULONG_MOD >? size l) with true by lia. cbn [obind snd]. f_equal. apply I. lia.
  - rewrite !(M x) by lia. replace (x <? 0) with false by lia. destruct (x >? size l) eqn:G; cbn [obind snd]; f_equal; rewrite I by lia; lia.
Qed.
Lemma slice_aux : forall (l : list A) c1 c2, 0 <= c1 -> c1 <= c2 -> c2 <= size l ->
  obind (index_sequence (c2 - c1)) (fun is => pack (fun i => At l (c1 + i)) is) = Ok (firstn (Z.to_nat (c2 - c1)) (skipn (Z.to_nat c1) l)).
Proof.
  intros l c1 c2 H1 H2 H3. rewrite index_sequence_ok by lia. cbn [obind].
  destruct (Z.eq_dec c1 c2) as [->|N].
  { rewrite Z.sub_diag. reflexivity. }
  destruct l as [|d l']; [unfold size in H3; cbn in H3; lia|]. set (l := d :: l') in *. clearbody l. unfold size in *.
  rewrite (pack_ok _ _ _ (fun i => nth (Z.to_nat c1 + Z.to_nat i) l d)).
  - rewrite map_map. f_equal. rewrite <- (map_seq_nth _ d) by lia.
    replace (seq (Z.to_nat c1) (Z.to_nat (c2 - c1))) with (map (fun i => (Z.to_nat c1 + i)%nat) (seq 0 (Z.to_nat (c2 - c1)))).
    + rewrite map_map. apply map_ext. intros i. now rewrite Nat2Z.id.
    + generalize (Z.to_nat (c2 - c1)) (Z.to_nat c1). clear. intros n k.
      assert (G : forall j, map (fun i => (k + i)%nat) (seq j n) = seq (k + j) n).
      { induction n as [|n IH]; intros j; [reflexivity|]. cbn [seq map]. f_equal. rewrite IH. f_equal. lia. }
      rewrite G. f_equal. lia.
  - intros i Hi. apply in_map_iff in Hi. destruct Hi as (j & <- & Hj). apply in_seq in Hj. unfold At.
    rewrite (elem_some d) by (unfold size; lia). f_equal. f_equal. lia.
Qed.
Lemma slice_spec : forall (l : list A) s1 s2, l <> [] -> size l <= INT_MAX -> INT_MIN <= s1 <= INT_MAX -> INT_MIN <= s2 <= INT_MAX ->
  let c x := if x <? 0 then size l else Z.min x (size l) in
  Slice l s1 s2 = if c s1 <=? c s2 then Ok (firstn (Z.to_nat (c s2 - c s1)) (skipn (Z.to_nat (c s1)) l)) else illformed.
Proof.
  intros l s1 s2 NE H H1 H2 c. unfold Slice. destruct l as [|a l']; [contradiction|]. set (l := a :: l') in *.
  rewrite !clamp_idx by assumption. cbn [obind]. fold (c s1) (c s2).
  assert (B : forall x, 0 <= c x <= size l) by (intros x; unfold c; destruct (x <? 0) eqn:E; unfold size; lia).
  destruct (c s1 <=? c s2) eqn:E.
  - apply slice_aux; pose proof (B s1); pose proof (B s2); lia.
  - unfold index_sequence. replace (c s2 - c s1 <? 0) with true by lia. reflexivity.
Qed.
Lemma slice_inside : forall (l : list A) i j, l <> [] -> size l <= INT_MAX -> 0 <= i -> i <= j -> j <= INT_MAX ->
  Slice l i j = Ok (firstn (Z.to_nat (j - i)) (skipn (Z.to_nat i) l)).
Proof.
  intros l i j NE H I J B. rewrite slice_spec; [|assumption|assumption|unfold INT_MIN; lia|unfold INT_MIN; lia].
  replace (i <? 0) with false by lia. replace (j <? 0) with false by lia.
  replace (Z.min i (size l) <=? Z.min j (size l)) with true by lia. f_equal. unfold size in *.
  destruct (Z_le_gt_dec i (Z.of_nat (length l))) as [L|L].
  - rewrite (Z.min_l i) by lia. destruct (Z_le_gt_dec j (Z.of_nat (length l))) as [M|M].
    + now rewrite Z.min_l by lia.
    + rewrite Z.min_r by lia. rewrite !firstn_all2; [reflexivity|rewrite skipn_length; lia|rewrite skipn_length; lia].
  - rewrite (skipn_all2 l (n := Z.to_nat i)) by lia. rewrite firstn_nil. rewrite !Z.min_r by lia. rewrite Z.sub_diag. reflexivity.
Qed.
Lemma slice_bad : forall (l : list A) i j, l <> [] -> size l <= INT_MAX -> 0 <= j < i -> j < size l -> i <= INT_MAX -> Slice l i j = illformed.
Proof.
  intros l i j NE H I J B. rewrite slice_spec; [|assumption|assumption|unfold INT_MIN; lia|unfold INT_MIN; lia].
  replace (i <? 0) with false by lia. replace (j <? 0) with false by lia.
  replace (Z.min i (size l) <=? Z.min j (size l)) with false by lia. reflexivity.
Qed.

Lemma slice_negative : forall (l : list A) i j, l <> [] -> size l <= INT_MAX -> INT_MIN <= i < 0 -> 0 <= j <= INT_MAX ->
  Slice l i j = if j <? size l then illformed else Ok [].
Proof.
  intros l i j NE H I J. rewrite slice_spec; [|assumption|assumption|unfold INT_MAX; lia|unfold INT_MIN; lia].
  replace (i <? 0) with true by lia. replace (j <? 0) with false by lia. destruct (j <? size l) eqn:E.
  - replace (size l <=? Z.min j (size l)) with false by lia. reflexivity.
  - replace (size l <=? Z.min j (size l)) with true by lia. replace (Z.min j (size l) - size l) with 0 by lia. reflexivity.
Qed.
End Types.

Section Sameness.
Context {A : Type} (eqb : A -> A -> bool).
Hypothesis eqb_eq : forall x y, eqb x y = true <-> x = y.

(** ** has, count, index *)
Lemma has_spec : forall l t, has eqb l t = true <-> In t l.
Proof.
  intros l t. unfold has. induction l as [|x l IH]; cbn [map In]; [split; [discriminate|easy]|].
  destruct (eqb t x) eqn:E.
  - apply eqb_eq in E. subst. split; auto.
  - rewrite IH. split; [auto|]. intros [->|H]; [|exact H]. assert (eqb t t = true) by (now apply eqb_eq). congruence.
Qed.
Lemma count_spec : forall (dec : forall x y : A, {x = y} + {x <> y}) l t, getCountOf eqb l t = Z.of_nat (count_occ dec l t).
Proof.
  intros dec l t. induction l as [|x l IH]; [reflexivity|]. cbn [getCountOf count_occ]. rewrite IH.
  destruct (dec x t) as [X|N]; [subst x|]; destruct (eqb t _) eqn:E; try lia.
  - assert (eqb t t = true) by (now apply eqb_eq). congruence.
  - apply eqb_eq in E. congruence.
Qed.
Lemma idxof_aux : forall l t k, In t l -> exists i, idxOfImpl (map (eqb t) l) k = k + Z.of_nat i /\ nth_error l i = Some t /\
  forall j, (j < i)%nat -> nth_error l j <> Some t.
Proof.
  induction l as [|x l IH]; intros t k H; [easy|]. cbn [map idxOfImpl]. destruct (eqb t x) eqn:E.
  - apply eqb_eq in E. subst. exists O. split; [lia|]. split; [reflexivity|]. intros j Hj. lia.
  - destruct H as [->|H]; [assert (eqb t t = true) by (now apply eqb_eq); congruence|].
    destruct (IH t (k + 1) H) as (i & E1 & E2 & E3). exists (S i). split; [rewrite E1; lia|]. split; [exact E2|].
    intros [|j] Hj; cbn.
    + intros [= ->]. assert (eqb t t = true) by (now apply eqb_eq). congruence.
    + apply E3. lia.
Qed.
Lemma idxof_spec : forall l t, (In t l -> exists i, getIdxOf eqb l t = Ok (Z.of_nat i) /\ nth_error l i = Some t /\
    forall j, (j < i)%nat -> nth_error l j <> Some t) /\ (~ In t l -> getIdxOf eqb l t = illformed).
Proof.
  intros l t. unfold getIdxOf. split; intros H.
  - destruct l as [|a l']; [easy|]. set (l := a :: l') in *. apply has_spec in H as H'. rewrite H'.
    destruct (idxof_aux l t 0 H) as (i & E1 & E2 & E3). exists i. rewrite E1. split; [reflexivity|]. split; assumption.
  - destruct l as [|a l']; [reflexivity|]. destruct (has eqb (a :: l') t) eqn:E; [|reflexivity]. apply has_spec in E. contradiction.
Qed.

(** ** Unique *)
Lemma firsts_in : forall l x, In x (firsts eqb l) <-> In x l.
Proof.
  induction l as [|a l IH]; intros x; [reflexivity|]. cbn [firsts In]. rewrite filter_In, IH. split.
  - intros [H|[H _]]; auto.
  - intros [H|H]; [auto|]. destruct (eqb a x) eqn:E; [apply eqb_eq in E; auto|]. right. split; auto.
Qed.
Lemma firsts_nodup : forall l, NoDup (firsts eqb l).
Proof.
  induction l as [|a l IH]; [constructor|]. cbn [firsts]. constructor; [|now apply NoDup_filter].
  intros H. apply filter_In in H. destruct H as [_ H]. assert (eqb a a = true) by (now apply eqb_eq). rewrite H0 in H. discriminate.
Qed.
Lemma filter_filter : forall X (p q : X -> bool) l, filter p (filter q l) = filter (fun x => q x && p x) l.
Proof.
  intros X p q l. induction l as [|a l IH]; [reflexivity|]. cbn [filter]. destruct (q a) eqn:E; cbn [filter andb]; [|exact IH].
  destruct (p a); now rewrite IH.
Qed.
Lemma unique_aux : forall l r, UniqueHlpr eqb l r = r ++ filter (fun x => negb (has eqb r x)) (firsts eqb l).
Proof.
  induction l as [|a l IH]; intros r; [cbn; now rewrite app_nil_r|]. cbn [UniqueHlpr firsts filter]. destruct (has eqb r a) eqn:E; cbn [negb].
  - rewrite IH. f_equal. rewrite filter_filter. apply filter_ext_in. intros x Hx.
    destruct (eqb a x) eqn:F; cbn [negb andb]; [|reflexivity]. apply eqb_eq in F. subst x. now rewrite E.
  - rewrite IH, <- app_assoc. cbn [app]. do 2 f_equal. rewrite filter_filter. apply filter_ext. intros x.
    assert (D : has eqb (r ++ [a]) x = eqb a x || has eqb r x).
    { apply eq_true_iff_eq. rewrite orb_true_iff, !has_spec, in_app_iff, eqb_eq. cbn [In]. intuition auto. }
    rewrite D. now rewrite negb_orb.
Qed.
Lemma filter_true : forall X (l : list X), filter (fun _ => true) l = l.
Proof. intros X l. induction l as [|a l IH]; [reflexivity|]. cbn. now rewrite IH. Qed.
Lemma unique_list : forall l, Unique eqb l = firsts eqb l.
Proof. intros l. unfold Unique. rewrite unique_aux. cbn. apply filter_true. Qed.
Lemma same_lists_spec : forall l m, same_lists eqb l m = true <-> l = m.
Proof.
  induction l as [|x l IH]; intros [|y m]; cbn; try (split; discriminate); try (split; reflexivity).
  rewrite andb_true_iff, eqb_eq, IH. split; [intros [-> ->]; reflexivity|]. intros [= -> ->]. auto.
Qed.
Lemma firsts_id : forall l, NoDup l -> firsts eqb l = l.
Proof.
  induction l as [|a l IH]; intros H; [reflexivity|]. inversion H as [|? ? N D]; subst. cbn [firsts]. rewrite (IH D). f_equal.
  rewrite <- (filter_true _ l) at 2. apply filter_ext_in. intros x Hx. destruct (eqb a x) eqn:E; [|reflexivity].
  apply eqb_eq in E. subst. contradiction.
Qed.
Lemma unique_spec : forall l, unique eqb l = true <-> NoDup l.
Proof.
  intros l. unfold unique. destruct l as [|a l']; [split; [constructor|reflexivity]|]. set (l := a :: l') in *. clearbody l.
  rewrite same_lists_spec, unique_list. split; intros H.
  - rewrite H. apply firsts_nodup.
  - symmetry. now apply firsts_id.
Qed.

(** ** Occurrences of a sequence *)
Lemma starts_spec : forall m l, starts eqb m l = true <-> exists b, l = m ++ b.
Proof.
  induction m as [|x m IH]; intros l; cbn [starts].
  - split; [intros _; now exists l|reflexivity].
  - destruct l as [|y l]; [split; [discriminate|intros (b & E); discriminate]|].
    rewrite andb_true_iff, eqb_eq, IH. split.
    + intros [-> (b & ->)]. now exists b.
    + intros (b & [= -> E]). split; [reflexivity|]. now exists b.
Qed.
Lemma occurs_starts : forall s m k, occurs s m (Z.of_nat k) <-> (k <= length s)%nat /\ starts eqb m (skipn k s) = true.
Proof.
  intros s m k. rewrite starts_spec. split.
  - intros (a & b & E & L). apply Nat2Z.inj in L. subst k s. split; [rewrite app_length; lia|].
    exists b. rewrite skipn_app, skipn_all, Nat.sub_diag. reflexivity.
  - intros (L & b & E). exists (firstn k s), b. rewrite <- E. split; [symmetry; apply firstn_skipn|]. rewrite firstn_length. f_equal. lia.
Qed.
Lemma occurs_bound : forall (s m : list A) i, occurs s m i -> 0 <= i /\ i + size m <= size s.
Proof. intros s m i (a & b & E & ->). unfold size. subst s. rewrite !app_length. lia. Qed.
Lemma match_spec : forall s m k, (k + length m <= length s)%nat ->
  GetMatch eqb s m (Z.of_nat k) (map Z.of_nat (seq 0 (length m))) = Ok (if starts eqb m (skipn k s) then [Z.of_nat k] else []).
Proof.
  intros s m k H. unfold GetMatch.
  destruct m as [|d m']; [cbn; destruct (skipn k s); reflexivity|]. set (m := d :: m') in *. clearbody m.
  rewrite (pack_ok _ _ _ (fun i => eqb (nth (k + Z.to_nat i) s d) (nth (Z.to_nat i) m d))).
  - cbn [obind]. rewrite map_map. f_equal.
    assert (X : forall b c : bool, b = c -> (if b then [Z.of_nat k] else []) = (if c then [Z.of_nat k] else [])) by (intros; subst; reflexivity).
    apply X. transitivity (forallb (fun i => eqb (nth (k + i) s d) (nth i m d)) (seq 0 (length m))).
    { generalize (seq 0 (length m)). intros l. induction l as [|i l IH]; [reflexivity|]. cbn [map forallb]. rewrite IH, Nat2Z.id. reflexivity. }
    apply eq_true_iff_eq. rewrite forallb_forall, starts_spec. split.
    + intros F. exists (skipn (length m) (skipn k s)). rewrite <- (firstn_skipn (length m) (skipn k s)) at 1. f_equal.
      rewrite <- (map_seq_nth _ d) by lia. rewrite <- (firstn_all m) at 2. change m with (skipn 0 m) at 3. rewrite <- (map_seq_nth _ d m) by lia.
      replace (seq k (length m)) with (map (fun i => (k + i)%nat) (seq 0 (length m))).
      * rewrite map_map. apply map_ext_in. intros i Hi. apply eqb_eq. exact (F i Hi).
      * generalize (length m). clear. intros n.
        assert (G : forall j, map (fun i => (k + i)%nat) (seq j n) = seq (k + j) n).
        { induction n as [|n IH]; intros j; [reflexivity|]. cbn [seq map]. f_equal. rewrite IH. f_equal. lia. }
        rewrite G. f_equal. lia.
    + intros (b & E) i Hi. apply in_seq in Hi. apply eqb_eq.
      rewrite <- (firstn_skipn k s), app_nth2 by (rewrite firstn_length; lia). rewrite firstn_length, E, app_nth1 by lia. f_equal. lia.
  - intros i Hi. apply in_map_iff in Hi. destruct Hi as (j & <- & Hj). apply in_seq in Hj. unfold At.
    rewrite (elem_some d) by (unfold size; lia). cbn [obind]. rewrite (elem_some d) by (unfold size; lia). cbn [obind]. do 3 f_equal. lia.
Qed.
Lemma idxsofseq_list : forall s m, size s <= INT_MAX -> size m <= INT_MAX -> m <> [] ->
  IdxsOfSeq eqb s m = Ok (map Z.of_nat (filter (fun k => starts eqb m (skipn k s)) (seq 0 (length s + 1 - length m)))).
Proof.
  intros s m Hs Hm NE. unfold IdxsOfSeq. destruct s as [|a s'].
  - destruct m as [|b m']; [contradiction|]. reflexivity.
  - set (s := a :: s') in *. destruct m as [|b m']; [contradiction|]. set (m := b :: m') in *. clear NE.
    assert (M1 : (1 <= length m)%nat) by (cbn; lia). clearbody s m.
    assert (C : snd (getClampedMin (I32, to_i32 (to_u64 (to_u64 (size s - size m) + 1))) (I32, 0)) = Z.of_nat (length s + 1 - length m)).
    { assert (E : to_i32 (to_u64 (to_u64 (size s - size m) + 1)) = size s - size m + 1).
      { unfold to_u64 at 2. unfold to_u64. rewrite Zplus_mod_idemp_l. apply i32_u64. unfold size, INT_MAX in *. lia. }
      rewrite E. unfold getClampedMin, cconv, clt, ccmp. cbn [fst snd common cvt].
      assert (I : forall z, - 2147483648 <= z <= 2147483647 -> to_i32 z = z).
      { intros z Hz. apply (cvt_id I32). unfold has_type. cbn. unfold INT_MIN, INT_MAX. lia. }
      unfold size, INT_MAX in *. destruct (_ <? _) eqn:F; cbn [snd]; revert F; rewrite !I by lia; lia. }
    rewrite C. rewrite index_sequence_ok by lia. cbn [obind]. rewrite index_sequence_ok by (unfold size; lia). cbn [obind].
    unfold size at 1. rewrite !Nat2Z.id.
    rewrite (pack_ok _ _ _ (fun z => if starts eqb m (skipn (Z.to_nat z) s) then [z] else [])).
    + cbn [obind]. f_equal. rewrite map_map. generalize (seq 0 (length s + 1 - length m)). intros l. clear.
      induction l as [|k l IH]; [reflexivity|]. cbn [map concat filter]. rewrite Nat2Z.id, IH. destruct (starts eqb m (skipn k s)); reflexivity.
    + intros i Hi. apply in_map_iff in Hi. destruct Hi as (j & <- & Hj). apply in_seq in Hj. rewrite Nat2Z.id. apply match_spec. lia.
Qed.

Lemma idxsofseq_spec : forall s m, size s <= INT_MAX -> size m <= INT_MAX -> m <> [] ->
  exists is, IdxsOfSeq eqb s m = Ok is /\ StronglySorted Z.lt is /\ forall i, In i is <-> occurs s m i.
Proof.
  intros s m Hs Hm NE. rewrite idxsofseq_list by assumption. eexists. split; [reflexivity|]. split.
  - generalize (length s + 1 - length m)%nat. intros n. generalize 0%nat. induction n as [|n IH]; intros k; [constructor|].
    cbn [seq filter]. destruct (starts eqb m (skipn k s)); [|apply IH]. cbn [map]. constructor; [apply IH|].
    apply Forall_forall. intros z Hz. apply in_map_iff in Hz. destruct Hz as (j & <- & Hj). apply filter_In in Hj. destruct Hj as [Hj _].
    apply in_seq in Hj. lia.
  - intros i. split.
    + intros H. apply in_map_iff in H. destruct H as (j & <- & Hj). apply filter_In in Hj. destruct Hj as [Hj St]. apply in_seq in Hj.
      apply occurs_starts. split; [|exact St]. assert (1 <= length m)%nat by (destruct m; [contradiction|cbn; lia]). lia.
    + intros H. pose proof (occurs_bound _ _ _ H) as [B1 B2]. rewrite <- (Z2Nat.id i) in H by lia. rewrite <- (Z2Nat.id i) by lia.
      apply occurs_starts in H. destruct H as [_ St]. apply in_map. apply filter_In. split; [|exact St]. apply in_seq. unfold size in *. lia.
Qed.
Lemma idxsofseq_empty : forall s, IdxsOfSeq eqb s [] = Ok [].
Proof. intros [|a s]; reflexivity. Qed.

(** ** Replacement *)
Lemma replaced_skip : forall (m n : list A) k l, replaced eqb m n k l = replaced eqb m n 0 (skipn k l).
Proof.
  intros m n k. induction k as [|k IH]; intros l; [reflexivity|]. destruct l as [|x l]; [reflexivity|]. cbn [replaced skipn]. apply IH.
Qed.
Lemma replaced_here : forall (m n : list A) l, m <> [] -> starts eqb m l = true -> replaced eqb m n 0 l = n ++ replaced eqb m n 0 (skipn (length m) l).
Proof.
  intros m n l NE H. destruct m as [|y m']; [contradiction|]. destruct l as [|x l]; [discriminate|]. cbn [replaced]. rewrite H. f_equal.
  rewrite replaced_skip. reflexivity.
Qed.
Lemma replaced_gap : forall (m n s : list A) d p, m <> [] -> (p + d <= length s)%nat ->
  (forall k, (p <= k < p + d)%nat -> starts eqb m (skipn k s) = false) ->
  replaced eqb m n 0 (skipn p s) = firstn d (skipn p s) ++ replaced eqb m n 0 (skipn (p + d) s).
Proof.
  intros m n s d. induction d as [|d IH]; intros p NE L H; [rewrite Nat.add_0_r; reflexivity|].
  destruct (skipn p s) as [|x r] eqn:E.
  { assert (length (skipn p s) = 0%nat) by (now rewrite E). rewrite skipn_length in H0. lia. }
  assert (R : r = skipn (S p) s).
  { change r with (skipn 1 (x :: r)). rewrite <- E, skipn_skipn. f_equal. lia. }
  cbn [firstn app]. pose proof (H p ltac:(lia)) as Hp. rewrite E in Hp. cbn [replaced]. rewrite Hp. f_equal. rewrite R.
  rewrite IH; [|exact NE|lia|intros k Hk; apply H; lia]. do 2 f_equal. f_equal. lia.
Qed.
Lemma replaced_rest : forall (m n s : list A) p, m <> [] -> (forall k, (p <= k)%nat -> (k <= length s)%nat -> starts eqb m (skipn k s) = false) ->
  replaced eqb m n 0 (skipn p s) = skipn p s.
Proof.
  intros m n s p NE H. destruct (le_lt_dec p (length s)) as [L|L].
  - rewrite (replaced_gap m n s (length s - p) p NE) by (try lia; intros k Hk; apply H; lia).
    replace (p + (length s - p))%nat with (length s) by lia. rewrite skipn_all. cbn [replaced]. rewrite app_nil_r. apply firstn_all2.
    rewrite skipn_length. lia.
  - rewrite skipn_all2 by lia. reflexivity.
Qed.

Lemma replace_loop : forall (s m n : list A), s <> [] -> m <> [] -> size s <= INT_MAX -> apart s m ->
  forall is r p, StronglySorted Z.lt is -> 0 <= p -> p <= size s -> (forall i, In i is <-> occurs s m i /\ p <= i) ->
  ReplaceHlpr s m n is r p = Ok (r ++ replaced eqb m n 0 (skipn (Z.to_nat p) s)).
Proof.
  intros s m n NEs NE Hs AP is. induction is as [|i is IH]; intros r p SS P0 P1 H; cbn [ReplaceHlpr].
  - rewrite slice_inside by (assumption || lia). cbn [obind]. rewrite (proj1 (append_spec _ _)). do 2 f_equal.
    rewrite replaced_rest.
    + apply firstn_all2. rewrite skipn_length. unfold size. lia.
    + exact NE.
    + intros k K1 K2. destruct (starts eqb m (skipn k s)) eqn:E; [|reflexivity]. exfalso.
      apply (H (Z.of_nat k)). split; [|lia]. apply occurs_starts. split; assumption.
  - assert (O1 : occurs s m i /\ p <= i) by (apply H; now left). destruct O1 as [O1 O2].
    pose proof (occurs_bound _ _ _ O1) as [B1 B2]. apply StronglySorted_inv in SS. destruct SS as [SS F].
    rewrite Forall_forall in F. assert (M0 : 0 < size m) by (destruct m; [contradiction|unfold size; cbn; lia]).
    rewrite slice_inside by (assumption || lia). cbn [obind]. rewrite !(proj1 (append_spec _ _)).
    rewrite IH; [|exact SS|lia|lia|].
    + f_equal. rewrite <- !app_assoc. f_equal.
      rewrite (replaced_gap m n s (Z.to_nat (i - p)) (Z.to_nat p) NE).
      * f_equal. replace (Z.to_nat p + Z.to_nat (i - p))%nat with (Z.to_nat i) by lia.
        rewrite (replaced_here m n (skipn (Z.to_nat i) s)); [|exact NE|].
        -- f_equal. f_equal. rewrite skipn_skipn. f_equal. unfold size in *. lia.
        -- rewrite <- (Z2Nat.id i) in O1 by lia. apply occurs_starts in O1. apply O1.
      * unfold size in *. lia.
      * intros k Hk. destruct (starts eqb m (skipn k s)) eqn:E; [|reflexivity]. exfalso.
        assert (K : In (Z.of_nat k) (i :: is)). { apply H. split; [|lia]. apply occurs_starts. split; [unfold size in *; lia|exact E]. }
        destruct K as [K|K]; [lia|]. specialize (F _ K). lia.
    + intros j. split.
      * intros Hj. assert (K : In j (i :: is)) by (now right). apply H in K. destruct K as [K _]. split; [exact K|].
        exact (AP i j O1 K (F j Hj)).
      * intros [K1 K2]. assert (K : In j (i :: is)) by (apply H; split; [exact K1|lia]). destruct K as [K|K]; [lia|exact K].
Qed.
Lemma replace_apart : forall s m n, m <> [] -> size s <= INT_MAX -> size m <= INT_MAX -> apart s m ->
  ReplaceAllOfSeq eqb s m n = Ok (replaced eqb m n 0 s).
Proof.
  intros s m n NE Hs Hm AP. unfold ReplaceAllOfSeq. destruct s as [|a s']; [reflexivity|]. set (s := a :: s') in *.
  assert (NEs : s <> []) by discriminate. clearbody s.
  destruct (idxsofseq_spec s m Hs Hm NE) as (is & E & SS & H). rewrite E. cbn [obind].
  rewrite (replace_loop s m n NEs NE Hs AP is [] 0 SS); [reflexivity|lia|unfold size; lia|].
  intros i. rewrite H. split; [|easy]. intros O. split; [exact O|]. apply occurs_bound in O. lia.
Qed.
Lemma replace_loop_bad : forall (s m n : list A), s <> [] -> m <> [] -> size s <= INT_MAX -> 
  forall is r p, StronglySorted Z.lt is -> 0 <= p -> p <= size s -> (forall i, In i is -> occurs s m i) ->
  (exists i, In i is /\ i < p) \/ (exists i j, In i is /\ In j is /\ i < j < i + size m) ->
  ReplaceHlpr s m n is r p = illformed.
Proof.
  intros s m n NEs NE Hs is. induction is as [|i is IH]; intros r p SS P0 P1 H C; cbn [ReplaceHlpr].
  - destruct C as [(i & [] & _)|(i & j & [] & _)].
  - pose proof (occurs_bound _ _ _ (H i (or_introl eq_refl))) as [B1 B2].
    apply StronglySorted_inv in SS. destruct SS as [SS F]. rewrite Forall_forall in F.
    assert (M0 : 0 < size m) by (destruct m; [contradiction|unfold size; cbn; lia]).
    destruct (Z_lt_ge_dec i p) as [L|L].
    + rewrite slice_bad by (assumption || lia). reflexivity.
    + rewrite slice_inside by (assumption || lia). cbn [obind]. apply IH; [exact SS|lia|lia|intros; apply H; now right|].
      destruct C as [(j & [J|J] & K)|(j & k & J & K & D)].
      * lia.
      * specialize (F j J). lia.
      * destruct K as [K|K]; [subst k; destruct J as [J|J]; [lia|specialize (F j J); lia]|].
        destruct J as [J|J]; [left; exists k; split; [exact K|lia]|]. right. exists j, k. auto.
Qed.
Lemma replace_overlap : forall s m n, m <> [] -> size s <= INT_MAX -> size m <= INT_MAX -> ~ apart s m ->
  ReplaceAllOfSeq eqb s m n = illformed.
Proof.
  intros s m n NE Hs Hm NA. unfold ReplaceAllOfSeq. destruct s as [|a s'].
  { exfalso. apply NA. intros i j Oi Oj L. apply occurs_bound in Oi, Oj. unfold size in *. cbn [length] in *. lia. }
  set (s := a :: s') in *. assert (NEs : s <> []) by discriminate. clearbody s.
  destruct (idxsofseq_spec s m Hs Hm NE) as (is & E & SS & H). rewrite E. cbn [obind].
  apply replace_loop_bad; [exact NEs|exact NE|exact Hs|exact SS|lia|unfold size; lia|intros i Hi; now apply H|]. right.
  (* the occurrences are listed, so a violation can be searched for *)
  destruct (existsb (fun i => existsb (fun j => (i <? j) && (j <? i + size m)) is) is) eqn:X.
  - apply existsb_exists in X. destruct X as (i & Hi & X). apply existsb_exists in X. destruct X as (j & Hj & X). exists i, j. split; [exact Hi|]. split; [exact Hj|lia].
  - exfalso. apply NA. intros i j Oi Oj L. apply H in Oi, Oj.
    destruct (Z_le_gt_dec (i + Z.of_nat (length m)) j) as [G|G]; [exact G|exfalso].
    assert (Y : existsb (fun i => existsb (fun j => (i <? j) && (j <? i + size m)) is) is = true).
    { apply existsb_exists. exists i. split; [exact Oi|]. apply existsb_exists. exists j. split; [exact Oj|]. unfold size. lia. }
    congruence.
Qed.
Lemma replace_empty_pattern : forall s n, size s <= INT_MAX -> ReplaceAllOfSeq eqb s [] n = Ok s.
Proof.
  intros s n H. unfold ReplaceAllOfSeq. destruct s as [|a s']; [reflexivity|]. set (s := a :: s') in *. assert (NEs : s <> []) by discriminate.
  clearbody s. rewrite idxsofseq_empty. cbn [obind ReplaceHlpr]. rewrite slice_inside by (assumption || (unfold size in *; lia)).
  cbn [obind]. f_equal. rewrite (proj1 (append_spec _ _)). cbn [app]. rewrite Z.sub_0_r. unfold size. rewrite Nat2Z.id. apply firstn_all.
Qed.
Lemma apart_single : forall (s : list A) t, apart s [t].
Proof. intros s t i j _ _ L. cbn. lia. Qed.
Lemma replaceallof_spec : forall s t n, size s <= INT_MAX ->
  ReplaceAllOf eqb s t n = Ok (flat_map (fun x => if eqb t x then n else [x]) s).
Proof.
  intros s t n H. unfold ReplaceAllOf. rewrite replace_apart; [|discriminate|exact H|unfold size, INT_MAX; cbn; lia|apply apart_single].
  f_equal. clear H. induction s as [|x s IH]; [reflexivity|]. cbn [replaced starts flat_map length pred]. rewrite IH. destruct (eqb t x); reflexivity.
Qed.
Lemma sequences_spec : forall s m t, size s <= INT_MAX -> size m <= INT_MAX -> m <> [] ->
  (exists is, IdxsOf eqb s t = Ok is /\ StronglySorted Z.lt is /\ forall i, In i is <-> 0 <= i /\ nth_error s (Z.to_nat i) = Some t) /\
  (exists is, StronglySorted Z.lt is /\ (forall i, In i is <-> occurs s m i) /\ getCountOfSeq eqb s m = Ok (Z.of_nat (length is))) /\
  (exists b, hasSeq eqb s m = Ok b /\ (b = true <-> exists i, occurs s m i)).
Proof.
  intros s m t Hs Hm NE. split; [|split].
  - destruct (idxsofseq_spec s [t] Hs) as (is & E & So & I); [unfold size; cbn; unfold INT_MAX; lia|discriminate|].
    exists is. split; [exact E|]. split; [exact So|]. intros i. rewrite I. split.
    + intros (a & b & -> & ->). split; [lia|]. rewrite Nat2Z.id, nth_error_app2, Nat.sub_diag by lia. reflexivity.
    + intros (P & N). destruct (nth_error_split _ _ N) as (a & b & -> & L). exists a, b. split; [reflexivity|]. lia.
  - destruct (idxsofseq_spec s m Hs Hm NE) as (is & E & So & I). exists is. split; [exact So|]. split; [exact I|].
    unfold getCountOfSeq. rewrite E. reflexivity.
  - destruct (idxsofseq_spec s m Hs Hm NE) as (is & E & So & I). exists (0 <? Z.of_nat (length is)).
    unfold hasSeq, getCountOfSeq. rewrite E. split; [reflexivity|]. rewrite Z.ltb_lt. destruct is as [|i is].
    + split; [cbn; lia|]. intros (i & H). apply I in H. destruct H.
    + split; [|cbn; lia]. intros _. exists i. apply I. left. reflexivity.
Qed.
End Sameness.
