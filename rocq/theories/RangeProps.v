(** Properties of ranges and of iterating over JSON values (C90). *)
From Coq Require Import String Ascii ZArith Arith Bool Lia List.
From Verif Require Import Common JsonNumModel JsonModel JsonCnvModel RangeModel RangeSpec RangeProofs.
Import ListNotations.

(** C90: a loop over a range visits its elements in order, each once, and gives the body what the adaptor makes of them;
    over a reverse range from the last to the first; for any container, adaptor and body. *)
Theorem C90_whole : forall A B S (get : A -> outcome B) (body : S -> B -> outcome S) c fuel st, length c < fuel ->
  for_range c get body fuel (fst (asRange c)) (snd (asRange c)) st = visit get body c st /\
  for_range c get body fuel (fst (asRangeReverse c)) (snd (asRangeReverse c)) st = visit get body (rev c) st.
Proof. exact (fun A B S get body c fuel st F => conj (range_whole get body c fuel st F) (range_reverse get body c fuel st F)). Qed.
Print Assumptions C90_whole.
Example C90_whole_case : for_range [1; 2; 3] (fun x => Ok (x + 1)) (fun st x => Ok (st ++ [x])) 4 (Rev 3) (Rev 0) [0] = Ok [0; 4; 3; 2].
Proof. reflexivity. Qed.
(** C90: the range between two places visits the elements from the first up to, not including, the second; if the end
    comes before the beginning the loop runs out of the container. *)
Theorem C90_between : forall A B S (get : A -> outcome B) (body : S -> B -> outcome S) c i j fuel st, length c < fuel -> i <= length c -> j <= length c ->
  (i <= j -> for_range c get body fuel (Fwd i) (Fwd j) st = visit get body (slice i j c) st /\
             for_range c get body fuel (Rev j) (Rev i) st = visit get body (rev (slice i j c)) st) /\
  (j < i -> (forall x, In x c -> exists y, get x = Ok y) -> (forall st y, exists st', body st y = Ok st') ->
     for_range c get body fuel (Fwd i) (Fwd j) st = UB).
Proof.
  intros A B S get body c i j fuel st F I J. split.
  - intros H. exact (range_slice get body c i j fuel st (conj H J) F).
  - intros H G Bd. exact (range_inverted get body c G Bd fuel (length c - i) i st eq_refl ltac:(lia) I j H).
Qed.
Print Assumptions C90_between.
Example C90_between_case : slice 1 3 [10; 20; 30; 40] = [20; 30] /\
  for_range [10; 20; 30; 40] (fun x => Ok x) (fun st x => Ok (st + x)) 5 (Fwd 1) (Fwd 3) 0 = Ok 50.
Proof. split; reflexivity. Qed.
(** C90: adaptors over random access containers move by any number of places, back by the same, and compare by place. *)
Theorem C90_random_access : forall A (c : list A) p off, p <= length c -> (0 <= Z.of_nat p + off <= Z.of_nat (length c))%Z ->
  exists q, (Z.of_nat q = Z.of_nat p + off)%Z /\ a_add c (Fwd p) off = Ok (Fwd q) /\ a_sub c (Fwd q) off = Ok (Fwd p) /\
    a_lt (Fwd p) (Fwd q) = (0 <? off)%Z /\ a_eq (Fwd p) (Fwd q) = (off =? 0)%Z /\ deref c (Fwd q) = elem c q.
Proof. exact random_access. Qed.
Print Assumptions C90_random_access.
Example C90_random_access_case : a_add [5; 6; 7] (Fwd 2) (-2) = Ok (Fwd 0) /\ deref [5; 6; 7] (Fwd 0) = Ok 5.
Proof. split; reflexivity. Qed.

(** C90: so do those of reverse ranges, which count from the end. *)
Theorem C90_random_access_reverse : forall A (c : list A) p off, p <= length c -> (0 <= Z.of_nat p - off <= Z.of_nat (length c))%Z ->
  exists q, (Z.of_nat q = Z.of_nat p - off)%Z /\ a_add c (Rev p) off = Ok (Rev q) /\ a_sub c (Rev q) off = Ok (Rev p) /\
    a_lt (Rev p) (Rev q) = (0 <? off)%Z /\ a_eq (Rev p) (Rev q) = (off =? 0)%Z /\ (forall r, q = S r -> deref c (Rev q) = elem c r).
Proof. exact random_access_reverse. Qed.
Print Assumptions C90_random_access_reverse.
Example C90_random_access_reverse_case : a_add [5; 6; 7] (Rev 3) 2 = Ok (Rev 1) /\ deref [5; 6; 7] (Rev 1) = Ok 5 /\ a_lt (Rev 3) (Rev 1) = true.
Proof. repeat split; reflexivity. Qed.

(** C90: one step forwards and one back give the place left, in forward and reverse ranges; a step forwards from the
    end or backwards from the beginning is undefined. *)
Theorem C90_steps : forall A (c : list A) p, p <= length c ->
  (p < length c -> a_inc c (Fwd p) = Ok (Fwd (S p), Fwd (S p)) /\ a_dec c (Fwd (S p)) = Ok (Fwd p, Fwd p) /\
                   a_inc c (Rev (S p)) = Ok (Rev p, Rev p) /\ a_dec c (Rev p) = Ok (Rev (S p), Rev (S p))) /\
  (p = length c -> a_inc c (Fwd p) = UB /\ a_dec c (Rev p) = UB) /\
  (p = 0 -> a_dec c (Fwd p) = UB /\ a_inc c (Rev p) = UB).
Proof. exact @steps_back. Qed.
Print Assumptions C90_steps.
(** C90 fails for postfix increment: with standard iterators [while(i != e) body( *i++)] visits every element; with the
    adaptors it leaves out the first and reads beyond the last, for every container that is not empty. *)
Theorem C90_postfix_refuted : forall A B S (get : A -> outcome B) (body : S -> B -> outcome S) c fuel st, c <> [] -> length c < fuel ->
  (forall x, In x c -> exists y, get x = Ok y) -> (forall st y, exists st', body st y = Ok st') ->
  while_post c get body (a_inc_post c) fuel (Fwd 0) (Fwd (length c)) st = UB /\
  while_post c get body (std_inc_post c) fuel (Fwd 0) (Fwd (length c)) st = visit get body c st.
Proof.
  intros A B S get body c fuel st NE F G Bd. split; [exact (while_adaptor get body c NE G Bd fuel st F)|].
  pose proof (while_std get body c [] [] fuel st F) as H. cbn [app length] in H. rewrite app_nil_r, Nat.add_0_l in H. exact H.
Qed.
Print Assumptions C90_postfix_refuted.
(** What the expression shows is the next element (or the previous one, for postfix decrement). *)
Theorem C90_postfix_shows_neighbour_refuted : exists (c : list nat) i, a_deref c (fun x => Ok x) i = Ok 20 /\
  obind (a_inc_post c i) (fun r => a_deref c (fun x => Ok x) (snd r)) = Ok 30 /\
  obind (a_dec_post c i) (fun r => a_deref c (fun x => Ok x) (snd r)) = Ok 10.
Proof. exists [10; 20; 30], (Fwd 1). repeat split. Qed.
Print Assumptions C90_postfix_shows_neighbour_refuted.
(** C90: ranges over pointers taken as pointers to a derived class give the objects themselves exactly if the base class is
    the first and the derived class has no table pointer of its own before it (bases have positive sizes). *)
Theorem C90_cast : forall own_table sizes k object, Forall (fun s => 0 < s)%Z sizes -> k < length sizes ->
  (castPtr (object + base_offset own_table sizes k) = object <-> own_table = false /\ k = 0).
Proof. exact cast_first. Qed.
Print Assumptions C90_cast.
Theorem C90_cast_refuted : exists own_table sizes k object, Forall (fun s => 0 < s)%Z sizes /\ k < length sizes /\
  castPtr (object + base_offset own_table sizes k) <> object.
Proof. exists true, [16%Z], 0, 4096%Z. repeat split; [repeat constructor|cbn; lia|discriminate]. Qed.
Print Assumptions C90_cast_refuted.

(** C90: iterating over a JSON array or object as [T] visits every element or member in order as its value of type [T]. *)
Theorem C90_json : forall S t,
  (forall a xs (body : S -> cv -> outcome S) st, Forall2 (fun v x => as_ t v = Ok x) a xs ->
     forArrAs t (JArr a) body st = visit (fun x => Ok x) body xs st /\ forUncheckedArrAs t (JArr a) body st = visit (fun x => Ok x) body xs st) /\
  (forall o xs (body : S -> bytes * cv -> outcome S) st, Forall2 (fun m x => fst m = fst x /\ as_ t (snd m) = Ok (snd x)) o xs ->
     forObjAs t (JObj o) body st = visit (fun x => Ok x) body xs st /\ forUncheckedObjAs t (JObj o) body st = visit (fun x => Ok x) body xs st).
Proof. exact for_typed. Qed.
Print Assumptions C90_json.
Example C90_json_case : forArrAs (TyInt KInt) (JArr [JNum (NS 4); JNum (NS (-7))]) (fun st x => Ok (st ++ [x])) [] = Ok [VInt 4; VInt (-7)] /\
  forObjAs TyBool (JObj [(lit "a", JBln true); (lit "b", JBln false)]) (fun st x => Ok (st ++ [x])) [] = Ok [(lit "a", VBool true); (lit "b", VBool false)].
Proof. split; reflexivity. Qed.
(** Without a type they are given as values. *)
Theorem C90_json_values : forall S,
  (forall a (body : S -> cv -> outcome S) st, forArr (JArr a) body st = visit (fun x => Ok x) body (map VJson a) st) /\
  (forall o (body : S -> bytes * cv -> outcome S) st, forObj (JObj o) body st = visit (fun x => Ok x) body (map (fun m => (fst m, VJson (snd m))) o) st).
Proof. exact for_values. Qed.
Print Assumptions C90_json_values.
(** Values of another kind: the checked loops visit nothing, the unchecked ones are undefined. *)
Theorem C90_json_other_kind : forall S t,
  (forall v (body : S -> cv -> outcome S) st, (forall a, v <> JArr a) -> forArrAs t v body st = Ok st /\ forUncheckedArrAs t v body st = UB) /\
  (forall v (body : S -> bytes * cv -> outcome S) st, (forall o, v <> JObj o) -> forObjAs t v body st = Ok st /\ forUncheckedObjAs t v body st = UB).
Proof. exact for_other. Qed.
Print Assumptions C90_json_other_kind.
(** C90 fails: a conversion that throws ends the program instead, for the iterators are noexcept. *)
Theorem C90_json_throw_refuted : exists t v m, as_ t v = Throw m /\
  forall S (body : S -> cv -> outcome S) st, forArrAs t (JArr [v]) body st = Throw "std::terminate"%string.
Proof. exists (TyBits 2), (JStr (lit "x1")), "invalid_argument"%string. split; reflexivity. Qed.
Print Assumptions C90_json_throw_refuted.
