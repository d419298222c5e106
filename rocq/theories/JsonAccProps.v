(** C91, C92: reaching into JSON values, changing them in place, making and comparing them. *)
From Coq Require Import String Ascii ZArith NArith Arith Bool Lia List.
From Coq Require Import Floats.SpecFloat.
From Verif Require Import Common VecSpec JsonNumModel JsonModel JsonCnvModel JsonSpec JsonAccModel JsonAccSpec JsonAccProofs.
Import ListNotations.

(** The values the theorems speak of: those read from texts, and those built by the makers and by assignment. *)
Theorem C91_values : (forall t v, denotes t v -> keyed v) /\
  (forall l v, mkObj l = Ok v -> Forall keyed (map snd l) -> keyed v) /\
  (forall l v, mkArr l = Ok v -> Forall keyed l -> keyed v).
Proof. exact (conj denoted_keyed (conj mkObj_keyed mkArr_keyed)). Qed.
Print Assumptions C91_values.

(** Reading through constant subscripts: the element when it is there, null for an absent last key, an exception
    beyond the end of an array; in every other case (wrong kind, or going on after an absent key) undefined. *)
Theorem C91_read : forall v p, keyed v ->
  (forall w, read v p = Ok w <-> found v p w \/ missing_key v p /\ w = JNll) /\
  (forall m, read v p = Throw m <-> beyond v p /\ m = "out_of_range"%string) /\
  (read v p = UB <-> ~ beyond v p /\ ~ missing_key v p /\ forall w, ~ found v p w).
Proof. exact read_spec. Qed.
Print Assumptions C91_read.

(** Assigning to an element that is there or to a new last key: afterwards the element is there and whatever does
    not lie on the way is unchanged; in every other case undefined. *)
Theorem C91_assign : forall v p x, keyed v ->
  ((exists w, found v p w) \/ missing_key v p ->
   exists v', assign v p x = Ok v' /\ found v' p x /\ (keyed x -> keyed v') /\ forall q u, part p q -> (found v q u <-> found v' q u)) /\
  ((forall w, ~ found v p w) -> ~ missing_key v p -> assign v p x = UB).
Proof. exact assign_spec. Qed.
Print Assumptions C91_assign.
(** Objects on the way are not made: assigning below an absent key is undefined. *)
Theorem C91_nested_refuted : exists v k j x, keyed v /\ missing_key v [K k] /\ assign v [K k; K j] x = UB.
Proof.
  exists (JObj []), (lit "a"), (lit "b"), (JBln true). split; [constructor; [exact Logic.I|intros k u []]|].
  split; [exists [], [], (lit "a"); split; [reflexivity|]; split; [constructor|intros []]|reflexivity].
Qed.
Print Assumptions C91_nested_refuted.

(** Looking at an element of a value that is not constant leaves it alone, except that an absent last key comes
    into being with null. *)
Theorem C91_look : forall v p, keyed v ->
  (forall w, found v p w -> touch v p = Ok v) /\
  (missing_key v p -> exists v', touch v p = Ok v' /\ v' <> v /\ found v' p JNll /\ keyed v' /\ forall q u, part p q -> (found v q u <-> found v' q u)) /\
  ((forall w, ~ found v p w) -> ~ missing_key v p -> touch v p = UB).
Proof. exact touch_spec. Qed.
Print Assumptions C91_look.

(** [emplace] appends to the array; undefined where there is none. *)
Theorem C91_emplace : forall v p x, keyed v ->
  (forall a, found v p (JArr a) -> exists v', emplace v p x = Ok v' /\ found v' p (JArr (a ++ [x])) /\ (keyed x -> keyed v') /\
     forall q u, part p q -> (found v q u <-> found v' q u)) /\
  ((forall a, ~ found v p (JArr a)) -> emplace v p x = UB).
Proof. exact emplace_spec. Qed.
Print Assumptions C91_emplace.

(** [has] tells whether there is something; [getIfHas] converts it, or answers with the default. *)
Theorem C91_has : forall o a k i, keyed (JObj o) ->
  (exists b, has (JObj o) (K k) = Ok b /\ (b = true <-> exists u, In (k, u) o)) /\
  (exists b, has (JArr a) (I i) = Ok b /\ (b = true <-> exists u, nth_error a i = Some u)).
Proof. exact has_spec. Qed.
Print Assumptions C91_has.
Theorem C91_getIfHas : forall t v s def, keyed v ->
  (forall u, found v [s] u -> getIfHas t v s def = as_ t u) /\
  ((forall u, ~ found v [s] u) -> getIfHas t v s def = Ok def \/ getIfHas t v s def = UB /\ read v [s] = UB).
Proof. exact getIfHas_spec. Qed.
Print Assumptions C91_getIfHas.

(** An object made of keys and values has one entry per key, with the last value given for it. *)
Theorem C91_mkObj : forall l, exists o, mkObj l = Ok (JObj o) /\ object_of l o.
Proof. exact mkObj_spec. Qed.
Print Assumptions C91_mkObj.

(** Sizes: the number of elements of an array; of an object, the number of its keys; undefined for other values. *)
Theorem C91_sizes : forall v, keyed v ->
  (forall a, v = JArr a -> getSizeArr v = Ok (length a) /\ exists b, isEmptyArr v = Ok b /\ (b = true <-> a = [])) /\
  (forall o, v = JObj o -> exists ks, NoDup ks /\ (forall k, In k ks <-> exists u, found v [K k] u) /\ getSizeObj v = Ok (length ks) /\
     exists b, isEmptyObj v = Ok b /\ (b = true <-> forall k u, ~ found v [K k] u)) /\
  ((forall a, v <> JArr a) -> getSizeArr v = UB /\ isEmptyArr v = UB) /\
  ((forall o, v <> JObj o) -> getSizeObj v = UB /\ isEmptyObj v = UB).
Proof. exact sizes_spec. Qed.
Print Assumptions C91_sizes.
Example C91_sizes_example : obind (mkObj [(lit "a", JNll); (lit "b", JBln true); (lit "a", JBln false)]) getSizeObj = Ok 2 /\ isEmptyArr (JArr []) = Ok true.
Proof. vm_compute. auto. Qed.
(** C92: equality of values is defined and is equality of data, whatever the order in which objects were filled and
    however whole numbers are stored, unless unsigned numbers stand left and reals right. *)
Theorem C92_equal : forall a b, keyed a -> keyed b -> numbers whole_number a -> numbers whole_number b ->
  numbers not_unsigned a \/ numbers not_real b ->
  exists r, val_eq a b = Ok r /\ (r = true <-> alike a b).
Proof. exact (fun a b Ka Kb Na Nb U => value_decided a b (conj Ka (conj Kb (conj Na (conj Nb U))))). Qed.
Print Assumptions C92_equal.
(** The last condition is needed. *)
Theorem C92_unsigned_real_refuted : exists a b, keyed a /\ keyed b /\ numbers whole_number a /\ numbers whole_number b /\ val_eq a b = UB.
Proof.
  exists (JArr [JNum (NU 1)]), (JArr [JNum (NR (of_int (-1)))]).
  split; [constructor; intros u [<-|[]]; constructor|]. split; [constructor; intros u [<-|[]]; constructor|].
  split; [constructor; intros u [<-|[]]; constructor; exists 1%Z; split; [now constructor|lia]|].
  split; [constructor; intros u [<-|[]]; constructor; exists (-1)%Z; split; [constructor|lia]|]. vm_compute. reflexivity.
Qed.
Print Assumptions C92_unsigned_real_refuted.

(** {"a":[1,{"b":true}]} read, written, looked at and compared. *)
Definition sample : jval := JObj [(lit "a", JArr [JNum (NS 1); JObj [(lit "b", JBln true)]])].
Example C91_ex_keyed : keyed sample.
Proof. repeat (constructor; try (intros k u [E|[]]; injection E as <- <-); try (intros u [<-|[<-|[]]]); try (intros ? [])). Qed.
Example C91_ex_found : found sample [K (lit "a"); I 1; K (lit "b")] (JBln true).
Proof. repeat (econstructor; try (left; reflexivity); try reflexivity). Qed.
Example C91_ex_missing : missing_key sample [K (lit "a"); I 1; K (lit "c")].
Proof.
  exists [K (lit "a"); I 1], [(lit "b", JBln true)], (lit "c"). split; [reflexivity|].
  split; [repeat (econstructor; try (left; reflexivity); try reflexivity)|]. cbn. intros [E|[]]. discriminate.
Qed.
Example C91_ex1 : read sample [K (lit "a"); I 1; K (lit "b")] = Ok (JBln true).
Proof. vm_compute. reflexivity. Qed.
Example C91_ex2 : read sample [K (lit "a"); I 2] = Throw "out_of_range"%string.
Proof. vm_compute. reflexivity. Qed.
Example C91_ex3 : read sample [K (lit "a"); I 1; K (lit "c")] = Ok JNll.
Proof. vm_compute. reflexivity. Qed.
Example C91_ex4 : assign sample [K (lit "a"); I 1; K (lit "a")] JNll =
  Ok (JObj [(lit "a", JArr [JNum (NS 1); JObj [(lit "a", JNll); (lit "b", JBln true)]])]).
Proof. vm_compute. reflexivity. Qed.
Example C91_ex5 : emplace sample [K (lit "a")] JNll = Ok (JObj [(lit "a", JArr [JNum (NS 1); JObj [(lit "b", JBln true)]; JNll])]).
Proof. vm_compute. reflexivity. Qed.
Example C91_ex6 : part [K (lit "a"); I 1] [K (lit "a"); I 0].
Proof. exists [K (lit "a")], (I 1), (I 0), [], []. repeat split. discriminate. Qed.
Example C91_ex7 : mkObj [(lit "b", JNll); (lit "a", JBln true); (lit "b", JBln false)] = Ok (JObj [(lit "a", JBln true); (lit "b", JBln false)]).
Proof. vm_compute. reflexivity. Qed.
Example C91_ex8 : getIfHas (TyInt KInt) sample (K (lit "z")) (VInt 7) = Ok (VInt 7).
Proof. vm_compute. reflexivity. Qed.
Example C92_ex : val_eq (JArr [JNum (NR (of_int 3)); JObj [(lit "k", JNum (NU 5))]]) (JArr [JNum (NU 3); JObj [(lit "k", JNum (NS 5))]]) = Ok true.
Proof. vm_compute. reflexivity. Qed.
