(** Properties C28-C30: sorted-vector map and multiset. *)
From Coq Require Import String Arith Bool Lia List Permutation.
From Verif Require Import Common ListAux VecModel VecSpec VecProofs.
Import ListNotations.

(** C28: after any history of assignments, bracket reads and clears the contents are strictly sorted
    by key, hold exactly the pairs of the map the history means, and every query answers as the map
    does. *)
Theorem C28_vecmap : forall K V (ltb eqb : K -> K -> bool) (dflt : V), strict_total ltb eqb ->
  forall h, exists d, vm_run ltb eqb dflt [] h = Ok d /\
  ordered (fun p q => ltb (fst p) (fst q) = true) d /\
  (forall k v, In (k, v) d <-> meaning eqb dflt (rev h) k = Some v) /\
  forall k,
  vm_has ltb eqb d k = Ok (match meaning eqb dflt (rev h) k with Some _ => true | None => false end) /\
  vm_count ltb eqb d k = Ok (match meaning eqb dflt (rev h) k with Some _ => 1 | None => 0 end) /\
  vm_at ltb eqb d k = match meaning eqb dflt (rev h) k with Some v => Ok v | None => Throw "out_of_range"%string end /\
  vm_atOrDefault ltb eqb dflt d k = Ok (match meaning eqb dflt (rev h) k with Some v => v | None => dflt end) /\
  (exists i, vm_atItr ltb eqb d k = Ok i /\
     match meaning eqb dflt (rev h) k with Some v => nth_error d i = Some (k, v) | None => i = length d end).
Proof. exact (fun K V => @vecmap_spec K V). Qed.
Print Assumptions C28_vecmap.

(** C28: two maps compare equal exactly when they mean the same map, whatever their histories. *)
Theorem C28_vecmap_equality : forall K V (ltb eqb : K -> K -> bool) (dflt : V), strict_total ltb eqb ->
  forall h1 h2 d1 d2, vm_run ltb eqb dflt [] h1 = Ok d1 -> vm_run ltb eqb dflt [] h2 = Ok d2 ->
  (d1 = d2 <-> forall k, meaning eqb dflt (rev h1) k = meaning eqb dflt (rev h2) k).
Proof. exact (fun K V => @vecmap_equality K V). Qed.
Print Assumptions C28_vecmap_equality.

(** C28: the bracket operator refers to the entry of its key, adds at most that one entry and leaves
    all other entries alone. *)
Theorem C28_vecmap_bracket : forall K V (ltb eqb : K -> K -> bool) (dflt : V), strict_total ltb eqb ->
  forall h k d d' i, vm_run ltb eqb dflt [] h = Ok d -> vm_bracket ltb eqb dflt d k = Ok (d', i) ->
  (exists v, nth_error d' i = Some (k, v)) /\
  (forall j v, j <> k -> (In (j, v) d' <-> In (j, v) d)) /\
  length d' = if (match meaning eqb dflt (rev h) k with Some _ => true | None => false end) then length d else S (length d).
Proof. exact (fun K V => @bracket_frame K V). Qed.
Print Assumptions C28_vecmap_bracket.

Example C28_ex : vm_run Nat.ltb Nat.eqb 0 [] [Assign 5 50; Assign 2 20; Touch 9; Assign 5 55; Touch 2] = Ok [(2, 20); (5, 55); (9, 0)].
Proof. reflexivity. Qed.
Example C28_nat : strict_total Nat.ltb Nat.eqb.
Proof.
  constructor.
  - intros. apply Nat.ltb_irrefl.
  - intros a b c H1 H2. apply Nat.ltb_lt in H1, H2. apply Nat.ltb_lt. lia.
  - intros a b. rewrite !Nat.ltb_lt. lia.
  - apply Nat.eqb_eq.
Qed.

(** C29: an initializer list with distinct keys gives the map of its entries. *)
Theorem C29_init_distinct : forall K V (ltb eqb : K -> K -> bool), strict_total ltb eqb ->
  forall (l d : list (K * V)), vm_init ltb l d -> NoDup (map fst l) ->
  ordered (fun p q => ltb (fst p) (fst q) = true) d /\ (forall x, In x d <-> In x l) /\
  (forall k v, In (k, v) l -> vm_at ltb eqb d k = Ok v) /\
  (forall k, ~ In k (map fst l) -> vm_at ltb eqb d k = Throw "out_of_range"%string).
Proof. exact (fun K V => @init_distinct K V). Qed.
Print Assumptions C29_init_distinct.

(** C29: duplicate keys are never merged: every list entry stays an entry. *)
Theorem C29_init_keeps_duplicates : forall K V (ltb eqb : K -> K -> bool) (l d : list (K * V)), vm_init ltb l d ->
  length d = length l /\
  (forall k, length (filter (fun p => eqb (fst p) k) d) = length (filter (fun p => eqb (fst p) k) l)).
Proof. exact init_keeps_duplicates. Qed.
Print Assumptions C29_init_keeps_duplicates.

(** C29: so the contents need not be a map: here key 1 has two entries, count says 1, and assigning
    through the bracket operator leaves the other entry behind. *)
Theorem C29_init_duplicates_refuted : exists d : list (nat * nat), vm_init Nat.ltb [(1, 10); (1, 11)] d /\
  vm_count Nat.ltb Nat.eqb d 1 = Ok 1 /\ length d = 2 /\
  vm_step Nat.ltb Nat.eqb 0 d (Assign 1 12) = Ok [(1, 12); (1, 11)].
Proof.
  exists [(1, 10); (1, 11)]. split; [|repeat split; reflexivity]. split; [apply Permutation_refl|].
  intros i j p q L E1 E2. destruct i as [|[|i]]; destruct j as [|[|j]]; cbn in E1, E2; try lia;
    try (destruct i; discriminate); try (destruct j; discriminate).
  injection E1 as <-. injection E2 as <-. reflexivity.
Qed.
Print Assumptions C29_init_duplicates_refuted.

(** C30: any sequence of inserts gives a sorted permutation of what was inserted. *)
Theorem C30_vecsorted : forall T (cmp : T -> T -> bool), strict_weak cmp ->
  forall xs, exists d, vs_run cmp [] xs = Ok d /\ ordered (fun x y => cmp y x = false) d /\ Permutation d xs.
Proof. exact (fun T => @vecsorted_spec T). Qed.
Print Assumptions C30_vecsorted.
(** C30: the new element lands before its equals, the returned position is its own, the others keep
    their order. *)
Theorem C30_vecsorted_insert : forall T (cmp : T -> T -> bool), strict_weak cmp ->
  forall xs d x, vs_run cmp [] xs = Ok d ->
  exists p s, d = p ++ s /\ vs_insert cmp d x = Ok (p ++ x :: s, length p) /\
   (forall y, In y p -> cmp y x = true) /\ (forall y, In y s -> cmp y x = false).
Proof. exact (fun T => @vecsorted_insert T). Qed.
Print Assumptions C30_vecsorted_insert.
Example C30_ex : vs_run (fun a b => fst a <? fst b) [] [(3, 0); (1, 1); (3, 2); (2, 3)] = Ok [(1, 1); (2, 3); (3, 2); (3, 0)].
Proof. reflexivity. Qed.
