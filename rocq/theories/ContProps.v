(** Property theorems C20, C21, C82 (containers). *)
From Coq Require Import String Ascii ZArith NArith Arith Bool Lia List.
From Verif Require Import Common ContModel ContProofs.
Import ListNotations.

(** C20. *)
Theorem C20_trimL : forall A (p : A -> bool) l, exists pre, l = pre ++ trimL p l /\
  Forall (fun x => p x = true) pre /\ match trimL p l with [] => True | x :: _ => p x = false end.
Proof. exact @trimL_spec. Qed.
Print Assumptions C20_trimL.
Theorem C20_trimR : forall A (p : A -> bool) l, exists post, l = trimR p l ++ post /\
  Forall (fun x => p x = true) post /\ match rev (trimR p l) with [] => True | x :: _ => p x = false end.
Proof. exact @trimR_spec. Qed.
Print Assumptions C20_trimR.
Theorem C20_trimLR : forall A (p : A -> bool) l, exists pre post, l = pre ++ trimLR p l ++ post /\
  Forall (fun x => p x = true) pre /\ Forall (fun x => p x = true) post /\
  match trimLR p l with [] => True | x :: _ => p x = false end /\
  match rev (trimLR p l) with [] => True | x :: _ => p x = false end.
Proof. exact @trimLR_spec. Qed.
Print Assumptions C20_trimLR.
Theorem C20_trim_idempotent : forall A (p : A -> bool) l,
  trimL p (trimL p l) = trimL p l /\ trimR p (trimR p l) = trimR p l /\
  trimLR p (trimLR p l) = trimLR p l.
Proof. exact @trim_idem. Qed.
Print Assumptions C20_trim_idempotent.
Example C20_example : let p := Ascii.eqb " " in
  trimL p (lit "  a b ") = lit "a b " /\ trimR p (lit "  a b ") = lit "  a b" /\
  trimLR p (lit "  a b ") = lit "a b" /\ trimLR p (lit "   ") = [].
Proof. vm_compute. repeat split; reflexivity. Qed.

(** C21. *)
Theorem C21_idxOf : forall A (eqb : A -> A -> bool), (forall x y, eqb x y = true <-> x = y) -> forall l v,
  (In v l -> exists pre post, l = pre ++ v :: post /\ ~ In v pre /\ idxOf eqb l v = length pre) /\
  (~ In v l -> idxOf eqb l v = length l).
Proof. exact @idxOf_spec. Qed.
Print Assumptions C21_idxOf.
Theorem C21_contains : forall A (eqb : A -> A -> bool), (forall x y, eqb x y = true <-> x = y) ->
  forall l v, contains eqb l v = true <-> In v l.
Proof. exact @contains_spec. Qed.
Print Assumptions C21_contains.
Theorem C21_containsAnyOf : forall A (eqb : A -> A -> bool), (forall x y, eqb x y = true <-> x = y) ->
  forall l vs, containsAnyOf eqb l vs = true <-> exists v, In v vs /\ In v l.
Proof. exact @containsAnyOf_spec. Qed.
Print Assumptions C21_containsAnyOf.
Theorem C21_containsAllOf : forall A (eqb : A -> A -> bool), (forall x y, eqb x y = true <-> x = y) ->
  forall l vs, containsAllOf eqb l vs = true <-> forall v, In v vs -> In v l.
Proof. exact @containsAllOf_spec. Qed.
Print Assumptions C21_containsAllOf.
Theorem C21_containsAnyIf : forall A (p : A -> bool) l, containsAnyIf p l = true <-> exists x, In x l /\ p x = true.
Proof. exact @containsAnyIf_spec. Qed.
Print Assumptions C21_containsAnyIf.
Theorem C21_eraseRemoveIf : forall A (p : A -> bool) l, eraseRemoveIf p l = filter (fun x => negb (p x)) l.
Proof. exact @eraseRemoveIf_spec. Qed.
Print Assumptions C21_eraseRemoveIf.
Theorem C21_eraseRemove : forall A (eqb : A -> A -> bool) l v,
  eraseRemove eqb l v = filter (fun x => negb (eqb x v)) l.
Proof. exact @eraseRemove_spec. Qed.
Print Assumptions C21_eraseRemove.
(** The keys are those of all entries, in the order of iteration. *)
Theorem C21_getKeys : forall K V (m : list (K * V)), length (getKeys m) = length m /\ forall i, nth_error (getKeys m) i = option_map fst (nth_error m i).
Proof. exact getKeys_spec. Qed.
Print Assumptions C21_getKeys.
Example C21_getKeys_case : getKeys [(1, true); (4, false); (4, true)] = [1; 4; 4].
Proof. reflexivity. Qed.
Example C21_example : idxOf Nat.eqb [5;6;7;6] 6 = 1 /\ idxOf Nat.eqb [5;6] 9 = 2 /\
  eraseRemoveIf Nat.even [1;2;4;3;6;5] = [1;3;5] /\ containsAllOf Nat.eqb [1;2;3] [3;1;1] = true /\
  containsAnyOf Nat.eqb [1;2;3] [7;2] = true.
Proof. vm_compute. repeat split; reflexivity. Qed.

(** C82. Expected: erasing by an element of the container itself removes every equal element.
    Refuted: the value is re-read through a reference into the array that is being shifted. *)
Theorem C82_eraseRemove_own_element_refuted : exists l k v r,
  nth_error l k = Some v /\ eraseRemove_self Nat.eqb l k = Ok r /\
  In v r /\ r <> filter (fun x => negb (Nat.eqb x v)) l.
Proof.
  exists [1;2;1;2], 0, 1, [2;1]. vm_compute. repeat split; try tauto. discriminate.
Qed.
Print Assumptions C82_eraseRemove_own_element_refuted.
