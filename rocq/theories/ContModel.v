(** Model of include/SSVUtils/Core/Utils/Containers.hpp:53-317 over sequences. *)
From Coq Require Import String Ascii ZArith NArith Arith Bool Lia List.
From Verif Require Import Common.
Import ListNotations.

Section Cont.
  Context {A : Type}.

  (** [std::find_if] as a position; the size means "not found". *)
  Fixpoint find_if (p : A -> bool) (l : list A) : nat :=
    match l with [] => 0 | x :: r => if p x then 0 else S (find_if p r) end.

  (** Array write (positions are in range by construction of the loop). *)
  Fixpoint put (i : nat) (v : A) (l : list A) : list A :=
    match l, i with
    | [], _ => []
    | _ :: r, O => v :: r
    | x :: r, S i' => x :: put i' v r
    end.

  (** [std::remove_if] as implemented by libstdc++: skip to the first match, then shift every later
      non-match down, element by element, in place. The test may look at the array being modified
      (a value passed by reference may live inside it), hence the array argument of [p].
      [n] counts the remaining elements, [i] is the read position, [r] the write position. *)
  Fixpoint remove_shift (p : list A -> A -> bool) (n i r : nat) (arr : list A) : nat * list A :=
    match n with
    | O => (r, arr)
    | S n' =>
        match nth_error arr i with
        | Some x => if p arr x then remove_shift p n' (S i) r arr
                    else remove_shift p n' (S i) (S r) (put r x arr)
        | None => (r, arr)
        end
    end.
  Definition std_remove_if (p : list A -> A -> bool) (arr : list A) : nat * list A :=
    let f := find_if (p arr) arr in
    if f =? length arr then (length arr, arr)
    else remove_shift p (length arr - S f) (S f) f arr.

  (** Containers.hpp:251-255 [eraseRemoveIf] / 193-197 [eraseRemove]: erase from the returned
      iterator to the end. *)
  Definition erase_removed (p : list A -> A -> bool) (arr : list A) : list A :=
    let '(r, arr') := std_remove_if p arr in firstn r arr'.
  Definition eraseRemoveIf (p : A -> bool) (arr : list A) : list A := erase_removed (fun _ => p) arr.

  Variable eqb : A -> A -> bool.

  (** [eraseRemove(c, v)] with [v] outside the container. *)
  Definition eraseRemove (arr : list A) (v : A) : list A := erase_removed (fun _ x => eqb x v) arr.
  (** [eraseRemove(c, c[k])]: the value is read through the reference at every comparison.
      (Elements are taken to be trivially copyable, so a shifted element keeps its value.) *)
  Definition eraseRemove_self (arr : list A) (k : nat) : outcome (list A) :=
    if k <? length arr then
      Ok (erase_removed (fun cur x => match nth_error cur k with Some v => eqb x v | None => false end) arr)
    else UB.

  (** 174-177, 203-235. *)
  Definition idxOf (l : list A) (v : A) : nat := find_if (fun x => eqb x v) l.
  Definition contains (l : list A) (v : A) : bool := negb (idxOf l v =? length l).
  Fixpoint containsAnyOf (l vs : list A) : bool :=
    match vs with [] => false | v :: r => if contains l v then true else containsAnyOf l r end.
  Fixpoint containsAllOf (l vs : list A) : bool :=
    match vs with [] => true | v :: r => if negb (contains l v) then false else containsAllOf l r end.

  (** 284-290 [trimL]: erase up to the first element not matching. *)
  Definition trimL (p : A -> bool) (l : list A) : list A := skipn (find_if (fun x => negb (p x)) l) l.
  (** 297-304 [trimR]: reverse search, [base()] of the reverse iterator, erase to the end. *)
  Definition trimR (p : A -> bool) (l : list A) : list A :=
    firstn (length l - find_if (fun x => negb (p x)) (rev l)) l.
  (** 312-317. *)
  Definition trimLR (p : A -> bool) (l : list A) : list A := trimR p (trimL p l).
  (** 184-188. *)
  Definition containsAnyIf (p : A -> bool) (l : list A) : bool := negb (find_if p l =? length l).
End Cont.

(** 240-246. *)
Definition getKeys {K V} (m : list (K * V)) : list K := fold_left (fun result p => result ++ [fst p]) m [].
