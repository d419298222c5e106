(** Model of include/SSVUtils/Container/Inc/{VecMap,VecMapBase,VecSorted}.hpp and of the STL binary
    search they rely on. *)
From Coq Require Import String Arith Bool Lia List Permutation.
From Verif Require Import Common ListAux.
Import ListNotations.

(** [std::lower_bound] (through Core/Utils/Containers.hpp [lowerBound]): the usual halving loop.
    [f x] stands for [comp(x, key)].  Reading outside the vector is UB. *)
Fixpoint lower_bound_loop {A} (fuel : nat) (f : A -> bool) (l : list A) (first len : nat) : outcome nat :=
  match len with
  | 0 => Ok first
  | _ =>
    match fuel with
    | 0 => OutOfFuel
    | S fuel =>
      let half := len / 2 in
      match nth_error l (first + half) with
      | None => UB
      | Some x => if f x then lower_bound_loop fuel f l (first + half + 1) (len - half - 1)
                  else lower_bound_loop fuel f l first half
      end
    end
  end.
Definition lower_bound {A} (f : A -> bool) (l : list A) : outcome nat :=
  lower_bound_loop (length l) f l 0 (length l).

(** [vector::emplace(begin + i, x)]. *)
Definition insert_at {A} (i : nat) (x : A) (l : list A) : list A := firstn i l ++ x :: skipn i l.
(** Assignment through the reference to element [i]. *)
Definition set_at {A} (i : nat) (x : A) (l : list A) : list A := firstn i l ++ x :: skipn (S i) l.

Section VECMAP.
Context {K V : Type} (ltb eqb : K -> K -> bool) (dflt : V).

(** VecMap.hpp:36-40. *)
Definition vm_lookup (d : list (K * V)) (k : K) : outcome nat := lower_bound (fun p => ltb (fst p) k) d.
(** VecMap.hpp:52-56. *)
Definition vm_is (d : list (K * V)) (i : nat) (k : K) : bool :=
  match nth_error d i with Some p => eqb (fst p) k | None => false end.
(** VecMapBase.hpp:31-35; VecMap.hpp:83-86. *)
Definition vm_has (d : list (K * V)) (k : K) : outcome bool := obind (vm_lookup d k) (fun i => Ok (vm_is d i k)).
Definition vm_count (d : list (K * V)) (k : K) : outcome nat :=
  obind (vm_lookup d k) (fun i => Ok (if vm_is d i k then 1 else 0)).
(** VecMap.hpp:90-96: the new contents and the position of the element referred to. *)
Definition vm_bracket (d : list (K * V)) (k : K) : outcome (list (K * V) * nat) :=
  obind (vm_lookup d k) (fun i => Ok (if vm_is d i k then (d, i) else (insert_at i (k, dflt) d, i))).
(** VecMap.hpp:100-106. *)
Definition vm_at (d : list (K * V)) (k : K) : outcome V :=
  obind (vm_lookup d k) (fun i =>
    if vm_is d i k then match nth_error d i with Some p => Ok (snd p) | None => UB end else Throw "out_of_range"%string).
(** VecMap.hpp:110-117; the static default is never written (the reference is const). *)
Definition vm_atOrDefault (d : list (K * V)) (k : K) : outcome V :=
  obind (vm_lookup d k) (fun i =>
    if vm_is d i k then match nth_error d i with Some p => Ok (snd p) | None => UB end else Ok dflt).
(** VecMap.hpp:121-126: position of the entry, or the size (past the end). *)
Definition vm_atItr (d : list (K * V)) (k : K) : outcome nat :=
  obind (vm_lookup d k) (fun i => Ok (if vm_is d i k then i else length d)).

(** Operations of a client: [m[k] = v], [m[k]] (value discarded), [clear()] (VecMapBase.hpp:51-54). *)
Inductive vm_op := Assign (k : K) (v : V) | Touch (k : K) | Clear.
Definition vm_step (d : list (K * V)) (o : vm_op) : outcome (list (K * V)) :=
  match o with
  | Assign k v => obind (vm_bracket d k) (fun r =>
      match nth_error (fst r) (snd r) with
      | Some p => Ok (set_at (snd r) (fst p, v) (fst r))
      | None => UB
      end)
  | Touch k => obind (vm_bracket d k) (fun r => Ok (fst r))
  | Clear => Ok []
  end.
Fixpoint vm_run (d : list (K * V)) (h : list vm_op) : outcome (list (K * V)) :=
  match h with
  | [] => Ok d
  | o :: h => obind (vm_step d o) (fun d' => vm_run d' h)
  end.
(** VecMap.hpp:66-70: [std::sort] by key leaves some sorted permutation (the order of entries with
    equal keys is unspecified, hence a relation). *)
Definition vm_init (l d : list (K * V)) : Prop :=
  Permutation l d /\ forall i j p q, i < j -> nth_error d i = Some p -> nth_error d j = Some q ->
    ltb (fst q) (fst p) = false.
End VECMAP.
Arguments vm_op : clear implicits.

Section VECSORTED.
Context {T : Type} (cmp : T -> T -> bool).
(** VecSorted.hpp:32-35, 79-84: [insert]. [is] (48-51) compares an iterator with a value, so [has]
    and [atItr] cannot be instantiated and are not modelled. *)
Definition vs_insert (d : list T) (x : T) : outcome (list T * nat) :=
  obind (lower_bound (fun y => cmp y x) d) (fun i => Ok (insert_at i x d, i)).
Fixpoint vs_run (d : list T) (xs : list T) : outcome (list T) :=
  match xs with
  | [] => Ok d
  | x :: xs => obind (vs_insert d x) (fun r => vs_run (fst r) xs)
  end.
End VECSORTED.
