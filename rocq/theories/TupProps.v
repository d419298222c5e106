(** Argument packs, tuples and delegates: the property theorems (C72, C73). The functions called are any
    functions on any state. *)
From Coq Require Import String ZArith Arith Bool Lia List.
Import ListNotations.
From Verif Require Import Common MplModel TupModel TupSpec TupProofs.

(** C72. [forArgs<n>] calls its function on the consecutive groups of [n] arguments, in order; an exception
    ends it. Every argument list of a suitable length consists of such groups. *)
Theorem C72_forArgs : forall S A n (f : S -> list A -> ending S unit) gs s, 0 < n -> Forall (fun g => length g = n) gs ->
  forArgs n f (concat gs) s = Ok (in_order (map (fun g s => f s g) gs) s).
Proof. exact @forArgs_groups. Qed.
Print Assumptions C72_forArgs.
Theorem C72_forArgs_groups : forall A n (xs : list A), 0 < n -> length xs mod n = 0 ->
  exists gs, concat gs = xs /\ Forall (fun g => length g = n) gs.
Proof. exact @divisible_groups. Qed.
Print Assumptions C72_forArgs_groups.
Theorem C72_forArgs_refused : forall S A n (f : S -> list A -> ending S unit) xs s, n = 0 \/ length xs mod n <> 0 ->
  forArgs n f xs s = illformed.
Proof. exact @forArgs_refused. Qed.
Print Assumptions C72_forArgs_refused.
Example C72_forArgs_example :
  forArgs 2 (fun s g => Returned (s ++ [g]) tt) [1; 2; 3; 4] [] = Ok (Returned [[1; 2]; [3; 4]] tt) /\
  forArgs 1 (fun s g => if Nat.eqb s 2 then Raised s "stop" else Returned (s + 1) tt) [7; 8; 9; 10] 0 = Ok (Raised 2 "stop") /\
  forArgs 3 (fun s g => Returned (s ++ [g]) tt) [1; 2; 3; 4] [] = illformed.
Proof. repeat split; vm_compute; reflexivity. Qed.

(** C72. [tplFor] visits the positions that all tuples have, in order, with the elements of all tuples there.
    If an exception is thrown it comes out, provided no visited call is declared [noexcept]. *)
Theorem C72_tplFor : forall S A (d : A) nx (h : S -> nat -> list A -> ending S unit) tpls n s,
  (exists t, In t tpls /\ length t = n) -> (forall t, In t tpls -> n <= length t) -> 0 < n ->
  match in_order (map (fun j s => h s j (map (fun t => nth j t d) tpls)) (seq 0 n)) s with
  | Raised s' m => ((forall j, j < n -> nx j = false) -> tplFor nx h tpls s = Ok (Raised s' m)) /\
                   (nx 0 = true -> tplFor nx h tpls s = Ok Terminated)
  | e => tplFor nx h tpls s = Ok e
  end.
Proof. exact (fun S A d nx h tpls n s E M => tplFor_spec d nx h tpls n s (conj E M)). Qed.
Print Assumptions C72_tplFor.
Example C72_tplFor_example :
  tplFor (fun _ => false) (fun s j g => Returned (s ++ [(j, g)]) tt) [[1; 2; 3]; [4; 5]] [] = Ok (Returned [(0, [1; 4]); (1, [2; 5])] tt).
Proof. vm_compute. reflexivity. Qed.
(** C72, finding: [tplFor] over an empty tuple does not compile. *)
Theorem C72_tplFor_empty_refuted : forall S A nx (h : S -> nat -> list A -> ending S unit) tpls s, In [] tpls -> tplFor nx h tpls s = illformed.
Proof. exact @tplFor_with_empty. Qed.
Print Assumptions C72_tplFor_empty_refuted.
(** C72, finding: [tplFor] declares itself [noexcept] by its call at the first position alone, so an
    exception thrown by a call at a later position ends the program. *)
Theorem C72_tplFor_noexcept_refuted : exists nx (h : nat -> nat -> list nat -> ending nat unit),
  nx 1 = false /\ h 1 1 [20] = Raised 1 "bad"%string /\
  in_order (map (fun j s => h s j (map (fun t => nth j t 0) [[10; 20]])) (seq 0 2)) 0 = Raised 1 "bad"%string /\
  tplFor nx h [[10; 20]] 0 = Ok Terminated.
Proof.
  exists (fun i => Nat.eqb i 0), (fun s i _ => if Nat.eqb i 1 then Raised s "bad"%string else Returned (s + 1) tt).
  repeat split; vm_compute; reflexivity.
Qed.
Print Assumptions C72_tplFor_noexcept_refuted.

(** C72. [explode] calls the function once, with the elements of the tuple in order. Finding: it is declared
    [noexcept] whatever the function, so an exception thrown by the function ends the program, unless the
    tuple is empty. *)
Theorem C72_explode : forall S A R (f : S -> list A -> ending S R) t s,
  explode f t s = Ok (match f s t with Raised s' m => match t with [] => Raised s' m | _ => Terminated end | e => e end).
Proof. exact @explode_spec. Qed.
Print Assumptions C72_explode.
Example C72_explode_example : explode (fun (s : nat) xs => Returned (s + 1) (fold_left (fun a x => a * 10 + x) xs 0)) [1; 2; 3] 5 = Ok (Returned 6 123).
Proof. vm_compute. reflexivity. Qed.
Theorem C72_explode_exception_refuted : exists (f : nat -> list nat -> ending nat nat) t s s' m,
  f s t = Raised s' m /\ explode f t s = Ok Terminated.
Proof. exists (fun s _ => Raised s "bad"%string), [1], 0, 0, "bad"%string. split; reflexivity. Qed.
Print Assumptions C72_explode_exception_refuted.

(** C72. The index of a type in a tuple, repetition, and collecting arguments. *)
Theorem C72_index : forall A eqb, (forall x y : A, eqb x y = true <-> x = y) -> forall x t,
  (In x t -> exists i, getTplIdxOf eqb x t = Ok i /\ nth_error t i = Some x /\ forall j, j < i -> nth_error t j <> Some x) /\
  (~ In x t -> getTplIdxOf eqb x t = illformed).
Proof. exact @tplIdx_spec. Qed.
Print Assumptions C72_index.
Theorem C72_repeat_vector : forall A (x : A) n (xs : list A), TplRepeat x n = repeat x n /\ mkVector xs = xs.
Proof. exact (fun A x n xs => conj (tplRepeat_spec x n) (mkVector_spec A xs)). Qed.
Print Assumptions C72_repeat_vector.
(** C72. A map made from keys and values has every key once, with the value given first. *)
Theorem C72_map : forall A keqb, (forall x y : A, keqb x y = true <-> x = y) -> forall ps : list (A * A),
  exists m, mkUnorderedMap keqb (flat_map (fun p => [fst p; snd p]) ps) = Ok (Returned m tt) /\ NoDup (map fst m) /\
  forall k v, In (k, v) m <-> exists a b, ps = a ++ (k, v) :: b /\ ~ In k (map fst a).
Proof. exact @mkMap_spec. Qed.
Print Assumptions C72_map.
Example C72_index_example : getTplIdxOf Nat.eqb 4 [3; 4; 5; 4] = Ok 1 /\
  mkUnorderedMap Nat.eqb [1; 10; 2; 20; 1; 30] = Ok (Returned [(1, 10); (2, 20)] tt).
Proof. repeat split; vm_compute; reflexivity. Qed.

(** C73. The functions of a delegate are those added since the last [clear], in the order of their addition;
    every history ends in additions after a [clear] or is additions only. *)
Theorem C73_history : forall S Args R (h : list (op (@func S Args R))),
  exists fs, (h = map Add fs \/ exists h', h = h' ++ Clear :: map Add fs) /\ after h = fs /\
  (isEmpty (after h) = true <-> fs = []).
Proof. exact @history_full. Qed.
Print Assumptions C73_history.

(** C73. Calling it calls them all once, in order, with the arguments given, and returns their results in
    that order; the first exception ends the call. (The functions do not change the delegate.) *)
Theorem C73_call : forall S Args R (d : @delegate S Args R) args s, (forall f s', In f d -> snd (f s' args) = Same) ->
  call d args s = Ok (collect (map (fun (f : func) s => fst (f s args)) d) s).
Proof. exact @call_spec. Qed.
Print Assumptions C73_call.
Example C73_example :
  let twice : func := fun s a => (Returned (s ++ [a]) (a * 2), Same) in
  let len : func := fun s a => (Returned s (length s + a), Same) in
  let bad : func := fun s a => (Raised s "bad"%string, Same) in
  call (after [Add bad; Clear; Add twice; Add len; Add twice]) 5 [] = Ok (Returned [5; 5] [10; 6; 10]) /\
  call (after [Add twice; Add bad; Add twice]) 5 [] = Ok (Raised [5] "bad"%string).
Proof. split; vm_compute; reflexivity. Qed.

(** C73, finding: a function that adds to or clears the delegate it is called by makes the call undefined. *)
Theorem C73_change_ub : forall S Args R (a b : list (@func S Args R)) f args s s1 xs s2 r,
  (forall g s', In g a -> snd (g s' args) = Same) ->
  collect (map (fun (g : func) s => fst (g s args)) a) s = Returned s1 xs -> f s1 args = (Returned s2 r, Changed) ->
  call (a ++ f :: b) args s = UB.
Proof. exact @change_ub. Qed.
Print Assumptions C73_change_ub.
Example C73_change_example :
  let f : func := fun (s a : nat) => (Returned (s + 1) a, Same) in
  let g : func := fun s a => (Returned s a, Changed) in
  call [f; g; f] 1 0 = UB.
Proof. vm_compute. reflexivity. Qed.
