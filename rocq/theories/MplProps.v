(** Type lists: the property theorems (C70, C71). The types are the elements of any [A]; [eqb] decides
    whether two of them are the same. The lists are plain lists, so the laws are stated with the standard
    list functions. List lengths and indices fit an [int]. *)
From Coq Require Import String ZArith Arith Bool Lia List Sorted.
Import ListNotations.
From Verif Require Import Common MplModel MplSpec MplProofs.
Local Open Scope Z_scope.

(** C70. Inserting and removing, and what is not accepted. *)
Theorem C70_insert : forall A (l : list A) t n, l <> [] -> 0 <= n ->
  Insert l t n = if n <=? Z.of_nat (length l) then Ok (firstn (Z.to_nat n) l ++ t :: skipn (Z.to_nat n) l) else illformed.
Proof. exact @insert_spec. Qed.
Print Assumptions C70_insert.
Theorem C70_remove : forall A (l : list A) n, 0 <= n ->
  Remove l n = if n <? Z.of_nat (length l) then Ok (firstn (Z.to_nat n) l ++ skipn (S (Z.to_nat n)) l) else illformed.
Proof. exact @remove_spec. Qed.
Print Assumptions C70_remove.
Theorem C70_insert_remove : forall A (l : list A) t n l', l <> [] -> 0 <= n -> Insert l t n = Ok l' -> Remove l' n = Ok l.
Proof. exact @insert_remove. Qed.
Print Assumptions C70_insert_remove.
Example C70_insert_example : Insert [10; 20; 30] 7 2 = Ok [10; 20; 7; 30] /\ Insert [10; 20; 30] 7 3 = Ok [10; 20; 30; 7] /\
  Insert [10; 20; 30] 7 4 = illformed /\ Remove [10; 20; 30] 1 = Ok [10; 30] /\ Remove [10; 20; 30] 3 = illformed.
Proof. repeat split; vm_compute; reflexivity. Qed.
(** C70, finding: the empty list accepts every insertion index. *)
Theorem C70_insert_empty_refuted : forall A (t : A) n, Insert [] t n = Ok [t].
Proof. reflexivity. Qed.
Print Assumptions C70_insert_empty_refuted.

(** C70. Elements and ends. *)
Theorem C70_at : forall A (l : list A) i x, 0 <= i -> (At l i = Ok x <-> nth_error l (Z.to_nat i) = Some x).
Proof. exact @at_spec. Qed.
Print Assumptions C70_at.
Theorem C70_ends : forall A (x : A) l,
  Head (x :: l) = Ok x /\ Tail (l ++ [x]) = Ok x /\ PopFront (x :: l) = Ok l /\ PopBack (l ++ [x]) = Ok l /\
  Head (@nil A) = illformed /\ Tail (@nil A) = illformed /\ PopFront (@nil A) = illformed /\ PopBack (@nil A) = illformed.
Proof.
  exact (fun A x l => conj (head_spec (x :: l)) (conj (proj1 (tail_spec l x)) (conj (popfront_spec x l) (conj (popback_spec x l)
    (conj (head_spec []) (conj (proj2 (tail_spec l x)) (conj (remove_empty 0) (remove_empty (-1))))))))).
Qed.
Print Assumptions C70_ends.
Example C70_ends_example : Tail [1; 2; 3] = Ok 3 /\ PopBack [1; 2; 3] = Ok [1; 2] /\ At [5; 6] 1 = Ok 6 /\ At [5; 6] 2 = illformed.
Proof. repeat split; vm_compute; reflexivity. Qed.

(** C70. Appending, reversing, filtering, applying. *)
Theorem C70_append_reverse : forall A (l m : list A), Append l m = l ++ m /\ Prepend l m = m ++ l /\ Reverse l = rev l.
Proof. exact (fun A l m => conj (proj1 (append_spec l m)) (conj (proj2 (append_spec l m)) (reverse_spec l))). Qed.
Print Assumptions C70_append_reverse.
Theorem C70_filter : forall A p (q : Z -> bool) (l : list A), Filter p l = filter p l /\
  FilterIdx q l = map snd (filter (fun ix => q (Z.of_nat (fst ix))) (combine (seq 0 (length l)) l)).
Proof. exact (fun A p q l => conj (filter_spec p l) (filteridx_spec q l)). Qed.
Print Assumptions C70_filter.
Theorem C70_max : forall A (f : A -> Z) l, l <> [] ->
  (exists x, In x l /\ typeMax f l = f x) /\ forall x, In x l -> f x <= typeMax f l.
Proof. exact @typemax_spec. Qed.
Print Assumptions C70_max.
Example C70_filter_example : Reverse [1; 2; 3] = [3; 2; 1] /\ Filter Z.even [1; 2; 3; 4] = [2; 4] /\
  FilterIdx Z.even [10; 11; 12; 13; 14] = [10; 12; 14] /\ typeMax (fun x => x * x) [1; -5; 3] = 25.
Proof. repeat split; vm_compute; reflexivity. Qed.

(** C70. Looking for a type: presence, number, first position. *)
Theorem C70_find : forall A eqb, (forall x y : A, eqb x y = true <-> x = y) -> forall (dec : forall x y : A, {x = y} + {x <> y}) l t,
  (has eqb l t = true <-> In t l) /\ getCountOf eqb l t = Z.of_nat (count_occ dec l t) /\
  (In t l -> exists i, getIdxOf eqb l t = Ok (Z.of_nat i) /\ nth_error l i = Some t /\
     forall j, (j < i)%nat -> nth_error l j <> Some t) /\
  (~ In t l -> getIdxOf eqb l t = illformed).
Proof. exact (fun A eqb H dec l t => conj (has_spec eqb H l t) (conj (count_spec eqb H dec l t) (idxof_spec eqb H l t))). Qed.
Print Assumptions C70_find.
Example C70_find_example : has Z.eqb [3; 1; 4; 1; 5] 1 = true /\ getCountOf Z.eqb [3; 1; 4; 1; 5] 1 = 2 /\
  getIdxOf Z.eqb [3; 1; 4; 1; 5] 1 = Ok 1 /\ getIdxOf Z.eqb [3; 1; 4] 9 = illformed.
Proof. repeat split; vm_compute; reflexivity. Qed.

(** C70. Removing duplicates: each type once, in the order of the first occurrences. *)
Theorem C70_unique : forall A eqb, (forall x y : A, eqb x y = true <-> x = y) -> forall l,
  Unique eqb l = firsts eqb l /\ NoDup (Unique eqb l) /\ (forall x, In x (Unique eqb l) <-> In x l) /\
  (unique eqb l = true <-> NoDup l).
Proof.
  exact (fun A eqb H l => conj (unique_list eqb H l) (conj (eq_ind_r (@NoDup A) (firsts_nodup eqb H l) (unique_list eqb H l))
    (conj (eq_ind_r (fun u => forall x, In x u <-> In x l) (firsts_in eqb H l) (unique_list eqb H l)) (unique_spec eqb H l)))).
Qed.
Print Assumptions C70_unique.
Example C70_unique_example : Unique Z.eqb [3; 1; 4; 1; 5; 3] = [3; 1; 4; 5] /\ unique Z.eqb [3; 1; 3] = false.
Proof. repeat split; vm_compute; reflexivity. Qed.

(** C70. Slices: indices beyond the end stand for the end, a decreasing pair is refused. *)
Theorem C70_slice : forall A (l : list A) i j, l <> [] -> Z.of_nat (length l) <= INT_MAX -> 0 <= i -> j <= INT_MAX ->
  (i <= j -> Slice l i j = Ok (firstn (Z.to_nat (j - i)) (skipn (Z.to_nat i) l))) /\
  (i <= INT_MAX -> 0 <= j < i -> j < Z.of_nat (length l) -> Slice l i j = illformed).
Proof. exact (fun A l i j NE H I J => conj (fun L => slice_inside l i j NE H I L J) (fun B L K => slice_bad l i j NE H L K B)). Qed.
Print Assumptions C70_slice.
Example C70_slice_example : Slice [1; 2; 3; 4; 5] 1 3 = Ok [2; 3] /\ Slice [1; 2; 3; 4; 5] 3 999 = Ok [4; 5] /\ Slice [1; 2; 3] 2 1 = illformed.
Proof. repeat split; vm_compute; reflexivity. Qed.
(** C70, finding: the clamping of slice indices is meant to turn negative ones into 0; it compares at the
    unsigned type and turns them into the length. *)
Theorem C70_slice_negative_refuted : forall A (l : list A) i j, l <> [] -> Z.of_nat (length l) <= INT_MAX ->
  INT_MIN <= i < 0 -> 0 <= j <= INT_MAX ->
  Slice l i j = if j <? Z.of_nat (length l) then illformed else Ok [].
Proof. exact @slice_negative. Qed.
Print Assumptions C70_slice_negative_refuted.

(** C70. All positions of a sequence, in order. *)
Theorem C70_positions : forall A eqb, (forall x y : A, eqb x y = true <-> x = y) -> forall s m,
  Z.of_nat (length s) <= INT_MAX -> Z.of_nat (length m) <= INT_MAX -> m <> [] ->
  exists is, IdxsOfSeq eqb s m = Ok is /\ StronglySorted Z.lt is /\ forall i, In i is <-> occurs s m i.
Proof. exact @idxsofseq_spec. Qed.
Print Assumptions C70_positions.
Example C70_positions_example : IdxsOfSeq Z.eqb [1; 2; 1; 2; 1] [1; 2; 1] = Ok [0; 2] /\ IdxsOfSeq Z.eqb [1] [1; 1] = Ok [] /\
  IdxsOf Z.eqb [7; 8; 7] 7 = Ok [0; 2] /\ hasSeq Z.eqb [1; 2; 3] [2; 3] = Ok true.
Proof. repeat split; vm_compute; reflexivity. Qed.

(** C70. Counting and finding: the positions of a single type; the number of the positions of a sequence; whether
    there are any. *)
Theorem C70_sequences : forall A eqb, (forall x y : A, eqb x y = true <-> x = y) -> forall s m t,
  Z.of_nat (length s) <= INT_MAX -> Z.of_nat (length m) <= INT_MAX -> m <> [] ->
  (exists is, IdxsOf eqb s t = Ok is /\ StronglySorted Z.lt is /\ forall i, In i is <-> 0 <= i /\ nth_error s (Z.to_nat i) = Some t) /\
  (exists is, StronglySorted Z.lt is /\ (forall i, In i is <-> occurs s m i) /\ getCountOfSeq eqb s m = Ok (Z.of_nat (length is))) /\
  (exists b, hasSeq eqb s m = Ok b /\ (b = true <-> exists i, occurs s m i)).
Proof. exact @sequences_spec. Qed.
Print Assumptions C70_sequences.
Example C70_sequences_example : getCountOfSeq Z.eqb [1; 2; 1; 2; 1] [1; 2; 1] = Ok 2 /\ hasSeq Z.eqb [1; 2; 3] [3; 2] = Ok false.
Proof. split; vm_compute; reflexivity. Qed.
(** C71. Replacing a sequence: if its occurrences do not overlap, all of them are replaced; if some do, the
    program does not compile. *)
Theorem C71_replace : forall A eqb, (forall x y : A, eqb x y = true <-> x = y) -> forall s m n, m <> [] ->
  Z.of_nat (length s) <= INT_MAX -> Z.of_nat (length m) <= INT_MAX ->
  (apart s m -> ReplaceAllOfSeq eqb s m n = Ok (replaced eqb m n 0 s)) /\
  (~ apart s m -> ReplaceAllOfSeq eqb s m n = illformed).
Proof. exact (fun A eqb H s m n NE Hs Hm => conj (replace_apart eqb H s m n NE Hs Hm) (replace_overlap eqb H s m n NE Hs Hm)). Qed.
Print Assumptions C71_replace.
Theorem C71_replace_empty_pattern : forall A eqb, (forall x y : A, eqb x y = true <-> x = y) -> forall s n, Z.of_nat (length s) <= INT_MAX -> ReplaceAllOfSeq eqb s [] n = Ok s.
Proof. exact @replace_empty_pattern. Qed.
Print Assumptions C71_replace_empty_pattern.
(** C71. A single type never overlaps itself. *)
Theorem C71_replace_type : forall A eqb, (forall x y : A, eqb x y = true <-> x = y) -> forall s t n,
  Z.of_nat (length s) <= INT_MAX -> ReplaceAllOf eqb s t n = Ok (flat_map (fun x => if eqb t x then n else [x]) s).
Proof. exact @replaceallof_spec. Qed.
Print Assumptions C71_replace_type.
Example C71_replace_example :
  ReplaceAllOfSeq Z.eqb [1; 2; 9; 1; 2; 8] [1; 2] [5] = Ok [5; 9; 5; 8] /\
  replaced Z.eqb [1; 2] [5] 0 [1; 2; 9; 1; 2; 8] = [5; 9; 5; 8] /\
  ReplaceAllOfSeq Z.eqb [1; 1; 1] [1; 1] [5] = illformed /\ ReplaceAllOf Z.eqb [1; 2; 1] 1 [7; 7] = Ok [7; 7; 2; 7; 7].
Proof. repeat split; vm_compute; reflexivity. Qed.

(** C71. [all] and [any]: [all] of the empty list is false. *)
Theorem C71_all_any : forall A p (l : list A), (all p l = true <-> l <> [] /\ forall x, In x l -> p x = true) /\
  (any p l = true <-> exists x, In x l /\ p x = true).
Proof. exact (fun A p l => conj (all_spec p l) (any_spec p l)). Qed.
Print Assumptions C71_all_any.
Theorem C71_all_empty_refuted : exists (p : Z -> bool) l, (forall x, In x l -> p x = true) /\ all p l = false.
Proof. exists (fun _ => true), []. split; [easy|reflexivity]. Qed.
Print Assumptions C71_all_empty_refuted.
Example C71_all_example : all Z.even [2; 4] = true /\ all Z.even [2; 3] = false /\ any Z.even [1; 2] = true.
Proof. repeat split; vm_compute; reflexivity. Qed.
