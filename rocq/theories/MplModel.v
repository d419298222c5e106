(** Model of the type lists in include/SSVUtils/Core/MPL/Impl/*.hpp. Types are the elements of any type [A]
    whose sameness [eqb] decides. A program that does not compile is the outcome [illformed]. *)
From Coq Require Import String ZArith Arith Bool List.
Import ListNotations.
From Verif Require Import Common CInt MathModel.
Local Open Scope Z_scope.

Definition illformed {X} : outcome X := Throw "does not compile"%string.

(** [std::make_index_sequence<N>]: a negative [int] is no [std::size_t] constant. *)
Definition index_sequence (n : Z) : outcome (list Z) :=
  if n <? 0 then illformed else Ok (map Z.of_nat (seq 0 (Z.to_nat n))).

(** A pack expansion [f(is)...]. *)
Fixpoint pack {I X} (f : I -> outcome X) (is : list I) : outcome (list X) :=
  match is with
  | [] => Ok []
  | i :: r => let! x := f i in let! xs := pack f r in Ok (x :: xs)
  end.

(** [std::tuple_element_t]. *)
Definition elem {X} (i : Z) (l : list X) : outcome X :=
  if i <? 0 then illformed else match nth_error l (Z.to_nat i) with Some x => Ok x | None => illformed end.

Section Types.
Context {A : Type} (eqb : A -> A -> bool).

Definition size (l : list A) : Z := Z.of_nat (length l).

(** List.hpp:184 (the empty list has no [At]), 187-197. *)
Definition At (l : list A) (i : Z) : outcome A := elem i l.
Definition Head (l : list A) : outcome A := At l 0.
Definition Tail (l : list A) : outcome A := At l (size l - 1).

(** Insert.hpp:15-33; List.hpp:44 (empty list: the index is ignored), 167-170. *)
Definition getMapIns (i from to : Z) : Z := if i <? to then i else if i =? to then from else i - 1.
Definition Insert (l : list A) (t : A) (n : Z) : outcome (list A) :=
  match l with
  | [] => Ok [t]
  | _ => if n <=? size l then
           let! is := index_sequence (size l + 1) in
           pack (fun i => elem (getMapIns i (size l) n) (l ++ [t])) is
         else illformed
  end.

(** Remove.hpp:15-39; List.hpp:46 (not for the empty list), 173-176. *)
Definition getMapRem (i idx : Z) : Z := if i <? idx then i else i + 1.
Definition Remove (l : list A) (n : Z) : outcome (list A) :=
  match l with
  | [] => illformed
  | _ => if n <? size l then
           let! is := index_sequence (size l - 1) in
           pack (fun i => elem (getMapRem i n) l) is
         else illformed
  end.

(** List.hpp:179-184, 203-208, 47-50. *)
Definition PushBack (l : list A) (t : A) : list A := l ++ [t].
Definition PushFront (l : list A) (t : A) : list A := t :: l.
Definition PopBack (l : list A) : outcome (list A) := Remove l (size l - 1).
Definition PopFront (l : list A) : outcome (list A) := Remove l 0.

(** Append.hpp:15-22; List.hpp:65-68, 231-237. *)
Definition Append (l m : list A) : list A := match l with [] => m | _ => l ++ m end.
Definition Prepend (l m : list A) : list A := match l with [] => m | _ => m ++ l end.

(** Reverse.hpp:15-32. *)
Fixpoint ReverseHlpr (l r : list A) : list A :=
  match l with [] => r | t :: ts => ReverseHlpr ts (PushFront r t) end.
Definition Reverse (l : list A) : list A := ReverseHlpr l [].

(** Contains.hpp:19-35: the array of comparisons is searched for [true]. *)
Definition has (l : list A) (t : A) : bool :=
  (fix go (res : list bool) : bool := match res with [] => false | b :: r => if b then true else go r end)
    (map (eqb t) l).

(** Unique.hpp:15-35; List.hpp:151. *)
Fixpoint UniqueHlpr (l r : list A) : list A :=
  match l with
  | [] => r
  | t :: t1s => if has r t then UniqueHlpr t1s r else UniqueHlpr t1s (r ++ [t])
  end.
Definition Unique (l : list A) : list A := UniqueHlpr l [].
Fixpoint same_lists (l m : list A) : bool :=
  match l, m with
  | [], [] => true
  | x :: l', y :: m' => eqb x y && same_lists l' m'
  | _, _ => false
  end.
Definition unique (l : list A) : bool := match l with [] => true | _ => same_lists l (Unique l) end.

(** Filter.hpp:15-34 and 38-57; List.hpp:216-225. *)
Fixpoint FilterHlpr (p : A -> bool) (l r : list A) : list A :=
  match l with
  | [] => r
  | t :: t1s => if negb (p t) then FilterHlpr p t1s r else FilterHlpr p t1s (PushBack r t)
  end.
Definition Filter (p : A -> bool) (l : list A) : list A := FilterHlpr p l [].
Fixpoint FilterIdxHlpr (p : Z -> bool) (i : Z) (l r : list A) : list A :=
  match l with
  | [] => r
  | t :: t1s => if negb (p i) then FilterIdxHlpr p (i + 1) t1s r else FilterIdxHlpr p (i + 1) t1s (PushBack r t)
  end.
Definition FilterIdx (p : Z -> bool) (l : list A) : list A := FilterIdxHlpr p 0 l [].

(** List.hpp:71-79 (empty list), 241-253. *)
Definition all (p : A -> bool) (l : list A) : bool :=
  match l with [] => false | _ => size (Filter p l) =? size l end.
Definition any (p : A -> bool) (l : list A) : bool :=
  match l with [] => false | _ => 0 <? size (Filter p l) end.

(** VACount.hpp:15-37. *)
Fixpoint getCountOf (l : list A) (t : A) : Z :=
  match l with [] => 0 | t1 :: ts => (if eqb t t1 then 1 else 0) + getCountOf ts t end.

(** IdxOf.hpp:19-42 ([-1] as [std::size_t] if absent); List.hpp:291-296 (asserted to be present). *)
Fixpoint idxOfImpl (res : list bool) (i : Z) : Z :=
  match res with [] => ULONG_MOD - 1 | b :: r => if b then i else idxOfImpl r (i + 1) end.
Definition getIdxOf (l : list A) (t : A) : outcome Z :=
  match l with [] => illformed | _ => if has l t then Ok (idxOfImpl (map (eqb t) l) 0) else illformed end.

(** MinMax.hpp:33-48 over the sizes of the types; List.hpp:40-41, 155-162. *)
Fixpoint getMax (a : Z) (xs : list Z) : Z :=
  match xs with [] => a | b :: r => let m := getMax b r in if m <? a then a else m end.
Definition typeMax (measure : A -> Z) (l : list A) : Z :=
  match map measure l with [] => 0 | a :: r => getMax a r end.

(** SubList.hpp:16-34; not for the empty list (List.hpp:112). *)
Definition clampListIdx (l : list A) (x : Z) : outcome Z :=
  let! c := getClamped (I32, x) (I32, 0) (U64, size l) in Ok (to_i32 (snd c)).
Definition Slice (l : list A) (s1 s2 : Z) : outcome (list A) :=
  match l with
  | [] => illformed
  | _ => let! c2 := clampListIdx l s2 in
         let! c1 := clampListIdx l s1 in
         let! is := index_sequence (c2 - c1) in
         pack (fun i => At l (c1 + i)) is
  end.

(** IdxsOfSeq.hpp:19-75; List.hpp:94, 101 (empty list), 267, 303. *)
Definition GetMatch (s m : list A) (start : Z) (midxs : list Z) : outcome (list Z) :=
  let! bs := pack (fun i => let! x := At s (start + i) in let! y := At m i in Ok (eqb x y)) midxs in
  Ok (if forallb (fun b => b) bs then [start] else []).
Definition IdxsOfSeq (s m : list A) : outcome (list Z) :=
  match s, m with
  | [], _ => Ok []
  | _, [] => Ok []
  | _, _ => let! sidxs := index_sequence (snd (getClampedMin (I32, to_i32 (to_u64 (to_u64 (size s - size m) + 1))) (I32, 0))) in
            let! midxs := index_sequence (size m) in
            let! rs := pack (fun i => GetMatch s m i midxs) sidxs in
            Ok (concat rs)
  end.
Definition IdxsOf (s : list A) (t : A) : outcome (list Z) := IdxsOfSeq s [t].
Definition getCountOfSeq (s m : list A) : outcome Z := let! is := IdxsOfSeq s m in Ok (Z.of_nat (length is)).
Definition hasSeq (s m : list A) : outcome bool := let! n := getCountOfSeq s m in Ok (0 <? n).

(** IdxsOfSeq.hpp:79-107; List.hpp:96, 110 (empty list), 286-287, 321-323. *)
Fixpoint ReplaceHlpr (s m n : list A) (idxs : list Z) (r : list A) (last : Z) : outcome (list A) :=
  match idxs with
  | [] => let! t := Slice s last (size s) in Ok (Append r t)
  | i :: is => let! before := Slice s last i in
               ReplaceHlpr s m n is (Append (Append r before) n) (i + size m)
  end.
Definition ReplaceAllOfSeq (s m n : list A) : outcome (list A) :=
  match s with
  | [] => Ok []
  | _ => let! is := IdxsOfSeq s m in ReplaceHlpr s m n is [] 0
  end.
Definition ReplaceAllOf (s : list A) (t : A) (n : list A) : outcome (list A) := ReplaceAllOfSeq s [t] n.
End Types.

(** List.hpp:213. *)
Definition Apply {A B} (f : A -> B) (l : list A) : list B := map f l.
