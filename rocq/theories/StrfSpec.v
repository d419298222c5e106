(** What stringified values should look like, independent of streams, formats and iterators. *)
From Coq Require Import String Ascii ZArith NArith Arith Bool Lia List.
From Verif Require Import Common IntToStrModel IntToStrSpec StrfModel.
Import ListNotations.
Local Open Scope Z_scope.

(** [a sep b sep c]. *)
Fixpoint join (sep : bytes) (l : list bytes) : bytes :=
  match l with
  | [] => []
  | [x] => x
  | x :: l => x ++ sep ++ join sep l
  end.
Definition braces (l : list bytes) (sep : bytes) : bytes := lit "{" ++ join sep l ++ lit "}".
Definition braces_or_empty (l : list bytes) (sep : bytes) : bytes :=
  match l with [] => lit "{ EMPTY }" | _ => braces l sep end.

(** The letters of the number type, as in a C++ literal. *)
Definition letters (k : ikind) : bytes :=
  match k with KInt => lit "" | KLong => lit "l" | KUInt => lit "u" | KULong => lit "ul" end.
(** The text of a value. [post]: with the letters marking the number type, as shown on a console. *)
Fixpoint text (post : bool) (v : val) : bytes :=
  match v with
  | VInt k z => dec z ++ (if post then letters k else [])
  | VReal d t => t ++ (if post then (if d then lit "d" else lit "f") else [])
  | VStr t => t
  | VText t => t
  | VPtr p => lit "[" ++ (if p =? 0 then lit "nullptr" else ptr_text p) ++ lit "]"
  | VSeq _ l => braces_or_empty (map (text post) l) (lit ", ")
  | VTuple l => braces (map (text post) l) (lit ", ")
  | VMap _ l => braces_or_empty
      (map (fun p => text post (fst p) ++ lit " -> " ++ text post (snd p)) l) (lit ", ")
  | VBimap l => braces_or_empty
      (map (fun p => text post (fst p) ++ lit " <-> " ++ text post (snd p)) l) [ch 10]
  | VUser l => concat (map (fun p => fst p ++ text false (snd p)) l)
  end.

(** What a terminal shows: escape sequences (ESC up to the next 'm') are not visible. *)
Definition ESC : ascii := ch 27.
Fixpoint visible_from (in_esc : bool) (t : bytes) : bytes :=
  match t with
  | [] => []
  | x :: t =>
      if in_esc then visible_from (negb (Ascii.eqb x "m")) t
      else if Ascii.eqb x ESC then visible_from true t else x :: visible_from false t
  end.
Definition visible (t : bytes) : bytes := visible_from false t.

(** The texts the program itself supplies contain no escape character. *)
Definition clean (t : bytes) : bool := forallb (fun x => negb (Ascii.eqb x ESC)) t.

(** Values whose printing is claimed to work. Tuples have a component, ranges with forward iterators
    are counted by an [int], pointers are not null, supplied texts are clean; [toStr] used by a class
    while printing itself: on integers the fast conversion can do, or on other values as long as the
    class is not itself being converted by [toStr] ([conv]). *)
Definition convertible (k : ikind) (z : Z) : bool :=
  match k with
  | KInt => (-100000000 <? z) && (z <? 100000000)
  | KUInt => (-1 <? z) && (z <? 100000000)
  | KLong => (-100000000000000000 <? z) && (z <? 1000000000000000000)
  | KULong => (-1 <? z) && (z <? 1000000000000000000)
  end.
Definition countable {A} (bidi : bool) (l : list A) : bool := bidi || (Z.of_nat (length l) <=? INT_MAX).
Fixpoint printable (conv : bool) (v : val) : bool :=
  match v with
  | VInt _ _ => true
  | VReal _ t => clean t
  | VStr t => clean t
  | VText t => clean t
  | VPtr p => 0 <? p
  | VSeq bidi l => countable bidi l && forallb (printable conv) l
  | VTuple l => negb (length l =? 0)%nat && forallb (printable conv) l
  | VMap bidi l => countable bidi l &&
      forallb (fun p => printable conv (fst p) && printable conv (snd p)) l
  | VBimap l => forallb (fun p => printable conv (fst p) && printable conv (snd p)) l
  | VUser l =>
      forallb (fun p => clean (fst p) &&
        match snd p with VInt k z => convertible k z | _ => negb conv && printable true (snd p) end) l
  end.

(** Types built from integers, and their values. *)
Inductive ty := TInt (k : ikind) | TSeq (bidi : bool) (t : ty) | TTuple (l : list ty)
  | TMap (bidi : bool) (k v : ty) | TBimap (k v : ty).
Fixpoint has_type (t : ty) (v : val) {struct t} : Prop :=
  match t, v with
  | TInt k, VInt k' _ => k = k'
  | TSeq b t, VSeq b' l => b = b' /\ Forall (has_type t) l
  | TTuple ts, VTuple l => l <> [] /\
      (fix each (ts : list ty) (l : list val) : Prop :=
         match ts, l with
         | [], [] => True
         | t :: ts, x :: l => has_type t x /\ each ts l
         | _, _ => False
         end) ts l
  | TMap b k w, VMap b' l => b = b' /\ Forall (fun p => has_type k (fst p) /\ has_type w (snd p)) l
  | TBimap k w, VBimap l => Forall (fun p => has_type k (fst p) /\ has_type w (snd p)) l
  | _, _ => False
  end.

(** Calls in order, with a separator call between each two. *)
Fixpoint intersperse {A} (sep : A) (l : list A) : list A :=
  match l with
  | [] => []
  | [x] => [x]
  | x :: l => x :: sep :: intersperse sep l
  end.
Fixpoint run {S} (fs : list (S -> outcome S)) (s : S) : outcome S :=
  match fs with [] => Ok s | f :: fs => obind (f s) (run fs) end.
