(** What operations on several bimaps should do.  A bimap is the list of its pairs in the order of
    insertion; every pair ever inserted has its own number, which references to its halves go by.
    [None] as a result: some precondition was violated. *)
From Coq Require Import Arith Bool List.
From Verif Require Import BimapModel BmWorldModel.
Import ListNotations.

(** The pairs of a bimap with their numbers; all variables ([None]: destroyed) and the number of the next pair. *)
Notation contents T1 T2 := (list (nat * (T1 * T2))).
Notation state T1 T2 := (list (option (contents T1 T2)) * nat)%type.

Section SPEC.
Context {T1 T2 : Type} (eq1 : T1 -> T1 -> bool) (eq2 : T2 -> T2 -> bool).
Definition has_first (x : T1) (l : contents T1 T2) : bool := existsb (fun e => eq1 (fst (snd e)) x) l.
Definition has_second (y : T2) (l : contents T1 T2) : bool := existsb (fun e => eq2 (snd (snd e)) y) l.
Definition drop_first (x : T1) (l : contents T1 T2) : contents T1 T2 := filter (fun e => negb (eq1 (fst (snd e)) x)) l.
Definition drop_second (y : T2) (l : contents T1 T2) : contents T1 T2 := filter (fun e => negb (eq2 (snd (snd e)) y)) l.
(** Is pair number [i] in the bimap? *)
Definition holds (i : nat) (l : contents T1 T2) : bool := existsb (fun e => fst e =? i) l.

Definition add (n : nat) (l : contents T1 T2) (x : T1) (y : T2) : option (contents T1 T2 * nat) :=
  if has_first x l || has_second y l then None else Some (l ++ [(n, (x, y))], S n).
Fixpoint add_all (n : nat) (l : contents T1 T2) (ps : list (T1 * T2)) : option (contents T1 T2 * nat) :=
  match ps with
  | [] => Some (l, n)
  | (x, y) :: ps => match add n l x y with Some (l', n') => add_all n' l' ps | None => None end
  end.
Definition called (n : nat) (l : contents T1 T2) (o : bm_op T1 T2) : option (contents T1 T2 * nat) :=
  match o with
  | Emplace x y => add n l x y
  | Erase1 x => if has_first x l then Some (drop_first x l, n) else None
  | Erase2 y => if has_second y l then Some (drop_second y l, n) else None
  | BClear => Some ([], n)
  end.

Definition var (s : state T1 T2) (k : nat) : option (contents T1 T2) :=
  match nth_error (fst s) k with Some (Some l) => Some l | _ => None end.
Fixpoint replace {A} (k : nat) (x : A) (l : list A) : list A :=
  match l, k with
  | [], _ => []
  | _ :: l, 0 => x :: l
  | y :: l, S k => y :: replace k x l
  end.
(** The pair with number [i], wherever it is. *)
Fixpoint value_in (ls : list (option (contents T1 T2))) (i : nat) : option (T1 * T2) :=
  match ls with
  | [] => None
  | o :: r =>
    match find (fun e => fst e =? i) (match o with Some l => l | None => [] end) with
    | Some e => Some (snd e)
    | None => value_in r i
    end
  end.
Definition value (s : state T1 T2) (i : nat) : option (T1 * T2) := value_in (fst s) i.

(** [asserts]: assertions are on.  They rule out erasing by a key that is part of the very bimap,
    unless its pair is the only one. *)
Definition allowed (asserts : bool) (i : nat) (l : contents T1 T2) : bool :=
  negb (asserts && holds i l && negb (length l =? 1)).
Definition w_spec (asserts : bool) (s : state T1 T2) (o : w_op T1 T2) : option (state T1 T2) :=
  match o with
  | Construct ps =>
    match add_all (snd s) [] ps with
    | Some (l, n) => Some (fst s ++ [Some l], n)
    | None => None
    end
  | MoveConstruct j =>
    match var s j with
    | Some l => Some (replace j (Some []) (fst s) ++ [Some l], snd s)
    | None => None
    end
  | MoveAssign k j =>
    match var s k, var s j with
    | Some _, Some l => Some (replace j (Some []) (replace k (Some l) (fst s)), snd s)
    | _, _ => None
    end
  | Destroy k =>
    match var s k with
    | Some _ => Some (replace k None (fst s), snd s)
    | None => None
    end
  | Call k o =>
    match var s k with
    | Some l =>
      match called (snd s) l o with
      | Some (l', n) => Some (replace k (Some l') (fst s), n)
      | None => None
      end
    | None => None
    end
  | EraseRef1 k i =>
    match var s k, value s i with
    | Some l, Some (x, _) =>
      if has_first x l && allowed asserts i l then Some (replace k (Some (drop_first x l)) (fst s), snd s) else None
    | _, _ => None
    end
  | EraseRef2 k i =>
    match var s k, value s i with
    | Some l, Some (_, y) =>
      if has_second y l && allowed asserts i l then Some (replace k (Some (drop_second y l)) (fst s), snd s) else None
    | _, _ => None
    end
  end.
Fixpoint w_specs (asserts : bool) (s : state T1 T2) (h : list (w_op T1 T2)) : option (state T1 T2) :=
  match h with
  | [] => Some s
  | o :: h => match w_spec asserts s o with Some s' => w_specs asserts s' h | None => None end
  end.

(** A bimap shows exactly these pairs: when iterated over, when asked for its size and for either half. *)
Definition answers (lt1 : T1 -> T1 -> bool) (lt2 : T2 -> T2 -> bool) (b : bimap T1 T2) (l : list (T1 * T2)) : Prop :=
  pairs b = l /\ size b = length l /\ NoDup (map fst l) /\ NoDup (map snd l) /\
  (forall x y, at1 lt1 b x = Common.Ok y <-> In (x, y) l) /\
  (forall x y, at2 lt2 b y = Common.Ok x <-> In (x, y) l) /\
  (forall x, has1 lt1 b x = Common.Ok (existsb (fun p => eq1 (fst p) x) l)) /\
  (forall y, has2 lt2 b y = Common.Ok (existsb (fun p => eq2 (snd p) y) l)).
End SPEC.
