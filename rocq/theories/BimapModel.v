(** Model of include/SSVUtils/Bimap/Inc/Bimap.hpp and Internal.hpp.
    Pairs live on the heap and are named by a number standing for their address; the two indices are
    sets of addresses ordered by the values found there. *)
From Coq Require Import String Arith Bool Lia List.
From Verif Require Import Common.
Import ListNotations.

(** Bimap/Inc/Internal.hpp:17-29 [PtrSet]: an ordered sequence of addresses compared by pointee.
    [deref] fails (UB) on an address that is not a live pair.  A [std::set] whose order is intact
    visits some of the elements below; scanning from the least is equivalent. *)
Section PTRSET.
Context {P K : Type} (pr : P -> K) (ltb : K -> K -> bool) (deref : nat -> option P).
Fixpoint ps_find (s : list nat) (key : K) : outcome (option nat) :=
  match s with
  | [] => Ok None
  | i :: s' =>
    match deref i with
    | None => UB
    | Some p => if ltb (pr p) key then ps_find s' key else Ok (if ltb key (pr p) then None else Some i)
    end
  end.
(** [set::emplace(ptr)], [key] the value at [i]: nothing happens if an equal key is present. *)
Fixpoint ps_insert (s : list nat) (i : nat) (key : K) : outcome (list nat) :=
  match s with
  | [] => Ok [i]
  | j :: s' =>
    match deref j with
    | None => UB
    | Some p => if ltb (pr p) key then obind (ps_insert s' i key) (fun r => Ok (j :: r))
                else Ok (if ltb key (pr p) then i :: s else s)
    end
  end.
(** [set::erase(key)]: removes the element equal to the key, if any. *)
Definition ps_erase (s : list nat) (key : K) : outcome (list nat) :=
  obind (ps_find s key) (fun r => Ok (match r with
    | Some i => filter (fun j => negb (j =? i)) s
    | None => s
    end)).
End PTRSET.

Section BIMAP.
Context {T1 T2 : Type} (lt1 : T1 -> T1 -> bool) (lt2 : T2 -> T2 -> bool) (d1 : T1) (d2 : T2).

(** Bimap.hpp:46-53: storage in order (address, pair), the two sets; [next] is a fresh address. *)
Record bimap := { storage : list (nat * (T1 * T2)); set1 : list nat; set2 : list nat; next : nat }.
Definition empty_bimap : bimap := {| storage := []; set1 := []; set2 := []; next := 0 |}.

Definition deref (b : bimap) (i : nat) : option (T1 * T2) :=
  option_map snd (find (fun e => fst e =? i) (storage b)).

(** Bimap.hpp:289-310 [find], [has]; 277-286 [count]. *)
Definition find1 (b : bimap) (k : T1) := ps_find fst lt1 (deref b) (set1 b) k.
Definition find2 (b : bimap) (k : T2) := ps_find snd lt2 (deref b) (set2 b) k.
Definition found (o : outcome (option nat)) : outcome bool :=
  obind o (fun r => Ok (match r with Some _ => true | None => false end)).
Definition has1 b k := found (find1 b k).
Definition has2 b k := found (find2 b k).
Definition count1 b k := obind (has1 b k) (fun h => Ok (if h then 1 else 0)).
Definition count2 b k := obind (has2 b k) (fun h => Ok (if h then 1 else 0)).
(** Bimap.hpp:257-274. *)
Definition size (b : bimap) : nat := length (storage b).
Definition clear (b : bimap) : bimap := {| storage := []; set1 := []; set2 := []; next := next b |}.

(** Bimap.hpp:102-111, 185-199 [at]. *)
Definition at1 (b : bimap) (k : T1) : outcome T2 :=
  obind (find1 b k) (fun r => match r with
    | None => Throw "out_of_range"
    | Some i => match deref b i with Some p => Ok (snd p) | None => UB end
    end).
Definition at2 (b : bimap) (k : T2) : outcome T1 :=
  obind (find2 b k) (fun r => match r with
    | None => Throw "out_of_range"
    | Some i => match deref b i with Some p => Ok (fst p) | None => UB end
    end).

(** Bimap.hpp:148-159 without the assertion: what an NDEBUG build does.  [getEmplaceUPtr] appends. *)
Definition emplace_ndebug (b : bimap) (x : T1) (y : T2) : outcome bimap :=
  let b1 := {| storage := storage b ++ [(next b, (x, y))]; set1 := set1 b; set2 := set2 b; next := S (next b) |} in
  obind (ps_insert fst lt1 (deref b1) (set1 b) (next b) x) (fun s1 =>
  obind (ps_insert snd lt2 (deref b1) (set2 b) (next b) y) (fun s2 =>
  Ok {| storage := storage b1; set1 := s1; set2 := s2; next := next b1 |})).
(** Bimap.hpp:151: the assertion. *)
Definition emplace (b : bimap) (x : T1) (y : T2) : outcome bimap :=
  obind (has1 b x) (fun h1 => obind (has2 b y) (fun h2 =>
  if h1 || h2 then UB else emplace_ndebug b x y)).

(** Bimap.hpp:114-130 [eraseImpl], after the pair was found. *)
Definition erase_pair (b : bimap) (i : nat) : outcome bimap :=
  match deref b i with
  | None => UB
  | Some p =>
    obind (ps_erase fst lt1 (deref b) (set1 b) (fst p)) (fun s1 =>
    obind (ps_erase snd lt2 (deref b) (set2 b) (snd p)) (fun s2 =>
    Ok {| storage := filter (fun e => negb (fst e =? i)) (storage b); set1 := s1; set2 := s2; next := next b |}))
  end.
(** An absent key violates the assertion; a key still present afterwards does too. *)
Definition erase1 (b : bimap) (k : T1) : outcome bimap :=
  obind (find1 b k) (fun r => match r with
    | None => UB
    | Some i => obind (erase_pair b i) (fun b' => obind (has1 b' k) (fun h => if h then UB else Ok b'))
    end).
Definition erase2 (b : bimap) (k : T2) : outcome bimap :=
  obind (find2 b k) (fun r => match r with
    | None => UB
    | Some i => obind (erase_pair b i) (fun b' => obind (has2 b' k) (fun h => if h then UB else Ok b'))
    end).

(** Bimap.hpp:204-218 [operator[]]: the new state and the address whose other half is referred to;
    [ndebug] selects the build without assertions. *)
Definition bracket1 (ndebug : bool) (b : bimap) (k : T1) : outcome (bimap * nat) :=
  obind (find1 b k) (fun r => match r with
    | Some i => Ok (b, i)
    | None => obind (if ndebug then emplace_ndebug b k d2 else emplace b k d2) (fun b' => Ok (b', next b))
    end).
(** Assignment through the returned [T2&]. *)
Definition write2 (b : bimap) (i : nat) (y : T2) : bimap :=
  {| storage := map (fun e => if fst e =? i then (fst e, (fst (snd e), y)) else e) (storage b);
     set1 := set1 b; set2 := set2 b; next := next b |}.

(** Client operations. *)
Inductive bm_op := Emplace (x : T1) (y : T2) | Erase1 (x : T1) | Erase2 (y : T2) | BClear.
Definition bm_step (b : bimap) (o : bm_op) : outcome bimap :=
  match o with
  | Emplace x y => emplace b x y
  | Erase1 x => erase1 b x
  | Erase2 y => erase2 b y
  | BClear => Ok (clear b)
  end.
Fixpoint bm_run (b : bimap) (h : list bm_op) : outcome bimap :=
  match h with [] => Ok b | o :: h => obind (bm_step b o) (fun b' => bm_run b' h) end.
(** Iteration (Bimap.hpp:313-322): the pairs in storage order. *)
Definition pairs (b : bimap) : list (T1 * T2) := map snd (storage b).
End BIMAP.
Arguments bm_op : clear implicits.
Arguments bimap : clear implicits.
