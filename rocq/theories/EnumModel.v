(** Model of include/SSVUtils/FatEnum/FatEnum.hpp.
    The macro arguments are the names (with their values); the macros of the external vrm_pp library are
    modelled by what they stand for: FOREACH_REVERSE applies a macro to each argument in order with an
    index counting down to 0, COMMA_IF(i) is a comma unless i = 0, ARGCOUNT counts.  Values are given as
    numbers (not constant expressions naming earlier elements). *)
From Coq Require Import String Ascii ZArith NArith Arith Bool List.
From Verif Require Import Common MplModel BimapModel JsonModel.
Import ListNotations.
Local Open Scope Z_scope.
Local Notation "'let!' x := e 'in' f" := (obind e (fun x => f)) (at level 200, x pattern, e at level 100, f at level 200, right associativity).

(** What an expanded list consists of. *)
Inductive tok (E : Type) := Entry (e : E) | Comma.
Arguments Entry {E}. Arguments Comma {E}.
Definition comma_if {E} (i : nat) : list (tok E) := match i with O => [] | S _ => [Comma] end.
Fixpoint foreach_reverse {A E} (f : nat -> A -> list (tok E)) (args : list A) : list (tok E) :=
  match args with
  | [] => []
  | a :: r => f (length r) a ++ foreach_reverse f r
  end.
(** A list separated by commas, as the compiler reads it. *)
Fixpoint read_list {E} (ts : list (tok E)) : outcome (list E) :=
  match ts with
  | [Entry e] => Ok [e]
  | Entry e :: Comma :: r => let! l := read_list r in Ok (e :: l)
  | _ => illformed
  end.

(** FatEnum.hpp:165-184: the two ways to define an enum. *)
Inductive definition := Vals (args : list (bytes * Z)) | Defs (args : list bytes).
Definition argcount (d : definition) : nat := match d with Vals l => length l | Defs l => length l end.

(** 14-18: the enumerators, with or without a value. *)
Definition mk_elem_vals (i : nat) (a : bytes * Z) : list (tok (bytes * option Z)) := Entry (fst a, Some (snd a)) :: comma_if i.
Definition mk_elem_defs (i : nat) (a : bytes) : list (tok (bytes * option Z)) := Entry (a, None) :: comma_if i.
Definition enumerators (d : definition) : list (tok (bytes * option Z)) :=
  match d with Vals l => foreach_reverse mk_elem_vals l | Defs l => foreach_reverse mk_elem_defs l end.
(** The language: an enumerator without a value is one more than the one before, the first is 0; the
    values are in the range of the underlying type; names are distinct. *)
Fixpoint assign_values (lo hi prev : Z) (l : list (bytes * option Z)) : outcome (list (bytes * Z)) :=
  match l with
  | [] => Ok []
  | (n, v) :: r =>
      let x := match v with Some x => x | None => prev + 1 end in
      if (lo <=? x) && (x <=? hi) then let! l := assign_values lo hi x r in Ok ((n, x) :: l) else illformed
  end.
(** [E::name]. *)
Definition value_of (es : list (bytes * Z)) (n : bytes) : outcome Z :=
  match find (fun e => bytes_eqb (fst e) n) es with Some e => Ok (snd e) | None => illformed end.
Fixpoint all_ok {A} (l : list (outcome A)) : outcome (list A) :=
  match l with [] => Ok [] | x :: r => let! x := x in let! r := all_ok r in Ok (x :: r) end.

(** 23-54, 122-147: the entries of the bimap, of the two arrays, and the names the functions for single
    values are generated for. *)
Definition names_toks (d : definition) : list (tok bytes) :=
  match d with
  | Vals l => foreach_reverse (fun i a => Entry (fst a) :: comma_if i) l
  | Defs l => foreach_reverse (fun i a => Entry a :: comma_if i) l
  end.
Definition bimap_toks (d : definition) : list (tok (bytes * bytes)) :=  (* {"name", E::name} *)
  match d with
  | Vals l => foreach_reverse (fun i a => Entry (fst a, fst a) :: comma_if i) l
  | Defs l => foreach_reverse (fun i a => Entry (a, a) :: comma_if i) l
  end.
Definition single_names (d : definition) : list bytes := match d with Vals l => map fst l | Defs l => l end.

Record manager := mkMgr {
  enum : list (bytes * Z); count : nat; entries : list (bytes * Z); values : list Z; names : list bytes; singles : list (Z * bytes) }.

(** 113-150: what the definition compiles to. Two functions for the same value are a redefinition. *)
Definition define (lo hi : Z) (d : definition) : outcome manager :=
  let! es := read_list (enumerators d) in
  let! es := assign_values lo hi (-1) es in
  if negb (unique bytes_eqb (map fst es)) then illformed else
  let! bs := read_list (bimap_toks d) in
  let! bs := all_ok (map (fun b => let! v := value_of es (snd b) in Ok (fst b, v)) bs) in
  let! ns := read_list (names_toks d) in
  let! vs := all_ok (map (value_of es) ns) in
  let! ss := all_ok (map (fun n => let! v := value_of es n in Ok (v, n)) (single_names d)) in
  if unique Z.eqb (map fst ss) then Ok (mkMgr es (argcount d) bs vs ns ss) else illformed.

(** 124-131 and Bimap.hpp:138-141: the bimap, built from the entries on the first use. *)
Fixpoint fill (l : list (bytes * Z)) (b : bimap bytes Z) : outcome (bimap bytes Z) :=
  match l with [] => Ok b | (n, v) :: r => let! b := emplace bytes_ltb Z.ltb b n v in fill r b end.
Definition getBimap (m : manager) : outcome (bimap bytes Z) := fill (entries m) empty_bimap.

(** 84-87 [getSize]. *)
Definition getSize (m : manager) : Z := Z.of_nat (count m).
(** 89-92 [getAsStr<v>()]: the function generated for the value; there is none for another value. *)
Definition getAsStrOf (m : manager) (v : Z) : outcome bytes :=
  match find (fun s => fst s =? v) (singles m) with Some s => Ok (snd s) | None => illformed end.
(** 93-102 [getAsStr(v)], [getFromStr(s)]. Both are noexcept: without assertions the exception of [at]
    ends the program. *)
Definition terminate {A} : outcome A := Throw "terminate"%string.
Definition stop {A} (o : outcome A) : outcome A := match o with Throw _ => terminate | _ => o end.
Definition getAsStr (ndebug : bool) (m : manager) (v : Z) : outcome bytes :=
  let! b := getBimap m in
  if ndebug then stop (at2 Z.ltb b v)
  else let! h := has2 Z.ltb b v in if h then stop (at2 Z.ltb b v) else UB.
Definition getFromStr (ndebug : bool) (m : manager) (s : bytes) : outcome Z :=
  let! b := getBimap m in
  if ndebug then stop (at1 bytes_ltb b s)
  else let! h := has1 bytes_ltb b s in if h then stop (at1 bytes_ltb b s) else UB.
(** 132-146 [getValues], [getElementNames]. *)
Definition getValues (m : manager) : list Z := values m.
Definition getElementNames (m : manager) : list bytes := names m.
