(** Model of include/SSVUtils/Union/Inc/{UnionBase,Union,UnionPOD,Maybe}.hpp.
    Types are numbers, [Ts] is the list of the union's types; the storage holds at most one object.
    Both builds are modelled: with the checks (SSVU_DEBUG, Union.hpp:31-52) and without (53-71).  The
    checks are written [assert(condition, text)]; here they fail as an assertion with that condition
    would.  A failed check is [Throw "assertion failed"] here, so that it can be told apart from
    undefined behaviour.  Objects have a number, a type and a value; constructors may throw,
    destructors do not. *)
From Coq Require Import String Ascii ZArith NArith Arith Bool List.
From Verif Require Import Common MplModel.
Import ListNotations.
Local Open Scope Z_scope.
Local Notation "'let!' x := e 'in' f" := (obind e (fun x => f)) (at level 200, x pattern, e at level 100, f at level 200, right associativity).

Definition failed {A} : outcome A := Throw "assertion failed"%string.
Inductive event := Made (i : nat) | Gone (i : nat).
Inductive seen := Nothing | Value (v : Z) | Raised (m : string).
Record union := mkUnion { flag : Z; live : option (nat * Z * Z); made : nat }.

(** UnionBase.hpp:24: size and alignment of the storage. *)
Definition storage_size (sizeof : Z -> Z) (Ts : list Z) : Z := typeMax sizeof Ts.
Definition storage_align (alignof : Z -> Z) (Ts : list Z) : Z := typeMax alignof Ts.

Section U.
Variable checks : bool.
Variable Ts : list Z.

(** Union.hpp:34-52 (and the empty versions of 54-70). *)
Definition setClean (u : union) : union := if checks then mkUnion (-1) (live u) (made u) else u.
Definition assertClean (u : union) : outcome unit := if checks then if flag u =? -1 then Ok tt else failed else Ok tt.
Definition setDirty (T : Z) (u : union) : outcome union :=
  if checks then let! i := getIdxOf Z.eqb Ts T in Ok (mkUnion i (live u) (made u)) else Ok u.
Definition assertDirty (T : Z) (u : union) : outcome unit :=
  if checks then let! i := getIdxOf Z.eqb Ts T in if flag u =? i then Ok tt else failed else Ok tt.
(** The static_assert of UnionBase.hpp:31, 39, 46, 52, 58. *)
Definition static_has (T : Z) : outcome unit := if has Z.eqb Ts T then Ok tt else illformed.

(** UnionBase.hpp:27-33 [initImpl]: [new(&data) T(...)] starts the life of an object. An object that
    was there is not destroyed. *)
Definition initImpl (T : Z) (r : Z + string) (u : union) : outcome (union * list event * seen) :=
  let! _ := static_has T in
  match r with
  | inl v => Ok (mkUnion (flag u) (Some (made u, T, v)) (S (made u)), [Made (made u)], Nothing)
  | inr m => Ok (mkUnion (flag u) None (made u), [], Raised m)
  end.
(** UnionBase.hpp:43-60 [getImpl]: the object in the storage, taken to be a [T]. *)
Definition getImpl (T : Z) (u : union) : outcome (nat * Z) :=
  let! _ := static_has T in
  match live u with
  | Some (i, T', v) => if T' =? T then Ok (i, v) else UB
  | None => UB
  end.
(** UnionBase.hpp:36-41 [deinitImpl]. *)
Definition deinitImpl (T : Z) (u : union) : outcome (union * list event * seen) :=
  let! (i, _) := getImpl T u in Ok (mkUnion (flag u) None (made u), [Gone i], Nothing).

Inductive uop :=
| Init (T : Z) (r : Z + string)  (* init<T>(...), whose constructor gives a value or throws *)
| Get (T : Z)                    (* get<T>() & *)
| Set_ (T : Z) (v : Z)           (* get<T>() = v *)
| Take (T : Z) (left : Z)        (* get<T>() &&, the moved-from object keeps [left] *)
| Deinit (T : Z).                (* deinit<T>() *)

(** Union.hpp:84-127. *)
Definition step (o : uop) (u : union) : outcome (union * list event * seen) :=
  match o with
  | Init T r => let! _ := assertClean u in let! u := setDirty T u in initImpl T r u
  | Get T => let! _ := assertDirty T u in let! (_, v) := getImpl T u in Ok (u, [], Value v)
  | Set_ T v =>
      let! _ := assertDirty T u in let! (i, _) := getImpl T u in
      Ok (mkUnion (flag u) (Some (i, T, v)) (made u), [], Nothing)
  | Take T w =>
      let! _ := assertDirty T u in let! (i, v) := getImpl T u in
      Ok (mkUnion (flag u) (Some (i, T, w)) (made u), [], Value v)
  | Deinit T => let! _ := assertDirty T u in deinitImpl T (setClean u)
  end.
Fixpoint steps (os : list uop) (u : union) : outcome (union * list event * list seen) :=
  match os with
  | [] => Ok (u, [], [])
  | o :: os =>
      let! (u, e, x) := step o u in
      let! (u, es, xs) := steps os u in Ok (u, e ++ es, x :: xs)
  end.
(** A union from its construction (Union.hpp:74, 33) to its destruction (104-107). *)
Definition life (os : list uop) : outcome (list event * list seen) :=
  if unique Z.eqb Ts then
    let! (u, es, xs) := steps os (mkUnion (-1) None 0) in
    let! _ := assertClean u in Ok (es, xs)
  else illformed.

(** UnionPOD.hpp: no checks, no deinit; copying a union copies the storage. *)
Inductive pop :=
| PInit (T v : Z) | PGet (T : Z) | PSet (T v : Z).
Definition pstep (o : pop) (u : union) : outcome (union * list seen) :=
  match o with
  | PInit T v => let! (u, _, _) := initImpl T (inl v) u in Ok (u, [])
  | PGet T => let! (_, v) := getImpl T u in Ok (u, [Value v])
  | PSet T v => let! (i, _) := getImpl T u in Ok (mkUnion (flag u) (Some (i, T, v)) (made u), [])
  end.
Fixpoint psteps (os : list pop) (u : union) : outcome (union * list seen) :=
  match os with
  | [] => Ok (u, [])
  | o :: os => let! (u, x) := pstep o u in let! (u, xs) := psteps os u in Ok (u, x ++ xs)
  end.
End U.

(** Maybe.hpp: a union of one type, and its operations. *)
Inductive mop := MInit (r : Z + string) | MGet | MSet (v : Z) | MTake (left : Z) | MDeinit.
Definition maybe_op (T : Z) (o : mop) : uop :=
  match o with MInit r => Init T r | MGet => Get T | MSet v => Set_ T v | MTake w => Take T w | MDeinit => Deinit T end.
Definition maybe_life (checks : bool) (T : Z) (os : list mop) : outcome (list event * list seen) :=
  life checks [T] (map (maybe_op T) os).
