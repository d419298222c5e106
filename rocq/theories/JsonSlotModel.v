(** Storage of JSON values: which string, array, object, number and flag objects are constructed and destroyed
    (Json/Val/Val.hpp:60-227, Val.inl:22-31, Union/Inc/{Union,UnionBase}.hpp).
    Not modelled: exceptions from constructors, buffer reallocation when arrays grow (it copies the elements). *)
From Coq Require Import String Ascii ZArith NArith Arith Bool Lia List.
From Verif Require Import Common JsonNumModel JsonModel.
Import ListNotations.
Local Notation "'let!' x := e 'in' f" := (obind e (fun x => f)) (at level 200, x pattern, e at level 100, f at level 200, right associativity).

(** Val.hpp Type. *)
Inductive kind := KObj | KArr | KStr | KNum | KBln | KNll.
Definition kind_eqb (a b : kind) : bool :=
  match a, b with KObj, KObj | KArr, KArr | KStr, KStr | KNum, KNum | KBln, KBln | KNll, KNll => true | _, _ => false end.
Inductive leaf := LStr (s : bytes) | LNum (n : num) | LBln (x : bool).
Definition leaf_kind (l : leaf) : kind := match l with LStr _ => KStr | LNum _ => KNum | LBln _ => KBln end.
Definition node_kind (obj : bool) : kind := if obj then KObj else KArr.
(** A value: its tag, and what lives in its union.  [Clean]: nothing.  [Leaf], [Node]: an object with an identity; the
    elements of arrays and objects are values themselves (arrays use empty keys). *)
Inductive slot := Clean (tag : kind) | Leaf (tag : kind) (id : nat) (l : leaf) | Node (tag : kind) (id : nat) (obj : bool) (kids : list (bytes * slot)).
Definition tag_of (s : slot) : kind := match s with Clean t | Leaf t _ _ | Node t _ _ _ => t end.

(** deinitCurrent and ~Val (146-158, 212-215): the destroyed objects, in order.  Destroying by a tag that does not match
    the content is undefined.  The tag is left alone. *)
Fixpoint destroy (s : slot) : outcome (list nat) :=
  match s with
  | Clean t => if kind_eqb t KNll then Ok [] else UB
  | Leaf t id l => if kind_eqb t (leaf_kind l) then Ok [id] else UB
  | Node t id obj kids =>
    if kind_eqb t (node_kind obj)
    then let! ids := (fix all (kids : list (bytes * slot)) : outcome (list nat) :=
           match kids with [] => Ok [] | (_, s) :: kids => let! a := destroy s in let! b := all kids in Ok (a ++ b) end) kids in
         Ok (ids ++ [id])
    else UB
  end.
(** init from a const value (162-180), hence also the copy constructor; [n] is the next identity. *)
Fixpoint copy (n : nat) (s : slot) : outcome (slot * nat) :=
  match s with
  | Clean t => if kind_eqb t KNll then Ok (Clean KNll, n) else UB
  | Leaf t id l => if kind_eqb t (leaf_kind l) then Ok (Leaf t n l, S n) else UB
  | Node t id obj kids =>
    if kind_eqb t (node_kind obj)
    then let! (kids', n') := (fix all (n : nat) (kids : list (bytes * slot)) : outcome (list (bytes * slot) * nat) :=
           match kids with
           | [] => Ok ([], n)
           | (k, s) :: kids => let! (s', n) := copy n s in let! (kids', n) := all n kids in Ok ((k, s') :: kids', n)
           end) (S n) kids in
         Ok (Node t n obj kids', n')
    else UB
  end.
(** init from an rvalue: a new object takes over the content; strings and containers are left empty, numbers and flags
    are copied.  Result: the new value, the source afterwards, the next identity. *)
Definition take (n : nat) (s : slot) : outcome (slot * slot * nat) :=
  match s with
  | Clean t => if kind_eqb t KNll then Ok (Clean KNll, s, n) else UB
  | Leaf t id l =>
    if kind_eqb t (leaf_kind l) then Ok (Leaf t n l, Leaf t id (match l with LStr _ => LStr [] | _ => l end), S n) else UB
  | Node t id obj kids => if kind_eqb t (node_kind obj) then Ok (Node t n obj kids, Node t id obj [], S n) else UB
  end.

(** ** Programs over named variables *)
(** A path is a variable number followed by element positions. *)
Fixpoint get (p : list nat) (ks : list (bytes * slot)) : option slot :=
  match p with
  | [] => None
  | i :: p =>
    match nth_error ks i with
    | None => None
    | Some (_, s) => match p with [] => Some s | _ => match s with Node _ _ _ kids => get p kids | _ => None end end
    end
  end.
Fixpoint set_nth {A} (i : nat) (x : A) (l : list A) : list A :=
  match l, i with [], _ => [] | _ :: l, O => x :: l | y :: l, S i => y :: set_nth i x l end.
Fixpoint put (p : list nat) (x : slot) (ks : list (bytes * slot)) : option (list (bytes * slot)) :=
  match p with
  | [] => None
  | i :: p =>
    match nth_error ks i with
    | None => None
    | Some (k, s) =>
      match p with
      | [] => Some (set_nth i (k, x) ks)
      | _ => match s with
             | Node t id obj kids => match put p x kids with Some kids' => Some (set_nth i (k, Node t id obj kids') ks) | None => None end
             | _ => None
             end
      end
    end
  end.
Record state := { vars : list (bytes * slot); next : nat; gone : list nat }.
(** What can be assigned besides values: a leaf, an empty array/object, null. *)
Inductive plain_value := PLeaf (l : leaf) | PEmpty (obj : bool) | PNull.
Inductive op :=
| Copy (d s : list nat)                (* d = s *)
| Move (d s : list nat)                (* d = std::move(s) *)
| Set_ (d : list nat) (v : plain_value)    (* d = string, number, flag, Arr{}, Obj{}, null *)
| SetVia (d : list nat) (v : plain_value)  (* d = map, bitset, enum or macro class; [v] is the value first assigned *)
| Append (d : list nat)                (* d.emplace(Val{}) *)
| Touch (d : list nat) (pos : nat) (k : bytes)  (* d["k"] for a new key that belongs at position [pos] *)
| Renew (d : nat).                     (* variable leaves its scope and a new null one takes its name *)
Definition opt {A} (o : option A) : outcome A := match o with Some x => Ok x | None => UB end.
Definition build (n : nat) (v : plain_value) : slot * nat :=
  match v with
  | PLeaf l => (Leaf (leaf_kind l) n l, S n)
  | PEmpty obj => (Node (node_kind obj) n obj [], S n)
  | PNull => (Clean KNll, n)
  end.
(** deinitCurrent on a variable or element: the content is gone, the tag stays. *)
Definition deinit (p : list nat) (st : state) : outcome state :=
  let! x := opt (get p (vars st)) in
  let! g := destroy x in
  let! ks := opt (put p (Clean (tag_of x)) (vars st)) in
  Ok {| vars := ks; next := next st; gone := gone st ++ g |}.
Definition step (st : state) (o : op) : outcome state :=
  match o with
  | Copy d s =>                                                   (* Val.inl:22-26, Val.hpp:219-227 *)
    let! st := deinit d st in
    let! y := opt (get s (vars st)) in
    let! (z, n) := copy (next st) y in
    let! ks := opt (put d z (vars st)) in
    Ok {| vars := ks; next := n; gone := gone st |}
  | Move d s =>                                                   (* Val.inl:27-31 *)
    let! st := deinit d st in
    let! y := opt (get s (vars st)) in
    let! (z, y', n) := take (next st) y in
    let! ks := opt (put s y' (vars st)) in
    let! ks := opt (put d z ks) in
    Ok {| vars := ks; next := n; gone := gone st |}
  | Set_ d v =>                                                   (* Val.hpp:262-268, Cnv.hpp:22-65 *)
    let! st := deinit d st in
    let (z, n) := build (next st) v in
    let! ks := opt (put d z (vars st)) in
    Ok {| vars := ks; next := n; gone := gone st |}
  | SetVia d v =>  (* set calls deinitCurrent, then toVal assigns and so calls it again: Cnv.hpp:113-116, 232-238, 280-284 *)
    let! st := deinit d st in
    let! st := deinit d st in
    let (z, n) := build (next st) v in
    let! ks := opt (put d z (vars st)) in
    Ok {| vars := ks; next := n; gone := gone st |}
  | Append d =>                                                   (* Val.hpp:487-493 *)
    let! x := opt (get d (vars st)) in
    match x with
    | Node KArr id false kids => let! ks := opt (put d (Node KArr id false (kids ++ [([], Clean KNll)])) (vars st)) in
                                 Ok {| vars := ks; next := next st; gone := gone st |}
    | _ => UB
    end
  | Touch d pos k =>                                              (* Val.hpp:271-278 *)
    let! x := opt (get d (vars st)) in
    match x with
    | Node KObj id true kids =>
      let! ks := opt (put d (Node KObj id true (firstn pos kids ++ (k, Clean KNll) :: skipn pos kids)) (vars st)) in
      Ok {| vars := ks; next := next st; gone := gone st |}
    | _ => UB
    end
  | Renew d =>                                                    (* Val.hpp:212-215 *)
    let! st := deinit [d] st in
    let! ks := opt (put [d] (Clean KNll) (vars st)) in
    Ok {| vars := ks; next := next st; gone := gone st |}
  end.
Fixpoint run (st : state) (ops : list op) : outcome state :=
  match ops with [] => Ok st | o :: ops => let! st := step st o in run st ops end.
(** All variables are default-constructed (Val.hpp:64, 192). *)
Definition start (names : list bytes) : state := {| vars := map (fun k => (k, Clean KNll)) names; next := 0; gone := [] |}.
