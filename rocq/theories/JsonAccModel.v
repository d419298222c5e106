(** Access to the parts of JSON values: the subscripts, [has], [getIfHas], [emplace], the sizes and the makers of
    include/SSVUtils/Json/Val/Val.hpp. *)
From Coq Require Import String Ascii ZArith NArith Arith Bool Lia List.
From Verif Require Import Common VecModel JsonNumModel JsonModel JsonCnvModel.
Import ListNotations.
Local Open Scope nat_scope.
Local Notation "'let!' x := e 'in' f" := (obind e (fun x => f))
  (at level 200, x pattern, e at level 100, f at level 200, right associativity).

(** One subscript: by key or by index (Key is std::string, Idx is std::size_t). *)
Inductive step := K (k : bytes) | I (i : nat).

(** ** Constant values *)
(** Val.hpp:279-282 (VecMap::atOrDefault, which answers with a static null) and 289-292 (vector::at).  The getters
    [getObj], [getArr] assert the kind (Val.hpp:108-131): the wrong kind is undefined. *)
Definition child (v : jval) (s : step) : outcome jval :=
  match s, v with
  | K k, JObj o => vm_atOrDefault bytes_ltb bytes_eqb JNll o k
  | I i, JArr a => match nth_error a i with Some x => Ok x | None => Throw "out_of_range"%string end
  | _, _ => UB
  end.
(** [v[s1][s2]...] on a constant value. *)
Fixpoint read (v : jval) (p : list step) : outcome jval :=
  match p with
  | [] => Ok v
  | s :: p => let! u := child v s in read u p
  end.

(** ** Values that may be changed *)
(** [f] applied to the element [v[s1][s2]...] refers to, giving the whole value afterwards.
    Val.hpp:271-278 (VecMap::operator[], which inserts null for an absent key) and 285-288 (vector::operator[], not
    checked: out of range is undefined). *)
Fixpoint access (v : jval) (p : list step) (f : jval -> outcome jval) {struct p} : outcome jval :=
  match p with
  | [] => f v
  | K k :: p =>
    match v with
    | JObj o =>
      let! r := vm_bracket bytes_ltb bytes_eqb JNll o k in
      match nth_error (fst r) (snd r) with
      | Some (j, x) => let! y := access x p f in Ok (JObj (set_at (snd r) (j, y) (fst r)))
      | None => UB
      end
    | _ => UB
    end
  | I i :: p =>
    match v with
    | JArr a =>
      match nth_error a i with
      | Some x => let! y := access x p f in Ok (JArr (set_at i y a))
      | None => UB
      end
    | _ => UB
    end
  end.
(** [v[s1][s2]... = x] for an [x] that is not part of [v] (JsonSlotModel treats the other case). *)
Definition assign (v : jval) (p : list step) (x : jval) : outcome jval := access v p (fun _ => Ok x).
(** [v[s1][s2]...] with the reference only read. *)
Definition touch (v : jval) (p : list step) : outcome jval := access v p Ok.
(** [v[s1][s2]....emplace(x)]: Val.hpp:486-491. *)
Definition emplace (v : jval) (p : list step) (x : jval) : outcome jval :=
  access v p (fun u => match u with JArr a => Ok (JArr (a ++ [x])) | _ => UB end).

(** ** Questions *)
(** Val.hpp:298-310. *)
Definition has (v : jval) (s : step) : outcome bool :=
  match s, v with
  | K k, JObj o => vm_has bytes_ltb bytes_eqb o k
  | I i, JArr a => Ok (i <? length a)
  | _, _ => UB
  end.
(** Val.hpp:323-336. *)
Definition getIfHas (t : ty) (v : jval) (s : step) (def : cv) : outcome cv :=
  let! b := has v s in if b then (let! u := child v s in as_ t u) else Ok def.
(** Val.hpp:494-511. *)
Definition getSizeArr (v : jval) : outcome nat := match v with JArr a => Ok (length a) | _ => UB end.
Definition getSizeObj (v : jval) : outcome nat := match v with JObj o => Ok (length o) | _ => UB end.
Definition isEmptyArr (v : jval) : outcome bool := let! n := getSizeArr v in Ok (n =? 0).
Definition isEmptyObj (v : jval) : outcome bool := let! n := getSizeObj v in Ok (n =? 0).

(** ** Makers *)
(** Val.hpp:526-538: the arguments two at a time ([forArgs<2>], TupModel), each assigned through [operator[]]. *)
Definition mkObj (l : list (bytes * jval)) : outcome jval :=
  let! o := vm_run bytes_ltb bytes_eqb JNll [] (map (fun e => Assign (fst e) (snd e)) l) in Ok (JObj o).
(** Val.hpp:543-547: braces around the arguments choose the initializer-list constructor of std::vector<Val>. *)
Definition mkArr (l : list jval) : outcome jval := Ok (JArr l).
