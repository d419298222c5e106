(** Model of extracting C++ values from JSON values that are not constant ([Val&]), in both builds: the subscripts of
    Val.hpp:271-278, 285-288 do not check indices and add missing keys, so that the source may change.  Otherwise as
    JsonShapeModel.  Classes with a converter made by SSVJ_CNV take the value as a constant (CnvImplSimple, Cnv.hpp:306-309, is
    chosen for a [Val&]): [pextr].  In [mextr] classes have a converter written by the user that gives the value on to extrArr or
    extrObj as it came (CnvFuncs.hpp:107-111, 125-129), or these are called directly, with the members as arguments; a type with
    classes of both kinds is not modelled.  When an exception is thrown what became of the source is not modelled.  Values given by
    rvalue reference, whose parts are moved out, are not modelled. *)
From Coq Require Import String Ascii ZArith NArith Arith Bool Lia List.
From Verif Require Import Common JsonNumModel JsonModel JsonCnvModel JsonShapeModel.
Import ListNotations.
Local Open Scope Z_scope.
Local Notation "'let!' x := e 'in' f" := (obind e (fun x => f)) (at level 200, x pattern, e at level 100, f at level 200, right associativity).

(** The entry found by a subscript, changed through the reference. *)
Fixpoint obj_update (n : bytes) (x : jval) (o : list (bytes * jval)) : list (bytes * jval) :=
  match o with [] => [] | (m, y) :: o => if bytes_eqb m n then (m, x) :: o else (m, y) :: obj_update n x o end.

Section BUILD.
Context (nd : bool).   (* [true]: assertions are off *)
(** The value read, and the source afterwards. *)
Fixpoint mextr (t : ty) (v : jval) (old : cv) {struct t} : outcome (cv * jval) :=
  match t with
  | TyPair a b =>                                                                               (* Cnv.hpp:160-165 *)
    match v with
    | JArr (x :: y :: r) =>
      let! (c, x) := asserted nd (isNoNum a x) (mextr a x (fresh a)) in
      let! (d, y) := asserted nd (isNoNum b y) (mextr b y (fresh b)) in Ok (VPair c d, JArr (x :: y :: r))
    | _ => UB
    end
  | TyTuple ts =>                                                                               (* 182-194 *)
    match ts with
    | [] => Ok (VTup [], v)
    | _ =>
      match v with
      | JArr l =>
        let! (cs, l) := (fix all (ts : list ty) (l : list jval) {struct ts} : outcome (list cv * list jval) :=
          match ts with
          | [] => Ok ([], l)
          | t :: ts =>
            match l with
            | [] => UB
            | x :: l => let! (c, x) := asserted nd (isNoNum t x) (mextr t x (fresh t)) in let! (cs, l) := all ts l in Ok (c :: cs, x :: l)
            end
          end) ts l in Ok (VTup cs, JArr l)
      | _ => UB
      end
    end
  | TyMap a b =>                                                                                (* 239-247; Val.hpp:452-459 *)
    match v with
    | JArr l =>
      let! (m, l) := (fix all (l : list jval) (m : list (cv * cv)) : outcome (list (cv * cv) * list jval) :=
        match l with
        | [] => Ok (m, [])
        | e :: l =>
          let! (p, e) := noexcept (asserted nd (isNoNum (TyPair a b) e)
            match e with
            | JArr (x :: y :: r) =>
              let! (c, x) := asserted nd (isNoNum a x) (mextr a x (fresh a)) in
              let! (d, y) := asserted nd (isNoNum b y) (mextr b y (fresh b)) in Ok ((c, d), JArr (x :: y :: r))
            | _ => UB
            end) in
          let! (m, l) := all l (map_set (fst p) (snd p) m) in Ok (m, e :: l)
        end) l (match old with VMap m => m | _ => [] end) in Ok (VMap m, JArr l)
    | _ => Ok (old, v)
    end
  | TyStructArr ts =>                                                                           (* CnvFuncs.hpp:32-46 *)
    match ts with
    | [] => Ok (VTup [], v)
    | _ =>
      match v with
      | JArr l =>
        let! (cs, l) := (fix all (ts : list ty) (l : list jval) (old : list cv) {struct ts} : outcome (list cv * list jval) :=
          match ts with
          | [] => Ok ([], l)
          | t :: ts =>
            match l with
            | [] => UB
            | x :: l => let! (c, x) := asserted nd (isNoNum t x) (mextr t x (hd (fresh t) old)) in let! (cs, l) := all ts l (tl old) in Ok (c :: cs, x :: l)
            end
          end) ts l (match old with VTup cs => cs | _ => [] end) in Ok (VTup cs, JArr l)
      | _ => UB
      end
    end
  | TyStructObj fs =>                                              (* CnvFuncs.hpp:60-74; a missing key is added with null *)
    match fs with
    | [] => Ok (VTup [], v)
    | _ =>
      match v with
      | JObj o =>
        let! (cs, o) := (fix all (fs : list (bytes * ty)) (o : list (bytes * jval)) (old : list cv) {struct fs} : outcome (list cv * list (bytes * jval)) :=
          match fs with
          | [] => Ok ([], o)
          | (n, t) :: fs =>
            let! (c, o) := match lookup n o with
                           | None => asserted nd false (let! (c, x) := mextr t JNll (hd (fresh t) old) in Ok (c, obj_set n x o))
                           | Some y => let! (c, x) := mextr t y (hd (fresh t) old) in Ok (c, obj_update n x o)
                           end in
            let! (cs, o) := all fs o (tl old) in Ok (c :: cs, o)
          end) fs o (match old with VTup cs => cs | _ => [] end) in Ok (VTup cs, JObj o)
      | _ => UB
      end
    end
  | _ => let! c := cextr nd t v old in Ok (c, v)                   (* scalars, strings; Cnv.hpp:212-221: vectors read constant elements *)
  end.
(** The same with converters made by SSVJ_CNV. *)
Fixpoint pextr (t : ty) (v : jval) (old : cv) {struct t} : outcome (cv * jval) :=
  match t with
  | TyPair a b =>                                                                               (* Cnv.hpp:160-165 *)
    match v with
    | JArr (x :: y :: r) =>
      let! (c, x) := asserted nd (isNoNum a x) (pextr a x (fresh a)) in
      let! (d, y) := asserted nd (isNoNum b y) (pextr b y (fresh b)) in Ok (VPair c d, JArr (x :: y :: r))
    | _ => UB
    end
  | TyTuple ts =>                                                                               (* 182-194 *)
    match ts with
    | [] => Ok (VTup [], v)
    | _ =>
      match v with
      | JArr l =>
        let! (cs, l) := (fix all (ts : list ty) (l : list jval) {struct ts} : outcome (list cv * list jval) :=
          match ts with
          | [] => Ok ([], l)
          | t :: ts =>
            match l with
            | [] => UB
            | x :: l => let! (c, x) := asserted nd (isNoNum t x) (pextr t x (fresh t)) in let! (cs, l) := all ts l in Ok (c :: cs, x :: l)
            end
          end) ts l in Ok (VTup cs, JArr l)
      | _ => UB
      end
    end
  | TyMap a b =>                                                                                (* 239-247; Val.hpp:452-459 *)
    match v with
    | JArr l =>
      let! (m, l) := (fix all (l : list jval) (m : list (cv * cv)) : outcome (list (cv * cv) * list jval) :=
        match l with
        | [] => Ok (m, [])
        | e :: l =>
          let! (p, e) := noexcept (asserted nd (isNoNum (TyPair a b) e)
            match e with
            | JArr (x :: y :: r) =>
              let! (c, x) := asserted nd (isNoNum a x) (pextr a x (fresh a)) in
              let! (d, y) := asserted nd (isNoNum b y) (pextr b y (fresh b)) in Ok ((c, d), JArr (x :: y :: r))
            | _ => UB
            end) in
          let! (m, l) := all l (map_set (fst p) (snd p) m) in Ok (m, e :: l)
        end) l (match old with VMap m => m | _ => [] end) in Ok (VMap m, JArr l)
    | _ => Ok (old, v)
    end
  | _ => let! c := cextr nd t v old in Ok (c, v)                   (* classes: 306-309; scalars, strings, vectors as above *)
  end.
(** [getExtr<T>(v)] of a [Val& v]. *)
Definition mgetExtr (t : ty) (v : jval) : outcome (cv * jval) := mextr t v (fresh t).
End BUILD.
