(** Model of extracting C++ values from constant JSON values of any shape, in builds with and without assertions:
    Json/Val/Internal/{Cnv,AsHelper,CnvFuncs,ItrHelper}.hpp, Json/Val/Val.inl:33-50, Val.hpp:279-292 (subscripts of a
    [const Val&]).  Types and values are those of JsonCnvModel, with its simplifications; a violated assertion and a getter
    used on the wrong kind are UB.  Values that are not constant differ: their subscripts do not check indices, and add
    missing keys. *)
From Coq Require Import String Ascii ZArith NArith Arith Bool Lia List.
From Coq Require Import Floats.SpecFloat.
From Verif Require Import Common JsonNumModel JsonModel JsonCnvModel.
Import ListNotations.
Local Open Scope Z_scope.
Local Notation "'let!' x := e 'in' f" := (obind e (fun x => f)) (at level 200, x pattern, e at level 100, f at level 200, right associativity).

(** Val.hpp:289-292: [getArr().at(mIdx)]. *)
Definition out_of_range {A} : outcome A := Throw "out_of_range"%string.
(** An exception that leaves a [noexcept] function (ItrHelper.hpp:55-59) ends the process. *)
Definition noexcept {A} (o : outcome A) : outcome A := match o with Throw _ => Throw "terminate"%string | _ => o end.

Section BUILD.
Context (nd : bool).   (* [true]: assertions are off *)
Definition asserted {A} (b : bool) (o : outcome A) : outcome A := if nd || b then o else UB.

Fixpoint cextr (t : ty) (v : jval) (old : cv) {struct t} : outcome cv :=
  match t with
  | TyBool => match v with JBln x => Ok (VBool x) | _ => UB end
  | TyInt k => match v with JNum n => let! z := num_as k n in Ok (VInt z) | _ => UB end         (* Cnv.hpp:31-34 *)
  | TyEnum k => match v with JNum n => let! z := num_as k n in Ok (VInt z) | _ => UB end        (* 117-120 *)
  | TyReal => match v with JNum n => Ok (VReal (getReal n)) | _ => UB end
  | TyStr => match v with JStr s => Ok (VStr s) | _ => UB end
  | TyNull => match v with JNll => Ok VNull | _ => UB end
  | TyVal => Ok (VJson v)
  | TyBits n => match v with JStr s => let! l := bits_of n s in Ok (VBits l) | _ => UB end      (* 285-289 *)
  | TyPair a b =>                                                                               (* 160-165 *)
    match v with
    | JArr [] => out_of_range
    | JArr (x :: l) =>
      let! c := asserted (isNoNum a x) (cextr a x (fresh a)) in
      match l with
      | [] => out_of_range
      | y :: _ => let! d := asserted (isNoNum b y) (cextr b y (fresh b)) in Ok (VPair c d)
      end
    | _ => UB
    end
  | TyTuple ts =>                                                                               (* 182-194 *)
    let! cs := (fix all (ts : list ty) (i : nat) {struct ts} : outcome (list cv) :=
      match ts with
      | [] => Ok []
      | t :: ts =>
        match v with
        | JArr l =>
          match nth_error l i with
          | None => asserted false out_of_range
          | Some x => let! c := asserted (isNoNum t x) (cextr t x (fresh t)) in let! cs := all ts (S i) in Ok (c :: cs)
          end
        | _ => UB
        end
      end) ts 0%nat in Ok (VTup cs)
  | TyVec t =>                                                                                  (* 212-221 *)
    match v with
    | JArr l =>
      let! cs := (fix all (l : list jval) : outcome (list cv) :=
        match l with
        | [] => Ok []
        | x :: l => let! c := asserted (isNoNum t x) (cextr t x (fresh t)) in let! cs := all l in Ok (c :: cs)
        end) l in Ok (VVec cs)
    | _ => UB
    end
  | TyMap a b =>                                                                                (* 239-247; Val.hpp:460-467 *)
    match v with
    | JArr l =>
      let! m := (fix all (l : list jval) (m : list (cv * cv)) : outcome (list (cv * cv)) :=
        match l with
        | [] => Ok m
        | e :: l =>
          let! p := noexcept (asserted (isNoNum (TyPair a b) e)
            match e with
            | JArr [] => out_of_range
            | JArr (x :: r) =>
              let! c := asserted (isNoNum a x) (cextr a x (fresh a)) in
              match r with
              | [] => out_of_range
              | y :: _ => let! d := asserted (isNoNum b y) (cextr b y (fresh b)) in Ok (c, d)
              end
            | _ => UB
            end) in
          all l (map_set (fst p) (snd p) m)
        end) l (match old with VMap m => m | _ => [] end) in Ok (VMap m)
    | _ => Ok old
    end
  | TyStructArr ts =>                                                                           (* CnvFuncs.hpp:32-46 *)
    let! cs := (fix all (ts : list ty) (i : nat) (old : list cv) {struct ts} : outcome (list cv) :=
      match ts with
      | [] => Ok []
      | t :: ts =>
        match v with
        | JArr l =>
          match nth_error l i with
          | None => asserted false out_of_range
          | Some x => let! c := asserted (isNoNum t x) (cextr t x (hd (fresh t) old)) in let! cs := all ts (S i) (tl old) in Ok (c :: cs)
          end
        | _ => UB
        end
      end) ts 0%nat (match old with VTup cs => cs | _ => [] end) in Ok (VTup cs)
  | TyStructObj fs =>                                    (* CnvFuncs.hpp:60-74; Val.hpp:279-282, VecMap.hpp:110-117: null if missing *)
    let! cs := (fix all (fs : list (bytes * ty)) (old : list cv) {struct fs} : outcome (list cv) :=
      match fs with
      | [] => Ok []
      | (n, t) :: fs =>
        match v with
        | JObj o =>
          let! c := match lookup n o with
                    | None => asserted false (cextr t JNll (hd (fresh t) old))
                    | Some x => cextr t x (hd (fresh t) old)
                    end in
          let! cs := all fs (tl old) in Ok (c :: cs)
        | _ => UB
        end
      end) fs (match old with VTup cs => cs | _ => [] end) in Ok (VTup cs)
  end.
(** [v.as<T>()] (Val.inl:33-50) and [getExtr<T>(v)] (CnvFuncs.hpp:92-98) of a [const Val& v]. *)
Definition cas (t : ty) (v : jval) : outcome cv := asserted (isNoNum t v) (cextr t v (fresh t)).
Definition cgetExtr (t : ty) (v : jval) : outcome cv := cextr t v (fresh t).
(** [T[n]]: Cnv.hpp:266-271. *)
Fixpoint cextr_elems (t : ty) (n i : nat) (l : list jval) {struct n} : outcome (list cv) :=
  match n with
  | O => Ok []
  | S n =>
    match nth_error l i with
    | None => out_of_range
    | Some x => let! c := cas t x in let! cs := cextr_elems t n (S i) l in Ok (c :: cs)
    end
  end.
Definition cextr_carray (n : nat) (t : ty) (v : jval) : outcome (list cv) :=
  match v with JArr l => asserted (n <=? length l)%nat (cextr_elems t n 0 l) | _ => UB end.
End BUILD.
