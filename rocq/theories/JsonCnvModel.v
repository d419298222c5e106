(** Converting C++ values to and from JSON values: Json/Val/Internal/{Cnv,Chk,AsHelper,CnvFuncs,CnvMacros}.hpp.
    Not modelled: [float] (stored as the double of equal value), raw [Obj]/[Arr]/[Num] targets (the identity),
    move-only differences, user-defined converters that are not made with the macros. *)
From Coq Require Import String Ascii ZArith NArith Arith Bool Lia List.
From Coq Require Import Floats.SpecFloat.
From Verif Require Import Common JsonNumModel JsonModel.
Import ListNotations.
Local Open Scope Z_scope.
Local Notation "'let!' x := e 'in' f" := (obind e (fun x => f)) (at level 200, x pattern, e at level 100, f at level 200, right associativity).

(** ** Types and values *)
(** The integer types of Cnv.hpp:67-72; [char] is signed, [long] has 64 bits. *)
Inductive ikind := KChar | KInt | KLong | KUChar | KUInt | KULong.
Definition k_signed (k : ikind) : bool := match k with KChar | KInt | KLong => true | _ => false end.
Definition k_bits (k : ikind) : Z := match k with KChar | KUChar => 8 | KInt | KUInt => 32 | KLong | KULong => 64 end.
Definition k_min (k : ikind) : Z := if k_signed k then - 2 ^ (k_bits k - 1) else 0.
Definition k_max (k : ikind) : Z := if k_signed k then 2 ^ (k_bits k - 1) - 1 else 2 ^ k_bits k - 1.
(** static_cast to the type. *)
Definition k_wrap (k : ikind) (z : Z) : Z := (z - k_min k) mod 2 ^ k_bits k + k_min k.
(** Convertible types.  [TyMap] stands for std::map, std::unordered_map and VecMap; [TyStructArr]/[TyStructObj] for
    classes with a converter made by SSVJ_CNV_ARR / SSVJ_CNV_OBJ_AUTO (CnvMacros.hpp:96-115). *)
Inductive ty :=
| TyBool | TyInt (k : ikind) | TyReal | TyStr | TyNull | TyVal | TyEnum (k : ikind) | TyBits (n : nat)
| TyPair (a b : ty) | TyTuple (ts : list ty) | TyVec (t : ty) | TyMap (k v : ty)
| TyStructArr (ts : list ty) | TyStructObj (fs : list (bytes * ty)).
(** Their values.  A map is its list of entries; bitsets list bit n-1 first. *)
Inductive cv :=
| VBool (x : bool) | VInt (z : Z) | VReal (f : double) | VStr (s : bytes) | VNull | VJson (j : jval)
| VBits (l : list bool) | VPair (a b : cv) | VTup (l : list cv) | VVec (l : list cv) | VMap (l : list (cv * cv)).

(** ** To JSON: Cnv::toVal into a fresh value *)
(** Num{x}: Num.hpp:106-124, NumHelper.hpp:46-53. *)
Definition num_of_int (k : ikind) (z : Z) : num := if k_signed k then NS z else NU z.
Definition bit_char (x : bool) : ascii := if x then "1"%char else "0"%char.
(** [mV[key] = value] on an object kept in key order (VecMap, Val.hpp:271-278). *)
Fixpoint obj_set (k : bytes) (v : jval) (o : list (bytes * jval)) : list (bytes * jval) :=
  match o with
  | [] => [(k, v)]
  | (j, w) :: o => if bytes_eqb j k then (k, v) :: o else if bytes_ltb k j then (k, v) :: (j, w) :: o else (j, w) :: obj_set k v o
  end.
(** Values that do not belong to the type cannot occur (C++ is typed): null stands in for them. *)
Fixpoint toVal (t : ty) (c : cv) {struct t} : jval :=
  match t, c with
  | TyBool, VBool x => JBln x                                     (* Cnv.hpp:53-65 *)
  | TyInt k, VInt z => JNum (num_of_int k z)                      (* 22-34 *)
  | TyReal, VReal f => JNum (NR f)
  | TyStr, VStr s => JStr s                                       (* 36-51 *)
  | TyNull, VNull => JNll
  | TyVal, VJson j => j                                           (* 92-101 *)
  | TyEnum k, VInt z => JNum (num_of_int k z)                     (* 113-116 *)
  | TyBits n, VBits l => JStr (map bit_char l)                    (* 280-284 *)
  | TyPair a b, VPair x y => JArr [toVal a x; toVal b y]          (* 155-159 *)
  | TyTuple ts, VTup cs | TyStructArr ts, VTup cs =>              (* 175-181; CnvFuncs.hpp:48-58, 113-117 *)
    JArr ((fix all (ts : list ty) (cs : list cv) {struct ts} : list jval :=
      match ts, cs with t :: ts, c :: cs => toVal t c :: all ts cs | _, _ => [] end) ts cs)
  | TyVec t, VVec cs => JArr (map (toVal t) cs)                   (* 204-211 *)
  | TyMap k v, VMap m => JArr (map (fun p => JArr [toVal k (fst p); toVal v (snd p)]) m)  (* 232-238 *)
  | TyStructObj fs, VTup cs =>                                    (* CnvFuncs.hpp:76-88, 131-135 *)
    JObj ((fix all (fs : list (bytes * ty)) (cs : list cv) (o : list (bytes * jval)) {struct fs} : list (bytes * jval) :=
      match fs, cs with (n, t) :: fs, c :: cs => all fs cs (obj_set n (toVal t c) o) | _, _ => o end) fs cs [])
  | _, _ => JNll
  end.

(** ** Type checks *)
Definition is_num (v : jval) : bool := match v with JNum _ => true | _ => false end.
(** [isNoNum<T>]: ChkNoNum, falling back to Chk (Chk.hpp:57-72, 102-141, 146-153, 179-230).  Enums, maps and classes
    with their own converters have no check and always pass. *)
Fixpoint isNoNum (t : ty) (v : jval) {struct t} : bool :=
  match t with
  | TyBool => match v with JBln _ => true | _ => false end
  | TyInt _ | TyReal => is_num v
  | TyStr => match v with JStr _ => true | _ => false end
  | TyNull => match v with JNll => true | _ => false end
  | TyBits n => match v with JStr s => (length s =? n)%nat | _ => false end
  | TyPair a b => match v with JArr [x; y] => isNoNum a x && isNoNum b y | _ => false end
  | TyTuple ts =>
    match v with
    | JArr l => (length l =? length ts)%nat && (fix all (ts : list ty) (l : list jval) {struct ts} : bool :=
        match ts, l with t :: ts, x :: l => isNoNum t x && all ts l | _, _ => true end) ts l
    | _ => false
    end
  | TyVec t => match v with JArr l => forallb (isNoNum t) l | _ => false end
  | TyVal | TyEnum _ | TyMap _ _ | TyStructArr _ | TyStructObj _ => true
  end.
(** [is<T>] (Chk.hpp:73-100, 117-120); None where it does not compile. *)
Definition is_ (t : ty) (v : jval) : option bool :=
  match t with
  | TyInt KLong => Some (match v with JNum (NS _) => true | _ => false end)
  | TyInt KULong => Some (match v with JNum (NU _) => true | _ => false end)
  | TyReal => Some (match v with JNum (NR _) => true | _ => false end)
  | TyInt _ => None
  | _ => Some (isNoNum t v)
  end.

(** ** From JSON *)
(** Num::as: NumHelper.hpp:31-34. *)
Definition num_as (k : ikind) (n : num) : outcome Z :=
  let! z := if k_signed k then getIntS n else getIntU n in Ok (k_wrap k z).
(** What [T result;] starts with.  Scalars are uninitialised in C++ but always overwritten. *)
Fixpoint fresh (t : ty) : cv :=
  match t with
  | TyBool => VBool false | TyInt _ | TyEnum _ => VInt 0 | TyReal => VReal (S754_zero false) | TyStr => VStr []
  | TyNull => VNull | TyVal => VJson JNll | TyBits n => VBits (repeat false n) | TyPair a b => VPair (fresh a) (fresh b)
  | TyTuple ts | TyStructArr ts => VTup (map fresh ts) | TyVec _ => VVec [] | TyMap _ _ => VMap []
  | TyStructObj fs => VTup (map (fun f => fresh (snd f)) fs)
  end.
(** Equality of map keys. *)
Fixpoint key_eqb (a b : cv) : bool :=
  match a, b with
  | VBool x, VBool y => Bool.eqb x y
  | VInt x, VInt y => x =? y
  | VStr x, VStr y => bytes_eqb x y
  | VPair x y, VPair u v => key_eqb x u && key_eqb y v
  | _, _ => false
  end.
(** [mX[k] = v].  Entries keep their place and new ones come last; the order of real maps is not modelled. *)
Fixpoint map_set (k v : cv) (m : list (cv * cv)) : list (cv * cv) :=
  match m with [] => [(k, v)] | (j, w) :: m => if key_eqb j k then (k, v) :: m else (j, w) :: map_set k v m end.
Fixpoint map_get (k : cv) (m : list (cv * cv)) : option cv :=
  match m with [] => None | (j, w) :: m => if key_eqb j k then Some w else map_get k m end.
(** std::bitset from a string: at most the first n characters, the last of them being bit 0. *)
Definition bits_of (n : nat) (s : bytes) : outcome (list bool) :=
  let s := firstn n s in
  if forallb (fun c => Ascii.eqb c "0" || Ascii.eqb c "1") s
  then Ok (repeat false (n - length s) ++ map (fun c => Ascii.eqb c "1") s) else Throw "invalid_argument"%string.
Definition lookup (k : bytes) (o : list (bytes * jval)) : option jval :=
  match find (fun p => bytes_eqb (fst p) k) o with Some (_, v) => Some v | None => None end.
(** [extr] / Cnv::fromVal into a target holding [old].  A failed assertion or a getter used on the wrong kind is UB.
    Inner values are obtained with [as] (Val.inl:33-50: assert isNoNum, then AsHelper.hpp:22-33), except for members of
    macro classes, which are extracted in place. *)
Fixpoint extr (t : ty) (v : jval) (old : cv) {struct t} : outcome cv :=
  match t with
  | TyBool => match v with JBln x => Ok (VBool x) | _ => UB end
  | TyInt k => match v with JNum n => let! z := num_as k n in Ok (VInt z) | _ => UB end
  | TyEnum k => match v with JNum n => let! z := num_as k n in Ok (VInt z) | _ => UB end        (* 117-120 *)
  | TyReal => match v with JNum n => Ok (VReal (getReal n)) | _ => UB end
  | TyStr => match v with JStr s => Ok (VStr s) | _ => UB end
  | TyNull => match v with JNll => Ok VNull | _ => UB end
  | TyVal => Ok (VJson v)
  | TyBits n => match v with JStr s => let! l := bits_of n s in Ok (VBits l) | _ => UB end      (* 285-289 *)
  | TyPair a b =>                                                                               (* 160-165 *)
    match v with
    | JArr (x :: y :: _) =>
      let! c := if isNoNum a x then extr a x (fresh a) else UB in
      let! d := if isNoNum b y then extr b y (fresh b) else UB in Ok (VPair c d)
    | _ => UB
    end
  | TyTuple ts =>                                                                               (* 182-194 *)
    match v with
    | JArr l =>
      let! cs := (fix all (ts : list ty) (l : list jval) {struct ts} : outcome (list cv) :=
        match ts with
        | [] => Ok []
        | t :: ts => match l with [] => UB | x :: l =>
          let! c := if isNoNum t x then extr t x (fresh t) else UB in let! cs := all ts l in Ok (c :: cs) end
        end) ts l in Ok (VTup cs)
    | _ => UB
    end
  | TyVec t =>                                                                                  (* 212-221 *)
    match v with
    | JArr l =>
      let! cs := (fix all (l : list jval) : outcome (list cv) :=
        match l with
        | [] => Ok []
        | x :: l => let! c := if isNoNum t x then extr t x (fresh t) else UB in let! cs := all l in Ok (c :: cs)
        end) l in Ok (VVec cs)
    | _ => UB
    end
  | TyMap a b =>                                                                                (* 239-247 *)
    match v with
    | JArr l =>
      let! m := (fix all (l : list jval) (m : list (cv * cv)) : outcome (list (cv * cv)) :=
        match l with
        | [] => Ok m
        | JArr [x; y] :: l =>
          if isNoNum a x && isNoNum b y
          then let! c := extr a x (fresh a) in let! d := extr b y (fresh b) in all l (map_set c d m) else UB
        | _ :: _ => UB
        end) l (match old with VMap m => m | _ => [] end) in Ok (VMap m)
    | _ => Ok old
    end
  | TyStructArr ts =>                                                                           (* CnvFuncs.hpp:32-46 *)
    match v with
    | JArr l =>
      let! cs := (fix all (ts : list ty) (l : list jval) (old : list cv) {struct ts} : outcome (list cv) :=
        match ts with
        | [] => Ok []
        | t :: ts => match l with [] => UB | x :: l =>
          let! c := if isNoNum t x then extr t x (hd (fresh t) old) else UB in let! cs := all ts l (tl old) in Ok (c :: cs) end
        end) ts l (match old with VTup cs => cs | _ => [] end) in Ok (VTup cs)
    | _ => UB
    end
  | TyStructObj fs =>                                                                           (* CnvFuncs.hpp:60-74 *)
    match v with
    | JObj o =>
      let! cs := (fix all (fs : list (bytes * ty)) (old : list cv) {struct fs} : outcome (list cv) :=
        match fs with
        | [] => Ok []
        | (n, t) :: fs => match lookup n o with None => UB | Some x =>
          let! c := extr t x (hd (fresh t) old) in let! cs := all fs (tl old) in Ok (c :: cs) end
        end) fs (match old with VTup cs => cs | _ => [] end) in Ok (VTup cs)
    | _ => UB
    end
  end.
(** [v.as<T>()]: Val.inl:33-50. *)
Definition as_ (t : ty) (v : jval) : outcome cv := if isNoNum t v then extr t v (fresh t) else UB.
(** getExtr, getArch: CnvFuncs.hpp:92-104. *)
Definition getExtr (t : ty) (v : jval) : outcome cv := extr t v (fresh t).
Definition getArch (t : ty) (c : cv) : jval := toVal t c.

(** ** C arrays, usable only as targets of extr *)
(** T[n]: Cnv.hpp:251-272, Chk.hpp:213-221. *)
Definition toVal_array (t : ty) (cs : list cv) : jval := JArr (map (toVal t) cs).
Definition is_array (n : nat) (t : ty) (v : jval) : bool :=
  match v with JArr l => (length l =? n)%nat && forallb (isNoNum t) l | _ => false end.
Fixpoint extr_array (n : nat) (t : ty) (l : list jval) : outcome (list cv) :=
  match n with
  | O => Ok []
  | S n => match l with [] => UB | x :: l => let! c := as_ t x in let! cs := extr_array n t l in Ok (c :: cs) end
  end.
Definition extr_carray (n : nat) (t : ty) (v : jval) : outcome (list cv) := match v with JArr l => extr_array n t l | _ => UB end.
(** char[n]: Cnv.hpp:125-136, Chk.hpp:159-166.  Writing takes the characters before the first NUL; reading copies n
    characters, where the one after the last is NUL and those beyond are out of bounds. *)
Fixpoint c_str (l : bytes) : outcome bytes :=
  match l with [] => UB | c :: l => if Ascii.eqb c nul then Ok [] else let! s := c_str l in Ok (c :: s) end.
Definition toVal_chars (l : bytes) : outcome jval := let! s := c_str l in Ok (JStr s).
Definition is_chars (n : nat) (v : jval) : bool := match v with JStr s => (length s =? n)%nat | _ => false end.
Fixpoint copy_chars (n i : nat) (s : bytes) : outcome bytes :=
  match n with O => Ok [] | S n => let! c := getC s i in let! r := copy_chars n (S i) s in Ok (c :: r) end.
Definition extr_chars (n : nat) (v : jval) : outcome bytes := match v with JStr s => copy_chars n 0 s | _ => UB end.
