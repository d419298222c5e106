(** Which values a C++ type has. *)
From Coq Require Import String Ascii ZArith NArith Arith Bool Lia List.
From Verif Require Import Common JsonNumModel JsonModel JsonCnvModel.
Import ListNotations.
Local Open Scope Z_scope.

(** Types usable as map keys. *)
Fixpoint key_type (t : ty) : Prop :=
  match t with TyBool | TyInt _ | TyEnum _ | TyStr => True | TyPair a b => key_type a /\ key_type b | _ => False end.
Fixpoint has_type (t : ty) (c : cv) {struct t} : Prop :=
  match t, c with
  | TyBool, VBool _ | TyReal, VReal _ | TyStr, VStr _ | TyNull, VNull | TyVal, VJson _ => True
  | TyInt k, VInt z | TyEnum k, VInt z => k_min k <= z <= k_max k
  | TyBits n, VBits l => length l = n
  | TyPair a b, VPair x y => has_type a x /\ has_type b y
  | TyTuple ts, VTup cs | TyStructArr ts, VTup cs =>
    (fix all (ts : list ty) (cs : list cv) {struct ts} : Prop :=
      match ts, cs with [], [] => True | t :: ts, c :: cs => has_type t c /\ all ts cs | _, _ => False end) ts cs
  | TyVec t, VVec cs => forall c, In c cs -> has_type t c
  | TyMap k v, VMap m => key_type k /\ NoDup (map fst m) /\ forall p, In p m -> has_type k (fst p) /\ has_type v (snd p)
  | TyStructObj fs, VTup cs => NoDup (map fst fs) /\
    (fix all (fs : list (bytes * ty)) (cs : list cv) {struct fs} : Prop :=
      match fs, cs with [], [] => True | (_, t) :: fs, c :: cs => has_type t c /\ all fs cs | _, _ => False end) fs cs
  | _, _ => False
  end.
(** Types whose extraction replaces whatever the target held: no map, not even as a member of a macro class. *)
Fixpoint replaces (t : ty) : Prop :=
  match t with
  | TyMap _ _ => False
  | TyStructArr ts => (fix all (ts : list ty) : Prop := match ts with [] => True | t :: ts => replaces t /\ all ts end) ts
  | TyStructObj fs => (fix all (fs : list (bytes * ty)) : Prop := match fs with [] => True | (_, t) :: fs => replaces t /\ all fs end) fs
  | _ => True
  end.
(** Types without reals and without raw JSON values. *)
Fixpoint exact_type (t : ty) : Prop :=
  match t with
  | TyReal | TyVal => False
  | TyPair a b | TyMap a b => exact_type a /\ exact_type b
  | TyVec t => exact_type t
  | TyTuple ts | TyStructArr ts => (fix all (ts : list ty) : Prop := match ts with [] => True | t :: ts => exact_type t /\ all ts end) ts
  | TyStructObj fs => (fix all (fs : list (bytes * ty)) : Prop := match fs with [] => True | (_, t) :: fs => exact_type t /\ all fs end) fs
  | _ => True
  end.
(** Which JSON values have the shape of a type: what a type check should let through. Enums, maps and classes with
    their own converters have no check. *)
Inductive fits : ty -> jval -> Prop :=
| fits_bool b : fits TyBool (JBln b)
| fits_int k n : fits (TyInt k) (JNum n)
| fits_real n : fits TyReal (JNum n)
| fits_str s : fits TyStr (JStr s)
| fits_null : fits TyNull JNll
| fits_bits s : fits (TyBits (length s)) (JStr s)
| fits_pair a b x y : fits a x -> fits b y -> fits (TyPair a b) (JArr [x; y])
| fits_tuple ts l : Forall2 fits ts l -> fits (TyTuple ts) (JArr l)
| fits_vec t l : Forall (fits t) l -> fits (TyVec t) (JArr l)
| fits_val j : fits TyVal j
| fits_enum k j : fits (TyEnum k) j
| fits_map k v j : fits (TyMap k v) j
| fits_sarr ts j : fits (TyStructArr ts) j
| fits_sobj fs j : fits (TyStructObj fs) j.
(** The number kind a strict check asks for, where the strict check differs. *)
Definition strict_kind (t : ty) (j : jval) : Prop :=
  match t with
  | TyInt KLong => exists z, j = JNum (NS z)
  | TyInt KULong => exists z, j = JNum (NU z)
  | TyReal => exists f, j = JNum (NR f)
  | _ => fits t j
  end.
