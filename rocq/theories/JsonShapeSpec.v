(** Which JSON values can be read as a C++ type. *)
From Coq Require Import String Ascii ZArith NArith Arith Bool Lia List.
From Coq Require Import Floats.SpecFloat.
From Verif Require Import Common JsonNumModel JsonModel JsonCnvModel JsonCnvSpec.
Import ListNotations.
Local Open Scope Z_scope.

(** A number can be read as an integer if it is not a real beyond the 64-bit integers of that signedness, an infinity or a NaN. *)
Definition whole_part (m : positive) (e : Z) : Z := if 0 <=? e then Zpos m * 2 ^ e else Zpos m / 2 ^ (- e).
Definition int_readable (signed : bool) (n : num) : Prop :=
  match n with
  | NR (S754_finite s m e) => let z := if s then - whole_part m e else whole_part m e in
      if signed then - 2 ^ 63 <= z < 2 ^ 63 else 0 <= z < 2 ^ 64
  | NR (S754_zero _) => True
  | NR _ => False
  | _ => True
  end.
(** The member [n] of an object is [x], or is missing. *)
Definition member (o : list (bytes * jval)) (n : bytes) (x : jval) : Prop := exists o1 o2, o = o1 ++ (n, x) :: o2 /\ ~ In n (map fst o1).
Definition missing (o : list (bytes * jval)) (n : bytes) : Prop := ~ In n (map fst o).
(** [reads strict t v]: [v] can be read as [t].  In a strict build everything inside must also have exactly the shape of
    its type ([fits]), and no member may be missing; otherwise surplus elements are ignored and missing members are null. *)
Fixpoint reads (strict : bool) (t : ty) (v : jval) {struct t} : Prop :=
  match t with
  | TyBool => exists b, v = JBln b
  | TyInt k | TyEnum k => exists n, v = JNum n /\ int_readable (k_signed k) n
  | TyReal => exists n, v = JNum n
  | TyStr => exists s, v = JStr s
  | TyNull => v = JNll
  | TyVal => True
  | TyBits n => exists s, v = JStr s /\ forall c, In c (firstn n s) -> c = "0"%char \/ c = "1"%char
  | TyPair a b => exists x y r, v = JArr (x :: y :: r) /\ reads strict a x /\ reads strict b y /\ (strict = true -> fits a x /\ fits b y)
  | TyTuple ts | TyStructArr ts => ts = [] \/ exists l, v = JArr l /\
    (fix all (ts : list ty) (l : list jval) {struct ts} : Prop :=
      match ts, l with [], _ => True | t :: ts, x :: l => reads strict t x /\ (strict = true -> fits t x) /\ all ts l | _, _ => False end) ts l
  | TyVec t => exists l, v = JArr l /\ forall x, In x l -> reads strict t x /\ (strict = true -> fits t x)
  | TyMap a b => forall l, v = JArr l -> forall e, In e l -> exists x y r, e = JArr (x :: y :: r) /\ reads strict a x /\ reads strict b y /\
      (strict = true -> r = [] /\ fits a x /\ fits b y)
  | TyStructObj fs => fs = [] \/ exists o, v = JObj o /\
    (fix all (fs : list (bytes * ty)) {struct fs} : Prop :=
      match fs with
      | [] => True
      | (n, t) :: fs => ((exists x, member o n x /\ reads strict t x) \/ (missing o n /\ strict = false /\ reads strict t JNll)) /\ all fs
      end) fs
  end.
