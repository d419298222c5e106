(** What reading does to its source. *)
From Coq Require Import String Ascii ZArith NArith Arith Bool Lia List.
From Verif Require Import Common JsonNumModel JsonModel JsonCnvModel JsonShapeSpec.
Import ListNotations.

(** The members of every class have different names. *)
Fixpoint distinct (t : ty) : Prop :=
  match t with
  | TyPair a b | TyMap a b => distinct a /\ distinct b
  | TyTuple ts | TyStructArr ts => (fix all (ts : list ty) : Prop := match ts with [] => True | t :: ts => distinct t /\ all ts end) ts
  | TyStructObj fs => NoDup (map fst fs) /\
    (fix all (fs : list (bytes * ty)) : Prop := match fs with [] => True | (_, t) :: fs => distinct t /\ all fs end) fs
  | _ => True
  end.
(** [grown v v']: [v'] is [v] except that objects, at any depth, may have additional members, which are null. *)
Inductive grown : jval -> jval -> Prop :=
| grown_same v : grown v v
| grown_arr l l' : Forall2 grown l l' -> grown (JArr l) (JArr l')
| grown_obj o o' : (forall n x, member o n x -> exists x', member o' n x' /\ grown x x') ->
    (forall n x', missing o n -> member o' n x' -> x' = JNll) -> grown (JObj o) (JObj o').
(** [filled t v v']: [v'] is [v] with null for exactly those members that classes in [t] name and [v] lacks.  Vectors
    are read without being changed. *)
Fixpoint filled (t : ty) (v v' : jval) {struct t} : Prop :=
  match t with
  | TyPair a b => exists x y r x' y', v = JArr (x :: y :: r) /\ v' = JArr (x' :: y' :: r) /\ filled a x x' /\ filled b y y'
  | TyTuple ts | TyStructArr ts => (ts = [] /\ v' = v) \/ exists l l', v = JArr l /\ v' = JArr l' /\
    (fix all (ts : list ty) (l l' : list jval) {struct ts} : Prop :=
      match ts, l, l' with [], _, _ => l' = l | t :: ts, x :: l, x' :: l' => filled t x x' /\ all ts l l' | _, _, _ => False end) ts l l'
  | TyMap a b => ((forall l, v <> JArr l) /\ v' = v) \/ exists l l', v = JArr l /\ v' = JArr l' /\
    Forall2 (fun e e' => exists x y r x' y', e = JArr (x :: y :: r) /\ e' = JArr (x' :: y' :: r) /\ filled a x x' /\ filled b y y') l l'
  | TyStructObj fs => (fs = [] /\ v' = v) \/ exists o o', v = JObj o /\ v' = JObj o' /\
    (forall n x, ~ In n (map fst fs) -> (member o' n x <-> member o n x)) /\
    (fix all (fs : list (bytes * ty)) : Prop :=
      match fs with
      | [] => True
      | (n, t) :: fs => ((exists x x', member o n x /\ member o' n x' /\ filled t x x') \/ (missing o n /\ member o' n JNll)) /\ all fs
      end) fs
  | _ => v' = v
  end.
