(** What a program that emplaces objects should leave behind. *)
From Coq Require Import Arith Bool List.
From Verif Require Import EmplModel.
Import ListNotations.

Section SPEC.
Context {K : Type} (keqb : K -> K -> bool).
(** The calls that complete, in the order they do (constructors before what they construct): the key, if any, and the type. *)
Fixpoint completed (c : call K) : list (option K * nat) * bool :=
  let all := fix all (l : list (call K)) : list (option K * nat) * bool :=
    match l with
    | [] => ([], true)
    | c :: l => let r := completed c in if snd r then (fst r ++ fst (all l), snd (all l)) else (fst r, false)
    end in
  match c with
  | EPush ty body th => let r := all body in if snd r && negb th then (fst r ++ [(None, ty)], true) else (fst r, false)
  | EPut k ty body th => let r := all body in if snd r && negb th then (fst r ++ [(Some k, ty)], true) else (fst r, false)
  end.
Definition history (l : list (call K)) : list (option K * nat) := flat_map (fun c => fst (completed c)) l.
(** Types pushed; the type first put under a key. *)
Definition pushed (h : list (option K * nat)) : list nat :=
  flat_map (fun e => match fst e with None => [snd e] | Some _ => [] end) h.
Fixpoint first_put (k : K) (h : list (option K * nat)) : option nat :=
  match h with
  | [] => None
  | (Some j, t) :: h => if keqb j k then Some t else first_put k h
  | (None, _) :: h => first_put k h
  end.
(** Object [a] exists, with type [t]. *)
Definition exists_as (s : own K) (a t : nat) : Prop := nth_error (heap s) a = Some (t, Alive).
Definition owned (s : own K) : list nat := vec s ++ map snd (mp s).
(** Every object that exists has one owner; every other object that was begun is destroyed; keys are distinct. *)
Definition tidy (s : own K) : Prop :=
  NoDup (owned s) /\ NoDup (map fst (mp s)) /\
  (forall a, In a (owned s) <-> exists t, exists_as s a t) /\
  (forall a t x, nth_error (heap s) a = Some (t, x) -> x = Alive \/ x = Dead).
(** Every key is used with one type. *)
Context (ty_of : K -> nat).
Fixpoint uses (c : call K) : Prop :=
  let all := fix all (l : list (call K)) : Prop := match l with [] => True | c :: l => uses c /\ all l end in
  match c with
  | EPush _ body _ => all body
  | EPut k ty body _ => ty = ty_of k /\ all body
  end.
End SPEC.
