(** Model of getEmplaceUPtr and getEmplaceUPtrMap (Core/Utils/Containers.hpp:361-412; castUp: Core/Common/Casts.hpp:22-29;
    make_unique: Core/Common/SmartPointers.hpp:18-26), on a vector and a map of owning pointers to objects of one base.
    Constructors may emplace into the same containers, and throw; destructors and comparing keys do nothing else, and memory
    does not run out.  The map is a list in the order of insertion; only what it holds matters.  Objects are numbered as
    their memory is allocated. *)
From Coq Require Import String Arith Bool Lia List.
From Verif Require Import Common.
Import ListNotations.
Local Notation "'let!' x := e 'in' f" := (obind e (fun x => f)) (at level 200, x pattern, e at level 100, f at level 200, right associativity).

(** What constructing an object of type [ty] does: the calls its constructor makes, and whether it throws then. *)
Inductive call (K : Type) : Type :=
| EPush (ty : nat) (body : list (call K)) (throws : bool)              (* getEmplaceUPtr<ty>(v, ...) *)
| EPut (k : K) (ty : nat) (body : list (call K)) (throws : bool).      (* getEmplaceUPtrMap<ty>(m, k, ...) *)
Arguments EPush {K}. Arguments EPut {K}.
Inductive life := Building | Alive | Dead.
Record own (K : Type) := Own { heap : list (nat * life); vec : list nat; mp : list (K * nat) }.
Arguments Own {K}. Arguments heap {K}. Arguments vec {K}. Arguments mp {K}.

Section EMPL.
Context {K : Type} (keqb : K -> K -> bool).
Context (isa : nat -> nat -> bool).   (* [isa u t]: [u] is [t] or derived from it *)
Definition set_life (a : nat) (x : life) (s : own K) : own K :=
  match nth_error (heap s) a with
  | Some (t, _) => Own (firstn a (heap s) ++ (t, x) :: skipn (S a) (heap s)) (vec s) (mp s)
  | None => s
  end.
Definition alloc (ty : nat) (s : own K) : own K := Own (heap s ++ [(ty, Building)]) (vec s) (mp s).
(** Casts.hpp:22-29: [static_cast] to a class the object is not of is undefined. *)
Definition cast_up (ty a : nat) (s : own K) : outcome (own K * option nat) :=
  match nth_error (heap s) a with Some (u, Alive) => if isa u ty then Ok (s, Some a) else UB | _ => UB end.
Fixpoint at_key (k : K) (m : list (K * nat)) : option nat :=
  match m with [] => None | (j, a) :: m => if keqb j k then Some a else at_key k m end.
(** The reference returned, or None if an exception left the call. *)
Fixpoint emplace (c : call K) (s : own K) {struct c} : outcome (own K * option nat) :=
  let ctor := fix all (l : list (call K)) (s : own K) {struct l} : outcome (own K * bool) :=
    match l with
    | [] => Ok (s, true)
    | c :: l => let! (s, r) := emplace c s in match r with Some _ => all l s | None => Ok (s, false) end
    end in
  match c with
  | EPush ty body th =>                                                   (* Containers.hpp:366-370 *)
    let a := length (heap s) in
    let! (s, ok) := ctor body (alloc ty s) in
    if ok && negb th then
      let s := set_life a Alive s in
      let s := Own (heap s) (vec s ++ [a]) (mp s) in
      cast_up ty (last (vec s) 0) s
    else Ok (set_life a Dead s, None)
  | EPut k ty body th =>                                                  (* 375-382 *)
    let a := length (heap s) in
    let! (s, ok) := ctor body (alloc ty s) in
    if ok && negb th then
      let s := set_life a Alive s in
      match at_key k (mp s) with
      | None => cast_up ty a (Own (heap s) (vec s) (mp s ++ [(k, a)]))
      | Some b => cast_up ty b (set_life a Dead s)                        (* the new object is destroyed *)
      end
    else Ok (set_life a Dead s, None)
  end.
(** A program makes calls and catches what they throw. *)
Fixpoint program (l : list (call K)) (s : own K) : outcome (own K * list (option nat)) :=
  match l with
  | [] => Ok (s, [])
  | c :: l => let! (s, r) := emplace c s in let! (s, rs) := program l s in Ok (s, r :: rs)
  end.
Definition nothing : own K := Own [] [] [].
End EMPL.
