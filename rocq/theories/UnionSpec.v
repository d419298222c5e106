(** How a union is meant to be used and what it then does. *)
From Coq Require Import String Ascii ZArith NArith Arith Bool List.
From Verif Require Import Common UnionModel.
Import ListNotations.
Local Open Scope Z_scope.

(** [cur] is the type and value held. Held objects are accessed with their own type and are destroyed
    before the next one is constructed and before the end. *)
Fixpoint disciplined (cur : option (Z * Z)) (os : list uop) : bool :=
  match os, cur with
  | [], None => true
  | Init T (inl v) :: os, None => disciplined (Some (T, v)) os
  | Get T :: os, Some (T', v) => (T =? T') && disciplined cur os
  | Set_ T v :: os, Some (T', _) => (T =? T') && disciplined (Some (T, v)) os
  | Take T w :: os, Some (T', _) => (T =? T') && disciplined (Some (T, w)) os
  | Deinit T :: os, Some (T', _) => (T =? T') && disciplined None os
  | _, _ => false
  end.
(** What the accesses see: the value given last. *)
Fixpoint answers (cur : Z) (os : list uop) : list seen :=
  match os with
  | [] => []
  | Init _ (inl v) :: os => Nothing :: answers v os
  | Init _ (inr m) :: os => Raised m :: answers cur os
  | Get _ :: os => Value cur :: answers cur os
  | Set_ _ v :: os => Nothing :: answers v os
  | Take _ w :: os => Value cur :: answers w os
  | Deinit _ :: os => Nothing :: answers cur os
  end.
Definition inits (os : list uop) : nat := length (filter (fun o => match o with Init _ _ => true | _ => false end) os).
(** Objects made and destroyed one after the other, each once. *)
Definition in_turn (n : nat) : list event := flat_map (fun i => [Made i; Gone i]) (seq 0 n).
Definition type_of (o : uop) : Z := match o with Init T _ | Get T | Set_ T _ | Take T _ | Deinit T => T end.
Definition no_throw (o : uop) : bool := match o with Init _ (inr _) => false | _ => true end.

(** The last value stored and its type. *)
Fixpoint pod_answers (cur : option (Z * Z)) (os : list pop) : option (list seen) :=
  match os with
  | [] => Some []
  | PInit T v :: os => pod_answers (Some (T, v)) os
  | PGet T :: os =>
      match cur with
      | Some (T', v) => if T =? T' then option_map (cons (Value v)) (pod_answers cur os) else None
      | None => None
      end
  | PSet T v :: os =>
      match cur with Some (T', _) => if T =? T' then pod_answers (Some (T, v)) os else None | None => None end
  end.
Definition pod_type (o : pop) : Z := match o with PInit T _ | PGet T | PSet T _ => T end.
