(** Model of programs over several VecMaps that are copied, moved and assigned (Container/Inc/VecMap.hpp:59-81), and of
    [m[a] = n[b]], where both sides are references into vectors (90-96).  A moved-from vector, also one moved to itself, is empty
    (libstdc++).  Sizes are not bounded. *)
From Coq Require Import String Arith Bool Lia List.
From Verif Require Import Common VecModel.
Import ListNotations.
Local Notation "'let!' x := e 'in' f" := (obind e (fun x => f)) (at level 200, x pattern, e at level 100, f at level 200, right associativity).

Section WORLD.
Context {K V : Type} (ltb eqb : K -> K -> bool) (dflt : V).
(** Maps by name; None: no such object. *)
Definition vworld := nat -> option (list (K * V)).
Definition vset (w : vworld) (i : nat) (d : option (list (K * V))) : vworld := fun j => if j =? i then d else w j.
Inductive vcmd :=
| VNew (i : nat)                      (* VecMap i; *)
| VCopy (i j : nat)                   (* VecMap i{j}; VecMap.hpp:60-62 *)
| VMove (i j : nat)                   (* VecMap i{std::move(j)}; 63-65 *)
| VCopyTo (i j : nat)                 (* i = j; 72-76 *)
| VMoveTo (i j : nat)                 (* i = std::move(j); 77-81 *)
| VDo (i : nat) (o : vm_op K V)
| VLink (i : nat) (a : K) (j : nat) (b : K) (right_first realloc : bool)   (* i[a] = j[b]; *)
| VEnd (i : nat).                     (* the end of i's life *)
(** [m[a] = m[b]] in one map.  The two subscripts are evaluated in either order; an insertion by the second one invalidates
    the reference obtained from the first, unless the vector is not reallocated and the insertion is behind it. *)
Definition link (d : list (K * V)) (a b : K) (right_first realloc : bool) : outcome (list (K * V)) :=
  let! (d1, i) := vm_bracket ltb eqb dflt d (if right_first then b else a) in
  let! (d2, j) := vm_bracket ltb eqb dflt d1 (if right_first then a else b) in
  if (length d2 =? length d1) || (negb realloc && (i <? j)) then
    let src := if right_first then i else j in
    let dst := if right_first then j else i in
    match nth_error d2 src, nth_error d2 dst with Some p, Some q => Ok (set_at dst (fst q, snd p) d2) | _, _ => UB end
  else UB.
Definition vstep (w : vworld) (c : vcmd) : outcome vworld :=
  match c with
  | VNew i => match w i with None => Ok (vset w i (Some [])) | _ => UB end
  | VCopy i j => match w i, w j with None, Some d => Ok (vset w i (Some d)) | _, _ => UB end
  | VMove i j => match w i, w j with None, Some d => Ok (vset (vset w i (Some d)) j (Some [])) | _, _ => UB end
  | VCopyTo i j => match w i, w j with Some _, Some d => Ok (vset w i (Some d)) | _, _ => UB end
  | VMoveTo i j => match w i, w j with Some _, Some d => Ok (vset (vset w i (Some d)) j (Some [])) | _, _ => UB end
  | VDo i o => match w i with Some d => let! d := vm_step ltb eqb dflt d o in Ok (vset w i (Some d)) | None => UB end
  | VLink i a j b rf re =>
    match w i, w j with
    | Some d, Some e =>
      if i =? j then let! d := link d a b rf re in Ok (vset w i (Some d))
      else
        let! (e, q) := vm_bracket ltb eqb dflt e b in
        match nth_error e q with
        | Some p => let! d := vm_step ltb eqb dflt d (Assign a (snd p)) in Ok (vset (vset w j (Some e)) i (Some d))
        | None => UB
        end
    | _, _ => UB
    end
  | VEnd i => match w i with Some _ => Ok (vset w i None) | None => UB end
  end.
Fixpoint vrun (w : vworld) (p : list vcmd) : outcome vworld :=
  match p with [] => Ok w | c :: p => let! w := vstep w c in vrun w p end.
Definition vnone : vworld := fun _ => None.
End WORLD.
Arguments vworld : clear implicits.
Arguments vcmd : clear implicits.
