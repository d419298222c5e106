(** C122: programs over several VecMaps that are copied, moved and assigned to each other's entries. *)
From Coq Require Import String Arith Bool List.
From Verif Require Import Common VecModel VecSpec VmWorldModel VmWorldSpec VmWorldProofs.
Import ListNotations.

(** Every program does exactly what it does over finite maps, and is undefined exactly where that is. *)
Theorem C122_programs : forall (K V : Type) (ltb eqb : K -> K -> bool) (dflt : V), strict_total ltb eqb ->
  forall p,
  match srun ltb eqb dflt (fun _ => None) p with
  | Some s => exists w, vrun ltb eqb dflt vnone p = Ok w /\ shows ltb w s
  | None => vrun ltb eqb dflt vnone p = UB
  end.
Proof. exact @programs. Qed.
Print Assumptions C122_programs.

(** Each map answers queries as its finite map does. *)
Theorem C122_queries : forall (K V : Type) (ltb eqb : K -> K -> bool) (dflt : V), strict_total ltb eqb ->
  forall p w s i f k, srun ltb eqb dflt (fun _ => None) p = Some s -> vrun ltb eqb dflt vnone p = Ok w -> s i = Some f ->
  exists d, w i = Some d /\
  vm_count ltb eqb d k = Ok (match f k with Some _ => 1 | None => 0 end) /\
  vm_at ltb eqb d k = match f k with Some v => Ok v | None => Throw "out_of_range"%string end /\
  vm_atOrDefault ltb eqb dflt d k = Ok (match f k with Some v => v | None => dflt end).
Proof. exact @queries. Qed.
Print Assumptions C122_queries.

(** [m[a] = m[b]]: defined if both keys are there, or if the right one is and the left subscript comes first; if the left key
    is missing and the right subscript comes first, undefined exactly if the vector is reallocated or [a] comes before [b]; if
    both are missing, undefined whenever the vector is reallocated. *)
Theorem C122_link : forall (K V : Type) (ltb eqb : K -> K -> bool) (dflt : V), strict_total ltb eqb ->
  forall p s i f a b w, srun ltb eqb dflt (fun _ => None) p = Some s -> s i = Some f -> vrun ltb eqb dflt vnone p = Ok w ->
  (forall rf re, f a <> None -> f b <> None -> exists w', vstep ltb eqb dflt w (VLink i a i b rf re) = Ok w') /\
  (forall re, f b <> None -> exists w', vstep ltb eqb dflt w (VLink i a i b false re) = Ok w') /\
  (forall re, f a = None -> f b <> None ->
     (vstep ltb eqb dflt w (VLink i a i b true re) = UB <-> re = true \/ ltb a b = true)) /\
  (forall rf, f a = None -> f b = None -> a <> b -> vstep ltb eqb dflt w (VLink i a i b rf true) = UB).
Proof. exact @links. Qed.
Print Assumptions C122_link.

(** Giving a new key the value of an existing one, fine with std::map, is undefined even if nothing is reallocated. *)
Theorem C122_link_refuted : exists a b v : nat,
  vrun Nat.ltb Nat.eqb 0 vnone [VNew 0; VDo 0 (Assign b v); VLink 0 a 0 b true false] = UB.
Proof. exists 1, 2, 7. vm_compute. reflexivity. Qed.
Print Assumptions C122_link_refuted.

(** Copies are independent; moved-from maps are empty and usable; a map assigned to itself keeps its entries. *)
Definition demo : list (vcmd nat nat) :=
  [VNew 0; VDo 0 (Assign 5 50); VDo 0 (Assign 3 30); VCopy 1 0; VDo 1 (Assign 4 40); VMove 2 0; VDo 0 (Touch 9);
   VCopyTo 1 1; VLink 1 6 1 5 true false; VLink 2 8 0 7 true true; VMoveTo 0 1; VEnd 1].
Example C122_example :
  match vrun Nat.ltb Nat.eqb 0 vnone demo with
  | Ok w => (w 0, w 1, w 2) = (Some [(3, 30); (4, 40); (5, 50); (6, 50)], None, Some [(3, 30); (5, 50); (8, 0)])
  | _ => False
  end.
Proof. vm_compute. reflexivity. Qed.
Example C122_example_link :
  match vrun Nat.ltb Nat.eqb 0 vnone [VNew 0; VDo 0 (Assign 2 7); VLink 0 1 0 2 false true] with
  | Ok w => w 0 = Some [(1, 7); (2, 7)]
  | _ => False
  end.
Proof. vm_compute. reflexivity. Qed.
