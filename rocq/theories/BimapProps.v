(** Properties C31, C32: bidirectional map. *)
From Coq Require Import String Arith Bool Lia List.
From Verif Require Import Common VecSpec BimapModel BimapSpec BimapProofs.
Import ListNotations.

(** C31: a history that violates no precondition leaves exactly the pairs the specification says, in
    insertion order, one-to-one in both directions, and every query answers accordingly; a violated
    precondition (duplicate emplace, erase of an absent key) is UB. *)
Theorem C31_bimap : forall T1 T2 (lt1 eq1 : T1 -> T1 -> bool) (lt2 eq2 : T2 -> T2 -> bool),
  strict_total lt1 eq1 -> strict_total lt2 eq2 ->
  forall h,
  match spec_run eq1 eq2 [] h with
  | None => bm_run lt1 lt2 empty_bimap h = UB
  | Some l => exists b, bm_run lt1 lt2 empty_bimap h = Ok b /\ pairs b = l /\ size b = length l /\
     NoDup (map fst l) /\ NoDup (map snd l) /\
     (forall x y, at1 lt1 b x = Ok y <-> In (x, y) l) /\
     (forall x y, at2 lt2 b y = Ok x <-> In (x, y) l) /\
     (forall x, at1 lt1 b x = Throw "out_of_range" <-> ~ In x (map fst l)) /\
     (forall y, at2 lt2 b y = Throw "out_of_range" <-> ~ In y (map snd l)) /\
     (forall x, has1 lt1 b x = Ok (existsb (fun p => eq1 (fst p) x) l) /\
        count1 lt1 b x = Ok (if existsb (fun p => eq1 (fst p) x) l then 1 else 0)) /\
     (forall y, has2 lt2 b y = Ok (existsb (fun p => eq2 (snd p) y) l) /\
        count2 lt2 b y = Ok (if existsb (fun p => eq2 (snd p) y) l then 1 else 0))
  end.
Proof. exact (fun T1 T2 lt1 eq1 lt2 eq2 => @bimap_spec T1 T2 lt1 eq1 lt2 eq2). Qed.
Print Assumptions C31_bimap.
Example C31_ex : exists b, bm_run Nat.ltb Nat.ltb empty_bimap
  [Emplace 1 10; Emplace 3 30; Emplace 2 40; Erase2 30; Emplace 5 30; Erase1 1] = Ok b /\ pairs b = [(2, 40); (5, 30)]
  /\ set1 b = [2; 3] /\ set2 b = [3; 2].
Proof. eexists. split; [vm_compute; reflexivity|]. vm_compute. auto. Qed.

(** C32: the bracket operator. *)
Theorem C32_bracket : forall T1 T2 (lt1 eq1 : T1 -> T1 -> bool) (lt2 eq2 : T2 -> T2 -> bool),
  strict_total lt1 eq1 -> strict_total lt2 eq2 -> forall (d2 : T2) h l b k,
  spec_run eq1 eq2 [] h = Some l -> bm_run lt1 lt2 empty_bimap h = Ok b ->
  (forall y nd, In (k, y) l -> exists i, bracket1 lt1 lt2 d2 nd b k = Ok (b, i) /\ deref b i = Some (k, y)) /\
  (~ In k (map fst l) -> ~ In d2 (map snd l) ->
     exists b' i, bracket1 lt1 lt2 d2 false b k = Ok (b', i) /\ deref b' i = Some (k, d2) /\ pairs b' = l ++ [(k, d2)]) /\
  (~ In k (map fst l) -> In d2 (map snd l) -> bracket1 lt1 lt2 d2 false b k = UB).
Proof. exact (fun T1 T2 lt1 eq1 lt2 eq2 => @bracket_spec T1 T2 lt1 eq1 lt2 eq2). Qed.
Print Assumptions C32_bracket.

(** C32: without assertions, reading an absent key when the default partner (0) is taken leaves a
    bimap whose two directions disagree. *)
Theorem C32_bracket_collision_refuted : exists b b' i,
  bm_run Nat.ltb Nat.ltb empty_bimap [Emplace 7 0] = Ok b /\
  bracket1 Nat.ltb Nat.ltb 0 true b 8 = Ok (b', i) /\
  pairs b' = [(7, 0); (8, 0)] /\ at1 Nat.ltb b' 8 = Ok 0 /\ at2 Nat.ltb b' 0 = Ok 7.
Proof. eexists _, _, _. split; [vm_compute; reflexivity|]. split; [vm_compute; reflexivity|]. vm_compute. auto. Qed.
Print Assumptions C32_bracket_collision_refuted.

(** C32: assigning through the returned reference breaks the order of the other index, so a pair that
    is there is no longer found. *)
Theorem C32_reference_assignment_refuted : exists b i,
  bm_run Nat.ltb Nat.ltb empty_bimap [Emplace 1 10; Emplace 2 20] = Ok b /\
  bracket1 Nat.ltb Nat.ltb 0 false b 1 = Ok (b, i) /\
  In (2, 20) (pairs (write2 b i 30)) /\ has2 Nat.ltb (write2 b i 30) 20 = Ok false /\
  map (deref (write2 b i 30)) (set2 (write2 b i 30)) = [Some (1, 30); Some (2, 20)].
Proof. eexists _, _. split; [vm_compute; reflexivity|]. split; [vm_compute; reflexivity|]. vm_compute. auto. Qed.
Print Assumptions C32_reference_assignment_refuted.
