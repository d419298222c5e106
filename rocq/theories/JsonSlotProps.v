(** C58: JSON values own their contents. *)
From Coq Require Import String Ascii ZArith NArith Arith Bool Lia List Permutation.
From Verif Require Import Common JsonNumModel JsonModel JsonSlotModel JsonSlotSpec JsonSlotProofs.
Import ListNotations.

(** Every history of assignments, insertions and scope exits that does not meet undefined behaviour keeps tags and
    contents in agreement; each object constructed is alive once, or was destroyed once. *)
Theorem C58_histories : forall names ops st, run (start names) ops = Ok st ->
  (forall p, In p (vars st) -> matches (snd p)) /\ Permutation (gone st ++ live_all (vars st)) (seq 0 (next st)).
Proof. exact histories. Qed.
Print Assumptions C58_histories.

(** Once all variables have left their scope, everything constructed has been destroyed exactly once. *)
Theorem C58_no_leak : forall names ops st, run (start names) ops = Ok st ->
  exists st', run st (map Renew (seq 0 (length names))) = Ok st' /\ Permutation (gone st') (seq 0 (next st')).
Proof. exact no_leak. Qed.
Print Assumptions C58_no_leak.

(** Copying between places neither of which contains the other never fails; nothing else changes. *)
Theorem C58_copy : forall st d s x y, sound st -> get d (vars st) = Some x -> get s (vars st) = Some y -> apart d s ->
  exists st', step st (Copy d s) = Ok st' /\ value_at d st' = Some (value y) /\ forall q, apart d q -> get q (vars st') = get q (vars st).
Proof. exact copy_effect. Qed.
Print Assumptions C58_copy.

(** Moving: the source keeps its kind and is left empty. *)
Theorem C58_move : forall st d s x y, sound st -> get d (vars st) = Some x -> get s (vars st) = Some y -> apart d s ->
  exists st', step st (Move d s) = Ok st' /\ value_at d st' = Some (value y) /\ value_at s st' = Some (emptied (value y)) /\
    forall q, apart d q -> apart s q -> get q (vars st') = get q (vars st).
Proof. exact move_effect. Qed.
Print Assumptions C58_move.

(** Assigning a string, number, flag, null or empty container replaces whatever was there, of any kind. *)
Theorem C58_set : forall st d v x, sound st -> get d (vars st) = Some x ->
  exists st', step st (Set_ d v) = Ok st' /\ value_at d st' = Some (plain_jval v) /\ forall q, apart d q -> get q (vars st') = get q (vars st).
Proof. exact set_effect. Qed.
Print Assumptions C58_set.

(** Assigning a map, bit set, enumerator or macro class works onto null... *)
Theorem C58_set_via_null : forall st d v x, sound st -> get d (vars st) = Some x -> value x = JNll ->
  exists st', step st (SetVia d v) = Ok st' /\ value_at d st' = Some (plain_jval v) /\ forall q, apart d q -> get q (vars st') = get q (vars st).
Proof. exact via_null. Qed.
Print Assumptions C58_set_via_null.

(** ...but onto anything else destroys the old content twice. *)
Theorem C58_set_via_refuted : forall st d v x, sound st -> get d (vars st) = Some x -> value x <> JNll -> step st (SetVia d v) = UB.
Proof. exact via_ub. Qed.
Print Assumptions C58_set_via_refuted.

(** Assigning a non-null value to itself, or one of its own elements to it, uses destroyed storage. *)
Theorem C58_self_refuted : forall st d r x, sound st -> get d (vars st) = Some x -> value x <> JNll ->
  step st (Copy d (d ++ r)) = UB /\ step st (Move d (d ++ r)) = UB.
Proof. exact overlap_ub. Qed.
Print Assumptions C58_self_refuted.

(** Two variables: an array holding a string is moved into an element of an object, then copied back out. *)
Definition program : list op :=
  [ Set_ [0] (PEmpty false); Append [0]; Set_ [0; 0] (PLeaf (LStr (lit "hi"))); Set_ [1] (PEmpty true); Touch [1] 0 (lit "k");
    Move [1; 0] [0]; Copy [0] [1; 0; 0] ].
Example ex_program : exists st, run (start [lit "a"; lit "b"]) program = Ok st /\
  value_at [0] st = Some (JStr (lit "hi")) /\ value_at [1] st = Some (JObj [(lit "k", JArr [JStr (lit "hi")])]) /\
  gone st = [0] /\ live_all (vars st) = [4; 2; 3; 1].
Proof. eexists. split; [vm_compute; reflexivity|]. vm_compute. repeat split. Qed.
Example ex_child : (let st := run (start [lit "a"; lit "b"]) program in obind st (fun st => step st (Copy [1] [1; 0]))) = UB.
Proof. vm_compute. reflexivity. Qed.
Example ex_via : (let st := run (start [lit "a"; lit "b"]) program in obind st (fun st => step st (SetVia [1] (PEmpty true)))) = UB.
Proof. vm_compute. reflexivity. Qed.
