(** C109: recycled vectors, their move constructor and their destruction. *)
From Coq Require Import String Ascii ZArith NArith Arith Bool Lia List Permutation.
From Verif Require Import Common MemModel MemSpec RecVecModel RecVecSpec RecVecHistProofs.
Import ListNotations.

(** Any history of constructing, filling, resetting, clearing, moving and destroying any number of
    vectors is defined exactly when the plain lists allow it: the vectors then show those lists, objects
    are made and destroyed as there, nothing is destroyed or freed twice, and nothing is freed that was
    not allocated. *)
Theorem C109_exact : forall kind base ops,
  match plain_run kind ops plain0 with
  | Some s => exists w, rv_run kind base ops empty_world = Ok w /\ (forall v, shows w v = contents s v)
      /\ ctors (wtrace w) = seq 0 (born s) /\ dtors (wtrace w) = died s
      /\ NoDup (dtors (wtrace w)) /\ incl (dtors (wtrace w)) (ctors (wtrace w))
      /\ NoDup (allocs (wtrace w)) /\ NoDup (deallocs (wtrace w)) /\ incl (deallocs (wtrace w)) (allocs (wtrace w))
  | None => rv_run kind base ops empty_world = UB
  end.
Proof. exact run_exact. Qed.
Print Assumptions C109_exact.

(** Once every vector is destroyed, every object has been destroyed once and every block freed once. *)
Theorem C109_all_gone : forall kind base ops s, plain_run kind ops plain0 = Some s -> (forall v, contents s v = None) ->
  exists w, rv_run kind base ops empty_world = Ok w
    /\ Permutation (dtors (wtrace w)) (ctors (wtrace w)) /\ Permutation (deallocs (wtrace w)) (allocs (wtrace w)).
Proof. exact all_gone. Qed.
Print Assumptions C109_all_gone.

(** With chunks in a map, vectors may be moved in any way; with chunks inside, they are safe unmoved.
    Only using a destroyed vector or an index outside it is then undefined. *)
Theorem C109_at_home : forall kind base ops z, no_give ops -> (kind = InNodes \/ no_move ops) -> size_run ops [] = Some z ->
  exists s w, plain_run kind ops plain0 = Some s /\ rv_run kind base ops empty_world = Ok w
    /\ (forall v, shows w v = contents s v) /\ (forall v, option_map (@length _) (shows w v) = size_of z v).
Proof. exact stays. Qed.
Print Assumptions C109_at_home.

(** With chunks inside: whatever was done before, moving a vector that holds an object, destroying the
    source and then the new vector is undefined. *)
Theorem C109_moved_from : forall base ops s v l id, no_give ops -> no_move ops ->
  plain_run Inside ops plain0 = Some s -> contents s v = Some l -> In (Some id) l ->
  rv_run Inside base (ops ++ [VMove v; VDestroy v; VDestroy (length (plain s))]) empty_world = UB.
Proof. exact moved_from. Qed.
Print Assumptions C109_moved_from.

Definition int8 : ty := {| size := 8; align := 8 |}.
Definition big16 : ty := {| size := 16; align := 8 |}.

(** Moving is therefore not safe in general: a history using only vectors and indices that exist. *)
Theorem C109_moved_refuted : exists base ops z w, size_run ops [] = Some z
  /\ rv_run InNodes base ops empty_world = Ok w /\ deallocs (wtrace w) = [0] /\ dtors (wtrace w) = [0]
  /\ rv_run Inside base ops empty_world = UB.
Proof.
  eexists int8, [VNew; VCreate 0 int8; VMove 0; VDestroy 0; VDestroy 1], [None; None], _.
  split; [reflexivity|]. split; [vm_compute; reflexivity|]. split; [reflexivity|]. split; [reflexivity|]. vm_compute; reflexivity.
Qed.
Print Assumptions C109_moved_refuted.

(** Assigning one recycler to another frees nothing: with chunks inside, the blocks the target had
    kept for reuse are lost, here when it is assigned a new recycler. *)
Theorem C109_assign_refuted : exists base ops m p d e m1 m2,
  rec_run false base ops (empty_mem, []) = Ok (m, p) /\ p = [None] /\ allocs (trace m) = [0]
  /\ assign_table (chunks m) [] = (d, e)
  /\ destroy_storage {| heap := heap m; chunks := d; trace := trace m |} = Ok m1
  /\ destroy_storage {| heap := heap m1; chunks := e; trace := trace m1 |} = Ok m2
  /\ deallocs (trace m2) = [].
Proof.
  eexists int8, [RCreate int8; RDrop 0], _, _, _, _, _, _.
  split; [vm_compute; reflexivity|]. split; [reflexivity|]. split; [reflexivity|]. split; [reflexivity|].
  split; [vm_compute; reflexivity|]. split; [vm_compute; reflexivity|]. reflexivity.
Qed.
Print Assumptions C109_assign_refuted.

(** Cases. *)
Definition tour : list vop :=
  [VNew; VCreate 0 int8; VCreate 0 big16; VCreateAt 0 1 int8; VMove 0; VCreate 0 int8; VReset 1 0; VCreate 1 int8;
   VGive 1 1 0 0; VDestroy 1; VDestroy 0].
Example tour_inside : exists w, rv_run Inside int8 tour empty_world = Ok w
  /\ dtors (wtrace w) = [0; 3; 1; 4; 2] /\ allocs (wtrace w) = [0; 1; 2; 3; 4] /\ deallocs (wtrace w) = [4; 2; 3; 0; 1].
Proof. eexists. split; [vm_compute; reflexivity|]. repeat split. Qed.
Example tour_nodes : exists w, rv_run InNodes int8 (firstn 9 tour) empty_world = Ok w
  /\ shows w 0 = Some [Some 2] /\ shows w 1 = Some [None; None; Some 1; Some 4] /\ allocs (wtrace w) = [0; 1; 2; 3].
Proof. eexists. split; [vm_compute; reflexivity|]. repeat split. Qed.
Example tour_sizes : size_run (firstn 8 tour) [] = Some [Some 1; Some 4].
Proof. reflexivity. Qed.
Example tour_plain : exists s, plain_run Inside tour plain0 = Some s /\ (forall v, contents s v = None).
Proof. eexists. split; [vm_compute; reflexivity|]. intros [|[|v]]; try reflexivity. destruct v; reflexivity. Qed.
Example before_move : exists s, plain_run Inside (firstn 4 tour) plain0 = Some s
  /\ contents s 0 = Some [Some 0; Some 2; Some 1] /\ no_give (firstn 4 tour) /\ no_move (firstn 4 tour).
Proof.
  eexists. split; [vm_compute; reflexivity|]. split; [reflexivity|].
  split; [intros v i v2 j H|intros v H]; cbn in H; intuition discriminate.
Qed.
(** Destroying the new vector first is fine, and so is an empty one. *)
Example target_first : exists w, rv_run Inside int8 [VNew; VCreate 0 int8; VMove 0; VDestroy 1; VDestroy 0] empty_world = Ok w
  /\ deallocs (wtrace w) = [0].
Proof. eexists. split; [vm_compute; reflexivity|]. reflexivity. Qed.
