(** C45: timeline managers. *)
From Coq Require Import String ZArith NArith Arith Bool Lia List Permutation.
From Verif Require Import Common MemModel MemSpec TimelineModel TimelineSpec TimelineMgrModel TimelineMgrSpec TimelineMgrProofs.
Import ListNotations.
Local Open Scope nat_scope.

(** C45. Any history of creations, updates, clears and calls on timelines still present behaves as the
    specification: each update first destroys the timelines that finished during the previous one, then
    updates every remaining timeline exactly once; references to the timelines present stay valid; each
    timeline is destroyed at most once. *)
Theorem C45_manager : forall tty O pred fuel ops sp, tspec_run O pred fuel ops (tspec0 O) = Some sp ->
  (N.of_nat (length (contents sp)) < 4294967296)%N ->
  exists g refs, obind (tm_new O) (tm_run tty O pred fuel ops) = Ok {| ms := (g, refs); tls := contents sp |}
    /\ (forall k, In k (map fst (present sp)) -> exists p, nth_error refs k = Some p /\ object_at (mm g) p = Some k)
    /\ Permutation (dtors (trace (mm g))) (removed sp)
    /\ ctors (trace (mm g)) = seq 0 (length (contents sp))
    /\ Permutation (removed sp ++ map fst (present sp)) (seq 0 (length (contents sp))).
Proof. exact tm_correct. Qed.
Print Assumptions C45_manager.

Definition ex45 : list (tmop exact_wt) :=
  [TMCreate; TMCreate; TMOn 0 (OAppend (Do 7)); TMOn 1 (OAppend (Wait 5%Z)); TMOn 1 (OAppend (Do 8)); TMUpdate 3%Z;
   TMCreate; TMOn 2 (OAppend (Wait 100%Z)); TMUpdate 3%Z; TMUpdate 3%Z].
Definition tl_ty : ty := {| MemModel.size := 64; align := 8 |}.
(** Timeline 0 finishes in the first update and is gone after the second; timeline 1 finishes in the third. *)
Example C45_example :
  option_map (fun sp => (map log (contents sp), present sp, removed sp)) (tspec_run exact_wt (fun _ _ => true) 50 ex45 (tspec0 exact_wt))
  = Some ([[EFrame 3; EDo 7]; [EFrame 3; EFrame 3; EFrame 3; EDo 8]; [EFrame 3; EFrame 3]]%Z, [(1, true); (2, false)], [0]).
Proof. vm_compute. reflexivity. Qed.
Example C45_example_run :
  obind (tm_new exact_wt) (fun s => obind (tm_run tl_ty exact_wt (fun _ _ => true) 50 ex45 s) (fun s => Ok (map log (tls s), dtors (trace (mm (fst (ms s)))))))
  = Ok ([[EFrame 3; EDo 7]; [EFrame 3; EFrame 3; EFrame 3; EDo 8]; [EFrame 3; EFrame 3]]%Z, [0]).
Proof. vm_compute. reflexivity. Qed.

(** C45, refuted: "a running timeline is kept".  A timeline that finished and was then reset is unfinished
    when the manager is updated again, and destroyed all the same. *)
Theorem C45_restarted_refuted : exists s s',
  obind (tm_new exact_wt) (tm_run tl_ty exact_wt (fun _ _ => true) 50
    [TMCreate; TMOn 0 (OAppend (Wait 5%Z)); TMUpdate 5%Z; TMUpdate 1%Z; TMOn 0 OReset]) = Ok s
  /\ map finished (tls s) = [false] /\ dtors (trace (mm (fst (ms s)))) = []
  /\ tm_step tl_ty exact_wt (fun _ _ => true) 50 (TMUpdate 1%Z) s = Ok s'
  /\ dtors (trace (mm (fst (ms s')))) = [0].
Proof.
  eexists. eexists. split; [vm_compute; reflexivity|]. split; [reflexivity|]. split; [reflexivity|].
  split; [vm_compute; reflexivity|]. reflexivity.
Qed.
Print Assumptions C45_restarted_refuted.
(** C45: using a timeline after its destruction is undefined. *)
Theorem C45_dangling_refuted :
  obind (tm_new exact_wt) (tm_run tl_ty exact_wt (fun _ _ => true) 50
    [TMCreate; TMOn 0 (OAppend (Do 1)); TMUpdate 5%Z; TMUpdate 1%Z; TMOn 0 OReset]) = UB.
Proof. vm_compute. reflexivity. Qed.
Print Assumptions C45_dangling_refuted.
