(** C110: timelines that are moved. *)
From Coq Require Import String ZArith NArith Arith Bool Lia List.
From Verif Require Import Common TimelineModel TlMoveModel TlMoveProofs.
Import ListNotations.
Local Open Scope Z_scope.

(** Any history on the timeline moved to that comes back is the history of a timeline that was never moved; the old one
    keeps its members and has no commands. *)
Theorem C110_same : forall (O : wt_ops) pred fuel ops s w,
  run2 O pred fuel ops (move O s) = Ok w ->
  run O pred fuel ops s = Ok (new w) /\ old w = Some (set_cmds O [] s).
Proof. exact move_same. Qed.
Print Assumptions C110_same.

(** But an update never comes back if a moved command is current: right after the move, ... *)
Theorem C110_stuck : forall (O : wt_ops) pred fuel ft s, finished s = false -> 0 <= cidx s ->
  forall w, update2 O pred fuel ft (move O s) <> Ok w.
Proof. exact (fun O pred fuel ft s F P w E => move_stuck O pred fuel ft s F P (ex_intro _ w E)). Qed.
Print Assumptions C110_stuck.
(** ... and at any later time, whatever was added to the new timeline and done to the old one. *)
Theorem C110_stuck_later : forall (O : wt_ops) pred fuel ft n m o, finished n = false -> 0 <= cidx n ->
  nth (Z.to_nat (cidx n)) m false = false ->
  forall w, update2 O pred fuel ft {| new := n; mine := m; old := o |} <> Ok w.
Proof.
  exact (fun O pred fuel ft n m o F P N w E =>
    later_stuck O pred fuel ft {| new := n; mine := m; old := o |} F P N (ex_intro _ w E)).
Qed.
Print Assumptions C110_stuck_later.
(** It is undefined if the old timeline is gone or the command is an action, and goes on for ever for a condition. *)
Theorem C110_ways : forall (O : wt_ops) pred ft s c, finished s = false -> 0 <= cidx s ->
  nth_error (cmds s) (Z.to_nat (cidx s)) = Some c ->
  (forall fuel, update2 O pred (S fuel) ft (destroy_old O (move O s)) = UB) /\
  (forall id, c = CDo id [] -> forall fuel, update2 O pred (S fuel) ft (move O s) = UB) /\
  (forall b p, c = CLoop b p -> (forall h, pred p h = b) -> forall fuel, update2 O pred fuel ft (move O s) = OutOfFuel).
Proof. exact move_ways. Qed.
Print Assumptions C110_ways.

(** A timeline with nothing to do may be moved; one that is cleared after the move is as good as new, even when the old
    one is gone. *)
Theorem C110_idle : forall (O : wt_ops) pred fuel ft s, finished s = true \/ cidx s = -1 ->
  exists w, update2 O pred (S fuel) ft (move O s) = Ok w /\ update O pred (S fuel) ft s = Ok (new w).
Proof. exact idle_same. Qed.
Print Assumptions C110_idle.
Theorem C110_cleared : forall (O : wt_ops) pred fuel ops s n, run O pred fuel (OClear :: ops) s = Ok n ->
  (exists w, run2 O pred fuel (OClear :: ops) (move O s) = Ok w /\ new w = n) /\
  (exists w, run2 O pred fuel (OClear :: ops) (destroy_old O (move O s)) = Ok w /\ new w = n).
Proof. exact cleared_ok. Qed.
Print Assumptions C110_cleared.

(** The old timeline keeps a current index but no commands: its update is undefined until it is cleared or reset, and
    then it is an empty one. *)
Theorem C110_old : forall (O : wt_ops) pred fuel ft s o, old (move O s) = Some o ->
  (finished s = false -> 0 <= cidx s -> update O pred (S fuel) ft o = UB) /\
  (size o = 0 /\ cidx o = cidx s /\ finished o = finished s) /\
  (exists o', run O pred (S fuel) [OClear; OStart; OUpdate ft] o = Ok o' /\ finished o' = true /\ cidx o' = -1 /\ size o' = 0) /\
    (exists o', run O pred (S fuel) [OReset; OUpdate ft] o = Ok o' /\ finished o' = true /\ cidx o' = -1 /\ size o' = 0).
Proof. exact old_state. Qed.
Print Assumptions C110_old.

(** Moving a timeline is not harmless: one that works when not moved is undefined, or hangs, when moved. *)
Definition two : timeline exact_wt := 
  {| cmds := [CDo 1 []; CWait 5 5]; cidx := 0; remainder := 0; ready := true; finished := false; log := [] |}.
Definition until : timeline exact_wt :=
  {| cmds := [CLoop true 7]; cidx := 0; remainder := 0; ready := true; finished := false; log := [] |}.
Definition yes (p : nat) (h : list (event (WT exact_wt))) : bool := true.
Theorem C110_moved_refuted :
  (exists s n, run exact_wt yes 9 [OUpdate 1] s = Ok n /\ log n = [EFrame 1; EDo 1] /\
     forall fuel, run2 exact_wt yes (S fuel) [OUpdate 1] (move exact_wt s) = UB) /\
  (exists s n, run exact_wt yes 9 [OUpdate 1] s = Ok n /\ log n = [EFrame 1; EPred 7 true] /\
     forall fuel, run2 exact_wt yes fuel [OUpdate 1] (move exact_wt s) = OutOfFuel).
Proof. exact (moved_refuted two until yes eq_refl eq_refl (fun _ => eq_refl)). Qed.
Print Assumptions C110_moved_refuted.

(** The hypotheses are met: after the move, clear, add two commands, run to the end. *)
Example again : exists w, run2 exact_wt yes 20 [OClear; OAppend (CDo 3 []); OAppend (CWait 2 2); OStart; OUpdate 1; OUpdate 1; OUpdate 1] (move exact_wt two) = Ok w
  /\ log (new w) = [EFrame 1; EDo 3; EFrame 1; EFrame 1] /\ finished (new w) = true /\ mine w = [true; true].
Proof. eexists. vm_compute. split; [reflexivity|]. repeat split. Qed.
(** One added and jumped to runs; then the moved one behind it is reached. *)
Example reached : exists w, run2 exact_wt yes 20 [OInsert 0 (CWait 2 2); OJump 0; OUpdate 1] (move exact_wt two) = Ok w
  /\ mine w = [true; false; false] /\ cidx (new w) = 0
  /\ run2 exact_wt yes 20 [OInsert 0 (CWait 2 2); OJump 0; OUpdate 1; OUpdate 1; OUpdate 1] (move exact_wt two) = UB.
Proof. eexists. vm_compute. split; [reflexivity|]. repeat split. Qed.
