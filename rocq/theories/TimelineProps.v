(** C41 to C44: timelines. *)
From Coq Require Import String ZArith NArith Arith Bool Lia List.
From Verif Require Import Common TimelineModel TimelineSpec TimelineProofs.
Import ListNotations.
Local Open Scope Z_scope.

(** C41. A timeline built by appending waits, predicate waits and actions behaves, over any updates, as the
    straight list of steps: same actions and predicate calls in the same frames, finished when it should
    be; hence actions run in order, none skipped, none twice.  For any frame-time arithmetic where adding
    zero to the frame times given changes nothing. *)
Theorem C41_order : forall O pred L fts, (forall ft, In ft fts -> wadd O ft (wzero O) = ft) ->
  exists F s', (forall fuel, (F <= fuel)%nat ->
      run O pred fuel (map OAppend (map (to_cmd O) L) ++ map OUpdate fts) (new_timeline O true) = Ok s')
    /\ (let '(_, h', fin) := lin_run O pred fts L [] false in log s' = h' /\ finished s' = fin)
    /\ exists later, actions O L = done O (log s') ++ later /\ (finished s' = true -> later = []).
Proof. exact straight_run. Qed.
Print Assumptions C41_order.

Definition ex_pred (p : nat) (h : list (event Z)) : bool := (5 <=? length h)%nat.
Notation exw := (map OAppend [Do 1; Wait 10; Do 2; Do 3; WaitUntil 0; Do 4] : list (op exact_wt)).
Example C41_order_example :
  obind (run exact_wt ex_pred 100 (exw ++ map OUpdate [6; 7; 1; 1; 1]) (new_timeline exact_wt true)) (fun s => Ok (log s, finished s))
  = Ok ([EFrame 6; EDo 1; EFrame 7; EFrame 1; EDo 2; EDo 3; EPred 0 true; EFrame 1; EDo 4; EFrame 1], true).
Proof. vm_compute. reflexivity. Qed.

(** C41. [reset] replays the timeline from its first step, whatever was executed before. *)
Theorem C41_reset : forall O pred L fts fts2, (forall ft, In ft (fts ++ fts2) -> wadd O ft (wzero O) = ft) ->
  exists F s', (forall fuel, (F <= fuel)%nat ->
      run O pred fuel (map OAppend (map (to_cmd O) L) ++ map OUpdate fts ++ OReset :: map OUpdate fts2) (new_timeline O true) = Ok s')
    /\ let '(_, h1, _) := lin_run O pred fts L [] false in
       let '(_, h2, fin2) := lin_run O pred fts2 L h1 false in
       log s' = h2 /\ finished s' = fin2.
Proof. exact straight_reset. Qed.
Print Assumptions C41_reset.
Example C41_reset_example :
  obind (run exact_wt ex_pred 100 (exw ++ map OUpdate [6; 7] ++ OReset :: map OUpdate [9; 2]) (new_timeline exact_wt true)) (fun s => Ok (log s, finished s))
  = Ok ([EFrame 6; EDo 1; EFrame 7; EFrame 9; EDo 1; EFrame 2], false).
Proof. vm_compute. reflexivity. Qed.

(** C41. Any history of calls - appending at any time, updating, starting, stopping, resetting, clearing - does
    what the straight list would: steps appended later follow those still to do; a finished timeline waits for
    [start]. *)
Theorem C41_history : forall O pred st ops, (forall ft, In (LUpdate ft) ops -> wadd O ft (wzero O) = ft) ->
  exists F s', (forall fuel, (F <= fuel)%nat -> run O pred fuel (map (to_op O) ops) (new_timeline O st) = Ok s')
    /\ let '(A, _, h, fin) := fold_left (lin_step O pred) ops ([], [], [], negb st) in
       size s' = Z.of_nat (length A) /\ log s' = h /\ finished s' = fin.
Proof. exact history. Qed.
Print Assumptions C41_history.
Example C41_history_example :
  obind (run exact_wt ex_pred 100 (map (to_op exact_wt) [LAppend (LDo 1); LUpdate 3; LAppend (LDo 2); LUpdate 1; LStart; LAppend (LWait 4); LUpdate 1; LStop;
      LUpdate 9; LStart; LUpdate 3; LAppend (LDo 3); LUpdate 1; LReset; LUpdate 2]) (new_timeline exact_wt true)) (fun s => Ok (log s, finished s))
  = Ok ([EFrame 3; EDo 1; EFrame 1; EFrame 1; EDo 2; EFrame 9; EFrame 3; EFrame 1; EDo 3; EFrame 2; EDo 1; EDo 2], false).
Proof. vm_compute. reflexivity. Qed.

(** C41. Exact times: a wait of [t] completes on the first update bringing the time given to it to [t] or
    more, and what follows starts on the next update. *)
Theorem C41_wait : forall pred t L fts ft rest,
  (forall j, (j <= length fts)%nat -> j <> 0%nat -> zsum (firstn j fts) < t) -> t <= zsum fts + ft ->
  exists F s', (forall fuel, (F <= fuel)%nat ->
      run exact_wt pred fuel (map OAppend (map (to_cmd exact_wt) (LWait (t : WT exact_wt) :: L)) ++ map OUpdate (fts ++ ft :: rest)) (new_timeline exact_wt true) = Ok s')
    /\ let '(_, h', fin) := lin_run exact_wt pred rest L (map EFrame (fts ++ [ft])) false in log s' = h' /\ finished s' = fin.
Proof. exact wait_run. Qed.
Print Assumptions C41_wait.
Example C41_wait_example : zsum (firstn 1 [4; 3]) < 9 /\ zsum (firstn 2 [4; 3]) < 9 /\ 9 <= zsum [4; 3] + 5.
Proof. vm_compute. repeat split; discriminate. Qed.

(** C41, refuted for actions calling back: an action that resets its own timeline skips the first command,
    and one that jumps to [i] resumes at [i + 1]. *)
Theorem C41_action_reset_refuted : exists s,
  run exact_wt (fun _ _ => false) 100
    ([OAppend (Do 0); OAppend (Wait (5 : WT exact_wt)); OAppend (CDo 1 [CbReset])] ++ map OUpdate [5; 1; 4])
    (new_timeline exact_wt true) = Ok s
  /\ log s = [EFrame 5; EDo 0; EFrame 1; EDo 1; EFrame 4].
Proof. eexists. split; [vm_compute; reflexivity|]. vm_compute. reflexivity. Qed.
Print Assumptions C41_action_reset_refuted.
Theorem C41_action_jump_refuted : exists s,
  run exact_wt (fun _ _ => false) 100
    ([OAppend (Do 0); OAppend (Do 1); OAppend (Wait (5 : WT exact_wt)); OAppend (CDo 2 [CbJump 0])] ++ map OUpdate [5; 1])
    (new_timeline exact_wt true) = Ok s
  /\ log s = [EFrame 5; EDo 0; EDo 1; EFrame 1; EDo 2; EDo 1].
Proof. eexists. split; [vm_compute; reflexivity|]. vm_compute. reflexivity. Qed.
Print Assumptions C41_action_jump_refuted.

(** C42. The time by which a frame overshoots a wait is lost: after a frame [ft] completing a wait of [a],
    whatever the excess, the timeline goes on as one made of the remaining commands only. *)
Theorem C42_overshoot_lost : forall O pred a ft L fts, (forall x, In x (ft :: fts) -> wadd O x (wzero O) = x) ->
  wpos O (wsub O a ft) = false ->
  exists F s', (forall fuel, (F <= fuel)%nat ->
      run O pred fuel (map OAppend (Wait a :: map (to_cmd O) L) ++ map OUpdate (ft :: fts)) (new_timeline O true) = Ok s')
    /\ let '(_, h', fin) := lin_run O pred fts L [EFrame ft] false in log s' = h' /\ finished s' = fin.
Proof. exact overshoot_run. Qed.
Print Assumptions C42_overshoot_lost.
(** C42, refuted: "after 20 time units two waits of 10 have elapsed". *)
Theorem C42_carry_refuted : exists s,
  run exact_wt (fun _ _ => false) 100
    (map OAppend [Wait (10 : WT exact_wt); Wait (10 : WT exact_wt); Do 0] ++ map OUpdate [15; 5; 4; 0; 0]) (new_timeline exact_wt true) = Ok s
  /\ done exact_wt (log s) = [] /\ finished s = false
  /\ getCurrentIndex s = 1.
Proof. eexists. split; [vm_compute; reflexivity|]. vm_compute. auto. Qed.
Print Assumptions C42_carry_refuted.

(** C43. A block closed by a jump back repeated [n] times runs [n + 1] times between what precedes and what
    follows it ([n] may be the default 2^64-1). *)
Theorem C43_loop : forall O pred pre B post n fts, (forall ft, In ft fts -> wadd O ft (wzero O) = ft) ->
  exists F s', (forall fuel, (F <= fuel)%nat ->
      run O pred fuel (map OAppend (map (to_cmd O) pre ++ map (to_cmd O) B ++ Go (Z.of_nat (length pre)) n :: map (to_cmd O) post)
        ++ map OUpdate fts) (new_timeline O true) = Ok s')
    /\ (let '(_, h', fin) := lin_run O pred fts (pre ++ block O B (N.succ n) ++ post) [] false in log s' = h' /\ finished s' = fin)
    /\ exists later, actions O (pre ++ block O B (N.succ n) ++ post) = done O (log s') ++ later /\ (finished s' = true -> later = []).
Proof. exact loop_run. Qed.
Print Assumptions C43_loop.
Theorem C43_loop_reset : forall O pred pre B post n fts fts2, (forall ft, In ft (fts ++ fts2) -> wadd O ft (wzero O) = ft) ->
  exists F s', (forall fuel, (F <= fuel)%nat ->
      run O pred fuel (map OAppend (map (to_cmd O) pre ++ map (to_cmd O) B ++ Go (Z.of_nat (length pre)) n :: map (to_cmd O) post)
        ++ map OUpdate fts ++ OReset :: map OUpdate fts2) (new_timeline O true) = Ok s')
    /\ let '(_, h1, _) := lin_run O pred fts (pre ++ block O B (N.succ n) ++ post) [] false in
       let '(_, h2, fin2) := lin_run O pred fts2 (pre ++ block O B (N.succ n) ++ post) h1 false in
       log s' = h2 /\ finished s' = fin2.
Proof. exact loop_reset. Qed.
Print Assumptions C43_loop_reset.
(** C43. Any program of waits, actions and jumps that unrolls to a straight list behaves as that list. *)
Theorem C43_unroll : forall O pred cs L fts, unroll O cs (first_index O cs) L -> (forall ft, In ft fts -> wadd O ft (wzero O) = ft) ->
  exists F s', (forall fuel, (F <= fuel)%nat -> run O pred fuel (map OAppend cs ++ map OUpdate fts) (new_timeline O true) = Ok s')
    /\ (let '(_, h', fin) := lin_run O pred fts L [] false in log s' = h' /\ finished s' = fin)
    /\ exists later, actions O L = done O (log s') ++ later /\ (finished s' = true -> later = []).
Proof. exact program_done. Qed.
Print Assumptions C43_unroll.
Example C43_example :
  obind (run exact_wt (fun _ _ => false) 100 (map OAppend [Do 0; Do 1; Wait (2 : WT exact_wt); Go 1 2; Do 3] ++ map OUpdate [1; 1; 3; 1; 2; 1]) (new_timeline exact_wt true))
    (fun s => Ok (log s, finished s))
  = Ok ([EFrame 1; EDo 0; EDo 1; EFrame 1; EFrame 3; EDo 1; EFrame 1; EDo 1; EFrame 2; EFrame 1; EDo 3], true).
Proof. vm_compute. reflexivity. Qed.

(** C43, refuted for nested loops: the inner counter is not restored, so the inner block is repeated only
    during the first pass of the outer one (four runs expected, three happen). *)
Theorem C43_nested_refuted : exists s,
  run exact_wt (fun _ _ => false) 100
    (map OAppend [Do 0; Go 0 1; Go 0 1] ++ map OUpdate [1 : WT exact_wt]) (new_timeline exact_wt true) = Ok s
  /\ done exact_wt (log s) = [0; 0; 0]%nat /\ finished s = true.
Proof. eexists. split; [vm_compute; reflexivity|]. vm_compute. auto. Qed.
Print Assumptions C43_nested_refuted.

(** C44. Over any history of calls with indices in range (inserting within bounds, jumping to an existing
    command or to the end, and updating only when every jump target present exists) there is no access
    out of range, and the current index is that of an existing command, or 0 when there is none. *)
Theorem C44_index_valid : forall O pred fuel st ops, hist_ok O 0 (-1) ops ->
  run O pred fuel ops (new_timeline O st) = OutOfFuel
  \/ exists s, run O pred fuel ops (new_timeline O st) = Ok s
     /\ (size s = 0 /\ getCurrentIndex s = 0 \/ 0 <= getCurrentIndex s < size s).
Proof. exact index_valid. Qed.
Print Assumptions C44_index_valid.
Example C44_example : hist_ok exact_wt 0 (-1)
  [OAppend (Go 2 3); OAppend (Wait (4 : WT exact_wt)); OInsert 0 (CDo 7 [CbJump 1; CbReset; CbJump (-1)]); OUpdate (3 : WT exact_wt); OJump 2; OReset; OStop; OStart; OUpdate (9 : WT exact_wt); OClear; OUpdate (1 : WT exact_wt)].
Proof. cbn. repeat split; try lia; repeat (constructor; cbn; try lia). Qed.

(** C44, refuted without the range hypothesis: indices are not checked. *)
Theorem C44_out_of_range_refuted :
  run exact_wt (fun _ _ => false) 100 [OAppend (Do 0); OJump 1; OUpdate (1 : WT exact_wt)] (new_timeline exact_wt true) = UB
  /\ run exact_wt (fun _ _ => false) 100 [OAppend (Do 0); OAppend (Go 7 1); OUpdate (1 : WT exact_wt)] (new_timeline exact_wt true) = UB.
Proof. vm_compute. auto. Qed.
Print Assumptions C44_out_of_range_refuted.
(** C44, refuted: inserting a command before the current one moves the current position back, so that an
    action already executed runs again. *)
Theorem C44_insert_before_refuted : exists s,
  run exact_wt (fun _ _ => false) 100
    (map OAppend [Do 0; Wait (5 : WT exact_wt); Do 1] ++ [OUpdate (2 : WT exact_wt); OInsert 0 (Do 9); OUpdate (1 : WT exact_wt)]) (new_timeline exact_wt true) = Ok s
  /\ log s = [EFrame 2; EDo 0; EFrame 1; EDo 0].
Proof. eexists. split; [vm_compute; reflexivity|]. vm_compute. reflexivity. Qed.
Print Assumptions C44_insert_before_refuted.
