(** C119: timelines whose predicates change them. *)
From Coq Require Import String ZArith NArith Arith Bool Lia List.
From Verif Require Import Common TimelineModel TimelineSpec GrowModel GrowSpec PollModel PollSpec PollProofs PollBadProofs.
Import ListNotations.
Local Open Scope Z_scope.

(** C119. Actions and predicates that append steps, or insert them behind their own place, feed a list of steps still to do: updates
    return exactly when working off that list comes to a wait or an end, with the same history; every command present has run or is
    still to do, in the order in which they stand. *)
Theorem C119_queue : forall O pred adds padds L fts, (forall ft, In ft fts -> wadd O ft (wzero O) = ft) ->
  let ops := map OAppend (map (to_cmd O) L) ++ map OUpdate fts in
  let go fuel := prun O pred (fun id h => map (to_change O) (adds id h)) (fun id h => map (to_change O) (padds id h)) fuel ops (new_timeline O true) in
  (forall q h f, polls_all O pred adds padds fts L [] false q h f -> exists F s', (forall fuel, (F <= fuel)%nat -> go fuel = Ok s') /\ log s' = h /\ finished s' = f /\
     exists later, command_actions O (cmds s') = done O h ++ later /\ later = actions O q) /\
  (forall fuel s', go fuel = Ok s' -> exists q h f, polls_all O pred adds padds fts L [] false q h f).
Proof. exact queue_ok. Qed.
Print Assumptions C119_queue.
(** C119. A predicate that stops its timeline ends it: the update returns, and later ones do nothing.  Its answer still counts. *)
Theorem C119_stop : forall O pred act pact s i w p ft, asks s i w p -> let b := pred p (log s) in pact p (log s ++ [EPred p b]) = [ChCall CbStop] ->
  exists s', (forall fuel, pupdate O pred act pact (S fuel) ft s = Ok s') /\ finished s' = true /\ cmds s' = cmds s /\ cidx s' = after (size s) (Z.of_nat i) (Bool.eqb b w) /\ log s' = log s ++ [EPred p b] /\
  forall fts fuel, exists s'', prun O pred act pact fuel (map OUpdate fts) s' = Ok s'' /\ log s'' = log s' ++ map (fun ft => EFrame ft) fts /\ cmds s'' = cmds s' /\ cidx s'' = cidx s' /\ finished s'' = true.
Proof. exact stops. Qed.
Print Assumptions C119_stop.
(** C119. A predicate that jumps to [j]: the next update goes on there if the predicate keeps waiting; if it lets the timeline go on, the
    command at [j] is skipped. *)
Theorem C119_jump : forall O pred act pact s i w p j ft, asks s i w p -> let b := pred p (log s) in pact p (log s ++ [EPred p b]) = [ChCall (CbJump j)] -> 0 <= j < size s ->
  exists s', (forall fuel, pupdate O pred act pact (S fuel) ft s = Ok s') /\ finished s' = false /\ cmds s' = cmds s /\ cidx s' = after (size s) j (Bool.eqb b w) /\ log s' = log s ++ [EPred p b].
Proof. exact jumps. Qed.
Print Assumptions C119_jump.
(** C119, refuted: a wait does not end the update when its predicate calls start(): the predicate is asked again in the same update ... *)
Theorem C119_start_again_refuted : forall O pred act pact s i w p ft fuel s', asks s i w p -> pact p (log s ++ [EPred p (pred p (log s))]) = [ChCall CbStart] -> pred p (log s) = w ->
  pupdate O pred act pact fuel ft s = Ok s' -> exists b later, log s' = log s ++ EPred p w :: EPred p b :: later.
Proof. exact start_again. Qed.
Print Assumptions C119_start_again_refuted.
(** C119, refuted: ... if it always answers so, for ever ... *)
Theorem C119_start_stuck_refuted : forall O pred act pact s i w p ft fuel, asks s i w p -> (forall h, pact p h = [ChCall CbStart] /\ pred p h = w) ->
  pupdate O pred act pact fuel ft s = OutOfFuel.
Proof. exact start_stuck. Qed.
Print Assumptions C119_start_stuck_refuted.
(** C119, refuted: ... and what stands behind the wait runs in the same update. *)
Theorem C119_start_on_refuted : forall O pred act pact s i w p ft fuel s' e cb, asks s i w p -> pact p (log s ++ [EPred p (pred p (log s))]) = [ChCall CbStart] -> pred p (log s) <> w ->
  nth_error (cmds s) (S i) = Some (CDo e cb) -> pupdate O pred act pact fuel ft s = Ok s' -> exists later, log s' = log s ++ EPred p (pred p (log s)) :: EDo e :: later.
Proof. exact start_on. Qed.
Print Assumptions C119_start_on_refuted.
(** C119, refuted: a predicate that resets its timeline and keeps waiting, behind actions only, makes the update run for ever ... *)
Theorem C119_reset_stuck_refuted : forall (O : wt_ops) pred pact w p (ds : list nat) (ft : WT O) fuel, (forall h, pact p h = [ChCall CbReset] /\ pred p h = w) ->
  prun O pred (fun _ _ => []) pact fuel (map OAppend (map Do ds ++ [CLoop w p]) ++ [OUpdate ft]) (new_timeline O true) = OutOfFuel.
Proof. exact reset_stuck. Qed.
Print Assumptions C119_reset_stuck_refuted.
(** C119, refuted: ... and one that lets the timeline go on restarts it, in the same update, at its second command. *)
Theorem C119_reset_skips_refuted : forall O pred act pact s i w p ft fuel s' e cb, asks s i w p -> pact p (log s ++ [EPred p (pred p (log s))]) = [ChCall CbReset] -> pred p (log s) <> w ->
  nth_error (cmds s) 1 = Some (CDo e cb) -> pupdate O pred act pact fuel ft s = Ok s' -> exists later, log s' = log s ++ EPred p (pred p (log s)) :: EDo e :: later.
Proof. exact reset_skips. Qed.
Print Assumptions C119_reset_skips_refuted.
(** C119, refuted: after a predicate that inserts a command at or before its own place, a wait that is over is asked again, and one that goes
    on is left for the new command or for the command before it, which runs a second time. *)
Theorem C119_before_refuted : forall O pred act pact s i w p j c ft, asks s i w p -> let b := pred p (log s) in pact p (log s ++ [EPred p b]) = [ChInsert j c] -> 0 <= j <= Z.of_nat i ->
  exists s', (forall fuel, pupdate O pred act pact (S fuel) ft s = Ok s') /\ finished s' = false /\ log s' = log s ++ [EPred p b] /\
  cmds s' = firstn (Z.to_nat j) (cmds s) ++ c :: skipn (Z.to_nat j) (cmds s) /\
  (b <> w -> asks s' (S i) w p) /\ (b = w -> cidx s' = Z.of_nat i /\ (if j =? Z.of_nat i then nth_error (cmds s') i = Some c else nth_error (cmds s') i = nth_error (cmds s) (i - 1))).
Proof. exact before. Qed.
Print Assumptions C119_before_refuted.
(** C119. Clearing the timeline from its own predicate is undefined. *)
Theorem C119_clear_refuted : forall O pred act pact s i w p ft fuel, asks s i w p -> In ChClear (pact p (log s ++ [EPred p (pred p (log s))])) ->
  pupdate O pred act pact (S fuel) ft s = UB.
Proof. exact clears. Qed.
Print Assumptions C119_clear_refuted.

(** Predicate 1 is asked three times and puts action 7 right behind its wait each time. *)
Definition ex_pred (id : nat) (h : list (event (WT exact_wt))) : bool := (length (filter (fun e => match e with EPred _ _ => true | _ => false end) h) <? 2)%nat.
Definition ex_padds (id : nat) (h : list (event (WT exact_wt))) : list (add exact_wt) := [AddAfter 0 (LDo 7)].
Example queue_case : obind (prun exact_wt ex_pred (fun _ _ => []) (fun id h => map (to_change exact_wt) (ex_padds id h)) 100
    (map OAppend (map (to_cmd exact_wt) [LDo 1; LLoop true 1; LDo 2]) ++ map OUpdate [1; 1; 1; 1]) (new_timeline exact_wt true)) (fun s => Ok (log s, finished s, command_actions exact_wt (cmds s)))
  = Ok ([EFrame 1; EDo 1; EPred 1 true; EFrame 1; EPred 1 true; EFrame 1; EPred 1 false; EFrame 1; EDo 7; EDo 7; EDo 7; EDo 2], true, [1; 7; 7; 7; 2]%nat).
Proof. reflexivity. Qed.
Example queue_polls : polls_all exact_wt ex_pred (fun _ _ => []) ex_padds [1; 1] [LDo 1; LLoop true 1; LDo 2] [] false [LLoop true 1; LDo 7; LDo 7; LDo 2] [EFrame 1; EDo 1; EPred 1 true; EFrame 1; EPred 1 true] false.
Proof.
  eapply pall_go; [|eapply pall_go; [|constructor]].
  - eapply polls_do; [cbn; apply added_nil|]. refine (polls_loop exact_wt ex_pred _ ex_padds _ true 1 [LDo 2] _ _ _). apply (added_after exact_wt 0 (LDo 7) [] [] [LDo 2]); [reflexivity|apply added_nil].
  - refine (polls_loop exact_wt ex_pred _ ex_padds _ true 1 [LDo 7; LDo 2] _ _ _). apply (added_after exact_wt 0 (LDo 7) [] [] [LDo 7; LDo 2]); [reflexivity|apply added_nil].
Qed.
(** One predicate that calls back once, in a timeline of four commands: after its third, with [calls], history and place; [w] is WaitWhile and the answer is [b]. *)
Definition ex_once (b : bool) (calls : list (change exact_wt)) :=
  obind (prun exact_wt (fun _ h => if (length h <? 4)%nat then b else false) (fun _ _ => []) (fun _ h => if (length h <=? 4)%nat then calls else []) 100
    (map OAppend [Do 1; Do 2; WaitWhile 5; Do 3] ++ [OUpdate (1 : WT exact_wt)]) (new_timeline exact_wt true)) (fun s => Ok (log s, cidx s, finished s)).
Example calls_cases :
  ex_once true [ChCall CbStop] = Ok ([EFrame 1; EDo 1; EDo 2; EPred 5 true], 2, true) /\
  ex_once true [ChCall (CbJump 0)] = Ok ([EFrame 1; EDo 1; EDo 2; EPred 5 true], 0, false) /\
  ex_once false [ChCall (CbJump 0)] = Ok ([EFrame 1; EDo 1; EDo 2; EPred 5 false], 1, false) /\
  ex_once true [ChCall CbStart] = Ok ([EFrame 1; EDo 1; EDo 2; EPred 5 true; EPred 5 false], 3, false) /\
  ex_once false [ChCall CbStart] = Ok ([EFrame 1; EDo 1; EDo 2; EPred 5 false; EDo 3], -1, true) /\
  ex_once false [ChCall CbReset] = Ok ([EFrame 1; EDo 1; EDo 2; EPred 5 false; EDo 2; EPred 5 false], 3, false) /\
  ex_once true [ChInsert 0 (Do 9)] = Ok ([EFrame 1; EDo 1; EDo 2; EPred 5 true], 2, false) /\
  ex_once false [ChInsert 2 (Do 9)] = Ok ([EFrame 1; EDo 1; EDo 2; EPred 5 false], 3, false) /\
  ex_once true [ChClear] = UB.
Proof. repeat split; reflexivity. Qed.
