(** C102: timelines whose actions add commands. *)
From Coq Require Import String ZArith NArith Arith Bool Lia List.
From Verif Require Import Common TimelineModel TimelineSpec GrowModel GrowSpec GrowProofs GrowBadProofs.
Import ListNotations.
Local Open Scope Z_scope.

(** C102. Actions that append steps, or insert them behind their own place, feed a list of steps still to do: updates return exactly
    when working off that list comes to a wait or an end, with the same history; every command present has run or is still to do, in
    the order in which they stand. *)
Theorem C102_queue : forall O pred adds L fts, (forall ft, In ft fts -> wadd O ft (wzero O) = ft) ->
  let ops := map OAppend (map (to_cmd O) L) ++ map OUpdate fts in
  let go fuel := grun O pred (fun id h => map (to_change O) (adds id h)) fuel ops (new_timeline O true) in
  (forall q h f, plays_all O pred adds fts L [] false q h f -> exists F s', (forall fuel, (F <= fuel)%nat -> go fuel = Ok s') /\ log s' = h /\ finished s' = f /\
     exists later, command_actions O (cmds s') = done O h ++ later /\ later = actions O q) /\
  (forall fuel s', go fuel = Ok s' -> exists q h f, plays_all O pred adds fts L [] false q h f).
Proof. exact queue_ok. Qed.
Print Assumptions C102_queue.
(** C102, refuted: an action that inserts a command at or before its own place runs a second time ... *)
Theorem C102_before_refuted : forall O pred act j c e cb i s ft fuel, act e (log s ++ [EDo e]) = [ChInsert j c] -> 0 <= j <= Z.of_nat i ->
  finished s = false -> cidx s = Z.of_nat i -> nth_error (cmds s) i = Some (CDo e cb) ->
  forall s', gupdate O pred act fuel ft s = Ok s' -> exists later, log s' = log s ++ EDo e :: EDo e :: later.
Proof. exact once_more. Qed.
Print Assumptions C102_before_refuted.
(** C102, refuted: ... and if it always does so, the update never returns. *)
Theorem C102_stuck_refuted : forall O pred act e cb i s ft fuel, (forall h, exists j c, act e h = [ChInsert j c] /\ 0 <= j <= Z.of_nat i) ->
  finished s = false -> cidx s = Z.of_nat i -> nth_error (cmds s) i = Some (CDo e cb) -> gupdate O pred act fuel ft s = OutOfFuel.
Proof. exact never_returns. Qed.
Print Assumptions C102_stuck_refuted.
(** C102. So does one that always appends itself without a wait. *)
Theorem C102_endless_refuted : forall O pred fuel ft, wadd O ft (wzero O) = ft ->
  grun O pred (fun id _ => [ChAppend (Do id)]) fuel [OAppend (Do 0); OUpdate ft] (new_timeline O true) = OutOfFuel.
Proof. exact endless. Qed.
Print Assumptions C102_endless_refuted.
(** C102. Clearing the timeline from its own action is undefined. *)
Theorem C102_clear_refuted : forall O pred act e cb i s ft fuel, In ChClear (act e (log s ++ [EDo e])) -> finished s = false -> cidx s = Z.of_nat i ->
  nth_error (cmds s) i = Some (CDo e cb) -> gupdate O pred act (S fuel) ft s = UB.
Proof. exact clear_undefined. Qed.
Print Assumptions C102_clear_refuted.

(** Action 1 appends a wait and itself: it runs on every second update, for ever.  Action 2 puts action 3 right behind itself. *)
Definition ex_adds (id : nat) (h : list (event (WT exact_wt))) : list (add exact_wt) :=
  match id with 1%nat => [AddLast (LWait (5 : WT exact_wt)); AddLast (LDo 1)] | 2%nat => [AddAfter 0 (LDo 3)] | _ => [] end.
Example queue_case : obind (grun exact_wt (fun _ _ => false) (fun id h => map (to_change exact_wt) (ex_adds id h)) 100
    (map OAppend (map (to_cmd exact_wt) [LDo 1; LDo 2; LDo 4]) ++ map OUpdate [1; 4; 5]) (new_timeline exact_wt true)) (fun s => Ok (log s, finished s, command_actions exact_wt (cmds s)))
  = Ok ([EFrame 1; EDo 1; EDo 2; EDo 3; EDo 4; EFrame 4; EFrame 5; EDo 1], false, [1; 2; 3; 4; 1; 1]%nat).
Proof. reflexivity. Qed.
Example queue_plays : plays_all exact_wt (fun _ _ => false) ex_adds [1] [LDo 1; LDo 2] [] false [LWait 4; LDo 1] [EFrame 1; EDo 1; EDo 2; EDo 3] false.
Proof.
  eapply all_go; [|constructor]. eapply plays_do; [cbn; do 2 apply added_last; apply added_nil|]. eapply plays_do.
  - cbn. apply (added_after exact_wt 0 (LDo 3) [] [] [LWait (5 : WT exact_wt); LDo 1]); [reflexivity|apply added_nil].
  - cbn. eapply plays_do; [apply added_nil|]. exact (plays_wait exact_wt _ _ 1 5 [LDo 1] [EFrame 1; EDo 1; EDo 2; EDo 3]).
Qed.
(** An action that inserts once at its own place, and runs twice. *)
Example before_case : obind (grun exact_wt (fun _ _ => false) (fun id h => if (id =? 7)%nat && (length h <? 3)%nat then [ChInsert 0 (Do 8)] else []) 100
    [OAppend (Do 7); OUpdate (1 : WT exact_wt)] (new_timeline exact_wt true)) (fun s => Ok (log s, command_actions exact_wt (cmds s)))
  = Ok ([EFrame 1; EDo 7; EDo 7], [8; 7]%nat).
Proof. reflexivity. Qed.
