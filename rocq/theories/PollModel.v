(** Model of timelines whose predicates change them: include/SSVUtils/Timeline/Inc/Wait.hpp:35-47 ([WaitLoop::update]) with a predicate
    that calls back [append], [insert], [jumpTo], [start], [stop], [reset] or [clear] of its own timeline, and actions as in GrowModel.
    Everything else is TimelineModel's and GrowModel's.  A predicate is known by its answer and by what it calls, given everything that
    happened so far, its own answer included (the answer is recorded when the predicate is called). *)
From Coq Require Import String ZArith NArith Arith Bool Lia List.
From Verif Require Import Common TimelineModel GrowModel.
Import ListNotations.
Local Open Scope Z_scope.

Local Notation "'let!' x ':=' e 'in' f" := (obind e (fun x => f)) (at level 200, x pattern, e at level 100, f at level 200, right associativity).

Section Poll.
  Context (O : wt_ops) (pred : nat -> list (event (WT O)) -> bool) (act pact : nat -> list (event (WT O)) -> list (change O)).
  Notation timeline := (timeline O).

  (** Wait.hpp:35-39: [ready = false], then the predicate, then perhaps [next()].  [clear] destroys the command and with it the predicate
      being run: undefined ([change_step]). *)
  Definition poll_update (w : bool) (p : nat) (s : timeline) : outcome timeline :=
    let s := set_flags O false (finished s) s in
    let b := pred p (log s) in
    let s := add_log O (EPred p b) s in
    let! s := change_steps O (pact p (log s)) s in
    if Bool.eqb b w then Ok s else next O s.
  Definition pcmd_update (i : nat) (c : cmd O) (ft : WT O) (s : timeline) : outcome timeline :=
    match c with
    | CDo id _ => do_update O act id s
    | CLoop w p => poll_update w p s
    | _ => cmd_update O pred i c ft s
    end.
  (** Timeline.cpp:58-67. *)
  Fixpoint pupdate_loop (fuel : nat) (ft : WT O) (s : timeline) : outcome timeline :=
    match fuel with
    | 0%nat => OutOfFuel
    | S fuel =>
      if isCIdxNull O s then Ok (stop O s)
      else if cidx s <? 0 then UB
      else match nth_error (cmds s) (Z.to_nat (cidx s)) with
           | None => UB
           | Some c =>
             let! s := pcmd_update (Z.to_nat (cidx s)) c (wadd O ft (remainder s)) s in
             let s := set_rem O (wzero O) s in
             if ready s then pupdate_loop fuel ft s else Ok s
           end
    end.
  (** Timeline.cpp:53-57. *)
  Definition pupdate (fuel : nat) (ft : WT O) (s : timeline) : outcome timeline :=
    if finished s then Ok s else pupdate_loop fuel ft (set_flags O true (finished s) s).
  Definition pstep (fuel : nat) (o : op O) (s : timeline) : outcome timeline :=
    match o with
    | OUpdate ft => pupdate fuel ft (add_log O (EFrame ft) s)
    | _ => step O pred fuel o s
    end.
  Fixpoint prun (fuel : nat) (ops : list (op O)) (s : timeline) : outcome timeline :=
    match ops with
    | [] => Ok s
    | o :: ops' => let! s := pstep fuel o s in prun fuel ops' s
    end.
End Poll.
