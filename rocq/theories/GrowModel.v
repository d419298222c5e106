(** Model of timelines whose actions add commands to their own timeline: include/SSVUtils/Timeline/Src/Do.cpp:21-25 with an action
    that calls back [append], [insert] (Inc/Timeline.hpp:43-68), [clear] (Src/Timeline.cpp:42-47) or the calls of TimelineModel.
    Everything else is TimelineModel's.  An action is known by what it calls, given everything that happened so far.  Commands are
    held by pointers (Inc/Timeline.hpp:36), so that adding one does not move the one being run. *)
From Coq Require Import String ZArith NArith Arith Bool Lia List.
From Verif Require Import Common TimelineModel.
Import ListNotations.
Local Open Scope Z_scope.

Local Notation "'let!' x ':=' e 'in' f" := (obind e (fun x => f)) (at level 200, x pattern, e at level 100, f at level 200, right associativity).

Section Grow.
  Context (O : wt_ops) (pred : nat -> list (event (WT O)) -> bool).
  (** [ChPut k]: [insert(getCurrentIndex() + 1 + k, ...)], the index being asked when the call is made. *)
  Inductive change := ChCall (c : callback) | ChAppend (c : cmd O) | ChInsert (i : Z) (c : cmd O) | ChPut (k : Z) (c : cmd O) | ChClear.
  Context (act : nat -> list (event (WT O)) -> list change).
  Notation timeline := (timeline O).

  (** [clear] destroys the command whose action is running, and the action with it: undefined. *)
  Definition change_step (ch : change) (s : timeline) : outcome timeline :=
    match ch with
    | ChCall c => Ok (callback_step O s c)
    | ChAppend c => append O c s
    | ChInsert i c => insert O i c s
    | ChPut k c => insert O (getCurrentIndex s + 1 + k) c s
    | ChClear => UB
    end.
  Fixpoint change_steps (l : list change) (s : timeline) : outcome timeline :=
    match l with [] => Ok s | ch :: l => let! s := change_step ch s in change_steps l s end.
  (** Do.cpp:21-25. *)
  Definition do_update (id : nat) (s : timeline) : outcome timeline :=
    let s := add_log O (EDo id) s in
    let! s := change_steps (act id (log s)) s in
    next O s.
  Definition gcmd_update (i : nat) (c : cmd O) (ft : WT O) (s : timeline) : outcome timeline :=
    match c with CDo id _ => do_update id s | _ => cmd_update O pred i c ft s end.
  (** Timeline.cpp:58-67. *)
  Fixpoint gupdate_loop (fuel : nat) (ft : WT O) (s : timeline) : outcome timeline :=
    match fuel with
    | 0%nat => OutOfFuel
    | S fuel =>
      if isCIdxNull O s then Ok (stop O s)
      else if cidx s <? 0 then UB
      else match nth_error (cmds s) (Z.to_nat (cidx s)) with
           | None => UB
           | Some c =>
             let! s := gcmd_update (Z.to_nat (cidx s)) c (wadd O ft (remainder s)) s in
             let s := set_rem O (wzero O) s in
             if ready s then gupdate_loop fuel ft s else Ok s
           end
    end.
  (** Timeline.cpp:53-57. *)
  Definition gupdate (fuel : nat) (ft : WT O) (s : timeline) : outcome timeline :=
    if finished s then Ok s else gupdate_loop fuel ft (set_flags O true (finished s) s).
  Definition gstep (fuel : nat) (o : op O) (s : timeline) : outcome timeline :=
    match o with
    | OUpdate ft => gupdate fuel ft (add_log O (EFrame ft) s)
    | _ => step O pred fuel o s
    end.
  Fixpoint grun (fuel : nat) (ops : list (op O)) (s : timeline) : outcome timeline :=
    match ops with
    | [] => Ok s
    | o :: ops' => let! s := gstep fuel o s in grun fuel ops' s
    end.
End Grow.
Arguments ChCall {O}. Arguments ChAppend {O}. Arguments ChInsert {O}. Arguments ChPut {O}. Arguments ChClear {O}.
