(** Model of include/SSVUtils/Timeline/Inc/TimelineManager.hpp and Src/TimelineManager.cpp: the manager of
    MemModel holding timelines.  Timeline number [k] is the [k]-th created; its contents are kept beside the
    memory, in [tls]. *)
From Coq Require Import String ZArith NArith Arith Bool Lia List.
From Verif Require Import Common MemModel TimelineModel.
Import ListNotations.
Local Open Scope nat_scope.

Section TM.
  (** [tty]: size and alignment of [Timeline]. *)
  Context (tty : ty) (O : wt_ops) (pred : nat -> list (event (WT O)) -> bool).
  Record tmgr := { ms : mrun_state; tls : list (timeline O) }.
  Fixpoint set_tl (l : list (timeline O)) (k : nat) (t : timeline O) : list (timeline O) :=
    match l, k with [], _ => [] | _ :: r, 0 => t :: r | x :: r, S k' => x :: set_tl r k' t end.

  (** TimelineManager.cpp:22-25. *)
  Definition tm_create (s : tmgr) : outcome tmgr :=
    obind (mgr_step tty (MCreate tty) (ms s)) (fun m => Ok {| ms := m; tls := tls s ++ [new_timeline O true] |}).
  (** TimelineManager.cpp:26-29. *)
  Definition tm_clear (s : tmgr) : outcome tmgr :=
    obind (mgr_step tty MClear (ms s)) (fun m => Ok {| ms := m; tls := tls s |}).
  (** TimelineManager.cpp:16-20, for one slot; [MDel k] goes through the reference of object [k], which is
      the address held by the slot. *)
  Definition tm_visit (fuel : nat) (ft : WT O) (x : option nat) (s : tmgr) : outcome tmgr :=
    match x with
    | None => UB
    | Some k =>
      match nth_error (tls s) k with
      | None => UB
      | Some t =>
        obind (step O pred fuel (OUpdate ft) t) (fun t =>
          let s := {| ms := ms s; tls := set_tl (tls s) k t |} in
          if finished t then obind (mgr_step tty (MDel k) (ms s)) (fun m => Ok {| ms := m; tls := tls s |}) else Ok s)
      end
    end.
  Fixpoint tm_visits (fuel : nat) (ft : WT O) (l : list (option nat)) (s : tmgr) : outcome tmgr :=
    match l with [] => Ok s | x :: l' => obind (tm_visit fuel ft x s) (tm_visits fuel ft l') end.
  (** TimelineManager.cpp:12-21. *)
  Definition tm_update (fuel : nat) (ft : WT O) (s : tmgr) : outcome tmgr :=
    obind (mgr_step tty MRefresh (ms s)) (fun m =>
      tm_visits fuel ft (iterate (fst m)) {| ms := m; tls := tls s |}).
  (** A call on timeline [k] through the reference [create] returned: undefined once it is destroyed. *)
  Definition tm_on (fuel : nat) (k : nat) (o : op O) (s : tmgr) : outcome tmgr :=
    match nth_error (snd (ms s)) k, nth_error (tls s) k with
    | Some p, Some t =>
      match object_at (mm (fst (ms s))) p with
      | Some k' => if k' =? k then obind (step O pred fuel o t) (fun t => Ok {| ms := ms s; tls := set_tl (tls s) k t |}) else UB
      | None => UB
      end
    | _, _ => UB
    end.

  Inductive tmop := TMCreate | TMUpdate (ft : WT O) | TMClear | TMOn (k : nat) (o : op O).
  Definition tm_step (fuel : nat) (o : tmop) (s : tmgr) : outcome tmgr :=
    match o with
    | TMCreate => tm_create s
    | TMUpdate ft => tm_update fuel ft s
    | TMClear => tm_clear s
    | TMOn k o => tm_on fuel k o s
    end.
  Fixpoint tm_run (fuel : nat) (ops : list tmop) (s : tmgr) : outcome tmgr :=
    match ops with [] => Ok s | o :: ops' => obind (tm_step fuel o s) (tm_run fuel ops') end.
  Definition tm_new : outcome tmgr := obind new_mgr (fun g => Ok {| ms := (g, []); tls := [] |}).
End TM.
Arguments ms {O}. Arguments tls {O}.
Arguments TMCreate {O}. Arguments TMUpdate {O}. Arguments TMClear {O}. Arguments TMOn {O}.
