(** Model of include/SSVUtils/Timeline (Inc/*.hpp, Src/*.cpp).
    Simplified: command indices are integers without the 2^31 limit of [int]; the command vector is a
    list (its memory is modelled in MemModel); actions and predicates are an opaque identifier each.
    An action may call the timeline back ([jumpTo], [stop], [start], [reset]); it may not add or remove
    commands.  Predicates are an oracle reading everything that happened so far. *)
From Coq Require Import String ZArith NArith Arith Bool Lia List.
From Verif Require Import Common.
Import ListNotations.
Local Open Scope Z_scope.

Local Notation "'let!' x ':=' e 'in' f" := (obind e (fun x => f)) (at level 200, x pattern, e at level 100, f at level 200, right associativity).

(** The operations on [FT] used by waits (Wait.cpp:18-21, Timeline.cpp:65): [0.f], [+], [-], [> 0]. *)
Record wt_ops := { WT : Type; wzero : WT; wadd : WT -> WT -> WT; wsub : WT -> WT -> WT; wpos : WT -> bool }.
Definition exact_wt : wt_ops :=
  {| WT := Z; wzero := 0; wadd := Z.add; wsub := Z.sub; wpos := fun x => 0 <? x |}.
Canonical exact_wt.

(** What a user action may do to its own timeline, after its visible effect. *)
Inductive callback := CbJump (i : Z) | CbStop | CbStart | CbReset.

(** Visible events: an action ran; a predicate was called and returned [b]; a frame of [ft] began. *)
Inductive event (W : Type) := EDo (id : nat) | EPred (id : nat) (b : bool) | EFrame (ft : W).
Arguments EDo {W}. Arguments EPred {W}. Arguments EFrame {W}.

Section Timeline.
  Context (O : wt_ops).
  Notation W := (WT O).
  Context (pred : nat -> list (event W) -> bool).

  (** The commands: Wait (Wait.hpp:17-28), WaitWhile / WaitUntil (Wait.hpp:30-56), Do (Do.hpp:15-24),
      Go (Go.hpp:16-51). *)
  Inductive cmd :=
  | CWait (time cur : W)
  | CLoop (while : bool) (p : nat)
  | CDo (id : nat) (cb : list callback)
  | CGo (target : Z) (times cur : N).
  (** Constructors: Wait.cpp:30-34, Go.hpp:45-50 ([times] defaults to [-1], that is 2^64-1). *)
  Definition Wait (t : W) := CWait t t.
  Definition WaitWhile (p : nat) := CLoop true p.
  Definition WaitUntil (p : nat) := CLoop false p.
  Definition Do (id : nat) := CDo id [].
  Definition Go (target : Z) (times : N) := CGo target times times.
  Definition GO_DEFAULT : N := 18446744073709551615.

  (** Timeline.hpp:36-39; [log] is the visible history. *)
  Record timeline := { cmds : list cmd; cidx : Z; remainder : W; ready : bool; finished : bool; log : list (event W) }.
  Definition set_cmds v s := {| cmds := v; cidx := cidx s; remainder := remainder s; ready := ready s; finished := finished s; log := log s |}.
  Definition set_cidx v s := {| cmds := cmds s; cidx := v; remainder := remainder s; ready := ready s; finished := finished s; log := log s |}.
  Definition set_rem v s := {| cmds := cmds s; cidx := cidx s; remainder := v; ready := ready s; finished := finished s; log := log s |}.
  Definition set_flags r f s := {| cmds := cmds s; cidx := cidx s; remainder := remainder s; ready := r; finished := f; log := log s |}.
  Definition add_log e s := {| cmds := cmds s; cidx := cidx s; remainder := remainder s; ready := ready s; finished := finished s; log := log s ++ [e] |}.
  Definition size (s : timeline) : Z := Z.of_nat (length (cmds s)).

  Fixpoint replace_nth (l : list cmd) (i : nat) (c : cmd) : list cmd :=
    match l, i with
    | [], _ => []
    | _ :: l', 0%nat => c :: l'
    | x :: l', S i' => x :: replace_nth l' i' c
    end.
  Definition put (i : nat) (c : cmd) (s : timeline) := set_cmds (replace_nth (cmds s) i c) s.

  (** Timeline.cpp:13-16. *)
  Definition isCIdxNull (s : timeline) : bool := cidx s =? -1.
  (** Timeline.cpp:18-25: forming an iterator outside the vector is undefined. *)
  Definition next (s : timeline) : outcome timeline :=
    if isCIdxNull s then Ok s
    else
      let i := cidx s + 1 in
      if (i <? 0) || (size s <? i) then UB
      else if i =? size s then Ok (set_cidx (-1) s)
      else Ok (set_cidx i s).
  (** Timeline.cpp:32-51. *)
  Definition jumpTo (i : Z) (s : timeline) := set_cidx i s.
  Definition start (s : timeline) := set_flags true false s.
  Definition stop (s : timeline) := set_flags false true s.
  Definition clear (s : timeline) := set_flags (ready s) true (set_cidx (-1) (set_cmds [] s)).
  (** Timeline.cpp:27-30. *)
  Definition new_timeline (st : bool) : timeline :=
    let s := {| cmds := []; cidx := -1; remainder := wzero O; ready := true; finished := false; log := [] |} in
    if st then s else stop s.

  (** Command::reset (empty), Wait.cpp:26-29, Go.hpp:39-42. *)
  Definition reset_cmd (c : cmd) : cmd :=
    match c with CWait t _ => CWait t t | CGo g n _ => CGo g n n | _ => c end.
  (** Timeline.cpp:70-75. *)
  Definition reset (s : timeline) : timeline :=
    let s := start s in
    let s := set_cmds (map reset_cmd (cmds s)) s in
    set_cidx (match cmds s with [] => -1 | _ => 0 end) s.

  Definition callback_step (s : timeline) (c : callback) : timeline :=
    match c with CbJump i => jumpTo i s | CbStop => stop s | CbStart => start s | CbReset => reset s end.

  (** Command::update overrides: Wait.cpp:14-24, Wait.hpp:39-43, Do.cpp:21-25, Go.hpp:23-38 (the third
      branch there is unreachable, [currentTimes] being unsigned). [i] is the position of the command. *)
  Definition cmd_update (i : nat) (c : cmd) (ft : W) (s : timeline) : outcome timeline :=
    match c with
    | CWait time cur =>
      let s := set_flags false (finished s) s in
      let cur := wsub O cur ft in
      if wpos O cur then Ok (put i (CWait time cur) s)
      else
        let s := set_rem cur s in
        let! s := next s in
        Ok (put i (CWait time time) s)
    | CLoop w p =>
      let s := set_flags false (finished s) s in
      let b := pred p (log s) in
      let s := add_log (EPred p b) s in
      if Bool.eqb b w then Ok s else next s
    | CDo id cb =>
      let s := add_log (EDo id) s in
      next (fold_left callback_step cb s)
    | CGo g n cur =>
      if (cur =? 0)%N then next s
      else Ok (jumpTo g (put i (CGo g n (cur - 1)) s))
    end.

  (** Timeline.cpp:58-67. *)
  Fixpoint update_loop (fuel : nat) (ft : W) (s : timeline) : outcome timeline :=
    match fuel with
    | 0%nat => OutOfFuel
    | S fuel =>
      if isCIdxNull s then Ok (stop s)
      else if cidx s <? 0 then UB
      else match nth_error (cmds s) (Z.to_nat (cidx s)) with
           | None => UB
           | Some c =>
             let! s := cmd_update (Z.to_nat (cidx s)) c (wadd O ft (remainder s)) s in
             let s := set_rem (wzero O) s in
             if ready s then update_loop fuel ft s else Ok s
           end
    end.
  (** Timeline.cpp:53-57. *)
  Definition update (fuel : nat) (ft : W) (s : timeline) : outcome timeline :=
    if finished s then Ok s else update_loop fuel ft (set_flags true (finished s) s).

  (** Timeline.hpp:43-52, :59-68. *)
  Definition insert (i : Z) (c : cmd) (s : timeline) : outcome timeline :=
    if (i <? 0) || (size s <? i) then UB
    else
      let s := set_cmds (firstn (Z.to_nat i) (cmds s) ++ c :: skipn (Z.to_nat i) (cmds s)) s in
      Ok (if isCIdxNull s then set_cidx i s else s).
  Definition append (c : cmd) (s : timeline) : outcome timeline := insert (size s) c s.

  (** Timeline.cpp:81-89. *)
  Definition getCurrentIndex (s : timeline) : Z :=
    if isCIdxNull s then 0 else if cidx s <? size s then cidx s else -1.

  (** Histories of calls; an update first records the frame (visible to the predicates). *)
  Inductive op :=
  | OAppend (c : cmd) | OInsert (i : Z) (c : cmd) | OJump (i : Z) | OStart | OStop | OClear | OReset | OUpdate (ft : W).
  Definition step (fuel : nat) (o : op) (s : timeline) : outcome timeline :=
    match o with
    | OAppend c => append c s
    | OInsert i c => insert i c s
    | OJump i => Ok (jumpTo i s)
    | OStart => Ok (start s)
    | OStop => Ok (stop s)
    | OClear => Ok (clear s)
    | OReset => Ok (reset s)
    | OUpdate ft => update fuel ft (add_log (EFrame ft) s)
    end.
  Fixpoint run (fuel : nat) (ops : list op) (s : timeline) : outcome timeline :=
    match ops with
    | [] => Ok s
    | o :: ops' => let! s := step fuel o s in run fuel ops' s
    end.
End Timeline.
Arguments CWait {O}. Arguments CLoop {O}. Arguments CDo {O}. Arguments CGo {O}.
Arguments Wait {O}. Arguments WaitWhile {O}. Arguments WaitUntil {O}. Arguments Do {O}. Arguments Go {O}.
Arguments cmds {O}. Arguments cidx {O}. Arguments remainder {O}. Arguments ready {O}. Arguments finished {O}. Arguments log {O}.
Arguments OAppend {O}. Arguments OInsert {O}. Arguments OJump {O}. Arguments OStart {O}. Arguments OStop {O}.
Arguments OClear {O}. Arguments OReset {O}. Arguments OUpdate {O}.
Arguments size {O}. Arguments getCurrentIndex {O}.
