(** Model of moving a timeline (include/SSVUtils/Timeline): [Timeline] declares no copy or move operations, so it has the
    implicit move constructor, which moves [commands] ([PolyRecVector], movable) and copies the other members
    (Timeline.hpp:36-39).  Each command holds a reference to the timeline it was created for (Command.hpp:22,
    [insertImpl] Timeline.hpp:46 passes [*this]); moving does not change it.
    Simplified: one move; the visible history goes on in the new timeline.  What an action does to "its" timeline it does
    to the one it was created for. *)
From Coq Require Import String ZArith NArith Arith Bool Lia List.
From Verif Require Import Common TimelineModel.
Import ListNotations.
Local Open Scope Z_scope.

Local Notation "'let!' x ':=' e 'in' f" := (obind e (fun x => f)) (at level 200, x pattern, e at level 100, f at level 200, right associativity).

Section Moved.
  Context (O : wt_ops) (pred : nat -> list (event (WT O)) -> bool).
  Notation W := (WT O).
  Notation timeline := (timeline O).

  (** The new timeline, for each of its commands whether it refers to it (and not to the old one), and the old timeline
      while it exists. *)
  Record moved := { new : timeline; mine : list bool; old : option timeline }.
  (** The implicit move constructor: the vector is left empty, the other members are copied. *)
  Definition move (s : timeline) : moved :=
    {| new := s; mine := map (fun _ => false) (cmds s); old := Some (set_cmds O [] s) |}.

  (** Command updates of a command at [i] of the new timeline that refers to the old one: its own members are changed in
      place, [timeline.ready], [timeline.remainder], [timeline.next()], [timeline.jumpTo()] are those of the old one
      (Wait.cpp:14-24, Wait.hpp:39-43, Do.cpp:21-25, Go.hpp:23-38). *)
  Definition foreign_update (i : nat) (c : cmd O) (ft : W) (n o : timeline) : outcome (timeline * timeline) :=
    match c with
    | CWait time cur =>
      let o := set_flags O false (finished o) o in
      let cur := wsub O cur ft in
      if wpos O cur then Ok (put O i (CWait time cur) n, o)
      else
        let o := set_rem O cur o in
        let! o := next O o in
        Ok (put O i (CWait time time) n, o)
    | CLoop w p =>
      let o := set_flags O false (finished o) o in
      let b := pred p (log n) in
      let n := add_log O (EPred p b) n in
      if Bool.eqb b w then Ok (n, o) else let! o := next O o in Ok (n, o)
    | CDo id cb =>
      let n := add_log O (EDo id) n in
      let! o := next O (fold_left (callback_step O) cb o) in Ok (n, o)
    | CGo g times cur =>
      if (cur =? 0)%N then let! o := next O o in Ok (n, o)
      else Ok (put O i (CGo g times (cur - 1)) n, jumpTo O g o)
    end.
  (** A reference to a timeline that is no more: UB. *)
  Definition cmd_update2 (i : nat) (c : cmd O) (ft : W) (w : moved) : outcome moved :=
    if nth i (mine w) false
    then let! n := cmd_update O pred i c ft (new w) in Ok {| new := n; mine := mine w; old := old w |}
    else match old w with
         | None => UB
         | Some o => let! (n, o) := foreign_update i c ft (new w) o in Ok {| new := n; mine := mine w; old := Some o |}
         end.
  Definition set_new (n : timeline) (w : moved) : moved := {| new := n; mine := mine w; old := old w |}.

  (** Timeline.cpp:53-67 for the new timeline. *)
  Fixpoint update_loop2 (fuel : nat) (ft : W) (w : moved) : outcome moved :=
    match fuel with
    | 0%nat => OutOfFuel
    | S fuel =>
      let s := new w in
      if isCIdxNull O s then Ok (set_new (stop O s) w)
      else if cidx s <? 0 then UB
      else match nth_error (cmds s) (Z.to_nat (cidx s)) with
           | None => UB
           | Some c =>
             let! w := cmd_update2 (Z.to_nat (cidx s)) c (wadd O ft (remainder s)) w in
             let w := set_new (set_rem O (wzero O) (new w)) w in
             if ready (new w) then update_loop2 fuel ft w else Ok w
           end
    end.
  Definition update2 (fuel : nat) (ft : W) (w : moved) : outcome moved :=
    if finished (new w) then Ok w else update_loop2 fuel ft (set_new (set_flags O true (finished (new w)) (new w)) w).

  (** Calls on the new timeline: commands added now refer to it (Timeline.hpp:43-52); [clear] removes all
      (Timeline.cpp:41-46); the others as before. *)
  Definition step2 (fuel : nat) (o : op O) (w : moved) : outcome moved :=
    match o with
    | OAppend c => let! n := append O c (new w) in Ok {| new := n; mine := mine w ++ [true]; old := old w |}
    | OInsert i c =>
      let! n := insert O i c (new w) in
      Ok {| new := n; mine := firstn (Z.to_nat i) (mine w) ++ true :: skipn (Z.to_nat i) (mine w); old := old w |}
    | OJump i => Ok (set_new (jumpTo O i (new w)) w)
    | OStart => Ok (set_new (start O (new w)) w)
    | OStop => Ok (set_new (stop O (new w)) w)
    | OClear => Ok {| new := clear O (new w); mine := []; old := old w |}
    | OReset => Ok (set_new (reset O (new w)) w)
    | OUpdate ft => update2 fuel ft (set_new (add_log O (EFrame ft) (new w)) w)
    end.
  (** The end of the old timeline. *)
  Definition destroy_old (w : moved) : moved := {| new := new w; mine := mine w; old := None |}.
  Fixpoint run2 (fuel : nat) (ops : list (op O)) (w : moved) : outcome moved :=
    match ops with
    | [] => Ok w
    | o :: ops' => let! w := step2 fuel o w in run2 fuel ops' w
    end.
End Moved.
Arguments new {O}. Arguments mine {O}. Arguments old {O}.
