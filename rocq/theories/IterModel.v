(** Loops over a manager ([for(auto& t : manager)], ManagerImpl.hpp:22-65, 275-290) whose bodies use the manager, and the
    one loop of the library: [TimelineManager::update] (Timeline/Src/TimelineManager.cpp:12-21), whose timelines may run
    actions that create timelines.  Managers are those of ReMgrModel, with destructors that do not use them. *)
From Coq Require Import Arith Bool List.
From Verif Require Import Common ReMgrModel.
Import ListNotations.

Local Notation "'let!' x ':=' e 'in' f" := (obind e (fun x => f)) (at level 200, x pattern, e at level 100, f at level 200, right associativity).

Definition quiet (id : nat) : list act := [].

(** What a loop body does: [create], [del] of an object, a use of [t], [refresh], [clear]. *)
Inductive vact := VNew | VDel (k : nat) | VUse | VRefresh | VClear.

(** [t] refers to slot [i] of the array that had [c] slots when [t] was bound (ManagerImpl.hpp:219-226 [getDataAt]).
    Growing (GrowableArray.hpp:41-48) makes another array, with more slots, and frees that one: using [t] is then UB, as
    is using a slot or an object that was destroyed. *)
Definition read_slot (c i : nat) (s : st) : outcome nat :=
  if cap s =? c then
    match nth_error (slots s) i with
    | Some (Some id) => match nth_error (objs s) id with Some (There _) => Ok id | _ => UB end
    | _ => UB
    end
  else UB.
(** The objects used are written down in [ev]. *)
Definition do_vact (c i : nat) (a : vact) (x : st * list nat) : outcome (st * list nat) :=
  let (s, ev) := x in
  match a with
  | VNew => let! s := do_act false (ANew []) s in Ok (s, ev)
  | VDel k => let! s := del k s in Ok (s, ev)
  | VUse => let! id := read_slot c i s in Ok (s, ev ++ [id])
  | VRefresh => let! s := refresh quiet false s in Ok (s, ev)
  | VClear => let! s := clear quiet s in Ok (s, ev)
  end.
Fixpoint do_vacts (c i : nat) (l : list vact) (x : st * list nat) : outcome (st * list nat) :=
  match l with [] => Ok x | a :: l' => let! x := do_vact c i a x in do_vacts c i l' x end.

Section Loop.
(** What the body does, by the object it is run for (found through [t]). *)
Variable body : nat -> list vact.
Definition visit (i : nat) (x : st * list nat) : outcome (st * list nat) :=
  let (s, ev) := x in
  let c := cap s in
  let! id := read_slot c i s in
  do_vacts c i (body id) (s, ev ++ [id]).
(** [n] steps from index [i]. *)
Fixpoint visits (n i : nat) (x : st * list nat) : outcome (st * list nat) :=
  match n with O => Ok x | S n => let! x := visit i x in visits n (i + 1) x end.
(** [end()] is taken once, before the first step. *)
Definition iterate (s : st) : outcome (st * list nat) := visits (vis s) 0 (s, []).
End Loop.

(** Timeline/Src/TimelineManager.cpp:12-21 [update].  [upd id tick]: how many timelines the actions of timeline [id] create
    when it is updated for the [tick]-th time round, and whether it is finished then (the timelines themselves are in
    TimelineModel; what else their actions do is of no account here). *)
Section Timelines.
Variable upd : nat -> nat -> nat * bool.
Definition tl_body (tick id : nat) : list vact :=
  let (n, fin) := upd id tick in repeat VNew n ++ VUse :: (if fin then [VUse; VDel id] else []).
Definition tm_update (debug : bool) (tick : nat) (s : st) : outcome (st * list nat) :=
  let! s := refresh quiet debug s in iterate (tl_body tick) s.
(** Histories: [TCreate] from outside (TimelineManager.cpp:22-25), [TUpdate], [TClear] (26-29). *)
Inductive top := TCreate | TUpdate (debug : bool) | TClear.
Record tmst := { mg : st; tick : nat }.
Definition tstep (o : top) (m : tmst) : outcome tmst :=
  match o with
  | TCreate => let! s := do_act false (ANew []) (mg m) in Ok {| mg := s; tick := tick m |}
  | TUpdate debug => let! (s, _) := tm_update debug (tick m) (mg m) in Ok {| mg := s; tick := tick m + 1 |}
  | TClear => let! s := clear quiet (mg m) in Ok {| mg := s; tick := tick m |}
  end.
Fixpoint trun (ops : list top) (m : tmst) : outcome tmst :=
  match ops with [] => Ok m | o :: ops' => let! m := tstep o m in trun ops' m end.
Definition tfresh : tmst := {| mg := fresh; tick := 0 |}.
End Timelines.
