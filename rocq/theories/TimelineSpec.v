(** What a timeline should do: a straight list of steps, executed in order.  Independent of the
    implementation's index, counters and flags. *)
From Coq Require Import ZArith NArith Arith Bool List.
From Verif Require Import TimelineModel.
Import ListNotations.

Definition zsum (l : list Z) : Z := fold_right Z.add 0%Z l.

Section Spec.
  Context (O : wt_ops) (pred : nat -> list (event (WT O)) -> bool).
  Notation W := (WT O).

  (** Wait for [left] more time; wait while/until a predicate; run an action. *)
  #[local] Open Scope nat_scope.
  Inductive lin := LWait (left : W) | LLoop (while : bool) (p : nat) | LDo (id : nat).

  (** One update with frame time [ft]: actions run until a wait is met; the wait consumes the frame and
      ends the update, whether it completes or not.  The result: steps left, history, and whether the end
      was met (nothing was left to do). *)
  Fixpoint lin_update (ft : W) (l : list lin) (h : list (event W)) : list lin * list (event W) * bool :=
    match l with
    | [] => ([], h, true)
    | LDo e :: r => lin_update ft r (h ++ [EDo e])
    | LWait t :: r => let t' := wsub O t ft in ((if wpos O t' then LWait t' :: r else r), h, false)
    | LLoop w p :: r =>
      let b := pred p h in ((if Bool.eqb b w then LLoop w p :: r else r), h ++ [EPred p b], false)
    end.
  (** Several updates; once the end was met updates do nothing. *)
  Fixpoint lin_run (fts : list W) (l : list lin) (h : list (event W)) (fin : bool) : list lin * list (event W) * bool :=
    match fts with
    | [] => (l, h, fin)
    | ft :: fts' =>
      let h := h ++ [EFrame ft] in
      if fin then lin_run fts' l h true
      else let '(l, h, fin) := lin_update ft l h in lin_run fts' l h fin
    end.

  (** The straight-line commands: waits, predicate waits and actions not touching the timeline. *)
  Definition to_cmd (x : lin) : cmd O :=
    match x with LWait t => Wait t | LLoop w p => CLoop w p | LDo e => Do e end.

  (** The actions of a list of steps, and of a history. *)
  Fixpoint actions (l : list lin) : list nat :=
    match l with [] => [] | LDo e :: r => e :: actions r | _ :: r => actions r end.
  Fixpoint done (h : list (event W)) : list nat :=
    match h with [] => [] | EDo e :: r => e :: done r | _ :: r => done r end.
  (** [n] copies of a block. *)
  Definition block (B : list lin) (n : N) : list lin := N.iter n (fun l => B ++ l) [].

  (** Any history of calls on a timeline of such commands: the steps it holds, those still to do, the history, and
      whether it is finished.  Steps may be appended at any time, also after the end was met (then [start] is needed
      to go on). *)
  Inductive lop := LAppend (x : lin) | LUpdate (ft : W) | LStart | LStop | LReset | LClear.
  Definition lin_step (st : list lin * list lin * list (event W) * bool) (o : lop) : list lin * list lin * list (event W) * bool :=
    let '(A, l, h, fin) := st in
    match o with
    | LAppend x => (A ++ [x], l ++ [x], h, fin)
    | LUpdate ft => let '(l, h, fin) := lin_run [ft] l h fin in (A, l, h, fin)
    | LStart => (A, l, h, false)
    | LStop => (A, l, h, true)
    | LReset => (A, A, h, false)
    | LClear => ([], [], h, true)
    end.
  Definition to_op (o : lop) : op O :=
    match o with
    | LAppend x => OAppend (to_cmd x) | LUpdate ft => OUpdate ft | LStart => OStart | LStop => OStop
    | LReset => OReset | LClear => OClear
    end.

  (** What a program with jumps amounts to: [unroll cs i L] says that executing the commands [cs] from
      index [i] ([-1]: the end) amounts to the straight list [L].  A wait is re-armed when passed; a Go
      falls through when its counter is 0, else counts down and jumps. *)
  Definition after (cs : list (cmd O)) (i : nat) : Z :=
    if S i =? length cs then (-1)%Z else Z.of_nat (S i).
  Definition change (cs : list (cmd O)) (i : nat) (c : cmd O) : list (cmd O) := firstn i cs ++ c :: skipn (S i) cs.
  Inductive unroll : list (cmd O) -> Z -> list lin -> Prop :=
  | U_end : forall cs, unroll cs (-1) []
  | U_wait : forall cs i t c L, nth_error cs i = Some (CWait t c) ->
      unroll (change cs i (CWait t t)) (after cs i) L -> unroll cs (Z.of_nat i) (LWait c :: L)
  | U_loop : forall cs i w p L, nth_error cs i = Some (CLoop w p) ->
      unroll cs (after cs i) L -> unroll cs (Z.of_nat i) (LLoop w p :: L)
  | U_do : forall cs i e L, nth_error cs i = Some (CDo e []) ->
      unroll cs (after cs i) L -> unroll cs (Z.of_nat i) (LDo e :: L)
  | U_go_through : forall cs i g n L, nth_error cs i = Some (CGo g n 0) ->
      unroll cs (after cs i) L -> unroll cs (Z.of_nat i) L
  | U_go_jump : forall cs i g n k L, nth_error cs i = Some (CGo g n (N.succ k)) ->
      unroll (change cs i (CGo g n k)) g L -> unroll cs (Z.of_nat i) L.
  Definition first_index (cs : list (cmd O)) : Z := match cs with [] => (-1)%Z | _ => 0%Z end.

  (** Valid histories (property on indices): [sz] commands present, [mx] the highest index any command
      present may jump to. *)
  Definition cb_max (c : callback) : Z := match c with CbJump i => i | _ => (-1)%Z end.
  Definition cb_ok (c : callback) : Prop := match c with CbJump i => (-1 <= i)%Z | _ => True end.
  Definition cmd_max (c : cmd O) : Z :=
    match c with CGo g _ _ => g | CDo _ cb => fold_right (fun c m => Z.max (cb_max c) m) (-1)%Z cb | _ => (-1)%Z end.
  Definition cmd_ok (c : cmd O) : Prop :=
    match c with CGo g _ _ => (-1 <= g)%Z | CDo _ cb => Forall cb_ok cb | _ => True end.
  Fixpoint hist_ok (sz mx : Z) (ops : list (op O)) : Prop :=
    match ops with
    | [] => True
    | OAppend c :: r => cmd_ok c /\ hist_ok (sz + 1) (Z.max mx (cmd_max c)) r
    | OInsert i c :: r => (0 <= i <= sz)%Z /\ cmd_ok c /\ hist_ok (sz + 1) (Z.max mx (cmd_max c)) r
    | OJump i :: r => (-1 <= i < sz)%Z /\ hist_ok sz mx r
    | OClear :: r => hist_ok 0 (-1) r
    | OUpdate _ :: r => (mx < sz)%Z /\ hist_ok sz mx r
    | _ :: r => hist_ok sz mx r
    end.
End Spec.
Arguments LAppend {O}. Arguments LUpdate {O}. Arguments LStart {O}. Arguments LStop {O}. Arguments LReset {O}. Arguments LClear {O}.
Arguments LWait {O}. Arguments LLoop {O}. Arguments LDo {O}.
