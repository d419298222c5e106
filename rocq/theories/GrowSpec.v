(** A list of steps still to do, to which actions add. *)
From Coq Require Import ZArith NArith Arith Bool List.
From Verif Require Import TimelineModel TimelineSpec GrowModel.
Import ListNotations.

Section Spec.
  Context (O : wt_ops) (pred : nat -> list (event (WT O)) -> bool).
  Notation W := (WT O).
  (** Add a step as the last, or behind the next [k]. *)
  Inductive add := AddLast (x : lin O) | AddAfter (k : nat) (x : lin O).
  Context (adds : nat -> list (event W) -> list add).

  Inductive added : list add -> list (lin O) -> list (lin O) -> Prop :=
  | added_nil : forall q, added [] q q
  | added_last : forall x l q q', added l (q ++ [x]) q' -> added (AddLast x :: l) q q'
  | added_after : forall k x l q1 q2 q', length q1 = k -> added l (q1 ++ x :: q2) q' -> added (AddAfter k x :: l) (q1 ++ q2) q'.

  (** One update: [plays ft q h q' h' fin]: from steps [q] and history [h], steps [q'] are left, and whether the end was met. *)
  Inductive plays (ft : W) : list (lin O) -> list (event W) -> list (lin O) -> list (event W) -> bool -> Prop :=
  | plays_end : forall h, plays ft [] h [] h true
  | plays_do : forall e q h q1 q' h' fin, added (adds e (h ++ [EDo e])) q q1 -> plays ft q1 (h ++ [EDo e]) q' h' fin ->
      plays ft (LDo e :: q) h q' h' fin
  | plays_wait : forall t q h, plays ft (LWait t :: q) h (if wpos O (wsub O t ft) then LWait (wsub O t ft) :: q else q) h false
  | plays_loop : forall w p q h, plays ft (LLoop w p :: q) h (if Bool.eqb (pred p h) w then LLoop w p :: q else q) (h ++ [EPred p (pred p h)]) false.
  (** Several updates; once the end was met they do nothing. *)
  Inductive plays_all : list W -> list (lin O) -> list (event W) -> bool -> list (lin O) -> list (event W) -> bool -> Prop :=
  | all_nil : forall q h fin, plays_all [] q h fin q h fin
  | all_go : forall ft fts q h q1 h1 f1 q' h' f', plays ft q (h ++ [EFrame ft]) q1 h1 f1 -> plays_all fts q1 h1 f1 q' h' f' ->
      plays_all (ft :: fts) q h false q' h' f'
  | all_done : forall ft fts q h q' h' f', plays_all fts q (h ++ [EFrame ft]) true q' h' f' -> plays_all (ft :: fts) q h true q' h' f'.

  (** The calls such an action makes. *)
  Definition to_change (a : add) : change O :=
    match a with AddLast x => ChAppend (to_cmd O x) | AddAfter k x => ChPut (Z.of_nat k) (to_cmd O x) end.
  (** The actions among some commands. *)
  Definition command_actions (cs : list (cmd O)) : list nat := flat_map (fun c => match c with CDo id _ => [id] | _ => [] end) cs.
End Spec.
Arguments AddLast {O}. Arguments AddAfter {O}.
