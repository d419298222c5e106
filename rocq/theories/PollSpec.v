(** A list of steps still to do, to which actions and predicates add. *)
From Coq Require Import ZArith NArith Arith Bool List.
From Verif Require Import TimelineModel TimelineSpec GrowModel GrowSpec.
Import ListNotations.

Section Spec.
  Context (O : wt_ops) (pred : nat -> list (event (WT O)) -> bool) (adds padds : nat -> list (event (WT O)) -> list (add O)).
  Notation W := (WT O).
  (** One update: [polls ft q h q' h' fin]: from steps [q] and history [h], steps [q'] are left, and whether the end was met.
      What a predicate adds comes behind its own step, whether that step stays or not. *)
  Inductive polls (ft : W) : list (lin O) -> list (event W) -> list (lin O) -> list (event W) -> bool -> Prop :=
  | polls_end : forall h, polls ft [] h [] h true
  | polls_do : forall e q h q1 q' h' fin, added O (adds e (h ++ [EDo e])) q q1 -> polls ft q1 (h ++ [EDo e]) q' h' fin ->
      polls ft (LDo e :: q) h q' h' fin
  | polls_wait : forall t q h, polls ft (LWait t :: q) h (if wpos O (wsub O t ft) then LWait (wsub O t ft) :: q else q) h false
  | polls_loop : forall w p q h q1, added O (padds p (h ++ [EPred p (pred p h)])) q q1 ->
      polls ft (LLoop w p :: q) h (if Bool.eqb (pred p h) w then LLoop w p :: q1 else q1) (h ++ [EPred p (pred p h)]) false.
  Inductive polls_all : list W -> list (lin O) -> list (event W) -> bool -> list (lin O) -> list (event W) -> bool -> Prop :=
  | pall_nil : forall q h fin, polls_all [] q h fin q h fin
  | pall_go : forall ft fts q h q1 h1 f1 q' h' f', polls ft q (h ++ [EFrame ft]) q1 h1 f1 -> polls_all fts q1 h1 f1 q' h' f' ->
      polls_all (ft :: fts) q h false q' h' f'
  | pall_done : forall ft fts q h q' h' f', polls_all fts q (h ++ [EFrame ft]) true q' h' f' -> polls_all (ft :: fts) q h true q' h' f'.
End Spec.
(** The timeline is at command [i], a WaitWhile ([w]) or WaitUntil on predicate [p], and has not ended. *)
Definition asks {O} (s : timeline O) (i : nat) (w : bool) (p : nat) : Prop :=
  finished s = false /\ cidx s = Z.of_nat i /\ nth_error (cmds s) i = Some (CLoop w p).
(** Where a timeline of [n] commands is after a predicate that left it at [j]: there if the wait goes on, else one further (-1: the end). *)
Definition after (n j : Z) (waits : bool) : Z := if waits then j else if (j + 1 =? n)%Z then (-1)%Z else (j + 1)%Z.
