(** Time counted in floats compared with time counted in whole units. *)
From Coq Require Import ZArith NArith Bool List QArith Qabs.
From Coq Require Import Floats.SpecFloat.
From Verif Require Import Common RealSpec FltSpec AngleSpec TickerModel TickerSpec TimelineModel ClockModel.
Import ListNotations.
Local Open Scope Z_scope.

(** The float [f] is [z] units of 2^k. *)
Definition units (k : Z) (f : spec_float) (z : Z) : Prop := float_is f (times_pow 2 z k).
Definition zsum (l : list Z) : Z := fold_right Z.add 0 l.
Definition qsum (l : list Q) : Q := fold_right Qplus 0%Q l.

(** The same call, times given as floats and in units; frame times not negative. *)
Inductive same_call (k : Z) : top float_ft -> top exact_ft -> Prop :=
| SUpdate x z : units k x z -> 0 <= z -> same_call k (TUpdate float_ft x) (TUpdate exact_ft z)
| SUpdate2 x z y w : units k x z -> 0 <= z -> units k y w -> same_call k (TUpdate2 float_ft x y) (TUpdate2 exact_ft z w)
| SPause : same_call k (TPause float_ft) (TPause exact_ft)
| SResume : same_call k (TResume float_ft) (TResume exact_ft)
| SStop : same_call k (TStop float_ft) (TStop exact_ft)
| SRestart : same_call k (TRestart float_ft) (TRestart exact_ft)
| SRestart1 y w : units k y w -> same_call k (TRestart1 float_ft y) (TRestart1 exact_ft w)
| SResetCurrent : same_call k (TResetCurrent float_ft) (TResetCurrent exact_ft)
| SResetTicks : same_call k (TResetTicks float_ft) (TResetTicks exact_ft)
| SResetTotal : same_call k (TResetTotal float_ft) (TResetTotal exact_ft)
| SResetAll : same_call k (TResetAll float_ft) (TResetAll exact_ft)
| SSetLoop b : same_call k (TSetLoop float_ft b) (TSetLoop exact_ft b).
(** The same ticker. *)
Definition same_ticker (k : Z) (t : ticker float_ft) (u : ticker exact_ft) : Prop :=
  units k (target t) (target u) /\ units k (current t) (current u) /\ units k (total t) (total u) /\
  running t = running u /\ loop t = loop u /\ ticks t = ticks u.

(** The same for timelines: times from nothing to 2^24 units. *)
Definition few (z : Z) : Prop := 0 <= z <= 2 ^ 24.
Inductive same_cmd (k : Z) : cmd float_wt -> cmd exact_wt -> Prop :=
| SWait t z c w : units k t z -> few z -> units k c w -> few w -> same_cmd k (CWait (O := float_wt) t c) (CWait (O := exact_wt) z w)
| SLoop b p : same_cmd k (CLoop b p) (CLoop b p)
| SDo i cb : same_cmd k (CDo i cb) (CDo i cb)
| SGo g n m : same_cmd k (CGo g n m) (CGo g n m).
Inductive same_event (k : Z) : event spec_float -> event Z -> Prop :=
| SEDo i : same_event k (EDo i) (EDo i)
| SEPred p b : same_event k (EPred p b) (EPred p b)
| SEFrame x z : units k x z -> same_event k (EFrame x) (EFrame z).
Inductive same_op (k : Z) : op float_wt -> op exact_wt -> Prop :=
| SAppend c d : same_cmd k c d -> same_op k (OAppend c) (OAppend d)
| SInsert i c d : same_cmd k c d -> same_op k (OInsert i c) (OInsert i d)
| SJump i : same_op k (OJump i) (OJump i)
| SStart : same_op k OStart OStart
| SStopT : same_op k OStop OStop
| SClear : same_op k OClear OClear
| SReset : same_op k OReset OReset
| SFrame x z : units k x z -> few z -> same_op k (OUpdate (O := float_wt) x) (OUpdate (O := exact_wt) z).
(** The same timeline: commands, position, flags and visible history. *)
Definition same_timeline (k : Z) (s : timeline float_wt) (u : timeline exact_wt) : Prop :=
  Forall2 (same_cmd k) (cmds s) (cmds u) /\ cidx s = cidx u /\ ready s = ready u /\ finished s = finished u /\
  Forall2 (same_event k) (log s) (log u).
Definition same_outcome {A B} (R : A -> B -> Prop) (a : outcome A) (b : outcome B) : Prop :=
  match a, b with
  | Ok x, Ok y => R x y
  | Throw m, Throw n => m = n
  | UB, UB => True
  | OutOfFuel, OutOfFuel => True
  | _, _ => False
  end.
(** A frame time from nothing to [B]. *)
Definition frame_upto (B : Q) (x : spec_float) : Prop := exists p, float_is x p /\ (0 <= p <= B)%Q.
