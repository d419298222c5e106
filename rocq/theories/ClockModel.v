(** Timelines with frame times in single precision. *)
From Coq Require Import ZArith Bool.
From Coq Require Import Floats.SpecFloat.
From Verif Require Import TimelineModel.

(** [FT] is [float] (Core/Common/Frametime.hpp:19): the operations of Wait.cpp:18-21 and Timeline.cpp:65 as the machine
    computes them (IEEE 754, round to nearest, ties to even; no wider intermediate results).  The ticker's are
    [float_ft] in TickerModel. *)
Definition float_wt : wt_ops :=
  {| WT := spec_float; wzero := S754_zero false; wadd := SFadd 24 128; wsub := SFsub 24 128;
     wpos := fun x => SFltb (S754_zero false) x |}.
