(** Model of include/SSVUtils/Ticker/Inc/Ticker.hpp and Src/Ticker.cpp, over any arithmetic of frame
    times: [FT] is [float] in the code (Frametime.hpp:21); the theorems are stated for every type with
    the operations the code uses, so they cover rounded arithmetic as well as exact arithmetic. *)
From Coq Require Import ZArith NArith Arith Bool Lia List SpecFloat.
Import ListNotations.

(** The operations of [FT] used: [0.f], [+], [<] and [mFT * running] (a [bool] converted to 0 or 1). *)
Record ft_ops := { FT : Type; fzero : FT; fadd : FT -> FT -> FT; flt : FT -> FT -> bool; fmulb : FT -> bool -> FT }.

Section Ticker.
  Context (O : ft_ops).
  Notation F := (FT O).
  (** Ticker.hpp:17-20. *)
  Record ticker := { target : F; current : F; total : F; running : bool; loop : bool; ticks : N }.
  (** Ticker.cpp:11-14. *)
  Definition new_ticker (t : F) (r : bool) : ticker :=
    {| target := t; current := fzero O; total := fzero O; running := r; loop := true; ticks := 0 |}.
  Definition SIZE_WRAP : N := 18446744073709551616.

  (** Ticker.cpp:16-28. *)
  Definition update (ft : F) (t : ticker) : ticker * bool :=
    let increment := fmulb O ft (running t) in
    let c := fadd O (current t) increment in
    let tot := fadd O (total t) increment in
    if flt O c (target t) then
      ({| target := target t; current := c; total := tot; running := running t; loop := loop t; ticks := ticks t |}, false)
    else
      ({| target := target t; current := fzero O; total := tot; running := loop t; loop := loop t;
          ticks := (ticks t + 1) mod SIZE_WRAP |}, true).
  (** Ticker.cpp:29-33. *)
  Definition set_target (x : F) (t : ticker) : ticker :=
    {| target := x; current := current t; total := total t; running := running t; loop := loop t; ticks := ticks t |}.
  Definition update2 (ft x : F) (t : ticker) : ticker * bool := update ft (set_target x t).
  (** Ticker.cpp:35-82. *)
  Definition set_running (b : bool) (t : ticker) : ticker :=
    {| target := target t; current := current t; total := total t; running := b; loop := loop t; ticks := ticks t |}.
  Definition pause := set_running false.
  Definition resume := set_running true.
  Definition resetCurrent (t : ticker) : ticker :=
    {| target := target t; current := fzero O; total := total t; running := running t; loop := loop t; ticks := ticks t |}.
  Definition resetTicks (t : ticker) : ticker :=
    {| target := target t; current := current t; total := total t; running := running t; loop := loop t; ticks := 0 |}.
  Definition resetTotal (t : ticker) : ticker :=
    {| target := target t; current := current t; total := fzero O; running := running t; loop := loop t; ticks := ticks t |}.
  Definition resetAll (t : ticker) : ticker := resetTotal (resetTicks (resetCurrent t)).
  Definition stop (t : ticker) : ticker := pause (resetCurrent t).
  Definition restart (t : ticker) : ticker := resume (resetCurrent t).
  Definition restart1 (x : F) (t : ticker) : ticker := restart (set_target x t).
  Definition setLoop (b : bool) (t : ticker) : ticker :=
    {| target := target t; current := current t; total := total t; running := running t; loop := b; ticks := ticks t |}.

  (** Histories of calls. *)
  Inductive top :=
  | TUpdate (ft : F) | TUpdate2 (ft x : F) | TPause | TResume | TStop | TRestart | TRestart1 (x : F)
  | TResetCurrent | TResetTicks | TResetTotal | TResetAll | TSetLoop (b : bool).
  (** New state, and the returned value for the two update functions. *)
  Definition tstep (o : top) (t : ticker) : ticker * option bool :=
    match o with
    | TUpdate ft => let '(t, b) := update ft t in (t, Some b)
    | TUpdate2 ft x => let '(t, b) := update2 ft x t in (t, Some b)
    | TPause => (pause t, None)
    | TResume => (resume t, None)
    | TStop => (stop t, None)
    | TRestart => (restart t, None)
    | TRestart1 x => (restart1 x t, None)
    | TResetCurrent => (resetCurrent t, None)
    | TResetTicks => (resetTicks t, None)
    | TResetTotal => (resetTotal t, None)
    | TResetAll => (resetAll t, None)
    | TSetLoop b => (setLoop b t, None)
    end.
  (** Final state and the returned values, one entry per call. *)
  Fixpoint trun (ops : list top) (t : ticker) : ticker * list (option bool) :=
    match ops with
    | [] => (t, [])
    | o :: ops' => let '(t1, r) := tstep o t in let '(t2, rs) := trun ops' t1 in (t2, r :: rs)
    end.
End Ticker.
Arguments target {O}. Arguments current {O}. Arguments total {O}. Arguments running {O}. Arguments loop {O}. Arguments ticks {O}.

(** Exact arithmetic in an integral unit, and IEEE single precision (round to nearest even). *)
Definition exact_ft : ft_ops :=
  {| FT := Z; fzero := 0%Z; fadd := Z.add; flt := Z.ltb; fmulb := fun x b => (x * (if b then 1 else 0))%Z |}.
Definition f32_1 : spec_float := S754_finite false 8388608 (-23).
Definition float_ft : ft_ops :=
  {| FT := spec_float; fzero := S754_zero false; fadd := SFadd 24 128; flt := SFltb;
     fmulb := fun x b => SFmul 24 128 x (if b then f32_1 else S754_zero false) |}.
