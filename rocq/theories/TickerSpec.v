(** Specification vocabulary for the ticker. *)
From Coq Require Import ZArith NArith Arith Bool List SpecFloat.
From Verif Require Import TickerModel.
Import ListNotations.

(** Sum of frame times in order, starting from zero (in the arithmetic at hand). *)
Definition fsum (O : ft_ops) (l : list (FT O)) : FT O := fold_left (fadd O) l (fzero O).
(** Number of entries up to and including the last [true] among the first [i] results: the updates from
    there on happened since the last tick. *)
Fixpoint last_tick (r : list bool) (i : nat) : nat :=
  match i with
  | 0 => 0
  | S j => if nth j r false then S j else last_tick r j
  end.
Definition count_true (l : list bool) : nat := length (filter (fun b => b) l).
(** The frame times of the updates made while the ticker was running, in a history from [t]. *)
Fixpoint running_times (O : ft_ops) (ops : list (top O)) (t : ticker O) : list (FT O) :=
  match ops with
  | [] => []
  | o :: ops' =>
    match o with
    | TUpdate _ ft | TUpdate2 _ ft _ => if running t then [ft] else []
    | _ => []
    end ++ running_times O ops' (fst (tstep O o t))
  end.

(** The frame times in a history. *)
Definition times (O : ft_ops) (ops : list (top O)) : list (FT O) :=
  flat_map (fun o => match o with TUpdate _ ft | TUpdate2 _ ft _ => [ft] | _ => [] end) ops.
(** What is asked of the arithmetic: [P] holds of zero and of every sum of the frame times [xs]; for such sums, a
    frame time multiplied by [true] is itself, and adding it multiplied by [false] changes nothing.  (Exact arithmetic
    has this for all times; single precision for all non-negative finite times: see C39_float.) *)
Definition steady (O : ft_ops) (P : FT O -> Prop) (xs : list (FT O)) : Prop :=
  P (fzero O) /\ forall c x, P c -> In x xs ->
    fmulb O x true = x /\ fadd O c (fmulb O x false) = c /\ P (fadd O c x).

(** Single precision: the frame times a program can have, and the sums they give (a sum may overflow to infinity). *)
Definition frame_time (x : spec_float) : Prop :=
  valid_binary 24 128 x = true /\ match x with S754_zero s | S754_finite s _ _ => s = false | _ => False end.
Definition time_sum (x : spec_float) : Prop :=
  match x with S754_zero s | S754_finite s _ _ | S754_infinity s => s = false | S754_nan => True end.
