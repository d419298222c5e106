(** Floats as rational numbers, and angles. *)
From Coq Require Import ZArith Bool QArith Qabs.
From Coq Require Import Floats.SpecFloat.
From Verif Require Import RealSpec FltSpec.
Local Open Scope Q_scope.

(** [f] is a finite float of value [q]. *)
Definition float_is (f : spec_float) (q : Q) : Prop := valid_binary 24 128 f = true /\ has_value f q.
(** Numbers not rounded to infinity: below half a step above the greatest float. *)
Definition in_range (x : Q) : Prop := Qabs x < times_pow 2 (2 ^ 25 - 1) 103.
(** [f] is the float nearest to [x] (infinity beyond the range). *)
Definition float_of (x : Q) (f : spec_float) : Prop :=
  in_range x /\ (exists q, float_is f q /\ nearest_float x q) \/ ~ in_range x /\ f = S754_infinity (if Qlt_le_dec x 0 then true else false).
(** The same direction: differing by whole turns. *)
Definition same_direction (a b : Q) : Prop := exists k : Z, a == b + 360 * inject_Z k.
(** The angle between two directions: at most half a turn. *)
Definition angle_between (a b d : Q) : Prop := 0 <= d <= 180 /\ (same_direction (a + d) b \/ same_direction (a - d) b).
