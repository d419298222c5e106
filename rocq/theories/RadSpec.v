(** Angles in radians, for a given full turn. *)
From Coq Require Import ZArith QArith Qabs.
Local Open Scope Q_scope.

(** Numbers between which 2 pi lies, and the float that stands for it, 6.28318548202514648. *)
Definition full_turn (t : Q) : Prop := 628318530717 # 100000000000 < t /\ t < 628318530718 # 100000000000.
Definition float_turn : Q := 13176795 # 2097152.
(** The same direction, and the angle between two directions, for a full turn of [t]. *)
Definition same_upto (t a b : Q) : Prop := exists k : Z, a == b + t * inject_Z k.
Definition angle_upto (t a b d : Q) : Prop := 0 <= d /\ 2 * d <= t /\ (same_upto t (a + d) b \/ same_upto t (a - d) b).
