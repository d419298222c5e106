(** What an easing curve is: a shape on the unit interval, used forwards, point-reflected, or both. *)
From Coq Require Import ZArith QArith Bool List.
From Verif Require Import Common EaseModel.
Local Open Scope Q_scope.

(** A result that is the number [q] (rationals have several representations). *)
Definition is_num (o : outcome Q) (q : Q) : Prop := exists r, o = Ok r /\ r == q.

(** The curve of shape [P] from [b], changing by [c] over the duration [d]: the three kinds at time [t]. *)
Definition eased_in (P : Q -> Q) (t b c d : Q) : Q := b + c * P (t / d).
Definition eased_out (P : Q -> Q) (t b c d : Q) : Q := b + c * (1 - P (1 - t / d)).
(** First half: the shape at double speed and half height; second half: its point reflection. *)
Definition eased_inOut (P : Q -> Q) (t b c d : Q) (v : Q) : Prop :=
  (t / d < 1 # 2 -> v == b + c * (P (2 * (t / d)) / 2)) /\
  (1 # 2 <= t / d -> v == b + c * (1 - P (2 * (1 - t / d)) / 2)).

(** The shapes: powers of the time, one that first steps back, and a bouncing ball (four arcs of equal
    curvature, the first starting at the floor and the others between neighbouring contacts). *)
Definition power (n : Z) (u : Q) : Q := u ^ n.
Definition overshoot (s : Q) (u : Q) : Q := u ^ 2 * ((s + 1) * u - s).
Definition arcs (u : Q) : Q :=
  if Qlt_le_dec u (4 # 11) then (121 # 16) * u ^ 2
  else if Qlt_le_dec u (8 # 11) then (121 # 16) * (u - (6 # 11)) ^ 2 + (3 # 4)
  else if Qlt_le_dec u (10 # 11) then (121 # 16) * (u - (9 # 11)) ^ 2 + (15 # 16)
  else (121 # 16) * (u - (21 # 22)) ^ 2 + (63 # 64).
Definition bounce (u : Q) : Q := 1 - arcs (1 - u).

Definition shape_of (k : family) : Q -> Q :=
  match k with
  | Linear => power 1 | Quad => power 2 | Cubic => power 3 | Quart => power 4 | Quint => power 5
  | Back => overshoot (170158 # 100000)
  | Bounce => bounce
  end.
(** Back steps back further when used both ways. *)
Definition inOut_shape_of (k : family) : Q -> Q :=
  match k with Back => overshoot ((170158 # 100000) * (1525 # 1000)) | _ => shape_of k end.

(** Some number satisfying [R] is the result. *)
Definition num_with (o : outcome Q) (R : Q -> Prop) : Prop := exists r, o = Ok r /\ R r.
