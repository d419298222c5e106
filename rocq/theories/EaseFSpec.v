(** What a curve computed in single precision should do, in terms of the numbers the floats stand for. *)
From Coq Require Import ZArith QArith Qabs List.
From Coq Require Import Floats.SpecFloat.
From Verif Require Import Common RealSpec FltSpec AngleSpec EaseSpec.
Local Open Scope Q_scope.

(** A curve: the time, the start, the change and the duration give a value. *)
Definition float_curve := spec_float -> spec_float -> spec_float -> spec_float -> outcome spec_float.

(** The numbers meant: a time within the duration, a duration and a change that are not tiny, nothing huge. *)
Definition usual (t b c d : Q) : Prop := 0 <= t /\ t <= d /\ times_pow 2 1 (-100) <= d /\
  times_pow 2 1 (-100) <= c /\ c <= times_pow 2 1 100 /\ Qabs b <= times_pow 2 1 100.
(** The same, where the product of change and time must not leave the range of float either. *)
Definition modest (t b c d : Q) : Prop := 0 <= t /\ t <= d /\ times_pow 2 1 (-20) <= d /\ d <= times_pow 2 1 20 /\
  times_pow 2 1 (-40) <= c /\ c <= times_pow 2 1 40 /\ Qabs b <= times_pow 2 1 40.

(** Starts at the start, never goes back, ends at the float nearest to the end and never passes it. *)
Definition climbs (k : float_curve) : Prop := forall f f' fb fc fd t t' b c d e,
  float_is f t -> float_is f' t' -> float_is fb b -> float_is fc c -> float_is fd d ->
  usual t b c d -> usual t' b c d -> t <= t' -> nearest_float (b + c) e ->
  exists r r' q q', k f fb fc fd = Ok r /\ k f' fb fc fd = Ok r' /\ float_is r q /\ float_is r' q' /\
    b <= q /\ q <= q' /\ q' <= e /\ (t == 0 -> q == b) /\ (t' == d -> q' == e).

(** Stays close to the exact value [v]. *)
Definition follows (range : Q -> Q -> Q -> Q -> Prop) (k : float_curve) (exact : Q -> Q -> Q -> Q -> Q -> Prop) : Prop :=
  forall f fb fc fd t b c d v, float_is f t -> float_is fb b -> float_is fc c -> float_is fd d ->
  range t b c d -> exact t b c d v ->
  exists r q, k f fb fc fd = Ok r /\ float_is r q /\ Qabs (q - v) <= times_pow 2 1 (-19) * c + times_pow 2 1 (-24) * Qabs b.
Definition exact_in (n : Z) (t b c d v : Q) : Prop := v == eased_in (power n) t b c d.
Definition exact_out (n : Z) (t b c d v : Q) : Prop := v == eased_out (power n) t b c d.
Definition exact_inOut (n : Z) (t b c d v : Q) : Prop := eased_inOut (power n) t b c d v.

(** The same value with the other sign (zeros count as one). *)
Definition mirrored (r r' : outcome spec_float) : Prop := match r, r' with
  | Ok (S754_zero _), Ok (S754_zero _) => True
  | Ok x, Ok y => y = SFopp x
  | UB, UB => True
  | _, _ => False
  end.
