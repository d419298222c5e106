(** Property C80: random integers. *)
From Coq Require Import String ZArith Bool List.
From Verif Require Import Common CInt MplModel RndModel RndSpec RndProofs.
Local Open Scope Z_scope.

(** C80: whatever integers types the bounds have (not the same type narrower than int), if the common type is
    signed or the lower bound not negative, and lower < upper, the number is at least lower and less
    than upper, and has the common type. *)
Theorem C80_range : forall E (dist : ity -> Z -> Z -> E -> E * Z) t1 t2 CT lo hi e, honest dist ->
  (forall s b, t1 = Narrow s b \/ t2 = Narrow s b -> 1 <= b <= 16) -> avalue t1 lo -> avalue t2 hi ->
  acommon t1 t2 = Wide CT -> is_signed CT = true \/ 0 <= lo -> lo < hi ->
  exists e' v, getRndI dist t1 t2 lo hi e = Ok (e', (CT, v)) /\ lo <= v < hi.
Proof. exact rnd_types. Qed.
Print Assumptions C80_range.
Example C80_range_case : getRndI (fun _ lo hi e => (e + 1, lo + e mod (hi - lo + 1))) (Wide I32) (Narrow true 16) (-5) 10 44 = Ok (45, (I32, 9)) /\
  getRndI (fun _ lo hi e => (e + 1, lo + e mod (hi - lo + 1))) (Wide I32) (Wide I32) 0 1 44 = Ok (45, (I32, 0)).
Proof. split; reflexivity. Qed.
(** C80: no number of the range is left out: what is drawn is the distribution over exactly lower ... upper - 1;
    and bounds that are not lower < upper fail the assertion. *)
Theorem C80_exact : forall E (dist : ity -> Z -> Z -> E -> E * Z) t1 t2 CT lo hi e,
  acommon t1 t2 = Wide CT -> has_type CT lo -> has_type CT hi ->
  getRndI dist t1 t2 lo hi e = if lo <? hi then Ok (let '(e, v) := dist CT lo (hi - 1) e in (e, (CT, v))) else UB.
Proof. exact rnd_exact. Qed.
Print Assumptions C80_exact.
(** C80: a random sign is 1 or -1, each from one of the two draws; for an unsigned type the largest value takes the
    place of -1. *)
Theorem C80_sign : forall E (dist : ity -> Z -> Z -> E -> E * Z) T e, honest dist ->
  exists e', (getRndSign dist T e = (e', (T, 1)) \/ getRndSign dist T e = (e', (T, if is_signed T then -1 else imax T))) /\
    e' = fst (dist T 0 1 e) /\ (getRndSign dist T e = (e', (T, 1)) <-> snd (dist T 0 1 e) = 0).
Proof. exact sign_signed. Qed.
Print Assumptions C80_sign.
Example C80_sign_case : getRndSign (fun _ lo hi e => (e, hi)) I64 tt = (tt, (I64, -1)) /\ getRndSign (fun _ lo hi e => (e, lo)) I64 tt = (tt, (I64, 1)).
Proof. split; reflexivity. Qed.

(** C80 fails: a negative lower bound with an unsigned upper one fails the assertion, or gives numbers of another
    range. *)
Theorem C80_mixed_refuted : forall E (dist : ity -> Z -> Z -> E -> E * Z) e,
  getRndI dist (Wide I32) (Wide U32) (-1) 5 e = UB /\
  getRndI dist (Wide I32) (Wide U32) (-3) 4294967295 e = Ok (let '(e, v) := dist U32 4294967293 4294967294 e in (e, (U32, v))).
Proof. intros E dist e. split; [reflexivity|]. cbn. destruct (dist U32 4294967293 4294967294 e). reflexivity. Qed.
Print Assumptions C80_mixed_refuted.
(** C80 fails: bounds of the same type narrower than int do not compile. *)
Theorem C80_narrow_refuted : forall E (dist : ity -> Z -> Z -> E -> E * Z) s b lo hi e,
  getRndI dist (Narrow s b) (Narrow s b) lo hi e = Throw "does not compile"%string.
Proof. intros E dist s b lo hi e. unfold getRndI. cbn [acommon]. rewrite Bool.eqb_reflx, Z.eqb_refl. reflexivity. Qed.
Print Assumptions C80_narrow_refuted.
(** C80 fails: random signs of an unsigned type are never -1. *)
Theorem C80_unsigned_sign_refuted : getRndSign (fun _ lo hi e => (e, hi)) U32 tt = (tt, (U32, 4294967295)).
Proof. reflexivity. Qed.
Print Assumptions C80_unsigned_sign_refuted.
