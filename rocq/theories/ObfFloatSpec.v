(** What an obfuscated float keeps of the values given to it. *)
From Coq Require Import ZArith Bool List QArith Qabs.
From Coq Require Import Floats.SpecFloat.
From Verif Require Import Common RealSpec FltSpec AngleSpec ObfModel ObfFloatModel.
Import ListNotations.
Local Open Scope Q_scope.

(** [g] is what is left of [f]: the float nearest to [f] rounded to six decimal digits, both with ties to even, with the
    sign of [f]; a zero stays as it is; of infinities and NaNs nothing but 0 is left. *)
Definition kept (f g : spec_float) : Prop :=
  match f with
  | S754_finite neg _ _ => exists q r y, has_value f q /\ nearest_six (Qabs q) r /\ nearest_float (if neg then - r else r) y /\
      float_is g y /\ has_sign g neg
  | S754_zero s => g = S754_zero s
  | S754_infinity _ | S754_nan => g = S754_zero false
  end.

(** The result of one operation on a plain float. *)
Definition plain (cur : spec_float) (op : obff_op) : spec_float :=
  match op with
  | FSet v => v
  | FBin Add v => SFadd 24 128 cur v
  | FBin Sub v => SFsub 24 128 cur v
  | FBin Mul v => SFmul 24 128 cur v
  | FBin Div v => SFdiv 24 128 cur v
  end.
Fixpoint plain_history (cur : spec_float) (h : list obff_op) : list spec_float :=
  cur :: match h with [] => [] | op :: h => plain_history (plain cur op) h end.
(** The values of an obfuscated one: in every step the result of the operation on the value before loses its digits. *)
Fixpoint obf_history (cur : spec_float) (h : list obff_op) (vs : list spec_float) : Prop :=
  match h, vs with
  | [], [] => True
  | op :: h, v :: vs => kept (plain cur op) v /\ obf_history v h vs
  | _, _ => False
  end.
(** Operands are floats; divisors are not zero. *)
Definition operand (op : obff_op) : Prop :=
  match op with
  | FSet v | FBin _ v => valid_binary 24 128 v = true /\ match op with FBin Div _ => ~ has_value v 0 | _ => True end
  end.
(** Floats that lose nothing: zeros and those nearest to a decimal of six digits. *)
Definition six_float_value (f : spec_float) : Prop :=
  exists q, float_is f q /\ (q == 0 \/ exists x, is_six x /\ in_range x /\ nearest_float x q).
