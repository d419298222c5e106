(** C++ integer arithmetic on LP64: the four types of rank at least [int] (narrower operands are
    promoted to [int] before any operation), usual arithmetic conversions, signed overflow as UB,
    unsigned wrap-around, truncated division. *)
From Coq Require Import String Ascii ZArith NArith Arith Bool Lia List.
From Verif Require Import Common.
Local Open Scope Z_scope.

Inductive ity := I32 | U32 | I64 | U64.
Definition is_signed (t : ity) : bool := match t with I32 | I64 => true | _ => false end.
Definition imin (t : ity) : Z := match t with I32 => INT_MIN | I64 => LONG_MIN | _ => 0 end.
Definition imax (t : ity) : Z :=
  match t with I32 => INT_MAX | I64 => LONG_MAX | U32 => UINT_MOD - 1 | U64 => ULONG_MOD - 1 end.
Definition imod (t : ity) : Z := match t with I32 | U32 => UINT_MOD | _ => ULONG_MOD end.

(** Values of the type. *)
Definition has_type (t : ity) (z : Z) : Prop := imin t <= z <= imax t.
Definition in_ity (t : ity) (z : Z) : bool := (imin t <=? z) && (z <=? imax t).

(** Conversion to an integer type (modular). *)
Definition cvt (t : ity) (z : Z) : Z :=
  match t with I32 => to_i32 z | U32 => to_u32 z | I64 => to_i64 z | U64 => to_u64 z end.

(** Usual arithmetic conversions ([std::common_type] of the operands). *)
Definition common (a b : ity) : ity :=
  match a, b with
  | U64, _ | _, U64 => U64
  | I64, _ | _, I64 => I64
  | U32, _ | _, U32 => U32
  | I32, I32 => I32
  end.

(** Result of an arithmetic operation computed exactly as [z] at type [t]. *)
Definition fit (t : ity) (z : Z) : outcome Z :=
  if is_signed t then (if in_ity t z then Ok z else UB) else Ok (z mod imod t).

(** Typed values and operators. *)
Definition tv := (ity * Z)%type.
Definition binop_z (f : Z -> Z -> Z) (a b : tv) : outcome tv :=
  let t := common (fst a) (fst b) in
  obind (fit t (f (cvt t (snd a)) (cvt t (snd b)))) (fun z => Ok (t, z)).
Definition cadd := binop_z Z.add.
Definition csub := binop_z Z.sub.
Definition cmul := binop_z Z.mul.
Definition cdiv (a b : tv) : outcome tv :=
  if cvt (common (fst a) (fst b)) (snd b) =? 0 then UB else binop_z Z.quot a b.
(** The remainder is UB when the quotient is not representable. *)
Definition crem (a b : tv) : outcome tv :=
  obind (cdiv a b) (fun _ => binop_z Z.rem a b).
Definition ccmp (f : Z -> Z -> bool) (a b : tv) : bool :=
  let t := common (fst a) (fst b) in f (cvt t (snd a)) (cvt t (snd b)).
Definition clt := ccmp Z.ltb.
Definition cgt := ccmp Z.gtb.
Definition cle := ccmp Z.leb.
Definition cge := ccmp Z.geb.
Definition ceq := ccmp Z.eqb.
(** An integer literal. *)
Definition i0 : tv := (I32, 0).
Definition i1 : tv := (I32, 1).
(** [assert(c)]: a violated assertion is UB. *)
Definition cassert (c : bool) : outcome unit := if c then Ok tt else UB.
(** Conversion of a result to another type. *)
Definition cconv (t : ity) (a : tv) : tv := (t, cvt t (snd a)).

(** Basic facts. *)
Lemma cvt_id : forall t z, has_type t z -> cvt t z = z.
Proof.
  intros t z H. destruct t; unfold has_type, cvt, imin, imax, to_i32, to_u32, to_i64, to_u64 in *;
    unfold INT_MIN, INT_MAX, LONG_MIN, LONG_MAX, UINT_MOD, ULONG_MOD in *.
  - destruct (z mod 4294967296 <=? 2147483647) eqn:E; Z.div_mod_to_equations; lia.
  - apply Z.mod_small. lia.
  - destruct (z mod 18446744073709551616 <=? 9223372036854775807) eqn:E; Z.div_mod_to_equations; lia.
  - apply Z.mod_small. lia.
Qed.

Lemma common_same : forall t, common t t = t.
Proof. destruct t; reflexivity. Qed.

Lemma fit_id : forall t z, has_type t z -> fit t z = Ok z.
Proof.
  intros t z H. unfold fit. destruct (is_signed t) eqn:S.
  - unfold in_ity, has_type in *. 
    assert (E : (imin t <=? z) && (z <=? imax t) = true) by lia. rewrite E. reflexivity.
  - rewrite Z.mod_small; [reflexivity|]. destruct t; try discriminate; unfold has_type, imin, imax, imod in *; lia.
Qed.

Lemma fit_over : forall t z, is_signed t = true -> ~ has_type t z -> fit t z = UB.
Proof.
  intros t z S H. unfold fit. rewrite S. unfold in_ity, has_type in *.
  assert (E : (imin t <=? z) && (z <=? imax t) = false) by lia. rewrite E. reflexivity.
Qed.

Lemma binop_same : forall f t a b, has_type t a -> has_type t b ->
  binop_z f (t, a) (t, b) = obind (fit t (f a b)) (fun z => Ok (t, z)).
Proof.
  intros f t a b Ha Hb. unfold binop_z. cbn [fst snd]. rewrite common_same, !cvt_id by assumption. reflexivity.
Qed.

Lemma ccmp_same : forall f t a b, has_type t a -> has_type t b -> ccmp f (t, a) (t, b) = f a b.
Proof.
  intros f t a b Ha Hb. unfold ccmp. cbn [fst snd]. rewrite common_same, !cvt_id by assumption. reflexivity.
Qed.

Lemma imin_neg : forall t, imin t <= 0 <= imax t /\ 2147483647 <= imax t.
Proof. destruct t; cbn; unfold INT_MIN, INT_MAX, LONG_MIN, LONG_MAX, UINT_MOD, ULONG_MOD; lia. Qed.

Lemma common_i32 : forall t, common t I32 = t /\ common I32 t = t.
Proof. destruct t; split; reflexivity. Qed.

(** Comparison with a small literal. *)
Lemma ccmp_lit : forall f t a k, has_type t a -> 0 <= k <= 2147483647 ->
  ccmp f (t, a) (I32, k) = f a k.
Proof.
  intros f t a k Ha Hk. unfold ccmp. cbn [fst snd]. destruct (common_i32 t) as [-> _].
  rewrite !cvt_id; [reflexivity| |assumption]. unfold has_type. pose proof (imin_neg t). lia.
Qed.
