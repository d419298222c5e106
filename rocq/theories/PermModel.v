(** Model of the output functions of include/SSVUtils/Internal/PCG/pcg_random.hpp and of their helpers in pcg_extras.hpp,
    with the number of bits of the state type ([bits]) and of the result type ([xtypebits]) as arguments.
    [xsh_rs] is in PcgModel. Numbers are unsigned; results of operations on types narrower than int are converted back. *)
From Coq Require Import String ZArith Bool List.
From Verif Require Import Common.
Import ListNotations.
Local Open Scope Z_scope.
Local Notation "'let!' x := e 'in' f" := (obind e (fun x => f)) (at level 200, x pattern, e at level 100, f at level 200, right associativity).

(** pcg_extras.hpp:269-288 [unxorshift] for a type of [w] bits; recursive, hence the fuel. *)
Fixpoint unxorshift (fuel : nat) (w x bits shift : Z) : outcome Z :=
  match fuel with
  | O => OutOfFuel
  | S fuel =>
    if 2 * shift >=? bits then Ok (Z.lxor x (Z.shiftr x shift)) else
    let lowmask1 := 2 ^ (bits - shift * 2) - 1 in
    let highmask1 := 2 ^ w - 1 - lowmask1 in
    let top1 := x in
    let bottom1 := Z.land x lowmask1 in
    let top1 := Z.lxor top1 (Z.shiftr top1 shift) in
    let top1 := Z.land top1 highmask1 in
    let x := Z.lor top1 bottom1 in
    let lowmask2 := 2 ^ (bits - shift) - 1 in
    let bottom2 := Z.land x lowmask2 in
    let! bottom2 := unxorshift fuel w bottom2 (bits - shift) shift in
    let bottom2 := Z.land bottom2 lowmask1 in
    Ok (Z.lor top1 bottom2)
  end.

(** pcg_extras.hpp:311-321 [rotr] (without the zero-check variant). *)
Definition rotr (w value rot : Z) : Z :=
  Z.lor (Z.shiftr value rot) (Z.shiftl value (Z.land (- rot) (w - 1)) mod 2 ^ w).

(** The bits used for rotation, 816-821. *)
Definition wanted (xtypebits : Z) : Z :=
  if xtypebits >=? 128 then 7 else if xtypebits >=? 64 then 6 else if xtypebits >=? 32 then 5 else if xtypebits >=? 16 then 4 else 3.
(** 808-838 [xsh_rr_mixin::output]. *)
Definition xsh_rr (bits xtypebits internal : Z) : Z :=
  let sparebits := bits - xtypebits in
  let wantedopbits := wanted xtypebits in
  let opbits := if sparebits >=? wantedopbits then wantedopbits else sparebits in
  let amplifier := wantedopbits - opbits in
  let mask := 2 ^ opbits - 1 in
  let topspare := opbits in
  let bottomspare := sparebits - topspare in
  let xshift := (topspare + xtypebits) / 2 in
  let rot := if opbits =? 0 then 0 else Z.land (Z.shiftr internal (bits - opbits)) mask in
  let amprot := Z.land (Z.shiftl rot amplifier) mask in
  let internal := Z.lxor internal (Z.shiftr internal xshift) in
  rotr xtypebits (Z.shiftr internal bottomspare mod 2 ^ xtypebits) amprot.
(** 997-1027 [xsl_rr_mixin::output]. *)
Definition xsl_rr (bits xtypebits internal : Z) : Z :=
  let sparebits := bits - xtypebits in
  let wantedopbits := wanted xtypebits in
  let opbits := if sparebits >=? wantedopbits then wantedopbits else sparebits in
  let amplifier := wantedopbits - opbits in
  let mask := 2 ^ opbits - 1 in
  let topspare := sparebits in
  let bottomspare := sparebits - topspare in
  let xshift := (topspare + xtypebits) / 2 in
  let rot := if opbits =? 0 then 0 else Z.land (Z.shiftr internal (bits - opbits)) mask in
  let amprot := Z.land (Z.shiftl rot amplifier) mask in
  let internal := Z.lxor internal (Z.shiftr internal xshift) in
  rotr xtypebits (Z.shiftr internal bottomspare mod 2 ^ xtypebits) amprot.
(** 1062-1094 [xsl_rr_rr_mixin::output]; [halfsize_trait] halves the number of bits (1037-1060). *)
Definition xsl_rr_rr (bits internal : Z) : Z :=
  let htypebits := bits / 2 in
  let sparebits := bits - htypebits in
  let wantedopbits := wanted htypebits in
  let opbits := if sparebits >=? wantedopbits then wantedopbits else sparebits in
  let amplifier := wantedopbits - opbits in
  let mask := 2 ^ opbits - 1 in
  let topspare := sparebits in
  let xshift := (topspare + htypebits) / 2 in
  let rot := if opbits =? 0 then 0 else Z.land (Z.shiftr internal (bits - opbits)) mask in
  let amprot := Z.land (Z.shiftl rot amplifier) mask in
  let internal := Z.lxor internal (Z.shiftr internal xshift) in
  let lowbits := internal mod 2 ^ htypebits in
  let lowbits := rotr htypebits lowbits amprot in
  let highbits := Z.shiftr internal topspare mod 2 ^ htypebits in
  let rot2 := Z.land lowbits mask in
  let amprot2 := Z.land (Z.shiftl rot2 amplifier) mask in
  let highbits := rotr htypebits highbits amprot2 in
  Z.lxor (Z.shiftl highbits topspare mod 2 ^ bits) lowbits.

(** 902-917: multipliers and their inverses by number of bits. *)
Definition multipliers : list (Z * Z * Z) :=
  [(8, 217, 105); (16, 62169, 28009); (32, 277803737, 2897767785); (64, 12605985483714917081, 15009553638781119849);
   (128, 17766728186571221404 * 2 ^ 64 + 12605985483714917081, 14422606686972528997 * 2 ^ 64 + 15009553638781119849)].
(** [internal *= factor]: operands narrower than int are multiplied as int, where overflow is undefined. *)
Definition times (w x y : Z) : outcome Z := if (w <? 32) && (INT_MAX <? x * y) then UB else Ok (x * y mod 2 ^ w).
(** 927-932. *)
Definition xs_opbits (xtypebits : Z) : Z :=
  if xtypebits >=? 128 then 6 else if xtypebits >=? 64 then 5 else if xtypebits >=? 32 then 4 else if xtypebits >=? 16 then 3 else 2.
(** 920-942 [rxs_m_xs_mixin::output] with the multiplier [m]. *)
Definition rxs_m_xs (m bits xtypebits internal : Z) : outcome Z :=
  let opbits := xs_opbits xtypebits in
  let shift := bits - xtypebits in
  let mask := 2 ^ opbits - 1 in
  let rshift := if opbits =? 0 then 0 else Z.land (Z.shiftr internal (bits - opbits)) mask in
  let internal := Z.lxor internal (Z.shiftr internal (opbits + rshift)) in
  let! internal := times bits internal m in
  let result := Z.shiftr internal shift mod 2 ^ xtypebits in
  Ok (Z.lxor result (Z.shiftr result ((2 * xtypebits + 2) / 3))).
(** 944-962 [unoutput] with the inverse [u]. The fuel is the number of bits. *)
Definition unoutput (u bits internal : Z) : outcome Z :=
  let opbits := xs_opbits bits in
  let mask := 2 ^ opbits - 1 in
  let! internal := unxorshift (Z.to_nat bits) bits internal bits ((2 * bits + 2) / 3) in
  let! internal := times bits internal u in
  let rshift := if opbits =? 0 then 0 else Z.land (Z.shiftr internal (bits - opbits)) mask in
  unxorshift (Z.to_nat bits) bits internal bits (opbits + rshift).
(** 968-989 [rxs_m_mixin::output]. *)
Definition rxs_m (m bits xtypebits internal : Z) : outcome Z :=
  let opbits := xs_opbits xtypebits in
  let shift := bits - xtypebits in
  let mask := 2 ^ opbits - 1 in
  let rshift := if opbits =? 0 then 0 else Z.land (Z.shiftr internal (bits - opbits)) mask in
  let internal := Z.lxor internal (Z.shiftr internal (opbits + rshift)) in
  let! internal := times bits internal m in
  Ok (Z.shiftr internal shift mod 2 ^ xtypebits).
(** 1106-1122 [xsh_mixin::output]; 1130-1146 [xsl_mixin::output]. *)
Definition xsh (bits xtypebits internal : Z) : Z :=
  let sparebits := bits - xtypebits in
  let topspare := 0 in
  let bottomspare := sparebits - topspare in
  let xshift := (topspare + xtypebits) / 2 in
  let internal := Z.lxor internal (Z.shiftr internal xshift) in
  Z.shiftr internal bottomspare mod 2 ^ xtypebits.
Definition xsl (bits xtypebits internal : Z) : Z :=
  let sparebits := bits - xtypebits in
  let topspare := sparebits in
  let bottomspare := sparebits - topspare in
  let xshift := (topspare + xtypebits) / 2 in
  let internal := Z.lxor internal (Z.shiftr internal xshift) in
  Z.shiftr internal bottomspare mod 2 ^ xtypebits.
