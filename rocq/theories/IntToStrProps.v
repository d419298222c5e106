(** Property theorems C07, C08 (integer to string). *)
From Coq Require Import String Ascii ZArith NArith Arith Bool Lia List.
From Verif Require Import Common IntToStrModel IntToStrSpec IntToStrProofs.
Import ListNotations.
Local Open Scope Z_scope.

(** C07. For each integer type and each value of it: inside the listed open interval the result is
    the canonical decimal numeral whatever the scratch buffer held; outside it the conversion writes
    out of the buffer. *)
Theorem C07_tostr_exact : Forall (fun '(t, lo, hi) => forall buf n,
    length buf = t_digits10 t -> t_min t <= n <= t_max t ->
    (lo < n < hi -> exists s, toStr t buf n = Ok s /\ decimal n s) /\
    (~ lo < n < hi -> toStr t buf n = UB)) safe_ranges.
Proof. exact conv_ranges. Qed.
Print Assumptions C07_tostr_exact.
Example C07_example :
  toStr t_int (repeat "x"%char 9) (-1234567) = Ok (lit "-1234567") /\
  toStr t_int (repeat "y"%char 9) 10203040 = Ok (lit "10203040") /\
  toStr t_ulong (repeat "y"%char 19) 0 = Ok (lit "0") /\
  map (fun '(t, _, _) => t) safe_ranges = all_types.
Proof. vm_compute. repeat split; reflexivity. Qed.

(** C07. The numeral is determined by the value. *)
Theorem C07_decimal_unique : forall n s t, decimal n s -> decimal n t -> s = t.
Proof. exact decimal_unique. Qed.
Print Assumptions C07_decimal_unique.

(** C08. Expected: for all types and all values the conversion stays in its buffer.
    Refuted for every one of the types, at values the type can hold. *)
Theorem C08_tostr_safe_refuted : Forall (fun t => exists n, t_min t <= n <= t_max t /\
    forall buf, length buf = t_digits10 t -> toStr t buf n = UB) all_types.
Proof. exact unsafe_all. Qed.
Print Assumptions C08_tostr_safe_refuted.
Example C08_example :
  toStr t_int (repeat "x"%char 9) 123456789 = UB /\ toStr t_int (repeat "x"%char 9) INT_MIN = UB /\
  toStr t_ulong (repeat "x"%char 19) 18446744073709551615 = UB.
Proof. vm_compute. repeat split; reflexivity. Qed.
