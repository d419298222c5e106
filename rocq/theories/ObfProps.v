(** Property theorem C09 (obfuscated values). *)
From Coq Require Import String Ascii ZArith NArith Arith Bool Lia List.
From Verif Require Import Common IntToStrModel IntToStrSpec ObfModel ObfSpec ObfProofs.
Import ListNotations.
Local Open Scope Z_scope.

(** C09. For every integer type, every initial value and every history of assignments and compound
    assignments: the successive values read from the obfuscated variable are those of a plain
    variable of the same type, whenever the plain history has no undefined behaviour and each value
    it takes lies in the printable interval of the type. *)
Theorem C09_obfuscated_like_plain : Forall (fun '(t, lo, hi) => forall buf v h vs,
    length buf = t_digits10 t ->
    Forall (fun x : obf_op * bytes => length (snd x) = t_digits10 t) h ->
    plain_run t v (map fst h) = Ok vs ->
    Forall (fun v => t_min t <= v <= t_max t /\ lo < v < hi) vs ->
    obf_start t buf v h = Ok vs) safe_ranges.
Proof. exact start_ranges. Qed.
Print Assumptions C09_obfuscated_like_plain.
Example C09_example :
  let g := repeat "z"%char 9 in
  let h := [(OBin Mul 7, g); (OBin Sub 300, g); (OBin Div 10, g); (OSet 5, g)] in
  plain_run t_int 10 (map fst h) = Ok [10; 70; -230; -23; 5] /\
  obf_start t_int g 10 h = Ok [10; 70; -230; -23; 5].
Proof. vm_compute. split; reflexivity. Qed.

(** C09.  What the operators do to the plain variable (and so to the obfuscated one): division by zero is undefined, as is
    a result of [int] or [long] outside the type and one of [short] or [unsigned short] outside [int]; otherwise the value
    is the exact result, quotients towards zero, brought into the type by a multiple of the number of its values. *)
Theorem C09_operators : Forall (fun '(t, lo, hi) => forall o a b, t_min t <= a <= t_max t -> t_min t <= b <= t_max t ->
    let exact := match o with Add => a + b | Sub => a - b | Mul => a * b | Div => Z.quot a b end in
    let undefined := o = Div /\ b = 0 \/ In t [t_int; t_long] /\ ~ t_min t <= exact <= t_max t \/
      In t [t_short; t_ushort] /\ ~ -2147483648 <= exact <= 2147483647 in
    (undefined -> machine_op t o a b = UB) /\
    (~ undefined -> exists z, machine_op t o a b = Ok z /\ t_min t <= z <= t_max t /\ exists k, z = exact + k * (t_max t - t_min t + 1))) safe_ranges.
Proof. exact machine_arith. Qed.
Print Assumptions C09_operators.
Example C09_operators_case : machine_op t_ushort Sub 3 5 = Ok 65534 /\ machine_op t_short Mul 300 300 = Ok 24464 /\ machine_op t_int Div (-7) 2 = Ok (-3) /\
  machine_op t_ushort Mul 65535 65535 = UB /\ machine_op t_uint Mul 65536 65537 = Ok 65536.
Proof. vm_compute. repeat split. Qed.

(** C09, finding: storing any other value of the type is undefined behaviour (toStr's buffer). *)
Theorem C09_obfuscated_large_value_refuted : Forall (fun '(t, lo, hi) => forall buf v,
    length buf = t_digits10 t -> t_min t <= v <= t_max t -> ~ lo < v < hi ->
    obf_set t buf v = UB) safe_ranges.
Proof. exact set_out_of_range. Qed.
Print Assumptions C09_obfuscated_large_value_refuted.
Example C09_large_example : obf_set t_int (repeat "z"%char 9) 1000000000 = UB.
Proof. vm_compute. reflexivity. Qed.
