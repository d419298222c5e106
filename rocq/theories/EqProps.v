(** C101: when generators compare equal. *)
From Coq Require Import String ZArith Arith Bool Lia List.
From Verif Require Import Common PcgModel PermModel PcgSpec EqModel EqSpec EqProofs.
Import ListNotations.
Local Open Scope Z_scope.

(** C101. Two generators of the same kind and stream compare equal exactly when they give the same numbers for ever. *)
Theorem C101_same : forall w f prev mcg m c s s',
  In (w, f) [(64, xsh_rs 64 32); (64, xsh_rr 64 32); (64, xsl_rr 64 32); (64, xsl_rr_rr 64); (128, xsh_rs 128 64); (128, xsh_rr 128 64); (128, xsl_rr 128 64); (128, xsl_rr_rr 128)] ->
  good mcg m c -> 0 <= m < 2 ^ w -> 0 <= c < 2 ^ w -> state w mcg s -> state w mcg s' ->
  (engine_eq (m, c, s) (m, c, s') = true <-> forall n, first_numbers (generate w m c prev f) n s = first_numbers (generate w m c prev f) n s').
Proof. exact same_for_ever. Qed.
Print Assumptions C101_same.
(** C101. They compare equal exactly when multiplier, increment and state are; unequal exactly when not. *)
Theorem C101_engines : forall g h, (engine_eq g h = true <-> g = h) /\ (engine_ne g h = true <-> g <> h).
Proof. exact engine_relation. Qed.
Print Assumptions C101_engines.
(** C101. Extended generators compare equal exactly when base and table are ... *)
Theorem C101_extended : forall g h, extended_eq g h = true <-> g = h.
Proof. exact extended_relation. Qed.
Print Assumptions C101_extended.
(** C101. ... but asking whether two are unequal never comes back. *)
Theorem C101_extended_unequal_refuted : forall g h fuel, extended_ne fuel g h = OutOfFuel.
Proof. exact never. Qed.
Print Assumptions C101_extended_unequal_refuted.

(** Two states whose first numbers agree (both 0) although the generators differ. *)
Example differ : state 64 true 3 /\ state 64 true 7 /\ good true 6364136223846793005 0 /\
  first_numbers (generate 64 6364136223846793005 0 true (xsh_rs 64 32)) 1 3 = first_numbers (generate 64 6364136223846793005 0 true (xsh_rs 64 32)) 1 7 /\
  engine_eq (6364136223846793005, 0, 3) (6364136223846793005, 0, 7) = false /\
  first_numbers (generate 64 6364136223846793005 0 true (xsh_rs 64 32)) 2 3 <> first_numbers (generate 64 6364136223846793005 0 true (xsh_rs 64 32)) 2 7.
Proof. split; [split; [lia|reflexivity]|]. split; [split; [lia|reflexivity]|]. split; [split; reflexivity|]. split; [reflexivity|]. split; [reflexivity|]. vm_compute. discriminate. Qed.
Example equal_tables : extended_eq ((5, 1, 7), [1; 2]) ((5, 1, 7), [1; 2]) = true /\ extended_eq ((5, 1, 7), [1; 2]) ((5, 1, 7), [1; 3]) = false.
Proof. split; reflexivity. Qed.
