(** Property theorems C10, C11 (edit distance). *)
From Coq Require Import String Ascii ZArith NArith Arith Bool Lia List.
From Verif Require Import Common LevModel LevSpec LevProofs.
Import ListNotations.

(** C10. For all strings the call stays inside its table and returns the least number of
    single-character edits turning the first string into the second. *)
Theorem C10_levenshtein_minimal : forall a b, exists d, getDistLevenshtein a b = Ok d /\
  edits d a b /\ forall k, edits k a b -> d <= k.
Proof. exact lev_exact. Qed.
Print Assumptions C10_levenshtein_minimal.
Example C10_example : getDistLevenshtein (lit "kitten") (lit "sitting") = Ok 3.
Proof. vm_compute. reflexivity. Qed.

(** C11. Metric laws and the two length bounds (the subtractions are truncated at zero). *)
Theorem C11_levenshtein_metric : forall a b c dab dba dbc dac,
  getDistLevenshtein a b = Ok dab -> getDistLevenshtein b a = Ok dba ->
  getDistLevenshtein b c = Ok dbc -> getDistLevenshtein a c = Ok dac ->
  (dab = 0 <-> a = b) /\ dab = dba /\ dac <= dab + dbc /\
  dab <= Nat.max (length a) (length b) /\
  length a - length b <= dab /\ length b - length a <= dab.
Proof. exact lev_metric. Qed.
Print Assumptions C11_levenshtein_metric.
Example C11_example :
  getDistLevenshtein (lit "flaw") (lit "lawn") = Ok 2 /\
  getDistLevenshtein (lit "lawn") (lit "flaw") = Ok 2 /\
  getDistLevenshtein (lit "lawn") (lit "dawns") = Ok 2 /\
  getDistLevenshtein (lit "flaw") (lit "dawns") = Ok 4.
Proof. vm_compute. repeat split; reflexivity. Qed.
