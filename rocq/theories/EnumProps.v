(** Property theorems C78 (enums with names). *)
From Coq Require Import String Ascii ZArith NArith Arith Bool Lia List.
From Verif Require Import Common MplModel EnumModel EnumSpec EnumProofs.
Import ListNotations.
Local Open Scope Z_scope.

(** C78. The definitions that compile are those with at least one element, distinct names and distinct
    values in the range of the underlying type. In particular two elements with the same value are
    refused (in both forms, and for any positions). *)
Theorem C78_accepted : forall lo hi d,
  (acceptable lo hi d -> exists m, define lo hi d = Ok m) /\ (~ acceptable lo hi d -> define lo hi d = illformed).
Proof. exact accepted_iff. Qed.
Print Assumptions C78_accepted.
Example C78_accepted_example :
  acceptable (-128) 127 (Vals [(lit "A", 5); (lit "B", 4); (lit "C", -3)]) /\
  define (-128) 127 (Vals [(lit "A", 5); (lit "B", 5)]) = illformed /\
  define 0 1 (Defs [lit "Red"; lit "Green"; lit "Blue"]) = illformed.
Proof.
  split; [|split; vm_compute; reflexivity]. repeat split; try discriminate; repeat constructor; cbn; intuition (try discriminate; lia).
Qed.

(** C78. The elements are counted and listed in the order given; names and values are converted into
    each other exactly as the definition pairs them, in both builds. Any other value or name fails the
    assertion, or without assertions ends the program. *)
Theorem C78_names_and_values : forall lo hi d m, acceptable lo hi d -> define lo hi d = Ok m ->
  getSize m = Z.of_nat (length (elements d)) /\ getValues m = map snd (elements d) /\ getElementNames m = map fst (elements d) /\
  forall ndebug,
    (forall n v, getAsStr ndebug m v = Ok n <-> In (n, v) (elements d)) /\
    (forall n v, getFromStr ndebug m n = Ok v <-> In (n, v) (elements d)) /\
    (forall n v, In (n, v) (elements d) -> getAsStrOf m v = Ok n) /\
    (forall v, ~ In v (map snd (elements d)) ->
       getAsStr ndebug m v = (if ndebug then terminate else UB) /\ getAsStrOf m v = illformed) /\
    (forall s, ~ In s (map fst (elements d)) -> getFromStr ndebug m s = if ndebug then terminate else UB).
Proof. exact enum_means. Qed.
Print Assumptions C78_names_and_values.
Example C78_names_and_values_example :
  let d := Defs [lit "Red"; lit "Green"; lit "Blue"] in
  elements d = [(lit "Red", 0); (lit "Green", 1); (lit "Blue", 2)] /\
  obind (define (-128) 127 d) (fun m => getAsStr false m 1) = Ok (lit "Green") /\
  obind (define (-128) 127 d) (fun m => getFromStr true m (lit "Blue")) = Ok 2 /\
  obind (define (-128) 127 d) (fun m => getFromStr true m (lit "blue")) = terminate.
Proof. repeat split; vm_compute; reflexivity. Qed.
