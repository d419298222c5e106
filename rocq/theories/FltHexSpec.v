(** Hexadecimal floating-point numbers in texts. *)
From Coq Require Import String Ascii ZArith NArith Bool List QArith.
From Verif Require Import Common IntToStrSpec FltSpec.
Import ListNotations.
Local Open Scope Z_scope.

(** A hexadecimal digit of either case and its value. *)
Definition hex_digit (c : ascii) (k : Z) : Prop :=
  let n := Z.of_N (N_of_ascii c) in
  48 <= n <= 57 /\ k = n - 48 \/ 65 <= n <= 70 /\ k = n - 55 \/ 97 <= n <= 102 /\ k = n - 87.
(** Several of them. *)
Inductive hex_digits : bytes -> Z -> Prop :=
  | hex_none : hex_digits [] 0
  | hex_more : forall t n c k, hex_digits t n -> hex_digit c k -> hex_digits (t ++ [c]) (16 * n + k).
(** A binary exponent in decimal: nothing, or p and a signed number. *)
Definition binary_exponent (t : bytes) (v : Z) : Prop :=
  t = [] /\ v = 0 \/
  exists c sg ds, t = c :: sg ++ ds /\ (c = "p"%char \/ c = "P"%char) /\ ds <> [] /\ Forall is_digit ds /\
    (sg = [] /\ v = digits_value ds \/ sg = ["+"%char] /\ v = digits_value ds \/ sg = ["-"%char] /\ v = - digits_value ds).
(** What follows the number does not continue it. *)
Definition hex_ends (ex rest : bytes) : Prop :=
  match rest with
  | [] => True
  | c :: _ => ~ is_digit c /\ (ex = [] -> (forall k, ~ hex_digit c k) /\ ~ In c ["."; "p"; "P"]%char)
  end.
(** [t] starts with the hexadecimal number of exact value (-1)^neg * m * 2^e. *)
Definition starts_with_hex (t : bytes) (neg : bool) (m e : Z) : Prop :=
  exists bl sg x ip dot fp ex ev rest,
    t = bl ++ sg ++ ["0"%char; x] ++ ip ++ dot ++ fp ++ ex ++ rest /\ Forall c_blank bl /\ sign_text sg neg /\
    (x = "x"%char \/ x = "X"%char) /\ (dot = [] /\ fp = [] \/ dot = ["."%char]) /\ ip ++ fp <> [] /\
    hex_digits (ip ++ fp) m /\ binary_exponent ex ev /\ hex_ends ex rest /\ e = ev - 4 * Z.of_nat (length fp).
