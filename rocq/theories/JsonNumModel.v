(** Numbers of the JSON module: [long], [unsigned long] and [double] values (Json/Num/Num.hpp), reading them with
    [strtod] and writing them with [toStr].  Doubles are the binary64 values of Coq's [SpecFloat]
    (precision 53, maximal exponent 1024). *)
From Coq Require Import String Ascii ZArith NArith Arith Bool List.
From Coq Require Import Floats.SpecFloat.
From Verif Require Import Common IntToStrModel.
Import ListNotations.
Local Open Scope Z_scope.

Definition double := spec_float.
(** The double nearest to +-n/d (ties to even), the rounding of [strtod] and of integer conversions. *)
Definition of_ratio (neg : bool) (n d : positive) : double :=
  SFdiv 53 1024 (S754_finite neg n 0) (S754_finite false d 0).
(** +-m * b^e for a radix [b]. *)
Definition of_scaled (neg : bool) (m : Z) (b e : Z) : double :=
  match m with
  | Zpos p => if 0 <=? e then of_ratio neg (p * Z.to_pos (b ^ e)) 1 else of_ratio neg p (Z.to_pos (b ^ (- e)))
  | _ => S754_zero neg
  end.
Definition of_int (z : Z) : double := of_scaled (z <? 0) (Z.abs z) 2 0.

(** Conversion to a whole number towards zero; [None] for infinities and NaN. *)
Definition truncate (f : double) : option Z :=
  match f with
  | S754_zero _ => Some 0
  | S754_finite s m e => let q := if 0 <=? e then Zpos m * 2 ^ e else Zpos m / 2 ^ (- e) in Some (if s then - q else q)
  | _ => None
  end.
(** [toNum<IntS>]/[toNum<IntU>] of a double (Core/Common/Casts.hpp:103-111): UB outside the range. *)
Definition double_to_long (f : double) : outcome Z :=
  match truncate f with
  | Some z => if (LONG_MIN <=? z) && (z <=? LONG_MAX) then Ok z else UB
  | None => UB
  end.
Definition double_to_ulong (f : double) : outcome Z :=
  match truncate f with
  | Some z => if (0 <=? z) && (z <? ULONG_MOD) then Ok z else UB
  | None => UB
  end.

(** ** strtod, called at '-' or a digit (no leading blanks) *)
Definition num_of (c : ascii) : Z := Z.of_N (N_of_ascii c).
Definition isDigit (c : ascii) : bool := (48 <=? num_of c) && (num_of c <=? 57).
Definition isHex (c : ascii) : bool :=
  isDigit c || ((65 <=? num_of c) && (num_of c <=? 70)) || ((97 <=? num_of c) && (num_of c <=? 102)).
Definition hex_value (c : ascii) : Z :=
  if isDigit c then num_of c - 48 else if num_of c <=? 70 then num_of c - 55 else num_of c - 87.
Fixpoint span (p : ascii -> bool) (s : bytes) : bytes * bytes :=
  match s with
  | c :: r => if p c then let '(a, b) := span p r in (c :: a, b) else ([], s)
  | [] => ([], [])
  end.
Definition to_number (radix : Z) (val : ascii -> Z) (s : bytes) : Z := fold_left (fun acc c => acc * radix + val c) s 0.
Definition is_char (s : bytes) (c : ascii) : bool := match s with d :: _ => Ascii.eqb c d | [] => false end.
(** Digits with an optional point: integer digits, fraction digits, rest. *)
Definition scan_mantissa (p : ascii -> bool) (s : bytes) : bytes * bytes * bytes :=
  let '(ip, r) := span p s in
  match r with
  | c :: r' =>
    if Ascii.eqb c "." then
      let '(fp, r'') := span p r' in
      match ip, fp with [], [] => ([], [], s) | _, _ => (ip, fp, r'') end
    else (ip, [], r)
  | [] => (ip, [], r)
  end.
(** Optional exponent after one of the letters [ls]: taken only when digits follow. *)
Definition scan_exponent (ls : list ascii) (s : bytes) : Z * bytes :=
  match s with
  | c :: r =>
    if existsb (Ascii.eqb c) ls then
      let '(neg, r) := if is_char r "-" then (true, tl r) else if is_char r "+" then (false, tl r) else (false, r) in
      match span isDigit r with
      | ([], _) => (0, s)
      | (ds, r') => let e := to_number 10 (fun c => num_of c - 48) ds in ((if neg then - e else e), r')
      end
    else (0, s)
  | [] => (0, s)
  end.
Definition lower_is (c : ascii) (l : ascii) : bool := Ascii.eqb c l || (num_of c + 32 =? num_of l).
Definition begins_nocase (s w : bytes) : bool :=
  (length w <=? length s)%nat && forallb (fun p => lower_is (fst p) (snd p)) (combine s w).
(** The value and the unread rest; the whole text when there is no number.  "inf" and "nan" give values whose
    following conversion to [long] is undefined whatever they are; NaN stands for all of them. *)
Definition strtod_unsigned (neg : bool) (s whole : bytes) : double * bytes :=
  let decimal_case :=
    match scan_mantissa isDigit s with
    | ([], [], _) => (S754_zero false, whole)
    | (ip, fp, r) =>
      let '(e, r') := scan_exponent ["e"%char; "E"%char] r in
      (of_scaled neg (to_number 10 (fun c => num_of c - 48) (ip ++ fp)) 10 (e - Z.of_nat (length fp)), r')
    end in
  match s with
  | c :: x :: h =>
    if Ascii.eqb c "0" && lower_is x "x" then
      match scan_mantissa isHex h with
      | ([], [], _) => (S754_zero neg, x :: h)
      | (ip, fp, r) =>
        let '(e, r') := scan_exponent ["p"%char; "P"%char] r in
        (of_scaled neg (to_number 16 hex_value (ip ++ fp)) 2 (e - 4 * Z.of_nat (length fp)), r')
      end
    else if begins_nocase s (lit "inf") || begins_nocase s (lit "nan") then (S754_nan, skipn 3 s)
    else decimal_case
  | _ => decimal_case
  end.
Definition strtod (s : bytes) : double * bytes :=
  if is_char s "-" then strtod_unsigned true (tl s) s else strtod_unsigned false s s.

(** ** Numbers *)
Inductive num := NS (z : Z) | NU (z : Z) | NR (f : double).
(** Num.hpp:68-103. *)
Definition getIntS (n : num) : outcome Z := match n with NS z => Ok z | NU z => Ok (to_i64 z) | NR f => double_to_long f end.
Definition getIntU (n : num) : outcome Z := match n with NS z => Ok (to_u64 z) | NU z => Ok z | NR f => double_to_ulong f end.
Definition getReal (n : num) : double := match n with NS z | NU z => of_int z | NR f => f end.
(** Num.hpp:140-149: the right operand is converted to the representation of the left one. *)
Definition num_eq (a b : num) : outcome bool :=
  match a with
  | NS x => obind (getIntS b) (fun y => Ok (x =? y))
  | NU x => obind (getIntU b) (fun y => Ok (x =? y))
  | NR x => Ok (SFeqb x (getReal b))
  end.

(** ** Writing doubles: [ostream << double] with the default precision 6 ("%g") *)
(** [k] decimal digits of [n]. *)
Fixpoint dec_digits (k : nat) (n : Z) : bytes :=
  match k with O => [] | S k => dec_digits k (n / 10) ++ [ch (Z.to_N (48 + n mod 10))] end.
Fixpoint strip_zeros (s : bytes) : bytes :=
  match s with
  | [] => []
  | c :: r => match strip_zeros r with [] => if Ascii.eqb c "0" then [] else [c] | r' => c :: r' end
  end.
Definition with_point (ip fp : bytes) : bytes := match strip_zeros fp with [] => ip | f => ip ++ lit "." ++ f end.
Definition round_div (n d : Z) : Z :=
  let q := n / d in let r := n mod d in
  if 2 * r <? d then q else if d <? 2 * r then q + 1 else if Z.even q then q else q + 1.
(** n / d >= 10^x *)
Definition ge_pow10 (n d x : Z) : bool := if 0 <=? x then 10 ^ x * d <=? n else d <=? n * 10 ^ (- x).
(** Decimal exponent: greatest x between -324 and 308 with 10^x <= n/d (every finite double has one). *)
Fixpoint decimal_exponent (fuel : nat) (x n d : Z) : Z :=
  match fuel with O => x | S fuel => if ge_pow10 n d x then x else decimal_exponent fuel (x - 1) n d end.
Definition print_ratio (n d : Z) : bytes :=
  let x := decimal_exponent 632 308 n d in
  let D := if x <=? 5 then round_div (n * 10 ^ (5 - x)) d else round_div n (d * 10 ^ (x - 5)) in
  let '(D, x) := if D =? 1000000 then (100000, x + 1) else (D, x) in
  let ds := dec_digits 6 D in
  if (x <? -4) || (6 <=? x) then
    with_point (firstn 1 ds) (skipn 1 ds) ++ lit "e" ++ (if x <? 0 then lit "-" else lit "+") ++
    dec_digits (if Z.abs x <? 100 then 2 else 3) (Z.abs x)
  else if 0 <=? x then with_point (firstn (Z.to_nat (x + 1)) ds) (skipn (Z.to_nat (x + 1)) ds)
  else with_point (lit "0") (repeat "0"%char (Z.to_nat (- x - 1)) ++ ds).
Definition print_double (f : double) : bytes :=
  match f with
  | S754_zero s => if s then lit "-0" else lit "0"
  | S754_infinity s => if s then lit "-inf" else lit "inf"
  | S754_nan => lit "nan"
  | S754_finite s m e =>
    (if s then lit "-" else []) ++
    (if 0 <=? e then print_ratio (Zpos m * 2 ^ e) 1 else print_ratio (Zpos m) (2 ^ (- e)))
  end.
(** Writer.hpp:161-171. The scratch buffer of [toStr] is a static array of unspecified contents; the result does
    not depend on them (C07), here it holds zeros. *)
Definition write_num (n : num) : outcome bytes :=
  match n with
  | NS z => toStr t_long (repeat "0"%char 18) z
  | NU z => toStr t_ulong (repeat "0"%char 19) z
  | NR f => Ok (print_double f)
  end.
