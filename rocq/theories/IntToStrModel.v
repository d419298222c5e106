(** Model of include/SSVUtils/Core/String/Internal/FastIntToStr.hpp. *)
From Coq Require Import String Ascii ZArith NArith Arith Bool Lia List.
From Verif Require Import Common.
Import ListNotations.
Local Open Scope Z_scope.

(** FastIntToStr.hpp:33-43 [digits] (the terminating NUL is the 201st character). *)
Definition digits : bytes := lit ("00010203040506070809" ++ "10111213141516171819" ++
  "20212223242526272829" ++ "30313233343536373839" ++ "40414243444546474849" ++
  "50515253545556575859" ++ "60616263646566676869" ++ "70717273747576777879" ++
  "80818283848586878889" ++ "90919293949596979899")%string ++ [ch 0].

(** Checked write of one character at offset [it] of the thread-local buffer. *)
Definition store (buf : bytes) (it : Z) (c : ascii) : outcome bytes :=
  if (0 <=? it) && (it <? Z.of_nat (length buf)) then
    Ok (firstn (Z.to_nat it) buf ++ c :: skipn (S (Z.to_nat it)) buf)
  else UB.

(** [std::memcpy(it, &digits[k], 2)]. *)
Definition memcpy2 (buf : bytes) (it k : Z) : outcome bytes :=
  if (k <? 0) then UB else
  match nth_error digits (Z.to_nat k), nth_error digits (Z.to_nat (k + 1)) with
  | Some c0, Some c1 => obind (store buf it c0) (fun b => store b (it + 1) c1)
  | _, _ => UB
  end.

(** The [while(div)] loops, FastIntToStr.hpp:57-65, 72-80 and 102-110. [sgn] is 1 in the
    non-negative and unsigned branches, -1 in the negative one; C++ division truncates.
    Returns (buffer, it, val) at loop exit. *)
Fixpoint pairs (fuel : nat) (sgn : Z) (buf : bytes) (it val : Z) : outcome (bytes * Z * Z) :=
  match fuel with
  | O => OutOfFuel
  | S fuel' =>
      let div := Z.quot val 100 in
      if div =? 0 then Ok (buf, it, val)
      else obind (memcpy2 buf it (sgn * 2 * (val - div * 100)))
             (fun b => pairs fuel' sgn b (it - 2) div)
  end.

(** [std::string(it, (buf.data() + bufferSize) - it)], lines 87-88 and 115-116. *)
Definition result (buf : bytes) (it : Z) : outcome bytes :=
  if (0 <=? it) && (it <=? Z.of_nat (length buf)) then Ok (skipn (Z.to_nat it) buf) else UB.

(** FastIntToStr.hpp:55-69 / 102-113: non-negative value. *)
Definition conv_nonneg (buf : bytes) (val : Z) : outcome bytes :=
  let it := Z.of_nat (length buf) - 2 in
  obind (pairs (S (length buf)) 1 buf it val) (fun '(b, it, val) =>
  obind (memcpy2 b it (2 * val)) (fun b =>
  let it := if val <? 10 then it + 1 else it in
  result b it)).

(** FastIntToStr.hpp:70-85: negative value. *)
Definition conv_neg (buf : bytes) (val : Z) : outcome bytes :=
  let it := Z.of_nat (length buf) - 2 in
  obind (pairs (S (length buf)) (-1) buf it val) (fun '(b, it, val) =>
  obind (memcpy2 b it (-2 * val)) (fun b =>
  let it := if val <=? -10 then it - 1 else it in
  obind (store b it "-"%char) (fun b =>
  result b it))).

(** FastIntToStr.hpp:45-118 [Conv<T>::toStr]; [buf] is the thread-local scratch buffer
    (bufferSize = numeric_limits<T>::digits10 cells, arbitrary old contents). *)
Definition conv (buf : bytes) (val : Z) : outcome bytes :=
  if 0 <=? val then conv_nonneg buf val else conv_neg buf val.

(** The integer types that ToStr.hpp:43-51 sends here, with digits10 and range (LP64). *)
Record inttype := mkT { t_digits10 : nat; t_min : Z; t_max : Z }.
Definition t_short  := mkT 4 (-32768) 32767.
Definition t_ushort := mkT 4 0 65535.
Definition t_int    := mkT 9 INT_MIN INT_MAX.
Definition t_uint   := mkT 9 0 4294967295.
Definition t_long   := mkT 18 LONG_MIN LONG_MAX.
Definition t_ulong  := mkT 19 0 18446744073709551615.
(** [long long] and [unsigned long long] have the same size as [long]. *)
Definition all_types := [t_short; t_ushort; t_int; t_uint; t_long; t_ulong].

(** ToStr.hpp:62-66 [toStr] on a value of type [t]; [buf] is the scratch buffer. *)
Definition toStr (t : inttype) (buf : bytes) (val : Z) : outcome bytes := conv buf val.
