(** Model of include/SSVUtils/Internal/PCG/pcg_uint128.hpp: the 128-bit unsigned integer made of four 32-bit
    words (uint_x4<uint32_t, uint64_t>, pcg_extras.hpp:88) and the bit-counting functions for compilers without
    intrinsics.  Little-endian, so that the words are wa[0..3] = v0..v3 and v01, v23 are pairs of them. *)
From Coq Require Import String ZArith Bool List.
From Verif Require Import Common.
Import ListNotations.
Local Open Scope Z_scope.
Local Notation "'let!' x := e 'in' f" := (obind e (fun x => f)) (at level 200, x pattern, e at level 100, f at level 200, right associativity).

(** Conversion to uint32_t, uint64_t, uint8_t. *)
Definition w32 (x : Z) : Z := x mod 2 ^ 32.
Definition w64 (x : Z) : Z := x mod 2 ^ 64.
Definition w8 (x : Z) : Z := x mod 2 ^ 8.
Definition bit (b : bool) : Z := if b then 1 else 0.

(** ** Counting bits (134-186) *)
Definition flog2_table : list Z :=
  [0; 9; 1; 10; 13; 21; 2; 29; 11; 14; 16; 18; 22; 25; 3; 30; 8; 12; 20; 28; 15; 17; 24; 7; 19; 27; 23; 6; 26; 5; 4; 31].
Definition zeros_table : list Z :=
  [0; 1; 28; 2; 29; 14; 24; 3; 30; 22; 20; 15; 25; 17; 4; 8; 31; 27; 13; 23; 21; 19; 16; 7; 26; 12; 18; 6; 11; 5; 10; 9].
Definition entry (t : list Z) (i : Z) : outcome Z := match nth_error t (Z.to_nat i) with Some x => Ok x | None => UB end.
(** 137-153. *)
Definition smear (v : Z) : Z :=
  let v := Z.lor v (Z.shiftr v 1) in
  let v := Z.lor v (Z.shiftr v 2) in
  let v := Z.lor v (Z.shiftr v 4) in
  let v := Z.lor v (Z.shiftr v 8) in
  Z.lor v (Z.shiftr v 16).
Definition flog2_32 (v : Z) : outcome Z := entry flog2_table (Z.shiftr (w32 (smear v * 0x07C4ACDD)) 27).
(** 155-162. *)
Definition zeros_32 (v : Z) : outcome Z := entry zeros_table (Z.shiftr (w32 (Z.land v (w32 (- v)) * 0x077CB531)) 27).
(** 164-170. *)
Definition flog2_64 (v : Z) : outcome Z :=
  let high := w32 (Z.shiftr v 32) in
  let low := w32 v in
  if high =? 0 then flog2_32 low else let! l := flog2_32 high in Ok (w8 (32 + l)).
(** 172-178. *)
Definition zeros_64 (v : Z) : outcome Z :=
  let high := w32 (Z.shiftr v 32) in
  let low := w32 v in
  if low =? 0 then (let! z := zeros_32 high in Ok (w8 (z + 32))) else zeros_32 low.

(** ** The class *)
Record x4 := X { v0 : Z; v1 : Z; v2 : Z; v3 : Z }.
(** The union: the double words and the array (212-237). *)
Definition v01 (a : x4) : Z := v0 a + 2 ^ 32 * v1 a.
Definition v23 (a : x4) : Z := v2 a + 2 ^ 32 * v3 a.
Definition of_double (hi lo : Z) : x4 := X (w32 lo) (Z.shiftr lo 32) (w32 hi) (Z.shiftr hi 32).
Definition wa (a : x4) : list Z := [v0 a; v1 a; v2 a; v3 a].
Definition of_wa (l : list Z) : x4 := X (nth 0 l 0) (nth 1 l 0) (nth 2 l 0) (nth 3 l 0).
(** 278-292: from an integer type; the upper half is zero also for negative numbers. *)
Definition of_int (z : Z) : x4 := of_double 0 (w64 z).
(** 294-331. *)
Definition to_u64 (a : x4) : Z := v01 a.
Definition to_u32 (a : x4) : Z := v0 a.
Definition to_bool (a : x4) : bool := negb (v01 a =? 0) || negb (v23 a =? 0).

(** 189-195 and 198-204: the sum (difference) and the carry (borrow). *)
Definition addwithcarry (x y : Z) (carryin : bool) : Z * bool :=
  let half := w32 (y + bit carryin) in
  let result := w32 (x + half) in
  (result, (half <? y) || (result <? x)).
Definition subwithcarry (x y : Z) (carryin : bool) : Z * bool :=
  let half := w32 (y + bit carryin) in
  let result := w32 (x - half) in
  (result, (half <? y) || (x <? result)).
(** 592-609. *)
Definition add (a b : x4) : x4 :=
  let '(r0, c) := addwithcarry (v0 a) (v0 b) false in
  let '(r1, c) := addwithcarry (v1 a) (v1 b) c in
  let '(r2, c) := addwithcarry (v2 a) (v2 b) c in
  let '(r3, _) := addwithcarry (v3 a) (v3 b) c in
  X r0 r1 r2 r3.
(** 611-628. *)
Definition sub (a b : x4) : x4 :=
  let '(r0, c) := subwithcarry (v0 a) (v0 b) false in
  let '(r1, c) := subwithcarry (v1 a) (v1 b) c in
  let '(r2, c) := subwithcarry (v2 a) (v2 b) c in
  let '(r3, _) := subwithcarry (v3 a) (v3 b) c in
  X r0 r1 r2 r3.
(** 658-662. *)
Definition neg (a : x4) : x4 := sub (of_double 0 0) a.
(** 548-589. *)
Definition mul (a b : x4) : x4 :=
  let a0b0 := w64 (v0 a * v0 b) in
  let r0 := w32 a0b0 in
  let r1 := w32 (Z.shiftr a0b0 32) in
  let r3 := 0 in
  let a1b0 := w64 (v1 a * v0 b) in
  let r2 := w32 (Z.shiftr a1b0 32) in
  let '(r1, c) := addwithcarry r1 (w32 a1b0) false in
  let '(r2, c) := addwithcarry r2 0 c in
  let '(r3, _) := addwithcarry r3 0 c in
  let a0b1 := w64 (v0 a * v1 b) in
  let '(r2, c) := addwithcarry r2 (w32 (Z.shiftr a0b1 32)) false in
  let '(r3, _) := addwithcarry r3 0 c in
  let '(r1, c) := addwithcarry r1 (w32 a0b1) false in
  let '(r2, c) := addwithcarry r2 0 c in
  let '(r3, _) := addwithcarry r3 0 c in
  let a1b1 := w64 (v1 a * v1 b) in
  let '(r2, c) := addwithcarry r2 (w32 a1b1) false in
  let '(r3, _) := addwithcarry r3 (w32 (Z.shiftr a1b1 32)) c in
  let r := X r0 r1 r2 r3 in
  of_double (w64 (v23 r + w64 (w64 (v01 a * v23 b) + w64 (v23 a * v01 b)))) (v01 r).
(** 631-656. *)
Definition band (a b : x4) : x4 := of_double (Z.land (v23 a) (v23 b)) (Z.land (v01 a) (v01 b)).
Definition bor (a b : x4) : x4 := of_double (Z.lor (v23 a) (v23 b)) (Z.lor (v01 a) (v01 b)).
Definition bxor (a b : x4) : x4 := of_double (Z.lxor (v23 a) (v23 b)) (Z.lxor (v01 a) (v01 b)).
Definition bnot (a : x4) : x4 := of_double (w64 (Z.lnot (v23 a))) (w64 (Z.lnot (v01 a))).
(** 664-699. *)
Definition eq (a b : x4) : bool := (v01 a =? v01 b) && (v23 a =? v23 b).
Definition lt (a b : x4) : bool := (v23 a <? v23 b) || ((v23 a =? v23 b) && (v01 a <? v01 b)).
Definition ne (a b : x4) : bool := negb (eq a b).
Definition gt (a b : x4) : bool := lt b a.
Definition le (a b : x4) : bool := negb (lt b a).
Definition ge (a b : x4) : bool := negb (lt a b).

(** 703-743; [shift] is a uint8_t. The loop counters are uint8_t. *)
Definition put (l : list Z) (i : Z) (x : Z) : outcome (list Z) :=
  if (0 <=? i) && (i <? Z.of_nat (length l)) then Ok (firstn (Z.to_nat i) l ++ x :: skipn (S (Z.to_nat i)) l) else UB.
Definition get (l : list Z) (i : Z) : outcome Z := match nth_error l (Z.to_nat i) with Some x => Ok x | None => UB end.
Fixpoint shl_loop (fuel : nat) (v : list Z) (shiftmod : Z) (out inn carryover : Z) (r : list Z) : outcome (list Z) :=
  match fuel with
  | O => OutOfFuel
  | S fuel =>
    if out <? 4 then
      let! x := get v inn in
      let! r := put r out (if shiftmod =? 0 then x else Z.lor (w32 (Z.shiftl x shiftmod)) carryover) in
      shl_loop fuel v shiftmod (w8 (out + 1)) (w8 (inn + 1)) (if shiftmod =? 0 then 0 else Z.shiftr x (32 - shiftmod)) r
    else Ok r
  end.
Definition shl (a : x4) (shift : Z) : outcome x4 :=
  let! r := shl_loop 5 (wa a) (Z.land shift 31) (shift / 32) 0 0 [0; 0; 0; 0] in Ok (of_wa r).
(** 745-785: the counters run down to 0 and are decremented first. *)
Fixpoint shr_loop (fuel : nat) (v : list Z) (shiftmod : Z) (out inn carryover : Z) (r : list Z) : outcome (list Z) :=
  match fuel with
  | O => OutOfFuel
  | S fuel =>
    if out =? 0 then Ok r else
    let out := w8 (out - 1) in
    let inn := w8 (inn - 1) in
    let! x := get v inn in
    let! r := put r out (if shiftmod =? 0 then x else Z.lor (Z.shiftr x shiftmod) carryover) in
    shr_loop fuel v shiftmod out inn (if shiftmod =? 0 then 0 else w32 (Z.shiftl x (32 - shiftmod))) r
  end.
Definition shr (a : x4) (shift : Z) : outcome x4 :=
  let! r := shr_loop 5 (wa a) (Z.land shift 31) (w8 (4 - shift / 32)) 4 0 [0; 0; 0; 0] in Ok (of_wa r).

(** 452-467: the highest word that is not zero; std::abort for zero. *)
Definition flog2 (a : x4) : outcome Z :=
  if negb (v3 a =? 0) then (let! l := flog2_32 (v3 a) in Ok (w8 (l + 32 * 3)))
  else if negb (v2 a =? 0) then (let! l := flog2_32 (v2 a) in Ok (w8 (l + 32 * 2)))
  else if negb (v1 a =? 0) then (let! l := flog2_32 (v1 a) in Ok (w8 (l + 32 * 1)))
  else if negb (v0 a =? 0) then (let! l := flog2_32 (v0 a) in Ok (w8 (l + 32 * 0)))
  else Throw "abort"%string.
(** 469-484. *)
Definition trailingzeros (a : x4) : outcome Z :=
  if negb (v0 a =? 0) then (let! l := zeros_32 (v0 a) in Ok (w8 (l + 32 * 0)))
  else if negb (v1 a =? 0) then (let! l := zeros_32 (v1 a) in Ok (w8 (l + 32 * 1)))
  else if negb (v2 a =? 0) then (let! l := zeros_32 (v2 a) in Ok (w8 (l + 32 * 2)))
  else if negb (v3 a =? 0) then (let! l := zeros_32 (v3 a) in Ok (w8 (l + 32 * 3)))
  else Ok 128.
(** 182-186 at this type. *)
Definition clog2 (a : x4) : outcome Z := let! l := flog2 a in Ok (w8 (l + bit (ne (band a (neg a)) a))).

(** 523-527. *)
Fixpoint narrow (fuel : nat) (dividend factor qfactor : x4) : outcome (x4 * x4) :=
  match fuel with
  | O => OutOfFuel
  | S fuel =>
    if lt dividend factor then
      let! factor := shr factor 1 in
      let! qfactor := shr qfactor 1 in
      narrow fuel dividend factor qfactor
    else Ok (factor, qfactor)
  end.
(** 519-528. *)
Fixpoint div_loop (fuel : nat) (divisor dividend quotient factor qfactor : x4) : outcome (x4 * x4) :=
  match fuel with
  | O => OutOfFuel
  | S fuel =>
    let dividend := sub dividend factor in
    let quotient := add quotient qfactor in
    let! (factor, qfactor) := narrow 130 dividend factor qfactor in
    if ge dividend divisor then div_loop fuel divisor dividend quotient factor qfactor else Ok (quotient, dividend)
  end.
(** 486-531. *)
Definition divmod (dividend divisor : x4) : outcome (x4 * x4) :=
  if lt dividend divisor then Ok (of_int 0, dividend) else
  let! log2_divisor := flog2 divisor in
  let! log2_dividend := flog2 dividend in
  let logdiff := w8 (log2_dividend - log2_divisor) in
  if logdiff =? 0 then Ok (of_int 1, sub dividend divisor) else
  let logdiff := w8 (logdiff - 1) in
  let! qfactor := shl (of_int 1) logdiff in
  let! factor := shl divisor logdiff in
  div_loop 140 divisor dividend (of_int 0) factor qfactor.
(** 533-545. *)
Definition div (a b : x4) : outcome x4 := let! (q, _) := divmod a b in Ok q.
Definition modulo (a b : x4) : outcome x4 := let! (_, r) := divmod a b in Ok r.
