(** Specification of Base64 text, after RFC 4648 section 4. Uses nothing of the model. *)
From Coq Require Import String Ascii ZArith NArith Arith Bool Lia List.
From Verif Require Import Common.
Import ListNotations.

(** The bits of one byte, most significant first. [Ascii] stores the least significant first. *)
Definition byte_bits (c : ascii) : list bool :=
  match c with Ascii b0 b1 b2 b3 b4 b5 b6 b7 => [b7; b6; b5; b4; b3; b2; b1; b0] end.

(** The input as one bit string. *)
Definition bit_string (s : bytes) : list bool := flat_map byte_bits s.

(** Split in groups of six bits; a short last group is filled with zero bits. *)
Fixpoint six_bit_groups (l : list bool) : list (list bool) :=
  match l with
  | a :: b :: c :: d :: e :: f :: r => [a; b; c; d; e; f] :: six_bit_groups r
  | [] => []
  | _ => [firstn 6 (l ++ repeat false 6)]
  end.

(** Value of a bit group, most significant bit first. *)
Definition bits_value (l : list bool) : N :=
  fold_left (fun v b => 2 * v + (if b : bool then 1 else 0))%N l 0%N.

(** RFC 4648 table 1: 0-25 A-Z, 26-51 a-z, 52-61 0-9, 62 +, 63 /. *)
Definition table1 (v : N) : ascii :=
  (if v <? 26 then ascii_of_N (65 + v)
   else if v <? 52 then ascii_of_N (97 + (v - 26))
   else if v <? 62 then ascii_of_N (48 + (v - 52))
   else if v =? 62 then "+"%char else "/"%char)%N.

(** The encoding: one character per group, then '=' up to a multiple of four characters. *)
Definition rfc4648 (s : bytes) : bytes :=
  let body := map (fun g => table1 (bits_value g)) (six_bit_groups (bit_string s)) in
  body ++ repeat "="%char ((4 - length body mod 4) mod 4).

(** The alphabet as a predicate. *)
Definition in_alphabet (c : ascii) : Prop := exists v, (v < 64)%N /\ c = table1 v.
