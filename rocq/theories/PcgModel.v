(** Model of include/SSVUtils/Internal/PCG/pcg_random.hpp (class [engine] and the output functions used
    by the library's generator [pcg32_fast]) and of the seeding, bounded numbers and shuffling of
    pcg_extras.hpp.  State types of 8, 16, 32, 64 and 128 bits; the 128-bit type is the built-in one. *)
From Coq Require Import String ZArith Bool List.
From Verif Require Import Common.
Import ListNotations.
Local Open Scope Z_scope.
Local Notation "'let!' x := e 'in' f" := (obind e (fun x => f)) (at level 200, x pattern, e at level 100, f at level 200, right associativity).

Section ENGINE.
Variable w : Z.       (* bits of the state type *)
Variable is_mcg : bool.
Variable m : Z.       (* multiplier() *)
Variable c : Z.       (* increment() *)

(** The value of a sum of products assigned to a variable of the state type. Operands narrower than int
    are computed with as int, where overflow is undefined; the others wrap around. *)
Definition expr (x : Z) : outcome Z := if (w <? 32) && (INT_MAX <? x) then UB else Ok (x mod 2 ^ w).

(** pcg_random.hpp:403-406 [bump]. *)
Definition bump (s : Z) : outcome Z := expr (s * m + c).
(** 408-418 [base_generate], [base_generate0]; 421-427 [operator()]: new state and output. *)
Definition generate (output_previous : bool) (output : Z -> Z) (s : Z) : outcome (Z * Z) :=
  let! s' := bump s in Ok (s', output (if output_previous then s else s')).

(** 628-658 [advance]: the loop; [delta] is halved each time round. *)
Fixpoint advance_loop (fuel : nat) (delta acc_mult acc_plus cur_mult cur_plus : Z) : outcome (Z * Z) :=
  match fuel with
  | O => OutOfFuel
  | S fuel =>
      if 0 <? delta then
        let! (acc_mult, acc_plus) :=
          (if Z.testbit delta 0 then
             let! a := expr (acc_mult * cur_mult) in
             let! p := expr (acc_plus * cur_mult + cur_plus) in Ok (a, p)
           else Ok (acc_mult, acc_plus)) in
        let! cur_plus := expr ((cur_mult + 1) * cur_plus) in
        let! cur_mult := expr (cur_mult * cur_mult) in
        advance_loop fuel (Z.shiftr delta 1) acc_mult acc_plus cur_mult cur_plus
      else Ok (acc_mult, acc_plus)
  end.
Definition advance_from (s delta : Z) : outcome Z :=
  let! (a, p) := advance_loop (S (Z.to_nat w)) delta 1 0 m c in expr (a * s + p).
(** 447-460 [advance], [backstep], [discard]. *)
Definition advance (s delta : Z) : outcome Z := advance_from s delta.
Definition backstep (s delta : Z) : outcome Z := advance_from s ((- delta) mod 2 ^ w).
Definition discard (s delta : Z) : outcome Z := advance_from s delta.

(** 660-682 [distance] with its default mask; the loop ends when the states are equal. *)
Fixpoint distance_loop (fuel : nat) (cur_state newstate cur_mult cur_plus the_bit dist : Z) : outcome Z :=
  match fuel with
  | O => OutOfFuel
  | S fuel =>
      if cur_state =? newstate then Ok dist else
      let! (cur_state, dist) :=
        (if Z.land cur_state the_bit =? Z.land newstate the_bit then Ok (cur_state, dist)
         else let! s := expr (cur_state * cur_mult + cur_plus) in Ok (s, Z.lor dist the_bit)) in
      if Z.land cur_state the_bit =? Z.land newstate the_bit then
        let the_bit := (the_bit * 2) mod 2 ^ w in
        let! cur_plus := expr ((cur_mult + 1) * cur_plus) in
        let! cur_mult := expr (cur_mult * cur_mult) in
        distance_loop fuel cur_state newstate cur_mult cur_plus the_bit dist
      else UB
  end.
Definition distance_fuel (fuel : nat) (s s' : Z) : outcome Z :=
  let! d := distance_loop fuel s s' m c (if is_mcg then 4 else 1) 0 in
  Ok (if is_mcg then Z.shiftr d 2 else d).
Definition distance (s s' : Z) : outcome Z := distance_fuel (S (Z.to_nat w)) s s'.
(** 684-699 [operator-]. *)
Definition minus (lhs rhs : Z) : outcome Z := distance rhs lhs.

(** 477-483: the constructor. *)
Definition construct (s : Z) : outcome Z := if is_mcg then Ok (Z.lor s 3) else bump ((s + c) mod 2 ^ w).
(** 384-387 [period_pow2]; 462-475 [wrapped]. *)
Definition period_pow2 : Z := w - 2 * (if is_mcg then 1 else 0).
Definition wrapped (s : Z) : bool := if is_mcg then s =? 3 else s =? 0.
End ENGINE.

(** 332-335, 343: [set_stream] and the constructor of [specific_stream]; 199-202: the increment of
    [unique_stream], from the object's address. *)
Definition stream_increment (w seq : Z) : Z := Z.lor ((seq * 2) mod 2 ^ w) 1.
Definition unique_increment (w address : Z) : Z := (Z.lor address 1) mod 2 ^ w.

(** 561-627: what is written and read back: multiplier, increment, state. *)
Definition save (m c s : Z) : Z * Z * Z := (m, c, s).
Definition load (w m c : Z) (can_specify_stream : bool) (x : Z * Z * Z) : option (Z * Z) :=  (* increment, state *)
  let '(m', c', s') := x in
  if negb (m' =? m) then None
  else if can_specify_stream then Some (stream_increment w (Z.shiftr c' 1), s')
  else if c' =? c then Some (c, s') else None.

(** 133-158: multipliers and increments by number of bits. *)
Definition constants : list (Z * Z * Z) :=
  [(8, 141, 77); (16, 12829, 47989); (32, 747796405, 2891336453); (64, 6364136223846793005, 1442695040888963407);
   (128, 2549297995355413924 * 2 ^ 64 + 4865540595714422341, 6364136223846793005 * 2 ^ 64 + 1442695040888963407)].

(** 772-800 [xsh_rs_mixin::output]. *)
Definition xsh_rs_opbits (sparebits : Z) : Z :=
  if sparebits - 5 >=? 64 then 5 else if sparebits - 4 >=? 32 then 4 else if sparebits - 3 >=? 16 then 3
  else if sparebits - 2 >=? 4 then 2 else if sparebits - 1 >=? 1 then 1 else 0.
Definition xsh_rs (bits xtypebits internal : Z) : Z :=
  let sparebits := bits - xtypebits in
  let opbits := xsh_rs_opbits sparebits in
  let mask := 2 ^ opbits - 1 in
  let maxrandshift := mask in
  let topspare := opbits in
  let bottomspare := sparebits - topspare in
  let xshift := topspare + (xtypebits + maxrandshift) / 2 in
  let rshift := if opbits =? 0 then 0 else Z.land (Z.shiftr internal (bits - opbits)) mask in
  let internal := Z.lxor internal (Z.shiftr internal xshift) in
  Z.shiftr internal (bottomspare - maxrandshift + rshift) mod 2 ^ xtypebits.

(** 1579, 1714 [pcg32_fast]: the generator of the library, from one state to the next. *)
Definition fast_mult : Z := 6364136223846793005.
Definition pcg32_fast (s : Z) : outcome (Z * Z) := generate 64 fast_mult 0 true (xsh_rs 64 32) s.
(** 498-507, pcg_extras.hpp:415-458, 515-521: seeding with two 32-bit numbers, the low half first. *)
Definition pcg32_fast_seed (lo hi : Z) : outcome Z := construct 64 true fast_mult 0 (Z.lor lo (hi * 2 ^ 32)).

(** pcg_extras.hpp:523-536 [bounded_rand], [rng] gives [wx]-bit numbers, [bound] was converted to that
    type. *)
Section BOUNDED.
Context {R : Type} (rng : R -> outcome (R * Z)) (wx : Z).
Definition threshold (bound : Z) : Z := ((2 ^ wx - bound) mod 2 ^ wx) mod bound.
Fixpoint bounded_loop (fuel : nat) (bound : Z) (r : R) : outcome (R * Z) :=
  match fuel with
  | O => OutOfFuel
  | S fuel =>
      let! (r, x) := rng r in
      if threshold bound <=? x then Ok (r, x mod bound) else bounded_loop fuel bound r
  end.
Definition bounded_rand (fuel : nat) (bound : Z) (r : R) : outcome (R * Z) :=
  if bound =? 0 then UB else bounded_loop fuel bound r.

(** pcg_extras.hpp:538-551 [shuffle]. *)
Definition swap_at {A} (l : list A) (i j : nat) : list A :=
  match nth_error l i, nth_error l j with
  | Some x, Some y => map (fun k => if Nat.eqb k i then y else if Nat.eqb k j then x else nth k l x) (seq 0 (length l))
  | _, _ => l
  end.
Fixpoint shuffle_loop {A} (fuel : nat) (count : nat) (l : list A) (r : R) : outcome (R * list A) :=
  match count with
  | O | S O => Ok (r, l)
  | S count' =>
      let! (r, chosen) := bounded_rand fuel (Z.of_nat count mod 2 ^ wx) r in
      shuffle_loop fuel count' (swap_at l (Z.to_nat chosen) count') r
  end.
Definition shuffle {A} (fuel : nat) (l : list A) (r : R) : outcome (R * list A) := shuffle_loop fuel (length l) l r.
End BOUNDED.
