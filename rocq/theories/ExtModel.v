(** Model of the extended generators of include/SSVUtils/Internal/PCG/pcg_random.hpp:1150-1551: a base generator whose
    results are combined with a table of numbers that is advanced from time to time.
    The generators of the table entries are the library's [oneseq_rxs_m_xs] (1661-1679), which have no MCG variant,
    so that their [is_mcg] is false throughout.  [operator!=] (1411-1418) calls itself for ever and is left out. *)
From Coq Require Import String ZArith Bool List.
From Verif Require Import Common PcgModel PermModel.
Import ListNotations.
Local Open Scope Z_scope.
Local Notation "'let!' x := e 'in' f" := (obind e (fun x => f)) (at level 200, x pattern, e at level 100, f at level 200, right associativity).

(** The template arguments, with the constants of the classes given. *)
Record params := mkP {
  w : Z; is_mcg : bool; m : Z; c : Z;                   (* base: state bits, kind, multiplier, increment *)
  output_previous : bool; output : Z -> Z;              (* base: output function *)
  xb : Z; em : Z; ec : Z; om : Z; ou : Z;               (* table: bits, multiplier, increment, constants of the output function *)
  table_pow2 : Z; advance_pow2 : Z; kdd : bool }.

Section EXT.
Variable p : params.

(** 1161-1171 [external_step]: the new value, and whether it is zero. *)
Definition external_step (x i : Z) : outcome (Z * bool) :=
  let! s := unoutput (ou p) (xb p) x in
  let! s := expr (xb p) (s * em p + ec p + (2 * i) mod 2 ^ xb p) in
  let! r := rxs_m_xs (om p) (xb p) (xb p) s in
  Ok (r, r =? 0).
(** 1173-1188 [external_advance], for types of at least 32 bits (the negation is not promoted to int). *)
Definition external_advance (x i delta : Z) (forwards : bool) : outcome (Z * bool) :=
  let! s := unoutput (ou p) (xb p) x in
  let inc := (ec p + (2 * i) mod 2 ^ xb p) mod 2 ^ xb p in
  let! dist_to_zero := distance (xb p) false (em p) inc s 0 in
  let crosses_zero := if forwards then dist_to_zero <=? delta else (- dist_to_zero) mod 2 ^ xb p <=? delta in
  let delta := if forwards then delta else (- delta) mod 2 ^ xb p in
  let! s := advance_from (xb p) (em p) inc s delta in
  let! r := rxs_m_xs (om p) (xb p) (xb p) s in
  Ok (r, crosses_zero).

(** 1468-1483 [advance_table()], from entry [i] on. *)
Fixpoint advance_table_from (i : Z) (carry : bool) (data : list Z) : outcome (list Z) :=
  match data with
  | [] => Ok []
  | x :: rest =>
      let! (x, carry) := (if carry then external_step x (i + 1) else Ok (x, false)) in
      let! (x, carry2) := external_step x (i + 1) in
      let! rest := advance_table_from (i + 1) (carry || carry2) rest in
      Ok (x :: rest)
  end.
Definition advance_table (data : list Z) : outcome (list Z) := advance_table_from 0 false data.
(** 1485-1513 [advance_table(delta, isForwards)]. *)
Fixpoint advance_table_by_from (i carry delta : Z) (isForwards : bool) (data : list Z) : outcome (list Z) :=
  match data with
  | [] => Ok []
  | x :: rest =>
      let total_delta := (carry + delta) mod 2 ^ w p in
      let trunc_delta := total_delta mod 2 ^ xb p in
      let carry := if xb p <? w p then Z.shiftr total_delta (xb p) else 0 in
      let! (x, crosses) := external_advance x (i + 1) trunc_delta isForwards in
      let carry := (carry + (if crosses then 1 else 0)) mod 2 ^ w p in
      let! rest := advance_table_by_from (i + 1) carry delta isForwards rest in
      Ok (x :: rest)
  end.
Definition advance_table_by (delta : Z) (isForwards : bool) (data : list Z) : outcome (list Z) :=
  advance_table_by_from 0 0 delta isForwards data.

(** 1202-1220: constants. *)
Definition table_size : Z := 2 ^ table_pow2 p.
Definition table_shift : Z := w p - table_pow2 p.
Definition table_mask : Z := 2 ^ table_pow2 p - 1.
Definition may_tick : bool := (advance_pow2 p <? w p) && (advance_pow2 p <? 64).
Definition tick_shift : Z := w p - advance_pow2 p.
Definition tick_mask : Z := if may_tick then (2 ^ advance_pow2 p - 1) mod 2 ^ w p else 2 ^ w p - 1.
Definition may_tock : bool := w p <? 64.

(** A generator: state and table. *)
Definition gen : Type := Z * list Z.
(** 1228-1250 [get_extended_value]: the index and the table. *)
Definition get_extended_value (g : gen) : outcome (Z * list Z) :=
  let '(s, data) := g in
  let state := if kdd p && is_mcg p then Z.shiftr s 2 else s in
  let index := if kdd p then Z.land state table_mask else Z.shiftr state table_shift in
  let! data := (if may_tick then
                  if (if kdd p then Z.land state tick_mask =? 0 else Z.shiftr state tick_shift =? 0)
                  then advance_table data else Ok data
                else Ok data) in
  let! data := (if may_tock then if state =? 0 then advance_table data else Ok data else Ok data) in
  Ok (index, data).
Definition read (data : list Z) (index : Z) : outcome Z :=
  if 0 <=? index then match nth_error data (Z.to_nat index) with Some x => Ok x | None => UB end else UB.
Definition base_draw (s : Z) : outcome (Z * Z) := generate (w p) (m p) (c p) (output_previous p) (output p) s.
(** 1259-1264 [operator()]. *)
Definition draw (g : gen) : outcome (gen * Z) :=
  let! (index, data) := get_extended_value g in
  let! rhs := read data index in
  let! (s, lhs) := base_draw (fst g) in
  Ok ((s, data), Z.lxor lhs rhs).
(** 1271-1276 [set]. *)
Definition set (wanted : Z) (g : gen) : outcome gen :=
  let! (index, data) := get_extended_value g in
  let! _ := read data index in
  let! (s, lhs) := base_draw (fst g) in
  Ok (s, firstn (Z.to_nat index) data ++ Z.lxor lhs wanted :: skipn (S (Z.to_nat index)) data).
(** 1253-1257 [period_pow2]. *)
Definition claimed_period_pow2 : Z := period_pow2 (w p) (is_mcg p) + table_size * period_pow2 (xb p) false.

(** 660-682 [distance] with a mask. *)
Fixpoint masked_loop (fuel : nat) (cur_state newstate cur_mult cur_plus mask the_bit dist : Z) : outcome Z :=
  match fuel with
  | O => OutOfFuel
  | S fuel =>
      if Z.land cur_state mask =? Z.land newstate mask then Ok dist else
      let! (cur_state, dist) :=
        (if Z.land cur_state the_bit =? Z.land newstate the_bit then Ok (cur_state, dist)
         else let! s := expr (w p) (cur_state * cur_mult + cur_plus) in Ok (s, Z.lor dist the_bit)) in
      if Z.land cur_state the_bit =? Z.land newstate the_bit then
        let! cur_plus' := expr (w p) ((cur_mult + 1) * cur_plus) in
        let! cur_mult' := expr (w p) (cur_mult * cur_mult) in
        masked_loop fuel cur_state newstate cur_mult' cur_plus' mask ((the_bit * 2) mod 2 ^ w p) dist
      else UB
  end.
Definition masked_distance (s s' mask : Z) : outcome Z :=
  let! d := masked_loop (S (Z.to_nat (w p))) s s' (m p) (c p) mask (if is_mcg p then 4 else 1) 0 in
  Ok (if is_mcg p then Z.shiftr d 2 else d).

(** 1515-1551 [advance]; it does not compile for [kdd] = false. *)
Definition advance (g : gen) (dist : Z) (forwards : bool) : outcome gen :=
  let '(s, data) := g in
  if negb (kdd p) then Throw "does not compile"%string else
  let zero := if is_mcg p then Z.land s 3 else 0 in
  let! data :=
    (if may_tick then
       let ticks := Z.shiftr dist (advance_pow2 p) in
       let adv_mask := if is_mcg p then (tick_mask * 4) mod 2 ^ w p else tick_mask in
       let! next_advance_distance := masked_distance s zero adv_mask in
       let next_advance_distance := if forwards then next_advance_distance
                                    else Z.land ((- next_advance_distance) mod 2 ^ w p) tick_mask in
       let ticks := if next_advance_distance <? Z.land dist tick_mask then (ticks + 1) mod 2 ^ w p else ticks in
       if ticks =? 0 then Ok data else advance_table_by ticks forwards data
     else Ok data) in
  let! d := (if may_tock then distance (w p) (is_mcg p) (m p) (c p) s zero else Ok 0) in
  if forwards then
    let! data := (if may_tock && (d <=? dist) then advance_table data else Ok data) in
    let! s := PcgModel.advance (w p) (m p) (c p) s dist in Ok (s, data)
  else
    let! data := (if may_tock && ((- d) mod 2 ^ w p <=? dist) then advance_table_by 1 false data else Ok data) in
    let! s := PcgModel.advance (w p) (m p) (c p) s ((- dist) mod 2 ^ w p) in Ok (s, data).
(** 1280-1283 [backstep]. *)
Definition backstep (g : gen) (dist : Z) : outcome gen := advance g dist false.

(** 1378-1397 [selfinit]. The two numbers of the first expression are drawn in an order the compiler chooses;
    [swapped]: the right one first. *)
Fixpoint fill (n : nat) (xdiff s : Z) : outcome (Z * list Z) :=
  match n with
  | O => Ok (s, [])
  | S n => let! (s, x) := base_draw s in let! (s, rest) := fill n xdiff s in Ok (s, Z.lxor x xdiff :: rest)
  end.
Definition selfinit (swapped : bool) (s : Z) : outcome gen :=
  let! (s, a) := base_draw s in
  let! (s, b) := base_draw s in
  let xdiff := (if swapped then b - a else a - b) mod 2 ^ xb p in
  fill (Z.to_nat table_size) xdiff s.
End EXT.

(** 133-158, 902-917, 1661-1679 [ext_std32], [ext_std64]: a base with the table of its result size. *)
Definition ext32 (is_mcg : bool) (out : Z -> Z) (inc tp ap : Z) (kdd : bool) : params :=
  mkP 64 is_mcg 6364136223846793005 inc true out 32 747796405 2891336453 277803737 2897767785 tp ap kdd.
Definition ext64 (is_mcg : bool) (inc tp ap : Z) (kdd : bool) : params :=
  mkP 128 is_mcg (2549297995355413924 * 2 ^ 64 + 4865540595714422341) inc false (xsl_rr 128 64)
    64 6364136223846793005 1442695040888963407 12605985483714917081 15009553638781119849 tp ap kdd.
Definition inc64 : Z := 1442695040888963407.
Definition inc128 : Z := 6364136223846793005 * 2 ^ 64 + 1442695040888963407.
(** 1733-1790: the named generators; those with settable streams for any increment. *)
Definition pcg32_k2 (inc : Z) := ext32 false (xsh_rr 64 32) inc 6 16 true.
Definition pcg32_k2_fast := ext32 false (xsh_rs 64 32) inc64 6 32 true.
Definition pcg32_k64 (inc : Z) := ext32 false (xsh_rr 64 32) inc 6 16 true.
Definition pcg32_k64_oneseq := ext32 true (xsh_rs 64 32) 0 6 32 true.
Definition pcg32_k64_fast := ext32 false (xsh_rs 64 32) inc64 6 32 true.
Definition pcg32_c64 (inc : Z) := ext32 false (xsh_rr 64 32) inc 6 16 false.
Definition pcg32_c64_oneseq := ext32 false (xsh_rs 64 32) inc64 6 32 false.
Definition pcg32_c64_fast := ext32 true (xsh_rs 64 32) 0 6 32 false.
Definition pcg64_k32 (inc : Z) := ext64 false inc 5 16 true.
Definition pcg64_k32_oneseq := ext64 false inc128 5 128 true.
Definition pcg64_k32_fast := ext64 true 0 5 128 true.
Definition pcg64_c32 (inc : Z) := ext64 false inc 5 16 false.
Definition pcg64_c32_oneseq := ext64 false inc128 5 128 false.
Definition pcg64_c32_fast := ext64 true 0 5 128 false.
Definition pcg32_k1024 (inc : Z) := ext32 false (xsh_rr 64 32) inc 10 16 true.
Definition pcg32_k1024_fast := ext32 false (xsh_rs 64 32) inc64 10 32 true.
Definition pcg32_c1024 (inc : Z) := ext32 false (xsh_rr 64 32) inc 10 16 false.
Definition pcg32_c1024_fast := ext32 false (xsh_rs 64 32) inc64 10 32 false.
Definition pcg64_k1024 (inc : Z) := ext64 false inc 10 16 true.
Definition pcg64_k1024_fast := ext64 false inc128 10 128 true.
Definition pcg64_c1024 (inc : Z) := ext64 false inc 10 16 false.
Definition pcg64_c1024_fast := ext64 false inc128 10 128 false.
Definition pcg32_k16384 (inc : Z) := ext32 false (xsh_rr 64 32) inc 14 16 true.
Definition pcg32_k16384_fast := ext32 false (xsh_rs 64 32) inc64 14 32 true.
(** The 32-bit base (1681-1683 [ext_oneseq_rxs_m_xs_32_32]). *)
Definition ext_oneseq_rxs_m_xs_32_32 (tp ap : Z) (kdd : bool) : params :=
  mkP 32 false 747796405 2891336453 true
    (fun s => match rxs_m_xs 277803737 32 32 s with Ok x => x | _ => 0 end)
    32 747796405 2891336453 277803737 2897767785 tp ap kdd.
