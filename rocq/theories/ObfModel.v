(** Model of include/SSVUtils/Encoding/Inc/ObfuscatedValue.hpp for the integer types. *)
From Coq Require Import String Ascii ZArith NArith Arith Bool Lia List.
From Verif Require Import Common Base64Model IntToStrModel.
Import ListNotations.
Local Open Scope Z_scope.

(** [std::istringstream >> T] (line 40-46) for an integer type in the "C" locale: skips white space,
    reads an optional sign and the longest run of digits; no digits gives 0, a value outside the
    type gives the nearest limit. (For a negative text and an unsigned type the real function
    negates modulo 2^width; such texts are never stored.) *)
Definition isspace (c : ascii) : bool :=
  let n := N_of_ascii c in ((n =? 32) || ((9 <=? n) && (n <=? 13)))%N.
Definition isdigit (c : ascii) : bool := let n := N_of_ascii c in ((48 <=? n) && (n <=? 57))%N.
Fixpoint skip_ws (s : bytes) : bytes :=
  match s with c :: r => if isspace c then skip_ws r else s | [] => [] end.
Fixpoint read_digits (acc : Z) (s : bytes) : Z :=
  match s with
  | c :: r => if isdigit c then read_digits (10 * acc + (Z.of_N (N_of_ascii c) - 48)) r else acc
  | [] => acc
  end.
Definition clamp_to (t : inttype) (z : Z) : Z := Z.max (t_min t) (Z.min (t_max t) z).
Definition fromStr (t : inttype) (s : bytes) : Z :=
  match skip_ws s with
  | c :: r => if Ascii.eqb c "-" then clamp_to t (- read_digits 0 r)
              else if Ascii.eqb c "+" then clamp_to t (read_digits 0 r)
              else clamp_to t (read_digits 0 (c :: r))
  | [] => 0
  end.

(** Machine arithmetic of the type: operands narrower than [int] are promoted, signed overflow is UB,
    unsigned arithmetic wraps, the result is converted back to the type. *)
Inductive binop := Add | Sub | Mul | Div.
Definition exact_op (o : binop) (a b : Z) : Z :=
  match o with Add => a + b | Sub => a - b | Mul => a * b | Div => Z.quot a b end.
Definition wrap (t : inttype) (z : Z) : Z :=
  t_min t + (z - t_min t) mod (t_max t - t_min t + 1).
Definition in_type (t : inttype) (z : Z) : bool := (t_min t <=? z) && (z <=? t_max t).
Definition machine_op (t : inttype) (o : binop) (a b : Z) : outcome Z :=
  if (match o with Div => true | _ => false end) && (b =? 0) then UB else
  let z := exact_op o a b in
  if (t_digits10 t =? 4)%nat then (* short, unsigned short: computed as int *)
    if in_type t_int z then Ok (wrap t z) else UB
  else if t_min t =? 0 then Ok (wrap t z)
  else if in_type t z then Ok z else UB.

(** The object: only the encoded string matters ([dummy] is written, never read). *)
Definition obf := bytes.

(** ObfuscatedValue.hpp:58-62 [set]; [buf] is toStr's scratch buffer. *)
Definition obf_set (t : inttype) (buf : bytes) (v : Z) : outcome obf :=
  obind (toStr t buf v) Base64Encode.
(** ObfuscatedValue.hpp:66-69 [get]. *)
Definition obf_get (t : inttype) (o : obf) : outcome Z :=
  obind (Base64Decode o) (fun s => Ok (fromStr t s)).

(** Operations of the class: assignment (112-115) and the four compound assignments (79-108; line 105
    asserts a non-zero divisor). *)
Inductive obf_op := OSet (v : Z) | OBin (o : binop) (v : Z).
Definition obf_step (t : inttype) (buf : bytes) (o : obf) (op : obf_op) : outcome obf :=
  match op with
  | OSet v => obf_set t buf v
  | OBin b v => obind (obf_get t o) (fun cur =>
                obind (machine_op t b cur v) (fun r => obf_set t buf r))
  end.

(** Run a history; every step has its own scratch buffer contents. Returns what [get] yields after
    each step (the compound assignments return exactly that). *)
Fixpoint obf_run (t : inttype) (o : obf) (h : list (obf_op * bytes)) : outcome (list Z) :=
  match h with
  | [] => Ok []
  | (op, buf) :: h' =>
      obind (obf_step t buf o op) (fun o' =>
      obind (obf_get t o') (fun v =>
      obind (obf_run t o' h') (fun vs => Ok (v :: vs))))
  end.
Definition obf_start (t : inttype) (buf : bytes) (v : Z) (h : list (obf_op * bytes)) : outcome (list Z) :=
  obind (obf_set t buf v) (fun o => obind (obf_get t o) (fun v0 =>
  obind (obf_run t o h) (fun vs => Ok (v0 :: vs)))).
