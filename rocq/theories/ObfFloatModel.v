(** Model of include/SSVUtils/Encoding/Inc/ObfuscatedValue.hpp for [float]. *)
From Coq Require Import String Ascii ZArith NArith Arith Bool List.
From Coq Require Import Floats.SpecFloat.
From Verif Require Import Common Base64Model JsonNumModel CmdModel CastModel FltModel ObfModel AngleModel.
Import ListNotations.
Local Open Scope Z_scope.

(** [std::istringstream >> float] (ObfuscatedValue.hpp:40-46) as libstdc++ does it in the "C" locale: skip white space,
    collect a sign, digits, a point, digits, an exponent, then convert all of it with [strtof].  Without digits, or with
    an exponent letter that no digits follow, the value is set to 0 (so for "inf" and "nan", which are not collected); a
    value too large gives the greatest float of its sign; one too small is no error.  Only texts that start with a number,
    and "inf", "-inf", "nan", are ever read by [get]. *)
Definition greatest (neg : bool) : fl := S754_finite neg 16777215 104.
Definition stream_ratio (neg : bool) (n d : positive) : fl :=
  match SFdiv 24 128 (S754_finite neg n 0) (S754_finite false d 0) with S754_infinity s => greatest s | f => f end.
Definition stream_scaled (neg : bool) (m e : Z) : fl :=
  match m with
  | Zpos p => if 0 <=? e then stream_ratio neg (p * Z.to_pos (10 ^ e)) 1 else stream_ratio neg p (Z.to_pos (10 ^ (- e)))
  | _ => S754_zero neg
  end.
Definition stream_number (neg : bool) (s : bytes) : fl :=
  match scan_mantissa isDigit s with
  | ([], [], _) => S754_zero false
  | (ip, fp, r) =>
    let '(ev, r') := scan_exponent ["e"%char; "E"%char] r in
    if is_char r' "e" || is_char r' "E" then S754_zero false
    else stream_scaled neg (to_number 10 (fun c => num_of c - 48) (ip ++ fp)) (ev - Z.of_nat (length fp))
  end.
Definition stream_float (s : bytes) : fl :=
  match skip_space s with
  | c :: r => if Ascii.eqb c "-" then stream_number true r
              else if Ascii.eqb c "+" then stream_number false r
              else stream_number false (c :: r)
  | [] => S754_zero false
  end.

(** ObfuscatedValue.hpp:58-62 [set] and :66-69 [get]; the object is its encoded text ([dummy] is written, never read). *)
Definition obff_set (v : fl) : outcome obf := Base64Encode (toStr_float v).
Definition obff_get (o : obf) : outcome fl := obind (Base64Decode o) (fun s => Ok (stream_float s)).

(** Arithmetic of [float]; the division asserts a divisor other than zero (:105). *)
Definition float_op (o : binop) (a b : fl) : outcome fl :=
  match o with
  | Add => Ok (addf a b)
  | Sub => Ok (subf a b)
  | Mul => Ok (mulf a b)
  | Div => if SFeqb b f0 then UB else Ok (divf a b)
  end.
(** Assignment (112-115) and the compound assignments (79-108): [set(get() op v); return get();]. *)
Inductive obff_op := FSet (v : fl) | FBin (o : binop) (v : fl).
Definition obff_step (o : obf) (op : obff_op) : outcome obf :=
  match op with
  | FSet v => obff_set v
  | FBin b v => obind (obff_get o) (fun cur => obind (float_op b cur v) obff_set)
  end.
(** A history: the constructor (51-54), then operations; what [get] yields after each. *)
Fixpoint obff_run (o : obf) (h : list obff_op) : outcome (list fl) :=
  match h with
  | [] => Ok []
  | op :: h' =>
      obind (obff_step o op) (fun o' => obind (obff_get o') (fun v => obind (obff_run o' h') (fun vs => Ok (v :: vs))))
  end.
Definition obff_start (v : fl) (h : list obff_op) : outcome (list fl) :=
  obind (obff_set v) (fun o => obind (obff_get o) (fun v0 => obind (obff_run o h) (fun vs => Ok (v0 :: vs)))).
