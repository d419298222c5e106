(** Model of include/SSVUtils/Encoding/Src/MD5.cpp.
    [UINT4] is [unsigned int] (32 bits): values are [N] below 2^32, with every addition
    and shift reduced modulo 2^32. Bytes are [N] below 256. *)
From Coq Require Import String Ascii ZArith NArith Arith Bool Lia List.
From Verif Require Import Common.
Import ListNotations.
Local Open Scope N_scope.

Definition M32 : N := 4294967296.
Definition add32 (x y : N) : N := (x + y) mod M32.
(** [~x] on a 32-bit unsigned value. *)
Definition not32 (x : N) : N := N.lxor x 4294967295.

(** MD5.cpp:85-100, shift amounts. *)
Definition S11 : N := 7.
Definition S12 : N := 12.
Definition S13 : N := 17.
Definition S14 : N := 22.
Definition S21 : N := 5.
Definition S22 : N := 9.
Definition S23 : N := 14.
Definition S24 : N := 20.
Definition S31 : N := 4.
Definition S32 : N := 11.
Definition S33 : N := 16.
Definition S34 : N := 23.
Definition S41 : N := 6.
Definition S42 : N := 10.
Definition S43 : N := 15.
Definition S44 : N := 21.

(** MD5.cpp:114-117, the macros F, G, H, I. *)
Definition mF x y z := N.lor (N.land x y) (N.land (not32 x) z).
Definition mG x y z := N.lor (N.land x z) (N.land y (not32 z)).
Definition mH x y z := N.lxor (N.lxor x y) z.
Definition mI x y z := N.lxor y (N.lor x (not32 z)).

(** MD5.cpp:126 [ROTATE_LEFT]: the left shift drops the bits above 32. *)
Definition ROTATE_LEFT (x n : N) : N := N.lor (N.shiftl x n mod M32) (N.shiftr x (32 - n)).

(** The four round macros FF, GG, HH, II (MD5.cpp:132-155) differ only in the mixing function. *)
Inductive round := FF | GG | HH | II.
Definition mixfun (r : round) : N -> N -> N -> N :=
  match r with FF => mF | GG => mG | HH => mH | II => mI end.

(** Local variables a, b, c, d of MD5Transform (MD5.cpp:243). *)
Inductive reg := Ra | Rb | Rc | Rd.
Definition regs := (N * N * N * N)%type.
Definition getr (v : regs) (r : reg) : N :=
  let '(a, b, c, d) := v in
  match r with Ra => a | Rb => b | Rc => c | Rd => d end.
Definition setr (v : regs) (r : reg) (x : N) : regs :=
  let '(a, b, c, d) := v in
  match r with
  | Ra => (x, b, c, d) | Rb => (a, x, c, d) | Rc => (a, b, x, d) | Rd => (a, b, c, x)
  end.

(** One macro use: operation, the four register arguments, index into x, shift, constant. *)
Record instr := mkI { i_op : round; i_a : reg; i_b : reg; i_c : reg; i_d : reg;
                      i_k : nat; i_s : N; i_ac : N }.

(** Body of FF/GG/HH/II, MD5.cpp:132-155:
    (a) += f((b),(c),(d)) + (x) + ac;  (a) = ROTATE_LEFT((a),(s));  (a) += (b); *)
Definition exec (x : list N) (v : regs) (i : instr) : regs :=
  let fv := mixfun (i_op i) (getr v (i_b i)) (getr v (i_c i)) (getr v (i_d i)) in
  let a1 := add32 (getr v (i_a i)) (add32 (add32 fv (nth (i_k i) x 0)) (i_ac i)) in
  let a2 := ROTATE_LEFT a1 (i_s i) in
  let a3 := add32 a2 (getr (setr v (i_a i) a2) (i_b i)) in
  setr v (i_a i) a3.

(** MD5.cpp:248-317, the 64 macro uses in source order. *)
Definition program : list instr := [
  mkI FF Ra Rb Rc Rd 0 S11 0xd76aa478;
  mkI FF Rd Ra Rb Rc 1 S12 0xe8c7b756;
  mkI FF Rc Rd Ra Rb 2 S13 0x242070db;
  mkI FF Rb Rc Rd Ra 3 S14 0xc1bdceee;
  mkI FF Ra Rb Rc Rd 4 S11 0xf57c0faf;
  mkI FF Rd Ra Rb Rc 5 S12 0x4787c62a;
  mkI FF Rc Rd Ra Rb 6 S13 0xa8304613;
  mkI FF Rb Rc Rd Ra 7 S14 0xfd469501;
  mkI FF Ra Rb Rc Rd 8 S11 0x698098d8;
  mkI FF Rd Ra Rb Rc 9 S12 0x8b44f7af;
  mkI FF Rc Rd Ra Rb 10 S13 0xffff5bb1;
  mkI FF Rb Rc Rd Ra 11 S14 0x895cd7be;
  mkI FF Ra Rb Rc Rd 12 S11 0x6b901122;
  mkI FF Rd Ra Rb Rc 13 S12 0xfd987193;
  mkI FF Rc Rd Ra Rb 14 S13 0xa679438e;
  mkI FF Rb Rc Rd Ra 15 S14 0x49b40821;
  mkI GG Ra Rb Rc Rd 1 S21 0xf61e2562;
  mkI GG Rd Ra Rb Rc 6 S22 0xc040b340;
  mkI GG Rc Rd Ra Rb 11 S23 0x265e5a51;
  mkI GG Rb Rc Rd Ra 0 S24 0xe9b6c7aa;
  mkI GG Ra Rb Rc Rd 5 S21 0xd62f105d;
  mkI GG Rd Ra Rb Rc 10 S22 0x2441453;
  mkI GG Rc Rd Ra Rb 15 S23 0xd8a1e681;
  mkI GG Rb Rc Rd Ra 4 S24 0xe7d3fbc8;
  mkI GG Ra Rb Rc Rd 9 S21 0x21e1cde6;
  mkI GG Rd Ra Rb Rc 14 S22 0xc33707d6;
  mkI GG Rc Rd Ra Rb 3 S23 0xf4d50d87;
  mkI GG Rb Rc Rd Ra 8 S24 0x455a14ed;
  mkI GG Ra Rb Rc Rd 13 S21 0xa9e3e905;
  mkI GG Rd Ra Rb Rc 2 S22 0xfcefa3f8;
  mkI GG Rc Rd Ra Rb 7 S23 0x676f02d9;
  mkI GG Rb Rc Rd Ra 12 S24 0x8d2a4c8a;
  mkI HH Ra Rb Rc Rd 5 S31 0xfffa3942;
  mkI HH Rd Ra Rb Rc 8 S32 0x8771f681;
  mkI HH Rc Rd Ra Rb 11 S33 0x6d9d6122;
  mkI HH Rb Rc Rd Ra 14 S34 0xfde5380c;
  mkI HH Ra Rb Rc Rd 1 S31 0xa4beea44;
  mkI HH Rd Ra Rb Rc 4 S32 0x4bdecfa9;
  mkI HH Rc Rd Ra Rb 7 S33 0xf6bb4b60;
  mkI HH Rb Rc Rd Ra 10 S34 0xbebfbc70;
  mkI HH Ra Rb Rc Rd 13 S31 0x289b7ec6;
  mkI HH Rd Ra Rb Rc 0 S32 0xeaa127fa;
  mkI HH Rc Rd Ra Rb 3 S33 0xd4ef3085;
  mkI HH Rb Rc Rd Ra 6 S34 0x4881d05;
  mkI HH Ra Rb Rc Rd 9 S31 0xd9d4d039;
  mkI HH Rd Ra Rb Rc 12 S32 0xe6db99e5;
  mkI HH Rc Rd Ra Rb 15 S33 0x1fa27cf8;
  mkI HH Rb Rc Rd Ra 2 S34 0xc4ac5665;
  mkI II Ra Rb Rc Rd 0 S41 0xf4292244;
  mkI II Rd Ra Rb Rc 7 S42 0x432aff97;
  mkI II Rc Rd Ra Rb 14 S43 0xab9423a7;
  mkI II Rb Rc Rd Ra 5 S44 0xfc93a039;
  mkI II Ra Rb Rc Rd 12 S41 0x655b59c3;
  mkI II Rd Ra Rb Rc 3 S42 0x8f0ccc92;
  mkI II Rc Rd Ra Rb 10 S43 0xffeff47d;
  mkI II Rb Rc Rd Ra 1 S44 0x85845dd1;
  mkI II Ra Rb Rc Rd 8 S41 0x6fa87e4f;
  mkI II Rd Ra Rb Rc 15 S42 0xfe2ce6e0;
  mkI II Rc Rd Ra Rb 6 S43 0xa3014314;
  mkI II Rb Rc Rd Ra 13 S44 0x4e0811a1;
  mkI II Ra Rb Rc Rd 4 S41 0xf7537e82;
  mkI II Rd Ra Rb Rc 11 S42 0xbd3af235;
  mkI II Rc Rd Ra Rb 2 S43 0x2ad7d2bb;
  mkI II Rb Rc Rd Ra 9 S44 0xeb86d391
].

(** MD5.cpp:348-356 [Decode]: little-endian words. *)
Fixpoint Decode (input : list N) : list N :=
  match input with
  | b0 :: b1 :: b2 :: b3 :: rest =>
      N.lor (N.lor (N.lor b0 (N.shiftl b1 8 mod M32)) (N.shiftl b2 16 mod M32))
            (N.shiftl b3 24 mod M32) :: Decode rest
  | _ => []
  end.

(** MD5.cpp:332-343 [Encode]: each word to four bytes, least significant first. *)
Definition Encode (input : list N) : list N :=
  flat_map (fun w => [ N.land w 0xff; N.land (N.shiftr w 8) 0xff;
                       N.land (N.shiftr w 16) 0xff; N.land (N.shiftr w 24) 0xff ]) input.

(** MD5.cpp:241-327 [MD5Transform]. The zeroising of the local x has no observable effect. *)
Definition MD5Transform (state : regs) (block : list N) : regs :=
  let '(s0, s1, s2, s3) := state in
  let x := Decode block in
  let '(a, b, c, d) := fold_left (exec x) program state in
  (add32 s0 a, add32 s1 b, add32 s2 c, add32 s3 d).

(** MD5.cpp:39-44 [MD5_CTX]. *)
Record MD5_CTX := mkCtx { state : regs; count0 : N; count1 : N; buffer : list N }.

(** MD5.cpp:160-169 [MD5Init]. The buffer is left uninitialised: [garbage] is what it holds. *)
Definition MD5Init (garbage : list N) : MD5_CTX :=
  mkCtx (0x67452301, 0xefcdab89, 0x98badcfe, 0x10325476) 0 0 garbage.

(** MD5.cpp:361-366 [MD5_memcpy] to &buffer[index]: copies [src], UB outside the 64 cells. *)
Definition memcpy_buf (buf : list N) (index : N) (src : list N) : option (list N) :=
  if N.of_nat (length src) + index <=? N.of_nat (length buf) then
    Some (firstn (N.to_nat index) buf ++ src ++ skipn (N.to_nat index + length src) buf)
  else None.

(** MD5.cpp:198-199, the middle loop. [rest] is input[i..]; the test computes i + 63 in
    [unsigned int], so it wraps; a block reaching past the input is UB. Returns the state,
    the final i and the remaining input. *)
Fixpoint mid_loop (fuel : nat) (st : regs) (i inputLen : N) (rest : list N)
  : outcome (regs * N * list N) :=
  match fuel with
  | O => OutOfFuel
  | S fuel' =>
      if (i + 63) mod M32 <? inputLen then
        if Nat.ltb (length rest) 64 then UB
        else mid_loop fuel' (MD5Transform st (firstn 64 rest)) ((i + 64) mod M32) inputLen
                      (skipn 64 rest)
      else Ok (st, i, rest)
  end.

(** MD5.cpp:175-209 [MD5Update]. [input] is the memory the pointer designates and
    [inputLen] the [unsigned int] length parameter. *)
Definition MD5Update (ctx : MD5_CTX) (input : list N) (inputLen : N) : outcome MD5_CTX :=
  let index := N.land (N.shiftr (count0 ctx) 3) 0x3F in
  let bits := N.shiftl inputLen 3 mod M32 in
  let c0 := add32 (count0 ctx) bits in
  let c1 := if c0 <? bits then add32 (count1 ctx) 1 else count1 ctx in
  let c1 := add32 c1 (N.shiftr inputLen 29) in
  let partLen := 64 - index in
  if Nat.ltb (length input) (N.to_nat inputLen) then UB else
  if partLen <=? inputLen then
    match memcpy_buf (buffer ctx) index (firstn (N.to_nat partLen) input) with
    | None => UB
    | Some buf1 =>
        let st1 := MD5Transform (state ctx) buf1 in
        obind (mid_loop (S (length input)) st1 partLen inputLen (skipn (N.to_nat partLen) input))
          (fun '(st2, i, rest) =>
             match memcpy_buf buf1 0 (firstn (N.to_nat (inputLen - i)) rest) with
             | None => UB
             | Some buf2 => Ok (mkCtx st2 c0 c1 buf2)
             end)
    end
  else
    match memcpy_buf (buffer ctx) index (firstn (N.to_nat inputLen) input) with
    | None => UB
    | Some buf2 => Ok (mkCtx (state ctx) c0 c1 buf2)
    end.

(** MD5.cpp:108-110 [PADDING]. *)
Definition PADDING : list N := 0x80 :: repeat 0 63.

(** MD5.cpp:215-237 [MD5Final], returning the digest. The final zeroising of the context
    is not modelled (the context is not used afterwards). *)
Definition MD5Final (ctx : MD5_CTX) : outcome (list N) :=
  let bits := Encode [count0 ctx; count1 ctx] in
  let index := N.land (N.shiftr (count0 ctx) 3) 0x3f in
  let padLen := if index <? 56 then 56 - index else 120 - index in
  obind (MD5Update ctx PADDING padLen) (fun ctx1 =>
  obind (MD5Update ctx1 bits 8) (fun ctx2 =>
  let '(a, b, c, d) := state ctx2 in Ok (Encode [a; b; c; d]))).

(** MD5.cpp:75-81: sprintf(buffer, "%02x", byte) for every byte, concatenated. *)
Definition hexdigits : bytes := lit "0123456789abcdef".
Definition hex2 (b : N) : bytes :=
  [ nth (N.to_nat (b / 16)) hexdigits "0"%char; nth (N.to_nat (b mod 16)) hexdigits "0"%char ].
Definition hexstr (raw : list N) : bytes := flat_map hex2 raw.

(** MD5.cpp:64-83 [MD5::Calculate(const unsigned char*, uint32_t)] as reached from
    [Calculate(const std::string&)] (MD5.hpp:58-61) and [encode<Type::MD5>]
    (Encoding.cpp:23-26): the size is converted to 32 bits. *)
Definition Calculate (garbage : list N) (source : bytes) : outcome bytes :=
  let input := map N_of_ascii source in
  let len := N.of_nat (length input) mod M32 in
  obind (MD5Update (MD5Init garbage) input len) (fun ctx =>
  obind (MD5Final ctx) (fun raw => Ok (hexstr raw))).

(** A client that feeds chunks one after the other and finalises. *)
Fixpoint feed (ctx : MD5_CTX) (chunks : list bytes) : outcome MD5_CTX :=
  match chunks with
  | [] => Ok ctx
  | c :: cs =>
      obind (MD5Update ctx (map N_of_ascii c) (N.of_nat (length c) mod M32)) (fun ctx' => feed ctx' cs)
  end.
