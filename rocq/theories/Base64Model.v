(** Model of include/SSVUtils/Encoding/Src/Base64.cpp. *)
From Coq Require Import String Ascii ZArith NArith Arith Bool Lia List.
From Verif Require Import Common.
Import ListNotations.
Local Open Scope N_scope.

(** Base64.cpp:17-19 [base64_chars]. *)
Definition base64_chars : bytes :=
  lit "ABCDEFGHIJKLMNOPQRSTUVWXYZabcdefghijklmnopqrstuvwxyz0123456789+/".

(** [std::isalnum] in the "C" locale (the code never sets another one). *)
Definition isalnum (c : ascii) : bool :=
  let n := N_of_ascii c in
  ((48 <=? n) && (n <=? 57)) || ((65 <=? n) && (n <=? 90)) || ((97 <=? n) && (n <=? 122)).

(** Base64.cpp:20-23 [is_base64]. *)
Definition is_base64 (c : ascii) : bool :=
  isalnum c || Ascii.eqb c "+" || Ascii.eqb c "/".

(** Assignment to an [unsigned char]: the low 8 bits. *)
Definition uchar (n : N) : N := n mod 256.

(** Base64.cpp:37-42 and 53-58: char_array_3 -> char_array_4. *)
Definition to4 (a0 a1 a2 : N) : list N :=
  [ uchar (N.shiftr (N.land a0 0xfc) 2);
    uchar (N.shiftl (N.land a0 0x03) 4 + N.shiftr (N.land a1 0xf0) 4);
    uchar (N.shiftl (N.land a1 0x0f) 2 + N.shiftr (N.land a2 0xc0) 6);
    uchar (N.land a2 0x3f) ].

(** [ret += base64_chars[k]] for each k of a list: an index outside the view is UB. *)
Fixpoint emit (ks : list N) (ret : bytes) : outcome bytes :=
  match ks with
  | [] => Ok ret
  | k :: ks' =>
      match nth_error base64_chars (N.to_nat k) with
      | Some c => emit ks' (ret ++ [c])
      | None => UB
      end
  end.

(** Base64.cpp:49-64, the tail after the loop. [pend] is char_array_3[0..i-1].
    Lines 51: the remaining cells are set to zero. Line 60 emits i+1 characters,
    line 61 emits '=' while i++ < 3. *)
Definition enc_tail (pend : list N) (ret : bytes) : outcome bytes :=
  let i := length pend in
  match i with
  | O => Ok ret
  | _ =>
      let arr := pend ++ repeat 0 (3 - i) in
      let q := to4 (nth 0 arr 0) (nth 1 arr 0) (nth 2 arr 0) in
      obind (emit (firstn (i + 1) q) ret)
            (fun r => Ok (r ++ repeat "="%char (3 - i)))
  end.

(** Base64.cpp:32-47, the loop; [pend] is char_array_3[0..i-1]. *)
Fixpoint enc_loop (input : bytes) (pend : list N) (ret : bytes) : outcome bytes :=
  match input with
  | [] => enc_tail pend ret
  | b :: rest =>
      let pend' := pend ++ [N_of_ascii b] in
      if Nat.eqb (length pend') 3 then
        obind (emit (to4 (nth 0 pend' 0) (nth 1 pend' 0) (nth 2 pend' 0)) ret)
              (fun r => enc_loop rest [] r)
      else enc_loop rest pend' ret
  end.

(** Base64.cpp:111-115 and 25-30 [Base64Encode]. The length parameter is [unsigned int],
    so only (size mod 2^32) bytes are read. *)
Definition Base64Encode (s : bytes) : outcome bytes :=
  let in_len := N.of_nat (length s) mod 4294967296 in
  enc_loop (firstn (N.to_nat in_len) s) [] [].

(** [base64_chars.find(c)]: position of the first occurrence, npos = 2^64-1 if absent. *)
Fixpoint find_from (l : bytes) (c : ascii) (i : N) : N :=
  match l with
  | [] => 18446744073709551615
  | x :: l' => if Ascii.eqb x c then i else find_from l' c (i + 1)
  end.
Definition find64 (c : ascii) : N := find_from base64_chars c 0.

(** Base64.cpp:82-86 and 99-103: char_array_4 (sextets) -> char_array_3. *)
Definition to3 (x0 x1 x2 x3 : N) : list N :=
  [ uchar (N.shiftl x0 2 + N.shiftr (N.land x1 0x30) 4);
    uchar (N.shiftl (N.land x1 0xf) 4 + N.shiftr (N.land x2 0x3c) 2);
    uchar (N.shiftl (N.land x2 0x3) 6 + x3) ].

(** [char_array_4[i] = base64_chars.find(char_array_4[i])], stored in an unsigned char. *)
Definition sext (c : ascii) : N := uchar (find64 c).

(** Base64.cpp:93-108, the tail. [pend] is char_array_4[0..i-1]; line 95 zeroes the rest,
    line 97 looks all four up, line 105 emits i-1 bytes. *)
Definition dec_tail (pend : bytes) (ret : bytes) : bytes :=
  let i := length pend in
  match i with
  | O => ret
  | _ =>
      let arr := pend ++ repeat (ascii_of_N 0) (4 - i) in
      let s k := sext (nth k arr (ascii_of_N 0)) in
      ret ++ map ascii_of_N (firstn (i - 1) (to3 (s 0%nat) (s 1%nat) (s 2%nat) (s 3%nat)))
  end.

(** Base64.cpp:73-91, the loop. [in_len] and [in_] are [int]; decrementing INT_MIN or
    incrementing INT_MAX is signed overflow. Reading mStr[size()] yields NUL, which is
    not a Base64 character, so the loop stops there. *)
Fixpoint dec_loop (rest : bytes) (in_len in_ : Z) (pend : bytes) (ret : bytes)
  : outcome bytes :=
  if (in_len =? 0)%Z then Ok (dec_tail pend ret)
  else if (in_len =? INT_MIN)%Z then UB
  else match rest with
       | [] => Ok (dec_tail pend ret)
       | c :: rest' =>
           if negb (Ascii.eqb c "=") && is_base64 c then
             if (in_ =? INT_MAX)%Z then UB else
             let pend' := pend ++ [c] in
             if Nat.eqb (length pend') 4 then
               let s k := sext (nth k pend' (ascii_of_N 0)) in
               dec_loop rest' (in_len - 1) (in_ + 1) []
                 (ret ++ map ascii_of_N (to3 (s 0%nat) (s 1%nat) (s 2%nat) (s 3%nat)))
             else dec_loop rest' (in_len - 1) (in_ + 1) pend' ret
           else Ok (dec_tail pend ret)
       end.

(** Base64.cpp:67-109 [Base64Decode]; [int in_len(mStr.size())] wraps modulo 2^32. *)
Definition Base64Decode (s : bytes) : outcome bytes :=
  dec_loop s (to_i32 (Z.of_nat (length s))) 0 [] [].
