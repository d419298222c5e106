(** Specification of MD5 after RFC 1321. Uses nothing of the model. *)
From Coq Require Import String Ascii ZArith NArith Arith Bool Lia List.
From Verif Require Import Common.
Import ListNotations.
Local Open Scope N_scope.

Definition W : N := 4294967296.
Definition wadd (x y : N) : N := (x + y) mod W.
Definition wnot (x : N) : N := W - 1 - x.
Definition rotl (x n : N) : N := (x * 2 ^ n) mod W + x / 2 ^ (32 - n).

(** RFC 1321 section 3.4, the auxiliary functions. *)
Definition auxF (x y z : N) := N.lor (N.land x y) (N.land (wnot x) z).
Definition auxG (x y z : N) := N.lor (N.land x z) (N.land y (wnot z)).
Definition auxH (x y z : N) := N.lxor x (N.lxor y z).
Definition auxI (x y z : N) := N.lxor y (N.lor x (wnot z)).

(** T[1..64]: T[i] is the integer part of 4294967296 * |sin i| (i in radians);
    C05_md5_constants proves that these numbers are that. *)
Definition Ttable : list N := [
  3614090360; 3905402710; 606105819; 3250441966; 4118548399; 1200080426; 2821735955; 4249261313;
  1770035416; 2336552879; 4294925233; 2304563134; 1804603682; 4254626195; 2792965006; 1236535329;
  4129170786; 3225465664; 643717713; 3921069994; 3593408605; 38016083; 3634488961; 3889429448;
  568446438; 3275163606; 4107603335; 1163531501; 2850285829; 4243563512; 1735328473; 2368359562;
  4294588738; 2272392833; 1839030562; 4259657740; 2763975236; 1272893353; 4139469664; 3200236656;
  681279174; 3936430074; 3572445317; 76029189; 3654602809; 3873151461; 530742520; 3299628645;
  4096336452; 1126891415; 2878612391; 4237533241; 1700485571; 2399980690; 4293915773; 2240044497;
  1873313359; 4264355552; 2734768916; 1309151649; 4149444226; 3174756917; 718787259; 3951481745 ].

(** Step i (0-based): round number i/16 selects the function, the message word index and shift. *)
Definition step_fun (i : nat) : N -> N -> N -> N :=
  match (i / 16)%nat with 0%nat => auxF | 1%nat => auxG | 2%nat => auxH | _ => auxI end.
Definition step_word (i : nat) : nat :=
  match (i / 16)%nat with
  | 0%nat => i | 1%nat => (5 * i + 1) mod 16 | 2%nat => (3 * i + 5) mod 16 | _ => (7 * i) mod 16
  end.
Definition step_shift (i : nat) : N :=
  let row := match (i / 16)%nat with
             | 0%nat => [7; 12; 17; 22] | 1%nat => [5; 9; 14; 20]
             | 2%nat => [4; 11; 16; 23] | _ => [6; 10; 15; 21] end in
  nth (i mod 4) row 0.

(** One step: a = b + ((a + f(b,c,d) + X[k] + T[i]) <<< s), then the registers rotate. *)
Definition md5_step (X : list N) (v : N * N * N * N) (i : nat) : N * N * N * N :=
  let '(a, b, c, d) := v in
  let sum := wadd (wadd (wadd a (step_fun i b c d)) (nth (step_word i) X 0)) (nth i Ttable 0) in
  (d, wadd b (rotl sum (step_shift i)), b, c).

(** The compression function on one 16-word block. *)
Definition compress (v : N * N * N * N) (X : list N) : N * N * N * N :=
  let '(a, b, c, d) := v in
  let '(a', b', c', d') := fold_left (md5_step X) (seq 0 64) v in
  (wadd a a', wadd b b', wadd c c', wadd d d').

(** Little-endian words of a byte string. *)
Fixpoint words (l : list N) : list N :=
  match l with
  | b0 :: b1 :: b2 :: b3 :: r => b0 + 256 * b1 + 65536 * b2 + 16777216 * b3 :: words r
  | _ => []
  end.
(** Little-endian bytes. *)
Fixpoint le_bytes (k : nat) (n : N) : list N :=
  match k with O => [] | S k' => n mod 256 :: le_bytes k' (n / 256) end.

(** Consecutive 64-byte blocks. *)
Fixpoint chop (k : nat) (l : list N) : list (list N) :=
  match k with O => [] | S k' => firstn 64 l :: chop k' (skipn 64 l) end.
Definition blocks (l : list N) : list (list N) := chop (length l / 64) l.

(** Padding: 0x80, the fewest zeros reaching 56 modulo 64, then the bit length modulo 2^64. *)
Definition padded (m : list N) : list N :=
  m ++ [128] ++ repeat 0 (Z.to_nat ((55 - Z.of_nat (length m)) mod 64)) ++
  le_bytes 8 (8 * N.of_nat (length m)).

Definition md5 (m : list N) : list N :=
  let '(a, b, c, d) :=
    fold_left compress (map words (blocks (padded m)))
              (0x67452301, 0xefcdab89, 0x98badcfe, 0x10325476) in
  le_bytes 4 a ++ le_bytes 4 b ++ le_bytes 4 c ++ le_bytes 4 d.

(** Lower-case hexadecimal. *)
Definition hex_digit (v : N) : ascii := if v <? 10 then ascii_of_N (48 + v) else ascii_of_N (87 + v).
Definition hex (l : list N) : bytes := flat_map (fun b => [hex_digit (b / 16); hex_digit (b mod 16)]) l.

(** Byte values of a string. *)
Definition values (s : bytes) : list N := map N_of_ascii s.
