(** Property theorems C04-C06 (MD5). *)
From Coq Require Import String Ascii ZArith NArith Arith Bool Lia List.
From Verif Require Import Common MD5Model MD5Spec MD5Proofs MD5SineSpec MD5Sine.
From Coq Require Import QArith Qabs Qround.
Import ListNotations.
Local Open Scope N_scope.

(** C04. The digest of a message fed in chunks depends only on the concatenation: it is the RFC 1321
    digest of the whole. [g] is the uninitialised content of the context buffer. *)
Theorem C04_md5_chunking : forall (g : list N) (chunks : list bytes),
  length g = 64%nat ->
  Forall (fun c : bytes => N.of_nat (length c) <= 4294967232) chunks ->
  obind (feed (MD5Init g) chunks) MD5Final = Ok (md5 (values (concat chunks))).
Proof. exact feed_digest. Qed.
Print Assumptions C04_md5_chunking.
Example C04_example :
  obind (feed (MD5Init (repeat 7 64)) [lit "ab"; []; repeat "x"%char 70; lit "c"]) MD5Final =
  obind (feed (MD5Init (repeat 9 64)) [lit "ab" ++ repeat "x"%char 70 ++ lit "c"]) MD5Final.
Proof. vm_compute. reflexivity. Qed.

(** C04, exact boundary of the last chunk's length: a chunk that, together with the bytes already
    buffered, reaches 2^32 bytes makes the block loop's index wrap and read out of bounds. *)
Theorem C04_md5_chunk_boundary : forall (g : list N) (chunks : list bytes) (c : bytes),
  length g = 64%nat ->
  Forall (fun c : bytes => N.of_nat (length c) <= 4294967232) chunks ->
  N.of_nat (length c) < 4294967296 ->
  (4294967296 <= N.of_nat (length (concat chunks)) mod 64 + N.of_nat (length c) ->
     feed (MD5Init g) (chunks ++ [c]) = UB) /\
  (N.of_nat (length (concat chunks)) mod 64 + N.of_nat (length c) < 4294967296 ->
     obind (feed (MD5Init g) (chunks ++ [c])) MD5Final = Ok (md5 (values (concat chunks ++ c)))).
Proof. exact feed_update_exact. Qed.
Print Assumptions C04_md5_chunk_boundary.

(** C05. The one-shot digest text is the RFC 1321 digest in hexadecimal. *)
Theorem C05_md5_rfc1321 : forall (g : list N) (s : bytes),
  length g = 64%nat -> N.of_nat (length s) < 4294967296 ->
  Calculate g s = Ok (hex (md5 (values s))).
Proof. exact calculate_md5. Qed.
Print Assumptions C05_md5_rfc1321.
Example C05_example :
  Calculate (repeat 1 64) (lit "message digest") = Ok (lit "f96b697d7cb7938d525a2f31aaf161d0") /\
  Calculate (repeat 1 64) [] = Ok (lit "d41d8cd98f00b204e9800998ecf8427e") /\
  Calculate (repeat 1 64) (lit "12345678901234567890123456789012345678901234567890123456789012345678901234567890")
    = Ok (lit "57edf4a22be3c955ac49da2e2107b67a").
Proof. vm_compute. repeat split; reflexivity. Qed.

(** The additive constants of RFC 1321 (and so of the code) are the integer parts of 2^32 |sin i|: every partial sum of the sine series
    from the 130th on, and therefore the sum of the series, lies strictly between the constant and its successor. *)
Theorem C05_md5_constants : forall i n, (1 <= i <= 64)%nat -> (130 <= n)%nat ->
  let T := inject_Z (Z.of_N (nth (i - 1) Ttable 0%N)) in
  (T + (1 # 1000) <= inject_Z (2 ^ 32) * Qabs (sine_sum (Z.of_nat i) n) <= T + (999 # 1000))%Q.
Proof. exact constants_ok. Qed.
Print Assumptions C05_md5_constants.
(** sin 2 = 0.909297...: the second constant is 0xe8c7b756. *)
Example C05_constants_example : Qfloor (inject_Z (10 ^ 6) * Qabs (sine_sum 2 12)) = 909297%Z /\ nth 1 Ttable 0%N = 0xe8c7b756%N.
Proof. vm_compute. split; reflexivity. Qed.

(** C06. Hexadecimal rendering: two lower-case digits per byte, injective. *)
Theorem C06_md5_hex : forall l l' : list N,
  Forall (fun b => b < 256) l -> Forall (fun b => b < 256) l' ->
  hexstr l = hex l /\ length (hexstr l) = (2 * length l)%nat /\
  Forall (fun c => In c (lit "0123456789abcdef")) (hexstr l) /\
  (hexstr l = hexstr l' -> l = l').
Proof. exact hexstr_facts. Qed.
Print Assumptions C06_md5_hex.
Example C06_example : hexstr [0; 10; 255; 160] = lit "000affa0".
Proof. vm_compute. reflexivity. Qed.

(** C06. The text returned for a message always has 32 characters. *)
Theorem C06_md5_text_length : forall (g : list N) (s : bytes),
  length g = 64%nat -> N.of_nat (length s) < 4294967296 ->
  exists t, Calculate g s = Ok t /\ length t = 32%nat.
Proof. exact calculate_length. Qed.
Print Assumptions C06_md5_text_length.
