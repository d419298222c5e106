(** Property theorems C01-C03 (Base64). *)
From Coq Require Import String Ascii ZArith NArith Arith Bool Lia List.
From Verif Require Import Common Base64Model Base64Spec Base64Proofs.
Import ListNotations.
Local Open Scope Z_scope.

(** C01. Decoding what was encoded gives the original bytes. The bound is the largest length
    whose encoded text still has a length representable as [int]. *)
Theorem C01_base64_roundtrip : forall s : bytes,
  Z.of_nat (length s) <= 1610612733 ->
  obind (Base64Encode s) Base64Decode = Ok s.
Proof. exact roundtrip. Qed.
Print Assumptions C01_base64_roundtrip.
Example C01_example :
  Base64Encode (ch 0 :: ch 255 :: lit "hi!") = Ok (lit "AP9oaSE=") /\
  obind (Base64Encode (ch 0 :: ch 255 :: lit "hi!")) Base64Decode = Ok (ch 0 :: ch 255 :: lit "hi!").
Proof. vm_compute. split; reflexivity. Qed.

(** C01, finding: without the bound the round trip fails (32-bit length parameter). *)
Theorem C01_base64_roundtrip_unbounded_refuted : exists s : bytes,
  N.of_nat (length s) = 4294967296%N /\ obind (Base64Encode s) Base64Decode = Ok [].
Proof. exact roundtrip_long_fails. Qed.
Print Assumptions C01_base64_roundtrip_unbounded_refuted.

(** C02. The produced text is the RFC 4648 encoding. *)
Theorem C02_base64_is_rfc4648 : forall s : bytes,
  Z.of_nat (length s) < 4294967296 ->
  Base64Encode s = Ok (rfc4648 s) /\
  length (rfc4648 s) = (4 * ((length s + 2) / 3))%nat /\
  exists body k, rfc4648 s = body ++ repeat "="%char k /\ (k <= 2)%nat /\
                 Forall in_alphabet body /\ k = ((3 - length s mod 3) mod 3)%nat.
Proof. exact encode_rfc_all. Qed.
Print Assumptions C02_base64_is_rfc4648.
Example C02_example : rfc4648 (lit "foob") = lit "Zm9vYg==" /\ Base64Encode (lit "foob") = Ok (lit "Zm9vYg==").
Proof. vm_compute. split; reflexivity. Qed.

(** C02, beyond 2^32 bytes: the length parameter is 32 bits wide, so the text is the encoding of
    only the first (size mod 2^32) bytes. *)
Theorem C02_base64_long_input_truncated : forall s : bytes,
  Base64Encode s = Ok (rfc4648 (firstn (N.to_nat (N.of_nat (length s) mod 4294967296)) s)).
Proof. exact encode_any. Qed.
Print Assumptions C02_base64_long_input_truncated.

(** C03. Decoding stops at the first character outside the alphabet ('=' included);
    what follows it has no influence. *)
Theorem C03_base64_decode_stops : forall (a : bytes) (c : ascii) (b : bytes),
  Z.of_nat (length (a ++ c :: b)) <= INT_MAX ->
  Forall in_alphabet a -> ~ in_alphabet c ->
  exists r, Base64Decode (a ++ c :: b) = Ok r /\ Base64Decode a = Ok r.
Proof. exact decode_stop. Qed.
Print Assumptions C03_base64_decode_stops.
Example C03_example :
  Base64Decode (lit "Zm9v" ++ "-"%char :: lit "YmFy") = Ok (lit "foo") /\
  Base64Decode (lit "Zm9v") = Ok (lit "foo").
Proof. vm_compute. split; reflexivity. Qed.

(** C03. Any text that fits an [int] length decodes without undefined behaviour. *)
Theorem C03_base64_decode_total : forall t : bytes,
  Z.of_nat (length t) <= INT_MAX -> exists r, Base64Decode t = Ok r.
Proof. exact (fun t H => ex_intro _ _ (decode_pure t H)). Qed.
Print Assumptions C03_base64_decode_total.
