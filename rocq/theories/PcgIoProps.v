(** C99: generators written to and read from texts. *)
From Coq Require Import String Ascii ZArith NArith Arith Bool Lia List.
From Verif Require Import Common IntToStrSpec StrfModel PcgModel U128Model PcgIoModel PcgIoSpec PcgIoProofs PcgIoHexProofs PcgIoAllProofs.
Import ListNotations.
Local Open Scope Z_scope.

(** C99. A generator is written as its multiplier, increment and state in decimal, whatever the flags of the stream, which
    keeps its flags and its fill; a width pads the multiplier. *)
Theorem C99_text : forall k m c s o, k <> KByte -> 0 < bits_of k -> 0 <= m < 2 ^ bits_of k -> 0 <= c < 2 ^ bits_of k -> 0 <= s < 2 ^ bits_of k ->
  exists t, write_engine k m c s o = Ok (mkO (text o ++ t) (oflags o) 0 (fill o)) /\ listed_padded (fill o) (width o) [m; c; s] t.
Proof. exact text_written. Qed.
Print Assumptions C99_text.
(** C99. Reading the text back gives increment and state, for any generator of the same kind whose increment can be set or
    is the same, and leaves the stream just behind the text. 128-bit numbers must be followed by something. *)
Theorem C99_restored : forall k m settable c c0 s s0 o r f, k <> KByte -> 0 < bits_of k ->
  0 <= m < 2 ^ bits_of k -> 0 <= c < 2 ^ bits_of k -> 0 <= s < 2 ^ bits_of k -> (if settable : bool then Z.odd c = true else c0 = c) ->
  width o = 0%nat \/ blank (fill o) -> stops r -> (k = KBig -> r <> []) ->
  exists t, write_engine k m c s o = Ok (mkO (text o ++ t) (oflags o) 0 (fill o)) /\
    read_engine k m settable (mkS (t ++ r) false false f) (c0, s0) = Ok (mkS r (match r with [] => true | _ => false end) false f, (c, s)).
Proof. exact restored. Qed.
Print Assumptions C99_restored.
(** C99. Exactly which texts are read: three numbers in range with blanks before each, the first being the multiplier and
    the second, when it cannot be set, the increment. A settable increment is made odd. *)
Theorem C99_read : forall w m settable text f c s, 0 < w -> exists i' g',
  read_engine (KWord w) m settable (mkS text false false f) (c, s) = Ok (i', g') /\ iflags i' = f /\
  (failbit i' = true -> g' = (c, s)) /\
  (failbit i' = false <-> exists n2 n3 r, three w text m n2 n3 r /\ (settable = false -> n2 = c)) /\
  (forall n2 n3 r, three w text m n2 n3 r -> (settable = false -> n2 = c) ->
     g' = (if settable then 2 * (n2 / 2) + 1 else c, n3) /\ rest i' = r /\ (eofbit i' = true <-> r = [])).
Proof. exact read_exact. Qed.
Print Assumptions C99_read.
(** C99. Reading is always defined, keeps the flags, and when it fails the generator is as before, of any kind and from any
    stream. *)
Theorem C99_failed :
  (forall k m settable i g, exists i' g', read_engine k m settable i g = Ok (i', g') /\ iflags i' = iflags i /\ (failbit i' = true -> g' = g)) /\
  (forall k kx m settable b n i g, exists i' g', read_extended k kx m settable b n i g = Ok (i', g') /\ iflags i' = iflags i /\ (failbit i' = true -> g' = g)).
Proof. exact failed_unchanged. Qed.
Print Assumptions C99_failed.
(** C99. Extended generators: the table follows, and everything is read back. *)
Theorem C99_extended : forall k kx m settable c c0 s s0 data o r f g, k <> KByte -> 0 < bits_of k -> kx <> KByte -> 0 < bits_of kx ->
  0 <= m < 2 ^ bits_of k -> 0 <= c < 2 ^ bits_of k -> 0 <= s < 2 ^ bits_of k -> Forall (fun x => 0 <= x < 2 ^ bits_of kx) data -> data <> [] ->
  (if settable : bool then Z.odd c = true else c0 = c) ->
  exists t, write_extended k kx m c s data o = Ok (mkO (text o ++ t) (oflags o) 0 (fill o)) /\
    listed_padded (fill o) (width o) (m :: c :: s :: data) t /\
    (width o = 0%nat \/ blank (fill o) -> stops r -> (kx = KBig -> r <> []) ->
     read_extended k kx m settable (c0, s0) (length data) (mkS (t ++ r) false false f) g =
     Ok (mkS r (match r with [] => true | _ => false end) false f, ((c, s), data))).
Proof. exact extended_written. Qed.
Print Assumptions C99_extended.
(** C99. Expected: what is written is read back. Refuted: with 128-bit numbers at the end of the text it never is. *)
Theorem C99_big_end_refuted : forall m settable c c0 s s0 o f, 0 <= m < 2 ^ 128 -> 0 <= c < 2 ^ 128 -> 0 <= s < 2 ^ 128 -> width o = 0%nat ->
  exists t, write_engine KBig m c s o = Ok (mkO (text o ++ t) (oflags o) 0 (fill o)) /\
    read_engine KBig m settable (mkS t false false f) (c0, s0) = Ok (mkS [] true true f, (c0, s0)).
Proof. exact big_end_refuted. Qed.
Print Assumptions C99_big_end_refuted.
(** C99. Expected: numbers that do not fit fail. Refuted for 128 bits: some are read as other numbers. *)
Theorem C99_big_overflow_refuted : exists ds f s, Forall is_digit ds /\ 2 ^ 128 <= digits_value ds /\
  read_engine KBig 1 true (mkS (lit "1 1 " ++ ds ++ [" "%char]) false false f) (3, 9) = Ok (mkS [" "%char] false false f, (1, s)).
Proof.
  exists (lit "400000000000000000000000000000000000000"), (mkF Dec Right false false true), (400000000000000000000000000000000000000 - 2 ^ 128).
  split; [repeat constructor; vm_compute; intuition discriminate|]. split; [vm_compute; discriminate|]. vm_compute. reflexivity.
Qed.
Print Assumptions C99_big_overflow_refuted.
(** C99. Expected: a width does not matter. Refuted: the padding is part of the text. *)
Theorem C99_padding_refuted : exists o t f, fill o = "0"%char /\
  write_engine (KWord 64) 5 3 7 o = Ok (mkO t (oflags o) 0 (fill o)) /\ t = lit "5000 3 7" /\
  read_engine (KWord 64) 5 true (mkS t false false f) (1, 9) = Ok (mkS [] false true f, (1, 9)).
Proof.
  exists (mkO [] (mkF Hex Right true false true) 4 "0"%char), (lit "5000 3 7"), (mkF Dec Right false false true).
  split; [reflexivity|]. split; [vm_compute; reflexivity|]. split; [reflexivity|]. vm_compute. reflexivity.
Qed.
Print Assumptions C99_padding_refuted.
(** C99. 128-bit numbers are printed in hexadecimal, on a stream with no width and base, not adjusted left. *)
Theorem C99_hex : forall n o, 0 <= n < 2 ^ 128 -> base (oflags o) = Hex -> adj (oflags o) <> Left -> showbase (oflags o) = false -> width o = 0%nat ->
  exists t, insert_big (big n) o = Ok (mkO (text o ++ t) (oflags o) 0 (fill o)) /\ hex_numeral n t.
Proof. exact hex_print. Qed.
Print Assumptions C99_hex.
(** C99. Refuted for other streams: adjusted left it is another number, small numbers miss the base, and the width is not met. *)
Theorem C99_hex_refuted :
  insert_big (big (2 ^ 64 + 5)) (mkO [] (mkF Hex Left false false true) 0 " "%char) = Ok (mkO (lit "15000000000000000") (mkF Hex Left false false true) 0 " "%char) /\
  insert_big (big 5) (mkO [] (mkF Hex Right true false true) 0 " "%char) = Ok (mkO (lit "5") (mkF Hex Right true false true) 0 " "%char) /\
  insert_big (big 5) (mkO [] (mkF Hex Right false false true) 32 "0"%char) = Ok (mkO (lit "00000000000000005") (mkF Hex Right false false true) 0 "0"%char).
Proof. split; [|split]; vm_compute; reflexivity. Qed.
Print Assumptions C99_hex_refuted.
(** C99. 8-bit generators are written as characters, and read back when none is a blank. *)
Theorem C99_byte : forall m settable c c0 s s0 o r f, 0 <= m < 256 -> 0 <= c < 256 -> 0 <= s < 256 -> width o = 0%nat ->
  exists t, write_engine KByte m c s o = Ok (mkO (text o ++ t) (oflags o) 0 (fill o)) /\
    map (fun a => Z.of_N (N_of_ascii a)) t = [m; 32; c; 32; s] /\
    (Forall (fun n => ~ (9 <= n <= 13 \/ n = 32)) [m; c; s] -> (if settable : bool then Z.odd c = true else c0 = c) ->
     read_engine KByte m settable (mkS (t ++ r) false false f) (c0, s0) = Ok (mkS r false false f, (c, s))).
Proof. exact byte_text. Qed.
Print Assumptions C99_byte.
(** C99. Refuted: an 8-bit state that is the code of a blank is not read back. *)
Theorem C99_byte_refuted : forall m settable c c0 s s0 o f, 0 <= m < 256 -> 0 <= c < 256 -> Forall (fun n => ~ (9 <= n <= 13 \/ n = 32)) [m; c] -> 9 <= s <= 13 \/ s = 32 -> width o = 0%nat ->
  exists t, write_engine KByte m c s o = Ok (mkO (text o ++ t) (oflags o) 0 (fill o)) /\
    read_engine KByte m settable (mkS t false false f) (c0, s0) = Ok (mkS [] true true f, (c0, s0)).
Proof. exact byte_refuted. Qed.
Print Assumptions C99_byte_refuted.

(** Cases meeting the hypotheses. *)
Definition fl : flags := mkF Hex Internal true true false.
Example C99_ex_text : write_engine (KWord 32) 747796405 2891336453 7 (mkO (lit "> ") fl 12 "."%char) =
  Ok (mkO (lit "> 747796405... 2891336453 7") fl 0 "."%char).
Proof. vm_compute. reflexivity. Qed.
Example C99_ex_big : write_engine KBig 3 5 (2 ^ 127) (mkO [] fl 0 " "%char) = Ok (mkO (lit "3 5 170141183460469231731687303715884105728") fl 0 " "%char) /\
  read_engine KBig 3 true (mkS (lit "3 5 170141183460469231731687303715884105728;") false false fl) (1, 0) = Ok (mkS (lit ";") false false fl, (5, 2 ^ 127)).
Proof. split; vm_compute; reflexivity. Qed.
Example C99_ex_read : three 64 (lit " 5 +6 -1z") 5 6 (2 ^ 64 - 1) (lit "z").
Proof.
  exists [" "%char], (lit "5"), [" "%char], (lit "+6"), [" "%char], (lit "-1"). split; [reflexivity|].
  split; [constructor; [right; reflexivity|constructor]|]. split; [constructor; [right; reflexivity|constructor]|]. split; [constructor; [right; reflexivity|constructor]|].
  split; [exists [], (lit "5"); split; [reflexivity|]; split; [discriminate|]; split; [repeat constructor; vm_compute; discriminate|]; split; [reflexivity|]; auto|].
  split; [exists ["+"%char], (lit "6"); split; [reflexivity|]; split; [discriminate|]; split; [repeat constructor; vm_compute; discriminate|]; split; [reflexivity|]; auto|].
  split; [exists ["-"%char], (lit "1"); split; [reflexivity|]; split; [discriminate|]; split; [repeat constructor; vm_compute; discriminate|]; split; [reflexivity|]; auto|].
  split; [|split]; unfold stops, is_digit; cbn; lia.
Qed.
Example C99_ex_read_back : read_engine (KWord 64) 5 true (mkS (lit " 5 +6 -1z") false false fl) (1, 0) = Ok (mkS (lit "z") false false fl, (7, 2 ^ 64 - 1)).
Proof. vm_compute. reflexivity. Qed.
Example C99_ex_extended : write_extended (KWord 64) (KWord 32) 5 3 7 [11; 0; 4294967295] (mkO [] fl 0 " "%char) = Ok (mkO (lit "5 3 7 11 0 4294967295") fl 0 " "%char) /\
  read_extended (KWord 64) (KWord 32) 5 true (1, 1) 3 (mkS (lit "5 3 7 11 0 4294967295") false false fl) ((9, 9), [9; 9; 9]) = Ok (mkS [] true false fl, ((3, 7), [11; 0; 4294967295])) /\
  read_extended (KWord 64) (KWord 32) 5 true (1, 1) 3 (mkS (lit "5 3 7 11 x") false false fl) ((9, 9), [9; 9; 9]) = Ok (mkS (lit "x") false true fl, ((9, 9), [9; 9; 9])).
Proof. split; [|split]; vm_compute; reflexivity. Qed.
Example C99_ex_hex : insert_big (big (2 ^ 100 + 255)) (mkO [] (mkF Hex Right false true true) 0 "*"%char) =
  Ok (mkO (lit "100000000000000000000000FF") (mkF Hex Right false true true) 0 "*"%char).
Proof. vm_compute. reflexivity. Qed.
Example C99_ex_byte : write_engine KByte 141 77 65 (mkO [] fl 0 " "%char) = Ok (mkO [ascii_of_N 141; " "%char; "M"%char; " "%char; "A"%char] fl 0 " "%char) /\
  read_engine KByte 141 true (mkS [ascii_of_N 141; " "%char; "M"%char; " "%char; "A"%char] false false fl) (1, 1) = Ok (mkS [] false false fl, (77, 65)) /\
  read_engine KByte 141 true (mkS [ascii_of_N 141; " "%char; "M"%char; " "%char; " "%char] false false fl) (1, 1) = Ok (mkS [] true true fl, (1, 1)).
Proof. split; [|split]; vm_compute; reflexivity. Qed.
