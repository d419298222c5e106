(** C98: numbers in JSON texts are read and written with correct rounding. *)
From Coq Require Import String Ascii ZArith NArith Bool List QArith Qabs Lia.
From Coq Require Import Floats.SpecFloat.
From Verif Require Import Common IntToStrSpec JsonNumModel JsonModel JsonSpec RealSpec RealTextProofs.
Import ListNotations.

(** C98. A text for the exact number [x] is read as the double nearest to [x], stored as an integer when it is whole;
    undefined when that is outside the range of [long]. *)
Theorem C98_read : forall t neg m e, number_text t neg m e -> (N.of_nat (length t) < 2 ^ 31)%N ->
  let x := times_pow 10 (if neg then - m else m) e in
  (forall v, parse_text t = Ok v <-> exists n, v = JNum n /\ stored x n) /\
  ((forall n, ~ stored x n) -> parse_text t = UB).
Proof. exact read_nearest. Qed.
Print Assumptions C98_read.
(** C98. A real is written as the nearest decimal of six digits, without superfluous zeros. *)
Theorem C98_write : forall pretty f q, valid_binary 53 1024 f = true -> has_value f q -> ~ q == 0 ->
  exists (neg : bool) r t, (if neg then q < 0 else 0 < q) /\ nearest_six (Qabs q) r /\ printed r t /\
    getWriteToStr pretty (JNum (NR f)) = Ok ((if neg then ["-"%char] else []) ++ t).
Proof. exact write_real. Qed.
Print Assumptions C98_write.
(** C98. So a fractional number is read back as itself exactly when it is the double nearest to some decimal of six digits. *)
Theorem C98_survives : forall pretty f q, valid_binary 53 1024 f = true -> has_value f q -> (forall z, ~ q == inject_Z z) ->
  exists t, getWriteToStr pretty (JNum (NR f)) = Ok t /\
    (parse_text t = Ok (JNum (NR f)) <-> exists x, is_six x /\ nearest_double x q).
Proof. exact survives. Qed.
Print Assumptions C98_survives.
(** C98. In particular numbers given with at most six digits survive reading, writing and reading. *)
Theorem C98_six_digits : forall pretty t neg m e v, number_text t neg m e -> (N.of_nat (length t) < 2 ^ 31)%N ->
  is_six (times_pow 10 m e) -> times_pow 10 m e < times_pow 10 1 16 -> parse_text t = Ok v ->
  exists t', getWriteToStr pretty v = Ok t' /\ parse_text t' = Ok v.
Proof. exact six_digit_text. Qed.
Print Assumptions C98_six_digits.
(** C98. Expected: every real survives.  Refuted: a seventh digit is lost. *)
Theorem C98_seven_digits_refuted : exists f q t g r, valid_binary 53 1024 f = true /\ has_value f q /\
  parse_text (lit "0.1234567") = Ok (JNum (NR f)) /\ getWriteToStr false (JNum (NR f)) = Ok t /\
  parse_text t = Ok (JNum (NR g)) /\ has_value g r /\ ~ r == q.
Proof.
  exists (of_scaled false 1234567 10 (-7)), (8895992769862258 # 2 ^ 56), (lit "0.123457"), (of_scaled false 123457 10 (-6)), (8896014387140469 # 2 ^ 56).
  split; [vm_compute; reflexivity|]. split; [vm_compute; reflexivity|]. split; [vm_compute; reflexivity|]. split; [vm_compute; reflexivity|].
  split; [vm_compute; reflexivity|]. split; [vm_compute; reflexivity|]. unfold Qeq. vm_compute. discriminate.
Qed.
Print Assumptions C98_seven_digits_refuted.

(** Cases: 0.1 is not a double, the nearest one has the digits below; it is read, survives and is written as 0.1. *)
Definition tenth : double := S754_finite false 7205759403792794 (-56).
Example C98_read_case : number_text (lit "-1.5e2") true 15 1 /\ parse_text (lit "-1.5e2") = Ok (JNum (NS (-150))) /\
  parse_text (lit "0.1") = Ok (JNum (NR tenth)) /\ parse_text (lit "1e-400") = Ok (JNum (NS 0)).
Proof.
  split; [|vm_compute; auto]. exists (lit "1"), (lit ".5"), (lit "5"), (lit "e2"), 2%Z. repeat split.
  - discriminate.
  - repeat constructor; vm_compute; discriminate.
  - right. repeat split; [discriminate|]. repeat constructor; vm_compute; discriminate.
  - right. exists "e"%char, [], (lit "2"). repeat split; auto. discriminate. repeat constructor; vm_compute; discriminate.
Qed.
Example C98_write_case : valid_binary 53 1024 tenth = true /\ has_value tenth (7205759403792794 # 2 ^ 56) /\
  getWriteToStr false (JNum (NR tenth)) = Ok (lit "0.1").
Proof. vm_compute. auto. Qed.
(** Half-way cases go to the even digit. *)
Example C98_tie_case : getWriteToStr false (JNum (NR (of_scaled false 1000005 10 (-1)))) = Ok (lit "100000") /\
  getWriteToStr false (JNum (NR (of_scaled false 1000015 10 (-1)))) = Ok (lit "100002").
Proof. vm_compute. auto. Qed.
