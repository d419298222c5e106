(** C115: reading JSON with the assertions of a debug build. *)
From Coq Require Import String Ascii ZArith NArith Arith Bool Lia List.
From Verif Require Import Common JsonNumModel JsonModel JsonSpec JsonDbgModel JsonDbgSpec JsonDbgProofs.
Import ListNotations.
Local Open Scope string_scope.
Local Open Scope list_scope.

(** Whatever the text, a debug build stops at an assertion (or runs into what is undefined in both builds), or it does exactly
    what the release build does. *)
Theorem C115_same : forall old s, dreadFromStr old s = UB \/ dreadFromStr old s = readFromStr old s.
Proof. exact read_same. Qed.
Print Assumptions C115_same.
(** A text that the release build accepts is accepted by the debug build with the same value, unless it ends in a slash: then
    the debug build stops. *)
Theorem C115_accepted : forall old s v, readFromStr old s = Ok (true, v) ->
  (dreadFromStr old s = Ok (true, v) /\ ~ ends_with s "/"%char) \/ (dreadFromStr old s = UB /\ ends_with s "/"%char).
Proof. exact read_accepted. Qed.
Print Assumptions C115_accepted.
(** With a blank at the end of the text both builds do the same, whatever the text: no assertion fails where the release build
    reports an error. *)
Theorem C115_blank : forall old s w, blank w -> dreadFromStr old (s ++ [w]) = readFromStr old (s ++ [w]).
Proof. exact read_blank. Qed.
Print Assumptions C115_blank.
(** Standard texts, with blanks and comments, are read as what they stand for. *)
Theorem C115_standard : forall old t s v, denotes t v -> spaced t s -> (N.of_nat (length s) < 2 ^ 31)%N ->
  not_number t \/ t = s -> dreadFromStr old s = Ok (true, v).
Proof. exact read_standard. Qed.
Print Assumptions C115_standard.
(** A standard text other than a number that lacks any part of its end is never accepted ... *)
Theorem C115_cut : forall old p q v, denotes (p ++ q) v -> not_number (p ++ q) -> q <> [] ->
  readFromStr old p = UB \/ readFromStr old p = Ok (false, old).
Proof. exact read_cut. Qed.
Print Assumptions C115_cut.
(** ... and stops the debug build if it is not cut in front of a letter, a digit, a sign or a point. *)
Theorem C115_cut_stops : forall old p c q v, denotes (p ++ c :: q) v -> not_number (p ++ c :: q) -> ~ word_char c ->
  dreadFromStr old p = UB.
Proof. exact read_cut_stops. Qed.
Print Assumptions C115_cut_stops.
(** So a debug build does not report that a file is cut short: it stops where the release build returns false and, with a line
    break at the end of the file, the debug build would too. *)
Theorem C115_report_refuted : exists p v, denotes (p ++ lit "]") v /\ readFromStr JNll p = Ok (false, JNll) /\
  dreadFromStr JNll p = UB /\ dreadFromStr JNll (p ++ [ch 10]) = Ok (false, JNll).
Proof.
  exists (lit "[[],true"), (JArr [JArr []; JBln true]). split; [|vm_compute; auto].
  apply (d_array [lit "[]"; lit "true"]). repeat constructor. apply (d_array [] []). constructor.
Qed.
Print Assumptions C115_report_refuted.
(** And it stops at a text that the release build accepts. *)
Theorem C115_slash_refuted : exists s v, readFromStr JNll s = Ok (true, v) /\ dreadFromStr JNll s = UB.
Proof. exists (lit "true/"), (JBln true). vm_compute. auto. Qed.
Print Assumptions C115_slash_refuted.

(** A file with a comment and an escape, read alike; with an escape that does not exist it stops the debug build, and is
    undefined in the release build. *)
Example C115_case : let s := lit "{ ""a"" : [ 1, ""x\ty"" ] } // end" ++ [ch 10] in
  dreadFromStr JNll s = Ok (true, JObj [(lit "a", JArr [JNum (NS 1); JStr (lit "x" ++ ch 9 :: lit "y")])]) /\
  dreadFromStr JNll (lit "[1,]") = Ok (false, JNll) /\
  dreadFromStr JNll (lit """\q""") = UB /\ readFromStr JNll (lit """\q""") = UB.
Proof. vm_compute. auto. Qed.
(** Cut behind a sign, the text is refused in both builds; cut in front of a bracket it stops the debug build. *)
Example C115_case_cut : readFromStr JNll (lit "[-") = Ok (false, JNll) /\ dreadFromStr JNll (lit "[-") = Ok (false, JNll) /\
  readFromStr JNll (lit "[-1") = Ok (false, JNll) /\ dreadFromStr JNll (lit "[-1") = UB /\
  readFromStr JNll (lit "[-1,") = Ok (false, JNll) /\ dreadFromStr JNll (lit "[-1,") = UB /\
  ~ word_char "]"%char /\ ~ word_char ","%char /\ not_number (lit "[-1,2]").
Proof.
  repeat (split; [vm_compute; reflexivity|]). split; [|split].
  - unfold word_char. cbn. lia.
  - unfold word_char. cbn. lia.
  - exists "["%char, (lit "-1,2]"). split; [reflexivity|]. split; [discriminate|]. unfold IntToStrSpec.is_digit. cbn. lia.
Qed.
