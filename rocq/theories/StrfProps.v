(** Property theorems C74 (stringified values). *)
From Coq Require Import String Ascii ZArith NArith Arith Bool Lia List.
From Verif Require Import Common IntToStrModel IntToStrSpec MplModel StrfModel StrfSpec StrfProofs.
Import ListNotations.
Local Open Scope Z_scope.

(** C74. The helper that places the separators calls the function on every element in order and the
    separator between each two, for bidirectional and for forward iterators, whatever the calls do. *)
Theorem C74_separators : forall (S : Type) bidi (fs : list (S -> outcome S)) sep s,
  fs <> [] -> countable bidi fs = true ->
  repeatPenultimate bidi fs sep s = run (intersperse sep fs) s.
Proof. exact penultimate_run. Qed.
Print Assumptions C74_separators.
Example C74_separators_example :
  let say c (s : bytes) := Ok (s ++ [c]) in
  repeatPenultimate false [say "a"; say "b"; say "c"]%char (say "-"%char) [] = Ok (lit "a-b-c") /\
  repeatPenultimate true [say "a"; say "b"; say "c"]%char (say "-"%char) [] = Ok (lit "a-b-c") /\
  countable false [say "a"; say "b"; say "c"]%char = true.
Proof. vm_compute. repeat split; reflexivity. Qed.

(** C74. Forward ranges with more than INT_MAX elements overflow the loop counter. *)
Theorem C74_forward_overflow_refuted : forall (S : Type) (fs : list (S -> outcome S)) sep s,
  (forall f t, In f fs -> exists t', f t = Ok t') -> (forall t, exists t', sep t = Ok t') ->
  INT_MAX < Z.of_nat (length fs) -> repeatPenultimate false fs sep s = UB.
Proof.
  exact (fun S fs sep s Hf Hs Hl => fwd_overflow S fs sep 0 (Z.of_nat (length fs)) s Hf Hs
           (conj (Z.le_refl 0) (Z.lt_le_incl 0 INT_MAX eq_refl)) Hl (Z.le_refl _)).
Qed.
Print Assumptions C74_forward_overflow_refuted.

(** C74. The text of integers is their decimal numeral. *)
Theorem C74_numeral : forall n, decimal n (dec n).
Proof. exact dec_decimal. Qed.
Print Assumptions C74_numeral.
Example C74_numeral_example : dec (-1203) = lit "-1203" /\ dec 0 = lit "0" /\ dec LONG_MAX = lit "9223372036854775807".
Proof. vm_compute. repeat split; reflexivity. Qed.

(** C74. Printing any printable value to a stream other than the thread's conversion stream appends
    its text: exactly the text when there is no console formatting, and what is visible of the output
    is the text when there is. (With formatting, number types get their letters.) *)
Theorem C74_text : forall c tfmt v s, printable false v = true ->
  exists s' d, stringify c tfmt false v s = Ok s' /\ out s' = out s ++ d /\
    (c = NullConsole -> d = text tfmt v) /\ (c = Unix -> visible d = text tfmt v).
Proof. exact stringify_text. Qed.
Print Assumptions C74_text.
Definition c74_value : val :=
  VMap false [(VStr (lit "a"), VSeq true [VInt KInt 1; VInt KInt (-2)]); (VStr (lit "b"), VSeq true []);
              (VStr (lit "c"), VTuple [VInt KULong 7; VReal true (lit "2.5"); VPtr 4096])].
Example C74_text_example :
  printable false c74_value = true /\
  text false c74_value = lit "{a -> {1, -2}, b -> { EMPTY }, c -> {7, 2.5, [0x1000]}}" /\
  text true c74_value = lit "{a -> {1, -2}, b -> { EMPTY }, c -> {7ul, 2.5d, [0x1000]}}" /\
  (exists s', stringify NullConsole false false c74_value (mkSt 0 0 0 (lit "> ") []) = Ok s' /\
     out s' = lit "> {a -> {1, -2}, b -> { EMPTY }, c -> {7, 2.5, [0x1000]}}") /\
  (exists s', stringify Unix true false c74_value (mkSt 0 0 0 [] []) = Ok s' /\ (200 < length (out s'))%nat /\
     visible (out s') = lit "{a -> {1, -2}, b -> { EMPTY }, c -> {7ul, 2.5d, [0x1000]}}").
Proof.
  split; [reflexivity|]. split; [reflexivity|]. split; [reflexivity|].
  split; (eexists; split; [vm_compute; reflexivity|]); [reflexivity|].
  split; [vm_compute; lia|reflexivity].
Qed.

(** C74. Conversion to a string gives the same text and writes nowhere else; integers must be in the
    range of the fast conversion (C07), and classes that call [toStr] while printing themselves must
    only do so on such integers. *)
Theorem C74_toStr : forall c v s, printable true v = true ->
  (forall k z, v = VInt k z -> convertible k z = true) ->
  exists s' d, toStr c v s = Ok (d, s') /\ out s' = out s /\
    (c = NullConsole -> d = text false v) /\ (c = Unix -> visible d = text false v).
Proof. exact toStr_text. Qed.
Print Assumptions C74_toStr.
Example C74_toStr_example :
  printable true c74_value = true /\
  (exists s', toStr NullConsole c74_value (mkSt 0 0 0 [] (lit "old")) =
     Ok (lit "{a -> {1, -2}, b -> { EMPTY }, c -> {7, 2.5, [0x1000]}}", s')) /\
  (exists s', toStr Unix (VUser [(lit "id ", VInt KInt 12); (lit "/", VInt KInt 3)]) (mkSt 0 0 0 [] []) =
     Ok (lit "id 12/3", s')).
Proof. split; [reflexivity|]. split; eexists; vm_compute; reflexivity. Qed.

(** C74. Expected: without formatting the output holds only the text. Refuted on the Unix console for
    every non-empty container: escape sequences are written around the elements. *)
Theorem C74_unformatted_refuted : forall bidi x l s, printable false (VSeq bidi (x :: l)) = true ->
  exists s' d, stringify Unix false false (VSeq bidi (x :: l)) s = Ok s' /\ out s' = out s ++ d /\ In ESC d.
Proof. exact seq_escapes. Qed.
Print Assumptions C74_unformatted_refuted.
Example C74_unformatted_example :
  (exists s', toStr Unix (VSeq true [VInt KInt 5]) (mkSt 0 0 0 [] []) =
     Ok (lit "{" ++ [ESC] ++ lit "[0;39;49m5" ++ [ESC] ++ lit "[0;39;49m}", s')).
Proof. eexists. vm_compute. reflexivity. Qed.

(** C74. Expected: a null pointer is shown as "[nullptr]". Refuted: an address is shown (that of the
    program's own literal), for every console and with or without formatting. *)
Theorem C74_null_pointer_refuted : forall c tfmt s, exists s' d, stringify c tfmt false (VPtr 0) s = Ok s' /\
  out s' = out s ++ d /\ visible d = lit "[" ++ ptr_text nullptr_literal ++ lit "]" /\
  visible d <> text tfmt (VPtr 0).
Proof. exact null_pointer_wrong. Qed.
Print Assumptions C74_null_pointer_refuted.

(** C74. Expected: converting an object whose class calls [toStr] on a member while printing itself
    gives its text. Refuted for all texts: what was written before the inner call is lost, and the
    inner text appears twice. *)
Theorem C74_nested_toStr_refuted : forall c a b s, exists s',
  toStr c (VUser [(a, VStr b)]) s = Ok (b ++ b, s').
Proof. exact nested_toStr. Qed.
Print Assumptions C74_nested_toStr_refuted.
Example C74_nested_toStr_example :
  text false (VUser [(lit "name ", VStr (lit "x"))]) = lit "name x" /\
  (exists s', toStr Unix (VUser [(lit "name ", VStr (lit "x"))]) (mkSt 0 0 0 [] []) = Ok (lit "xx", s')).
Proof. split; [reflexivity|]. eexists. vm_compute. reflexivity. Qed.

(** C74. For every type built from integers by containers, tuples, maps and bimaps, the text
    determines the value. *)
Theorem C74_determined : forall t v w, has_type t v -> has_type t w -> text false v = text false w -> v = w.
Proof. exact text_determines. Qed.
Print Assumptions C74_determined.
Example C74_determined_example :
  has_type (TMap true (TInt KInt) (TSeq true (TInt KLong)))
    (VMap true [(VInt KInt 3, VSeq true [VInt KLong 1; VInt KLong 22]); (VInt KInt 4, VSeq true [])]) /\
  text false (VMap true [(VInt KInt 3, VSeq true [VInt KLong 1; VInt KLong 22]); (VInt KInt 4, VSeq true [])])
    = lit "{3 -> {1, 22}, 4 -> { EMPTY }}".
Proof. split; [cbn; repeat (constructor || split); reflexivity|reflexivity]. Qed.

(** C74. With strings inside, it does not. *)
Theorem C74_strings_refuted : exists l m, l <> m /\ text false (VSeq true (map VStr l)) = text false (VSeq true (map VStr m)).
Proof. exact strings_ambiguous. Qed.
Print Assumptions C74_strings_refuted.
