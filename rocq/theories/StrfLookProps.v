(** Property theorems C117 (stringified values on a terminal). *)
From Coq Require Import String Ascii ZArith NArith Arith Bool Lia List.
From Verif Require Import Common StrfModel StrfSpec ConSpec StrfLookSpec StrfLookProofs.
Import ListNotations.

(** C117. Whatever the terminal showed before and in whatever style and colour, a value stringified
    between two [resetFmt()] is shown behind it exactly as specified, every character with its style and
    colours (all plain if no formatting is asked for), and the terminal is plain afterwards. *)
Theorem C117_shown : forall fmt v s p cs, printable false v = true ->
  terminal_after (out s) = mkT Ground p cs (length cs) ->
  exists s', seqm (resetFmt Unix false) (seqm (stringify Unix fmt false v) (resetFmt Unix false)) s = Ok s' /\
    terminal_after (out s') = mkT Ground plain (cs ++ look fmt v) (length (cs ++ look fmt v)).
Proof. exact shown. Qed.
Print Assumptions C117_shown.
Definition c117_value : val :=
  VMap false [(VStr (lit "a"), VTuple [VInt KULong 7; VReal false (lit "1.5"); VPtr 10; VSeq true []])].
Example C117_shown_example :
  printable false c117_value = true /\
  terminal_after (lit "> ") = mkT Ground plain [(">"%char, plain); (" "%char, plain)] 2 /\
  look true c117_value =
    drawn (strong Own) (lit "{") ++ drawn (with_ink (Bright Yellow) plain) (lit "a") ++ drawn (strong Own) (lit " -> {") ++
    drawn (strong (Bright Blue)) (lit "7ul") ++ drawn (strong Own) (lit ", ") ++
    drawn (strong (Bright Red)) (lit "1.5f") ++ drawn (strong Own) (lit ", ") ++
    drawn (strong (Normal Blue)) (lit "[") ++ drawn (lined (Normal Cyan)) (lit "0xa") ++ drawn (strong (Normal Blue)) (lit "]") ++
    drawn (strong Own) (lit ", ") ++ drawn (strong Own) (lit "{ EMPTY }") ++ drawn (strong Own) (lit "}}").
Proof. vm_compute. repeat split; reflexivity. Qed.

(** C117. Formatted containers, pairs, maps and pointers need no reset before them: they look the same
    behind any style and colour. *)
Theorem C117_brackets : forall v s p cs, printable false v = true -> bracketed v = true ->
  terminal_after (out s) = mkT Ground p cs (length cs) ->
  exists s' p', stringify Unix true false v s = Ok s' /\
    terminal_after (out s') = mkT Ground p' (cs ++ look true v) (length (cs ++ look true v)).
Proof. exact brackets. Qed.
Print Assumptions C117_brackets.
Example C117_brackets_example :
  bracketed c117_value = true /\ terminal_after ([ascii_of_N 27] ++ lit "[4m") = mkT Ground (lined Own) [] 0.
Proof. vm_compute. split; reflexivity. Qed.

(** C117. Formatting changes no character: what is shown is the text of the value. *)
Theorem C117_characters : forall fmt v, map fst (look fmt v) = text fmt v.
Proof. exact characters. Qed.
Print Assumptions C117_characters.

(** C117. Finding: a formatted number leaves its style and colour on; the text behind it is bold and
    bright blue as well. *)
Theorem C117_left_on_refuted : exists v t s', printable false v = true /\
  seqm (stringify Unix true false v) (put false t) (mkSt 0 0 0 [] []) = Ok s' /\
  t_cells (terminal_after (out s')) = look true v ++ drawn (strong (Bright Blue)) t /\ t <> [].
Proof. exact left_on_refuted. Qed.
Print Assumptions C117_left_on_refuted.

(** C117. Finding: a formatted number without a reset before it also takes over the style that is on. *)
Theorem C117_styles_mix_refuted : exists v s', printable false v = true /\
  seqm (setStyle Unix false sUnderline) (stringify Unix true false v) (mkSt 0 0 0 [] []) = Ok s' /\
  t_cells (terminal_after (out s')) <> look true v /\ (forall x, In x (t_cells (terminal_after (out s'))) -> under (snd x) = OneLine).
Proof. exact styles_mix_refuted. Qed.
Print Assumptions C117_styles_mix_refuted.

(** C117. Finding: stringifying a container without formatting resets the colour the program has set,
    after the opening bracket and for everything that follows. *)
Theorem C117_colours_lost_refuted : exists v t s', printable false v = true /\
  seqm (setColorFG Unix false 2) (seqm (stringify Unix false false v) (put false t)) (mkSt 0 0 0 [] []) = Ok s' /\
  t_cells (terminal_after (out s')) =
    drawn (with_ink (Normal Red) plain) (lit "{") ++ drawn plain (lit "5}") ++ drawn plain t /\ t <> [].
Proof. exact colours_lost_refuted. Qed.
Print Assumptions C117_colours_lost_refuted.
