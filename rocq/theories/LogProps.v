(** Property theorems C76 (the log). *)
From Coq Require Import String Ascii ZArith NArith Arith Bool Lia List.
From Verif Require Import Common StrfModel StrfSpec LogModel LogSpec LogProofs.
Import ListNotations.
Local Open Scope Z_scope.

(** C76. Any number of threads set titles, insert values, insert [std::endl] and switch the
    suppression. However their steps interleave, when all have finished the console, the log text,
    the title and the colours are those of a run in which the threads take turns and every insertion
    happens at once. *)
Theorem C76_atomic : forall c oss is s0 s ths,
  Forall (fun os => no_raw os = true) oss -> owner s0 = None ->
  picks c is (s0, map program oss) = Ok (s, ths) -> Forall (eq []) ths ->
  exists asl, serial c (map act_program oss) s0 asl s /\ Forall (eq []) asl.
Proof. exact serializable. Qed.
Print Assumptions C76_atomic.
Example C76_atomic_example :
  exists s, picks NullConsole ([0; 1; 0; 1; 0; 1]%nat ++ repeat 0%nat 20 ++ repeat 1%nat 20)
    (start, map program [[Insert (VStr (lit "ab")); Manip]; [Insert (VStr (lit "cd"))]]) = Ok (s, [[]; []]) /\
    buf s = lit "ab" ++ [ch 10] ++ lit "cd" /\ con s = buf s.
Proof. eexists. split; [vm_compute; reflexivity|]. split; reflexivity. Qed.

(** C76. As long as some thread has not finished, some thread can go on. *)
Theorem C76_no_deadlock : forall c oss is s0 s ths,
  Forall (fun os => no_raw os = true) oss -> owner s0 = None ->
  picks c is (s0, map program oss) = Ok (s, ths) -> ~ Forall (eq []) ths ->
  exists i m rest, nth_error ths i = Some (m :: rest) /\ step c i m s <> Ok None.
Proof. exact no_deadlock. Qed.
Print Assumptions C76_no_deadlock.
Example C76_no_deadlock_example :
  exists s ths, picks NullConsole [0; 1; 0]%nat
    (start, map program [[Insert (VStr (lit "ab"))]; [Manip]]) = Ok (s, ths) /\
    owner s = Some 0%nat /\ nth_error ths 1 = Some [MAcq; MManip] /\ step NullConsole 1 MAcq s = Ok None /\
    nth_error ths 0 = Some [MOut "a"; MOut "b"; MLog "a"; MLog "b"; MRel]%char.
Proof. eexists. eexists. split; [vm_compute; reflexivity|]. repeat split; reflexivity. Qed.

(** C76. One thread alone gets what its operations give one after the other. *)
Theorem C76_single : forall c os is s0 s, no_raw os = true -> owner s0 = None ->
  picks c is (s0, [program os]) = Ok (s, [[]]) -> one_by_one c os s0 = Ok s.
Proof. exact single_thread. Qed.
Print Assumptions C76_single.

(** C76. A title followed by values and a newline: the title in brackets, padded to 38 columns,
    before the first value only, then the values; the same (without formatting) in the log text. *)
Theorem C76_message : forall c t v vs s, suppressed s = false -> 2 <= next_colour s < INT_MAX - 1 ->
  t <> [] -> clean t = true -> Forall (fun v => printable false v = true) (v :: vs) ->
  exists d e s', one_by_one c (Title t :: map Insert (v :: vs) ++ [Manip]) s = Ok s' /\
    con s' = con s ++ d /\ buf s' = buf s ++ e /\ title s' = [] /\
    (c = NullConsole -> d = message true t (v :: vs) /\ e = message false t (v :: vs)) /\
    (c = Unix -> visible d = message true t (v :: vs) /\ visible e = message false t (v :: vs)).
Proof. exact message_text. Qed.
Print Assumptions C76_message.
Example C76_message_example :
  exists s, one_by_one NullConsole (Title (lit "net") :: map Insert [VStr (lit "port "); VInt KInt 80] ++ [Manip]) start
    = Ok s /\ buf s = lit "[net]                                 port 80" ++ [ch 10].
Proof. eexists. split; [vm_compute; reflexivity|reflexivity]. Qed.

(** C76. Threads that insert values, without titles: whatever the schedule, the output is the texts
    of all values, whole, in an order that keeps the order of every thread. *)
Theorem C76_whole_values : forall c vss is s ths,
  Forall (Forall (fun v => printable false v = true)) vss ->
  picks c is (start, map (fun vs => program (map Insert vs)) vss) = Ok (s, ths) -> Forall (eq []) ths ->
  exists l, merge vss l /\
    (c = NullConsole -> con s = concat (map (text true) l) /\ buf s = concat (map (text false) l)) /\
    (c = Unix -> visible (con s) = concat (map (text true) l) /\ visible (buf s) = concat (map (text false) l)).
Proof. exact whole_messages. Qed.
Print Assumptions C76_whole_values.
Example C76_whole_values_example :
  exists s, picks Unix ([1; 0; 1; 0]%nat ++ repeat 1%nat 300 ++ repeat 0%nat 300)
    (start, map (fun vs => program (map Insert vs)) [[VInt KInt 5; VStr (lit "x")]; [VSeq true [VInt KInt 1]]]) = Ok (s, [[]; []]) /\
    visible (buf s) = lit "{1}5x".
Proof. eexists. split; vm_compute; reflexivity. Qed.

(** C76. While the log is suppressed, titles and values of any number of threads have no effect. *)
Theorem C76_suppressed : forall c oss is s0 s ths,
  Forall (fun os => quiet os = true) oss -> suppressed s0 = true ->
  picks c is (s0, map program oss) = Ok (s, ths) ->
  con s = con s0 /\ buf s = buf s0 /\ title s = title s0.
Proof. exact suppressed_quiet. Qed.
Print Assumptions C76_suppressed.
Example C76_suppressed_example :
  let s0 := with_suppressed true (with_buf (lit "old") start) in
  exists s, picks Unix (repeat 0%nat 10) (s0, map program [[Title (lit "t"); Insert (VStr (lit "x"))]]) = Ok (s, [[]]) /\
    buf s = lit "old".
Proof. eexists. split; [vm_compute; reflexivity|reflexivity]. Qed.

(** C76. Expected: nothing at all is written while the log is suppressed. Refuted: newlines are. *)
Theorem C76_suppressed_newline_refuted : forall c s,
  exists s', one_by_one c [Manip] (with_suppressed true s) = Ok s' /\
    con s' = con s ++ [ch 10] /\ buf s' = buf s ++ [ch 10].
Proof. exact (fun c s => ex_intro _ _ (conj eq_refl (conj eq_refl eq_refl))). Qed.
Print Assumptions C76_suppressed_newline_refuted.

(** C76. Expected: a title set before a suppression is not printed with a message that sets its own
    title during it. Refuted for all titles and values: the message appears under the old title. *)
Theorem C76_stale_title_refuted : forall t u v w, t <> [] -> clean t = true ->
  printable false v = true -> printable false w = true ->
  exists s, one_by_one NullConsole [Title t; Suppress true; Insert v; Title u; Suppress false; Insert w] start = Ok s /\
    buf s = title_column t ++ text false w.
Proof. exact stale_title. Qed.
Print Assumptions C76_stale_title_refuted.

(** C76. Expected: a message appears under the title its own thread gave it. Refuted: setting the
    title and inserting the value are separate, so another thread's title can come between. *)
Theorem C76_stolen_title_refuted : exists is s,
  picks NullConsole is (start, map program [[Title (lit "A"); Insert (VStr (lit "a"))]; [Title (lit "B"); Insert (VStr (lit "b"))]])
    = Ok (s, [[]; []]) /\
  buf s = title_column (lit "B") ++ lit "ab".
Proof.
  exists (repeat 0%nat 4 ++ repeat 1%nat 4 ++ repeat 0%nat 120 ++ repeat 1%nat 10). eexists.
  split; [vm_compute; reflexivity|reflexivity].
Qed.
Print Assumptions C76_stolen_title_refuted.

(** C76. Expected: what one thread writes is not broken up by another. Refuted when a thread inserts
    formatting: that is written without the lock. *)
Theorem C76_formatting_unlocked_refuted : exists is s,
  picks NullConsole is (start, map program [[Insert (VStr (lit "hello"))]; [Raw (lit "XY")]]) = Ok (s, [[]; []]) /\
  con s = lit "heXYllo".
Proof.
  exists (repeat 0%nat 4 ++ repeat 1%nat 2 ++ repeat 0%nat 20). eexists. split; [vm_compute; reflexivity|reflexivity].
Qed.
Print Assumptions C76_formatting_unlocked_refuted.

(** C76. The colours of titles: the k-th distinct title (from 0) has colour 2 + k mod 5, every time it
    is used. *)
Theorem C76_colours : forall l, Z.of_nat (length (distinct [] l)) + 2 < INT_MAX ->
  exists s', colour_all l start = Ok (map (fun t => (2 + position t (distinct [] l) mod 5)%nat) l, s').
Proof. exact colours_all. Qed.
Print Assumptions C76_colours.
Example C76_colours_example :
  exists s, colour_all (map lit ["a"; "b"; "a"; "c"; "b"]%string) start = Ok ([2; 3; 2; 4; 3]%nat, s).
Proof. eexists. vm_compute. reflexivity. Qed.

(** C76. Expected ("unique colour"): distinct titles have distinct colours. Refuted by the sixth. *)
Theorem C76_unique_colour_refuted : exists l s xs, NoDup l /\ colour_all l start = Ok (xs, s) /\ ~ NoDup xs.
Proof. exact colours_repeat. Qed.
Print Assumptions C76_unique_colour_refuted.
