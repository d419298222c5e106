(** Property theorems C75 (benchmarks). *)
From Coq Require Import String Ascii ZArith NArith Arith Bool Lia List.
From Verif Require Import Common StrfModel LogModel BenchModel BenchSpec BenchProofs.
Import ListNotations.
Local Open Scope Z_scope.

(** C75. After any calls (newest first in [h]), ending a benchmark gives the most recently started one
    that has not been ended, and leaves one fewer running; if there is none, the assertion fails. *)
Theorem C75_latest : forall h o s, run (rev h) fresh = Ok (o, s) ->
  match unfinished 0 h with
  | None => getEndData s = UB
  | Some d => exists s', getEndData s = Ok (d, s') /\ length (stack s') = pred (running h)
  end.
Proof. exact end_is_latest. Qed.
Print Assumptions C75_latest.
Example C75_latest_example :
  let h := rev [Start 5 (lit "a"); Start 6 (lit "b"); GetEnd; Resume 7 (lit "g"); Start 8 (lit "c"); EndLo 9] in
  (exists o s, run (rev h) fresh = Ok (o, s)) /\ unfinished 0 h = Some (5, lit "a") /\ running h = 1%nat.
Proof. split; [eexists; eexists; vm_compute; reflexivity|]. split; reflexivity. Qed.

(** C75. Ending with a report writes that benchmark's name with a mark for the number of benchmarks
    still running, the time from its start to now, a newline, and at most one further newline, only
    when no other benchmark is running. *)
Theorem C75_report : forall h o s now o2 s', run (rev h) fresh = Ok (o, s) -> endLo now s = Ok (o2, s') ->
  exists from name rest, unfinished 0 h = Some (from, name) /\
    o2 = Title (lit "Benchmark #" ++ depth_mark (pred (running h)) ++ name) :: Insert (VStr (getString (now - from))) :: newline :: rest /\
    (rest = [] \/ (rest = [newline] /\ running h = 1%nat)).
Proof. exact report_line. Qed.
Print Assumptions C75_report.

(** C75. Benchmarks inside one another to any depth: every one is reported when it ends, inner ones
    first, with its own depth and time; an empty line follows an outermost one that had inner ones. *)
Theorem C75_scopes : forall l, forallb timed l = true ->
  run (flat_map calls l) fresh = Ok (flat_map (report 0) l, fresh).
Proof. exact scopes_report. Qed.
Print Assumptions C75_scopes.
Example C75_scopes_example :
  let l := [Scope (lit "load") 10 2000010 [Scope (lit "read") 20 1000020 []]; Scope (lit "run") 3000000 3500000 []] in
  forallb timed l = true /\
  flat_map (report 0) l =
    [Title (lit "Benchmark #----> read"); Insert (VStr (lit "1.000000 ms")); newline;
     Title (lit "Benchmark #^ load"); Insert (VStr (lit "2.000000 ms")); newline; newline;
     Title (lit "Benchmark #^ run"); Insert (VStr (lit "0.500000 ms")); newline].
Proof. split; vm_compute; reflexivity. Qed.

(** C75. Expected: an empty line is only added after a benchmark that had inner ones. Refuted: inner
    benchmarks ended without a report leave the mark that adds it to a later, single one. *)
Theorem C75_empty_line_refuted : exists s o,
  run [Start 1 (lit "a"); Start 2 (lit "b"); GetEnd; GetEnd; Start 3 (lit "c"); EndLo 4] fresh = Ok (o, s) /\
  o = report 0 (Scope (lit "c") 3 4 []) ++ [newline].
Proof. eexists. eexists. split; vm_compute; reflexivity. Qed.
Print Assumptions C75_empty_line_refuted.

(** C75. Durations below 8589934592000000 ns (over 99 days) are written exactly: the milliseconds with
    six decimals are the nanoseconds. *)
Theorem C75_duration_text : forall ns, 0 <= ns < 8589934592000000 -> ms_text ns (getString ns).
Proof. exact duration_text. Qed.
Print Assumptions C75_duration_text.
Example C75_duration_text_example : getString 1203000045 = lit "1203.000045 ms".
Proof. vm_compute. reflexivity. Qed.
(** C75. Expected for longer ones too; refuted by the next odd one. *)
Theorem C75_long_duration_refuted : getString 8589934592000001 = lit "8589934592.000002 ms".
Proof. vm_compute. reflexivity. Qed.
Print Assumptions C75_long_duration_refuted.

(** C75. The time reported for a group, after any calls: see [accumulated]. *)
Theorem C75_group : forall cs g now o s, run (cs ++ [EndGroup now g]) fresh = Ok (o, s) ->
  exists o1 s1, run cs fresh = Ok (o1, s1) /\ o = o1 ++ group_report g (accumulated g (rev cs)).
Proof. exact group_line. Qed.
Print Assumptions C75_group.
(** C75. When the group is resumed and paused in turn after a reset, that is the sum of the intervals,
    whatever else happens before and in between. *)
Theorem C75_group_alternating : forall g before t cs l now o s,
  filter (concerns g) cs = alternate g l ->
  run (before ++ Reset t g :: cs ++ [EndGroup now g]) fresh = Ok (o, s) ->
  exists o1, o = o1 ++ group_report g (total l).
Proof. exact group_alternating. Qed.
Print Assumptions C75_group_alternating.
Example C75_group_alternating_example :
  let cs := [Resume 10 (lit "g"); Resume 12 (lit "h"); Pause 15 (lit "g"); Start 16 (lit "x"); Pause 17 (lit "h");
             Resume 20 (lit "g"); Pause 30 (lit "g"); GetEnd] in
  filter (concerns (lit "g")) cs = alternate (lit "g") [(10, 15); (20, 30)] /\ total [(10, 15); (20, 30)] = 15 /\
  (exists o s, run ([] ++ Reset 1 (lit "g") :: cs ++ [EndGroup 40 (lit "g")]) fresh = Ok (o, s)).
Proof. split; [reflexivity|]. split; [reflexivity|]. eexists. eexists. vm_compute. reflexivity. Qed.

(** C75. Expected: a group counts the time during which it was resumed. Refuted: for nested scopes of
    one group (resumed at a and b, paused at c and d) the time from b to c is counted twice and the
    time from a to b not at all. *)
Theorem C75_nested_group_refuted : forall g a b c d,
  accumulated g (rev [Reset 0 g; Resume a g; Resume b g; Pause c g; Pause d g]) = (c - b) + (d - b).
Proof. exact nested_group. Qed.
Print Assumptions C75_nested_group_refuted.
Example C75_nested_group_example :
  exists o s, run [Reset 0 (lit "g"); Resume 10 (lit "g"); Resume 20 (lit "g"); Pause 30 (lit "g"); Pause 40 (lit "g");
    EndGroup 50 (lit "g")] fresh = Ok (o, s) /\ o = group_report (lit "g") 30.
Proof. eexists. eexists. split; vm_compute; reflexivity. Qed.

(** C75. Pausing a group that was never reset or resumed counts the whole time since the clock's
    zero. *)
Theorem C75_pause_first_refuted : forall g t, 0 <= t <= LONG_MAX ->
  exists s, run [Pause t g; EndGroup t g] fresh = Ok (group_report g t, s).
Proof. exact pause_first. Qed.
Print Assumptions C75_pause_first_refuted.
