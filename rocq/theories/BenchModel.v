(** Model of the benchmark functions (include/SSVUtils/Benchmark), enabled build, for one thread: all
    the state is thread_local (Src/ImplEnabled.cpp:21-37).  The clock reading a function makes is a
    parameter (every function makes at most one).  Time points and durations are nanosecond counts in
    64 bits; leaving that range is undefined.  What is written to the log is given as log operations
    (LogModel.v); flushing it has no effect there. *)
From Coq Require Import String Ascii ZArith NArith Arith Bool List.
From Coq Require Import Floats.SpecFloat.
From Verif Require Import Common IntToStrModel JsonNumModel StrfModel LogModel.
Import ListNotations.
Local Open Scope Z_scope.
Local Notation "'let!' x := e 'in' f" := (obind e (fun x => f)) (at level 200, x pattern, e at level 100, f at level 200, right associativity).

Definition i64 (z : Z) : outcome Z := if (LONG_MIN <=? z) && (z <=? LONG_MAX) then Ok z else UB.

(** [std::to_string(double)], that is printf's "%f", of a finite double: the value rounded to six
    decimals, ties to even.  (Infinities and NaN do not occur.) *)
Definition pad6 (z : Z) : bytes := dec_digits 6 z.
Definition print_f (f : double) : bytes :=
  let unsigned n d :=
    let r := round_div (n * 1000000) d in
    dec (r / 1000000) ++ lit "." ++ pad6 (r mod 1000000) in
  match f with
  | S754_finite s m e =>
      (if s then lit "-" else []) ++
      (if 0 <=? e then unsigned (Zpos m * 2 ^ e) 1 else unsigned (Zpos m) (2 ^ (- e)))
  | S754_zero s => (if s then lit "-" else []) ++ lit "0.000000"
  | _ => lit "?"
  end.
(** DataBase.hpp:23-28 [getString]. *)
Definition getString (ns : Z) : bytes :=
  print_f (SFdiv 53 1024 (of_int ns) (of_int 1000000)) ++ lit " ms".

(** Data.hpp:21-33, DataGroup.hpp:20-33. *)
Definition data : Type := Z * bytes.
Record group := mkGroup { tp : Z; duration : Z }.
Record bench := mkBench {
  stack : list data;                    (* the back of the vector first *)
  nested : bool;
  groups : list (bytes * group) }.

(** Data.cpp:23-27 [getDuration], called when the clock shows [now]. *)
Definition getDuration (d : data) (now : Z) : outcome Z := i64 (now - fst d).

(** ImplEnabled.cpp:45-50 [start]. *)
Definition start (now : Z) (title : bytes) (b : bench) : bench :=
  let st := (now, title) :: stack b in
  mkBench st (if (1 <? length st)%nat then true else nested b) (groups b).
(** ImplEnabled.cpp:52-58 [getEndData], with the assertion of 39-43. *)
Definition getEndData (b : bench) : outcome (data * bench) :=
  match stack b with
  | [] => UB
  | d :: st => Ok (d, mkBench st (nested b) (groups b))
  end.
Definition newline : op := Insert (VStr [ch 10]).
(** ImplEnabled.cpp:60-85 [endLo]. *)
Definition endLo (now : Z) (b : bench) : outcome (list op * bench) :=
  let! (last, b) := getEndData b in
  let marker := match stack b with
                | [] => lit "^ "
                | _ => concat (repeat (lit "----") (length (stack b))) ++ lit "> "
                end in
  let! ns := getDuration last now in
  let line := [Title (lit "Benchmark #" ++ marker ++ snd last); Insert (VStr (getString ns)); newline] in
  match stack b, nested b with
  | [], true => Ok (line ++ [newline], mkBench [] false (groups b))
  | _, _ => Ok (line, b)
  end.

(** [getGroupMap()\[g\]]: a new group has the clock's epoch and no time ([DataGroup] is
    value-initialised by the map). *)
Fixpoint find_group (g : bytes) (m : list (bytes * group)) : group :=
  match m with
  | [] => mkGroup 0 0
  | (k, x) :: m => if bytes_eqb k g then x else find_group g m
  end.
Definition set_group (g : bytes) (x : group) (b : bench) : bench :=
  mkBench (stack b) (nested b) ((g, x) :: groups b).
(** ImplEnabled.cpp:87-107 with DataGroup.cpp:15-35. *)
Definition groupReset (now : Z) (g : bytes) (b : bench) : bench := set_group g (mkGroup now 0) b.
Definition groupResume (now : Z) (g : bytes) (b : bench) : bench :=
  set_group g (mkGroup now (duration (find_group g (groups b)))) b.
Definition groupPause (now : Z) (g : bytes) (b : bench) : outcome bench :=
  let x := find_group g (groups b) in
  let! d := i64 (now - tp x) in
  let! d := i64 (duration x + d) in
  Ok (set_group g (mkGroup (tp x) d) b).
Definition groupEndLo (now : Z) (g : bytes) (b : bench) : outcome (list op * bench) :=
  Ok ([Title (lit "BenchmarkGroup #" ++ g); Insert (VStr (getString (duration (find_group g (groups b))))); newline],
      groupReset now g b).

(** A program's calls, each with the clock reading it makes. *)
Inductive call :=
| Start (now : Z) (title : bytes)
| GetEnd
| EndLo (now : Z)
| Reset (now : Z) (g : bytes)
| Resume (now : Z) (g : bytes)
| Pause (now : Z) (g : bytes)
| EndGroup (now : Z) (g : bytes).
Definition run1 (c : call) (b : bench) : outcome (list op * bench) :=
  match c with
  | Start now t => Ok ([], start now t b)
  | GetEnd => let! (_, b) := getEndData b in Ok ([], b)
  | EndLo now => endLo now b
  | Reset now g => Ok ([], groupReset now g b)
  | Resume now g => Ok ([], groupResume now g b)
  | Pause now g => let! b := groupPause now g b in Ok ([], b)
  | EndGroup now g => groupEndLo now g b
  end.
Fixpoint run (cs : list call) (b : bench) : outcome (list op * bench) :=
  match cs with
  | [] => Ok ([], b)
  | c :: cs => let! (o, b) := run1 c b in let! (o2, b) := run cs b in Ok (o ++ o2, b)
  end.
Definition fresh : bench := mkBench [] false [].
