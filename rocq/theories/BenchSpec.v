(** What the benchmark functions should report. *)
From Coq Require Import String Ascii ZArith NArith Arith Bool List.
From Verif Require Import Common IntToStrModel IntToStrSpec JsonSpec StrfModel StrfSpec LogModel BenchModel.
Import ListNotations.
Local Open Scope Z_scope.

(** A duration in milliseconds with all six decimals of its nanoseconds. *)
Definition ms_text (ns : Z) (t : bytes) : Prop :=
  exists ip fp, t = ip ++ lit "." ++ fp ++ lit " ms" /\ decimal (ns / 1000000) ip /\
    length fp = 6%nat /\ Forall is_digit fp /\ digits_value fp = ns mod 1000000.

(** The most recently started benchmark that has not been ended; [n] ends are still to be matched.
    The calls are given newest first. *)
Fixpoint unfinished (n : nat) (h : list call) : option data :=
  match h with
  | [] => None
  | Start now t :: h => match n with O => Some (now, t) | S n => unfinished n h end
  | GetEnd :: h => unfinished (S n) h
  | EndLo _ :: h => unfinished (S n) h
  | _ :: h => unfinished n h
  end.
(** How many benchmarks are running. *)
Fixpoint running (h : list call) : nat :=
  match h with
  | [] => 0
  | Start _ _ :: h => S (running h)
  | GetEnd :: h | EndLo _ :: h => pred (running h)
  | _ :: h => running h
  end.

(** Benchmarks inside one another, as with the scope macros. *)
Inductive scope := Scope (name : bytes) (from upto : Z) (inner : list scope).
Fixpoint calls (s : scope) : list call :=
  match s with Scope n a b l => Start a n :: flat_map calls l ++ [EndLo b] end.
Fixpoint timed (s : scope) : bool :=
  match s with Scope n a b l => (0 <=? a) && (a <=? b) && (b <=? LONG_MAX) && forallb timed l end.
Definition depth_mark (k : nat) : bytes :=
  match k with O => lit "^ " | _ => concat (repeat (lit "----") k) ++ lit "> " end.
Fixpoint report (k : nat) (s : scope) : list op :=
  match s with
  | Scope n a b l =>
      flat_map (report (S k)) l ++
      [Title (lit "Benchmark #" ++ depth_mark k ++ n); Insert (VStr (getString (b - a))); Insert (VStr [ch 10])] ++
      match k, l with O, _ :: _ => [Insert (VStr [ch 10])] | _, _ => [] end
  end.

(** The time of a group: from the latest reset, resume or report (or the clock's zero) to each pause,
    added up since the latest reset or report.  The calls are given newest first. *)
Fixpoint since (g : bytes) (h : list call) : Z :=
  match h with
  | [] => 0
  | Reset t x :: h | Resume t x :: h | EndGroup t x :: h => if bytes_eqb x g then t else since g h
  | _ :: h => since g h
  end.
Fixpoint accumulated (g : bytes) (h : list call) : Z :=
  match h with
  | [] => 0
  | Pause t x :: h => if bytes_eqb x g then accumulated g h + (t - since g h) else accumulated g h
  | Reset _ x :: h | EndGroup _ x :: h => if bytes_eqb x g then 0 else accumulated g h
  | _ :: h => accumulated g h
  end.
Definition group_report (g : bytes) (ns : Z) : list op :=
  [Title (lit "BenchmarkGroup #" ++ g); Insert (VStr (getString ns)); Insert (VStr [ch 10])].

(** The calls that concern a group. *)
Definition concerns (g : bytes) (c : call) : bool :=
  match c with
  | Reset _ x | Resume _ x | Pause _ x | EndGroup _ x => bytes_eqb x g
  | _ => false
  end.
(** Resumed and paused in turn. *)
Definition alternate (g : bytes) (l : list (Z * Z)) : list call :=
  flat_map (fun p => [Resume (fst p) g; Pause (snd p) g]) l.
Definition total (l : list (Z * Z)) : Z := fold_right (fun p s => snd p - fst p + s) 0 l.
