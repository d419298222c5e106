(** Using the log as if every operation happened at once. *)
From Coq Require Import String Ascii ZArith NArith Arith Bool Lia List.
From Verif Require Import Common StrfModel StrfSpec LogModel.
Import ListNotations.
Local Open Scope Z_scope.

(** Indivisible actions. Setting a title is two of them: looking whether the log is suppressed, and
    storing the title. *)
Inductive act := ACheck (t : bytes) | ASet (t : bytes) | AInsert (v : val) | AManip | AFlag (b : bool).

Definition append (a b : bytes) (s : shared) : shared := with_buf (buf s ++ b) (with_con (con s ++ a) s).

Definition act_step (c : console) (a : act) (s : shared) : outcome (shared * list act) :=
  match a with
  | ACheck t => Ok (s, if suppressed s then [] else [ASet t])
  | ASet t => Ok (with_title t s, [])
  | AInsert v => obind (insertion c v s) (fun '(ct, lt, s) => Ok (append ct lt s, []))
  | AManip => Ok (append [ch 10] [ch 10] s, [])
  | AFlag b => Ok (with_suppressed b s, [])
  end.

Definition acts (o : op) : list act :=
  match o with
  | Title t => [ACheck t]
  | Insert v => [AInsert v]
  | Manip => [AManip]
  | Raw _ => []
  | Suppress b => [AFlag b]
  end.
Definition act_program (os : list op) : list act := concat (map acts os).

(** Some thread does its next action, again and again. *)
Inductive serial (c : console) : list (list act) -> shared -> list (list act) -> shared -> Prop :=
| serial_refl : forall ths s, serial c ths s ths s
| serial_step : forall ths s i a rest s1 l ths2 s2,
    nth_error ths i = Some (a :: rest) -> act_step c a s = Ok (s1, l) ->
    serial c (replace_nth ths i (l ++ rest)) s1 ths2 s2 -> serial c ths s ths2 s2.

(** One thread doing its operations in order. *)
Fixpoint one_by_one (c : console) (os : list op) (s : shared) : outcome shared :=
  match os with
  | [] => Ok s
  | o :: os =>
      obind (match o with
             | Title t => Ok (if suppressed s then s else with_title t s)
             | Insert v => obind (insertion c v s) (fun '(ct, lt, s) => Ok (append ct lt s))
             | Manip => Ok (append [ch 10] [ch 10] s)
             | Raw t => Ok (with_con (con s ++ t) s)
             | Suppress b => Ok (with_suppressed b s)
             end) (one_by_one c os)
  end.

Definition no_raw (os : list op) : bool := forallb (fun o => match o with Raw _ => false | _ => true end) os.

(** Only titles and values. *)
Definition quiet (os : list op) : bool :=
  forallb (fun o => match o with Title _ | Insert _ => true | _ => false end) os.

(** [l] is an interleaving of the lists in [ls], each in its own order. *)
Inductive merge {A} : list (list A) -> list A -> Prop :=
| merge_done : forall ls, Forall (fun l => l = []) ls -> merge ls []
| merge_step : forall ls i x rest l, nth_error ls i = Some (x :: rest) ->
    merge (replace_nth ls i rest) l -> merge ls (x :: l).

(** The escape sequence that puts the console back to normal. *)
Definition reset_sequence (c : console) : bytes :=
  match c with Unix => ESC :: lit "[0;39;49m" | NullConsole => [] end.

(** The title in brackets, filled with blanks to 38 columns (longer titles are not cut). *)
Definition title_column (t : bytes) : bytes := (lit "[" ++ t ++ lit "] ") ++ repeat " "%char (38 - (length t + 3)).
(** A message as it should read. *)
Definition message (post : bool) (t : bytes) (vs : list val) : bytes :=
  title_column t ++ concat (map (text post) vs) ++ [ch 10].

(** The distinct titles in the order of first use. *)
Fixpoint distinct (seen l : list bytes) : list bytes :=
  match l with
  | [] => []
  | x :: l => if existsb (bytes_eqb x) seen then distinct seen l else x :: distinct (x :: seen) l
  end.
Fixpoint position (x : bytes) (l : list bytes) : nat :=
  match l with [] => 0 | y :: l => if bytes_eqb y x then 0 else S (position x l) end.
Fixpoint colour_all (l : list bytes) (s : shared) : outcome (list nat * shared) :=
  match l with
  | [] => Ok ([], s)
  | t :: l =>
      obind (getUniqueColor t s) (fun '(x, s) =>
      obind (colour_all l s) (fun '(xs, s) => Ok (x :: xs, s)))
  end.
