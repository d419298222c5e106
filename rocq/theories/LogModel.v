(** Model of the log: include/SSVUtils/Core/Log/Log.hpp and Internal/LogImplEnabled.hpp, used by
    several threads. Every thread is a list of small steps; the lock is explicit.
    Simplified: streams are byte strings, [std::endl] is a newline (flushing has no visible effect),
    the console width functions and saveLogToFile (Log.inl) are left out, and the conversion stream of
    the stringifier (per thread) starts empty for each insertion. The static buffer of the console
    formatter is part of the step that holds the lock. *)
From Coq Require Import String Ascii ZArith NArith Arith Bool Lia List.
From Verif Require Import Common CInt MathModel StrfModel.
Import ListNotations.
Local Open Scope Z_scope.

(** Everything the threads share. *)
Record shared := mkSh {
  title : bytes;                 (* LogImplEnabled.hpp:43 *)
  suppressed : bool;             (* Log.hpp:35-39 *)
  con : bytes;                   (* std::cout *)
  buf : bytes;                   (* the log stream, Log.hpp:26-32 *)
  fmt : nat * nat * nat;         (* cached style, foreground, background *)
  colours : list (bytes * nat);  (* LogImplEnabled.hpp:26 *)
  next_colour : Z;               (* LogImplEnabled.hpp:30 *)
  owner : option nat }.          (* who holds the mutex, LogImplEnabled.hpp:42 *)

Definition with_title t (s : shared) :=
  mkSh t (suppressed s) (con s) (buf s) (fmt s) (colours s) (next_colour s) (owner s).
Definition with_suppressed b (s : shared) :=
  mkSh (title s) b (con s) (buf s) (fmt s) (colours s) (next_colour s) (owner s).
Definition with_con t (s : shared) :=
  mkSh (title s) (suppressed s) t (buf s) (fmt s) (colours s) (next_colour s) (owner s).
Definition with_buf t (s : shared) :=
  mkSh (title s) (suppressed s) (con s) t (fmt s) (colours s) (next_colour s) (owner s).
Definition with_fmt f (s : shared) :=
  mkSh (title s) (suppressed s) (con s) (buf s) f (colours s) (next_colour s) (owner s).
Definition with_colours c n (s : shared) :=
  mkSh (title s) (suppressed s) (con s) (buf s) (fmt s) c n (owner s).
Definition with_owner o (s : shared) :=
  mkSh (title s) (suppressed s) (con s) (buf s) (fmt s) (colours s) (next_colour s) o.

(** [std::left << std::setw(38) << t], LogImplEnabled.hpp:40, 80-82. *)
Definition leftW : nat := 38.
Definition padded (t : bytes) : bytes := t ++ repeat " "%char (leftW - length t).

Fixpoint lookup (t : bytes) (m : list (bytes * nat)) : option nat :=
  match m with
  | [] => None
  | (k, x) :: m => if bytes_eqb k t then Some x else lookup t m
  end.
(** LogImplEnabled.hpp:24-35 [getUniqueColor]: the colour of a title, and the updated tables. *)
Definition getUniqueColor (t : bytes) (s : shared) : outcome (nat * shared) :=
  match lookup t (colours s) with
  | Some x => Ok (x, s)
  | None =>
      if next_colour s =? INT_MAX then UB else
      let! (_, r) := getMod3 (I32, next_colour s) (I32, 2) (I32, 7) in
      Ok (Z.to_nat r, with_colours ((t, Z.to_nat r) :: colours s) (next_colour s + 1) s)
  end.

(** Running a stringifier action on an empty stream with the shared format cache: what it writes, and
    the cache afterwards. *)
Definition emit (m : sm) (f : nat * nat * nat) : outcome (bytes * (nat * nat * nat)) :=
  let '(y, x, b) := f in
  let! s := m (mkSt y x b [] []) in Ok (out s, (sty s, fg s, bg s)).

(** LogImplEnabled.hpp:74-88, the guarded part of inserting a value: what goes to the console, what
    goes to the log stream, and the new tables. *)
Definition insertion (c : console) (v : val) (s : shared) : outcome (bytes * bytes * shared) :=
  if suppressed s then Ok ([], [], s) else
  let! (ct, lt, s) :=
    match title s with
    | [] => Ok ([], [], s)
    | _ :: _ =>
        let tstr := lit "[" ++ title s ++ lit "] " in
        let! (col, s) := getUniqueColor tstr s in
        let! (e, f) := emit (seqm (setColorFG c false col) (setStyle c false sBold)) (fmt s) in
        Ok (e ++ padded tstr, padded tstr, with_title [] (with_fmt f s))
    end in
  let! (cv, f) := emit (seqm (resetFmt c false)
                         (seqm (stringify c true false v) (resetFmt c false))) (fmt s) in
  let! (lv, f) := emit (stringify c false false v) f in
  Ok (ct ++ cv, lt ++ lv, with_fmt f s).

(** What a program does with the log. *)
Inductive op :=
| Title (t : bytes)        (* lo(t): LogImplEnabled.hpp:116-127 *)
| Insert (v : val)         (* lo() << v: 69-94 *)
| Manip                    (* lo() << std::endl: 98-105 *)
| Raw (t : bytes)          (* lo() << formatting: 109-113 *)
| Suppress (b : bool).     (* setLogSuppressed(b): Log.hpp:109-112 *)

(** The small steps. *)
Inductive micro :=
| MCheck (t : bytes)       (* the test of the flag at line 119, outside the lock *)
| MAcq                     (* taking the lock *)
| MRel                     (* releasing it *)
| MTitle (t : bytes)       (* line 123 *)
| MInsert (v : val)        (* computes the texts; the characters are written one by one *)
| MManip
| MOut (x : ascii)         (* one character to the console *)
| MLog (x : ascii)         (* one character to the log stream *)
| MFlag (b : bool).

Definition micros (o : op) : list micro :=
  match o with
  | Title t => [MCheck t]
  | Insert v => [MAcq; MInsert v]
  | Manip => [MAcq; MManip]
  | Raw t => map MOut t                 (* no lock is taken *)
  | Suppress b => [MFlag b]
  end.

(** One step of thread [i] whose next step is [m]: the shared state and the steps that replace [m].
    [None]: the thread has to wait for the lock. *)
Definition step (c : console) (i : nat) (m : micro) (s : shared) : outcome (option (shared * list micro)) :=
  match m with
  | MCheck t => Ok (Some (s, if suppressed s then [] else [MAcq; MTitle t; MRel]))
  | MAcq => match owner s with None => Ok (Some (with_owner (Some i) s, [])) | Some _ => Ok None end
  | MRel => Ok (Some (with_owner None s, []))
  | MTitle t => Ok (Some (with_title t s, []))
  | MInsert v =>
      let! (ct, lt, s) := insertion c v s in
      Ok (Some (s, map MOut ct ++ map MLog lt ++ [MRel]))
  | MManip => Ok (Some (s, [MOut (ch 10); MLog (ch 10); MRel]))
  | MOut x => Ok (Some (with_con (con s ++ [x]) s, []))
  | MLog x => Ok (Some (with_buf (buf s ++ [x]) s, []))
  | MFlag b => Ok (Some (with_suppressed b s, []))
  end.

(** The programs of the threads, and one step of the whole, by the thread the scheduler picks. A pick
    of a thread that is finished or waiting has no effect. *)
Definition replace_nth {A} (l : list A) (i : nat) (x : A) : list A :=
  firstn i l ++ x :: skipn (S i) l.
Definition pick (c : console) (i : nat) (st : shared * list (list micro)) : outcome (shared * list (list micro)) :=
  let '(s, ths) := st in
  match nth_error ths i with
  | Some (m :: rest) =>
      let! r := step c i m s in
      match r with
      | None => Ok (s, ths)
      | Some (s, ms) => Ok (s, replace_nth ths i (ms ++ rest))
      end
  | _ => Ok (s, ths)
  end.
Fixpoint picks (c : console) (is : list nat) (st : shared * list (list micro)) : outcome (shared * list (list micro)) :=
  match is with
  | [] => Ok st
  | i :: is => let! st := pick c i st in picks c is st
  end.

Definition program (os : list op) : list micro := concat (map micros os).
Definition start : shared := mkSh [] false [] [] (sNone, cDefault, cDefault) [] 2 None.
