(** The JSON reader in a debug build (include/SSVUtils/Json/Io/Reader.hpp with its assertions; JsonModel has the release
    build).  A violated assertion stops the program and counts as UB here, like everything that is undefined in both builds.
    The functions are those of JsonModel, line by line, but every character goes through [getC], which asserts an index inside
    the text (the terminating zero is outside), and the first pass over a string asserts its escapes. *)
From Coq Require Import String Ascii ZArith NArith Arith Bool List.
From Coq Require Import Floats.SpecFloat.
From Verif Require Import Common VecModel IntToStrModel JsonNumModel JsonModel.
Import ListNotations.
Local Open Scope nat_scope.
Local Notation "'let!' x := e 'in' f" := (obind e (fun x => f))
  (at level 200, x pattern, e at level 100, f at level 200, right associativity).

(** Reader.hpp:128-147: [getC] with its assertion.  (As a target of assignment it is [setC] of JsonModel.) *)
Definition dgetC (b : bytes) (i : nat) : outcome ascii :=
  match nth_error b i with Some c => Ok c | None => UB end.
(** Reader.hpp:71-75: the rest of a string literal; the buffer, the read index (at the closing quote) and the
    write index. *)
Fixpoint dpurge_string (fuel : nat) (b : bytes) (i pi : nat) : outcome (bytes * nat * nat) :=
  match fuel with
  | 0 => OutOfFuel
  | S fuel =>
    let! c := dgetC b i in
    let! p := dgetC b (i - 1) in
    if negb (Ascii.eqb c quote) || Ascii.eqb p backslash then
      let! b := setC b pi c in dpurge_string fuel b (S i) (S pi)
    else let! b := setC b pi c in Ok (b, i, S pi)
  end.
(** Reader.hpp:82. *)
Fixpoint dskip_comment (fuel : nat) (b : bytes) (i : nat) : outcome nat :=
  match fuel with
  | 0 => OutOfFuel
  | S fuel => let! c := dgetC b i in if Ascii.eqb c newline then Ok i else dskip_comment fuel b (S i)
  end.
(** Reader.hpp:62-89, returning the buffer and [realSize]. *)
Fixpoint dpurge (fuel : nat) (b : bytes) (i pi : nat) : outcome (bytes * nat) :=
  if length b <=? i then Ok (b, pi)
  else match fuel with
  | 0 => OutOfFuel
  | S fuel =>
    let! c := dgetC b i in
    if Ascii.eqb c quote then
      let! b := setC b pi c in
      let! r := dpurge_string (S (S (length b))) b (S i) (S pi) in
      let '(b, i, pi) := r in dpurge fuel b (S i) pi
    else
      let! d := (if Ascii.eqb c "/" then dgetC b (i + 1) else Ok nul) in
      if Ascii.eqb c "/" && Ascii.eqb d "/" then
        let! i := dskip_comment (S (S (length b))) b i in dpurge fuel b (S i) pi
      else if isWhitespace c then dpurge fuel b (S i) pi
      else let! b := setC b pi c in dpurge fuel b (S i) (S pi)
  end.

Section READER.
(** [src] after purging and [realSize]. *)
Context (b : bytes) (rs : nat).

(** Reader.hpp:153-164. *)
Fixpoint dmatch_kw (w : bytes) (idx : nat) : outcome nat :=
  match w with
  | [] => Ok idx
  | c :: w => let! d := dgetC b idx in
              if Ascii.eqb d c then dmatch_kw w (S idx) else throwError rs idx "Invalid keyword"%string
  end.
(** Reader.hpp:22-26. *)
Definition isValidEscapeSequenceChar (c : ascii) : bool :=
  Ascii.eqb c quote || Ascii.eqb c backslash || Ascii.eqb c "/" || Ascii.eqb c "b" || Ascii.eqb c "f" ||
  Ascii.eqb c "n" || Ascii.eqb c "r" || Ascii.eqb c "t".
(** Reader.hpp:171-185: the index of the closing quote. *)
Fixpoint dfind_end (fuel : nat) (e : nat) : outcome nat :=
  match fuel with
  | 0 => OutOfFuel
  | S fuel =>
    let! c := dgetC b e in
    if Ascii.eqb c quote then Ok e
    else if Ascii.eqb c backslash then
      let! d := dgetC b (S e) in
      if isValidEscapeSequenceChar d then dfind_end fuel (S (S e)) else UB
    else dfind_end fuel (S e)
  end.
(** Reader.hpp:191-205. *)
Fixpoint ddecode (fuel : nat) (idx e : nat) (acc : bytes) : outcome bytes :=
  if e <=? idx then Ok acc
  else match fuel with
  | 0 => OutOfFuel
  | S fuel =>
    let! c := dgetC b idx in
    if Ascii.eqb c backslash then
      let! d := dgetC b (S idx) in
      let! x := getEscapeSequence d in ddecode fuel (S (S idx)) e (acc ++ [x])
    else ddecode fuel (S idx) e (acc ++ [c])
  end.
(** Reader.hpp:166-211, at the opening quote; after the loop [idx] is at the closing quote. *)
Definition dreadStr (idx : nat) : outcome (bytes * nat) :=
  let! e := dfind_end (S (S (length b))) (S idx) in
  let! s := ddecode (S (length b)) (S idx) e [] in
  Ok (s, S e).
(** Reader.hpp:352-372, with the bodies of parseArr (249-288) and parseObj (290-343).
    [dparse_items] is the loop 262-280 and [dparse_members] the loop 303-335; both return the index of the closing
    bracket.  [obj[key] = parseVal()] evaluates the value first (C++17) and is [Assign] of VecModel. *)
Fixpoint dparse_val (fuel : nat) (idx : nat) {struct fuel} : outcome (jval * nat) :=
  match fuel with
  | 0 => OutOfFuel
  | S fuel =>
    let! c := dgetC b idx in
    if Ascii.eqb c "{" then
      let! d := dgetC b (S idx) in
      if Ascii.eqb d "}" then Ok (JObj [], S (S idx))
      else let! r := dparse_members fuel (S idx) [] in Ok (JObj (fst r), S (snd r))
    else if Ascii.eqb c "[" then
      let! d := dgetC b (S idx) in
      if Ascii.eqb d "]" then Ok (JArr [], S (S idx))
      else let! r := dparse_items fuel (S idx) [] in Ok (JArr (fst r), S (snd r))
    else if Ascii.eqb c quote then let! r := dreadStr idx in Ok (JStr (fst r), snd r)
    else if Ascii.eqb c "t" then let! i := dmatch_kw (lit "true") idx in Ok (JBln true, i)
    else if Ascii.eqb c "f" then let! i := dmatch_kw (lit "false") idx in Ok (JBln false, i)
    else if Ascii.eqb c "n" then let! i := dmatch_kw (lit "null") idx in Ok (JNll, i)
    else if isNumStart c then parseNum b idx
    else throwError rs idx "Invalid value"%string
  end
with dparse_items (fuel : nat) (idx : nat) (acc : list jval) {struct fuel} : outcome (list jval * nat) :=
  match fuel with
  | 0 => OutOfFuel
  | S fuel =>
    let! (v, idx) := dparse_val fuel idx in
    let acc := acc ++ [v] in
    let! c := dgetC b idx in
    if Ascii.eqb c "," then dparse_items fuel (S idx) acc
    else if Ascii.eqb c "]" then Ok (acc, idx)
    else throwError rs idx "Invalid array"%string
  end
with dparse_members (fuel : nat) (idx : nat) (o : list (bytes * jval)) {struct fuel}
  : outcome (list (bytes * jval) * nat) :=
  match fuel with
  | 0 => OutOfFuel
  | S fuel =>
    let! c := dgetC b idx in
    if negb (Ascii.eqb c quote) then throwError rs idx "Invalid object"%string
    else
      let! (key, idx) := dreadStr idx in
      let! c := dgetC b idx in
      if negb (Ascii.eqb c ":") then throwError rs idx "Invalid object"%string
      else
        let! (v, idx) := dparse_val fuel (S idx) in
        let! o := vm_step bytes_ltb bytes_eqb JNll o (Assign key v) in
        let! c := dgetC b idx in
        if Ascii.eqb c "," then dparse_members fuel (S idx) o
        else if Ascii.eqb c "}" then Ok (o, idx)
        else throwError rs idx "Invalid object"%string
  end.
End READER.

(** A [Reader] constructed from the text and one [parseVal] (Reader.hpp:346-350).  Texts of 2^31 or more
    characters are outside the model (the counters are 32-bit) and count as UB.  The fuel covers two calls per
    character, which is more than any run makes. *)
Definition dparse_text (s : bytes) : outcome jval :=
  if (2 ^ 31 <=? N.of_nat (length s))%N then UB
  else
    let! (b, rs) := dpurge (length s) s 0 0 in
    let! r := dparse_val b rs (2 * length s + 4) 0 in
    Ok (fst r).
(** Io.hpp:19-35 and Val.inl:59-64: the reported success and the value of the target afterwards. *)
Definition dreadFromStr (old : jval) (s : bytes) : outcome (bool * jval) :=
  match dparse_text s with
  | Ok v => Ok (true, v)
  | Throw _ => Ok (false, old)
  | UB => UB
  | OutOfFuel => OutOfFuel
  end.
