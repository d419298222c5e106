(** Model of include/SSVUtils/Json: values (Val/Val.hpp), the reader (Io/Reader.hpp), the writer (Io/Writer.hpp,
    Io/Writer.inl) and parsing into a value (Io/Io.hpp, Val/Val.inl).
    The release build is modelled (assertions compiled out): reading the character just after the text gives the
    terminating zero, anything beyond is UB.  Stack exhaustion by deep nesting is not modelled. *)
From Coq Require Import String Ascii ZArith NArith Arith Bool List.
From Coq Require Import Floats.SpecFloat.
From Verif Require Import Common VecModel IntToStrModel JsonNumModel.
Import ListNotations.
Local Open Scope nat_scope.
Local Notation "'let!' x := e 'in' f" := (obind e (fun x => f))
  (at level 200, x pattern, e at level 100, f at level 200, right associativity).

(** Val.hpp:43-68; objects are the sorted vectors of VecModel, null is the default value. *)
Inductive jval :=
| JObj (o : list (bytes * jval)) | JArr (a : list jval) | JStr (s : bytes) | JNum (n : num) | JBln (b : bool) | JNll.

(** [operator<] of std::string: lexicographic on unsigned characters. *)
Fixpoint bytes_ltb (a b : bytes) {struct a} : bool :=
  match a, b with
  | _, [] => false
  | [], _ :: _ => true
  | x :: a', y :: b' => (N_of_ascii x <? N_of_ascii y)%N || (Ascii.eqb x y && bytes_ltb a' b')
  end.

(** ** Purging (Reader.hpp:59-90) *)
Definition quote : ascii := ch 34.
Definition backslash : ascii := ch 92.
Definition nul : ascii := ch 0.
Definition newline : ascii := ch 10.
(** Reader.hpp:119-126. *)
Definition isWhitespace (c : ascii) : bool :=
  Ascii.eqb c (ch 32) || Ascii.eqb c (ch 9) || Ascii.eqb c (ch 13) || Ascii.eqb c newline.
Definition isNumStart (c : ascii) : bool := Ascii.eqb c "-" || isDigit c.
(** Reader.hpp:128-147: [getC] as a value and as a target of assignment. *)
Definition getC (b : bytes) (i : nat) : outcome ascii :=
  match nth_error b i with Some c => Ok c | None => if i =? length b then Ok nul else UB end.
Definition setC (b : bytes) (i : nat) (c : ascii) : outcome bytes :=
  if i <? length b then Ok (set_at i c b) else UB.
(** Reader.hpp:71-75: the rest of a string literal; the buffer, the read index (at the closing quote) and the
    write index. *)
Fixpoint purge_string (fuel : nat) (b : bytes) (i pi : nat) : outcome (bytes * nat * nat) :=
  match fuel with
  | 0 => OutOfFuel
  | S fuel =>
    let! c := getC b i in
    let! p := getC b (i - 1) in
    if negb (Ascii.eqb c quote) || Ascii.eqb p backslash then
      let! b := setC b pi c in purge_string fuel b (S i) (S pi)
    else let! b := setC b pi c in Ok (b, i, S pi)
  end.
(** Reader.hpp:82. *)
Fixpoint skip_comment (fuel : nat) (b : bytes) (i : nat) : outcome nat :=
  match fuel with
  | 0 => OutOfFuel
  | S fuel => let! c := getC b i in if Ascii.eqb c newline then Ok i else skip_comment fuel b (S i)
  end.
(** Reader.hpp:62-89, returning the buffer and [realSize]. *)
Fixpoint purge (fuel : nat) (b : bytes) (i pi : nat) : outcome (bytes * nat) :=
  if length b <=? i then Ok (b, pi)
  else match fuel with
  | 0 => OutOfFuel
  | S fuel =>
    let! c := getC b i in
    if Ascii.eqb c quote then
      let! b := setC b pi c in
      let! r := purge_string (S (S (length b))) b (S i) (S pi) in
      let '(b, i, pi) := r in purge fuel b (S i) pi
    else
      let! d := (if Ascii.eqb c "/" then getC b (i + 1) else Ok nul) in
      if Ascii.eqb c "/" && Ascii.eqb d "/" then
        let! i := skip_comment (S (S (length b))) b i in purge fuel b (S i) pi
      else if isWhitespace c then purge fuel b (S i) pi
      else let! b := setC b pi c in purge fuel b (S i) (S pi)
  end.

Section READER.
(** [src] after purging and [realSize]. *)
Context (b : bytes) (rs : nat).

(** Reader.hpp:54-57 with 92-117: building the message takes the range from [max(0, idx-4)] to
    [min(realSize-1, idx+4)] of the text, which is not a range when nothing is left after purging or the error
    is more than three characters after the purged text. *)
Definition throwError {A} (idx : nat) (title : string) : outcome A :=
  if (rs =? 0) || (rs + 3 <? idx) then UB else Throw title.
(** Reader.hpp:153-164. *)
Fixpoint match_kw (w : bytes) (idx : nat) : outcome nat :=
  match w with
  | [] => Ok idx
  | c :: w => let! d := getC b idx in
              if Ascii.eqb d c then match_kw w (S idx) else throwError idx "Invalid keyword"%string
  end.
(** Reader.hpp:28-45; any other character is SSVU_UNREACHABLE. *)
Definition getEscapeSequence (c : ascii) : outcome ascii :=
  if Ascii.eqb c quote || Ascii.eqb c backslash || Ascii.eqb c "/" then Ok c
  else if Ascii.eqb c "b" then Ok (ch 8)
  else if Ascii.eqb c "f" then Ok (ch 12)
  else if Ascii.eqb c "n" then Ok (ch 10)
  else if Ascii.eqb c "r" then Ok (ch 13)
  else if Ascii.eqb c "t" then Ok (ch 9)
  else UB.
(** Reader.hpp:171-185: the index of the closing quote. *)
Fixpoint find_end (fuel : nat) (e : nat) : outcome nat :=
  match fuel with
  | 0 => OutOfFuel
  | S fuel =>
    let! c := getC b e in
    if Ascii.eqb c quote then Ok e
    else if Ascii.eqb c backslash then find_end fuel (S (S e)) else find_end fuel (S e)
  end.
(** Reader.hpp:191-205. *)
Fixpoint decode (fuel : nat) (idx e : nat) (acc : bytes) : outcome bytes :=
  if e <=? idx then Ok acc
  else match fuel with
  | 0 => OutOfFuel
  | S fuel =>
    let! c := getC b idx in
    if Ascii.eqb c backslash then
      let! d := getC b (S idx) in
      let! x := getEscapeSequence d in decode fuel (S (S idx)) e (acc ++ [x])
    else decode fuel (S idx) e (acc ++ [c])
  end.
(** Reader.hpp:166-211, at the opening quote; after the loop [idx] is at the closing quote. *)
Definition readStr (idx : nat) : outcome (bytes * nat) :=
  let! e := find_end (S (S (length b))) (S idx) in
  let! s := decode (S (length b)) (S idx) e [] in
  Ok (s, S e).
(** Reader.hpp:229-242. *)
Definition parseNum (idx : nat) : outcome (jval * nat) :=
  let '(f, rest) := strtod (skipn idx b) in
  let! z := double_to_long f in
  Ok (JNum (if SFeqb (of_int z) f then NS z else NR f), length b - length rest).

(** Reader.hpp:352-372, with the bodies of parseArr (249-288) and parseObj (290-343).
    [parse_items] is the loop 262-280 and [parse_members] the loop 303-335; both return the index of the closing
    bracket.  [obj[key] = parseVal()] evaluates the value first (C++17) and is [Assign] of VecModel. *)
Fixpoint parse_val (fuel : nat) (idx : nat) {struct fuel} : outcome (jval * nat) :=
  match fuel with
  | 0 => OutOfFuel
  | S fuel =>
    let! c := getC b idx in
    if Ascii.eqb c "{" then
      let! d := getC b (S idx) in
      if Ascii.eqb d "}" then Ok (JObj [], S (S idx))
      else let! r := parse_members fuel (S idx) [] in Ok (JObj (fst r), S (snd r))
    else if Ascii.eqb c "[" then
      let! d := getC b (S idx) in
      if Ascii.eqb d "]" then Ok (JArr [], S (S idx))
      else let! r := parse_items fuel (S idx) [] in Ok (JArr (fst r), S (snd r))
    else if Ascii.eqb c quote then let! r := readStr idx in Ok (JStr (fst r), snd r)
    else if Ascii.eqb c "t" then let! i := match_kw (lit "true") idx in Ok (JBln true, i)
    else if Ascii.eqb c "f" then let! i := match_kw (lit "false") idx in Ok (JBln false, i)
    else if Ascii.eqb c "n" then let! i := match_kw (lit "null") idx in Ok (JNll, i)
    else if isNumStart c then parseNum idx
    else throwError idx "Invalid value"%string
  end
with parse_items (fuel : nat) (idx : nat) (acc : list jval) {struct fuel} : outcome (list jval * nat) :=
  match fuel with
  | 0 => OutOfFuel
  | S fuel =>
    let! (v, idx) := parse_val fuel idx in
    let acc := acc ++ [v] in
    let! c := getC b idx in
    if Ascii.eqb c "," then parse_items fuel (S idx) acc
    else if Ascii.eqb c "]" then Ok (acc, idx)
    else throwError idx "Invalid array"%string
  end
with parse_members (fuel : nat) (idx : nat) (o : list (bytes * jval)) {struct fuel}
  : outcome (list (bytes * jval) * nat) :=
  match fuel with
  | 0 => OutOfFuel
  | S fuel =>
    let! c := getC b idx in
    if negb (Ascii.eqb c quote) then throwError idx "Invalid object"%string
    else
      let! (key, idx) := readStr idx in
      let! c := getC b idx in
      if negb (Ascii.eqb c ":") then throwError idx "Invalid object"%string
      else
        let! (v, idx) := parse_val fuel (S idx) in
        let! o := vm_step bytes_ltb bytes_eqb JNll o (Assign key v) in
        let! c := getC b idx in
        if Ascii.eqb c "," then parse_members fuel (S idx) o
        else if Ascii.eqb c "}" then Ok (o, idx)
        else throwError idx "Invalid object"%string
  end.
End READER.

(** A [Reader] constructed from the text and one [parseVal] (Reader.hpp:346-350).  Texts of 2^31 or more
    characters are outside the model (the counters are 32-bit) and count as UB.  The fuel covers two calls per
    character, which is more than any run makes ([parse_text_terminates]). *)
Definition parse_text (s : bytes) : outcome jval :=
  if (2 ^ 31 <=? N.of_nat (length s))%N then UB
  else
    let! (b, rs) := purge (length s) s 0 0 in
    let! r := parse_val b rs (2 * length s + 4) 0 in
    Ok (fst r).
(** Io.hpp:19-35 and Val.inl:59-64: the reported success and the value of the target afterwards. *)
Definition readFromStr (old : jval) (s : bytes) : outcome (bool * jval) :=
  match parse_text s with
  | Ok v => Ok (true, v)
  | Throw _ => Ok (false, old)
  | UB => UB
  | OutOfFuel => OutOfFuel
  end.
(** Val.hpp:394-400, 546-550: read into a fresh null value; failure is not reported. *)
Definition fromStr (s : bytes) : outcome jval := let! r := readFromStr JNll s in Ok (snd r).

(** ** Writer (Writer.hpp:27-186).  [pretty] is [TWS::pretty]; colour output ([TWS::fmt]) is not modelled. *)
Record wst := { out : bytes; depth : nat; needIndent : bool }.
Section WRITER.
Context (pretty : bool).
(** 37-41. *)
Definition indent (w : wst) : wst :=
  {| out := out w ++ repeat (ch 32) (4 * depth w); depth := depth w; needIndent := false |}.
(** 50-74. *)
Definition wNL (w : wst) : wst :=
  if pretty then {| out := out w ++ [newline]; depth := depth w; needIndent := true |} else w.
Definition wWS (w : wst) : wst :=
  if pretty then {| out := out w ++ [ch 32]; depth := depth w; needIndent := needIndent w |} else w.
Definition wOut (s : bytes) (w : wst) : wst :=
  let w := if pretty && needIndent w then indent w else w in
  {| out := out w ++ s; depth := depth w; needIndent := needIndent w |}.
Definition deeper (w : wst) : wst := {| out := out w; depth := S (depth w); needIndent := needIndent w |}.
Definition shallower (w : wst) : wst := {| out := out w; depth := depth w - 1; needIndent := needIndent w |}.
(** 31-35. *)
Definition isObjOrArr (v : jval) : bool := match v with JObj _ | JArr _ => true | _ => false end.
Definition quoted (s : bytes) : bytes := [quote] ++ s ++ [quote].
(** Writer.inl:20-32 dispatching to Writer.hpp:90-183; the inner loops are [repeatWithSeparator] (77-86). *)
Fixpoint write_val (v : jval) (w : wst) : outcome wst :=
  match v with
  | JObj o =>
    let w := deeper (wNL (wOut (lit "{") w)) in
    let! w := (fix members (o : list (bytes * jval)) (w : wst) : outcome wst :=
      match o with
      | [] => Ok w
      | (k, x) :: o' =>
        let w := wWS (wOut (lit ":") (wOut (quoted k) w)) in
        let w := if isObjOrArr x then wNL w else w in
        let! w := write_val x w in
        match o' with [] => Ok w | _ => members o' (wNL (wWS (wOut (lit ",") w))) end
      end) o w in
    Ok (wOut (lit "}") (wNL (shallower w)))
  | JArr a =>
    let w := deeper (wNL (wOut (lit "[") w)) in
    let! w := (fix items (a : list jval) (w : wst) : outcome wst :=
      match a with
      | [] => Ok w
      | x :: a' =>
        let! w := write_val x w in
        match a' with [] => Ok w | _ => items a' (wNL (wWS (wOut (lit ",") w))) end
      end) a w in
    Ok (wOut (lit "]") (wNL (shallower w)))
  | JStr s => Ok (wOut (quoted s) w)
  | JNum n => let! t := write_num n in Ok (wOut t w)
  | JBln x => Ok (wOut (if x then lit "true" else lit "false") w)
  | JNll => Ok (wOut (lit "null") w)
  end.
End WRITER.
(** Val.hpp:363-382, Val.inl:52-58. *)
Definition getWriteToStr (pretty : bool) (v : jval) : outcome bytes :=
  let! w := write_val pretty v {| out := []; depth := 0; needIndent := false |} in Ok (out w).

(** Val.hpp:339-353 with [operator==] of pairs and vectors (elements compared in order until one differs). *)
Fixpoint val_eq (a b : jval) {struct a} : outcome bool :=
  match a, b with
  | JObj x, JObj y =>
    if negb (length x =? length y) then Ok false
    else (fix members (x y : list (bytes * jval)) {struct x} : outcome bool :=
      match x, y with
      | (k, u) :: x, (l, v) :: y =>
        if bytes_eqb k l then let! r := val_eq u v in if r then members x y else Ok false else Ok false
      | _, _ => Ok true
      end) x y
  | JArr x, JArr y =>
    if negb (length x =? length y) then Ok false
    else (fix items (x y : list jval) {struct x} : outcome bool :=
      match x, y with
      | u :: x, v :: y => let! r := val_eq u v in if r then items x y else Ok false
      | _, _ => Ok true
      end) x y
  | JStr x, JStr y => Ok (bytes_eqb x y)
  | JNum x, JNum y => num_eq x y
  | JBln x, JBln y => Ok (Bool.eqb x y)
  | JNll, JNll => Ok true
  | _, _ => Ok false
  end.
