(** Model of console formatting: Core/ConsoleFmt/ConsoleFmt.hpp, Internal/ConsoleFmtImplUnix.hpp,
    Internal/ConsoleFmtImplNull.hpp and Core/String/IgnoreManip.hpp (all under include/SSVUtils/).
    The code tables and the decimal text of an [int] are those of [StrfModel]. *)
From Coq Require Import String Ascii ZArith NArith Arith Bool Lia List.
From Verif Require Import Common StrfModel.
Import ListNotations.

Local Notation "'let!' x := e 'in' f" := (obind e (fun x => f))
  (at level 200, x pattern, e at level 100, f at level 200, right associativity).

(** ConsoleFmt.hpp:23-38 [enum class Style]. Values cast from other integers are not modelled: they
    would index outside the tables. *)
Inductive Style :=
  | SNone | SBold | SDim | SUnderline | SBlink | SReverseFGBG | SHidden
  | SResetBold | SResetDim | SResetUnderline | SResetBlink | SResetReverse | SResetHidden.
(** ConsoleFmt.hpp:41-60 [enum class Color]. *)
Inductive Color :=
  | CDefault | CBlack | CRed | CGreen | CYellow | CBlue | CMagenta | CCyan | CLightGray
  | CDarkGray | CLightRed | CLightGreen | CLightYellow | CLightBlue | CLightMagenta | CLightCyan
  | CLightWhite.

(** [int(mStyle)], the values written in ConsoleFmt.hpp:25-37. *)
Definition style_int (y : Style) : nat :=
  match y with
  | SNone => 0 | SBold => 1 | SDim => 2 | SUnderline => 3 | SBlink => 4 | SReverseFGBG => 5
  | SHidden => 6 | SResetBold => 7 | SResetDim => 8 | SResetUnderline => 9 | SResetBlink => 10
  | SResetReverse => 11 | SResetHidden => 12
  end.
(** [int(mColor)], the values written in ConsoleFmt.hpp:43-59. *)
Definition color_int (c : Color) : nat :=
  match c with
  | CDefault => 0 | CBlack => 1 | CRed => 2 | CGreen => 3 | CYellow => 4 | CBlue => 5
  | CMagenta => 6 | CCyan => 7 | CLightGray => 8 | CDarkGray => 9 | CLightRed => 10
  | CLightGreen => 11 | CLightYellow => 12 | CLightBlue => 13 | CLightMagenta => 14
  | CLightCyan => 15 | CLightWhite => 16
  end.
(** ConsoleFmt.hpp:17 and 20. *)
Definition styleCount : nat := 13.
Definition colorCount : nat := 16.

(** An output stream: what it has been sent, and its field width (the fill character is a blank and
    the adjustment right, as in a fresh stream). *)
Record stream := mkS { s_out : bytes; s_width : nat }.
(** [stream << text] for [std::string] and [const char*] (trusted: the standard library pads on the
    left up to the width, then sets the width to zero). *)
Definition put_str (t : bytes) (s : stream) : stream :=
  mkS (s_out s ++ repeat " "%char (s_width s - length t) ++ t) 0.
(** IgnoreManip.hpp:54-58 [operator<<]: [mStream.put(c)] for every character; [put] neither looks at
    the width nor changes it. *)
Fixpoint put_chars (t : bytes) (s : stream) : stream :=
  match t with
  | [] => s
  | c :: t => put_chars t (mkS (s_out s ++ [c]) (s_width s))
  end.

(** ConsoleFmtImplUnix.hpp:101-104 (the cache), 153 (the one format string, [c_res]) and the streams
    of the program. *)
Record con := mkCon { c_sty : Style; c_fg : Color; c_bg : Color; c_res : bytes; c_str : nat -> stream }.
(** ConsoleFmtImplUnix.hpp:103-104 and 153; a default constructed [IgnoreManip] is empty. *)
Definition start : con := mkCon SNone CDefault CDefault [] (fun _ => mkS [] 0).

(** ConsoleFmtImplUnix.hpp:108-116 and 138-149: the decimal text of the code; reading past a table is
    undefined. *)
Definition code_str (codes : list Z) (i : nat) : outcome bytes :=
  match nth_error codes i with
  | Some z => Ok (dec z)
  | None => UB
  end.
(** ConsoleFmtImplUnix.hpp:28-30. *)
Definition prefix : bytes := [ch 27; "["%char].
Definition postfix : bytes := lit "m".
Definition clear_str : bytes := [ch 27] ++ lit "[1;1H" ++ [ch 27] ++ lit "[2J".
(** ConsoleFmtImplUnix.hpp:151-158 [getFmtStr]. *)
Definition getFmtStr (s : con) : outcome con :=
  let! y := code_str style_codes (style_int (c_sty s)) in
  let! f := code_str fg_codes (color_int (c_fg s)) in
  let! b := code_str bg_codes (color_int (c_bg s)) in
  Ok (mkCon (c_sty s) (c_fg s) (c_bg s)
            (prefix ++ y ++ lit ";" ++ f ++ lit ";" ++ b ++ postfix) (c_str s)).

(** The functions of ConsoleFmt.hpp:80-106 that return the format string. *)
Inductive call := CReset | CStyle (y : Style) | CFG (c : Color) | CBG (c : Color).
(** ConsoleFmtImplUnix.hpp:160-180. *)
Definition unix_call (f : call) (s : con) : outcome con :=
  match f with
  | CReset => getFmtStr (mkCon SNone CDefault CDefault (c_res s) (c_str s))
  | CStyle y => getFmtStr (mkCon y (c_fg s) (c_bg s) (c_res s) (c_str s))
  | CFG c => getFmtStr (mkCon (c_sty s) c (c_bg s) (c_res s) (c_str s))
  | CBG c => getFmtStr (mkCon (c_sty s) (c_fg s) c (c_res s) (c_str s))
  end.

(** What a program does: it calls one of the functions above; sends what such a call returned (all
    return a reference to the same string) to stream [k]; sends [clear()] or a text to stream [k]; or
    sets the width of stream [k] with [std::setw]. [std::cout << setColorFG(x) << "text"] is
    [Call (CFG x); Send 0; Put 0 "text"]. A [Send] before the first call has no counterpart in C++; it
    writes nothing here. *)
Inductive act :=
  | Call (f : call)
  | Send (k : nat)
  | Clear (k : nat)
  | Put (k : nat) (t : bytes)
  | Width (k : nat) (w : nat).

Definition on (k : nat) (g : stream -> stream) (s : con) : con :=
  mkCon (c_sty s) (c_fg s) (c_bg s) (c_res s)
        (fun j => if Nat.eqb j k then g (c_str s j) else c_str s j).
(** The Unix console (ConsoleFmtImplUnix.hpp:160-184; [clear()] returns a [std::string], not an
    [IgnoreManip]) and the null console (ConsoleFmtImplNull.hpp:19-38: everything returns the empty
    [std::string]). *)
Definition step (c : console) (a : act) (s : con) : outcome con :=
  match c, a with
  | Unix, Call f => unix_call f s
  | Unix, Send k => Ok (on k (put_chars (c_res s)) s)
  | Unix, Clear k => Ok (on k (put_str clear_str) s)
  | NullConsole, Call f => Ok s
  | NullConsole, Send k => Ok (on k (put_str []) s)
  | NullConsole, Clear k => Ok (on k (put_str []) s)
  | _, Put k t => Ok (on k (put_str t) s)
  | _, Width k w => Ok (on k (fun x => mkS (s_out x) w) s)
  end.
Fixpoint run (c : console) (h : list act) (s : con) : outcome con :=
  match h with
  | [] => Ok s
  | a :: h => let! s := step c a s in run c h s
  end.

(** ConsoleFmtImplUnix.hpp:186-220: the size of the console. [ask] is the operating system's answer
    to the [n]-th [ioctl], [None] when the call fails (standard output is not a terminal); then the
    structure stays uninitialised and reading it is undefined. The answer is kept in a static, so
    only the first call asks. *)
Record info := mkI { i_asked : nat; i_kept : option (nat * nat) }.
Definition getInfoImpl (ask : nat -> option (nat * nat)) (s : info) : outcome (info * (nat * nat)) :=
  match i_kept s with
  | Some x => Ok (s, x)
  | None =>
      match ask (i_asked s) with
      | Some x => Ok (mkI (S (i_asked s)) (Some x), x)
      | None => UB
      end
  end.
Definition isInfoValid (c : console) : bool := match c with Unix => true | NullConsole => false end.
Definition getColumnCount c ask s : outcome (info * nat) :=
  match c with
  | Unix => let! (s, x) := getInfoImpl ask s in Ok (s, fst x)
  | NullConsole => Ok (s, 80)
  end.
Definition getRowCount c ask s : outcome (info * nat) :=
  match c with
  | Unix => let! (s, x) := getInfoImpl ask s in Ok (s, snd x)
  | NullConsole => Ok (s, 50)
  end.
