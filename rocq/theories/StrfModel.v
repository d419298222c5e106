(** Model of the stringification of values: Core/String/StringifierBase.hpp,
    Core/Stringifier/Stringifier.hpp, Bimap/Inc/Stringifier.hpp, Core/String/ToStr.hpp,
    Core/String/IgnoreManip.hpp and Core/ConsoleFmt (all under include/SSVUtils/). *)
From Coq Require Import String Ascii ZArith NArith Arith Bool Lia List.
From Verif Require Import Common IntToStrModel MplModel.
Import ListNotations.
Local Open Scope Z_scope.

Local Notation "'let!' x := e 'in' f" := (obind e (fun x => f))
  (at level 200, x pattern, e at level 100, f at level 200, right associativity).

(** *** Text produced by iostreams (trusted: what [operator<<] of the standard library writes) *)

Definition digit_char (k : Z) : ascii := ascii_of_N (Z.to_N (48 + k)).
(** Digits of [n >= 0] without leading zeros; the budget is the bit length. *)
Fixpoint udec (fuel : nat) (n : Z) : bytes :=
  match fuel with
  | O => []
  | S fuel => if n <? 10 then [digit_char n] else udec fuel (n / 10) ++ [digit_char (n mod 10)]
  end.
(** [stream << n] for the integer types. *)
Definition dec (n : Z) : bytes :=
  if n <? 0 then "-"%char :: udec (S (Z.to_nat (Z.log2 (- n)))) (- n)
  else udec (S (Z.to_nat (Z.log2 n))) n.

Definition hex_char (k : Z) : ascii :=
  if k <? 10 then ascii_of_N (Z.to_N (48 + k)) else ascii_of_N (Z.to_N (87 + k)).
Fixpoint uhex (fuel : nat) (n : Z) : bytes :=
  match fuel with
  | O => []
  | S fuel => if n <? 16 then [hex_char n] else uhex fuel (n / 16) ++ [hex_char (n mod 16)]
  end.
(** [stream << p] for a non-null [const void*] (libstdc++: hexadecimal with base prefix). *)
Definition ptr_text (p : Z) : bytes := lit "0x" ++ uhex (S (Z.to_nat (Z.log2 p))) p.

(** *** Console formatting *)

(** ConsoleFmt.hpp:90-98: the Unix implementation, or the null one on other systems. *)
Inductive console := Unix | NullConsole.

(** ConsoleFmtImplUnix.hpp:32-98, the three code tables. *)
Definition style_codes : list Z := [0; 1; 2; 4; 5; 7; 8; 21; 22; 24; 25; 27; 28].
Definition fg_codes : list Z := [39; 30; 31; 32; 33; 34; 35; 36; 37; 90; 91; 92; 93; 94; 95; 96; 97].
Definition bg_codes : list Z :=
  [49; 40; 41; 42; 43; 44; 45; 46; 47; 100; 101; 102; 103; 104; 105; 106; 107].

(** ConsoleFmt.hpp:22-60, the enumerators used below. *)
Definition sNone := 0%nat.
Definition sBold := 1%nat.
Definition sUnderline := 3%nat.
Definition cDefault := 0%nat.
Definition cBlue := 5%nat.
Definition cCyan := 7%nat.
Definition cLightRed := 10%nat.
Definition cLightYellow := 12%nat.
Definition cLightBlue := 13%nat.

(** What the functions below read and write: the format cache (ConsoleFmtImplUnix.hpp:100-106), the
    stream being written, and the calling thread's conversion stream (StringifierBase.hpp:33-39). *)
Record st := mkSt { sty : nat; fg : nat; bg : nat; out : bytes; oss : bytes }.
Definition sm := st -> outcome st.
Definition seqm (a b : sm) : sm := fun s => let! s1 := a s in b s1.
Definition skip : sm := fun s => Ok s.

(** A text sent to the stream: [tgt = true] when that stream is the conversion stream. *)
Definition put (tgt : bool) (t : bytes) : sm := fun s =>
  if tgt then Ok (mkSt (sty s) (fg s) (bg s) (out s) (oss s ++ t))
  else Ok (mkSt (sty s) (fg s) (bg s) (out s ++ t) (oss s)).

(** ConsoleFmtImplUnix.hpp:151-158 [getFmtStr]: the escape sequence of the cached format. *)
Definition fmt_str (s : st) : bytes :=
  [ch 27; "["%char] ++ dec (nth (sty s) style_codes 0) ++ lit ";" ++ dec (nth (fg s) fg_codes 0) ++
  lit ";" ++ dec (nth (bg s) bg_codes 0) ++ lit "m".

(** [stream << setX(..)]: changes the cache, then streams [getFmtStr()] character by character
    (IgnoreManip.hpp:54-58). The null console returns the empty string and has no cache
    (ConsoleFmtImplNull.hpp:18-37). *)
Definition put_fmt (c : console) (tgt : bool) (upd : st -> st) : sm := fun s =>
  match c with
  | Unix => let s1 := upd s in put tgt (fmt_str s1) s1
  | NullConsole => Ok s
  end.
(** ConsoleFmtImplUnix.hpp:160-179, StringifierBase.hpp:28-31. *)
Definition resetFmt c tgt : sm :=
  put_fmt c tgt (fun s => mkSt sNone cDefault cDefault (out s) (oss s)).
Definition setStyle c tgt y : sm := put_fmt c tgt (fun s => mkSt y (fg s) (bg s) (out s) (oss s)).
Definition setColorFG c tgt x : sm := put_fmt c tgt (fun s => mkSt (sty s) x (bg s) (out s) (oss s)).

(** Stringifier.hpp:28-40 [printFmt] (TResetFmt is left at true by every caller). *)
Definition printFmt c (tfmt tgt : bool) (t : bytes) (color style : nat) : sm :=
  seqm (if tfmt then seqm (resetFmt c tgt) (seqm (setColorFG c tgt color) (setStyle c tgt style))
        else skip)
       (put tgt t).
(** Stringifier.hpp:43-48 [printBold]. *)
Definition printBold c tfmt tgt t color : sm := printFmt c tfmt tgt t color sBold.

(** *** The separator helper, over the list of the calls [mFunc(x)] it is to make *)

(** Stringifier.hpp:60-72, bidirectional iterators; decrementing the end of an empty range is
    undefined. The loop runs to the last element, which is handled after it. *)
Fixpoint penultimate_bidi {S} (fs : list (S -> outcome S)) (sep : S -> outcome S) (s : S) : outcome S :=
  match fs with
  | [] => UB
  | [f] => f s
  | f :: fs => let! s := f s in let! s := sep s in penultimate_bidi fs sep s
  end.
(** Stringifier.hpp:76-88, forward iterators: [i] is an [int], [count] a [ptrdiff_t]. *)
Fixpoint penultimate_fwd_loop {S} (i count : Z) (fs : list (S -> outcome S))
    (sep : S -> outcome S) (s : S) : outcome S :=
  if i <? count then
    match fs with
    | [] => UB
    | f :: fs =>
        let! s := f s in
        let! s := (if i <? count - 1 then sep s else Ok s) in
        if i =? INT_MAX then UB else penultimate_fwd_loop (i + 1) count fs sep s
    end
  else Ok s.
Definition penultimate_fwd {S} (fs : list (S -> outcome S)) sep (s : S) : outcome S :=
  penultimate_fwd_loop 0 (Z.of_nat (length fs)) fs sep s.
(** Stringifier.hpp:93-99 [repeatPenultimate], dispatching on the iterator category. *)
Definition repeatPenultimate {S} (bidi : bool) (fs : list (S -> outcome S)) sep : S -> outcome S :=
  if bidi then penultimate_bidi fs sep else penultimate_fwd fs sep.

(** Stringifier.hpp:134-141, the body of the tuple loop: a separator after every position whose
    index is below the size less one. *)
Fixpoint tuple_loop {S} (i n : nat) (fs : list (S -> outcome S)) (sep : S -> outcome S) (s : S) : outcome S :=
  match fs with
  | [] => Ok s
  | f :: fs =>
      let! s := f s in
      let! s := (if (i <? n - 1)%nat then sep s else Ok s) in
      tuple_loop (Datatypes.S i) n fs sep s
  end.

(** *** Values, by the stringifier that serves their type *)
Inductive ikind := KInt | KLong | KUInt | KULong.
Inductive val :=
| VInt (k : ikind) (z : Z)
| VReal (dbl : bool) (t : bytes)          (* [t]: what [stream << x] writes for this number *)
| VStr (t : bytes)                        (* std::string *)
| VText (t : bytes)                       (* default stringifier: C strings, char, bool, ... *)
| VPtr (p : Z)                            (* address, 0 for null *)
| VSeq (bidi : bool) (l : list val)       (* arrays and containers with one element type *)
| VTuple (l : list val)                   (* std::pair, std::tuple *)
| VMap (bidi : bool) (l : list (val * val))
| VBimap (l : list (val * val))
| VUser (l : list (bytes * val)).         (* a class with an [operator<<] that writes, for each
                                             entry, the text and then [ssvu::toStr] of the value *)

Definition kind_type (k : ikind) : inttype :=
  match k with KInt => t_int | KLong => t_long | KUInt => t_uint | KULong => t_ulong end.
(** Stringifier.hpp:193-206, last argument of the macro. *)
Definition kind_postfix (k : ikind) : bytes :=
  match k with KInt => [] | KLong => lit "l" | KUInt => lit "u" | KULong => lit "ul" end.

(** Stringifier.hpp:176-191, the macro for the base types. *)
Definition base_impl c (tfmt tgt : bool) (color style : nat) (t postfix : bytes) : sm :=
  seqm (if tfmt then seqm (setStyle c tgt style) (setColorFG c tgt color) else skip)
 (seqm (put tgt t)
       (if tfmt then put tgt postfix else skip)).

(** StringifierBase.hpp:80-86 [callStringifyImpl] with its default TResetFmt = true. *)
Definition callStringifyImpl c (tgt : bool) (body : sm) : sm :=
  seqm (resetFmt c tgt) (seqm body (resetFmt c tgt)).

(** Stringifier.hpp:106-126 [StringifierContainer]. *)
Definition seq_impl c (tfmt tgt bidi : bool) (fs : list sm) (sep : bytes) : sm :=
  match fs with
  | [] => printBold c tfmt tgt (lit "{ EMPTY }") cDefault
  | _ => seqm (printBold c tfmt tgt (lit "{") cDefault)
        (seqm (repeatPenultimate bidi fs (printBold c tfmt tgt sep cDefault))
              (printBold c tfmt tgt (lit "}") cDefault))
  end.

(** The address of the string literal of Stringifier.hpp:290 (some address; any is as good). *)
Definition nullptr_literal : Z := 93824992235524.

(** ToStr.hpp:21-53: integers by the fast conversion, everything else through the conversion stream
    of the thread, which is emptied first; [body] stringifies the value without formatting. (The
    scratch buffer of the fast conversion starts with zeros here; its contents do not matter, C07.) *)
Definition toStr_with (body : sm) (v : val) (s : st) : outcome (bytes * st) :=
  match v with
  | VInt k z => let! r := IntToStrModel.toStr (kind_type k)
                  (repeat "0"%char (t_digits10 (kind_type k))) z in Ok (r, s)
  | _ => let! s := body (mkSt (sty s) (fg s) (bg s) (out s) []) in Ok (oss s, s)
  end.

(** [ssvu::stringify<TFmt>], StringifierBase.hpp:72-76, with the specialisations listed above. *)
Fixpoint stringify (c : console) (tfmt tgt : bool) (v : val) {struct v} : sm :=
  match v with
  | VInt k z => base_impl c tfmt tgt cLightBlue sBold (dec z) (kind_postfix k)
  | VReal d t => base_impl c tfmt tgt cLightRed sBold t (if d then lit "d" else lit "f")
  | VStr t => base_impl c tfmt tgt cLightYellow sNone t []
  | VText t => put tgt t
  (* Stringifier.hpp:281-295: the two branches of the conditional have types [const void*] and
     [const char*], so the conditional has type [const void*] and an address is written *)
  | VPtr p =>
      seqm (printBold c tfmt tgt (lit "[") cBlue)
     (seqm (printFmt c tfmt tgt (ptr_text (if p =? 0 then nullptr_literal else p)) cCyan sUnderline)
           (printBold c tfmt tgt (lit "]") cBlue))
  | VSeq bidi l =>
      seq_impl c tfmt tgt bidi
        (map (fun x => callStringifyImpl c tgt (stringify c tfmt tgt x)) l) (lit ", ")
  (* Stringifier.hpp:129-144 *)
  | VTuple l =>
      seqm (printBold c tfmt tgt (lit "{") cDefault)
     (seqm (match l with
            | [] => fun _ => illformed
            | _ => tuple_loop 0 (length l)
                     (map (fun x => callStringifyImpl c tgt (stringify c tfmt tgt x)) l)
                     (printBold c tfmt tgt (lit ", ") cDefault)
            end)
           (printBold c tfmt tgt (lit "}") cDefault))
  (* Stringifier.hpp:148-173, 265-278 *)
  | VMap bidi l =>
      seq_impl c tfmt tgt bidi
        (map (fun p => seqm (callStringifyImpl c tgt (stringify c tfmt tgt (fst p)))
                      (seqm (printBold c tfmt tgt (lit " -> ") cDefault)
                            (callStringifyImpl c tgt (stringify c tfmt tgt (snd p))))) l) (lit ", ")
  (* Bimap/Inc/Stringifier.hpp:14-40 *)
  | VBimap l =>
      seq_impl c tfmt tgt true
        (map (fun p => seqm (callStringifyImpl c tgt (stringify c tfmt tgt (fst p)))
                      (seqm (printBold c tfmt tgt (lit " <-> ") cDefault)
                            (callStringifyImpl c tgt (stringify c tfmt tgt (snd p))))) l) [ch 10]
  | VUser l =>
      fold_right (fun p rest =>
          seqm (put tgt (fst p))
         (seqm (fun s => let! (r, s) := toStr_with (stringify c false true (snd p)) (snd p) s in
                         put tgt r s) rest)) skip l
  end.

(** ToStr.hpp:62-66 [ssvu::toStr]. *)
Definition toStr (c : console) (v : val) (s : st) : outcome (bytes * st) :=
  toStr_with (stringify c false true v) v s.
