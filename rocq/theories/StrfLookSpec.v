(** What a stringified value should look like on a terminal: every character with its pen. The texts are
    those of [StrfSpec], the terminal is that of [ConSpec]. *)
From Coq Require Import String Ascii ZArith NArith Arith Bool Lia List.
From Verif Require Import Common StrfModel StrfSpec ConSpec.
Import ListNotations.

(** Bold, in the given colour. *)
Definition strong (c : colour) : pen := mkPen true false NoLine false false false c Own.
(** Underlined, in the given colour. *)
Definition lined (c : colour) : pen := mkPen false false OneLine false false false c Own.

(** A text with pen [p], or plain where no formatting is wanted. *)
Definition in_pen (fmt : bool) (p : pen) (t : bytes) : list cell := drawn (if fmt then p else plain) t.
Fixpoint separated (sep : list cell) (l : list (list cell)) : list cell :=
  match l with
  | [] => []
  | [x] => x
  | x :: l => x ++ sep ++ separated sep l
  end.
(** Brackets and separators are bold, in the terminal's own colours. *)
Definition in_braces (fmt : bool) (l : list (list cell)) (sep : bytes) : list cell :=
  in_pen fmt (strong Own) (lit "{") ++ separated (in_pen fmt (strong Own) sep) l ++
  in_pen fmt (strong Own) (lit "}").
Definition in_braces_or_empty (fmt : bool) (l : list (list cell)) (sep : bytes) : list cell :=
  match l with [] => in_pen fmt (strong Own) (lit "{ EMPTY }") | _ => in_braces fmt l sep end.

(** Integers are bold and bright blue, reals bold and bright red, with the letters of their type;
    strings are bright yellow; addresses are underlined and cyan between bold blue brackets; texts of
    other classes are plain. *)
Fixpoint look (fmt : bool) (v : val) : list cell :=
  match v with
  | VInt _ _ => in_pen fmt (strong (Bright Blue)) (text fmt v)
  | VReal _ _ => in_pen fmt (strong (Bright Red)) (text fmt v)
  | VStr t => in_pen fmt (mkPen false false NoLine false false false (Bright Yellow) Own) t
  | VText t => drawn plain t
  | VPtr p => in_pen fmt (strong (Normal Blue)) (lit "[") ++
              in_pen fmt (lined (Normal Cyan)) (if (p =? 0)%Z then lit "nullptr" else ptr_text p) ++
              in_pen fmt (strong (Normal Blue)) (lit "]")
  | VSeq _ l => in_braces_or_empty fmt (map (look fmt) l) (lit ", ")
  | VTuple l => in_braces fmt (map (look fmt) l) (lit ", ")
  | VMap _ l => in_braces_or_empty fmt
      (map (fun p => look fmt (fst p) ++ in_pen fmt (strong Own) (lit " -> ") ++ look fmt (snd p)) l) (lit ", ")
  | VBimap l => in_braces_or_empty fmt
      (map (fun p => look fmt (fst p) ++ in_pen fmt (strong Own) (lit " <-> ") ++ look fmt (snd p)) l) [ascii_of_N 10]
  | VUser l => drawn plain (text fmt v)
  end.
(** Values printed with brackets of their own. *)
Definition bracketed (v : val) : bool :=
  match v with VPtr _ | VSeq _ _ | VTuple _ | VMap _ _ | VBimap _ => true | _ => false end.
