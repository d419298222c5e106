(** Where a text is cut, independent of the reader. *)
From Coq Require Import String Ascii NArith Bool List.
From Verif Require Import Common JsonSpec.
Import ListNotations.
Local Open Scope N_scope.

(** The characters numbers and words are made of: letters, digits, plus, minus and the point. *)
Definition word_char (c : ascii) : Prop :=
  let n := N_of_ascii c in
  48 <= n <= 57 \/ 65 <= n <= 90 \/ 97 <= n <= 122 \/ n = 43 \/ n = 45 \/ n = 46.
(** The text ends in this character. *)
Definition ends_with (s : list ascii) (c : ascii) : Prop := exists r, s = r ++ [c].
