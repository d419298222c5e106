(** Specification of console formatting: a terminal that follows ECMA-48 (with the usual bright
    colours 90-97 and 100-107), and what a program's texts should look like on it. *)
From Coq Require Import String Ascii ZArith NArith Arith Bool Lia List.
From Verif Require Import Common ConModel.
Import ListNotations.

(** *** The terminal *)

Inductive hue := Black | Red | Green | Yellow | Blue | Magenta | Cyan | White.
Inductive colour := Own | Normal (h : hue) | Bright (h : hue).
Inductive line := NoLine | OneLine | TwoLines.
(** How characters are drawn. *)
Record pen := mkPen { bold : bool; faint : bool; under : line; blink : bool; inverse : bool;
                      hidden : bool; ink : colour; paper : colour }.
Definition plain : pen := mkPen false false NoLine false false false Own Own.
Definition cell : Type := ascii * pen.

Definition hue_of (k : Z) : hue :=
  nth (Z.to_nat k) [Black; Red; Green; Yellow; Blue; Magenta; Cyan; White] Black.
Definition with_ink (c : colour) (p : pen) : pen :=
  mkPen (bold p) (faint p) (under p) (blink p) (inverse p) (hidden p) c (paper p).
Definition with_paper (c : colour) (p : pen) : pen :=
  mkPen (bold p) (faint p) (under p) (blink p) (inverse p) (hidden p) (ink p) c.
Definition with_under (u : line) (p : pen) : pen :=
  mkPen (bold p) (faint p) u (blink p) (inverse p) (hidden p) (ink p) (paper p).
(** SELECT GRAPHIC RENDITION, one parameter. *)
Definition sgr (p : pen) (n : Z) : pen :=
  if (n =? 0)%Z then plain
  else if (n =? 1)%Z then mkPen true (faint p) (under p) (blink p) (inverse p) (hidden p) (ink p) (paper p)
  else if (n =? 2)%Z then mkPen (bold p) true (under p) (blink p) (inverse p) (hidden p) (ink p) (paper p)
  else if (n =? 4)%Z then with_under OneLine p
  else if (n =? 5)%Z then mkPen (bold p) (faint p) (under p) true (inverse p) (hidden p) (ink p) (paper p)
  else if (n =? 7)%Z then mkPen (bold p) (faint p) (under p) (blink p) true (hidden p) (ink p) (paper p)
  else if (n =? 8)%Z then mkPen (bold p) (faint p) (under p) (blink p) (inverse p) true (ink p) (paper p)
  else if (n =? 21)%Z then with_under TwoLines p
  else if (n =? 22)%Z then mkPen false false (under p) (blink p) (inverse p) (hidden p) (ink p) (paper p)
  else if (n =? 24)%Z then with_under NoLine p
  else if (n =? 25)%Z then mkPen (bold p) (faint p) (under p) false (inverse p) (hidden p) (ink p) (paper p)
  else if (n =? 27)%Z then mkPen (bold p) (faint p) (under p) (blink p) false (hidden p) (ink p) (paper p)
  else if (n =? 28)%Z then mkPen (bold p) (faint p) (under p) (blink p) (inverse p) false (ink p) (paper p)
  else if ((30 <=? n) && (n <=? 37))%Z then with_ink (Normal (hue_of (n - 30))) p
  else if (n =? 39)%Z then with_ink Own p
  else if ((40 <=? n) && (n <=? 47))%Z then with_paper (Normal (hue_of (n - 40))) p
  else if (n =? 49)%Z then with_paper Own p
  else if ((90 <=? n) && (n <=? 97))%Z then with_ink (Bright (hue_of (n - 90))) p
  else if ((100 <=? n) && (n <=? 107))%Z then with_paper (Bright (hue_of (n - 100))) p
  else p.

(** Reading a control sequence: nothing begun, ESC seen, or ESC [ and some parameters seen. *)
Inductive mode := Ground | Escape | Params (done : list Z) (n : Z).
(** The screen is one long line of cells with a cursor. *)
Record terminal := mkT { t_mode : mode; t_pen : pen; t_cells : list cell; t_pos : nat }.
Definition blank : cell := (" "%char, plain).
Fixpoint write_at (n : nat) (x : cell) (l : list cell) : list cell :=
  match n, l with
  | O, _ => x :: tl l
  | S n, [] => blank :: write_at n x []
  | S n, y :: l => y :: write_at n x l
  end.
Definition esc : ascii := ascii_of_N 27.
Definition digit (c : ascii) : option Z :=
  if ((48 <=? N_of_ascii c) && (N_of_ascii c <=? 57))%N
  then Some (Z.of_N (N_of_ascii c) - 48)%Z else None.
Definition receive (t : terminal) (c : ascii) : terminal :=
  match t_mode t with
  | Ground =>
      if Ascii.eqb c esc then mkT Escape (t_pen t) (t_cells t) (t_pos t)
      else mkT Ground (t_pen t) (write_at (t_pos t) (c, t_pen t) (t_cells t)) (S (t_pos t))
  | Escape =>
      if Ascii.eqb c "["%char then mkT (Params [] 0) (t_pen t) (t_cells t) (t_pos t)
      else mkT Ground (t_pen t) (t_cells t) (t_pos t)
  | Params ps n =>
      match digit c with
      | Some d => mkT (Params ps (10 * n + d)%Z) (t_pen t) (t_cells t) (t_pos t)
      | None =>
          if Ascii.eqb c ";"%char then mkT (Params (ps ++ [n]) 0) (t_pen t) (t_cells t) (t_pos t)
          else if Ascii.eqb c "m"%char
          then mkT Ground (fold_left sgr (ps ++ [n]) (t_pen t)) (t_cells t) (t_pos t)
          else if Ascii.eqb c "H"%char
          then mkT Ground (t_pen t) (t_cells t)
                   (if list_eq_dec Z.eq_dec (ps ++ [n]) [1; 1]%Z then O else t_pos t)
          else if Ascii.eqb c "J"%char
          then mkT Ground (t_pen t)
                   (if list_eq_dec Z.eq_dec (ps ++ [n]) [2]%Z then [] else t_cells t) (t_pos t)
          else mkT Ground (t_pen t) (t_cells t) (t_pos t)
      end
  end.
Definition switched_on : terminal := mkT Ground plain [] 0.
(** The terminal after it has received [b]. *)
Definition terminal_after (b : bytes) : terminal := fold_left receive b switched_on.

(** *** What the enumerators mean *)

Definition colour_of (c : Color) : colour :=
  match c with
  | CDefault => Own
  | CBlack => Normal Black | CRed => Normal Red | CGreen => Normal Green | CYellow => Normal Yellow
  | CBlue => Normal Blue | CMagenta => Normal Magenta | CCyan => Normal Cyan
  | CLightGray => Normal White | CDarkGray => Bright Black
  | CLightRed => Bright Red | CLightGreen => Bright Green | CLightYellow => Bright Yellow
  | CLightBlue => Bright Blue | CLightMagenta => Bright Magenta | CLightCyan => Bright Cyan
  | CLightWhite => Bright White
  end.
(** The pen with the colours of [p] and style [y] and no other. *)
Definition styled (y : Style) (p : pen) : pen :=
  mkPen (match y with SBold => true | _ => false end) (match y with SDim => true | _ => false end)
        (match y with SUnderline => OneLine | _ => NoLine end)
        (match y with SBlink => true | _ => false end)
        (match y with SReverseFGBG => true | _ => false end)
        (match y with SHidden => true | _ => false end) (ink p) (paper p).
(** The styles that switch something on, and [None]. *)
Definition setting (y : Style) : Prop :=
  match y with SNone | SBold | SDim | SUnderline | SBlink | SReverseFGBG | SHidden => True | _ => False end.
(** What the sequences of this library do to a pen: [None] takes every attribute away, every other
    style is added to what is there. [ResetBold] draws two lines (see the finding in DESIGN.md) and
    [ResetDim] takes away both intensities. *)
Definition restyled (y : Style) (p : pen) : pen :=
  match y with
  | SNone => mkPen false false NoLine false false false (ink p) (paper p)
  | SBold => mkPen true (faint p) (under p) (blink p) (inverse p) (hidden p) (ink p) (paper p)
  | SDim => mkPen (bold p) true (under p) (blink p) (inverse p) (hidden p) (ink p) (paper p)
  | SUnderline => with_under OneLine p
  | SBlink => mkPen (bold p) (faint p) (under p) true (inverse p) (hidden p) (ink p) (paper p)
  | SReverseFGBG => mkPen (bold p) (faint p) (under p) (blink p) true (hidden p) (ink p) (paper p)
  | SHidden => mkPen (bold p) (faint p) (under p) (blink p) (inverse p) true (ink p) (paper p)
  | SResetBold => with_under TwoLines p
  | SResetDim => mkPen false false (under p) (blink p) (inverse p) (hidden p) (ink p) (paper p)
  | SResetUnderline => with_under NoLine p
  | SResetBlink => mkPen (bold p) (faint p) (under p) false (inverse p) (hidden p) (ink p) (paper p)
  | SResetReverse => mkPen (bold p) (faint p) (under p) (blink p) false (hidden p) (ink p) (paper p)
  | SResetHidden => mkPen (bold p) (faint p) (under p) (blink p) (inverse p) false (ink p) (paper p)
  end.

(** *** What a program has chosen, over the list of what it did *)

Definition style_of (h : list act) : Style :=
  fold_left (fun y a => match a with Call CReset => SNone | Call (CStyle z) => z | _ => y end) h SNone.
Definition fg_of (h : list act) : Color :=
  fold_left (fun y a => match a with Call CReset => CDefault | Call (CFG z) => z | _ => y end) h CDefault.
Definition bg_of (h : list act) : Color :=
  fold_left (fun y a => match a with Call CReset => CDefault | Call (CBG z) => z | _ => y end) h CDefault.
Definition any_call (h : list act) : bool :=
  existsb (fun a => match a with Call _ => true | _ => false end) h.

(** What stream [k] shows after [h]: its pen, its cells and its pending width. *)
Record view := mkV { v_pen : pen; v_cells : list cell; v_width : nat }.
Definition drawn (p : pen) (t : bytes) : list cell := map (fun c => (c, p)) t.
(** [before] is what the program did up to the action [a]. *)
Definition view_step (k : nat) (before : list act) (a : act) (v : view) : view :=
  match a with
  | Call _ => v
  | Send j =>
      if Nat.eqb k j && any_call before
      then mkV (with_ink (colour_of (fg_of before))
                 (with_paper (colour_of (bg_of before)) (restyled (style_of before) (v_pen v))))
               (v_cells v) (v_width v)
      else v
  | Clear j => if Nat.eqb k j then mkV (v_pen v) [] 0 else v
  | Put j t =>
      if Nat.eqb k j
      then mkV (v_pen v) (v_cells v ++ drawn (v_pen v) (repeat " "%char (v_width v - length t) ++ t)) 0
      else v
  | Width j w => if Nat.eqb k j then mkV (v_pen v) (v_cells v) w else v
  end.
Fixpoint view_from (k : nat) (before h : list act) (v : view) : view :=
  match h with
  | [] => v
  | a :: h => view_from k (before ++ [a]) h (view_step k before a v)
  end.
Definition view_of (k : nat) (h : list act) : view := view_from k [] h (mkV plain [] 0).

(** The texts the program sends contain no ESC. *)
Definition plain_texts (h : list act) : Prop :=
  forall k t, In (Put k t) h -> ~ In esc t.
(** Nothing in [h] chooses a style, by [setStyle] or by [resetFmt]. *)
Definition no_style (h : list act) : Prop :=
  forall f, In (Call f) h -> match f with CReset | CStyle _ => False | _ => True end.
(** Nothing in [h] sends a format string to stream [k]. *)
Definition no_send (k : nat) (h : list act) : Prop := ~ In (Send k) h.
(** The texts sent to stream [k]. *)
Fixpoint texts (k : nat) (h : list act) : bytes :=
  match h with
  | [] => []
  | Put j t :: h => if Nat.eqb k j then t ++ texts k h else texts k h
  | _ :: h => texts k h
  end.
