(** Model of the text input and output of generators: include/SSVUtils/Internal/PCG/pcg_extras.hpp:110-236 and
    pcg_random.hpp:563-626, 1419-1461, for streams of [char] in the "C" locale.
    Which operator is called for a number: the operators of pcg_extras are hidden inside pcg_detail by its own, and are
    found only through the type of their operand.  So 8-bit numbers are written and read as characters by the standard
    operators, and the 128-bit type must be the class of pcg_uint128.hpp (with a built-in one these functions do not
    compile).  Not modelled: streams of other characters, errors of the stream buffer. *)
From Coq Require Import String Ascii ZArith NArith Arith Bool List.
From Verif Require Import Common StrfModel PcgModel U128Model.
Import ListNotations.
Local Open Scope Z_scope.
Local Notation "'let!' x := e 'in' f" := (obind e (fun x => f)) (at level 200, x pattern, e at level 100, f at level 200, right associativity).

(** ** Output streams *)
Inductive radix := Dec | Oct | Hex.
Inductive adjust := Left | Right | Internal.
Record flags := mkF { base : radix; adj : adjust; showbase : bool; uppercase : bool; skipws : bool }.
Record ostream := mkO { text : bytes; oflags : flags; width : nat; fill : ascii }.
Definition set_oflags (f : flags) (o : ostream) : ostream := mkO (text o) f (width o) (fill o).
Definition set_width (n : nat) (o : ostream) : ostream := mkO (text o) (oflags o) n (fill o).
Definition set_fill (c : ascii) (o : ostream) : ostream := mkO (text o) (oflags o) (width o) c.
(** Formatted insertion: padded to the width, which becomes 0. *)
Definition insert (prefix body : bytes) (o : ostream) : ostream :=
  let pad := repeat (fill o) (width o - length (prefix ++ body)) in
  let t := match adj (oflags o) with
           | Left => prefix ++ body ++ pad
           | Right => pad ++ prefix ++ body
           | Internal => prefix ++ pad ++ body
           end in
  mkO (text o ++ t) (oflags o) 0 (fill o).
Definition insert_text (s : bytes) (o : ostream) : ostream :=
  insert [] s o.
(** Digits in a radix, most significant first. *)
Definition digit_of (upper : bool) (k : Z) : ascii :=
  ascii_of_N (Z.to_N (if k <? 10 then 48 + k else if upper then 55 + k else 87 + k)).
Fixpoint digits_loop (fuel : nat) (b : Z) (upper : bool) (n : Z) : bytes :=
  match fuel with
  | O => []
  | S fuel => if n <? b then [digit_of upper n] else digits_loop fuel b upper (n / b) ++ [digit_of upper (n mod b)]
  end.
Definition digits (b : Z) (upper : bool) (n : Z) : bytes := digits_loop (S (Z.to_nat (Z.log2 n))) b upper n.
(** [operator<<] of the standard library for unsigned integers. *)
Definition insert_unsigned (n : Z) (o : ostream) : ostream :=
  let f := oflags o in
  match base f with
  | Dec => insert [] (dec n) o
  | Oct => insert (if showbase f && negb (n =? 0) then lit "0" else []) (digits 8 (uppercase f) n) o
  | Hex => insert (if showbase f && negb (n =? 0) then (if uppercase f then lit "0X" else lit "0x") else [])
                  (digits 16 (uppercase f) n) o
  end.

(** pcg_extras.hpp:122-168: 128-bit numbers.  149-167: the loop filling the buffer of 40 characters from its end. *)
Fixpoint fill_buffer (fuel : nat) (pos : nat) (value : x4) (buffer : bytes) : outcome bytes :=
  match fuel with
  | O => OutOfFuel
  | S fuel =>
      let! q := div value (of_int 10) in
      let r := to_u32 (sub value (mul q (of_int 10))) in
      match pos with
      | O => UB
      | S pos =>
          let buffer := ascii_of_N (Z.to_N (48 + r)) :: buffer in
          if ne q (of_int 0) then fill_buffer fuel pos q buffer else Ok buffer
      end
  end.
Definition insert_big (value : x4) (o : ostream) : outcome ostream :=
  match base (oflags o) with
  | Hex =>
      let! h := shr value 64 in
      let highpart := to_u64 h in
      let lowpart := to_u64 value in
      let desired_width := width o in
      let o := if (16 <? desired_width)%nat then set_width (desired_width - 16) o else o in
      let o := if negb (highpart =? 0) || (16 <? desired_width)%nat then insert_unsigned highpart o else o in
      let oldfill := fill o in
      let o := if negb (highpart =? 0) then set_fill "0" (set_width 16 o) else o in
      let old := oflags o in
      let o := set_oflags (mkF (base old) (adj old) false (uppercase old) (skipws old)) o in
      let o := insert_unsigned lowpart o in
      let o := set_oflags old o in
      Ok (if negb (highpart =? 0) then set_fill oldfill o else o)
  | _ => let! s := fill_buffer 130 39 value [] in Ok (insert_text s o)
  end.

(** Kinds of state types: 8 bits, other standard types, the 128-bit class. Numbers of the class are given by value. *)
Inductive kind := KByte | KWord (w : Z) | KBig.
Definition bits_of (k : kind) : Z := match k with KByte => 8 | KWord w => w | KBig => 128 end.
Definition big (n : Z) : x4 := of_double (n / 2 ^ 64) (n mod 2 ^ 64).
Definition of_big (a : x4) : Z := v01 a + 2 ^ 64 * v23 a.
Definition insert_num (k : kind) (n : Z) (o : ostream) : outcome ostream :=
  match k with
  | KByte => Ok (insert_text [ascii_of_N (Z.to_N n)] o)
  | KWord _ => Ok (insert_unsigned n o)
  | KBig => insert_big (big n) o
  end.
Definition plain (f : flags) : flags := mkF Dec Left false false false.
Definition insert_space (o : ostream) : ostream := insert_text [" "%char] o.
(** pcg_random.hpp:563-580: multiplier, increment, state; the fill is not changed before. *)
Definition write_three (k : kind) (m c s : Z) (o : ostream) : outcome ostream :=
  let! o := insert_num k m o in
  let! o := insert_num k c (insert_space o) in
  insert_num k s (insert_space o).
Definition write_engine (k : kind) (m c s : Z) (o : ostream) : outcome ostream :=
  let orig_flags := oflags o in
  let orig_fill := fill o in
  let! o := write_three k m c s (set_oflags (plain orig_flags) o) in
  Ok (set_fill orig_fill (set_oflags orig_flags o)).
(** 1419-1436: the table follows. *)
Fixpoint write_table (kx : kind) (data : list Z) (o : ostream) : outcome ostream :=
  match data with
  | [] => Ok o
  | x :: data => let! o := insert_num kx x (insert_space o) in write_table kx data o
  end.
Definition write_extended (k kx : kind) (m c s : Z) (data : list Z) (o : ostream) : outcome ostream :=
  let orig_flags := oflags o in
  let orig_fill := fill o in
  let! o := write_three k m c s (set_oflags (plain orig_flags) o) in
  let! o := write_table kx data o in
  Ok (set_fill orig_fill (set_oflags orig_flags o)).

(** ** Input streams *)
Record istream := mkS { rest : bytes; eofbit : bool; failbit : bool; iflags : flags }.
Definition good (i : istream) : bool := negb (eofbit i || failbit i).
Definition set_state (e f : bool) (i : istream) : istream := mkS (rest i) (eofbit i || e) (failbit i || f) (iflags i).
Definition set_rest (r : bytes) (i : istream) : istream := mkS r (eofbit i) (failbit i) (iflags i).
Definition set_iflags (f : flags) (i : istream) : istream := mkS (rest i) (eofbit i) (failbit i) f.
(** Blanks of the "C" locale. *)
Definition isspace (c : ascii) : bool := let n := N_of_ascii c in ((9 <=? n) && (n <=? 13) || (n =? 32))%N.
Fixpoint drop_space (s : bytes) : bytes :=
  match s with c :: r => if isspace c then drop_space r else s | [] => [] end.
(** The sentry object: whether to go on. *)
Definition sentry (i : istream) : istream * bool :=
  if negb (good i) then (set_state false true i, false)
  else if skipws (iflags i) then
    match drop_space (rest i) with
    | [] => (set_state true true (set_rest [] i), false)
    | r => (set_rest r i, true)
    end
  else (i, true).
Definition isdigit (c : ascii) : bool := let n := N_of_ascii c in ((48 <=? n) && (n <=? 57))%N.
Fixpoint take_digits (acc : Z) (s : bytes) : Z * bytes :=
  match s with
  | c :: r => if isdigit c then take_digits (acc * 10 + (Z.of_N (N_of_ascii c) - 48)) r else (acc, s)
  | [] => (acc, [])
  end.
(** [operator>>] of the standard library for unsigned integers of [w] bits, with decimal flags: [None] when the variable
    keeps its value.  A minus sign is accepted and gives the negative modulo 2^w. *)
Definition extract_unsigned (w : Z) (i : istream) : istream * option Z :=
  let '(i, ok) := sentry i in
  if negb ok then (i, None) else
  let '(neg, s) := match rest i with
                   | c :: r => if Ascii.eqb c "-" then (true, r) else if Ascii.eqb c "+" then (false, r) else (false, rest i)
                   | [] => (false, [])
                   end in
  let '(v, r) := take_digits 0 s in
  let e := match r with [] => true | _ => false end in
  let i := set_rest r i in
  match s with
  | c :: _ =>
      if isdigit c then
        if v <? 2 ^ w then (set_state e false i, Some (if neg then (- v) mod 2 ^ w else v))
        else (set_state e true i, Some (2 ^ w - 1))
      else (set_state e true i, Some 0)
  | [] => (set_state e true i, Some 0)
  end.
(** [operator>>] for characters. *)
Definition extract_char (i : istream) : istream * option Z :=
  let '(i, ok) := sentry i in
  if negb ok then (i, None) else
  match rest i with
  | c :: r => (set_rest r i, Some (Z.of_N (N_of_ascii c)))
  | [] => (set_state true true i, None)
  end.
(** pcg_extras.hpp:170-208. [get] at the end sets both bits; a character that is no digit is put back. *)
Fixpoint big_loop (s : bytes) (current : x4) (did_nothing overflow : bool) : x4 * bool * bool * bytes * bool :=
  match s with
  | [] => (current, did_nothing, overflow, [], true)
  | c :: r =>
      if negb (isdigit c) then (current, did_nothing, overflow, s, false) else
      let digit := of_int (Z.of_N (N_of_ascii c) - 48) in
      let timesbase := mul current (of_int 10) in
      let overflow := overflow || lt timesbase current in
      let current := add timesbase digit in
      let overflow := overflow || lt current digit in
      big_loop r current false overflow
  end.
Definition extract_big (i : istream) : istream * option x4 :=
  let '(i, ok) := sentry i in
  if negb ok then (i, None) else
  let '(current, did_nothing, overflow, r, ended) := big_loop (rest i) (of_int 0) true false in
  let i := set_state ended ended (set_rest r i) in
  let i := if did_nothing || overflow then set_state false true i else i in
  (i, Some (if overflow then bnot (of_int 0) else current)).
Definition extract_num (k : kind) (i : istream) : istream * option Z :=
  match k with
  | KByte => extract_char i
  | KWord w => extract_unsigned w i
  | KBig => let '(i, a) := extract_big i in (i, option_map of_big a)
  end.
(** pcg_random.hpp:582-626; the generator is its increment and its state.  The variables read are used only when nothing
    failed, and then they have all been set. *)
Definition decimal_skip (f : flags) : flags := mkF Dec Right false false true.
Definition read_engine (k : kind) (m : Z) (can_specify_stream : bool) (i : istream) (g : Z * Z) : outcome (istream * (Z * Z)) :=
  let orig_flags := iflags i in
  let i := set_iflags (decimal_skip orig_flags) i in
  let '(i, m') := extract_num k i in
  let '(i, c') := extract_num k i in
  let '(i, s') := extract_num k i in
  let! (i, g) :=
    (if failbit i then Ok (i, g) else
     match m', c', s' with
     | Some m', Some c', Some s' =>
         match load (bits_of k) m (fst g) can_specify_stream (m', c', s') with
         | Some g => Ok (i, g)
         | None => Ok (mkS (rest i) false true (iflags i), g)
         end
     | _, _, _ => UB
     end) in
  Ok (set_iflags orig_flags i, g).
(** 1438-1461.  A new generator is made with the default increment, state and table, and assigned at the end.
    Compiles only for [kdd] = true. *)
Fixpoint read_table (kx : kind) (n : nat) (i : istream) : outcome (istream * option (list Z)) :=
  match n with
  | O => Ok (i, Some [])
  | S n =>
      let '(i, x) := extract_num kx i in
      if failbit i then Ok (i, None) else
      match x with
      | Some x => let! (i, l) := read_table kx n i in Ok (i, option_map (cons x) l)
      | None => UB
      end
  end.
Definition read_extended (k kx : kind) (m : Z) (can_specify_stream : bool) (new_base : Z * Z) (n : nat) (i : istream)
    (g : (Z * Z) * list Z) : outcome (istream * ((Z * Z) * list Z)) :=
  let! (i, b) := read_engine k m can_specify_stream i new_base in
  if failbit i then Ok (i, g) else
  let orig_flags := iflags i in
  let i := set_iflags (decimal_skip orig_flags) i in
  let! (i, d) := read_table kx n i in
  Ok (set_iflags orig_flags i, match d with Some d => (b, d) | None => g end).
