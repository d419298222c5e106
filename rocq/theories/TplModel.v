(** Template dictionaries and expansion (TemplateSystem/Internal/Dictionary.hpp, Expander.hpp, Expander.inl). *)
From Coq Require Import String Ascii ZArith NArith Arith Bool Lia List.
From Verif Require Import Common.
Import ListNotations.
Local Notation "'let!' x := e 'in' f" := (obind e (fun x => f)) (at level 200, x pattern, e at level 100, f at level 200, right associativity).

Definition lbrace : ascii := ch 123.
Definition rbrace : ascii := ch 125.
Definition backslash : ascii := ch 92.

(** Expander.hpp:18-26. *)
Inductive settings := EraseUnexisting | MaintainUnexisting | MaintainUnexistingOnlyCnt.
(** Dictionary.hpp:20-30.  The two VecMaps are association lists (a VecMap is proved to be a map in C28-C30; the first
    entry of a key counts).  Parent pointers, set by refreshParents (143-151) before every expansion, become the list of
    enclosing dictionaries, innermost first: a dictionary listed in a section of [d] has [d] as its parent. *)
Inductive dict := Dict (reps : list (bytes * bytes)) (sects : list (bytes * list dict)).
Definition reps (d : dict) := let (r, _) := d in r.
Definition sects (d : dict) := let (_, s) := d in s.
Fixpoint assoc {A} (k : bytes) (l : list (bytes * A)) : option A :=
  match l with [] => None | (k', v) :: l => if bytes_eqb k k' then Some v else assoc k l end.
(** 167-170 *)
Definition has (d : dict) (k : bytes) : bool := match assoc k (reps d) with Some _ => true | None => false end.
(** Proxy::operator= and init of a replacement (54-59, 88-98). *)
Definition set_rep (k v : bytes) (d : dict) : dict := let (r, s) := d in Dict ((k, v) :: r) s.
(** Proxy::operator+= (60-65): one more dictionary at the end of a section. *)
Definition add_sect (k : bytes) (x : dict) (d : dict) : dict :=
  let (r, s) := d in Dict r ((k, match assoc k s with Some ds => ds ++ [x] | None => [x] end) :: s).

(** Expander::replace 20-27: the replacement text, from the dictionary or one of its parents. *)
Fixpoint lookup_rep (env : list dict) (k : bytes) : option bytes :=
  match env with [] => None | d :: env => match assoc k (reps d) with Some v => Some v | None => lookup_rep env k end end.
(** Expander::replaceSection 43-50: the dictionaries of a section and the chain of their parents. *)
Fixpoint lookup_sect (env : list dict) (k : bytes) : option (list dict * list dict) :=
  match env with
  | [] => None
  | d :: env' => match assoc k (sects d) with Some (x :: ds) => Some (x :: ds, env) | _ => lookup_sect env' k end
  end.

(** Expander::getC (Expander.hpp:42-50); the assertion is the bounds check. *)
Definition at_ (src : bytes) (i : nat) : outcome ascii := match nth_error src i with Some c => Ok c | None => UB end.
Definition after_backslash (src : bytes) (i : nat) : bool :=
  match i with O => false | S i => match nth_error src i with Some c => Ascii.eqb c backslash | None => false end end.
(** Expander.inl:123: the key, and the index of the closing brace. *)
Fixpoint read_key (fuel : nat) (src : bytes) (i : nat) (key : bytes) : outcome (bytes * nat) :=
  match fuel with
  | O => OutOfFuel
  | S fuel => let! c := at_ src i in if Ascii.eqb c rbrace then Ok (key, i) else read_key fuel src (S i) (key ++ [c])
  end.
(** 166-170: compare the key; [inl]: index after it, [inr]: index of the first difference. *)
Fixpoint match_key (src : bytes) (i : nat) (key : bytes) : outcome (nat + nat) :=
  match key with
  | [] => Ok (inl i)
  | k :: key => let! c := at_ src i in if Ascii.eqb c k then match_key src (S i) key else Ok (inr i)
  end.
(** 152-185: index of the end tag, and of the second of its closing braces. *)
Fixpoint find_end (fuel : nat) (src : bytes) (i : nat) (key : bytes) : outcome (nat * nat) :=
  match fuel with
  | O => OutOfFuel
  | S fuel =>
    let! c := at_ src i in
    if negb (Ascii.eqb c lbrace) then find_end fuel src (S i) key
    else if after_backslash src i then find_end fuel src (S i) key
    else
      let! c1 := at_ src (i + 1) in
      if negb (Ascii.eqb c1 lbrace) then find_end fuel src (S i) key
      else
        let! c2 := at_ src (i + 2) in
        if negb (Ascii.eqb c2 "/"%char) then find_end fuel src (S i) key
        else
          let! m := match_key src (i + 3) key in
          match m with
          | inr j => find_end fuel src (S j) key
          | inl j =>
            let! d1 := at_ src j in
            if negb (Ascii.eqb d1 rbrace) then UB
            else let! d2 := at_ src (j + 1) in if negb (Ascii.eqb d2 rbrace) then UB else Ok (i, j + 1)
          end
  end.
Inductive tag := TNormal | TSection | TSeparator.
Definition slice (src : bytes) (a b : nat) : bytes := firstn (b - a) (skipn a src).
(** Expander::expand (77-192) with replace (20-37) and replaceSection (39-75).  [env] starts with the dictionary itself.
    [bufKey] is always cleared before it is read, so it is not carried around. *)
Fixpoint expand (fuel : nat) (src : bytes) (st : settings) (env : list dict) (separate : bool) (i e : nat)
    (buf : bytes) (found : bool) : outcome (bytes * bool) :=
  match fuel with
  | O => OutOfFuel
  | S fuel =>
    if negb (i <? e) then Ok (buf, found)
    else
      let! c := at_ src i in
      let! special := (if negb (Ascii.eqb c lbrace) then Ok false
                       else if after_backslash src i then Ok false
                       else let! c1 := at_ src (i + 1) in Ok (Ascii.eqb c1 lbrace)) in
      if negb special then expand fuel src st env separate (S i) e (buf ++ [c]) found
      else
        let! c2 := at_ src (i + 2) in
        let (t, k0) := if Ascii.eqb c2 "#"%char then (TSection, i + 3)
                       else if Ascii.eqb c2 "*"%char then (TSeparator, i + 3) else (TNormal, i + 2) in
        let! (key, j) := read_key (S (length src)) src k0 [] in
        let! d := at_ src (j + 1) in
        if negb (Ascii.eqb d rbrace) then UB
        else
          match t with
          | TNormal =>
            match lookup_rep env key with
            | Some v => expand fuel src st env separate (j + 2) e (buf ++ v) true
            | None =>
              let buf := match st with MaintainUnexisting => buf ++ [lbrace; lbrace] ++ key ++ [rbrace; rbrace] | _ => buf end in
              expand fuel src st env separate (j + 2) e buf found
            end
          | TSeparator => expand fuel src st env separate (j + 2) e (if separate then buf ++ key else buf) found
          | TSection =>
            let! d2 := at_ src (j + 2) in
            if Ascii.eqb d2 rbrace then UB
            else
              let cs := j + 2 in
              let! (ce, last) := find_end (S (length src)) src cs key in
              match lookup_sect env key with
              | Some (ds, env') =>
                let! buf := (fix each (ds : list dict) (buf : bytes) : outcome bytes :=
                  match ds with
                  | [] => Ok buf
                  | d :: rest =>
                    let! (buf, _) := expand fuel src st (d :: env') (match rest with [] => false | _ => true end) cs ce buf false in
                    each rest buf
                  end) ds buf in
                expand fuel src st env separate (S last) e buf true
              | None =>
                let buf := match st with
                           | MaintainUnexisting => buf ++ slice src i (S last)
                           | MaintainUnexistingOnlyCnt => buf ++ slice src cs ce
                           | EraseUnexisting => buf
                           end in
                expand fuel src st env separate (S last) e buf found
              end
          end
  end.
(** Dictionary.hpp:190-200; texts of 2^32 characters or more are not modelled (the counter is 32 bits wide). *)
Fixpoint deescape (fuel : nat) (s : bytes) (i : nat) (buf : bytes) : outcome bytes :=
  match fuel with
  | O => OutOfFuel
  | S fuel =>
    if i <? length s - 1
    then
      let! c := at_ s i in
      let! c1 := at_ s (i + 1) in
      let j := if Ascii.eqb c backslash && Ascii.eqb c1 lbrace then i + 1 else i in
      let! x := at_ s j in
      deescape fuel s (S j) (buf ++ [x])
    else let! x := at_ s (length s - 1) in Ok (buf ++ [x])
  end.
(** Dictionary::getExpanded (172-203); [fuel] bounds the number of passes. *)
Fixpoint getExpanded (fuel : nat) (d : dict) (src : bytes) (st : settings) : outcome bytes :=
  match fuel with
  | O => OutOfFuel
  | S fuel =>
    let! (buf, found) := expand (S (length src)) src st [d] false 0 (length src) [] false in
    if found then getExpanded fuel d buf st
    else match buf with [] => Ok [] | _ => deescape (S (length buf)) buf 0 [] end
  end.
