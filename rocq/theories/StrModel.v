(** Model of the std::string operations the library relies on (external, part of the trusted base)
    and of include/SSVUtils/Core/String/Utils.hpp:104-235. *)
From Coq Require Import String Ascii ZArith NArith Arith Bool Lia List.
From Verif Require Import Common.
Import ListNotations.

(** Does [s] start with [p]? ([s.compare(0, p.size(), p) == 0] with [p.size() <= s.size()].) *)
Fixpoint prefixb (p s : bytes) : bool :=
  match p, s with
  | [], _ => true
  | x :: p', y :: s' => Ascii.eqb x y && prefixb p' s'
  | _ :: _, [] => false
  end.

(** [std::string::find(p, start)]: [None] is [npos]. *)
Fixpoint find_aux (p s : bytes) (i : nat) : option nat :=
  if prefixb p s then Some i
  else match s with [] => None | _ :: r => find_aux p r (S i) end.
Definition find (p s : bytes) (start : nat) : option nat :=
  if start <=? length s then find_aux p (skipn start s) start else None.

(** [std::string::substr(pos, n)] and the constructor from (string, pos, n): throws when [pos] is
    past the end, clamps [n]. *)
Definition substr (s : bytes) (pos n : nat) : outcome bytes :=
  if pos <=? length s then Ok (firstn n (skipn pos s)) else Throw "out_of_range".

(** [std::string::replace(pos, n, to)] for [pos <= size]. *)
Definition str_replace (s : bytes) (pos n : nat) (to : bytes) : bytes :=
  firstn pos s ++ to ++ skipn (pos + n) s.

(** Utils.hpp:109-115 (and 198-203 [getReplaced]). *)
Definition replace (s from to : bytes) : bytes :=
  match find from s 0 with
  | None => s
  | Some pos => str_replace s pos (length from) to
  end.

(** Utils.hpp:122-128 (and 212-217 [getReplacedAll]); each iteration searches from the start. *)
Fixpoint replaceAll (fuel : nat) (s from to : bytes) : outcome bytes :=
  match fuel with
  | O => OutOfFuel
  | S fuel' =>
      match find from s 0 with
      | None => Ok s
      | Some pos => replaceAll fuel' (str_replace s pos (length from) to) from to
      end
  end.

(** Utils.hpp:134-139: size test, then [compare] of the leading [mStart.size()] characters. *)
Definition beginsWith (s x : bytes) : bool :=
  (length x <=? length s) && bytes_eqb (firstn (length x) s) x.
(** Utils.hpp:145-148. *)
Definition beginsWithChar (s : bytes) (c : ascii) : bool :=
  match s with [] => false | d :: _ => Ascii.eqb d c end.
(** Utils.hpp:154-160. The subtraction is only evaluated when it does not wrap; [compare] throws when
    its position is past the end, which is kept as an outcome. *)
Definition endsWith (s x : bytes) : outcome bool :=
  if length x <=? length s then
    obind (substr s (length s - length x) (length x)) (fun t => Ok (bytes_eqb t x))
  else Ok false.
(** Utils.hpp:166-169: [back()] of an empty string would be UB. *)
Definition endsWithChar (s : bytes) (c : ascii) : outcome bool :=
  match s with
  | [] => Ok false
  | _ => match nth_error s (length s - 1) with Some d => Ok (Ascii.eqb d c) | None => UB end
  end.

(** [std::tolower]/[std::toupper] in the "C" locale. Passing a negative [char] is UB in C++; the model
    covers it as the identity, as glibc does. *)
Definition char_lower (c : ascii) : ascii :=
  let n := N_of_ascii c in if ((65 <=? n) && (n <=? 90))%N then ch (n + 32) else c.
Definition char_upper (c : ascii) : ascii :=
  let n := N_of_ascii c in if ((97 <=? n) && (n <=? 122))%N then ch (n - 32) else c.
(** Utils.hpp:175-189. *)
Definition toLower (s : bytes) : bytes := map char_lower s.
Definition toUpper (s : bytes) : bytes := map char_upper s.

(** Utils.hpp:224-235. *)
Definition getCharCount (s : bytes) (c : ascii) : nat :=
  fold_left (fun n d => if Ascii.eqb d c then S n else n) s 0.
Definition getNewLinesCount (s : bytes) : nat := getCharCount s (ch 10).

(** include/SSVUtils/Core/String/Internal/SplitHelper.hpp:64-93, modes of Enums.hpp. *)
Inductive split_mode := Normal | TrailingSeparator | TokenizeSeparator.

Definition push_nonempty (t : bytes) (acc : list bytes) : list bytes :=
  match t with [] => acc | _ => acc ++ [t] end.

(** One separator (char, string or literal without embedded NUL). The size_t subtraction [pos - 1]
    wraps to 2^64-1 when [pos = 0]; the string constructor then throws out_of_range. *)
Fixpoint split1_loop (fuel : nat) (m : split_mode) (s sep : bytes) (startAt : nat)
    (acc : list bytes) : outcome (list bytes) :=
  match fuel with
  | O => OutOfFuel
  | S fuel' =>
      match find sep s startAt with
      | Some pos =>
          let tokenLength := pos - startAt +
            match m with TrailingSeparator => length sep | _ => 0 end in
          obind (substr s startAt tokenLength) (fun token =>
          let acc := push_nonempty token acc in
          obind (match m with
                 | TokenizeSeparator =>
                     match pos with
                     | O => Throw "out_of_range"
                     | S pos' => obind (substr s pos' (length sep)) (fun t => Ok (acc ++ [t]))
                     end
                 | _ => Ok acc
                 end) (fun acc =>
          split1_loop fuel' m s sep (pos + length sep) acc))
      | None =>
          obind (substr s startAt (length s - startAt)) (fun r => Ok (push_nonempty r acc))
      end
  end.
Definition split1 (fuel : nat) (m : split_mode) (s sep : bytes) : outcome (list bytes) :=
  split1_loop fuel m s sep 0 [].

(** SplitHelper.hpp:17-31 [findFirstOf]: position and length of the earliest separator; ties go to
    the first listed because the comparison is strict. *)
Fixpoint findFirstOf (s : bytes) (startAt : nat) (seps : list bytes)
    (result : option (nat * nat)) : option (nat * nat) :=
  match seps with
  | [] => result
  | x :: r =>
      let result' := match find x s startAt, result with
                     | Some t, None => Some (t, length x)
                     | Some t, Some (best, _) => if t <? best then Some (t, length x) else result
                     | None, _ => result
                     end in
      findFirstOf s startAt r result'
  end.

(** SplitHelper.hpp:125-153, several separators. *)
Fixpoint splitN_loop (fuel : nat) (m : split_mode) (s : bytes) (seps : list bytes) (startAt : nat)
    (acc : list bytes) : outcome (list bytes) :=
  match fuel with
  | O => OutOfFuel
  | S fuel' =>
      match findFirstOf s startAt seps None with
      | Some (pos, lastLength) =>
          let tokenLength := pos - startAt +
            match m with TrailingSeparator => lastLength | _ => 0 end in
          obind (substr s startAt tokenLength) (fun token =>
          let acc := push_nonempty token acc in
          obind (match m with
                 | TokenizeSeparator => obind (substr s pos lastLength) (fun t => Ok (acc ++ [t]))
                 | _ => Ok acc
                 end) (fun acc =>
          splitN_loop fuel' m s seps (pos + lastLength) acc))
      | None =>
          obind (substr s startAt (length s - startAt)) (fun r => Ok (push_nonempty r acc))
      end
  end.
Definition splitN (fuel : nat) (m : split_mode) (s : bytes) (seps : list bytes) : outcome (list bytes) :=
  splitN_loop fuel m s seps 0 [].
