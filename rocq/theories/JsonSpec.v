(** What JSON texts mean, independent of the reader and writer. *)
From Coq Require Import String Ascii ZArith NArith Arith Bool Lia List.
From Coq Require Import Floats.SpecFloat.
From Verif Require Import Common VecSpec IntToStrSpec JsonNumModel JsonModel.
Import ListNotations.
Local Open Scope Z_scope.

(** ** Numbers *)
(** An exponent part and its value. *)
Definition exponent_text (t : bytes) (v : Z) : Prop :=
  (t = [] /\ v = 0) \/
  exists c sg ds, t = c :: sg ++ ds /\ (c = "e"%char \/ c = "E"%char) /\ ds <> [] /\ Forall is_digit ds /\
    ((sg = [] /\ v = digits_value ds) \/ (sg = ["+"%char] /\ v = digits_value ds) \/
     (sg = ["-"%char] /\ v = - digits_value ds)).
(** [t] is a JSON number with the exact value (-1)^neg * m * 10^e (superfluous leading zeros allowed). *)
Definition number_text (t : bytes) (neg : bool) (m e : Z) : Prop :=
  exists ip frac fp ex ev,
    t = (if neg then ["-"%char] else []) ++ ip ++ frac ++ ex /\
    ip <> [] /\ Forall is_digit ip /\
    ((frac = [] /\ fp = []) \/ (frac = "."%char :: fp /\ fp <> [] /\ Forall is_digit fp)) /\
    exponent_text ex ev /\ m = digits_value (ip ++ fp) /\ e = ev - Z.of_nat (length fp).
(** m * 10^e is the whole number k. *)
Definition scaled_is (m e k : Z) : Prop := if 0 <=? e then m * 10 ^ e = k else m = k * 10 ^ (- e).
(** The number stored for it.  Whole numbers up to 2^53 are stored exactly.  All others become the nearest
    double ([of_scaled], the IEEE rounding of Coq's [SpecFloat]), stored as an integer when it is whole; doubles
    outside the range of [long] have no stored number. *)
Inductive number_means (neg : bool) (m e : Z) : num -> Prop :=
| whole : forall k, scaled_is m e k -> k <= 2 ^ 53 -> number_means neg m e (NS (if neg then - k else k))
| rounded_whole : forall z, truncate (of_scaled neg m 10 e) = Some z -> LONG_MIN <= z <= LONG_MAX ->
    SFeqb (of_int z) (of_scaled neg m 10 e) = true -> number_means neg m e (NS z)
| fractional : forall z, truncate (of_scaled neg m 10 e) = Some z -> LONG_MIN <= z <= LONG_MAX ->
    SFeqb (of_int z) (of_scaled neg m 10 e) = false -> number_means neg m e (NR (of_scaled neg m 10 e)).

(** ** Strings *)
(** Escape letters of JSON, without [\u]. *)
Definition escapes : list (ascii * ascii) :=
  [(ch 34, ch 34); (ch 92, ch 92); ("/"%char, "/"%char); ("b"%char, ch 8); ("f"%char, ch 12);
   ("n"%char, ch 10); ("r"%char, ch 13); ("t"%char, ch 9)].
(** The characters between the quotes and the string they stand for. *)
Inductive string_body : bytes -> bytes -> Prop :=
| sb_end : string_body [] []
| sb_char : forall c r d, c <> ch 34 -> c <> ch 92 -> string_body r d -> string_body (c :: r) (c :: d)
| sb_escape : forall l c r d, In (l, c) escapes -> string_body r d -> string_body (ch 92 :: l :: r) (c :: d).
(** The limitation of the reader: the text between the quotes must not end in a backslash. *)
Definition no_final_backslash (r : bytes) : Prop := forall r', r <> r' ++ [ch 92].

(** ** Values *)
Fixpoint join (ts : list bytes) : bytes :=
  match ts with [] => [] | [t] => t | t :: ts => t ++ ","%char :: join ts end.
(** The value of the last entry with key [k]. *)
Fixpoint last_of (k : bytes) (l : list (bytes * jval)) : option jval :=
  match l with
  | [] => None
  | (j, v) :: l => match last_of k l with Some w => Some w | None => if bytes_eqb j k then Some v else None end
  end.
(** The object with these entries: one entry per key, in key order. *)
Definition object_of (l o : list (bytes * jval)) : Prop :=
  ordered (fun p q => bytes_ltb (fst p) (fst q) = true) o /\ forall k v, In (k, v) o <-> last_of k l = Some v.
Record member := { m_raw : bytes; m_key : bytes; m_text : bytes; m_val : jval }.
Definition member_text (m : member) : bytes := ch 34 :: m_raw m ++ ch 34 :: ":"%char :: m_text m.
(** JSON texts without blanks, and the value they stand for. *)
Inductive denotes : bytes -> jval -> Prop :=
| d_null : denotes (lit "null") JNll
| d_true : denotes (lit "true") (JBln true)
| d_false : denotes (lit "false") (JBln false)
| d_number : forall t neg m e n, number_text t neg m e -> number_means neg m e n -> denotes t (JNum n)
| d_string : forall r d, string_body r d -> no_final_backslash r -> denotes (ch 34 :: r ++ [ch 34]) (JStr d)
| d_array : forall ts vs, Forall2 denotes ts vs -> denotes ("["%char :: join ts ++ ["]"%char]) (JArr vs)
| d_object : forall ms o, Forall (fun m => denotes (m_text m) (m_val m)) ms ->
    Forall (fun m => string_body (m_raw m) (m_key m) /\ no_final_backslash (m_raw m)) ms ->
    object_of (map (fun m => (m_key m, m_val m)) ms) o ->
    denotes ("{"%char :: join (map member_text ms) ++ ["}"%char]) (JObj o).

(** ** Blanks and comments *)
Definition blank (c : ascii) : Prop := c = ch 32 \/ c = ch 9 \/ c = ch 13 \/ c = ch 10.
(** [spaced t s]: [s] is [t] (which has no blanks outside strings) with blanks and line comments put in
    anywhere outside strings. *)
Inductive spaced : bytes -> bytes -> Prop :=
| sp_end : spaced [] []
| sp_blank : forall c t s, blank c -> spaced t s -> spaced t (c :: s)
| sp_comment : forall body t s, ~ In (ch 10) body -> spaced t s -> spaced t (lit "//" ++ body ++ ch 10 :: s)
| sp_string : forall r d t s, string_body r d -> no_final_backslash r -> spaced t s ->
    spaced (ch 34 :: r ++ ch 34 :: t) (ch 34 :: r ++ ch 34 :: s)
| sp_char : forall c t s, c <> ch 34 -> c <> "/"%char -> ~ blank c -> spaced t s -> spaced (c :: t) (c :: s).
(** The text does not start with a number. *)
Definition not_number (t : bytes) : Prop := exists c r, t = c :: r /\ c <> "-"%char /\ ~ is_digit c.

(** ** Equality of values as data: same shape, strings and keys; numbers of equal value. *)
Inductive same_num : num -> num -> Prop :=
| sn_ss : forall z, same_num (NS z) (NS z)
| sn_us : forall z, same_num (NU z) (NS z)
| sn_rr : forall f, same_num (NR f) (NR f)
| sn_rs : forall f z, truncate f = Some z -> SFeqb (of_int z) f = true -> same_num (NR f) (NS z).
Inductive same : jval -> jval -> Prop :=
| s_null : same JNll JNll
| s_bln : forall x, same (JBln x) (JBln x)
| s_str : forall s, same (JStr s) (JStr s)
| s_num : forall m n, same_num m n -> same (JNum m) (JNum n)
| s_arr : forall a b, Forall2 same a b -> same (JArr a) (JArr b)
| s_obj : forall o p, map fst o = map fst p -> Forall2 same (map snd o) (map snd p) -> same (JObj o) (JObj p).

(** ** Values the writer can represent *)
Definition plain (s : bytes) : Prop := ~ In (ch 34) s /\ ~ In (ch 92) s.
Definition writable_num (n : num) : Prop :=
  match n with
  | NS z => Z.abs z <= 2 ^ 53
  | NU z => 0 <= z <= 2 ^ 53
  | NR f => strtod (print_double f) = (f, []) /\ exists z, double_to_long f = Ok z
  end.
Inductive writable : jval -> Prop :=
| w_null : writable JNll
| w_bln : forall x, writable (JBln x)
| w_str : forall s, plain s -> writable (JStr s)
| w_num : forall n, writable_num n -> writable (JNum n)
| w_arr : forall a, Forall writable a -> writable (JArr a)
| w_obj : forall o, Forall writable (map snd o) -> Forall plain (map fst o) ->
    ordered (fun p q => bytes_ltb (fst p) (fst q) = true) o -> writable (JObj o).

(** ** Ranges *)
(** Wherever a number starts outside a string, its value fits a [long]. *)
Definition numbers_fit (s : bytes) : Prop := forall a b, s = a ++ b -> spaced b b ->
  (exists c r, b = c :: r /\ (c = "-"%char \/ is_digit c)) -> exists z, double_to_long (fst (strtod b)) = Ok z.
(** The stored numbers that hold the integer [z]. *)
Inductive holds (z : Z) : num -> Prop :=
| h_s : holds z (NS z)
| h_u : 0 <= z -> holds z (NU z)
| h_r : holds z (NR (of_int z)).

(** Numbers of the same representation. *)
Definition same_repr (a b : num) : Prop :=
  match a, b with NS _, NS _ | NU _, NU _ | NR _, NR _ => True | _, _ => False end.
