(** Properties of reading and writing JSON (C51-C56, C59, C60, C85). *)
From Coq Require Import String Ascii ZArith NArith Arith Bool Lia List Permutation.
From Coq Require Import Floats.SpecFloat.
From Verif Require Import Common VecSpec IntToStrSpec JsonNumModel JsonModel JsonSpec.
From Verif Require Import JsonProofs JsonReadProofs JsonTextProofs JsonWriteProofs JsonSafeProofs JsonObjProofs.
Import ListNotations.
Local Open Scope Z_scope.

(** C51: every writable value is written, and its text is read back as an equal value, in both writer modes. *)
Theorem C51_round_trip : forall pretty v, writable v -> exists t, getWriteToStr pretty v = Ok t /\
  ((N.of_nat (length t) < 2 ^ 31)%N ->
   exists v', parse_text t = Ok v' /\ same v v' /\ val_eq v v' = Ok true /\ val_eq v' v = Ok true).
Proof. exact round_trip. Qed.
Print Assumptions C51_round_trip.
Definition real_1_5 : double := of_scaled false 15 10 (-1).
Definition sample : jval :=
  JObj [ (lit "a", JArr [JNum (NS (-12)); JNum (NU 7); JBln true; JNll]);
         (lit "b // {", JStr (lit "x y, ]"));
         (lit "c", JObj [(lit "", JNum (NR real_1_5))]) ].
Example C51_sample_writable : writable sample.
Proof.
  assert (P : forall s, forallb (fun c => negb (Ascii.eqb c (ch 34)) && negb (Ascii.eqb c (ch 92))) s = true -> plain s).
  { intros s H. rewrite forallb_forall in H. split; intros I; apply H in I; discriminate. }
  apply w_obj; [|repeat constructor; apply P; reflexivity|cbn; repeat split; intros y Iy; repeat destruct Iy as [<-|Iy]; try contradiction; reflexivity].
  repeat constructor; try (apply P; reflexivity); cbn; try lia; try reflexivity.
  all: try (exists 1; reflexivity).
  all: try (intros y []).
Qed.
Example C51_sample : exists t, getWriteToStr true sample = Ok t /\ parse_text t = Ok (JObj
       [ (lit "a", JArr [JNum (NS (-12)); JNum (NS 7); JBln true; JNll]);
         (lit "b // {", JStr (lit "x y, ]"));
         (lit "c", JObj [(lit "", JNum (NR real_1_5))]) ]).
Proof. eexists. split; [vm_compute; reflexivity|]. vm_compute. reflexivity. Qed.

(** C52: a string with a quote or a backslash is never read back as itself. *)
Theorem C52_unescaped_refuted : forall pretty s, In (ch 34) s \/ In (ch 92) s ->
  exists t, getWriteToStr pretty (JStr s) = Ok t /\ parse_text t <> Ok (JStr s).
Proof. exact unescaped_written. Qed.
Print Assumptions C52_unescaped_refuted.
Example C52_case : In (ch 34) (lit "a" ++ ch 34 :: lit "b").
Proof. right. left. reflexivity. Qed.
(** Different values get the same text; the reader sees an array of two strings, or fails, or runs off the text. *)
Theorem C52_confusion_refuted : exists v w t, v <> w /\ length match v with JArr a => a | _ => [] end = 1%nat /\
  getWriteToStr false v = Ok t /\ getWriteToStr false w = Ok t /\ parse_text t = Ok w.
Proof.
  exists (JArr [JStr (lit "a" ++ ch 34 :: ","%char :: ch 34 :: lit "b")]), (JArr [JStr (lit "a"); JStr (lit "b")]). eexists.
  split; [discriminate|]. split; [reflexivity|].
  split; [vm_compute; reflexivity|]. split; vm_compute; reflexivity.
Qed.
Print Assumptions C52_confusion_refuted.
Theorem C52_failures_refuted :
  (exists t m, getWriteToStr false (JObj [(lit "k" ++ ch 34 :: lit "x" ++ [ch 34], JNll)]) = Ok t /\ parse_text t = Throw m) /\
  (exists t, getWriteToStr false (JStr [ch 92]) = Ok t /\ parse_text t = UB).
Proof.
  split; [do 2 eexists|eexists]; (split; [vm_compute; reflexivity|]); vm_compute; reflexivity.
Qed.
Print Assumptions C52_failures_refuted.

(** C53: blanks and comments outside strings do not change what is read, for texts that can be read without them
    and do not start with a number. *)
Theorem C53_blanks_and_comments : forall t s v, spaced t s -> (N.of_nat (length s) < 2 ^ 31)%N -> not_number t ->
  parse_text t = Ok v -> parse_text s = Ok v.
Proof. exact spaced_same_value. Qed.
Print Assumptions C53_blanks_and_comments.
Example C53_case : let t := lit "[1,{" ++ ch 34 :: lit "a b" ++ ch 34 :: lit ":2}]" in
  let s := lit " [ 1, // one ]" ++ ch 10 :: lit "{" ++ ch 34 :: lit "a b" ++ ch 34 :: ch 9 :: lit " : 2 } ]" ++ [ch 10] in
  spaced t s /\ not_number t /\ parse_text t = Ok (JArr [JNum (NS 1); JObj [(lit "a b", JNum (NS 2))]]).
Proof.
  cbv zeta. split; [|split; [do 2 eexists; split; [reflexivity|]; split; [discriminate|unfold is_digit; cbn; lia]|vm_compute; reflexivity]].
  assert (Pl : forall c t s, negb (existsb (Ascii.eqb c) [ch 34; "/"%char; ch 32; ch 9; ch 13; ch 10]) = true -> spaced t s -> spaced (c :: t) (c :: s)).
  { intros c t s H S. cbn [existsb] in H. rewrite !negb_orb, !andb_true_iff, !negb_true_iff, !Ascii.eqb_neq in H.
    apply sp_char; [tauto|tauto| |exact S]. unfold blank. tauto. }
  assert (Bl : forall c t s, existsb (Ascii.eqb c) [ch 32; ch 9; ch 13; ch 10] = true -> spaced t s -> spaced t (c :: s)).
  { intros c t s H S. cbn [existsb] in H. rewrite !orb_true_iff, !Ascii.eqb_eq in H. apply sp_blank; [|exact S]. unfold blank. intuition discriminate. }
  cbn [lit list_ascii_of_string app].
  repeat first [apply Bl; [reflexivity|] | apply Pl; [reflexivity|]].
  apply (sp_comment (lit " one ]")).
  { vm_compute. intuition discriminate. }
  repeat first [apply Bl; [reflexivity|] | apply Pl; [reflexivity|]].
  apply (sp_string (lit "a b") (lit "a b")).
  - repeat (apply sb_char; [discriminate|discriminate|]). constructor.
  - intros r E. apply (f_equal (@rev ascii)) in E. rewrite rev_app_distr in E. discriminate.
  - repeat first [apply Bl; [reflexivity|] | apply Pl; [reflexivity|]]. constructor.
Qed.
(** Readability without the blanks cannot be dropped: what purging leaves behind may complete a broken text. *)
Theorem C53_leftovers_refuted : exists t s m v, spaced t s /\ not_number t /\ parse_text t = Throw m /\ parse_text s = Ok v.
Proof.
  exists (lit "[1"), (lit "//]" ++ ch 10 :: lit "[1"). do 2 eexists. split; [|split; [|split; vm_compute; reflexivity]].
  - apply (sp_comment (lit "]")); [vm_compute; intuition discriminate|].
    apply sp_char; [discriminate|discriminate|intros [E|[E|[E|E]]]; discriminate|].
    apply sp_char; [discriminate|discriminate|intros [E|[E|[E|E]]]; discriminate|constructor].
  - do 2 eexists. split; [reflexivity|]. split; [discriminate|]. unfold is_digit. cbn. lia.
Qed.
Print Assumptions C53_leftovers_refuted.

(** C54: k blanks before a top-level number append its last k digits to it. *)
Theorem C54_leading_blanks_refuted : forall ds k, ds <> [] -> Forall is_digit ds -> (0 < k <= length ds)%nat ->
  (N.of_nat (length ds) < 2 ^ 30)%N -> 0 < digits_value ds -> digits_value (ds ++ skipn (length ds - k) ds) <= 2 ^ 53 ->
  exists z, parse_text (repeat (ch 32) k ++ ds) = Ok (JNum (NS z)) /\ z = digits_value (ds ++ skipn (length ds - k) ds) /\
    digits_value ds < z /\ parse_text ds = Ok (JNum (NS (digits_value ds))).
Proof. exact stale_wrong. Qed.
Print Assumptions C54_leading_blanks_refuted.
Example C54_case : parse_text (lit " 12") = Ok (JNum (NS 122)) /\ parse_text (lit "1 2") = Ok (JNum (NS 122)).
Proof. split; vm_compute; reflexivity. Qed.

(** C55.  The purge pass stays in bounds and yields the text without blanks and comments, in front of leftovers. *)
Theorem C55_purge : forall t s, spaced t s -> purge (length s) s 0 0 = Ok (t ++ skipn (length t) s, length t).
Proof. exact purge_spaced. Qed.
Print Assumptions C55_purge.
(** Reading a non-empty text that has no blanks outside strings and whose strings, comments and numbers are proper
    ends with a value or a read error. *)
Theorem C55_safe : forall s, s <> [] -> numbers_fit s -> spaced s s -> (N.of_nat (length s) < 2 ^ 31)%N ->
  (exists v, parse_text s = Ok v) \/ exists m, parse_text s = Throw m.
Proof. exact compact_safe. Qed.
Print Assumptions C55_safe.
Example C55_case : let s := lit "{" ++ ch 34 :: lit "a" ++ [ch 34] in s <> [] /\ numbers_fit s /\ spaced s s /\ exists m, parse_text s = Throw m.
Proof.
  cbv zeta. split; [discriminate|]. split; [|split].
  - intros a b E _ (c & r & Eb & Hc). exfalso. subst b.
    assert (I : In c (lit "{" ++ ch 34 :: lit "a" ++ [ch 34])) by (rewrite E; apply in_or_app; right; left; reflexivity).
    vm_compute in I. unfold is_digit in Hc. repeat destruct I as [<-|I]; try contradiction; destruct Hc as [Hc|Hc]; try discriminate; vm_compute in Hc; intuition congruence.
  - apply sp_char; [discriminate|discriminate|intros [E|[E|[E|E]]]; discriminate|].
    apply (sp_string (lit "a") (lit "a") [] []); [apply sb_char; [discriminate|discriminate|constructor]| |constructor].
    intros r E. apply (f_equal (@rev ascii)) in E. rewrite rev_app_distr in E. discriminate.
  - eexists. vm_compute. reflexivity.
Qed.
(** Every read ends. *)
Theorem C55_terminates : forall s, parse_text s <> OutOfFuel.
Proof. exact parse_text_terminates. Qed.
Print Assumptions C55_terminates.
(** Out of bounds or otherwise undefined: an unterminated string; a string ending in an escaped backslash; a comment
    without newline; the escape \u; a number beyond the range of long; an empty text; a broken text after a comment. *)
Theorem C55_refuted :
  parse_text [ch 34] = UB /\
  parse_text (ch 34 :: lit "\\" ++ [ch 34]) = UB /\
  parse_text (lit "[]//") = UB /\
  parse_text (ch 34 :: ch 92 :: lit "u0041" ++ [ch 34]) = UB /\
  parse_text (lit "1e19") = UB /\
  parse_text [] = UB /\
  parse_text (lit "//,1,1,1,1?" ++ ch 10 :: lit "[1") = UB.
Proof. repeat split; vm_compute; reflexivity. Qed.
Print Assumptions C55_refuted.

(** C56: neither symmetric nor transitive, and undefined for some pairs. *)
Theorem C56_refuted :
  (exists a b, num_eq a b = Ok true /\ num_eq b a = Ok false) /\
  (exists a b c, num_eq a b = Ok true /\ num_eq b c = Ok true /\ num_eq a c = Ok false) /\
  (exists x y, x <> y /\ num_eq (NU x) (NS y) = Ok true) /\
  (exists a b, num_eq a b = UB).
Proof.
  split; [|split; [|split]].
  - exists (NS 1), (NR real_1_5). split; vm_compute; reflexivity.
  - exists (NS (2 ^ 53)), (NR (of_int (2 ^ 53))), (NS (2 ^ 53 + 1)). repeat split; vm_compute; reflexivity.
  - exists (2 ^ 64 - 1), (-1). split; [discriminate|vm_compute; reflexivity].
  - exists (NU 1), (NR (of_int (-1))). vm_compute. reflexivity.
Qed.
Print Assumptions C56_refuted.
(** It is an equivalence among numbers of the same representation (NaN apart). *)
Theorem C56_same_representation : forall a b c, same_repr a b -> same_repr b c ->
  (a <> NR S754_nan -> num_eq a a = Ok true) /\ num_eq a b = num_eq b a /\
  (num_eq a b = Ok true -> num_eq b c = Ok true -> num_eq a c = Ok true).
Proof. exact num_eq_repr. Qed.
Print Assumptions C56_same_representation.
(** And it decides equality of integers up to 2^53 in all representations, except that an unsigned number must not
    be compared with a negative real. *)
Theorem C56_integers : forall x y m n, Z.abs x <= 2 ^ 53 -> Z.abs y <= 2 ^ 53 -> holds x m -> holds y n ->
  (forall u, m = NU u -> n = NR (of_int y) -> 0 <= y) -> num_eq m n = Ok (x =? y).
Proof. exact same_number_eq. Qed.
Print Assumptions C56_integers.
Example C56_case : num_eq (NU 7) (NS 7) = Ok true /\ num_eq (NR (of_int 7)) (NU 7) = Ok true /\ num_eq (NS 7) (NR (of_int 8)) = Ok false.
Proof. repeat split; vm_compute; reflexivity. Qed.

(** C59: the object read has one entry per key, with the value the key has last in the text. *)
Theorem C59_last_wins : forall ms s, Forall (fun m => denotes (m_text m) (m_val m)) ms ->
  Forall (fun m => string_body (m_raw m) (m_key m) /\ no_final_backslash (m_raw m)) ms ->
  spaced ("{"%char :: join (map member_text ms) ++ ["}"%char]) s -> (N.of_nat (length s) < 2 ^ 31)%N ->
  exists o, parse_text s = Ok (JObj o) /\ ordered (fun p q => bytes_ltb (fst p) (fst q) = true) o /\
    forall k v, In (k, v) o <-> last_of k (map (fun m => (m_key m, m_val m)) ms) = Some v.
Proof. exact object_read. Qed.
Print Assumptions C59_last_wins.
Example C59_case : let q := [ch 34] in
  parse_text (lit "{" ++ q ++ lit "b" ++ q ++ lit ":1," ++ q ++ lit "a" ++ q ++ lit ":2, " ++ q ++ lit "b" ++ q ++ lit ":3}")
  = Ok (JObj [(lit "a", JNum (NS 2)); (lit "b", JNum (NS 3))]).
Proof. vm_compute. reflexivity. Qed.
(** Texts that list the same distinct keys in different orders are read as the same value, with all entries. *)
Theorem C59_order_irrelevant : forall ms ms' s s', Forall (fun m => denotes (m_text m) (m_val m)) ms ->
  Forall (fun m => string_body (m_raw m) (m_key m) /\ no_final_backslash (m_raw m)) ms ->
  NoDup (map m_key ms) -> Permutation ms ms' ->
  spaced ("{"%char :: join (map member_text ms) ++ ["}"%char]) s -> (N.of_nat (length s) < 2 ^ 31)%N ->
  spaced ("{"%char :: join (map member_text ms') ++ ["}"%char]) s' -> (N.of_nat (length s') < 2 ^ 31)%N ->
  exists o, parse_text s = Ok (JObj o) /\ parse_text s' = Ok (JObj o) /\ length o = length ms.
Proof. exact object_order. Qed.
Print Assumptions C59_order_irrelevant.

(** C60: good texts report success and replace the target whatever it was. *)
Theorem C60_success : forall old t s v, denotes t v -> spaced t s -> (N.of_nat (length s) < 2 ^ 31)%N ->
  not_number t \/ t = s -> readFromStr old s = Ok (true, v).
Proof. exact read_good. Qed.
Print Assumptions C60_success.
(** Every defined outcome is a success that does not depend on the target, or a failure that leaves it unchanged. *)
Theorem C60_result : forall old s, readFromStr old s = UB \/
  (exists v, readFromStr old s = Ok (true, v) /\ forall old', readFromStr old' s = Ok (true, v)) \/
  readFromStr old s = Ok (false, old).
Proof. exact read_result. Qed.
Print Assumptions C60_result.
Example C60_case : let old := JArr [JNum (NS 5)] in
  readFromStr old (lit "[1,]") = Ok (false, old) /\ readFromStr old (lit "[1,2]") = Ok (true, JArr [JNum (NS 1); JNum (NS 2)]).
Proof. split; vm_compute; reflexivity. Qed.
(** The convenience constructor hides the failure: broken text gives the value of the text null. *)
Theorem C60_hidden_failure_refuted : exists s, readFromStr JNll s = Ok (false, JNll) /\
  fromStr s = fromStr (lit "null") /\ readFromStr JNll (lit "null") = Ok (true, JNll).
Proof. exists (lit "{1}"). repeat split; vm_compute; reflexivity. Qed.
Print Assumptions C60_hidden_failure_refuted.

(** C85: a standard JSON text, with blanks and comments, is read as the value it stands for. *)
Theorem C85_reader_correct : forall t s v, denotes t v -> spaced t s -> (N.of_nat (length s) < 2 ^ 31)%N ->
  not_number t \/ t = s -> parse_text s = Ok v.
Proof. exact denoted_spaced. Qed.
Print Assumptions C85_reader_correct.
Example C85_case : denotes (lit "[-25e-1,[],null]") (JArr [JNum (NR (of_scaled true 25 10 (-1))); JArr []; JNll]).
Proof.
  apply (d_array [lit "-25e-1"; lit "[]"; lit "null"]). repeat constructor.
  - apply (d_number _ true 25 (-1)).
    + exists (lit "25"), [], [], (lit "e-1"), (-1). repeat split; auto.
      * discriminate.
      * repeat constructor; unfold is_digit; cbn; lia.
      * right. exists "e"%char, ["-"%char], (lit "1"). repeat split; auto; [discriminate|repeat constructor; unfold is_digit; cbn; lia].
    + apply (fractional true 25 (-1) (-2)); [vm_compute; reflexivity|vm_compute; intuition discriminate|vm_compute; reflexivity].
  - apply (d_array [] []). constructor.
Qed.
