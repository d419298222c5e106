(** Property theorems C12 - C19 and C81 (strings). *)
From Coq Require Import String Ascii ZArith NArith Arith Bool Lia List.
From Verif Require Import Common StrModel StrSpec StrProofs.
Import ListNotations.

(** C12. *)
Theorem C12_replace_first : forall s from to,
  (~ occurs from s -> replace s from to = s) /\
  (occurs from s -> exists p q, leftmost from s p q /\ replace s from to = p ++ to ++ q).
Proof. exact replace_spec. Qed.
Print Assumptions C12_replace_first.
Example C12_example : replace (lit "abcabc") (lit "bc") (lit "X") = lit "aXabc" /\
  replace (lit "abc") (lit "x") (lit "X") = lit "abc".
Proof. vm_compute. split; reflexivity. Qed.

(** C13. Whenever the call returns, the pattern is gone. *)
Theorem C13_replaceAll_removes : forall fuel s from to r,
  replaceAll fuel s from to = Ok r -> ~ occurs from r.
Proof. exact replaceAll_clean. Qed.
Print Assumptions C13_replaceAll_removes.

(** C13. It returns for every string when the replacement is shorter. *)
Theorem C13_replaceAll_shorter_returns : forall from to, length to < length from ->
  forall fuel s, length s < fuel -> exists r, replaceAll fuel s from to = Ok r.
Proof. exact replaceAll_shorter. Qed.
Print Assumptions C13_replaceAll_shorter_returns.
Example C13_example_shorter : replaceAll 10 (lit "a////b//") (lit "//") (lit "/") = Ok (lit "a/b/").
Proof. vm_compute. reflexivity. Qed.

(** C13. One-character pattern not in the replacement: every such character is substituted. *)
Theorem C13_replaceAll_char : forall s c to fuel, ~ In c to -> length s < fuel ->
  replaceAll fuel s [c] to = Ok (flat_map (fun x => if Ascii.eqb x c then to else [x]) s).
Proof. exact replaceAll_one'. Qed.
Print Assumptions C13_replaceAll_char.
Example C13_example_char : replaceAll 10 (lit "a\b\") (lit "\") (lit "/") = Ok (lit "a/b/").
Proof. vm_compute. reflexivity. Qed.

(** C13. Pattern and non-empty replacement without a common character: the call returns the
    left-to-right replacement of the non-overlapping occurrences. *)
Theorem C13_replaceAll_standard : forall s from to, from <> [] -> to <> [] ->
  (forall c, In c from -> ~ In c to) ->
  exists r, replaced from to s r /\ forall fuel, length s < fuel -> replaceAll fuel s from to = Ok r.
Proof. exact replaceAll_disjoint. Qed.
Print Assumptions C13_replaceAll_standard.
Example C13_example_standard : replaceAll 10 (lit "aaaxaa") (lit "aa") (lit "longer") = Ok (lit "longeraxlonger").
Proof. vm_compute. reflexivity. Qed.

(** C14. *)
Theorem C14_replaceAll_diverges : forall from to, occurs from to -> forall fuel s, occurs from s ->
  replaceAll fuel s from to = OutOfFuel.
Proof. exact replaceAll_diverges. Qed.
Print Assumptions C14_replaceAll_diverges.
Example C14_example : occurs (lit "a") (lit "bab") /\ occurs (lit "a") (lit "cat") /\ occurs [] (lit "x") /\
  replaceAll 30 (lit "cat") (lit "a") (lit "bab") = OutOfFuel.
Proof.
  split; [exists (lit "b"), (lit "b"); reflexivity|].
  split; [exists (lit "c"), (lit "t"); reflexivity|].
  split; [exists [], (lit "x"); reflexivity|]. vm_compute. reflexivity.
Qed.

(** C15. *)
Theorem C15_split : forall s sep, sep <> [] -> exists ps,
  pieces sep s ps /\ join sep ps = s /\ Forall (fun p => ~ occurs sep p) ps /\
  forall fuel, length s < fuel -> split1 fuel Normal s sep = Ok (filter nonempty ps).
Proof. exact split_normal_spec. Qed.
Print Assumptions C15_split.
Example C15_example : split1 20 Normal (lit "--a-b---c-") (lit "-") = Ok [lit "a"; lit "b"; lit "c"] /\
  split1 20 Normal (lit "xabaab") (lit "ab") = Ok [lit "x"; lit "a"].
Proof. vm_compute. split; reflexivity. Qed.

(** C15. An empty separator never terminates, in either mode that keeps or drops separators. *)
Theorem C15_split_empty_separator_diverges : forall m fuel s, m <> TokenizeSeparator ->
  split1 fuel m s [] = OutOfFuel.
Proof. exact split1_empty_sep. Qed.
Print Assumptions C15_split_empty_separator_diverges.

(** C16. Several separators, all three modes. *)
Theorem C16_split_many : forall s seps, ~ In [] seps -> exists l lst,
  cuts seps s l lst /\
  concat (map (fun ps => fst ps ++ snd ps) l) ++ lst = s /\
  Forall (fun ps => (forall x, In x seps -> ~ occurs x (fst ps)) /\ In (snd ps) seps) l /\
  (forall x, In x seps -> ~ occurs x lst) /\
  forall fuel, length s < fuel ->
    splitN fuel Normal s seps = Ok (filter nonempty (map fst l ++ [lst])) /\
    splitN fuel TrailingSeparator s seps = Ok (filter nonempty (map (fun ps => fst ps ++ snd ps) l ++ [lst])) /\
    splitN fuel TokenizeSeparator s seps = Ok (filter nonempty (flat_map (fun ps => [fst ps; snd ps]) l ++ [lst])).
Proof. exact splitN_spec. Qed.
Print Assumptions C16_split_many.
Example C16_example : splitN 20 TokenizeSeparator (lit "a==b=+c") [lit "="; lit "=="; lit "+"]
  = Ok [lit "a"; lit "="; lit "="; lit "b"; lit "="; lit "+"; lit "c"] /\
  splitN 20 TrailingSeparator (lit "a==b=+c") [lit "=="; lit "="; lit "+"]
  = Ok [lit "a=="; lit "b="; lit "+"; lit "c"].
Proof. vm_compute. split; reflexivity. Qed.

(** C17. Trailing mode, one separator: every token but possibly the last is a piece with its
    separator, and nothing at all is lost. *)
Theorem C17_split_trailing : forall s sep, sep <> [] -> exists ps ts,
  pieces sep s ps /\
  (forall fuel, length s < fuel -> split1 fuel TrailingSeparator s sep = Ok ts) /\
  concat ts = s /\
  exists r, ts = map (fun p => p ++ sep) (removelast ps) ++ r /\ (r = [] \/ r = [last ps []]).
Proof. exact split_trailing_spec. Qed.
Print Assumptions C17_split_trailing.
Example C17_example : split1 20 TrailingSeparator (lit "--a-b") (lit "-")
  = Ok [lit "-"; lit "-"; lit "a-"; lit "b"].
Proof. vm_compute. reflexivity. Qed.

(** C18. Tokenize mode with one separator, refuted in general: a leading separator throws ... *)
Theorem C18_tokenize_leading_throws : forall sep q fuel,
  split1 (S fuel) TokenizeSeparator (sep ++ q) sep = Throw "out_of_range".
Proof. exact split1_tok_throw. Qed.
Print Assumptions C18_tokenize_leading_throws.
(** ... and otherwise the separator token is the window shifted one character to the left. *)
Theorem C18_tokenize_shifted_refuted : forall sep s p' c q fuel, sep <> [] -> leftmost sep s (p' ++ [c]) q ->
  forall ts, split1 fuel TokenizeSeparator s sep = Ok ts ->
  exists rest, ts = (p' ++ [c]) :: (c :: removelast sep) :: rest.
Proof. exact split1_tok_wrong. Qed.
Print Assumptions C18_tokenize_shifted_refuted.
Example C18_example : split1 20 TokenizeSeparator (lit "ab<>cd") (lit "<>") = Ok [lit "ab"; lit "b<"; lit "cd"] /\
  splitN 20 TokenizeSeparator (lit "ab<>cd") [lit "<>"] = Ok [lit "ab"; lit "<>"; lit "cd"].
Proof. vm_compute. split; reflexivity. Qed.

(** C19. *)
Theorem C19_beginsWith : forall s x, beginsWith s x = true <-> exists t, s = x ++ t.
Proof. exact beginsWith_spec. Qed.
Print Assumptions C19_beginsWith.
Theorem C19_beginsWith_char : forall s c, beginsWithChar s c = true <-> exists t, s = c :: t.
Proof. exact beginsWithChar_spec. Qed.
Print Assumptions C19_beginsWith_char.
Theorem C19_endsWith : forall s x, exists b, endsWith s x = Ok b /\ (b = true <-> exists t, s = t ++ x).
Proof. exact endsWith_spec. Qed.
Print Assumptions C19_endsWith.
Theorem C19_endsWith_char : forall s c, exists b, endsWithChar s c = Ok b /\ (b = true <-> exists t, s = t ++ [c]).
Proof. exact endsWithChar_spec. Qed.
Print Assumptions C19_endsWith_char.
Example C19_example : beginsWith (lit "hello") (lit "he") = true /\ beginsWith (lit "he") (lit "hello") = false /\
  endsWith (lit "hello") (lit "llo") = Ok true /\ endsWith (lit "lo") (lit "llo") = Ok false /\
  endsWithChar [] "x"%char = Ok false.
Proof. vm_compute. repeat split; reflexivity. Qed.

(** C81. Case conversion and character counts. *)
Theorem C81_case_conversion : forall s,
  toLower (toLower s) = toLower s /\ toUpper (toUpper s) = toUpper s /\
  toLower (toUpper s) = toLower s /\ toUpper (toLower s) = toUpper s /\
  length (toLower s) = length s /\ length (toUpper s) = length s.
Proof. exact case_laws. Qed.
Print Assumptions C81_case_conversion.
Theorem C81_char_count : forall s c, getCharCount s c = count_occ ascii_dec s c.
Proof. exact count_spec. Qed.
Print Assumptions C81_char_count.
Theorem C81_new_lines : forall s, getNewLinesCount s = count_occ ascii_dec s (ch 10).
Proof. exact (fun s => count_spec s (ch 10)). Qed.
Print Assumptions C81_new_lines.
Theorem C81_char_count_pieces : forall s c ps, pieces [c] s ps -> length ps = S (getCharCount s c).
Proof. exact count_split. Qed.
Print Assumptions C81_char_count_pieces.
Example C81_example : toLower (lit "AbC1!") = lit "abc1!" /\ toUpper (lit "AbC1!") = lit "ABC1!" /\
  getCharCount (lit "a,b,,c") "," = 3.
Proof. vm_compute. repeat split; reflexivity. Qed.
