(** Termination and memory safety of the reader; unescaped strings; text left behind by purging; comparison. *)
From Coq Require Import String Ascii ZArith NArith Arith Bool Lia List.
From Coq Require Import Floats.SpecFloat.
From Verif Require Import Common ListAux VecModel VecSpec VecProofs CInt IntToStrModel IntToStrSpec IntToStrProofs.
From Verif Require Import JsonNumModel JsonModel JsonSpec JsonNumProofs JsonExactProofs JsonProofs JsonReadProofs JsonTextProofs JsonWriteProofs.
Import ListNotations.
Local Open Scope nat_scope.

(** ** Termination *)
Lemma getC_fuel : forall b i, getC b i <> OutOfFuel.
Proof. intros b i. unfold getC. destruct (nth_error b i); [discriminate|]. destruct (i =? length b); discriminate. Qed.
Lemma getC_bound : forall b i c, getC b i = Ok c -> i <= length b /\ (c <> nul -> i < length b).
Proof.
  intros b i c H. unfold getC in H. destruct (nth_error b i) eqn:E.
  - assert (i < length b) by (apply nth_error_Some; congruence). lia.
  - destruct (Nat.eqb_spec i (length b)); [|discriminate]. injection H as <-. split; [lia|now intros []].
Qed.
Lemma throw_fuel : forall A rs i m, @throwError rs A i m <> OutOfFuel.
Proof. intros. unfold throwError. destruct (_ || _); discriminate. Qed.
Lemma find_end_fuel : forall b fuel e, e <= S (S (length b)) -> S (S (length b)) < fuel + e -> find_end b fuel e <> OutOfFuel.
Proof.
  intros b. induction fuel as [|fuel IH]; intros e L F; [lia|]. cbn [find_end]. destruct (getC b e) as [c| | |] eqn:G; try discriminate; [|now apply getC_fuel in G].
  cbn [obind]. apply getC_bound in G. destruct (Ascii.eqb c quote); [discriminate|]. destruct (Ascii.eqb c backslash); apply IH; lia.
Qed.
Lemma find_end_bound : forall b fuel e e', find_end b fuel e = Ok e' -> e <= e' < length b /\ getC b e' = Ok quote.
Proof.
  intros b. induction fuel as [|fuel IH]; intros e e' H; [discriminate|]. cbn [find_end] in H. destruct (getC b e) as [c| | |] eqn:G; try discriminate.
  cbn [obind] in H. destruct (Ascii.eqb_spec c quote) as [->|].
  - injection H as <-. apply getC_bound in G as B. split; [|exact G]. split; [lia|]. apply B. discriminate.
  - destruct (Ascii.eqb c backslash); apply IH in H; lia || (split; [lia|tauto]).
Qed.
Lemma escape_fuel : forall c, getEscapeSequence c <> OutOfFuel.
Proof.
  intros c. unfold getEscapeSequence. repeat match goal with |- context [if ?q then _ else _] => destruct q end; discriminate.
Qed.
Lemma decode_fuel : forall b fuel i e acc, e < fuel + i -> decode b fuel i e acc <> OutOfFuel.
Proof.
  intros b. induction fuel as [|fuel IH]; intros i e acc F; cbn [decode].
  - replace (e <=? i) with true by (symmetry; apply Nat.leb_le; lia). discriminate.
  - destruct (e <=? i); [discriminate|]. destruct (getC b i) as [c| | |] eqn:G; try discriminate; [|now apply getC_fuel in G]. cbn [obind].
    destruct (Ascii.eqb c backslash).
    + destruct (getC b (S i)) as [d| | |] eqn:G2; try discriminate; [|now apply getC_fuel in G2]. cbn [obind].
      destruct (getEscapeSequence d) as [x| | |] eqn:Es; try discriminate; [|now apply escape_fuel in Es]. cbn [obind]. apply IH. lia.
    + apply IH. lia.
Qed.
Lemma readStr_fuel : forall b i, i < length b -> readStr b i <> OutOfFuel.
Proof.
  intros b i L. unfold readStr. destruct (find_end b _ (S i)) as [e| | |] eqn:F; try discriminate.
  - apply find_end_bound in F. cbn [obind]. destruct (decode b _ (S i) e []) as [d| | |] eqn:D; try discriminate. now apply decode_fuel in D; [|lia].
  - apply find_end_fuel in F; [contradiction|lia|lia].
Qed.
Lemma readStr_bound : forall b i s j, readStr b i = Ok (s, j) -> i < j <= length b.
Proof.
  intros b i s j H. unfold readStr in H. destruct (find_end b _ (S i)) as [e| | |] eqn:F; try discriminate. apply find_end_bound in F.
  cbn [obind] in H. destruct (decode b _ (S i) e []) as [d| | |]; try discriminate. cbn in H. injection H as <- <-. lia.
Qed.
Lemma kw_fuel : forall b rs w i, match_kw b rs w i <> OutOfFuel.
Proof.
  intros b rs. induction w as [|c w IH]; intros i; cbn [match_kw]; [discriminate|].
  destruct (getC b i) as [d| | |] eqn:G; try discriminate; [|now apply getC_fuel in G]. cbn [obind]. destruct (Ascii.eqb d c); [apply IH|apply throw_fuel].
Qed.
Lemma kw_bound : forall b rs w i j, ~ In nul w -> i <= length b -> match_kw b rs w i = Ok j -> i <= j <= length b.
Proof.
  intros b rs w i j N L H. destruct (match_kw_local b [] rs rs w i j N L H) as (_ & B). exact B.
Qed.
Lemma toLong_fuel : forall f, double_to_long f <> OutOfFuel.
Proof. intros f. unfold double_to_long. destruct (truncate f); [destruct (_ && _)%bool|]; discriminate. Qed.
Lemma parseNum_bound : forall b i v j, i <= length b -> parseNum b i = Ok (v, j) -> i <= j <= length b.
Proof.
  intros b i v j L H. unfold parseNum in H. destruct (strtod (skipn i b)) as [f r] eqn:S. destruct (double_to_long f); try discriminate.
  cbn [obind] in H. injection H as <- <-. apply strtod_suffix in S. destruct S as (u & E). apply (f_equal (@length ascii)) in E.
  rewrite skipn_length, app_length in E. lia.
Qed.
Lemma assign_ok : forall (o : list (bytes * jval)) k v, ordered kltp o ->
  exists o', vm_step bytes_ltb bytes_eqb JNll o (Assign k v) = Ok o' /\ ordered kltp o'.
Proof.
  intros o k v O. destruct (assign_repr bytes_ltb bytes_eqb JNll bytes_order o (fun j => last_of j o) k v) as (d & E & Od & _).
  - apply ordered_object. exact O.
  - exists d. split; [exact E|exact Od].
Qed.
Lemma no_nul : ~ In nul (lit "true") /\ ~ In nul (lit "false") /\ ~ In nul (lit "null").
Proof. repeat split; vm_compute; intuition discriminate. Qed.
Ltac chars H := match type of H with context [Ascii.eqb ?c ?d] => destruct (Ascii.eqb_spec c d) as [->|] end.
(** Positions after a successful read lie in the buffer, and the fuel lasts. *)
Section FUEL.
Context (b : bytes) (rs : nat).
Lemma parse_fuel : forall fuel,
  (forall i, i <= length b -> 2 * (length b - i) + 2 <= fuel -> parse_val b rs fuel i <> OutOfFuel /\
     forall v j, parse_val b rs fuel i = Ok (v, j) -> i <= j <= length b) /\
  (forall i acc, i <= length b -> 2 * (length b - i) + 3 <= fuel -> parse_items b rs fuel i acc <> OutOfFuel /\
     forall a j, parse_items b rs fuel i acc = Ok (a, j) -> i <= j < length b) /\
  (forall i o, ordered kltp o -> i <= length b -> 2 * (length b - i) + 3 <= fuel -> parse_members b rs fuel i o <> OutOfFuel /\
     forall p j, parse_members b rs fuel i o = Ok (p, j) -> i <= j < length b).
Proof.
  induction fuel as [|fuel (IHv & IHi & IHm)]; (split; [|split]).
  1-3: intros; lia.
  - intros i Li F. rewrite parse_val_S. destruct (getC b i) as [c| | |] eqn:G; cbn [obind];
      try (split; [discriminate|intros; discriminate]); [|exfalso; eapply getC_fuel; eauto].
    apply getC_bound in G as (_ & Lt).
    destruct (Ascii.eqb_spec c "{") as [->|_].
    { specialize (Lt ltac:(discriminate)). destruct (getC b (S i)) as [d| | |] eqn:G1; cbn [obind];
        try (split; [discriminate|intros; discriminate]); [|exfalso; eapply getC_fuel; eauto].
      apply getC_bound in G1 as (_ & Lt1). destruct (Ascii.eqb_spec d "}") as [->|_].
      - split; [discriminate|]. intros v j [= <- <-]. specialize (Lt1 ltac:(discriminate)). lia.
      - destruct (IHm (S i) [] I ltac:(lia) ltac:(lia)) as (N & B). destruct (parse_members b rs fuel (S i) []) as [[p k]| | |]; cbn [obind];
          try (split; [discriminate|intros; discriminate]); [|congruence].
        split; [discriminate|]. intros v j [= <- <-]. specialize (B _ _ eq_refl). lia. }
    destruct (Ascii.eqb_spec c "[") as [->|_].
    { specialize (Lt ltac:(discriminate)). destruct (getC b (S i)) as [d| | |] eqn:G1; cbn [obind];
        try (split; [discriminate|intros; discriminate]); [|exfalso; eapply getC_fuel; eauto].
      apply getC_bound in G1 as (_ & Lt1). destruct (Ascii.eqb_spec d "]") as [->|_].
      - split; [discriminate|]. intros v j [= <- <-]. specialize (Lt1 ltac:(discriminate)). lia.
      - destruct (IHi (S i) [] ltac:(lia) ltac:(lia)) as (N & B). destruct (parse_items b rs fuel (S i) []) as [[p k]| | |]; cbn [obind];
          try (split; [discriminate|intros; discriminate]); [|congruence].
        split; [discriminate|]. intros v j [= <- <-]. specialize (B _ _ eq_refl). lia. }
    destruct (Ascii.eqb_spec c quote) as [->|_].
    { specialize (Lt ltac:(discriminate)). pose proof (readStr_fuel b i Lt) as N. destruct (readStr b i) as [[d k]| | |] eqn:R; cbn [obind];
        try (split; [discriminate|intros; discriminate]); [|congruence].
      split; [discriminate|]. intros v j [= <- <-]. apply readStr_bound in R. lia. }
    destruct no_nul as (N1 & N2 & N3).
    destruct (Ascii.eqb c "t").
    { pose proof (kw_fuel b rs (lit "true") i) as N. destruct (match_kw b rs (lit "true") i) as [k| | |] eqn:R; cbn [obind];
        try (split; [discriminate|intros; discriminate]); [|congruence].
      split; [discriminate|]. intros v j [= <- <-]. apply kw_bound in R; auto. }
    destruct (Ascii.eqb c "f").
    { pose proof (kw_fuel b rs (lit "false") i) as N. destruct (match_kw b rs (lit "false") i) as [k| | |] eqn:R; cbn [obind];
        try (split; [discriminate|intros; discriminate]); [|congruence].
      split; [discriminate|]. intros v j [= <- <-]. apply kw_bound in R; auto. }
    destruct (Ascii.eqb c "n").
    { pose proof (kw_fuel b rs (lit "null") i) as N. destruct (match_kw b rs (lit "null") i) as [k| | |] eqn:R; cbn [obind];
        try (split; [discriminate|intros; discriminate]); [|congruence].
      split; [discriminate|]. intros v j [= <- <-]. apply kw_bound in R; auto. }
    destruct (isNumStart c).
    { split; [|intros v j; now apply parseNum_bound]. unfold parseNum. destruct (strtod (skipn i b)) as [f r].
      pose proof (toLong_fuel f). destruct (double_to_long f); cbn [obind]; congruence. }
    split; [apply throw_fuel|]. intros v j H. exfalso. eapply throw_ok; eauto.
  - intros i acc Li F. rewrite parse_items_S. destruct (IHv i Li ltac:(lia)) as (N & B).
    destruct (parse_val b rs fuel i) as [[v k]| | |]; cbn [obind]; try (split; [discriminate|intros; discriminate]); [|congruence].
    specialize (B _ _ eq_refl). destruct (getC b k) as [c| | |] eqn:G; cbn [obind];
      try (split; [discriminate|intros; discriminate]); [|exfalso; eapply getC_fuel; eauto].
    apply getC_bound in G as (_ & Lt).
    destruct (Ascii.eqb_spec c ",") as [->|_].
    { specialize (Lt ltac:(discriminate)). destruct (IHi (S k) (acc ++ [v]) ltac:(lia) ltac:(lia)) as (N2 & B2). split; [exact N2|].
      intros a j H. apply B2 in H. lia. }
    destruct (Ascii.eqb_spec c "]") as [->|_].
    { specialize (Lt ltac:(discriminate)). split; [discriminate|]. intros a j [= <- <-]. lia. }
    split; [apply throw_fuel|]. intros a j H. exfalso. eapply throw_ok; eauto.
  - intros i o O Li F. rewrite parse_members_S. destruct (getC b i) as [c0| | |] eqn:G0; cbn [obind];
      try (split; [discriminate|intros; discriminate]); [|exfalso; eapply getC_fuel; eauto].
    apply getC_bound in G0 as (_ & Lt0). destruct (Ascii.eqb_spec c0 quote) as [->|_]; cbn [negb];
      [|split; [apply throw_fuel|intros p j H; exfalso; eapply throw_ok; eauto]].
    specialize (Lt0 ltac:(discriminate)). pose proof (readStr_fuel b i Lt0) as N0. destruct (readStr b i) as [[key k0]| | |] eqn:R; cbn [obind];
      try (split; [discriminate|intros; discriminate]); [|congruence].
    apply readStr_bound in R. destruct (getC b k0) as [c1| | |] eqn:G1; cbn [obind];
      try (split; [discriminate|intros; discriminate]); [|exfalso; eapply getC_fuel; eauto].
    apply getC_bound in G1 as (_ & Lt1). destruct (Ascii.eqb_spec c1 ":") as [->|_]; cbn [negb];
      [|split; [apply throw_fuel|intros p j H; exfalso; eapply throw_ok; eauto]].
    specialize (Lt1 ltac:(discriminate)). destruct (IHv (S k0) ltac:(lia) ltac:(lia)) as (N & B).
    destruct (parse_val b rs fuel (S k0)) as [[v k]| | |]; cbn [obind]; try (split; [discriminate|intros; discriminate]); [|congruence].
    specialize (B _ _ eq_refl). destruct (assign_ok o key v O) as (o' & -> & O'). cbn [obind]. destruct (getC b k) as [c| | |] eqn:G; cbn [obind];
      try (split; [discriminate|intros; discriminate]); [|exfalso; eapply getC_fuel; eauto].
    apply getC_bound in G as (_ & Lt).
    destruct (Ascii.eqb_spec c ",") as [->|_].
    { specialize (Lt ltac:(discriminate)). destruct (IHm (S k) o' O' ltac:(lia) ltac:(lia)) as (N2 & B2). split; [exact N2|].
      intros a j H. apply B2 in H. lia. }
    destruct (Ascii.eqb_spec c "}") as [->|_].
    { specialize (Lt ltac:(discriminate)). split; [discriminate|]. intros a j [= <- <-]. lia. }
    split; [apply throw_fuel|]. intros a j H. exfalso. eapply throw_ok; eauto.
Qed.
End FUEL.
Lemma parse_text_terminates : forall s, parse_text s <> OutOfFuel.
Proof.
  intros s. destruct (N.ltb_spec (N.of_nat (length s)) (2 ^ 31)%N) as [L|L].
  - rewrite parse_text_eq by exact L. destruct (strip Plain s) as [x|] eqn:E; [|discriminate].
    pose proof (strip_length _ _ _ E) as Lx. destruct (parse_fuel (over x s) (length x) (2 * length s + 4)) as (P & _).
    destruct (P 0 ltac:(lia)) as (N & _); [rewrite over_length by lia; lia|]. destruct (parse_val _ _ _ _); cbn; congruence.
  - unfold parse_text. rewrite (proj2 (N.leb_le _ _) L). discriminate.
Qed.

(** ** Safety *)
Definition notquote (c : ascii) : Prop := c <> ch 34.
Definition plainsuffix (t r : bytes) : Prop := exists u, t = u ++ r /\ Forall notquote u.
Lemma ps_refl : forall t, plainsuffix t t.
Proof. intros t. exists []. split; [reflexivity|constructor]. Qed.
Lemma ps_trans : forall t x y, plainsuffix t x -> plainsuffix x y -> plainsuffix t y.
Proof. intros t x y (u & -> & F) (w & -> & G). exists (u ++ w). split; [now rewrite app_assoc|]. apply Forall_app; auto. Qed.
Lemma ps_cons : forall c t, notquote c -> plainsuffix (c :: t) t.
Proof. intros c t N. exists [c]. split; [reflexivity|]. constructor; [exact N|constructor]. Qed.
Lemma ps_tl : forall t c, is_char t c = true -> notquote c -> plainsuffix t (tl t).
Proof. intros [|d t] c H N; [discriminate|]. cbn in H. apply Ascii.eqb_eq in H. subst d. now apply ps_cons. Qed.
Lemma hex_notquote : forall c, isHex c = true -> notquote c.
Proof. intros c H ->. discriminate. Qed.
Lemma digit_notquote : forall c, isDigit c = true -> notquote c.
Proof. intros c H ->. discriminate. Qed.
Lemma span_ps : forall p t a r, (forall c, p c = true -> notquote c) -> span p t = (a, r) -> plainsuffix t r.
Proof.
  intros p t a r Hp H. apply span_split in H. destruct H as (-> & F). exists a. split; [reflexivity|]. eapply Forall_impl; [|exact F]. exact Hp.
Qed.
Lemma mantissa_ps : forall p t ip fp r, (forall c, p c = true -> notquote c) -> scan_mantissa p t = (ip, fp, r) -> plainsuffix t r.
Proof.
  intros p t ip fp r Hp H. unfold scan_mantissa in H. destruct (span p t) as [a x] eqn:S. apply (span_ps _ _ _ _ Hp) in S.
  destruct x as [|c x].
  - injection H as <- <- <-. exact S.
  - destruct (Ascii.eqb_spec c ".") as [->|].
    + destruct (span p x) as [b y] eqn:S2. apply (span_ps _ _ _ _ Hp) in S2.
      assert (X : plainsuffix t y) by (eapply ps_trans; [exact S|]; eapply ps_trans; [apply ps_cons; discriminate|exact S2]).
      destruct a, b; injection H as <- <- <-; auto. apply ps_refl.
    + injection H as <- <- <-. exact S.
Qed.
Lemma exponent_ps : forall ls t e r, Forall notquote ls -> scan_exponent ls t = (e, r) -> plainsuffix t r.
Proof.
  intros ls t e r Fl H. unfold scan_exponent in H. destruct t as [|c t]; [injection H as <- <-; apply ps_refl|].
  destruct (existsb (Ascii.eqb c) ls) eqn:Ex; [|injection H as <- <-; apply ps_refl].
  apply existsb_exists in Ex. destruct Ex as (c' & I & Ec). apply Ascii.eqb_eq in Ec. subst c'. rewrite Forall_forall in Fl. apply Fl in I.
  assert (G : forall x, plainsuffix t x -> forall n, (match span isDigit x with ([], _) => (0%Z, c :: t) | (ds, r') => (n ds, r') end = (e, r)) -> plainsuffix (c :: t) r).
  { intros x Hx n Q. destruct (span isDigit x) as [a y] eqn:S. destruct a; injection Q as <- <-.
    - apply ps_refl.
    - eapply ps_trans; [apply ps_cons; exact I|]. eapply ps_trans; [exact Hx|]. eapply span_ps; [exact digit_notquote|exact S]. }
  destruct (is_char t "-") eqn:C1; [|destruct (is_char t "+") eqn:C2].
  - eapply G in H; [exact H|]. eapply ps_tl; [exact C1|discriminate].
  - eapply G in H; [exact H|]. eapply ps_tl; [exact C2|discriminate].
  - eapply G in H; [exact H|apply ps_refl].
Qed.
Lemma nocase_notquote : forall w s, begins_nocase s w = true -> Forall (fun l => l <> ch 34 /\ num_of l <> 66%Z) w ->
  Forall notquote (firstn (length w) s).
Proof.
  intros w s H. unfold begins_nocase in H. apply andb_true_iff in H. destruct H as (_ & H). revert s H.
  induction w as [|l w IH]; intros [|c s] H F; cbn [firstn length]; try constructor;
    cbn [combine forallb fst snd] in H; apply andb_true_iff in H; destruct H as (H1 & H2).
  - apply Forall_inv in F. destruct F as (F1 & F2). intros ->. unfold lower_is in H1. apply orb_true_iff in H1. destruct H1 as [H1|H1].
    + apply Ascii.eqb_eq in H1. congruence.
    + apply Z.eqb_eq in H1. change (num_of (ch 34)) with 34%Z in H1. lia.
  - apply IH; [exact H2|]. now apply Forall_inv_tail in F.
Qed.
Lemma lower_x : forall x, lower_is x "x" = true -> notquote x.
Proof. intros x H ->. discriminate. Qed.
Lemma strtod_ps : forall t f r, strtod t = (f, r) -> plainsuffix t r.
Proof.
  assert (Dc : forall neg s whole f r, plainsuffix whole s -> decimal_case neg s whole = (f, r) -> plainsuffix whole r).
  { intros neg s whole f r Hs H. unfold decimal_case in H. destruct (scan_mantissa isDigit s) as [[ip fp] x] eqn:M.
    apply (mantissa_ps _ _ _ _ _ digit_notquote) in M.
    assert (G : forall (n : Z -> double), (let '(e, r') := scan_exponent ["e"%char; "E"%char] x in (n e, r')) = (f, r) -> plainsuffix whole r).
    { intros n Q. destruct (scan_exponent _ x) as [e y] eqn:X. injection Q as <- <-.
      apply exponent_ps in X; [|repeat (constructor; [discriminate|]); constructor].
      eapply ps_trans; [exact Hs|]. eapply ps_trans; eassumption. }
    destruct ip, fp; try (eapply G; exact H). injection H as <- <-. apply ps_refl. }
  assert (U : forall neg s whole f r, plainsuffix whole s -> strtod_unsigned neg s whole = (f, r) -> plainsuffix whole r).
  { intros neg s whole f r Hs H. rewrite strtod_unsigned_eq in H. destruct s as [|c [|x h]]; try (eapply Dc; eauto; fail).
    destruct (Ascii.eqb_spec c "0"); [destruct (lower_is x "x") eqn:Lx|]; cbn [andb] in H.
    - subst c. destruct (scan_mantissa isHex h) as [[ip fp] y] eqn:M. apply (mantissa_ps _ _ _ _ _ hex_notquote) in M.
      assert (P1 : plainsuffix ("0"%char :: x :: h) (x :: h)) by (apply ps_cons; discriminate).
      assert (P2 : plainsuffix (x :: h) h) by (apply ps_cons; now apply lower_x).
      assert (G : forall (n : Z -> double), (let '(e, r') := scan_exponent ["p"%char; "P"%char] y in (n e, r')) = (f, r) -> plainsuffix whole r).
      { intros n Q. destruct (scan_exponent _ y) as [e z] eqn:X. injection Q as <- <-.
        apply exponent_ps in X; [|repeat (constructor; [discriminate|]); constructor].
        eapply ps_trans; [exact Hs|]. eapply ps_trans; [exact P1|]. eapply ps_trans; [exact P2|]. eapply ps_trans; eassumption. }
      destruct ip, fp; try (eapply G; exact H). injection H as <- <-. eapply ps_trans; [exact Hs|exact P1].
    - destruct (begins_nocase _ (lit "inf") || begins_nocase _ (lit "nan")) eqn:B; [|eapply Dc; eauto].
      injection H as <- <-. eapply ps_trans; [exact Hs|]. exists (firstn 3 (c :: x :: h)). split; [symmetry; apply firstn_skipn|].
      apply orb_true_iff in B. destruct B as [B|B]; apply nocase_notquote in B; try exact B; repeat (constructor; [split; discriminate|]); constructor.
    - destruct (begins_nocase _ (lit "inf") || begins_nocase _ (lit "nan")) eqn:B; [|eapply Dc; eauto].
      injection H as <- <-. eapply ps_trans; [exact Hs|]. exists (firstn 3 (c :: x :: h)). split; [symmetry; apply firstn_skipn|].
      apply orb_true_iff in B. destruct B as [B|B]; apply nocase_notquote in B; try exact B; repeat (constructor; [split; discriminate|]); constructor. }
  intros t f r H. unfold strtod in H. destruct (is_char t "-") eqn:M; eapply U; eauto; [|apply ps_refl].
  eapply ps_tl; [exact M|discriminate].
Qed.
(** A text without blanks and with proper strings stays one when its start is cut off outside a string. *)
Lemma compact_cons : forall c t, spaced (c :: t) (c :: t) -> c <> ch 34 -> spaced t t.
Proof.
  intros c t H N. inversion H as [|c1 t1 s1 B S1|body t1 s1 NB S1 E0 E1|r d t1 s1 B NB S1|c1 t1 s1 N1 N2 N3 S1]; subst; try congruence.
  - pose proof (strip_length _ _ _ (spaced_strip _ _ S1)) as L. cbn in L. lia.
  - pose proof (strip_length _ _ _ (spaced_strip _ _ S1)) as L. cbn in L. rewrite app_length in L. cbn in L. lia.
  - now destruct N.
Qed.
Lemma compact_app : forall u t, spaced (u ++ t) (u ++ t) -> Forall notquote u -> spaced t t.
Proof. induction u as [|c u IH]; intros t H F; [exact H|]. apply IH; [|now apply Forall_inv_tail in F]. apply (compact_cons c); [exact H|now apply Forall_inv in F]. Qed.
Lemma compact_string : forall t, spaced (ch 34 :: t) (ch 34 :: t) -> exists r d t', t = r ++ ch 34 :: t' /\ string_body r d /\ spaced t' t'.
Proof.
  intros t H. inversion H as [|c1 t1 s1 B S1|body t1 s1 NB S1 E0 E1|r d t1 s1 B NB S1 E0 E1|c1 t1 s1 N1 N2 N3 S1]; subst; try congruence.
  - unfold blank in B. exfalso. destruct B as [B|[B|[B|B]]]; discriminate.
  - apply app_inv_head in E1. injection E1 as ->. exists r, d, t1. split; [reflexivity|]. split; [exact B|]. exact S1.
  - now destruct N1.
Qed.
Section SAFE.
Context (s : bytes).
Definition at_ (i : nat) : Prop := i <= length s /\ spaced (skipn i s) (skipn i s).
Lemma at_getC : forall i, at_ i -> exists c, getC s i = Ok c /\ (c <> nul -> exists r, skipn i s = c :: r /\ skipn (S i) s = r /\ i < length s).
Proof.
  intros i (L & _). rewrite getC_skip. destruct (skipn i s) as [|c r] eqn:E.
  - exists nul. assert (length (skipn i s) = 0) by (rewrite E; reflexivity). rewrite skipn_length in H.
    replace i with (length s) by lia. rewrite Nat.eqb_refl. split; [reflexivity|]. now intros [].
  - exists c. split; [reflexivity|]. intros _. exists r. split; [reflexivity|].
    assert (length (skipn i s) = S (length r)) by (rewrite E; reflexivity). rewrite skipn_length in H. split; [|lia].
    rewrite <- (Nat.add_1_l i), <- skipn_skipn, E. reflexivity.
Qed.
Lemma at_next : forall i c, at_ i -> getC s i = Ok c -> c <> nul -> c <> ch 34 -> at_ (S i).
Proof.
  intros i c A G N1 N2. destruct (at_getC i A) as (c' & G' & H). rewrite G in G'. injection G' as <-. destruct (H N1) as (r & E1 & E2 & L).
  split; [lia|]. rewrite E2. destruct A as (_ & A). rewrite E1 in A. now apply compact_cons in A.
Qed.
Lemma at_string : forall i, at_ i -> getC s i = Ok quote -> exists d j, readStr s i = Ok (d, j) /\ at_ j /\ i < j.
Proof.
  intros i A G. destruct (at_getC i A) as (c' & G' & H). rewrite G in G'. injection G' as <-. destruct (H ltac:(discriminate)) as (r & E1 & E2 & L).
  destruct A as (Li & A). rewrite E1 in A. destruct (compact_string r A) as (r1 & d & t' & -> & B & St).
  assert (Es : s = firstn i s ++ quote :: r1 ++ quote :: t') by (rewrite <- (firstn_skipn i s) at 1; rewrite E1; reflexivity).
  exists d, (i + length r1 + 2).
  assert (Li2 : length (firstn i s) = i) by (rewrite firstn_length; lia).
  pose proof (readStr_ok r1 d (firstn i s) t' B) as R. change (ch 34) with quote in R. rewrite <- Es, Li2 in R.
  assert (Ls : length s = i + length r1 + 2 + length t').
  { rewrite Es, app_length, Li2. cbn [length]. rewrite app_length. cbn [length]. lia. }
  split; [rewrite R; do 2 f_equal; lia|]. split; [|lia]. split; [lia|].
  rewrite Es. replace (firstn i s ++ quote :: r1 ++ quote :: t') with ((firstn i s ++ quote :: r1 ++ [quote]) ++ t')
    by (rewrite <- app_assoc; cbn [app]; rewrite <- app_assoc; reflexivity).
  rewrite skipn_app. rewrite skipn_all2 by (rewrite app_length, Li2; cbn [length]; rewrite app_length; cbn; lia).
  replace (i + length r1 + 2 - length (firstn i s ++ quote :: r1 ++ [quote])) with 0 by (rewrite app_length, Li2; cbn [length]; rewrite app_length; cbn; lia).
  exact St.
Qed.
Context (Ne : s <> []) (Fit : numbers_fit s).
Lemma throw_safe : forall A i m, i <= length s -> @throwError (length s) A i m = Throw m.
Proof.
  intros A i m L. unfold throwError. destruct s as [|c r]; [contradiction|]. cbn [length Nat.eqb orb] in *.
  replace (S (length r) + 3 <? i) with false by (symmetry; apply Nat.ltb_ge; lia). reflexivity.
Qed.
Lemma kw_safe : forall w i, at_ i -> ~ In nul w -> ~ In (ch 34) w -> match_kw s (length s) w i <> UB /\ forall j, match_kw s (length s) w i = Ok j -> at_ j.
Proof.
  induction w as [|c w IH]; intros i A N1 N2; cbn [match_kw]; [split; [discriminate|now intros j [= <-]]|].
  destruct (at_getC i A) as (d & G & _). rewrite G. cbn [obind]. destruct (Ascii.eqb_spec d c) as [->|].
  - apply IH.
    + eapply at_next; eauto; intros ->; [apply N1|apply N2]; left; reflexivity.
    + intros I. apply N1. now right.
    + intros I. apply N2. now right.
  - rewrite throw_safe by apply A. split; discriminate.
Qed.
Lemma num_safe : forall i c, at_ i -> getC s i = Ok c -> isNumStart c = true -> exists v j, parseNum s i = Ok (v, j) /\ at_ j.
Proof.
  intros i c A G Nc. destruct (at_getC i A) as (c' & G' & H). rewrite G in G'. injection G' as <-.
  destruct (H ltac:(intros ->; discriminate)) as (r & E1 & E2 & L). unfold parseNum.
  destruct (Fit (firstn i s) (skipn i s)) as (z & D); [symmetry; apply firstn_skipn|apply A| |].
  { exists c, r. split; [exact E1|]. unfold isNumStart in Nc. apply orb_true_iff in Nc. destruct Nc as [Nc|Nc]; [left; now apply Ascii.eqb_eq in Nc|right; now apply isDigit_iff]. }
  destruct (strtod (skipn i s)) as [f rest] eqn:S. cbn [fst] in D. rewrite D. cbn [obind]. do 2 eexists. split; [reflexivity|].
  apply strtod_ps in S. destruct S as (u & Eu & Fu). assert (Lu := f_equal (@length ascii) Eu). rewrite skipn_length, app_length in Lu.
  split; [lia|]. assert (Er : skipn (length s - length rest) s = rest).
  { rewrite <- (firstn_skipn i s) at 2. rewrite Eu, app_assoc, skipn_app.
    assert (Lf : length (firstn i s ++ u) = length s - length rest) by (rewrite app_length, firstn_length; lia).
    rewrite <- Lf, skipn_all, Nat.sub_diag. reflexivity. }
  rewrite Er. destruct A as (_ & A). rewrite Eu in A. eapply compact_app; eauto.
Qed.
Lemma parse_safe : forall fuel,
  (forall i, at_ i -> parse_val s (length s) fuel i <> UB /\ forall v j, parse_val s (length s) fuel i = Ok (v, j) -> at_ j) /\
  (forall i acc, at_ i -> parse_items s (length s) fuel i acc <> UB /\
     forall a j, parse_items s (length s) fuel i acc = Ok (a, j) -> at_ (S j)) /\
  (forall i o, ordered kltp o -> at_ i -> parse_members s (length s) fuel i o <> UB /\
     forall p j, parse_members s (length s) fuel i o = Ok (p, j) -> at_ (S j)).
Proof.
  induction fuel as [|fuel (IHv & IHi & IHm)]; (split; [|split]).
  1-3: intros; (split; [discriminate|intros; discriminate]).
  - intros i A. rewrite parse_val_S. destruct (at_getC i A) as (c & G & _). rewrite G. cbn [obind].
    destruct (Ascii.eqb_spec c "{") as [->|_].
    { assert (A1 : at_ (S i)) by (eapply at_next; eauto; discriminate). destruct (at_getC (S i) A1) as (d & G1 & _). rewrite G1. cbn [obind].
      destruct (Ascii.eqb_spec d "}") as [->|_].
      - split; [discriminate|]. intros v j [= <- <-]. eapply at_next; eauto; discriminate.
      - destruct (IHm (S i) [] I A1) as (N & B). destruct (parse_members s (length s) fuel (S i) []) as [[p k]| | |]; cbn [obind];
          try congruence; try (split; [discriminate|intros; discriminate]). 
        split; [discriminate|]. intros v j [= <- <-]. now specialize (B _ _ eq_refl). }
    destruct (Ascii.eqb_spec c "[") as [->|_].
    { assert (A1 : at_ (S i)) by (eapply at_next; eauto; discriminate). destruct (at_getC (S i) A1) as (d & G1 & _). rewrite G1. cbn [obind].
      destruct (Ascii.eqb_spec d "]") as [->|_].
      - split; [discriminate|]. intros v j [= <- <-]. eapply at_next; eauto; discriminate.
      - destruct (IHi (S i) [] A1) as (N & B). destruct (parse_items s (length s) fuel (S i) []) as [[p k]| | |]; cbn [obind];
          try congruence; try (split; [discriminate|intros; discriminate]). 
        split; [discriminate|]. intros v j [= <- <-]. now specialize (B _ _ eq_refl). }
    destruct (Ascii.eqb_spec c quote) as [->|_].
    { destruct (at_string i A G) as (d & k & -> & Ak & _). cbn [obind]. split; [discriminate|]. now intros v j [= <- <-]. }
    destruct no_nul as (N1 & N2 & N3).
    destruct (Ascii.eqb c "t").
    { destruct (kw_safe (lit "true") i A N1) as (N & B); [vm_compute; intuition discriminate|]. destruct (match_kw s (length s) (lit "true") i) as [k| | |]; cbn [obind];
        try congruence; try (split; [discriminate|intros; discriminate]). split; [discriminate|]. intros v j [= <- <-]. auto. }
    destruct (Ascii.eqb c "f").
    { destruct (kw_safe (lit "false") i A N2) as (N & B); [vm_compute; intuition discriminate|]. destruct (match_kw s (length s) (lit "false") i) as [k| | |]; cbn [obind];
        try congruence; try (split; [discriminate|intros; discriminate]). split; [discriminate|]. intros v j [= <- <-]. auto. }
    destruct (Ascii.eqb c "n").
    { destruct (kw_safe (lit "null") i A N3) as (N & B); [vm_compute; intuition discriminate|]. destruct (match_kw s (length s) (lit "null") i) as [k| | |]; cbn [obind];
        try congruence; try (split; [discriminate|intros; discriminate]). split; [discriminate|]. intros v j [= <- <-]. auto. }
    destruct (isNumStart c) eqn:Nc.
    { destruct (num_safe i c A G Nc) as (v' & k & -> & Ak). split; [discriminate|]. now intros v j [= <- <-]. }
    rewrite throw_safe by apply A. split; [discriminate|intros; discriminate].
  - intros i acc A. rewrite parse_items_S. destruct (IHv i A) as (N & B).
    destruct (parse_val s (length s) fuel i) as [[v k]| | |]; cbn [obind]; try congruence; try (split; [discriminate|intros; discriminate]).
    specialize (B _ _ eq_refl). destruct (at_getC k B) as (c & G & _). rewrite G. cbn [obind].
    destruct (Ascii.eqb_spec c ",") as [->|_].
    { apply IHi. eapply at_next; eauto; discriminate. }
    destruct (Ascii.eqb_spec c "]") as [->|_].
    { split; [discriminate|]. intros a j [= <- <-]. eapply at_next; eauto; discriminate. }
    rewrite throw_safe by apply B. split; [discriminate|intros; discriminate].
  - intros i o O A. rewrite parse_members_S. destruct (at_getC i A) as (c0 & G0 & _). rewrite G0. cbn [obind].
    destruct (Ascii.eqb_spec c0 quote) as [->|_]; cbn [negb]; [|rewrite throw_safe by apply A; split; [discriminate|intros; discriminate]].
    destruct (at_string i A G0) as (key & k0 & -> & A0 & _). cbn [obind]. destruct (at_getC k0 A0) as (c1 & G1 & _). rewrite G1. cbn [obind].
    destruct (Ascii.eqb_spec c1 ":") as [->|_]; cbn [negb]; [|rewrite throw_safe by apply A0; split; [discriminate|intros; discriminate]].
    assert (A1 : at_ (S k0)) by (eapply at_next; eauto; discriminate). destruct (IHv (S k0) A1) as (N & B).
    destruct (parse_val s (length s) fuel (S k0)) as [[v k]| | |]; cbn [obind]; try congruence; try (split; [discriminate|intros; discriminate]).
    specialize (B _ _ eq_refl). destruct (assign_ok o key v O) as (o' & -> & O'). cbn [obind]. destruct (at_getC k B) as (c & G & _). rewrite G. cbn [obind].
    destruct (Ascii.eqb_spec c ",") as [->|_].
    { apply IHm; [exact O'|]. eapply at_next; eauto; discriminate. }
    destruct (Ascii.eqb_spec c "}") as [->|_].
    { split; [discriminate|]. intros a j [= <- <-]. eapply at_next; eauto; discriminate. }
    rewrite throw_safe by apply B. split; [discriminate|intros; discriminate].
Qed.
Lemma compact_safe : spaced s s -> (N.of_nat (length s) < 2 ^ 31)%N -> (exists v, parse_text s = Ok v) \/ exists m, parse_text s = Throw m.
Proof.
  intros Sp L. pose proof (parse_text_terminates s) as T. rewrite parse_text_eq in * by exact L. rewrite (spaced_strip _ _ Sp) in *.
  assert (Ot : over s s = s) by (unfold over; rewrite skipn_all; apply app_nil_r). rewrite Ot in *.
  destruct (parse_safe (2 * length s + 4)) as (P & _). destruct (P 0) as (N & _); [split; [lia|exact Sp]|].
  destruct (parse_val s (length s) (2 * length s + 4) 0) as [[v j]|m| |]; cbn [obind] in *; try congruence; [left|right]; eexists; reflexivity.
Qed.
End SAFE.

(** ** Strings written without escapes *)
Lemma decode_app : forall b fuel i e acc d, decode b fuel i e acc = Ok d -> exists x, d = acc ++ x.
Proof.
  intros b. induction fuel as [|fuel IH]; intros i e acc d H; cbn [decode] in H.
  - destruct (e <=? i); [injection H as <-; exists []; now rewrite app_nil_r|discriminate].
  - destruct (e <=? i); [injection H as <-; exists []; now rewrite app_nil_r|]. destruct (getC b i) as [c| | |]; try discriminate. cbn [obind] in H.
    destruct (Ascii.eqb c backslash).
    + destruct (getC b (S i)) as [c1| | |]; try discriminate. cbn [obind] in H. destruct (getEscapeSequence c1) as [x| | |]; try discriminate. cbn [obind] in H.
      apply IH in H. destruct H as (y & ->). exists (x :: y). now rewrite <- app_assoc.
    + apply IH in H. destruct H as (y & ->). exists (c :: y). now rewrite <- app_assoc.
Qed.
Lemma read_length : forall b f1 i e, find_end b f1 i = Ok e -> forall f2 acc d, decode b f2 i e acc = Ok d ->
  length d <= length acc + (e - i) /\
  (length d = length acc + (e - i) -> forall k, i <= k < e ->
     exists c, getC b k = Ok c /\ c <> quote /\ c <> backslash /\ nth_error d (length acc + (k - i)) = Some c).
Proof.
  intros b. induction f1 as [|f1 IH]; intros i e F f2 acc d H; [discriminate|]. pose proof (find_end_bound _ _ _ _ F) as (Be & _).
  cbn [find_end] in F. destruct (getC b i) as [c| | |] eqn:G; try discriminate. cbn [obind] in F.
  destruct (Ascii.eqb_spec c quote) as [->|Nq].
  - injection F as <-. assert (d = acc) as -> by (destruct f2; cbn [decode] in H; rewrite Nat.leb_refl in H; congruence).
    split; [lia|]. intros _ k Lk. lia.
  - assert (Le : S i <= e) by (destruct (Ascii.eqb c backslash); apply find_end_bound in F; lia).
    destruct f2 as [|f2]; cbn [decode] in H; replace (e <=? i) with false in H by (symmetry; apply Nat.leb_gt; lia); [discriminate|].
    rewrite G in H. cbn [obind] in H. destruct (Ascii.eqb_spec c backslash) as [->|Nb].
    + destruct (getC b (S i)) as [c1| | |]; try discriminate. cbn [obind] in H. destruct (getEscapeSequence c1) as [y| | |]; try discriminate. cbn [obind] in H.
      pose proof (find_end_bound _ _ _ _ F) as (B2 & _). destruct (IH _ _ F _ _ _ H) as (H1 & _). rewrite len_snoc in H1. split; [lia|intros; lia].
    + destruct (IH _ _ F _ _ _ H) as (H1 & H2). rewrite len_snoc in *. split; [lia|]. intros Q k Lk.
      destruct (Nat.eq_dec k i) as [->|].
      * exists c. repeat split; auto. destruct (decode_app _ _ _ _ _ _ H) as (z & ->). rewrite Nat.sub_diag, Nat.add_0_r, <- app_assoc. cbn [app]. now rewrite nth_error_mid.
      * destruct (H2 ltac:(lia) k ltac:(lia)) as (c2 & X1 & X2 & X3 & X4). exists c2. repeat split; auto. rewrite <- X4. f_equal. lia.
Qed.
Lemma unescaped : forall s, In (ch 34) s \/ In (ch 92) s -> parse_text (quoted s) <> Ok (JStr s).
Proof.
  intros s I H. destruct (N.ltb_spec (N.of_nat (length (quoted s))) (2 ^ 31)%N) as [L|L].
  2: { unfold parse_text in H. rewrite (proj2 (N.leb_le _ _) L) in H. discriminate. }
  rewrite parse_text_eq in H by exact L. destruct (strip Plain (quoted s)) as [x|] eqn:E; [|discriminate].
  pose proof (strip_length _ _ _ E) as Lx. set (b := over x (quoted s)) in *. 
  assert (Lb : length b = S (S (length s))).
  { unfold b. rewrite over_length by lia. unfold quoted. rewrite !app_length. cbn. lia. }
  destruct (2 * length (quoted s) + 4) as [|fuel] eqn:Fu; [lia|]. rewrite parse_val_S in H. destruct (getC b 0) as [c| | |] eqn:G; try discriminate. cbn [obind] in H.
  assert (Hx : exists r, x = quote :: r).
  { unfold quoted in E. cbn [app strip] in E. change (Ascii.eqb quote quote) with true in E. cbv iota in E. destruct (strip (InString false) (s ++ [quote])); [|discriminate].
    cbn in E. injection E as <-. eauto. }
  destruct Hx as (r & Ex).
  assert (c = quote) as ->. { unfold b, over in G. rewrite Ex in G. injection G as <-. reflexivity. }
  change (Ascii.eqb quote "{") with false in H. change (Ascii.eqb quote "[") with false in H. change (Ascii.eqb quote quote) with true in H. cbv iota in H.
  unfold readStr in H. destruct (find_end b (S (S (length b))) 1) as [e| | |] eqn:F; try discriminate. cbn [obind] in H.
  destruct (decode b (S (length b)) 1 e []) as [d| | |] eqn:D; try discriminate. cbn [obind fst] in H. injection H as ->.
  destruct (read_length _ _ _ _ F _ _ _ D) as (H1 & H2). apply find_end_bound in F as ((Fb1 & Fb2) & _). cbn [length Nat.add] in *.
  assert (Q : length s = e - 1) by lia. specialize (H2 Q).
  assert (X : exists k c, nth_error s k = Some c /\ (c = quote \/ c = backslash)).
  { destruct I as [I|I]; apply In_nth_error in I; destruct I as (k & Ek); exists k; eexists; (split; [exact Ek|]); [left|right]; reflexivity. }
  destruct X as (k & c & Ek & Hc). assert (k < length s) by (apply nth_error_Some; congruence).
  destruct (H2 (S k) ltac:(lia)) as (c2 & _ & N1 & N2 & Ec). replace (S k - 1) with k in Ec by lia. rewrite Ek in Ec. injection Ec as <-. destruct Hc; contradiction.
Qed.

(** ** What purging leaves behind *)
Lemma digits_start : forall ds, ds <> [] -> Forall is_digit ds -> exists c r, ds = c :: r /\ isNumStart c = true /\ Ascii.eqb c "{" = false /\ Ascii.eqb c "[" = false /\
  Ascii.eqb c quote = false /\ Ascii.eqb c "t" = false /\ Ascii.eqb c "f" = false /\ Ascii.eqb c "n" = false.
Proof.
  intros [|c r] N F; [contradiction|]. exists c, r. apply Forall_inv in F. apply isDigit_iff in F. 
  assert (isNumStart c = true) by (unfold isNumStart; rewrite F; apply orb_true_r).
  repeat split; auto; apply char_cases; auto.
Qed.
Lemma stale : forall ds k, ds <> [] -> Forall is_digit ds -> k <= length ds -> (N.of_nat (length ds) < 2 ^ 30)%N ->
  parse_text (repeat (ch 32) k ++ ds) = parse_text (ds ++ skipn (length ds - k) ds).
Proof.
  intros ds k N F K L.
  assert (F2 : Forall is_digit (ds ++ skipn (length ds - k) ds)) by (apply Forall_app; split; [exact F|now apply Forall_skipn']).
  assert (Sd : forall l, Forall is_digit l -> spaced l l).
  { intros l Fl. apply spaced_chars. eapply Forall_impl; [|exact Fl]. intros c D. apply numchar_plain. now apply digit_numchar. }
  assert (S1 : strip Plain (repeat (ch 32) k ++ ds) = Some ds) by (apply spaced_strip; apply spaced_blanks; [apply blanks_repeat|now apply Sd]).
  rewrite !parse_text_eq by (rewrite app_length, ?repeat_length, ?skipn_length; lia). rewrite S1, (spaced_strip _ _ (Sd _ F2)).
  set (t := ds ++ skipn (length ds - k) ds) in *.
  assert (O1 : over ds (repeat (ch 32) k ++ ds) = t).
  { unfold over, t. f_equal. rewrite skipn_app, repeat_length. rewrite skipn_all2 by (rewrite repeat_length; lia). reflexivity. }
  assert (O2 : over t t = t) by (unfold over; rewrite skipn_all; apply app_nil_r). rewrite O1, O2.
  assert (Nt : t <> []) by (unfold t; intros E; apply app_eq_nil in E; tauto).
  destruct (digits_start t Nt F2) as (c & r & Et & Hs & E1 & E2 & E3 & E4 & E5 & E6).
  assert (P : forall rs fuel, parse_val t rs (S fuel) 0 = parseNum t 0).
  { intros rs fuel. rewrite parse_val_S. replace (getC t 0) with (@Ok ascii c) by (rewrite Et; reflexivity). cbn [obind].
    rewrite E1, E2, E3, E4, E5, E6, Hs. reflexivity. }
  rewrite !Nat.add_succ_r. now rewrite !P.
Qed.
Lemma digits_read : forall ds, ds <> [] -> Forall is_digit ds -> (N.of_nat (length ds) < 2 ^ 31)%N -> (digits_value ds <= 2 ^ 53)%Z ->
  parse_text ds = Ok (JNum (NS (digits_value ds))).
Proof.
  intros ds N F L B. assert (D : denotes ds (JNum (NS (digits_value ds)))).
  { apply (d_number ds false (digits_value ds) 0); [|apply (whole false (digits_value ds) 0 (digits_value ds)); [unfold scaled_is; cbn; lia|lia]].
    exists ds, [], [], [], 0%Z. cbn [app]. rewrite app_nil_r. repeat split; auto. left. auto. }
  apply (denoted_spaced ds ds); auto. eapply denotes_spaced; eauto.
Qed.
Lemma digits_value_app : forall a b, Forall is_digit b -> (0 <= digits_value a -> 10 ^ Z.of_nat (length b) * digits_value a <= digits_value (a ++ b))%Z.
Proof.
  intros a b F H. unfold digits_value in *. rewrite fold_left_app. set (x := fold_left _ a 0%Z) in *. clearbody x. revert x H.
  induction F as [|c b D F IH]; intros x H; [cbn [length fold_left]; change (Z.of_nat 0) with 0%Z; rewrite Z.pow_0_r; lia|]. cbn [fold_left length]. specialize (IH (10 * x + (Z.of_N (N_of_ascii c) - 48))%Z).
  unfold is_digit in D. rewrite Nat2Z.inj_succ, Z.pow_succ_r by lia. assert (0 <= 10 ^ Z.of_nat (length b))%Z by (apply Z.pow_nonneg; lia). nia.
Qed.
Lemma stale_wrong : forall ds k, ds <> [] -> Forall is_digit ds -> 0 < k <= length ds -> (N.of_nat (length ds) < 2 ^ 30)%N ->
  (0 < digits_value ds)%Z -> (digits_value (ds ++ skipn (length ds - k) ds) <= 2 ^ 53)%Z ->
  exists z, parse_text (repeat (ch 32) k ++ ds) = Ok (JNum (NS z)) /\ z = digits_value (ds ++ skipn (length ds - k) ds) /\ (digits_value ds < z)%Z /\
    parse_text ds = Ok (JNum (NS (digits_value ds))).
Proof.
  intros ds k N F K L P B.
  assert (Fs : Forall is_digit (skipn (length ds - k) ds)) by now apply Forall_skipn'.
  pose proof (digits_value_app ds _ Fs ltac:(lia)) as G. rewrite skipn_length in G. replace (length ds - (length ds - k)) with k in G by lia.
  assert (P10 : (10 <= 10 ^ Z.of_nat k)%Z) by (change 10%Z with (10 ^ 1)%Z at 1; apply Z.pow_le_mono_r; lia).
  eexists. rewrite stale by (auto; lia). rewrite digits_read.
  - split; [reflexivity|]. split; [reflexivity|]. split; [nia|]. apply digits_read; auto; [lia|nia].
  - intros E. apply app_eq_nil in E. tauto.
  - apply Forall_app. auto.
  - rewrite app_length, skipn_length. lia.
  - exact B.
Qed.

(** ** Comparison of numbers *)
Lemma of_int_eqb : forall x y, (Z.abs x <= 2 ^ 53)%Z -> (Z.abs y <= 2 ^ 53)%Z -> SFeqb (of_int x) (of_int y) = (x =? y)%Z.
Proof.
  intros x y Hx Hy. destruct (Z.eqb_spec x y) as [->|N].
  - apply SFeqb_refl. rewrite of_int_whole by exact Hy. unfold whole_double. destruct (_ =? _)%Z; discriminate.
  - destruct (SFeqb (of_int x) (of_int y)) eqn:E; [|reflexivity]. exfalso. apply N.
    assert (T : forall z, (Z.abs z <= 2 ^ 53)%Z -> truncate (of_int z) = Some z).
    { intros z Hz. rewrite of_int_whole by exact Hz. rewrite truncate_whole by lia. f_equal. destruct (z <? 0)%Z eqn:S; lia. }
    assert (X : truncate (of_int x) = truncate (of_int y)).
    { unfold SFeqb, SFcompare in E. destruct (of_int x) as [s|s| |s m e], (of_int y) as [s'|s'| |s' m' e']; try discriminate; try (destruct s; discriminate); try (destruct s'; discriminate); try reflexivity;
        try (destruct s, s'; try discriminate; reflexivity).
      change (Pos.compare_cont Eq m m') with (Pos.compare m m') in E.
      destruct s, s'; try discriminate; destruct (Z.compare_spec e e'); try discriminate; destruct (Pos.compare_spec m m'); try discriminate; subst; reflexivity. }
    rewrite !T in X by assumption. congruence.
Qed.
Lemma same_number_eq : forall x y m n, (Z.abs x <= 2 ^ 53)%Z -> (Z.abs y <= 2 ^ 53)%Z -> holds x m -> holds y n ->
  (forall z, m = NU z -> n = NR (of_int y) -> 0 <= y)%Z -> num_eq m n = Ok (x =? y)%Z.
Proof.
  intros x y m n Hx Hy Hm Hn C.
  assert (T : truncate (of_int y) = Some y).
  { rewrite of_int_whole by exact Hy. rewrite truncate_whole by lia. f_equal. destruct (y <? 0)%Z eqn:S; lia. }
  assert (U : forall z, (0 <= z <= 2 ^ 53)%Z -> to_i64 z = z).
  { intros z Hz. unfold to_i64. rewrite Z.mod_small by (unfold ULONG_MOD; lia). destruct (z <=? LONG_MAX)%Z eqn:Q; [reflexivity|]. unfold LONG_MAX in Q. lia. }
  destruct Hm as [|Px|], Hn as [|Py|]; cbn [num_eq getIntS getIntU getReal obind]; try reflexivity.
  - rewrite U by lia. reflexivity.
  - unfold double_to_long. rewrite T. replace ((LONG_MIN <=? y) && (y <=? LONG_MAX))%Z%bool with true; [reflexivity|]. unfold LONG_MIN, LONG_MAX. lia.
  - unfold to_u64, ULONG_MOD. f_equal. pose proof (Z.mod_pos_bound y 18446744073709551616 ltac:(lia)) as MB. destruct (Z.le_gt_cases 0 y).
    + rewrite Z.mod_small by lia. reflexivity.
    + rewrite <- (Z_mod_plus_full y 1). rewrite Z.mod_small by lia. lia.
  - unfold double_to_ulong. rewrite T. specialize (C x eq_refl eq_refl). replace ((0 <=? y) && (y <? ULONG_MOD))%Z%bool with true; [reflexivity|]. unfold ULONG_MOD. lia.
  - now rewrite of_int_eqb.
  - now rewrite of_int_eqb.
  - now rewrite of_int_eqb.
Qed.
