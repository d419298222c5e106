(** Lemmas on the JSON reader: purging, strings, and reading of well-formed texts. *)
From Coq Require Import String Ascii ZArith NArith Arith Bool Lia List.
From Coq Require Import Floats.SpecFloat.
From Verif Require Import Common ListAux VecModel VecSpec VecProofs IntToStrModel IntToStrSpec IntToStrProofs.
From Verif Require Import JsonNumModel JsonModel JsonSpec JsonNumProofs JsonExactProofs.
Import ListNotations.
Local Open Scope nat_scope.

(** ** Text positions *)
Lemma getC_app : forall p c s, getC (p ++ c :: s) (length p) = Ok c.
Proof. intros. unfold getC. now rewrite nth_error_mid. Qed.
Lemma getC_app_n : forall p c s n, n = length p -> getC (p ++ c :: s) n = Ok c.
Proof. intros. subst. apply getC_app. Qed.
Lemma getC_end : forall b, getC b (length b) = Ok nul.
Proof. intros. unfold getC. rewrite (proj2 (nth_error_None b (length b))) by lia. now rewrite Nat.eqb_refl. Qed.
Lemma getC_nth : forall b i c, nth_error b i = Some c -> getC b i = Ok c.
Proof. intros b i c H. unfold getC. now rewrite H. Qed.
Lemma nth_error_skip : forall A (b : list A) i j, nth_error (skipn i b) j = nth_error b (i + j).
Proof. intros A b i. revert b. induction i as [|i IH]; intros [|x b] j; cbn; auto. destruct j; reflexivity. Qed.
Lemma getC_skip : forall b i, getC b i = match skipn i b with c :: _ => Ok c | [] => if i =? length b then Ok nul else UB end.
Proof.
  intros b i. unfold getC. replace (nth_error b i) with (nth_error (skipn i b) 0).
  - destruct (skipn i b); reflexivity.
  - rewrite nth_error_skip. f_equal. lia.
Qed.

(** ** Purging *)
(** What purging keeps, read off the text from left to right; [None] if a string or comment does not end. *)
Inductive mode := Plain | InString (escaped : bool) | InComment.
Definition ocons (c : ascii) (o : option bytes) : option bytes := match o with Some r => Some (c :: r) | None => None end.
Fixpoint strip (m : mode) (s : bytes) {struct s} : option bytes :=
  match m, s with
  | Plain, [] => Some []
  | Plain, c :: r =>
    if Ascii.eqb c quote then ocons c (strip (InString false) r)
    else if Ascii.eqb c "/" && is_char r "/" then strip InComment r
    else if isWhitespace c then strip Plain r
    else ocons c (strip Plain r)
  | InString _, [] => None
  | InString p, c :: r =>
    if negb (Ascii.eqb c quote) || p then ocons c (strip (InString (Ascii.eqb c backslash)) r)
    else ocons c (strip Plain r)
  | InComment, [] => None
  | InComment, c :: r => if Ascii.eqb c newline then strip Plain r else strip InComment r
  end.
(** The buffer after [o] has been written over the start of [s]. *)
Definition over (o s : bytes) : bytes := o ++ skipn (length o) s.
Lemma over_length : forall o s, length o <= length s -> length (over o s) = length s.
Proof. intros o s H. unfold over. rewrite app_length, skipn_length. lia. Qed.
Lemma over_set : forall o s c, length o < length s -> setC (over o s) (length o) c = Ok (over (o ++ [c]) s).
Proof.
  intros o s c H. unfold setC. rewrite over_length by lia. rewrite (proj2 (Nat.ltb_lt _ _) H). f_equal.
  unfold over. destruct (skipn (length o) s) as [|d r] eqn:E.
  - apply (f_equal (@length ascii)) in E. rewrite skipn_length in E. cbn in E. lia.
  - rewrite set_at_app. rewrite app_length, <- app_assoc. cbn [app length]. do 2 f_equal.
    rewrite Nat.add_comm. rewrite <- skipn_skipn, E. reflexivity.
Qed.
Lemma over_get : forall o s i, length o <= i -> length o <= length s -> getC (over o s) i = getC s i.
Proof.
  intros o s i H L. unfold getC. rewrite over_length by lia. unfold over.
  rewrite nth_error_app2 by lia. rewrite nth_error_skip. do 2 f_equal. replace (length o + (i - length o)) with i by lia. reflexivity.
Qed.
Lemma over_get_last : forall o s c, length o < length s -> getC (over (o ++ [c]) s) (length o) = Ok c.
Proof. intros. unfold over. rewrite <- app_assoc. apply getC_app. Qed.

Lemma ocons_some : forall c o x, ocons c o = Some x -> exists r, o = Some r /\ x = c :: r.
Proof. intros c [r|] x H; [|discriminate]. injection H as <-. eauto. Qed.
Lemma skipn_cons : forall A (s : list A) i c r, skipn i s = c :: r -> skipn (S i) s = r /\ i < length s.
Proof.
  intros A s i c r H. split.
  - change (S i) with (1 + i). now rewrite <- skipn_skipn, H.
  - apply (f_equal (@length A)) in H. rewrite skipn_length in H. cbn in H. lia.
Qed.
Lemma skipn_nil_len : forall A (s : list A) i, skipn i s = [] -> length s <= i.
Proof. intros A s i H. apply (f_equal (@length A)) in H. rewrite skipn_length in H. cbn in H. lia. Qed.

(** The in-string loop copies up to the closing quote. [o] is the output written so far, whose last character is
    the previous character of the text. *)
Lemma purge_string_ok : forall s fuel o c0 i p x, length o < i -> i <= length s ->
  nth_error s (i - 1) = Some c0 -> p = Ascii.eqb c0 backslash ->
  (length s - i < fuel) -> strip (InString p) (skipn i s) = Some x ->
  exists o' i', purge_string fuel (over (o ++ [c0]) s) i (S (length o)) = Ok (over o' s, i', length o') /\
    length o' <= S i' /\ i' < length s /\ i <= i' /\
    exists y, strip Plain (skipn (S i') s) = Some y /\ (o ++ [c0]) ++ x = o' ++ y.
Proof.
  intros s. induction fuel as [|fuel IH]; intros o c0 i p x Lo Li Hc Hp Hf St; [lia|].
  cbn [purge_string]. assert (Hlen : length (o ++ [c0]) = S (length o)) by (rewrite app_length; cbn; lia).
  assert (Hprev : getC (over (o ++ [c0]) s) (i - 1) = Ok c0).
  { destruct (Nat.eq_dec (length o) (i - 1)) as [E|E].
    - rewrite <- E. apply over_get_last. lia.
    - rewrite over_get by lia. now apply getC_nth. }
  destruct (skipn i s) as [|c r] eqn:Sk; [destruct p; discriminate|].
  destruct (skipn_cons _ _ _ _ _ Sk) as (Sk' & Lt).
  assert (Hget : getC (over (o ++ [c0]) s) i = Ok c).
  { rewrite over_get by lia. rewrite getC_skip, Sk. reflexivity. }
  rewrite Hget, Hprev. cbn [obind]. rewrite <- Hp.
  assert (Hset : setC (over (o ++ [c0]) s) (S (length o)) c = Ok (over ((o ++ [c0]) ++ [c]) s)).
  { rewrite <- Hlen. apply over_set. lia. }
  rewrite Hset. cbn [strip] in St. destruct (negb (Ascii.eqb c quote) || p) eqn:B.
  - apply ocons_some in St. destruct St as (x' & St & ->). cbn [obind].
    rewrite <- Hlen.
    destruct (IH (o ++ [c0]) c (S i) (Ascii.eqb c backslash) x') as (o' & i' & E & L1 & L2 & L3 & y & Y1 & Y2); try lia.
    + replace (S i - 1) with i by lia. replace (nth_error s i) with (nth_error (skipn i s) 0) by (rewrite nth_error_skip; f_equal; lia).
      now rewrite Sk.
    + reflexivity.
    + now rewrite Sk'.
    + exists o', i'. split; [exact E|]. split; [lia|]. split; [lia|]. split; [lia|]. exists y. split; [exact Y1|].
      rewrite <- Y2, <- !app_assoc. reflexivity.
  - apply ocons_some in St. destruct St as (x' & St & ->). cbn [obind].
    exists ((o ++ [c0]) ++ [c]), i. split; [|split; [|split; [|split]]].
    + do 2 f_equal. rewrite app_length, Hlen. cbn. lia.
    + rewrite app_length, Hlen. cbn. lia.
    + lia.
    + lia.
    + exists x'. rewrite Sk'. split; [exact St|]. rewrite <- !app_assoc. reflexivity.
Qed.
Lemma skip_comment_ok : forall s fuel o i x, length o <= i -> i <= length s -> length s - i < fuel ->
  strip InComment (skipn i s) = Some x ->
  exists i', skip_comment fuel (over o s) i = Ok i' /\ i <= i' < length s /\ strip Plain (skipn (S i') s) = Some x.
Proof.
  intros s. induction fuel as [|fuel IH]; intros o i x Lo Li Hf St; [lia|].
  destruct (skipn i s) as [|c r] eqn:Sk; [discriminate|]. destruct (skipn_cons _ _ _ _ _ Sk) as (Sk' & Lt).
  cbn [skip_comment]. rewrite over_get, getC_skip, Sk by lia. cbn [obind strip] in *.
  destruct (Ascii.eqb c newline).
  - exists i. rewrite Sk'. split; [reflexivity|]. split; [lia|exact St].
  - destruct (IH o (S i) x) as (i' & E & L & S'); try lia; [now rewrite Sk'|].
    exists i'. split; [exact E|]. split; [lia|exact S'].
Qed.
Lemma purge_ok : forall s fuel o i x, length o <= i -> length s - i <= fuel -> length o <= length s ->
  strip Plain (skipn i s) = Some x ->
  purge fuel (over o s) i (length o) = Ok (over (o ++ x) s, length (o ++ x)).
Proof.
  intros s. induction fuel as [|fuel IH]; intros o i x Lo Hf Ls St.
  - cbn [purge]. rewrite over_length by lia. replace (length s <=? i) with true by (symmetry; apply Nat.leb_le; lia).
    rewrite skipn_all2 in St by lia. injection St as <-. now rewrite app_nil_r.
  - cbn [purge]. rewrite over_length by lia. destruct (Nat.leb_spec (length s) i) as [L|L].
    + rewrite skipn_all2 in St by lia. injection St as <-. now rewrite app_nil_r.
    + destruct (skipn i s) as [|c r] eqn:Sk; [apply skipn_nil_len in Sk; lia|]. destruct (skipn_cons _ _ _ _ _ Sk) as (Sk' & _).
      rewrite over_get, getC_skip, Sk by lia. cbn [obind strip] in *. destruct (Ascii.eqb c quote) eqn:Q.
      * apply ocons_some in St. destruct St as (x' & St & ->). rewrite over_set by lia. cbn [obind].
        rewrite over_length by (rewrite app_length; cbn; lia).
        destruct (purge_string_ok s (S (S (length s))) o c (S i) false x') as (o' & i' & E & L1 & L2 & L3 & y & Y1 & Y2); try lia.
        -- replace (S i - 1) with i by lia. replace (nth_error s i) with (nth_error (skipn i s) 0) by (rewrite nth_error_skip; f_equal; lia).
           now rewrite Sk.
        -- apply Ascii.eqb_eq in Q. subst. reflexivity.
        -- now rewrite Sk'.
        -- rewrite E. cbn [obind]. rewrite <- app_assoc in Y2. cbn [app] in Y2. rewrite Y2. apply IH; try lia. exact Y1.
      * destruct (Ascii.eqb c "/") eqn:Sl.
        -- replace (i + 1) with (S i) by lia. rewrite over_get, getC_skip, Sk' by lia. cbn [andb] in *.
           destruct r as [|d r].
           ++ apply skipn_nil_len in Sk' as Le. replace (S i =? length s) with true by (symmetry; apply Nat.eqb_eq; lia).
              cbn [obind is_char] in *. change (Ascii.eqb nul "/") with false. cbv iota.
              destruct (isWhitespace c) eqn:W.
              ** apply Ascii.eqb_eq in Sl. subst c. discriminate.
              ** apply ocons_some in St. destruct St as (x' & St & ->). rewrite over_set by lia. cbn [obind].
                 replace (o ++ c :: x') with ((o ++ [c]) ++ x') by (rewrite <- app_assoc; reflexivity).
                 replace (S (length o)) with (length (o ++ [c])) by (rewrite app_length; cbn; lia).
                 apply IH; try (rewrite app_length; cbn); try lia. now rewrite Sk'.
           ++ cbn [obind is_char] in *. rewrite (Ascii.eqb_sym d "/"). destruct (Ascii.eqb "/" d) eqn:D.
              ** 
                 destruct (skip_comment_ok s (S (S (length s))) o i x) as (i' & E & L1 & S'); try lia.
                 --- rewrite Sk. apply Ascii.eqb_eq in Sl. subst c. cbn [strip]. change (Ascii.eqb "/" newline) with false. exact St.
                 --- rewrite E. cbn [obind]. apply IH; try lia. exact S'.
              ** destruct (isWhitespace c) eqn:W.
                 --- apply Ascii.eqb_eq in Sl. subst c. discriminate.
                 --- apply ocons_some in St. destruct St as (x' & St & ->). rewrite over_set by lia. cbn [obind].
                     replace (o ++ c :: x') with ((o ++ [c]) ++ x') by (rewrite <- app_assoc; reflexivity).
                     replace (S (length o)) with (length (o ++ [c])) by (rewrite app_length; cbn; lia).
                     apply IH; try (rewrite app_length; cbn); try lia. now rewrite Sk'.
        -- cbn [obind andb] in *. destruct (isWhitespace c) eqn:W.
           ++ apply IH; try lia. now rewrite Sk'.
           ++ apply ocons_some in St. destruct St as (x' & St & ->). rewrite over_set by lia. cbn [obind].
              replace (o ++ c :: x') with ((o ++ [c]) ++ x') by (rewrite <- app_assoc; reflexivity).
              replace (S (length o)) with (length (o ++ [c])) by (rewrite app_length; cbn; lia).
              apply IH; try (rewrite app_length; cbn); try lia. now rewrite Sk'.
Qed.

(** Unterminated strings and comments are read past the end of the text. *)
Lemma purge_string_ub : forall s fuel o c0 i p, length o < i -> i <= length s ->
  nth_error s (i - 1) = Some c0 -> p = Ascii.eqb c0 backslash ->
  (length s - i + 1 < fuel) -> strip (InString p) (skipn i s) = None ->
  purge_string fuel (over (o ++ [c0]) s) i (S (length o)) = UB \/
  exists o' i', purge_string fuel (over (o ++ [c0]) s) i (S (length o)) = Ok (over o' s, i', length o') /\
    length o' <= S i' /\ i' < length s /\ i <= i' /\ strip Plain (skipn (S i') s) = None.
Proof.
  intros s. induction fuel as [|fuel IH]; intros o c0 i p Lo Li Hc Hp Hf St; [lia|].
  cbn [purge_string]. assert (Hlen : length (o ++ [c0]) = S (length o)) by (rewrite app_length; cbn; lia).
  assert (Hprev : getC (over (o ++ [c0]) s) (i - 1) = Ok c0).
  { destruct (Nat.eq_dec (length o) (i - 1)) as [E|E].
    - rewrite <- E. apply over_get_last. lia.
    - rewrite over_get by lia. now apply getC_nth. }
  destruct (skipn i s) as [|c r] eqn:Sk.
  - apply skipn_nil_len in Sk. assert (i = length s) by lia. subst i. left.
    rewrite over_get, getC_end, Hprev by lia. cbn [obind]. change (Ascii.eqb nul quote) with false. cbn [negb orb].
    rewrite <- Hlen. destruct (Nat.eq_dec (length (o ++ [c0])) (length s)) as [E|E].
    + unfold setC. rewrite over_length by lia. rewrite (proj2 (Nat.ltb_ge _ _)) by lia. reflexivity.
    + rewrite over_set by lia. cbn [obind]. destruct fuel as [|fuel]; [lia|]. cbn [purge_string].
      rewrite over_get by (rewrite !app_length in *; cbn in *; lia).
      unfold getC at 1. rewrite (proj2 (nth_error_None _ _)) by lia.
      replace (S (length s) =? length s) with false by (symmetry; apply Nat.eqb_neq; lia). reflexivity.
  - destruct (skipn_cons _ _ _ _ _ Sk) as (Sk' & Lt).
    assert (Hget : getC (over (o ++ [c0]) s) i = Ok c).
    { rewrite over_get by lia. rewrite getC_skip, Sk. reflexivity. }
    rewrite Hget, Hprev. cbn [obind]. rewrite <- Hp.
    assert (Hset : setC (over (o ++ [c0]) s) (S (length o)) c = Ok (over ((o ++ [c0]) ++ [c]) s)).
    { rewrite <- Hlen. apply over_set. lia. }
    rewrite Hset. cbn [strip] in St. destruct (negb (Ascii.eqb c quote) || p) eqn:B.
    + destruct (strip (InString (Ascii.eqb c backslash)) r) eqn:S2; [discriminate|]. cbn [obind]. rewrite <- Hlen.
      destruct (IH (o ++ [c0]) c (S i) (Ascii.eqb c backslash)) as [U|(o' & i' & E & L1 & L2 & L3 & Y1)]; try lia.
      * replace (S i - 1) with i by lia. replace (nth_error s i) with (nth_error (skipn i s) 0) by (rewrite nth_error_skip; f_equal; lia).
        now rewrite Sk.
      * reflexivity.
      * now rewrite Sk'.
      * left. exact U.
      * right. exists o', i'. split; [exact E|]. split; [lia|]. split; [lia|]. split; [lia|]. exact Y1.
    + destruct (strip Plain r) eqn:S2; [discriminate|]. cbn [obind]. right.
      exists ((o ++ [c0]) ++ [c]), i. split; [|split; [|split; [|split]]].
      * do 2 f_equal. rewrite app_length, Hlen. cbn. lia.
      * rewrite app_length, Hlen. cbn. lia.
      * lia.
      * lia.
      * now rewrite Sk'.
Qed.
Lemma skip_comment_ub : forall s fuel o i, length o <= i -> i <= length s -> length s - i + 1 < fuel ->
  strip InComment (skipn i s) = None ->
  skip_comment fuel (over o s) i = UB \/
  exists i', skip_comment fuel (over o s) i = Ok i' /\ i <= i' < length s /\ strip Plain (skipn (S i') s) = None.
Proof.
  intros s. induction fuel as [|fuel IH]; intros o i Lo Li Hf St; [lia|]. cbn [skip_comment].
  destruct (skipn i s) as [|c r] eqn:Sk.
  - apply skipn_nil_len in Sk. assert (i = length s) by lia. subst i. left. rewrite over_get, getC_end by lia. cbn [obind].
    change (Ascii.eqb nul newline) with false. cbv iota. destruct fuel as [|fuel]; [lia|]. cbn [skip_comment].
    rewrite over_get by lia. unfold getC. rewrite (proj2 (nth_error_None _ _)) by lia.
    replace (S (length s) =? length s) with false by (symmetry; apply Nat.eqb_neq; lia). reflexivity.
  - destruct (skipn_cons _ _ _ _ _ Sk) as (Sk' & Lt). rewrite over_get, getC_skip, Sk by lia. cbn [obind strip] in *.
    destruct (Ascii.eqb c newline).
    + right. exists i. rewrite Sk'. split; [reflexivity|]. split; [lia|exact St].
    + destruct (IH o (S i)) as [U|(i' & E & L & S')]; try lia; [now rewrite Sk'|left; exact U|].
      right. exists i'. split; [exact E|]. split; [lia|exact S'].
Qed.
Lemma purge_ub : forall s fuel o i, length o <= i -> length s - i <= fuel -> length o <= length s ->
  strip Plain (skipn i s) = None -> purge fuel (over o s) i (length o) = UB.
Proof.
  intros s. induction fuel as [|fuel IH]; intros o i Lo Hf Ls St.
  - rewrite skipn_all2 in St by lia. discriminate.
  - cbn [purge]. rewrite over_length by lia. destruct (Nat.leb_spec (length s) i) as [L|L].
    + rewrite skipn_all2 in St by lia. discriminate.
    + destruct (skipn i s) as [|c r] eqn:Sk; [discriminate|]. destruct (skipn_cons _ _ _ _ _ Sk) as (Sk' & _).
      assert (Keep : strip Plain r = None -> obind (setC (over o s) (length o) c) (fun b => purge fuel b (S i) (S (length o))) = UB).
      { intros Sr. rewrite over_set by lia. cbn [obind].
        replace (S (length o)) with (length (o ++ [c])) by (rewrite app_length; cbn; lia).
        apply IH; try (rewrite app_length; cbn); try lia. now rewrite Sk'. }
      rewrite over_get, getC_skip, Sk by lia. cbn [obind strip] in *. destruct (Ascii.eqb c quote) eqn:Q.
      * destruct (strip (InString false) r) eqn:S2; [discriminate|]. rewrite over_set by lia. cbn [obind].
        rewrite over_length by (rewrite app_length; cbn; lia).
        destruct (purge_string_ub s (S (S (length s))) o c (S i) false) as [U|(o' & i' & E & L1 & L2 & L3 & Y1)]; try lia.
        -- replace (S i - 1) with i by lia. replace (nth_error s i) with (nth_error (skipn i s) 0) by (rewrite nth_error_skip; f_equal; lia).
           now rewrite Sk.
        -- apply Ascii.eqb_eq in Q. subst. reflexivity.
        -- now rewrite Sk'.
        -- rewrite U. reflexivity.
        -- rewrite E. cbn [obind]. apply IH; try lia. exact Y1.
      * destruct (Ascii.eqb c "/") eqn:Sl.
        -- assert (W : isWhitespace c = false) by (apply Ascii.eqb_eq in Sl; subst c; reflexivity). rewrite W in *.
           replace (i + 1) with (S i) by lia. rewrite over_get, getC_skip, Sk' by lia. cbn [andb] in *.
           destruct r as [|d r].
           ++ apply skipn_nil_len in Sk' as Le. replace (S i =? length s) with true by (symmetry; apply Nat.eqb_eq; lia).
              cbn [obind is_char] in *. discriminate.
           ++ cbn [obind is_char] in *. rewrite (Ascii.eqb_sym d "/"). destruct (Ascii.eqb "/" d) eqn:D.
              ** destruct (skip_comment_ub s (S (S (length s))) o i) as [U|(i' & E & L1 & S')]; try lia.
                 --- rewrite Sk. apply Ascii.eqb_eq in Sl. subst c. cbn [strip]. change (Ascii.eqb "/" newline) with false. exact St.
                 --- rewrite U. reflexivity.
                 --- rewrite E. cbn [obind]. apply IH; try lia. exact S'.
              ** apply Keep. destruct (strip Plain (d :: r)); [discriminate|reflexivity].
        -- cbn [obind andb] in *. destruct (isWhitespace c) eqn:W.
           ++ apply IH; try lia. now rewrite Sk'.
           ++ apply Keep. destruct (strip Plain r); [discriminate|reflexivity].
Qed.
Lemma over_nil : forall s, over [] s = s.
Proof. reflexivity. Qed.
(** Reading is parsing the stripped text followed by what is left of the original buffer. *)
Lemma parse_text_eq : forall s, (N.of_nat (length s) < 2 ^ 31)%N -> parse_text s =
  match strip Plain s with
  | Some x => obind (parse_val (over x s) (length x) (2 * length s + 4) 0) (fun r => Ok (fst r))
  | None => UB
  end.
Proof.
  intros s L. unfold parse_text. replace (2 ^ 31 <=? N.of_nat (length s))%N with false by (symmetry; apply N.leb_gt; exact L).
  destruct (strip Plain s) as [x|] eqn:S.
  - change (purge (length s) s 0 0) with (purge (length s) (over [] s) 0 (length (@nil ascii))). rewrite (purge_ok s (length s) [] 0 x) by (cbn; auto; lia). reflexivity.
  - change (purge (length s) s 0 0) with (purge (length s) (over [] s) 0 (length (@nil ascii))). rewrite (purge_ub s (length s) [] 0) by (cbn; auto; lia). reflexivity.
Qed.
Lemma strip_length : forall s m x, strip m s = Some x -> length x <= length s.
Proof.
  induction s as [|c s IH]; intros m x H; destruct m; cbn [strip] in H; try discriminate.
  - injection H as <-. cbn. lia.
  - destruct (Ascii.eqb c quote); [apply ocons_some in H; destruct H as (r & H & ->); apply IH in H; cbn; lia|].
    destruct (Ascii.eqb c "/" && is_char s "/"); [apply IH in H; cbn; lia|].
    destruct (isWhitespace c); [apply IH in H; cbn; lia|]. apply ocons_some in H; destruct H as (r & H & ->); apply IH in H; cbn; lia.
  - destruct (negb (Ascii.eqb c quote) || escaped); apply ocons_some in H; destruct H as (r & H & ->); apply IH in H; cbn; lia.
  - destruct (Ascii.eqb c newline); apply IH in H; cbn; lia.
Qed.

(** ** Unfolding of the parser *)
Local Notation "'let!' x := e 'in' f" := (obind e (fun x => f))
  (at level 200, x pattern, e at level 100, f at level 200, right associativity).
Lemma parse_val_S : forall b rs fuel idx, parse_val b rs (S fuel) idx =
  (let! c := getC b idx in
    if Ascii.eqb c "{" then
      let! d := getC b (S idx) in
      if Ascii.eqb d "}" then Ok (JObj [], S (S idx))
      else let! r := parse_members b rs fuel (S idx) [] in Ok (JObj (fst r), S (snd r))
    else if Ascii.eqb c "[" then
      let! d := getC b (S idx) in
      if Ascii.eqb d "]" then Ok (JArr [], S (S idx))
      else let! r := parse_items b rs fuel (S idx) [] in Ok (JArr (fst r), S (snd r))
    else if Ascii.eqb c quote then let! r := readStr b idx in Ok (JStr (fst r), snd r)
    else if Ascii.eqb c "t" then let! i := match_kw b rs (lit "true") idx in Ok (JBln true, i)
    else if Ascii.eqb c "f" then let! i := match_kw b rs (lit "false") idx in Ok (JBln false, i)
    else if Ascii.eqb c "n" then let! i := match_kw b rs (lit "null") idx in Ok (JNll, i)
    else if isNumStart c then parseNum b idx
    else throwError rs idx "Invalid value"%string).
Proof. reflexivity. Qed.
Lemma parse_items_S : forall b rs fuel idx acc, parse_items b rs (S fuel) idx acc =
  (let! (v, idx) := parse_val b rs fuel idx in
    let acc := acc ++ [v] in
    let! c := getC b idx in
    if Ascii.eqb c "," then parse_items b rs fuel (S idx) acc
    else if Ascii.eqb c "]" then Ok (acc, idx)
    else throwError rs idx "Invalid array"%string).
Proof. reflexivity. Qed.
Lemma parse_members_S : forall b rs fuel idx o, parse_members b rs (S fuel) idx o =
  (let! c := getC b idx in
    if negb (Ascii.eqb c quote) then throwError rs idx "Invalid object"%string
    else
      let! (key, idx) := readStr b idx in
      let! c := getC b idx in
      if negb (Ascii.eqb c ":") then throwError rs idx "Invalid object"%string
      else
        let! (v, idx) := parse_val b rs fuel (S idx) in
        let! o := vm_step bytes_ltb bytes_eqb JNll o (Assign key v) in
        let! c := getC b idx in
        if Ascii.eqb c "," then parse_members b rs fuel (S idx) o
        else if Ascii.eqb c "}" then Ok (o, idx)
        else throwError rs idx "Invalid object"%string).
Proof. reflexivity. Qed.
