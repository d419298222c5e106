(** Proofs about the JSON reader in a debug build. *)
From Coq Require Import String Ascii ZArith NArith Arith Bool Lia List.
From Coq Require Import Floats.SpecFloat.
From Verif Require Import Common VecModel VecSpec VecProofs IntToStrModel IntToStrSpec JsonNumModel JsonNumProofs JsonModel JsonSpec JsonProofs JsonReadProofs JsonTextProofs JsonSafeProofs JsonDbgModel JsonDbgSpec.
Import ListNotations.
Local Open Scope nat_scope.
Local Notation "'let!' x := e 'in' f" := (obind e (fun x => f))
  (at level 200, x pattern, e at level 100, f at level 200, right associativity).

Lemma dparse_val_S : forall b rs fuel idx, dparse_val b rs (S fuel) idx =
  (let! c := dgetC b idx in
    if Ascii.eqb c "{" then
      let! d := dgetC b (S idx) in
      if Ascii.eqb d "}" then Ok (JObj [], S (S idx))
      else let! r := dparse_members b rs fuel (S idx) [] in Ok (JObj (fst r), S (snd r))
    else if Ascii.eqb c "[" then
      let! d := dgetC b (S idx) in
      if Ascii.eqb d "]" then Ok (JArr [], S (S idx))
      else let! r := dparse_items b rs fuel (S idx) [] in Ok (JArr (fst r), S (snd r))
    else if Ascii.eqb c quote then let! r := dreadStr b idx in Ok (JStr (fst r), snd r)
    else if Ascii.eqb c "t" then let! i := dmatch_kw b rs (lit "true") idx in Ok (JBln true, i)
    else if Ascii.eqb c "f" then let! i := dmatch_kw b rs (lit "false") idx in Ok (JBln false, i)
    else if Ascii.eqb c "n" then let! i := dmatch_kw b rs (lit "null") idx in Ok (JNll, i)
    else if isNumStart c then parseNum b idx
    else throwError rs idx "Invalid value"%string).
Proof. reflexivity. Qed.
Lemma dparse_items_S : forall b rs fuel idx acc, dparse_items b rs (S fuel) idx acc =
  (let! (v, idx) := dparse_val b rs fuel idx in
    let acc := acc ++ [v] in
    let! c := dgetC b idx in
    if Ascii.eqb c "," then dparse_items b rs fuel (S idx) acc
    else if Ascii.eqb c "]" then Ok (acc, idx)
    else throwError rs idx "Invalid array"%string).
Proof. reflexivity. Qed.
Lemma dparse_members_S : forall b rs fuel idx o, dparse_members b rs (S fuel) idx o =
  (let! c := dgetC b idx in
    if negb (Ascii.eqb c quote) then throwError rs idx "Invalid object"%string
    else
      let! (key, idx) := dreadStr b idx in
      let! c := dgetC b idx in
      if negb (Ascii.eqb c ":") then throwError rs idx "Invalid object"%string
      else
        let! (v, idx) := dparse_val b rs fuel (S idx) in
        let! o := vm_step bytes_ltb bytes_eqb JNll o (Assign key v) in
        let! c := dgetC b idx in
        if Ascii.eqb c "," then dparse_members b rs fuel (S idx) o
        else if Ascii.eqb c "}" then Ok (o, idx)
        else throwError rs idx "Invalid object"%string).
Proof. reflexivity. Qed.

(** ** The debug build stops or does what the release build does *)
Definition le {A} (d r : outcome A) : Prop := d = UB \/ d = r.
Lemma le_refl : forall A (d : outcome A), le d d.
Proof. right. reflexivity. Qed.
Lemma le_bind : forall A B (d r : outcome A) (f g : A -> outcome B), le d r -> (forall x, le (f x) (g x)) -> le (obind d f) (obind r g).
Proof. intros A B d r f g [->| ->] H; [left; reflexivity|]. destruct r; cbn [obind]; auto using le_refl. Qed.
Lemma le_get : forall b i, le (dgetC b i) (getC b i).
Proof. intros b i. unfold dgetC, getC. destruct (nth_error b i); [right; reflexivity|left; reflexivity]. Qed.
#[local] Hint Resolve le_refl le_get : core.
Ltac le_step := match goal with
  | |- le ?x ?x => apply le_refl
  | |- le (dgetC _ _) _ => apply le_get
  | |- le (obind _ _) _ => apply le_bind; [|intros]
  | |- le (if ?c then _ else _) _ => destruct c
  | |- le (match ?x with (_, _) => _ end) _ => destruct x
  end.
Lemma le_purge_string : forall fuel b i pi, le (dpurge_string fuel b i pi) (purge_string fuel b i pi).
Proof. induction fuel as [|fuel IH]; intros b i pi; cbn [dpurge_string purge_string]; repeat (le_step || apply IH). Qed.
Lemma le_comment : forall fuel b i, le (dskip_comment fuel b i) (skip_comment fuel b i).
Proof. induction fuel as [|fuel IH]; intros b i; cbn [dskip_comment skip_comment]; repeat (le_step || apply IH). Qed.
Lemma le_purge : forall fuel b i pi, le (dpurge fuel b i pi) (purge fuel b i pi).
Proof. induction fuel as [|fuel IH]; intros b i pi; cbn [dpurge purge]; destruct (length b <=? i); auto; repeat (apply IH || le_step || apply le_purge_string || apply le_comment). Qed.
Section LE.
Context (b : bytes) (rs : nat).
Lemma le_kw : forall w i, le (dmatch_kw b rs w i) (match_kw b rs w i).
Proof. induction w as [|c w IH]; intros i; cbn [dmatch_kw match_kw]; repeat (le_step || apply IH). Qed.
Lemma le_find : forall fuel e, le (dfind_end b fuel e) (find_end b fuel e).
Proof.
  induction fuel as [|fuel IH]; intros e; cbn [dfind_end find_end]; auto. apply le_bind; auto. intros c. destruct (Ascii.eqb c quote); auto.
  destruct (Ascii.eqb c backslash); auto. unfold dgetC. destruct (nth_error b (S e)); cbn [obind]; [|left; reflexivity].
  destruct (isValidEscapeSequenceChar a); [apply IH|left; reflexivity].
Qed.
Lemma le_decode : forall fuel i e acc, le (ddecode b fuel i e acc) (decode b fuel i e acc).
Proof. induction fuel as [|fuel IH]; intros i e acc; cbn [ddecode decode]; destruct (e <=? i); auto; repeat (le_step || apply IH). Qed.
Lemma le_readStr : forall i, le (dreadStr b i) (readStr b i).
Proof. intros i. unfold dreadStr, readStr. repeat (apply le_find || apply le_decode || le_step). Qed.
Lemma le_parse : forall fuel, (forall i, le (dparse_val b rs fuel i) (parse_val b rs fuel i)) /\
  (forall i acc, le (dparse_items b rs fuel i acc) (parse_items b rs fuel i acc)) /\
  (forall i o, le (dparse_members b rs fuel i o) (parse_members b rs fuel i o)).
Proof.
  induction fuel as [|fuel (IHv & IHi & IHm)]; [repeat split; intros; apply le_refl|]. split; [|split]; intros.
  - rewrite dparse_val_S, parse_val_S. repeat first [le_step|match goal with |- le (dparse_items _ _ _ _ _) _ => apply IHi | |- le (dparse_members _ _ _ _ _) _ => apply IHm | |- le (dreadStr _ _) _ => apply le_readStr | |- le (dmatch_kw _ _ _ _) _ => apply le_kw end].
  - rewrite dparse_items_S, parse_items_S. cbv zeta. repeat first [le_step|match goal with |- le (dparse_items _ _ _ _ _) _ => apply IHi | |- le (dparse_val _ _ _ _) _ => apply IHv end].
  - rewrite dparse_members_S, parse_members_S. repeat first [le_step|match goal with |- le (dparse_members _ _ _ _ _) _ => apply IHm | |- le (dparse_val _ _ _ _) _ => apply IHv | |- le (dreadStr _ _) _ => apply le_readStr end].
Qed.
End LE.
Lemma le_text : forall s, le (dparse_text s) (parse_text s).
Proof.
  intros s. unfold dparse_text, parse_text. destruct (_ <=? _)%N; auto. apply le_bind; [apply le_purge|]. intros [b rs]. apply le_bind; [apply le_parse|]. auto.
Qed.

(** ** A text read by the release build *)
Lemma get_in : forall b i, i < length b -> dgetC b i = getC b i.
Proof. intros b i H. unfold dgetC, getC. destruct (nth_error b i) eqn:E; [reflexivity|]. apply nth_error_None in E. lia. Qed.
Lemma get_ok : forall b i c, getC b i = Ok c -> dgetC b i = Ok c \/ c = nul /\ i = length b.
Proof.
  intros b i c. unfold dgetC, getC. destruct (nth_error b i); [auto|]. destruct (Nat.eqb_spec i (length b)); [|discriminate]. intros [= <-]. auto.
Qed.
Lemma esc_valid : forall c x, getEscapeSequence c = Ok x -> isValidEscapeSequenceChar c = true.
Proof.
  intros c x. unfold getEscapeSequence, isValidEscapeSequenceChar.
  destruct (Ascii.eqb c quote), (Ascii.eqb c backslash), (Ascii.eqb c "/"), (Ascii.eqb c "b"), (Ascii.eqb c "f"), (Ascii.eqb c "n"), (Ascii.eqb c "r"), (Ascii.eqb c "t"); cbn; auto; discriminate.
Qed.
Section OK.
Context (b : bytes) (rs : nat).
Lemma decode_in : forall fuel i e acc, e < length b -> ddecode b fuel i e acc = decode b fuel i e acc.
Proof.
  induction fuel as [|fuel IH]; intros i e acc L; cbn [ddecode decode]; [reflexivity|]. destruct (Nat.leb_spec e i) as [|H]; [reflexivity|].
  rewrite get_in by lia. destruct (getC b i) as [c| | |]; cbn [obind]; auto. destruct (Ascii.eqb c backslash); [|apply IH; exact L].
  rewrite get_in by lia. destruct (getC b (S i)); cbn [obind]; auto. destruct (getEscapeSequence a); cbn [obind]; auto.
Qed.
Lemma find_ok : forall f1 i e, find_end b f1 i = Ok e -> forall f2 acc d, decode b f2 i e acc = Ok d -> dfind_end b f1 i = Ok e.
Proof.
  induction f1 as [|f1 IH]; intros i e F f2 acc d H; [discriminate|]. pose proof (find_end_bound _ _ _ _ F) as (Be & _).
  cbn [find_end] in F. cbn [dfind_end]. rewrite get_in by lia. destruct (getC b i) as [c| | |] eqn:G; try discriminate. cbn [obind] in *.
  destruct (Ascii.eqb_spec c quote) as [->|Nq]; [exact F|].
  assert (Le : S i <= e) by (destruct (Ascii.eqb c backslash); apply find_end_bound in F; lia).
  destruct f2 as [|f2]; cbn [decode] in H; replace (e <=? i) with false in H by (symmetry; apply Nat.leb_gt; lia); [discriminate|].
  rewrite G in H. cbn [obind] in H. destruct (Ascii.eqb_spec c backslash) as [->|Nb]; [|eapply IH; eauto].
  rewrite get_in by lia. destruct (getC b (S i)) as [c1| | |]; try discriminate. cbn [obind] in *. destruct (getEscapeSequence c1) as [y| | |] eqn:E; try discriminate.
  cbn [obind] in H. rewrite (esc_valid _ _ E). eapply IH; eauto.
Qed.
Lemma readStr_ok : forall i x, readStr b i = Ok x -> dreadStr b i = Ok x.
Proof.
  intros i x. unfold dreadStr, readStr. destruct (find_end b (S (S (length b))) (S i)) as [e| | |] eqn:F; try discriminate. cbn [obind].
  destruct (decode b (S (length b)) (S i) e []) as [d| | |] eqn:D; try discriminate. intros H. rewrite (find_ok _ _ _ F _ _ _ D). cbn [obind].
  rewrite decode_in, D by (apply find_end_bound in F; lia). exact H.
Qed.
Lemma kw_ok : forall w i x, ~ In nul w -> match_kw b rs w i = Ok x -> dmatch_kw b rs w i = Ok x.
Proof.
  induction w as [|c w IH]; intros i x N; cbn [match_kw dmatch_kw]; auto. destruct (getC b i) as [d| | |] eqn:G; try discriminate. cbn [obind].
  destruct (Ascii.eqb_spec d c) as [->|]; [|intros H; exfalso; eapply throw_ok; eauto].
  destruct (get_ok _ _ _ G) as [->|[-> _]]; [|exfalso; apply N; left; reflexivity]. cbn [obind]. rewrite Ascii.eqb_refl. apply IH. intros I. apply N. right. exact I.
Qed.
Lemma parse_ok : forall fuel, (forall i x, parse_val b rs fuel i = Ok x -> dparse_val b rs fuel i = Ok x) /\
  (forall i acc x, parse_items b rs fuel i acc = Ok x -> dparse_items b rs fuel i acc = Ok x) /\
  (forall i o x, parse_members b rs fuel i o = Ok x -> dparse_members b rs fuel i o = Ok x).
Proof.
  induction fuel as [|fuel (IHv & IHi & IHm)]; [repeat split; intros; discriminate|]. destruct no_nul as (N1 & N2 & N3). split; [|split].
  - intros i x. rewrite dparse_val_S, parse_val_S. destruct (getC b i) as [c| | |] eqn:G; try discriminate. cbn [obind].
    destruct (get_ok _ _ _ G) as [->|[-> _]]; [|cbn; intros H; exfalso; eapply throw_ok; eauto]. cbn [obind].
    destruct (Ascii.eqb c "{").
    { destruct (getC b (S i)) as [d| | |] eqn:G1; try discriminate. cbn [obind]. destruct (get_ok _ _ _ G1) as [->|[-> _]].
      - cbn [obind]. destruct (Ascii.eqb d "}"); [exact (fun H => H)|]. destruct (parse_members b rs fuel (S i) []) as [r| | |] eqn:P; try discriminate. rewrite (IHm _ _ _ P). exact (fun H => H).
      - change (Ascii.eqb nul "}") with false. cbv iota. destruct (parse_members b rs fuel (S i) []) as [r| | |] eqn:P; try discriminate. exfalso. destruct fuel; [discriminate|].
        rewrite parse_members_S, G1 in P. cbn in P. eapply throw_ok; eauto. }
    destruct (Ascii.eqb c "[").
    { destruct (getC b (S i)) as [d| | |] eqn:G1; try discriminate. cbn [obind]. destruct (get_ok _ _ _ G1) as [->|[-> _]].
      - cbn [obind]. destruct (Ascii.eqb d "]"); [exact (fun H => H)|]. destruct (parse_items b rs fuel (S i) []) as [r| | |] eqn:P; try discriminate. rewrite (IHi _ _ _ P). exact (fun H => H).
      - change (Ascii.eqb nul "]") with false. cbv iota. destruct (parse_items b rs fuel (S i) []) as [r| | |] eqn:P; try discriminate. exfalso. destruct fuel as [|fuel]; [discriminate|].
        rewrite parse_items_S in P. destruct fuel as [|fuel]; [discriminate|]. rewrite parse_val_S, G1 in P. cbn in P. unfold throwError in P. destruct (_ || _); discriminate. }
    destruct (Ascii.eqb c quote).
    { destruct (readStr b i) as [r| | |] eqn:R; try discriminate. rewrite (readStr_ok _ _ R). exact (fun H => H). }
    destruct (Ascii.eqb c "t"). { destruct (match_kw b rs (lit "true") i) as [r| | |] eqn:R; try discriminate. rewrite (kw_ok _ _ _ N1 R). exact (fun H => H). }
    destruct (Ascii.eqb c "f"). { destruct (match_kw b rs (lit "false") i) as [r| | |] eqn:R; try discriminate. rewrite (kw_ok _ _ _ N2 R). exact (fun H => H). }
    destruct (Ascii.eqb c "n"). { destruct (match_kw b rs (lit "null") i) as [r| | |] eqn:R; try discriminate. rewrite (kw_ok _ _ _ N3 R). exact (fun H => H). }
    exact (fun H => H).
  - intros i acc x. rewrite dparse_items_S, parse_items_S. cbv zeta. destruct (parse_val b rs fuel i) as [[v k]| | |] eqn:P; try discriminate. rewrite (IHv _ _ P). cbn [obind].
    destruct (getC b k) as [c| | |] eqn:G; try discriminate. cbn [obind]. destruct (get_ok _ _ _ G) as [->|[-> _]]; [|cbn; intros H; exfalso; eapply throw_ok; eauto]. cbn [obind].
    destruct (Ascii.eqb c ","); [apply IHi|exact (fun H => H)].
  - intros i o x. rewrite dparse_members_S, parse_members_S. destruct (getC b i) as [c0| | |] eqn:G0; try discriminate. cbn [obind].
    destruct (get_ok _ _ _ G0) as [->|[-> _]]; [|cbn; intros H; exfalso; eapply throw_ok; eauto]. cbn [obind]. destruct (Ascii.eqb c0 quote); cbn [negb]; [|exact (fun H => H)].
    destruct (readStr b i) as [[key k0]| | |] eqn:R; try discriminate. rewrite (readStr_ok _ _ R). cbn [obind].
    destruct (getC b k0) as [c1| | |] eqn:G1; try discriminate. cbn [obind]. destruct (get_ok _ _ _ G1) as [->|[-> _]]; [|cbn; intros H; exfalso; eapply throw_ok; eauto]. cbn [obind].
    destruct (Ascii.eqb c1 ":"); cbn [negb]; [|exact (fun H => H)]. destruct (parse_val b rs fuel (S k0)) as [[v k]| | |] eqn:P; try discriminate. rewrite (IHv _ _ P). cbn [obind].
    destruct (vm_step bytes_ltb bytes_eqb JNll o (Assign key v)) as [o'| | |]; try discriminate. cbn [obind].
    destruct (getC b k) as [c| | |] eqn:G; try discriminate. cbn [obind]. destruct (get_ok _ _ _ G) as [->|[-> _]]; [|cbn; intros H; exfalso; eapply throw_ok; eauto]. cbn [obind].
    destruct (Ascii.eqb c ","); [apply IHm|exact (fun H => H)].
Qed.
End OK.

(** ** The first pass *)
Definition ends_in (b : bytes) (c : ascii) : Prop := exists r, b = r ++ [c].
Lemma ends_nth : forall b c, ends_in b c <-> nth_error b (length b - 1) = Some c.
Proof.
  intros b c. split.
  - intros [r ->]. rewrite app_length. cbn [length]. replace (length r + 1 - 1) with (length r) by lia. rewrite nth_error_app2, Nat.sub_diag by lia. reflexivity.
  - intros H. destruct (exists_last (l := b)) as (r & d & ->); [intros ->; discriminate|]. rewrite app_length in H. cbn [length] in H.
    replace (length r + 1 - 1) with (length r) in H by lia. rewrite nth_error_app2, Nat.sub_diag in H by lia. injection H as ->. exists r. reflexivity.
Qed.
Lemma set_nth : forall (x : ascii) b i j b', setC b i x = Ok b' -> nth_error b' j = (if i =? j then Some x else nth_error b j) /\ length b' = length b.
Proof.
  intros x b i j b'. unfold setC. destruct (Nat.ltb_spec i (length b)) as [H|]; [|discriminate]. intros E. injection E as <-. change (set_at i x b) with (firstn i b ++ x :: skipn (S i) b). split.
  - assert (Hl : length (firstn i b) = i) by (rewrite firstn_length; lia). destruct (Nat.eqb_spec i j) as [->|N].
    + rewrite nth_error_app2 by lia. rewrite Hl, Nat.sub_diag. reflexivity.
    + destruct (Nat.lt_ge_cases j i) as [L|L].
      * rewrite nth_error_app1 by lia. rewrite <- (firstn_skipn i b) at 2. rewrite nth_error_app1 by lia. reflexivity.
      * rewrite nth_error_app2 by lia. rewrite Hl. replace (j - i) with (S (j - S i)) by lia. refine (eq_trans (nth_error_skip _ b (S i) (j - S i)) _). f_equal. lia.
  - rewrite app_length, firstn_length. cbn [length]. rewrite skipn_length. lia.
Qed.

(** Release succeeds and the text does not end in a slash: debug does the same.  It ends in one: debug stops. *)
Lemma ps_ok : forall fuel b i pi r, pi <= i -> 0 < i -> purge_string fuel b i pi = Ok r -> dpurge_string fuel b i pi = Ok r /\
  i <= snd (fst r) < length b /\ snd r <= S (snd (fst r)) /\ length (fst (fst r)) = length b /\
  (forall j, snd (fst r) < j -> nth_error (fst (fst r)) j = nth_error b j) /\ nth_error b (snd (fst r)) = Some quote.
Proof.
  induction fuel as [|fuel IH]; intros b i pi r Hp Hi; cbn [purge_string dpurge_string]; [discriminate|].
  destruct (getC b i) as [c| | |] eqn:G; try discriminate. cbn [obind]. destruct (getC b (i - 1)) as [p| | |] eqn:Gp; try discriminate. cbn [obind].
  destruct (Nat.lt_ge_cases i (length b)) as [L|L].
  - rewrite (get_in b i), (get_in b (i - 1)), G, Gp by lia. cbn [obind].
    destruct (negb (Ascii.eqb c quote) || Ascii.eqb p backslash) eqn:E.
    + destruct (setC b pi c) as [b1| | |] eqn:Es; try discriminate. cbn [obind]. intros H. destruct (IH b1 (S i) (S pi) r ltac:(lia) ltac:(lia) H) as (H1 & H2 & H3 & H4 & H5 & H6).
      destruct (set_nth _ _ _ 0 _ Es) as [_ Hl]. split; [exact H1|]. split; [lia|]. split; [lia|]. split; [congruence|]. split.
      * intros j Hj. rewrite H5 by lia. rewrite (proj1 (set_nth _ _ _ j _ Es)). replace (pi =? j) with false by (symmetry; apply Nat.eqb_neq; lia). reflexivity.
      * rewrite (proj1 (set_nth _ _ _ (snd (fst r)) _ Es)) in H6. replace (pi =? snd (fst r)) with false in H6 by (symmetry; apply Nat.eqb_neq; lia). exact H6.
    + destruct (setC b pi c) as [b1| | |] eqn:Es; try discriminate. cbn [obind]. intros [= <-]. cbn [fst snd]. split; [reflexivity|]. split; [lia|]. split; [lia|].
      split; [apply (set_nth _ _ _ 0 _ Es)|]. split.
      * intros j Hj. rewrite (proj1 (set_nth _ _ _ j _ Es)). replace (pi =? j) with false by (symmetry; apply Nat.eqb_neq; lia). reflexivity.
      * apply orb_false_iff in E. destruct E as [E _]. apply negb_false_iff, Ascii.eqb_eq in E. subst c. unfold getC in G. destruct (nth_error b i); [congruence|]. destruct (i =? length b); discriminate.
  - intros H. exfalso. assert (i = length b) as -> by (unfold getC in G; rewrite (proj2 (nth_error_None _ _)) in G by lia; destruct (Nat.eqb_spec i (length b)); [assumption|discriminate]).
    rewrite getC_end in G. injection G as <-. cbn [Ascii.eqb negb orb] in H. change (Ascii.eqb nul quote) with false in H. cbn [negb orb] in H.
    destruct (setC b pi nul) as [b1| | |] eqn:Es; try discriminate. cbn [obind] in H. destruct (IH b1 (S (length b)) (S pi) r ltac:(lia) ltac:(lia) H) as (_ & H2 & _).
    destruct (set_nth _ _ _ 0 _ Es) as [_ Hl]. lia.
Qed.
Lemma sc_ok : forall fuel b i r, skip_comment fuel b i = Ok r -> dskip_comment fuel b i = Ok r /\ i <= r < length b /\ nth_error b r = Some newline.
Proof.
  induction fuel as [|fuel IH]; intros b i r; cbn [skip_comment dskip_comment]; [discriminate|]. destruct (getC b i) as [c| | |] eqn:G; try discriminate. cbn [obind].
  destruct (get_ok _ _ _ G) as [G'|[-> ->]].
  - rewrite G'. cbn [obind]. unfold dgetC in G'. destruct (nth_error b i) eqn:E; [|discriminate]. injection G' as ->.
    assert (i < length b) by (apply nth_error_Some; congruence).
    destruct (Ascii.eqb_spec c newline) as [->|]; [intros [= <-]; repeat split; auto|]. intros H1. destruct (IH _ _ _ H1) as (H2 & H3 & H4). repeat split; auto; lia.
  - change (Ascii.eqb nul newline) with false. cbv iota. intros H. exfalso. destruct (IH _ _ _ H) as (_ & H3 & _). lia.
Qed.
Definition last_is (b : bytes) (c : ascii) : Prop := nth_error b (length b - 1) = Some c.
Lemma purge_good : forall fuel b i pi r, pi <= i -> (i < length b -> ~ last_is b "/") -> purge fuel b i pi = Ok r -> dpurge fuel b i pi = Ok r.
Proof.
  unfold last_is. induction fuel as [|fuel IH]; intros b i pi r Hp Hl; cbn [purge dpurge]; destruct (Nat.leb_spec (length b) i) as [|Li]; auto.
  specialize (Hl Li). rewrite get_in by exact Li. destruct (getC b i) as [c| | |] eqn:G; auto. cbn [obind].
  assert (Gn : nth_error b i = Some c) by (unfold getC in G; destruct (nth_error b i); [congruence|]; destruct (Nat.eqb_spec i (length b)); [lia|discriminate]).
  destruct (Ascii.eqb c quote).
  { destruct (setC b pi c) as [b1| | |] eqn:Es; auto. cbn [obind]. destruct (set_nth _ _ _ (length b - 1) _ Es) as [Hn Hlen].
    destruct (purge_string _ b1 (S i) (S pi)) as [[[b2 i2] pi2]| | |] eqn:P; try discriminate. apply ps_ok in P; [|lia|lia]. cbn [fst snd] in P. destruct P as (-> & H2 & H3 & H4 & H5 & H6).
    cbn [obind]. apply IH; [lia|]. intros L2. rewrite H4, Hlen. rewrite H5 by lia. rewrite Hn. replace (pi =? length b - 1) with false by (symmetry; apply Nat.eqb_neq; lia). exact Hl. }
  assert (Hnext : forall b1 x, setC b pi x = Ok b1 -> S i < length b1 -> nth_error b1 (length b1 - 1) <> Some "/"%char).
  { intros b1 x Es L1. destruct (set_nth _ _ _ (length b - 1) _ Es) as [Hn Hlen]. rewrite Hlen in *. rewrite Hn. replace (pi =? length b - 1) with false by (symmetry; apply Nat.eqb_neq; lia). exact Hl. }
  destruct (Ascii.eqb_spec c "/") as [->|Nc].
  - assert (Li2 : i + 1 < length b). { destruct (Nat.eq_dec i (length b - 1)) as [E|]; [|lia]. exfalso. apply Hl. rewrite <- E. exact Gn. }
    rewrite get_in by exact Li2. destruct (getC b (i + 1)) as [d| | |]; auto. cbn [obind andb]. destruct (Ascii.eqb d "/").
    + destruct (skip_comment _ b i) as [i2| | |] eqn:P; try discriminate. apply sc_ok in P. destruct P as (-> & H2 & _). cbn [obind]. apply IH; [lia|auto].
    + cbn [isWhitespace]. change (isWhitespace "/") with false. cbv iota. destruct (setC b pi "/") as [b1| | |] eqn:Es; auto. cbn [obind]. apply IH; [lia|]. eapply Hnext; eauto.
  - cbn [obind andb]. destruct (isWhitespace c); [apply IH; [lia|auto]|]. destruct (setC b pi c) as [b1| | |] eqn:Es; auto. cbn [obind]. apply IH; [lia|]. eapply Hnext; eauto.
Qed.
Lemma purge_slash : forall fuel b i pi r, pi <= i -> i < length b -> last_is b "/" -> purge fuel b i pi = Ok r -> dpurge fuel b i pi = UB.
Proof.
  unfold last_is. induction fuel as [|fuel IH]; intros b i pi r Hp Li Hl; cbn [purge dpurge]; replace (length b <=? i) with false by (symmetry; apply Nat.leb_gt; lia); [discriminate|].
  rewrite get_in by exact Li. destruct (getC b i) as [c| | |] eqn:G; try discriminate. cbn [obind].
  assert (Gn : nth_error b i = Some c) by (unfold getC in G; destruct (nth_error b i); [congruence|]; destruct (Nat.eqb_spec i (length b)); [lia|discriminate]).
  destruct (Ascii.eqb c quote).
  { destruct (setC b pi c) as [b1| | |] eqn:Es; auto; try discriminate. cbn [obind]. destruct (set_nth _ _ _ (length b - 1) _ Es) as [Hn Hlen].
    destruct (purge_string _ b1 (S i) (S pi)) as [[[b2 i2] pi2]| | |] eqn:P; try discriminate. apply ps_ok in P; [|lia|lia]. cbn [fst snd] in P. destruct P as (-> & H2 & H3 & H4 & H5 & H6).
    cbn [obind]. assert (Hlast : nth_error b1 (length b - 1) = Some "/"%char). { rewrite Hn. replace (pi =? length b - 1) with false by (symmetry; apply Nat.eqb_neq; lia). exact Hl. }
    assert (i2 <> length b - 1) by (intros ->; rewrite Hlast in H6; discriminate). apply IH; [lia|lia|]. rewrite H4, Hlen. rewrite H5 by lia. exact Hlast. }
  assert (Hnext : forall b1 x, setC b pi x = Ok b1 -> S i < length b -> nth_error b1 (length b1 - 1) = Some "/"%char /\ S i < length b1).
  { intros b1 x Es L1. destruct (set_nth _ _ _ (length b - 1) _ Es) as [Hn Hlen]. rewrite Hlen in *. rewrite Hn. replace (pi =? length b - 1) with false by (symmetry; apply Nat.eqb_neq; lia). auto. }
  destruct (Ascii.eqb_spec c "/") as [->|Nc].
  - destruct (Nat.lt_ge_cases (i + 1) (length b)) as [Li2|Li2].
    + rewrite get_in by exact Li2. destruct (getC b (i + 1)) as [d| | |]; try discriminate. cbn [obind andb]. destruct (Ascii.eqb d "/").
      * destruct (skip_comment _ b i) as [i2| | |] eqn:P; try discriminate. apply sc_ok in P. destruct P as (-> & H2 & H3). cbn [obind].
        assert (i2 <> length b - 1) by (intros ->; rewrite Hl in H3; discriminate). apply IH; [lia|lia|exact Hl].
      * change (isWhitespace "/") with false. cbv iota. destruct (setC b pi "/") as [b1| | |] eqn:Es; try discriminate. cbn [obind]. destruct (Hnext _ _ Es ltac:(lia)). apply IH; [lia|assumption|assumption].
    + intros _. replace (dgetC b (i + 1)) with (@UB ascii); [reflexivity|]. unfold dgetC. rewrite (proj2 (nth_error_None _ _)) by lia. reflexivity.
  - assert (i <> length b - 1) by (intros ->; congruence).
    cbn [obind andb]. destruct (isWhitespace c); [apply IH; [lia|lia|exact Hl]|]. destruct (setC b pi c) as [b1| | |] eqn:Es; try discriminate. cbn [obind]. destruct (Hnext _ _ Es ltac:(lia)). apply IH; [lia|assumption|assumption].
Qed.
Lemma ends_last : forall b c, (exists r, b = r ++ [c]) <-> last_is b c.
Proof. exact ends_nth. Qed.

Lemma text_ok : forall s v, parse_text s = Ok v -> (dparse_text s = Ok v /\ ~ (exists r, s = r ++ ["/"%char])) \/ (dparse_text s = UB /\ exists r, s = r ++ ["/"%char]).
Proof.
  intros s v. unfold parse_text, dparse_text. destruct (_ <=? _)%N; [discriminate|]. destruct (purge (length s) s 0 0) as [[b rs]| | |] eqn:P; try discriminate. cbn [obind].
  destruct (parse_val b rs (2 * length s + 4) 0) as [r| | |] eqn:Q; try discriminate. intros H. rewrite ends_last.
  destruct s as [|c s]; [|assert (D : last_is (c :: s) "/" \/ ~ last_is (c :: s) "/") by (unfold last_is; destruct (nth_error (c :: s) (length (c :: s) - 1)) as [d|]; [destruct (Ascii.eqb_spec d "/"); [left|right]; congruence|right; discriminate]); destruct D as [D|D]].
  - left. split; [|unfold last_is; discriminate]. cbn in P. injection P as <- <-. vm_compute in Q. discriminate.
  - right. rewrite (purge_slash (length (c :: s)) (c :: s) 0 0 _ (le_n 0) ltac:(cbn; lia) D P). auto.
  - left. rewrite (purge_good _ _ _ _ _ (le_n 0) (fun _ => D) P). cbn [obind]. destruct (parse_ok b rs (2 * length (c :: s) + 4)) as (R & _). rewrite (R _ _ Q). auto.
Qed.

(** ** Texts that end in a blank *)
Section BLANK.
Context (b : bytes) (rs : nat) (w : ascii) (Hw : isWhitespace w = true) (Hb : last_is b w).
Definition nub {A} (d r : outcome A) : Prop := r = UB \/ r = OutOfFuel \/ d = r.
Lemma blank_at : forall i c, i < length b -> getC b i = Ok c -> isWhitespace c = false -> S i < length b.
Proof.
  intros i c L G N. destruct (Nat.eq_dec i (length b - 1)) as [->|]; [|lia]. exfalso. unfold last_is in Hb. unfold getC in G. rewrite Hb in G. injection G as <-. congruence.
Qed.
Lemma blank_get : forall i, i < length b -> exists c, getC b i = Ok c /\ dgetC b i = Ok c.
Proof. intros i L. rewrite get_in by exact L. unfold getC. destruct (nth_error b i) eqn:E; [eauto|]. apply nth_error_None in E. lia. Qed.
Lemma blank_str : forall i, readStr b i = UB \/ readStr b i = OutOfFuel \/ exists s j, readStr b i = Ok (s, j) /\ dreadStr b i = Ok (s, j) /\ j < length b.
Proof.
  intros i. destruct (readStr b i) as [[s j]|m| |] eqn:R; auto.
  - right. right. exists s, j. split; [reflexivity|]. split; [apply readStr_ok; exact R|]. unfold readStr in R.
    destruct (find_end b (S (S (length b))) (S i)) as [e| | |] eqn:F; try discriminate. cbn [obind] in R. destruct (decode b (S (length b)) (S i) e []); try discriminate. injection R as _ <-.
    apply find_end_bound in F. destruct F as [L G]. apply (blank_at e quote); [lia|exact G|reflexivity].
  - exfalso. unfold readStr in R. assert (T : forall f e, find_end b f e <> Throw m).
    { induction f as [|f IH]; intros e; cbn [find_end]; [discriminate|]. unfold getC. destruct (nth_error b e); cbn [obind].
      - destruct (Ascii.eqb a quote); [discriminate|]. destruct (Ascii.eqb a backslash); apply IH.
      - destruct (e =? length b); cbn [obind]; [|discriminate]. change (Ascii.eqb nul quote) with false. change (Ascii.eqb nul backslash) with false. cbv iota. apply IH. }
    assert (T2 : forall f x e acc, decode b f x e acc <> Throw m).
    { induction f as [|f IH]; intros x e acc; cbn [decode]; destruct (e <=? x); try discriminate. unfold getC at 1. destruct (nth_error b x); cbn [obind].
      - destruct (Ascii.eqb a backslash); [|apply IH]. unfold getC. destruct (nth_error b (S x)); cbn [obind].
        + unfold getEscapeSequence. repeat match goal with |- context [if ?c then _ else _] => destruct c end; cbn [obind]; try apply IH; discriminate.
        + destruct (S x =? length b); cbn [obind]; [|discriminate]. discriminate.
      - destruct (x =? length b); cbn [obind]; [|discriminate]. change (Ascii.eqb nul backslash) with false. cbv iota. apply IH. }
    destruct (find_end b (S (S (length b))) (S i)) as [e|m'| |] eqn:F; try discriminate; cbn [obind] in R; [|injection R as ->; eapply T; exact F].
    destruct (decode b (S (length b)) (S i) e []) as [e'|m'| |] eqn:F2; try discriminate. injection R as ->. eapply T2; exact F2.
Qed.
Lemma blank_kw : forall ws i, i < length b -> Forall (fun c => isWhitespace c = false) ws -> dmatch_kw b rs ws i = match_kw b rs ws i /\ forall j, match_kw b rs ws i = Ok j -> j < length b.
Proof.
  induction ws as [|c ws IH]; intros i L F; cbn [match_kw dmatch_kw]; [split; [reflexivity|intros j [= <-]; exact L]|]. inversion F; subst.
  destruct (blank_get i L) as (d & G & G'). rewrite G, G'. cbn [obind]. destruct (Ascii.eqb_spec d c) as [->|]; [|split; [reflexivity|intros j H; exfalso; eapply throw_ok; eauto]].
  apply IH; [eapply blank_at; eauto|assumption].
Qed.
Lemma blank_num : forall i v j, i < length b -> parseNum b i = Ok (v, j) -> j < length b.
Proof.
  intros i v j L. unfold parseNum. apply ends_last in Hb. destruct Hb as [r Er]. rewrite Er in *. rewrite app_length in *. cbn [length] in *.
  rewrite skipn_app. replace (i - length r) with 0 by lia. cbn [skipn]. destruct (strtod (skipn i r)) as [f rest] eqn:S.
  assert (St : stops [w]). { cbn. unfold isWhitespace in Hw. apply orb_true_iff in Hw. destruct Hw as [H|H]; [apply orb_true_iff in H; destruct H as [H|H]; [apply orb_true_iff in H; destruct H as [H|H]|]|]; apply Ascii.eqb_eq in H; subst w; reflexivity. }
  rewrite (strtod_app _ _ _ _ St S). destruct (double_to_long f); try discriminate. cbn [obind]. intros [= _ <-]. rewrite app_length. cbn [length]. lia.
Qed.
Lemma blank_parse : forall fuel,
  (forall i, i < length b -> nub (dparse_val b rs fuel i) (parse_val b rs fuel i) /\ forall v j, parse_val b rs fuel i = Ok (v, j) -> j < length b) /\
  (forall i acc, i < length b -> nub (dparse_items b rs fuel i acc) (parse_items b rs fuel i acc) /\ forall a j, parse_items b rs fuel i acc = Ok (a, j) -> S j < length b) /\
  (forall i o, i < length b -> nub (dparse_members b rs fuel i o) (parse_members b rs fuel i o) /\ forall p j, parse_members b rs fuel i o = Ok (p, j) -> S j < length b).
Proof.
  unfold nub. induction fuel as [|fuel (IHv & IHi & IHm)]; [repeat split; intros; try discriminate; right; left; reflexivity|]. split; [|split].
  - intros i L. rewrite dparse_val_S, parse_val_S. destruct (blank_get i L) as (c & G & G'). rewrite G, G'. cbn [obind].
    destruct (Ascii.eqb_spec c "{") as [->|_].
    { pose proof (blank_at _ _ L G eq_refl) as L1. destruct (blank_get (S i) L1) as (d & G1 & G1'). rewrite G1, G1'. cbn [obind].
      destruct (Ascii.eqb_spec d "}") as [->|_]; [split; [auto|intros v j [= <- <-]; apply (blank_at _ _ L1 G1 eq_refl)]|].
      destruct (IHm (S i) [] L1) as [[H|[H|H]] H2]; [rewrite H; cbn; split; [auto|discriminate]|rewrite H; cbn; split; [auto|discriminate]|]. rewrite H.
      destruct (parse_members b rs fuel (S i) []) as [[p k]| | |]; cbn [obind]; (split; [auto|]); try discriminate. intros v j [= <- <-]. apply (H2 _ _ eq_refl). }
    destruct (Ascii.eqb_spec c "[") as [->|_].
    { pose proof (blank_at _ _ L G eq_refl) as L1. destruct (blank_get (S i) L1) as (d & G1 & G1'). rewrite G1, G1'. cbn [obind].
      destruct (Ascii.eqb_spec d "]") as [->|_]; [split; [auto|intros v j [= <- <-]; apply (blank_at _ _ L1 G1 eq_refl)]|].
      destruct (IHi (S i) [] L1) as [[H|[H|H]] H2]; [rewrite H; cbn; split; [auto|discriminate]|rewrite H; cbn; split; [auto|discriminate]|]. rewrite H.
      destruct (parse_items b rs fuel (S i) []) as [[p k]| | |]; cbn [obind]; (split; [auto|]); try discriminate. intros v j [= <- <-]. apply (H2 _ _ eq_refl). }
    destruct (Ascii.eqb c quote).
    { destruct (blank_str i) as [H|[H|(s & j0 & H & H' & H'')]]; rewrite H; cbn [obind]; [split; [auto|discriminate]|split; [auto|discriminate]|]. rewrite H'. cbn [obind fst snd]. split; [auto|]. intros v j [= <- <-]. exact H''. }
    destruct (Ascii.eqb c "t"). { destruct (blank_kw (lit "true") i L) as [-> H]; [repeat constructor|]. split; [auto|]. destruct (match_kw b rs (lit "true") i) as [k| | |]; try discriminate. intros v j [= <- <-]. auto. }
    destruct (Ascii.eqb c "f"). { destruct (blank_kw (lit "false") i L) as [-> H]; [repeat constructor|]. split; [auto|]. destruct (match_kw b rs (lit "false") i) as [k| | |]; try discriminate. intros v j [= <- <-]. auto. }
    destruct (Ascii.eqb c "n"). { destruct (blank_kw (lit "null") i L) as [-> H]; [repeat constructor|]. split; [auto|]. destruct (match_kw b rs (lit "null") i) as [k| | |]; try discriminate. intros v j [= <- <-]. auto. }
    destruct (isNumStart c). { split; [auto|]. intros v j. apply blank_num. exact L. }
    split; [auto|]. intros v j H. exfalso. eapply throw_ok; eauto.
  - intros i acc L. rewrite dparse_items_S, parse_items_S. cbv zeta. destruct (IHv i L) as [[H|[H|H]] H2]; [rewrite H; cbn; split; [auto|discriminate]|rewrite H; cbn; split; [auto|discriminate]|]. rewrite H.
    destruct (parse_val b rs fuel i) as [[v k]| | |]; cbn [obind]; try (split; [auto|discriminate]). specialize (H2 _ _ eq_refl).
    destruct (blank_get k H2) as (c & G & G'). rewrite G, G'. cbn [obind].
    destruct (Ascii.eqb_spec c ",") as [->|_]; [apply IHi; apply (blank_at _ _ H2 G eq_refl)|].
    destruct (Ascii.eqb_spec c "]") as [->|_]; [split; [auto|]; intros a j [= <- <-]; apply (blank_at _ _ H2 G eq_refl)|].
    split; [auto|]. intros a j Ht. exfalso. eapply throw_ok; eauto.
  - intros i o L. rewrite dparse_members_S, parse_members_S. destruct (blank_get i L) as (c0 & G0 & G0'). rewrite G0, G0'. cbn [obind].
    destruct (Ascii.eqb c0 quote); cbn [negb]; [|split; [auto|]; intros p j Ht; exfalso; eapply throw_ok; eauto].
    destruct (blank_str i) as [H|[H|(key & k0 & H & H' & L0)]]; rewrite H; cbn [obind]; [split; [auto|discriminate]|split; [auto|discriminate]|]. rewrite H'. cbn [obind]. clear H H'.
    destruct (blank_get k0 L0) as (c1 & G1 & G1'). rewrite G1, G1'. cbn [obind].
    destruct (Ascii.eqb_spec c1 ":") as [->|_]; cbn [negb]; [|split; [auto|]; intros p j Ht; exfalso; eapply throw_ok; eauto].
    destruct (IHv (S k0) (blank_at _ _ L0 G1 eq_refl)) as [[H|[H|H]] H2]; [rewrite H; cbn; split; [auto|discriminate]|rewrite H; cbn; split; [auto|discriminate]|]. rewrite H.
    destruct (parse_val b rs fuel (S k0)) as [[v k]| | |]; cbn [obind]; try (split; [auto|discriminate]). specialize (H2 _ _ eq_refl).
    destruct (vm_step bytes_ltb bytes_eqb JNll o (Assign key v)) as [o'| | |]; cbn [obind]; try (split; [auto|discriminate]).
    destruct (blank_get k H2) as (c & G & G'). rewrite G, G'. cbn [obind].
    destruct (Ascii.eqb_spec c ",") as [->|_]; [apply IHm; apply (blank_at _ _ H2 G eq_refl)|].
    destruct (Ascii.eqb_spec c "}") as [->|_]; [split; [auto|]; intros a j [= <- <-]; apply (blank_at _ _ H2 G eq_refl)|].
    split; [auto|]. intros a j Ht. exfalso. eapply throw_ok; eauto.
Qed.
End BLANK.
Lemma strip_last : forall s w m x, isWhitespace w = true -> strip m (s ++ [w]) = Some x -> length x <= length s.
Proof.
  intros s w m x Hw. revert m x. induction s as [|c s IH]; intros m x.
  - cbn [app]. assert (Hq : Ascii.eqb w quote = false) by (destruct (Ascii.eqb_spec w quote) as [->|]; [discriminate|reflexivity]).
    destruct m; cbn [strip]; rewrite ?Hq.
    + cbn [is_char]. rewrite andb_false_r, Hw. intros [= <-]. cbn. lia.
    + cbn. discriminate.
    + destruct (Ascii.eqb w newline); [|discriminate]. intros [= <-]. cbn. lia.
  - cbn [app]. destruct m; cbn [strip length].
    + destruct (Ascii.eqb c quote); [intros H; apply ocons_some in H; destruct H as (r & H & ->); apply IH in H; cbn; lia|].
      destruct (Ascii.eqb c "/" && is_char (s ++ [w]) "/"); [intros H; apply IH in H; lia|]. destruct (isWhitespace c); [intros H; apply IH in H; lia|].
      intros H; apply ocons_some in H; destruct H as (r & H & ->); apply IH in H; cbn; lia.
    + destruct (negb (Ascii.eqb c quote) || escaped); intros H; apply ocons_some in H; destruct H as (r & H & ->); apply IH in H; cbn; lia.
    + destruct (Ascii.eqb c newline); intros H; apply IH in H; lia.
Qed.
Lemma text_blank : forall s w, blank w -> dparse_text (s ++ [w]) = parse_text (s ++ [w]).
Proof.
  intros s w Hw. apply blank_ws in Hw. destruct (le_text (s ++ [w])) as [H|H]; [|exact H]. rewrite H. symmetry.
  pose proof (parse_text_terminates (s ++ [w])) as T. unfold parse_text, dparse_text in *. destruct (_ <=? _)%N eqn:EN; [reflexivity|].
  assert (Hlen : 0 < length (s ++ [w])) by (rewrite app_length; cbn; lia).
  assert (Hl : ~ last_is (s ++ [w]) "/"). { intros Hc. assert (Hl : last_is (s ++ [w]) w) by (apply ends_last; eauto). unfold last_is in *. rewrite Hl in Hc. injection Hc as ->. discriminate. }
  destruct (strip Plain (s ++ [w])) as [x|] eqn:St.
  - change (purge (length (s ++ [w])) (s ++ [w]) 0 0) with (purge (length (s ++ [w])) (over [] (s ++ [w])) 0 (length (@nil ascii))) in *.
    pose proof (purge_ok (s ++ [w]) (length (s ++ [w])) [] 0 x ltac:(cbn; lia) ltac:(lia) ltac:(cbn; lia) St) as Hp. cbn [app] in Hp. rewrite Hp in *.
    assert (Hd : dpurge (length (s ++ [w])) (s ++ [w]) 0 0 = Ok (over x (s ++ [w]), length x)) by (apply purge_good; [lia|auto|exact Hp]).
    rewrite Hd in H. cbn [obind] in *. pose proof (strip_length _ _ _ St) as Lx.
    assert (Hlast : last_is (over x (s ++ [w])) w).
    { apply ends_last. pose proof (strip_last _ _ _ _ Hw St). unfold over. rewrite skipn_app. replace (length x - length s) with 0 by lia. exists (x ++ skipn (length x) s). rewrite <- app_assoc. reflexivity. }
    destruct (blank_parse (over x (s ++ [w])) (length x) w Hw Hlast (2 * length (s ++ [w]) + 4)) as (B & _).
    destruct (B 0) as [[E|[E|E]] _]; [rewrite over_length; lia| | |].
    + rewrite E. reflexivity.
    + exfalso. rewrite E in T. apply T. reflexivity.
    + rewrite <- E. exact H.
  - change (purge (length (s ++ [w])) (s ++ [w]) 0 0) with (purge (length (s ++ [w])) (over [] (s ++ [w])) 0 (length (@nil ascii))).
    rewrite (purge_ub (s ++ [w]) (length (s ++ [w])) [] 0) by (first [exact St|cbn; lia]). reflexivity.
Qed.

(** ** Standard texts *)
Lemma spaced_end : forall t s, spaced t s -> ~ (exists r, s = r ++ ["/"%char]).
Proof.
  assert (Cons : forall (c d : ascii) s, c <> d -> ~ (exists r, s = r ++ [d]) -> ~ (exists r, c :: s = r ++ [d])).
  { intros c d s N H ([|x r] & E); cbn in E; injection E as -> E; [congruence|apply H; exists r; exact E]. }
  assert (App : forall (u : bytes) d s, s <> [] -> ~ (exists r, s = r ++ [d]) -> ~ (exists r, u ++ s = r ++ [d])).
  { intros u d s N H (r & E). destruct (exists_last N) as (s' & x & ->). rewrite app_assoc in E. apply app_inj_tail in E. destruct E as [_ ->]. apply H. eauto. }
  assert (Nil : forall d : ascii, ~ (exists r, [] = r ++ [d])) by (intros d ([|] & E); discriminate).
  induction 1 as [|c t s B Sp IH|body t s N Sp IH|r d t s B NF Sp IH|c t s N1 N2 NB Sp IH].
  - apply Nil.
  - apply Cons; [|exact IH]. destruct B as [->|[->|[->| ->]]]; discriminate.
  - apply App; [destruct body; discriminate|]. apply App; [discriminate|]. apply Cons; [discriminate|exact IH].
  - change (ch 34 :: r ++ ch 34 :: s) with ([ch 34] ++ r ++ ch 34 :: s). apply App; [destruct r; discriminate|]. apply App; [discriminate|]. apply Cons; [discriminate|exact IH].
  - apply Cons; [exact N2|exact IH].
Qed.
Lemma text_standard : forall t s v, denotes t v -> spaced t s -> (N.of_nat (length s) < 2 ^ 31)%N -> not_number t \/ t = s -> dparse_text s = Ok v.
Proof.
  intros t s v D Sp L H. destruct (text_ok s v (denoted_spaced _ _ _ D Sp L H)) as [[E _]|[_ E]]; [exact E|]. exfalso. eapply spaced_end; eauto.
Qed.

(** ** Cut texts *)
Lemma strip_cut : forall p q m x y, strip m p = Some x -> strip m (p ++ q) = Some y -> length y = length (p ++ q) -> x = p.
Proof.
  induction p as [|c p IH]; intros q m x y.
  - destruct m; cbn; [intros [= <-]; reflexivity|discriminate|discriminate].
  - cbn [app]. destruct m; cbn [strip length].
    + destruct (Ascii.eqb c quote).
      { intros H1 H2 Hl. apply ocons_some in H1. destruct H1 as (r1 & H1 & ->). apply ocons_some in H2. destruct H2 as (r2 & H2 & ->). cbn in Hl. f_equal. eapply IH; eauto; lia. }
      destruct (Ascii.eqb c "/" && is_char (p ++ q) "/") eqn:E.
      { intros _ H2 Hl. apply strip_length in H2. lia. }
      assert (E' : Ascii.eqb c "/" && is_char p "/" = false). { apply andb_false_iff in E. apply andb_false_iff. destruct E as [E|E]; [auto|right]. destruct p; [reflexivity|exact E]. }
      rewrite E'. destruct (isWhitespace c). { intros _ H2 Hl. apply strip_length in H2. lia. }
      intros H1 H2 Hl. apply ocons_some in H1. destruct H1 as (r1 & H1 & ->). apply ocons_some in H2. destruct H2 as (r2 & H2 & ->). cbn in Hl. f_equal. eapply IH; eauto; lia.
    + destruct (negb (Ascii.eqb c quote) || escaped); intros H1 H2 Hl; apply ocons_some in H1; destruct H1 as (r1 & H1 & ->); apply ocons_some in H2; destruct H2 as (r2 & H2 & ->); cbn in Hl; f_equal; eapply IH; eauto; lia.
    + destruct (Ascii.eqb c newline); intros _ H2 Hl; apply strip_length in H2; lia.
Qed.
Lemma over_self : forall s, over s s = s.
Proof. intros s. unfold over. rewrite skipn_all. apply app_nil_r. Qed.
Lemma cut_text : forall p q v, denotes (p ++ q) v -> parse_text p = UB \/
  parse_text p = obind (parse_val p (length p) (2 * length p + 4) 0) (fun r => Ok (fst r)).
Proof.
  intros p q v D. destruct (N.ltb_spec (N.of_nat (length p)) (2 ^ 31)%N) as [L|L].
  - rewrite parse_text_eq by exact L. destruct (strip Plain p) as [x|] eqn:St; [|auto]. right.
    pose proof (spaced_strip _ _ (denotes_spaced _ _ _ (le_n _) D)) as St2. rewrite (strip_cut _ _ _ _ _ St St2 eq_refl) in *. rewrite over_self. reflexivity.
  - left. unfold parse_text. rewrite (proj2 (N.leb_le _ _) L). reflexivity.
Qed.
Lemma cut_refused : forall p q v v', denotes (p ++ q) v -> not_number (p ++ q) -> q <> [] -> parse_text p <> Ok v'.
Proof.
  intros p q v v' D NN Nq H. destruct (cut_text p q v D) as [E|E]; rewrite E in H; [discriminate|]. destruct (parse_val p (length p) (2 * length p + 4) 0) as [[w i]| | |] eqn:P; try discriminate.
  assert (Hl : length (p ++ q) = length p + length q) by apply app_length. assert (0 < length q) by (destruct q; [congruence|cbn; lia]).
  destruct (parse_local p q (length p) (length (p ++ q)) (2 * length p + 4)) as (B & _). destruct (B (2 * length (p ++ q) + 4) 0 w i) as [R Ri]; [lia|lia|exact P| |].
  - intros (c & G & Nc). exfalso. destruct p as [|c' p]; [vm_compute in G; injection G as <-; discriminate|]. cbn in G. injection G as <-. destruct NN as (c2 & r & E2 & N1 & N2). cbn in E2. injection E2 as <- _.
    unfold isNumStart in Nc. apply orb_true_iff in Nc. destruct Nc as [Nc|Nc]; [apply Ascii.eqb_eq in Nc; congruence|]. apply N2. apply isDigit_iff. exact Nc.
  - pose proof (denotes_reads _ _ _ (le_n _) D [] [] (length (p ++ q)) (2 * length (p ++ q) + 4) I ltac:(lia)) as R2. cbn [app length Nat.add] in R2. rewrite app_nil_r in R2. cbn [Nat.add] in R2. rewrite R in R2. injection R2 as _ ->. lia.
Qed.
Definition cut {A} (d r : outcome A) : Prop := forall x, r = Ok x -> d = UB \/ d = OutOfFuel \/ d = Ok x.
Lemma cut_bind : forall A B (d r : outcome A) (f g : A -> outcome B), cut d r -> (forall x, d = Ok x -> r = Ok x -> cut (f x) (g x)) -> cut (obind d f) (obind r g).
Proof.
  intros A B d r f g H Hf y E. destruct r as [x| | |]; try discriminate. destruct (H x eq_refl) as [->|[->| ->]]; cbn [obind] in *; auto. apply Hf; auto.
Qed.
Lemma cut_refl : forall A (d : outcome A), cut d d.
Proof. intros A d x ->. auto. Qed.
Lemma cut_throw : forall A (d : outcome A) rs i m, cut d (throwError rs i m).
Proof. intros A d rs i m x H. exfalso. eapply throw_ok; eauto. Qed.
Section CUT.
Context (p tail : bytes) (rs rs' : nat) (St : stops tail).
Lemma cut_get : forall i, cut (dgetC p i) (dgetC (p ++ tail) i).
Proof. intros i x H. unfold dgetC in *. destruct (nth_error p i) as [c|] eqn:E; [|auto]. rewrite nth_error_app1 in H by (apply nth_error_Some; congruence). rewrite E in H. auto. Qed.
Lemma cut_kw : forall w i, cut (dmatch_kw p rs w i) (dmatch_kw (p ++ tail) rs' w i).
Proof.
  induction w as [|c w IH]; intros i; cbn [dmatch_kw]; [apply cut_refl|]. apply cut_bind; [apply cut_get|]. intros x _ _. destruct (Ascii.eqb x c); [apply IH|apply cut_throw].
Qed.
Lemma cut_find : forall f f' e, f <= f' -> cut (dfind_end p f e) (dfind_end (p ++ tail) f' e).
Proof.
  induction f as [|f IH]; intros f' e L; [intros x _; auto|]. destruct f' as [|f']; [lia|]. cbn [dfind_end]. apply cut_bind; [apply cut_get|]. intros c _ _.
  destruct (Ascii.eqb c quote); [apply cut_refl|]. destruct (Ascii.eqb c backslash); [|apply IH; lia]. apply cut_bind; [apply cut_get|]. intros d _ _. destruct (isValidEscapeSequenceChar d); [apply IH; lia|apply cut_refl].
Qed.
Lemma cut_decode : forall f f' i e acc, f <= f' -> cut (ddecode p f i e acc) (ddecode (p ++ tail) f' i e acc).
Proof.
  induction f as [|f IH]; intros f' i e acc L; destruct f' as [|f']; cbn [ddecode]; destruct (e <=? i); try apply cut_refl; try (intros x _; auto; fail); try lia.
  apply cut_bind; [apply cut_get|]. intros c _ _. destruct (Ascii.eqb c backslash); [|apply IH; lia]. apply cut_bind; [apply cut_get|]. intros d _ _. apply cut_bind; [apply cut_refl|]. intros x _ _. apply IH; lia.
Qed.
Lemma cut_str : forall i, cut (dreadStr p i) (dreadStr (p ++ tail) i).
Proof.
  intros i. unfold dreadStr. assert (length p <= length (p ++ tail)) by (rewrite app_length; lia).
  apply cut_bind; [apply cut_find; lia|]. intros e _ _. apply cut_bind; [apply cut_decode; lia|]. intros x _ _. apply cut_refl.
Qed.
Lemma cut_num : forall i, i < length p -> cut (parseNum p i) (parseNum (p ++ tail) i).
Proof.
  intros i L x. unfold parseNum. rewrite skipn_app. replace (i - length p) with 0 by lia. cbn [skipn]. destruct (strtod (skipn i p)) as [f r] eqn:E. rewrite (strtod_app _ _ _ _ St E).
  assert (length r <= length p). { apply strtod_suffix in E. destruct E as (u & E). apply (f_equal (@length ascii)) in E. rewrite skipn_length, app_length in E. lia. }
  destruct (double_to_long f); cbn [obind]; auto. intros [= <-]. right. right. do 2 f_equal. rewrite !app_length. lia.
Qed.
Lemma cut_parse : forall fuel,
  (forall fuel' i, fuel <= fuel' -> cut (dparse_val p rs fuel i) (dparse_val (p ++ tail) rs' fuel' i)) /\
  (forall fuel' i acc, fuel <= fuel' -> cut (dparse_items p rs fuel i acc) (dparse_items (p ++ tail) rs' fuel' i acc)) /\
  (forall fuel' i o, fuel <= fuel' -> cut (dparse_members p rs fuel i o) (dparse_members (p ++ tail) rs' fuel' i o)).
Proof.
  induction fuel as [|fuel (IHv & IHi & IHm)]; [repeat split; intros; intros x _; auto|]. split; [|split].
  - intros [|fuel'] i L; [lia|]. rewrite !dparse_val_S. apply cut_bind; [apply cut_get|]. intros c G _.
    destruct (Ascii.eqb c "{"). { apply cut_bind; [apply cut_get|]. intros d _ _. destruct (Ascii.eqb d "}"); [apply cut_refl|]. apply cut_bind; [apply IHm; lia|]. intros r _ _. apply cut_refl. }
    destruct (Ascii.eqb c "["). { apply cut_bind; [apply cut_get|]. intros d _ _. destruct (Ascii.eqb d "]"); [apply cut_refl|]. apply cut_bind; [apply IHi; lia|]. intros r _ _. apply cut_refl. }
    destruct (Ascii.eqb c quote). { apply cut_bind; [apply cut_str|]. intros r _ _. apply cut_refl. }
    destruct (Ascii.eqb c "t"). { apply cut_bind; [apply cut_kw|]. intros r _ _. apply cut_refl. }
    destruct (Ascii.eqb c "f"). { apply cut_bind; [apply cut_kw|]. intros r _ _. apply cut_refl. }
    destruct (Ascii.eqb c "n"). { apply cut_bind; [apply cut_kw|]. intros r _ _. apply cut_refl. }
    destruct (isNumStart c); [|apply cut_throw]. apply cut_num. unfold dgetC in G. apply nth_error_Some. destruct (nth_error p i); congruence.
  - intros [|fuel'] i acc L; [lia|]. rewrite !dparse_items_S. cbv zeta. apply cut_bind; [apply IHv; lia|]. intros [v k] _ _. apply cut_bind; [apply cut_get|]. intros c _ _.
    destruct (Ascii.eqb c ","); [apply IHi; lia|]. destruct (Ascii.eqb c "]"); [apply cut_refl|apply cut_throw].
  - intros [|fuel'] i o L; [lia|]. rewrite !dparse_members_S. apply cut_bind; [apply cut_get|]. intros c0 _ _. destruct (negb (Ascii.eqb c0 quote)); [apply cut_throw|].
    apply cut_bind; [apply cut_str|]. intros [key k0] _ _. apply cut_bind; [apply cut_get|]. intros c1 _ _. destruct (negb (Ascii.eqb c1 ":")); [apply cut_throw|].
    apply cut_bind; [apply IHv; lia|]. intros [v k] _ _. apply cut_bind; [apply cut_refl|]. intros o' _ _. apply cut_bind; [apply cut_get|]. intros c _ _.
    destruct (Ascii.eqb c ","); [apply IHm; lia|]. destruct (Ascii.eqb c "}"); [apply cut_refl|apply cut_throw].
Qed.
End CUT.
Lemma cut_stops : forall p q v, denotes (p ++ q) v -> not_number (p ++ q) -> q <> [] -> stops q -> dparse_text p = UB.
Proof.
  intros p q v D NN Nq St. destruct (le_text p) as [E|E]; [exact E|]. destruct (cut_text p q v D) as [H|H]; [congruence|].
  pose proof (parse_text_terminates p) as T. pose proof (cut_refused p q v) as R.
  pose proof (denotes_reads _ _ _ (le_n _) D [] [] (length (p ++ q)) (2 * length (p ++ q) + 4) I ltac:(lia)) as R2. cbn [app length Nat.add] in R2. rewrite app_nil_r in R2. cbn [Nat.add] in R2.
  apply (proj1 (parse_ok (p ++ q) (length (p ++ q)) (2 * length (p ++ q) + 4))) in R2.
  assert (Hl : length p <= length (p ++ q)) by (rewrite app_length; lia).
  apply (proj1 (cut_parse p q (length p) (length (p ++ q)) St (2 * length p + 4)) (2 * length (p ++ q) + 4) 0 ltac:(lia)) in R2.
  assert (Hd : dparse_text p = UB \/ dparse_text p = obind (dparse_val p (length p) (2 * length p + 4) 0) (fun r => Ok (fst r))).
  { destruct (strip Plain p) as [x|] eqn:Sp.
    - pose proof (spaced_strip _ _ (denotes_spaced _ _ _ (le_n _) D)) as St2. assert (x = p) as -> by (eapply strip_cut; eauto).
      pose proof (purge_ok p (length p) [] 0 p ltac:(cbn; lia) ltac:(lia) ltac:(cbn; lia) Sp) as Hp. cbn [app length] in Hp. rewrite over_nil, over_self in Hp.
      unfold dparse_text. destruct (_ <=? _)%N; [auto|]. destruct (le_purge (length p) p 0 0) as [P|P]; [rewrite P; auto|]. rewrite P, Hp. auto.
    - left. rewrite E. destruct (N.ltb_spec (N.of_nat (length p)) (2 ^ 31)%N) as [L|L]; [rewrite parse_text_eq, Sp by exact L; reflexivity|]. unfold parse_text. rewrite (proj2 (N.leb_le _ _) L). reflexivity. }
  destruct Hd as [Hd|Hd]; [exact Hd|]. rewrite Hd in *. destruct R2 as [R2|[R2|R2]]; rewrite R2 in *; cbn [obind] in *; [reflexivity| |].
  - exfalso. apply T. symmetry. exact E.
  - exfalso. eapply R; eauto.
Qed.

(** ** In the words of the specification *)
Lemma word_num : forall c, ~ word_char c -> numchar c = false.
Proof.
  intros c H. destruct (numchar c) eqn:E; [|reflexivity]. exfalso. apply H. unfold word_char. unfold numchar, num_of in E. cbv zeta in *.
  repeat rewrite orb_true_iff in E. repeat rewrite andb_true_iff in E. repeat rewrite Z.leb_le in E. repeat rewrite Z.eqb_eq in E. lia.
Qed.
Lemma read_same : forall old s, dreadFromStr old s = UB \/ dreadFromStr old s = readFromStr old s.
Proof. intros old s. unfold dreadFromStr, readFromStr. destruct (le_text s) as [->| ->]; auto. Qed.
Lemma read_accepted : forall old s v, readFromStr old s = Ok (true, v) ->
  (dreadFromStr old s = Ok (true, v) /\ ~ ends_with s "/"%char) \/ (dreadFromStr old s = UB /\ ends_with s "/"%char).
Proof.
  intros old s v. unfold dreadFromStr, readFromStr. destruct (parse_text s) as [x| | |] eqn:E; try discriminate. intros [= ->].
  destruct (text_ok _ _ E) as [[-> N]|[-> N]]; auto.
Qed.
Lemma read_blank : forall old s w, blank w -> dreadFromStr old (s ++ [w]) = readFromStr old (s ++ [w]).
Proof. intros old s w H. unfold dreadFromStr, readFromStr. rewrite text_blank by exact H. reflexivity. Qed.
Lemma read_standard : forall old t s v, denotes t v -> spaced t s -> (N.of_nat (length s) < 2 ^ 31)%N -> not_number t \/ t = s ->
  dreadFromStr old s = Ok (true, v).
Proof. intros. unfold dreadFromStr. rewrite (text_standard t s v) by assumption. reflexivity. Qed.
Lemma read_cut : forall old p q v, denotes (p ++ q) v -> not_number (p ++ q) -> q <> [] -> readFromStr old p = UB \/ readFromStr old p = Ok (false, old).
Proof.
  intros old p q v D NN Nq. unfold readFromStr. destruct (parse_text p) as [x| | |] eqn:E; auto.
  - exfalso. eapply cut_refused; eauto.
  - exfalso. eapply parse_text_terminates; eauto.
Qed.
Lemma read_cut_stops : forall old p c q v, denotes (p ++ c :: q) v -> not_number (p ++ c :: q) -> ~ word_char c -> dreadFromStr old p = UB.
Proof. intros old p c q v D NN W. unfold dreadFromStr. rewrite (cut_stops p (c :: q) v D NN); [reflexivity|discriminate|apply word_num; exact W]. Qed.
