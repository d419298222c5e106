From Coq Require Import String Ascii ZArith NArith Arith Bool Lia List.
From Verif Require Import Common IntToStrModel IntToStrSpec IntToStrProofs HelpModel HelpSpec HelpProofs.
Import ListNotations.
Local Open Scope nat_scope.

(** ** Lines *)
Definition unlines (ls : list bytes) : bytes := flat_map (fun l => l ++ [ch 10]) ls.
Lemma lines_cons : forall a b, line a -> lines (a ++ ch 10 :: b) = a :: lines b.
Proof.
  induction a as [|c a IH]; intros b H; [reflexivity|]. change ((c :: a) ++ ch 10 :: b) with (c :: (a ++ ch 10 :: b)).
  cbn [lines]. destruct (Ascii.eqb c (ch 10)) eqn:E; [apply Ascii.eqb_eq in E; subst; exfalso; apply H; left; reflexivity|].
  rewrite IH by (intros I; apply H; right; exact I). reflexivity.
Qed.
Lemma lines_unlines : forall ls, Forall line ls -> lines (unlines ls) = ls ++ [[]].
Proof.
  induction 1 as [|l ls H _ IH]; [reflexivity|]. change (unlines (l :: ls)) with ((l ++ [ch 10]) ++ unlines ls).
  rewrite <- app_assoc. cbn [app]. rewrite lines_cons by exact H. rewrite IH. reflexivity.
Qed.
Lemma unlines_app : forall a b, unlines (a ++ b) = unlines a ++ unlines b.
Proof. intros. apply flat_map_app. Qed.
Lemma marked_app : forall m a b, marked m (a ++ b) = marked m a ++ marked m b.
Proof.
  intros m a b. induction a as [|l a IH]; [reflexivity|]. cbn [marked app]. destruct (after m l); rewrite IH; reflexivity.
Qed.
Lemma after_app : forall m t, after m (m ++ t) = Some t.
Proof. induction m as [|c m IH]; intros t; [reflexivity|]. cbn [after app]. rewrite Ascii.eqb_refl. apply IH. Qed.

(** ** Elements *)
Definition elines (u : bytes) (e : element) : list bytes := (lit "* " ++ u) :: map (app (lit "  --")) (texts e) ++ [[]].
Lemma part_nil : forall p, part p [] = [].
Proof. reflexivity. Qed.
Lemma part_cons : forall p t, t <> [] -> part p t = p ++ t.
Proof. intros p [|c t] H; [contradiction|reflexivity]. Qed.
Lemma element_lines : forall buf e u, usage buf e = Ok u -> u <> [] -> element_help buf e = Ok (unlines (elines u e)).
Proof.
  intros buf e u U N. unfold element_help. rewrite U. cbn [obind]. f_equal. rewrite (part_cons _ u N).
  unfold elines, texts. destruct e as [n b d sh]. cbn [ename ebrief edesc].
  destruct n as [|n0 n], b as [|b0 b], d as [|d0 d]; cbn [part filter map app unlines flat_map];
    unfold newline; repeat (rewrite <- ?app_assoc; cbn [app]); reflexivity.
Qed.
Lemma shows_nonempty : forall e t, shows e t -> t <> [].
Proof. intros e t H. destruct H; discriminate. Qed.
Definition uf (buf : bytes) (e : element) : bytes := match usage buf e with Ok u => u | _ => [] end.
Lemma all_lines : forall buf es, length buf = 19 -> Forall (bounds size_ok) es -> Forall (bounds small) es ->
  all_help buf es = Ok (unlines (flat_map (fun e => elines (uf buf e) e) es)) /\ Forall (fun e => shows e (uf buf e)) es.
Proof.
  intros buf es L R S. induction es as [|e es IH]; [split; [reflexivity|constructor]|].
  inversion R; inversion S; subst. destruct (IH) as [A B]; try assumption.
  destruct (usage_text buf e L) as [U _]; [assumption|]. destruct U as [t [U SH]]; [assumption|].
  assert (E : uf buf e = t) by (unfold uf; rewrite U; reflexivity).
  cbn [all_help]. rewrite (element_lines buf e t U (shows_nonempty e t SH)). cbn [obind]. rewrite A. cbn [obind].
  split; [|constructor; [rewrite E; exact SH|exact B]]. cbn [flat_map]. rewrite unlines_app, E. reflexivity.
Qed.
Lemma all_ub : forall buf es, length buf = 19 -> Forall (bounds size_ok) es -> ~ Forall (bounds small) es -> all_help buf es = UB.
Proof.
  intros buf es L R. induction es as [|e es IH]; intros S; [exfalso; apply S; constructor|].
  inversion R; subst. cbn [all_help]. destruct (usage_text buf e L) as [A B]; [assumption|].
  assert (D : bounds small e \/ ~ bounds small e).
  { unfold bounds, small. destruct (eshape e) as [| |x y| | |]; try (left; exact I).
    destruct (Z_lt_dec x (10 ^ 18)), (Z_lt_dec y (10 ^ 18)), (Z_le_dec 0 x), (Z_le_dec 0 y); try (left; lia); right; lia. }
  destruct D as [D|D].
  - destruct (A D) as [t [U SH]]. rewrite (element_lines buf e t U (shows_nonempty e t SH)). cbn [obind].
    rewrite IH; [reflexivity|assumption|]. intros F. apply S. constructor; assumption.
  - unfold element_help. rewrite (B D). reflexivity.
Qed.

(** ** The whole text *)
Definition sec_lines (buf : bytes) (k : nat) (es : list element) : list bytes :=
  match es with [] => [] | _ => (ch 9 :: title k) :: flat_map (fun e => elines (uf buf e) e) es ++ [[]] end.
Definition etype_no (t : etype) : nat :=
  match t with EArg => 0 | EArgOpt => 1 | EArgPack => 2 | EFlag => 3 | EFlagValue => 4 | EFlagValueOpt => 5 end.
Lemma getAll_section : forall t c, getAll t c = section c (etype_no t).
Proof.
  intros t c. apply filter_ext. intros e. unfold has_type, section_of. destruct t, (eshape e); reflexivity.
Qed.
Lemma section_in : forall c k e, In e (section c k) -> In e (celems c).
Proof. intros c k e H. unfold section in H. apply filter_In in H. tauto. Qed.
Lemma section_forall : forall (P : element -> Prop) c k, Forall P (celems c) -> Forall P (section c k).
Proof. intros P c k H. rewrite Forall_forall in *. intros e I. apply H. eapply section_in. exact I. Qed.

Section HELP.
Context (buf : bytes) (c : command) (L : length buf = 19) (R : Forall (bounds size_ok) (celems c)).

Lemma help_for : forall str t tt, Forall (bounds small) (section c (etype_no t)) -> tt ++ lit ":" = title (etype_no t) ->
  helpForET buf str c t tt = Ok (str ++ unlines (sec_lines buf (etype_no t) (section c (etype_no t)))).
Proof.
  intros str t tt S T. unfold helpForET. rewrite getAll_section.
  destruct (all_lines buf (section c (etype_no t)) L (section_forall _ _ _ R) S) as [A _].
  destruct (section c (etype_no t)) as [|e es]; [cbn [sec_lines]; rewrite app_nil_r; reflexivity|].
  rewrite A. cbn [obind]. f_equal. f_equal. cbn [sec_lines]. set (X := flat_map _ _). change (unlines ((ch 9 :: title (etype_no t)) :: X ++ [[]]))
    with (((ch 9 :: title (etype_no t)) ++ [ch 10]) ++ unlines (X ++ [[]])).
  rewrite unlines_app, <- T. unfold newline. cbn [app unlines flat_map]. repeat (rewrite <- ?app_assoc; cbn [app]). reflexivity.
Qed.
Lemma help_for_ub : forall str t tt, ~ Forall (bounds small) (section c (etype_no t)) -> helpForET buf str c t tt = UB.
Proof.
  intros str t tt S. unfold helpForET. rewrite getAll_section. assert (A := all_ub buf (section c (etype_no t)) L (section_forall _ _ _ R) S).
  destruct (section c (etype_no t)); [exfalso; apply S; constructor|]. rewrite A. reflexivity.
Qed.
Definition desc_lines : list bytes := match cdesc c with [] => [] | d => [lit ">>" ++ d; []] end.
Definition help_lines : list bytes := desc_lines ++ flat_map (fun k => sec_lines buf k (section c k)) (seq 0 6).
Lemma help_text : Forall (bounds small) (celems c) -> getHelpStr buf c = Ok (unlines help_lines).
Proof.
  intros S. unfold getHelpStr.
  assert (D : match cdesc c with [] => [] | d => lit ">>" ++ d ++ newline ++ newline end = unlines desc_lines).
  { unfold desc_lines, newline. destruct (cdesc c) as [|a d]; [reflexivity|]. cbn [unlines flat_map app]. repeat (rewrite <- ?app_assoc; cbn [app]). reflexivity. }
  rewrite D. clear D.
  rewrite (help_for _ EArg) by (try apply section_forall; try assumption; reflexivity). cbn [obind].
  rewrite (help_for _ EArgOpt) by (try apply section_forall; try assumption; reflexivity). cbn [obind].
  rewrite (help_for _ EArgPack) by (try apply section_forall; try assumption; reflexivity). cbn [obind].
  rewrite (help_for _ EFlag) by (try apply section_forall; try assumption; reflexivity). cbn [obind].
  rewrite (help_for _ EFlagValue) by (try apply section_forall; try assumption; reflexivity). cbn [obind].
  rewrite (help_for _ EFlagValueOpt) by (try apply section_forall; try assumption; reflexivity).
  f_equal. unfold help_lines. cbn [seq flat_map etype_no]. rewrite !unlines_app. change (unlines []) with (@nil ascii). rewrite app_nil_r, !app_assoc. reflexivity.
Qed.
End HELP.

Lemma small_dec : forall e, bounds size_ok e -> bounds small e \/ ~ bounds small e.
Proof.
  intros e _. unfold bounds, small. destruct (eshape e) as [| |x y| | |]; try (left; exact I).
  destruct (Z_lt_dec x (10 ^ 18)), (Z_lt_dec y (10 ^ 18)), (Z_le_dec 0 x), (Z_le_dec 0 y); try (left; lia); right; lia.
Qed.
Lemma help_ub : forall buf c, length buf = 19 -> Forall (bounds size_ok) (celems c) -> ~ Forall (bounds small) (celems c) ->
  getHelpStr buf c = UB.
Proof.
  intros buf c L R S.
  assert (only : forall k, k <> 2 -> Forall (bounds small) (section c k)).
  { intros k K. apply Forall_forall. intros e I. unfold section in I. apply filter_In in I. destruct I as [_ I]. apply Nat.eqb_eq in I.
    unfold bounds. destruct (eshape e) eqn:E; try exact Logic.I. unfold section_of in I. rewrite E in I. congruence. }
  assert (bad : ~ Forall (bounds small) (section c 2)).
  { intros F. apply S. apply Forall_forall. intros e I. rewrite Forall_forall in F. unfold bounds. destruct (eshape e) eqn:E; try exact Logic.I.
    specialize (F e). unfold bounds in F. rewrite E in F. apply F. unfold section. apply filter_In. split; [exact I|]. unfold section_of. rewrite E. reflexivity. }
  unfold getHelpStr.
  rewrite (help_for buf c L R _ EArg) by (try (apply only; discriminate); reflexivity). cbn [obind].
  rewrite (help_for buf c L R _ EArgOpt) by (try (apply only; discriminate); reflexivity). cbn [obind].
  rewrite (help_for_ub buf c L R _ EArgPack) by exact bad. reflexivity.
Qed.

(** ** Marked lines *)
Lemma shows_line : forall e t, shows e t -> on_lines e -> bounds size_ok e -> line t.
Proof.
  assert (dl : forall n s, (0 <= n)%Z -> decimal n s -> line s).
  { intros n s H D. apply digits_lack; [eapply decimal_digits; eassumption|]. intros [X _]. vm_compute in X. apply X. reflexivity. }
  assert (la : forall a b, line a -> line b -> line (a ++ b)).
  { intros a b A B I. apply in_app_or in I. unfold line in A, B; tauto. }
  assert (ll : forall s, forallb (fun d => negb (Ascii.eqb d (ch 10))) s = true -> line s).
  { intros s H I. rewrite forallb_forall in H. apply H in I. discriminate. }
  intros e t H [A [B [C D]]] Z. destruct H; unfold bounds in Z; cbn [ename ebrief edesc eshape] in *;
    repeat apply la; try assumption; try (apply ll; reflexivity); try tauto.
  - destruct Z as [[Z _] _]. eapply dl; eassumption.
  - destruct Z as [_ [Z _]]. eapply dl; eassumption.
Qed.
Lemma texts_line : forall e, on_lines e -> Forall line (texts e).
Proof.
  intros e [A [B [C _]]]. unfold texts. apply Forall_forall. intros x I. apply filter_In in I. destruct I as [I _].
  destruct I as [<-|[<-|[<-|[]]]]; assumption.
Qed.
Lemma elines_line : forall u e, line u -> on_lines e -> Forall line (elines u e).
Proof.
  intros u e U O. unfold elines. constructor.
  - intros I. apply in_app_or in I. destruct I as [I|I]; [|exact (U I)]. cbn in I. intuition discriminate.
  - apply Forall_app. split; [|constructor; [intros []|constructor]]. apply Forall_map. eapply Forall_impl; [|apply texts_line; exact O].
    intros x X I. apply in_app_or in I. destruct I as [I|I]; [|exact (X I)]. cbn in I. intuition discriminate.
Qed.
Lemma title_line : forall k, k < 6 -> line (ch 9 :: title k).
Proof.
  intros k K. assert (H : forallb (fun k => forallb (fun d => negb (Ascii.eqb d (ch 10))) (ch 9 :: title k)) (seq 0 6) = true) by reflexivity.
  rewrite forallb_forall in H. specialize (H k). rewrite in_seq in H. specialize (H ltac:(lia)). rewrite forallb_forall in H.
  intros I. apply H in I. discriminate.
Qed.
Lemma help_lines_line : forall buf c, length buf = 19 -> Forall (bounds size_ok) (celems c) -> Forall (bounds small) (celems c) ->
  Forall on_lines (celems c) -> line (cdesc c) -> Forall line (help_lines buf c).
Proof.
  intros buf c L R S O D. unfold help_lines. apply Forall_app. split.
  - unfold desc_lines. destruct (cdesc c) as [|a d] eqn:E; [constructor|]. constructor; [|constructor; [intros []|constructor]].
    intros I. apply in_app_or in I. destruct I as [I|I]; [|exact (D I)]. cbn in I. intuition discriminate.
  - apply Forall_flat_map. apply Forall_forall. intros k K. apply in_seq in K. unfold sec_lines.
    assert (X := all_lines buf (section c k) L (section_forall _ _ _ R) (section_forall _ _ _ S)). destruct X as [_ X].
    assert (Y := section_forall _ _ k O). assert (Z := section_forall _ _ k R).
    destruct (section c k) as [|e es]; [constructor|]. constructor; [apply title_line; lia|].
    apply Forall_app. split; [|constructor; [intros []|constructor]]. apply Forall_flat_map. rewrite Forall_forall in *.
    intros x I. apply elines_line; [|apply Y; exact I]. eapply shows_line; [apply X|apply Y|apply Z]; exact I.
Qed.

Lemma marked_elines : forall u e, marked (lit "* ") (elines u e) = [u] /\ marked (lit "  --") (elines u e) = texts e /\
  marked [ch 9] (elines u e) = [] /\ marked (lit ">>") (elines u e) = [].
Proof.
  intros u e. unfold elines. set (T := texts e). clearbody T.
  assert (B : marked (lit "  --") (map (app (lit "  --")) T) = T).
  { induction T as [|t T IH]; [reflexivity|]. cbn [map marked]. rewrite after_app. f_equal. exact IH. }
  assert (C : forall m, m = lit "* " \/ m = [ch 9] \/ m = lit ">>" -> marked m (map (app (lit "  --")) T) = []).
  { clear B. intros m M. induction T as [|t T IH]; [reflexivity|]. cbn [map marked]. rewrite IH.
    destruct M as [->|[->| ->]]; reflexivity. }
  cbn [marked]. rewrite !marked_app, B, !C by tauto.
  repeat split.
  apply app_nil_r.
Qed.
Lemma marked_flat : forall m buf es f, (forall e, marked m (elines (uf buf e) e) = f e) ->
  marked m (flat_map (fun e => elines (uf buf e) e) es) = flat_map f es.
Proof.
  intros m buf es f H. induction es as [|e es IH]; [reflexivity|]. cbn [flat_map]. rewrite marked_app, H, IH. reflexivity.
Qed.
Lemma flat_single : forall (A B : Type) (f : A -> B) l, flat_map (fun e => [f e]) l = map f l.
Proof. intros A B f l. induction l as [|x l IH]; [reflexivity|]. cbn [flat_map map app]. rewrite IH. reflexivity. Qed.
Lemma flat_nil : forall (A B : Type) (l : list A), flat_map (fun _ => @nil B) l = [].
Proof. intros A B l. induction l as [|x l IH]; [reflexivity|exact IH]. Qed.
Lemma marked_sec : forall buf k es,
  marked (lit "* ") (sec_lines buf k es) = map (uf buf) es /\ marked (lit "  --") (sec_lines buf k es) = flat_map texts es /\
  marked [ch 9] (sec_lines buf k es) = (match es with [] => [] | _ => [title k] end) /\ marked (lit ">>") (sec_lines buf k es) = [].
Proof.
  intros buf k es. destruct es as [|e es]; [repeat split|]. unfold sec_lines.
  assert (H := fun e => marked_elines (uf buf e) e). cbn [marked]. rewrite !marked_app.
  rewrite (marked_flat (lit "* ") buf (e :: es) (fun e => [uf buf e])) by (intros x; apply H).
  rewrite (marked_flat (lit "  --") buf (e :: es) texts) by (intros x; apply H).
  rewrite (marked_flat [ch 9] buf (e :: es) (fun _ => [])) by (intros x; apply H).
  rewrite (marked_flat (lit ">>") buf (e :: es) (fun _ => [])) by (intros x; apply H).
  rewrite flat_single, !flat_nil. change (after (lit "* ") (ch 9 :: title k)) with (@None bytes).
  change (after (lit "  --") (ch 9 :: title k)) with (@None bytes). change (after (lit ">>") (ch 9 :: title k)) with (@None bytes).
  change (after [ch 9] (ch 9 :: title k)) with (Some (title k)). cbn [marked after app].
  change (marked (lit "* ") [[]]) with (@nil bytes). change (marked (lit "  --") [[]]) with (@nil bytes). rewrite !app_nil_r.
  repeat split.
Qed.

Lemma help_marks : forall buf c, length buf = 19 -> Forall (bounds size_ok) (celems c) -> Forall (bounds small) (celems c) ->
  Forall on_lines (celems c) -> line (cdesc c) -> exists h us, getHelpStr buf c = Ok h /\
  Forall2 shows (listed c) us /\ marked (lit "* ") (lines h) = us /\ marked (lit "  --") (lines h) = flat_map texts (listed c) /\
  marked [ch 9] (lines h) = map title (present c) /\ marked (lit ">>") (lines h) = filter (fun t => match t with [] => false | _ => true end) [cdesc c].
Proof.
  intros buf c L R S O D. exists (unlines (help_lines buf c)), (map (uf buf) (listed c)).
  split; [apply help_text; assumption|]. split.
  { unfold listed. set (ks := seq 0 6). clearbody ks. induction ks as [|k ks IH]; [constructor|]. cbn [flat_map]. rewrite map_app.
    apply Forall2_app; [|exact IH]. destruct (all_lines buf (section c k) L (section_forall _ _ _ R) (section_forall _ _ _ S)) as [_ X].
    induction X; [constructor|]. constructor; assumption. }
  rewrite (lines_unlines _ (help_lines_line buf c L R S O D)). rewrite !marked_app.
  change (marked (lit "* ") [[]]) with (@nil bytes). change (marked (lit "  --") [[]]) with (@nil bytes).
  change (marked (lit ">>") [[]]) with (@nil bytes). change (marked [ch 9] [[]]) with (@nil bytes). rewrite !app_nil_r.
  unfold help_lines. rewrite !marked_app.
  assert (DL : marked (lit "* ") (desc_lines c) = [] /\ marked (lit "  --") (desc_lines c) = [] /\ marked [ch 9] (desc_lines c) = [] /\
     marked (lit ">>") (desc_lines c) = filter (fun t => match t with [] => false | _ => true end) [cdesc c]).
  { unfold desc_lines. destruct (cdesc c) as [|a d]; repeat split. }
  destruct DL as [-> [-> [-> ->]]]. cbn [app].
  assert (H := fun k => marked_sec buf k (section c k)). unfold listed, present. set (ks := seq 0 6). clearbody ks.
  assert (G : marked (lit "* ") (flat_map (fun k => sec_lines buf k (section c k)) ks) = map (uf buf) (flat_map (section c) ks) /\
    marked (lit "  --") (flat_map (fun k => sec_lines buf k (section c k)) ks) = flat_map texts (flat_map (section c) ks) /\
    marked [ch 9] (flat_map (fun k => sec_lines buf k (section c k)) ks) =
      map title (filter (fun k => match section c k with [] => false | _ => true end) ks) /\
    marked (lit ">>") (flat_map (fun k => sec_lines buf k (section c k)) ks) = []).
  { induction ks as [|k ks [A [B [C E]]]]; [repeat split|]. destruct (H k) as [A' [B' [C' E']]]. cbn [flat_map filter].
    rewrite !marked_app, map_app, flat_map_app, A, B, C, E, A', B', C', E'. repeat split. destruct (section c k); reflexivity. }
  destruct G as [-> [-> [-> ->]]]. rewrite app_nil_r. repeat split.
Qed.
