(** Proofs about console formatting. *)
From Coq Require Import String Ascii ZArith NArith Arith Bool Lia List.
From Verif Require Import Common StrfModel ConModel ConSpec.
Import ListNotations.

Definition sty_text (y : Style) : bytes := dec (nth (style_int y) style_codes 0%Z).
Definition fg_text (c : Color) : bytes := dec (nth (color_int c) fg_codes 0%Z).
Definition bg_text (c : Color) : bytes := dec (nth (color_int c) bg_codes 0%Z).
Definition seq_text (y : Style) (f b : Color) : bytes :=
  prefix ++ sty_text y ++ lit ";" ++ fg_text f ++ lit ";" ++ bg_text b ++ postfix.

Lemma getFmtStr_ok s :
  getFmtStr s = Ok (mkCon (c_sty s) (c_fg s) (c_bg s) (seq_text (c_sty s) (c_fg s) (c_bg s)) (c_str s)).
Proof.
  unfold getFmtStr.
  assert (Hy : code_str style_codes (style_int (c_sty s)) = Ok (sty_text (c_sty s))) by (destruct (c_sty s); reflexivity).
  assert (Hf : code_str fg_codes (color_int (c_fg s)) = Ok (fg_text (c_fg s))) by (destruct (c_fg s); reflexivity).
  assert (Hb : code_str bg_codes (color_int (c_bg s)) = Ok (bg_text (c_bg s))) by (destruct (c_bg s); reflexivity).
  rewrite Hy, Hf, Hb. reflexivity.
Qed.

Definition scode y := nth (style_int y) style_codes 0%Z.
Definition fcode y := nth (color_int y) fg_codes 0%Z.
Definition bcode y := nth (color_int y) bg_codes 0%Z.

Lemma read_sty y ps p c n :
  fold_left receive (sty_text y) (mkT (Params ps 0) p c n) = mkT (Params ps (scode y)) p c n.
Proof. destruct y; reflexivity. Qed.
Lemma read_fg y ps p c n :
  fold_left receive (fg_text y) (mkT (Params ps 0) p c n) = mkT (Params ps (fcode y)) p c n.
Proof. destruct y; reflexivity. Qed.
Lemma read_bg y ps p c n :
  fold_left receive (bg_text y) (mkT (Params ps 0) p c n) = mkT (Params ps (bcode y)) p c n.
Proof. destruct y; reflexivity. Qed.

Lemma sgr_fg c p : sgr p (fcode c) = with_ink (colour_of c) p.
Proof. destruct c; reflexivity. Qed.
Lemma sgr_bg c p : sgr p (bcode c) = with_paper (colour_of c) p.
Proof. destruct c; reflexivity. Qed.
Lemma sgr_sty y p i q : with_paper q (with_ink i (sgr p (scode y))) = with_ink i (with_paper q (restyled y p)).
Proof. destruct y; reflexivity. Qed.

Definition repen y f b p := with_ink (colour_of f) (with_paper (colour_of b) (restyled y p)).

Lemma read_seq y f b p c n :
  fold_left receive (seq_text y f b) (mkT Ground p c n) = mkT Ground (repen y f b p) c n.
Proof.
  unfold seq_text. rewrite !fold_left_app.
  change (fold_left receive prefix (mkT Ground p c n)) with (mkT (Params [] 0) p c n).
  rewrite read_sty.
  change (fold_left receive (lit ";") (mkT (Params [] (scode y)) p c n)) with (mkT (Params [scode y] 0) p c n).
  rewrite read_fg.
  change (fold_left receive (lit ";") (mkT (Params [scode y] (fcode f)) p c n)) with (mkT (Params [scode y; fcode f] 0) p c n).
  rewrite read_bg.
  change (fold_left receive postfix (mkT (Params [scode y; fcode f] (bcode b)) p c n))
    with (mkT Ground (sgr (sgr (sgr p (scode y)) (fcode f)) (bcode b)) c n).
  rewrite sgr_bg, sgr_fg, sgr_sty. reflexivity.
Qed.

Lemma write_end l x : write_at (length l) x l = l ++ [x].
Proof. induction l; cbn; [reflexivity|f_equal; assumption]. Qed.

Lemma read_text t p c :
  ~ In esc t ->
  fold_left receive t (mkT Ground p c (length c)) = mkT Ground p (c ++ drawn p t) (length (c ++ drawn p t)).
Proof.
  revert c. induction t as [|x t IH]; intros c H.
  - cbn. rewrite app_nil_r. reflexivity.
  - cbn [fold_left].
    assert (Hx : Ascii.eqb x esc = false).
    { apply Ascii.eqb_neq. intros ->. apply H. left. reflexivity. }
    unfold receive at 2. cbn [t_mode t_pen t_cells t_pos]. rewrite Hx, write_end.
    replace (S (length c)) with (length (c ++ [(x, p)])) by (rewrite app_length; cbn; lia).
    rewrite IH by (intros K; apply H; right; exact K).
    rewrite <- app_assoc. reflexivity.
Qed.

Lemma no_esc_blanks n : ~ In esc (repeat " "%char n).
Proof. intros H. apply repeat_spec in H. discriminate. Qed.

Lemma read_clear p c n :
  fold_left receive clear_str (mkT Ground p c n) = mkT Ground p [] 0.
Proof. reflexivity. Qed.

Lemma put_chars_eq t s : put_chars t s = mkS (s_out s ++ t) (s_width s).
Proof.
  revert s. induction t as [|x t IH]; intros s; cbn [put_chars].
  - rewrite app_nil_r. destruct s; reflexivity.
  - rewrite IH. cbn [s_out s_width]. rewrite <- app_assoc. reflexivity.
Qed.

Lemma style_snoc h a : style_of (h ++ [a]) = match a with Call CReset => SNone | Call (CStyle z) => z | _ => style_of h end.
Proof. unfold style_of. rewrite fold_left_app. reflexivity. Qed.
Lemma fg_snoc h a : fg_of (h ++ [a]) = match a with Call CReset => CDefault | Call (CFG z) => z | _ => fg_of h end.
Proof. unfold fg_of. rewrite fold_left_app. reflexivity. Qed.
Lemma bg_snoc h a : bg_of (h ++ [a]) = match a with Call CReset => CDefault | Call (CBG z) => z | _ => bg_of h end.
Proof. unfold bg_of. rewrite fold_left_app. reflexivity. Qed.
Lemma any_snoc h a : any_call (h ++ [a]) = any_call h || match a with Call _ => true | _ => false end.
Proof. unfold any_call. rewrite existsb_app. cbn. rewrite orb_false_r. reflexivity. Qed.

Definition inv (before : list act) (s : con) : Prop :=
  c_sty s = style_of before /\ c_fg s = fg_of before /\ c_bg s = bg_of before /\
  c_res s = (if any_call before then seq_text (style_of before) (fg_of before) (bg_of before) else []).
Definition sees (s : stream) (v : view) : Prop :=
  terminal_after (s_out s) = mkT Ground (v_pen v) (v_cells v) (length (v_cells v)) /\ s_width s = v_width v.

Lemma sees_put s v t : ~ In esc t -> sees s v ->
  sees (put_str t s) (mkV (v_pen v) (v_cells v ++ drawn (v_pen v) (repeat " "%char (v_width v - length t) ++ t)) 0).
Proof.
  intros H [H1 H2]. split; cbn [put_str s_out s_width v_pen v_cells v_width]; [|reflexivity].
  unfold terminal_after in *. rewrite fold_left_app, H1, H2.
  apply read_text. intros K. apply in_app_or in K. destruct K as [K|K]; [exact (no_esc_blanks _ K)|exact (H K)].
Qed.
Lemma sees_clear s v : sees s v -> sees (put_str clear_str s) (mkV (v_pen v) [] 0).
Proof.
  intros [H1 H2]. split; cbn [put_str s_out s_width v_pen v_cells v_width]; [|reflexivity].
  unfold terminal_after in *. rewrite !fold_left_app, H1.
  rewrite read_text by apply no_esc_blanks. apply read_clear.
Qed.
Lemma sees_seq s v y f b : sees s v ->
  sees (put_chars (seq_text y f b) s) (mkV (repen y f b (v_pen v)) (v_cells v) (v_width v)).
Proof.
  intros [H1 H2]. rewrite put_chars_eq. split; cbn [s_out s_width v_pen v_cells v_width]; [|exact H2].
  unfold terminal_after in *. rewrite fold_left_app, H1. apply read_seq.
Qed.

Lemma step_ok before a s :
  inv before s -> (forall k t, a = Put k t -> ~ In esc t) ->
  exists s', step Unix a s = Ok s' /\ inv (before ++ [a]) s' /\
  (forall k v, sees (c_str s k) v -> sees (c_str s' k) (view_step k before a v)).
Proof.
  intros (Hy & Hf & Hb & Hr) Ht.
  destruct a as [f|k|k|k t|k w].
  - destruct f as [|y|c|c]; cbn [step unix_call]; rewrite getFmtStr_ok; cbn [c_sty c_fg c_bg c_str];
      (eexists; split; [reflexivity|]; split; [|intros j v Hv; exact Hv]);
      unfold inv; cbn [c_sty c_fg c_bg c_res]; rewrite style_snoc, fg_snoc, bg_snoc, any_snoc, orb_true_r;
      rewrite ?Hy, ?Hf, ?Hb; repeat split; reflexivity.
  - cbn [step]. eexists. split; [reflexivity|]. split.
    + unfold inv, on; cbn [c_sty c_fg c_bg c_res]. rewrite style_snoc, fg_snoc, bg_snoc, any_snoc, orb_false_r.
      auto.
    + intros j v Hv. unfold on. cbn [c_str view_step].
      destruct (Nat.eqb j k); cbn [andb]; [|exact Hv].
      rewrite Hr. destruct (any_call before); cbn [andb]; [apply sees_seq; exact Hv|exact Hv].
  - cbn [step]. eexists. split; [reflexivity|]. split.
    + unfold inv, on; cbn [c_sty c_fg c_bg c_res]. rewrite style_snoc, fg_snoc, bg_snoc, any_snoc, orb_false_r.
      auto.
    + intros j v Hv. unfold on. cbn [c_str view_step].
      destruct (Nat.eqb j k); [|exact Hv]. apply sees_clear; exact Hv.
  - cbn [step]. eexists. split; [reflexivity|]. split.
    + unfold inv, on; cbn [c_sty c_fg c_bg c_res]. rewrite style_snoc, fg_snoc, bg_snoc, any_snoc, orb_false_r.
      auto.
    + intros j v Hv. unfold on. cbn [c_str view_step].
      destruct (Nat.eqb j k); [|exact Hv]. apply sees_put; [exact (Ht k t eq_refl)|exact Hv].
  - cbn [step]. eexists. split; [reflexivity|]. split.
    + unfold inv, on; cbn [c_sty c_fg c_bg c_res]. rewrite style_snoc, fg_snoc, bg_snoc, any_snoc, orb_false_r.
      auto.
    + intros j v [Hv1 Hv2]. unfold on. cbn [c_str view_step].
      destruct (Nat.eqb j k); [|split; assumption]. split; [exact Hv1|reflexivity].
Qed.

Lemma run_ok h : forall before s,
  inv before s -> plain_texts h ->
  exists s', run Unix h s = Ok s' /\
  (forall k v, sees (c_str s k) v -> sees (c_str s' k) (view_from k before h v)).
Proof.
  induction h as [|a h IH]; intros before s Hi Ht.
  - exists s. split; [reflexivity|auto].
  - destruct (step_ok before a s Hi) as (s1 & E1 & Hi1 & Hv1).
    { intros k t ->. apply (Ht k t). left. reflexivity. }
    destruct (IH (before ++ [a]) s1 Hi1) as (s2 & E2 & Hv2).
    { intros k t K. apply (Ht k t). right. exact K. }
    exists s2. cbn [run]. rewrite E1. split; [exact E2|]. intros k v Hv. cbn [view_from]. auto.
Qed.

Lemma screen h k : plain_texts h ->
  exists s, run Unix h start = Ok s /\
  terminal_after (s_out (c_str s k)) =
    mkT Ground (v_pen (view_of k h)) (v_cells (view_of k h)) (length (v_cells (view_of k h))).
Proof.
  intros H. destruct (run_ok h [] start) as (s & E & Hv); [repeat split; reflexivity|exact H|].
  exists s. split; [exact E|]. apply (Hv k (mkV plain [] 0)). split; reflexivity.
Qed.

(** *** Consequences *)
Lemma view_from_app k h1 : forall before h2 v,
  view_from k before (h1 ++ h2) v = view_from k (before ++ h1) h2 (view_from k before h1 v).
Proof.
  induction h1 as [|a h1 IH]; intros before h2 v; cbn [app view_from].
  - rewrite app_nil_r. reflexivity.
  - rewrite IH, <- app_assoc. reflexivity.
Qed.
Lemma view_app k h1 h2 : view_of k (h1 ++ h2) = view_from k h1 h2 (view_of k h1).
Proof. unfold view_of. rewrite view_from_app. reflexivity. Qed.

Lemma pen_no_send k h : forall before v, no_send k h -> v_pen (view_from k before h v) = v_pen v.
Proof.
  induction h as [|a h IH]; intros before v H; cbn [view_from]; [reflexivity|].
  rewrite IH by (intros K; apply H; right; exact K).
  destruct a as [f|j|j|j t|j w]; cbn [view_step]; try (destruct (Nat.eqb k j); reflexivity); [reflexivity|].
  destruct (Nat.eqb k j) eqn:E; [|reflexivity].
  apply Nat.eqb_eq in E. subst j. exfalso. apply H. left. reflexivity.
Qed.

Lemma any_app h1 h2 : any_call (h1 ++ h2) = any_call h1 || any_call h2.
Proof. apply existsb_app. Qed.

Lemma view_send k h : any_call h = true ->
  v_pen (view_of k (h ++ [Send k])) = repen (style_of h) (fg_of h) (bg_of h) (v_pen (view_of k h)).
Proof.
  intros H. rewrite view_app. cbn [view_from view_step]. rewrite Nat.eqb_refl, H. reflexivity.
Qed.

Lemma view_put k h t : v_cells (view_of k (h ++ [Put k t])) =
  v_cells (view_of k h) ++ drawn (v_pen (view_of k h)) (repeat " "%char (v_width (view_of k h) - length t) ++ t).
Proof. rewrite view_app. cbn [view_from view_step]. rewrite Nat.eqb_refl. reflexivity. Qed.

Lemma drawn_app p a b : drawn p (a ++ b) = drawn p a ++ drawn p b.
Proof. apply map_app. Qed.

Lemma put_last h k t : plain_texts (h ++ [Put k t]) ->
  exists s rest, run Unix (h ++ [Put k t]) start = Ok s /\
    t_cells (terminal_after (s_out (c_str s k))) = rest ++ drawn (v_pen (view_of k h)) t.
Proof.
  intros H. destruct (screen _ k H) as (s & E & Ht).
  exists s. eexists. split; [exact E|]. rewrite Ht. cbn [t_cells]. rewrite view_put, drawn_app, app_assoc.
  reflexivity.
Qed.

Lemma colours h k m t :
  any_call h = true -> no_send k m -> plain_texts (h ++ [Send k] ++ m ++ [Put k t]) ->
  exists s rest p, run Unix (h ++ [Send k] ++ m ++ [Put k t]) start = Ok s /\
    t_cells (terminal_after (s_out (c_str s k))) = rest ++ drawn p t /\
    ink p = colour_of (fg_of h) /\ paper p = colour_of (bg_of h).
Proof.
  intros Ha Hm H.
  replace (h ++ [Send k] ++ m ++ [Put k t]) with ((h ++ [Send k] ++ m) ++ [Put k t]) in *
    by (rewrite <- !app_assoc; reflexivity).
  destruct (put_last _ k t H) as (s & rest & E & Ht).
  exists s, rest. eexists. split; [exact E|]. split; [exact Ht|].
  rewrite app_assoc, view_app, pen_no_send by exact Hm. rewrite view_send by exact Ha.
  split; reflexivity.
Qed.

Lemma style_no h : forall y0, no_style h ->
  fold_left (fun y a => match a with Call CReset => SNone | Call (CStyle z) => z | _ => y end) h y0 = y0.
Proof.
  induction h as [|a h IH]; intros y0 H; cbn [fold_left]; [reflexivity|].
  rewrite IH by (intros f K; apply (H f); right; exact K).
  destruct a as [f|j|j|j t|j w]; try reflexivity.
  specialize (H f (or_introl eq_refl)). destruct f; try contradiction; reflexivity.
Qed.
Lemma style_app h m : no_style m -> style_of (h ++ m) = style_of h.
Proof. intros H. unfold style_of. rewrite fold_left_app. apply style_no. exact H. Qed.

Lemma style_keep_gen k y m : forall before v, no_style m -> style_of before = y ->
  (forall p, styled y p = p -> restyled y p = p) ->
  v_pen v = styled y (v_pen v) ->
  v_pen (view_from k before m v) = styled y (v_pen (view_from k before m v)).
Proof.
  induction m as [|a m IH]; intros before v Hm Hy Hr Hv; cbn [view_from]; [exact Hv|].
  assert (Hm' : no_style m) by (intros f K; apply (Hm f); right; exact K).
  assert (Ha : no_style [a]) by (intros f [K|[]]; apply (Hm f); left; exact K).
  apply IH; [exact Hm'|rewrite style_app; assumption|exact Hr|].
  destruct a as [f|j|j|j t|j w]; cbn [view_step].
  - exact Hv.
  - destruct (Nat.eqb k j && any_call before); [|exact Hv]. cbn [v_pen].
    rewrite Hy, Hr by (symmetry; exact Hv).
    rewrite Hv at 1. reflexivity.
  - destruct (Nat.eqb k j); exact Hv.
  - destruct (Nat.eqb k j); exact Hv.
  - destruct (Nat.eqb k j); exact Hv.
Qed.

Lemma restyled_setting y p : setting y -> styled y p = p -> restyled y p = p.
Proof. intros H E. rewrite <- E. destruct y; try contradiction; reflexivity. Qed.
Lemma restyled_plain y p : setting y -> p = styled SNone p -> restyled y p = styled y p.
Proof. intros H E. rewrite E. destruct y; try contradiction; reflexivity. Qed.

Lemma style_one h k m1 y m2 t :
  setting y -> no_style m1 -> no_style m2 ->
  plain_texts (h ++ [Call CReset; Send k] ++ m1 ++ [Call (CStyle y); Send k] ++ m2 ++ [Put k t]) ->
  exists s rest p,
    run Unix (h ++ [Call CReset; Send k] ++ m1 ++ [Call (CStyle y); Send k] ++ m2 ++ [Put k t]) start = Ok s /\
    t_cells (terminal_after (s_out (c_str s k))) = rest ++ drawn p t /\ styled y p = p.
Proof.
  intros Hy H1 H2 H.
  replace (h ++ [Call CReset; Send k] ++ m1 ++ [Call (CStyle y); Send k] ++ m2 ++ [Put k t])
    with (((((h ++ [Call CReset]) ++ [Send k]) ++ m1) ++ [Call (CStyle y)] ++ [Send k] ++ m2) ++ [Put k t]) in *
    by (rewrite <- !app_assoc; reflexivity).
  destruct (put_last _ k t H) as (s & rest & E & Ht).
  exists s, rest. eexists. split; [exact E|]. split; [exact Ht|].
  set (g := (h ++ [Call CReset]) ++ [Send k]).
  assert (Hg : v_pen (view_of k g) = plain).
  { unfold g. rewrite view_send by (rewrite any_snoc; apply orb_true_r).
    rewrite style_snoc, fg_snoc, bg_snoc. reflexivity. }
  assert (Hn : v_pen (view_of k (g ++ m1)) = styled SNone (v_pen (view_of k (g ++ m1)))).
  { rewrite view_app. apply style_keep_gen; [exact H1| |intros p; apply restyled_setting; exact I|rewrite Hg; reflexivity].
    unfold g. rewrite !style_snoc. reflexivity. }
  set (g1 := g ++ m1) in *.
  rewrite app_assoc, app_assoc, view_app. symmetry.
  apply style_keep_gen; [exact H2|rewrite !style_snoc; reflexivity|intros p; apply restyled_setting; exact Hy|].
  rewrite view_send by (rewrite any_snoc; apply orb_true_r).
  rewrite style_snoc. unfold repen.
  assert (Hc : v_pen (view_of k (g1 ++ [Call (CStyle y)])) = v_pen (view_of k g1))
    by (rewrite view_app; reflexivity).
  rewrite Hc, restyled_plain by assumption. destruct y; reflexivity.
Qed.

Lemma reset_plain h k t : plain_texts (h ++ [Call CReset; Send k; Put k t]) ->
  exists s rest, run Unix (h ++ [Call CReset; Send k; Put k t]) start = Ok s /\
    t_cells (terminal_after (s_out (c_str s k))) = rest ++ drawn plain t.
Proof.
  intros H.
  replace (h ++ [Call CReset; Send k; Put k t]) with (((h ++ [Call CReset]) ++ [Send k]) ++ [Put k t]) in *
    by (rewrite <- !app_assoc; reflexivity).
  destruct (put_last _ k t H) as (s & rest & E & Ht).
  exists s, rest. split; [exact E|]. rewrite Ht.
  rewrite view_send by (rewrite any_snoc; apply orb_true_r).
  rewrite style_snoc, fg_snoc, bg_snoc. reflexivity.
Qed.

Lemma null_run h : (forall k w, ~ In (Width k w) h) -> forall s,
  (forall k, s_width (c_str s k) = 0) ->
  exists s', run NullConsole h s = Ok s' /\
    forall k, s_out (c_str s' k) = s_out (c_str s k) ++ texts k h.
Proof.
  induction h as [|a h IH]; intros Hw s Hs.
  - exists s. split; [reflexivity|]. intros k. cbn. rewrite app_nil_r. reflexivity.
  - assert (Hw' : forall k w, ~ In (Width k w) h) by (intros k w K; apply (Hw k w); right; exact K).
    assert (Hp : forall k t, exists s', run NullConsole h (on k (put_str t) s) = Ok s' /\
        forall j, s_out (c_str s' j) = s_out (c_str s j) ++ (if Nat.eqb j k then t else []) ++ texts j h).
    { intros k t. destruct (IH Hw' (on k (put_str t) s)) as (s' & E & F).
      - intros j. unfold on. cbn [c_str]. destruct (Nat.eqb j k); [reflexivity|apply Hs].
      - exists s'. split; [exact E|]. intros j. rewrite F. unfold on. cbn [c_str].
        destruct (Nat.eqb j k); [|reflexivity].
        unfold put_str. cbn [s_out]. rewrite Hs. cbn [Nat.sub repeat app]. rewrite <- app_assoc. reflexivity. }
    destruct a as [f|k|k|k t|k w].
    + cbn [run step obind texts]. destruct (IH Hw' s Hs) as (s' & E & F). exists s'. split; assumption.
    + cbn [run step obind texts]. destruct (Hp k []) as (s' & E & F). exists s'. split; [exact E|].
      intros j. rewrite F. destruct (Nat.eqb j k); reflexivity.
    + cbn [run step obind texts]. destruct (Hp k []) as (s' & E & F). exists s'. split; [exact E|].
      intros j. rewrite F. destruct (Nat.eqb j k); reflexivity.
    + cbn [run step obind texts]. destruct (Hp k t) as (s' & E & F). exists s'. split; [exact E|].
      intros j. rewrite F. destruct (Nat.eqb j k); reflexivity.
    + exfalso. apply (Hw k w). left. reflexivity.
Qed.

Lemma info_once ask ask' : forall c r, ask 0 = Some (c, r) ->
  exists s, getColumnCount Unix ask (mkI 0 None) = Ok (s, c) /\
    getRowCount Unix ask (mkI 0 None) = Ok (s, r) /\
    getColumnCount Unix ask' s = Ok (s, c) /\ getRowCount Unix ask' s = Ok (s, r).
Proof.
  intros c r H. exists (mkI 1 (Some (c, r))). unfold getColumnCount, getRowCount, getInfoImpl. cbn [i_kept i_asked].
  rewrite H. repeat split; reflexivity.
Qed.

Lemma style_numbers n : n < styleCount <-> exists y, style_int y = n.
Proof.
  unfold styleCount. split.
  - intros H.
    destruct n as [|n]; [exists SNone; reflexivity|].
    destruct n as [|n]; [exists SBold; reflexivity|].
    destruct n as [|n]; [exists SDim; reflexivity|].
    destruct n as [|n]; [exists SUnderline; reflexivity|].
    destruct n as [|n]; [exists SBlink; reflexivity|].
    destruct n as [|n]; [exists SReverseFGBG; reflexivity|].
    destruct n as [|n]; [exists SHidden; reflexivity|].
    destruct n as [|n]; [exists SResetBold; reflexivity|].
    destruct n as [|n]; [exists SResetDim; reflexivity|].
    destruct n as [|n]; [exists SResetUnderline; reflexivity|].
    destruct n as [|n]; [exists SResetBlink; reflexivity|].
    destruct n as [|n]; [exists SResetReverse; reflexivity|].
    destruct n as [|n]; [exists SResetHidden; reflexivity|].
    lia.
  - intros [y <-]. destruct y; cbn; lia.
Qed.

Lemma style_replaced_refuted :
  exists y z t s p, setting y /\ setting z /\
    run Unix [Call (CStyle y); Send 0; Call (CStyle z); Send 0; Put 0 t] start = Ok s /\
    t_cells (terminal_after (s_out (c_str s 0))) = drawn p t /\ t <> [] /\
    styled z p <> p /\ bold p = true /\ under p = OneLine.
Proof.
  destruct (run Unix [Call (CStyle SBold); Send 0; Call (CStyle SUnderline); Send 0; Put 0 (lit "x")] start) as [s| | |] eqn:E;
    [|discriminate|discriminate|discriminate].
  exists SBold, SUnderline, (lit "x"), s, (mkPen true false OneLine false false false Own Own).
  injection E as <-. vm_compute. repeat split; discriminate.
Qed.

Lemma reset_bold_refuted :
  exists t s p,
    run Unix [Call (CStyle SBold); Send 0; Call (CStyle SResetBold); Send 0; Put 0 t] start = Ok s /\
    t_cells (terminal_after (s_out (c_str s 0))) = drawn p t /\ t <> [] /\ bold p = true /\ under p = TwoLines.
Proof.
  destruct (run Unix [Call (CStyle SBold); Send 0; Call (CStyle SResetBold); Send 0; Put 0 (lit "x")] start) as [s| | |] eqn:E;
    [|discriminate|discriminate|discriminate].
  exists (lit "x"), s, (mkPen true false TwoLines false false false Own Own).
  injection E as <-. vm_compute. repeat split; discriminate.
Qed.

Lemma kept_refuted :
  exists wanted later t s p,
    run Unix [Call (CFG wanted); Call (CFG later); Send 0; Put 0 t] start = Ok s /\
    t_cells (terminal_after (s_out (c_str s 0))) = drawn p t /\ t <> [] /\
    ink p = colour_of later /\ ink p <> colour_of wanted.
Proof.
  destruct (run Unix [Call (CFG CRed); Call (CFG CBlue); Send 0; Put 0 (lit "x")] start) as [s| | |] eqn:E;
    [|discriminate|discriminate|discriminate].
  exists CRed, CBlue, (lit "x"), s, (with_ink (Normal Blue) plain).
  injection E as <-. vm_compute. repeat split; discriminate.
Qed.

Lemma streams_refuted :
  exists c t s p,
    run Unix [Call (CFG c); Send 1; Call (CStyle SBold); Send 0; Put 0 t] start = Ok s /\
    t_cells (terminal_after (s_out (c_str s 0))) = drawn p t /\ t <> [] /\ ink p <> Own.
Proof.
  destruct (run Unix [Call (CFG CRed); Send 1; Call (CStyle SBold); Send 0; Put 0 (lit "x")] start) as [s| | |] eqn:E;
    [|discriminate|discriminate|discriminate].
  exists CRed, (lit "x"), s, (mkPen true false NoLine false false false (Normal Red) Own).
  injection E as <-. vm_compute. repeat split; discriminate.
Qed.

Lemma null : forall h, (forall k w, ~ In (Width k w) h) ->
  exists s, run NullConsole h start = Ok s /\ forall k, s_out (c_str s k) = texts k h.
Proof. intros h H. exact (null_run h H start (fun _ => eq_refl)). Qed.

Lemma width_refuted :
  exists s1 s2 s3,
    run Unix [Width 0 4; Call (CFG CRed); Send 0; Put 0 (lit "x"); Put 0 (lit "y")] start = Ok s1 /\
    map fst (t_cells (terminal_after (s_out (c_str s1 0)))) = lit "   xy" /\
    run NullConsole [Width 0 4; Call (CFG CRed); Send 0; Put 0 (lit "x"); Put 0 (lit "y")] start = Ok s2 /\
    s_out (c_str s2 0) = lit "    xy" /\
    run Unix [Width 0 4; Clear 0; Put 0 (lit "x")] start = Ok s3 /\
    map fst (t_cells (terminal_after (s_out (c_str s3 0)))) = lit "x".
Proof.
  destruct (run Unix [Width 0 4; Call (CFG CRed); Send 0; Put 0 (lit "x"); Put 0 (lit "y")] start) as [s1| | |] eqn:E1;
    [|discriminate|discriminate|discriminate].
  destruct (run NullConsole [Width 0 4; Call (CFG CRed); Send 0; Put 0 (lit "x"); Put 0 (lit "y")] start) as [s2| | |] eqn:E2;
    [|discriminate|discriminate|discriminate].
  destruct (run Unix [Width 0 4; Clear 0; Put 0 (lit "x")] start) as [s3| | |] eqn:E3;
    [|discriminate|discriminate|discriminate].
  exists s1, s2, s3. injection E1 as <-. injection E2 as <-. injection E3 as <-. vm_compute. repeat split.
Qed.

Lemma color_count_refuted : exists c, ~ color_int c < colorCount.
Proof. exists CLightWhite. cbn. unfold colorCount. lia. Qed.

Lemma info_refuted :
  exists ask, isInfoValid Unix = true /\ getColumnCount Unix ask (mkI 0 None) = UB.
Proof. exists (fun _ => None). split; reflexivity. Qed.
