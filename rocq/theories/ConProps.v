(** Property theorems C116 (console formatting). *)
From Coq Require Import String Ascii ZArith NArith Arith Bool Lia List.
From Verif Require Import Common StrfModel ConModel ConSpec ConProofs.
Import ListNotations.

(** C116. Whatever a program does with the formatting functions, in whatever order and on however many
    streams, nothing goes wrong, and a terminal attached to a stream shows exactly the program's texts
    (widths padded, cleared screens empty), each drawn with the pen the specification predicts. *)
Theorem C116_screen : forall h k, plain_texts h ->
  exists s, run Unix h start = Ok s /\
  terminal_after (s_out (c_str s k)) =
    mkT Ground (v_pen (view_of k h)) (v_cells (view_of k h)) (length (v_cells (view_of k h))).
Proof. exact screen. Qed.
Print Assumptions C116_screen.
Example C116_screen_example :
  let h := [Width 0 3; Call (CFG CRed); Send 0; Put 0 (lit "a"); Call (CStyle SBold); Send 0; Put 0 (lit "b");
            Put 1 (lit "c"); Call (CBG CLightWhite); Send 1; Put 1 (lit "d"); Clear 0; Put 0 (lit "e")] in
  v_cells (view_of 1 h) =
    [("c"%char, plain); ("d"%char, mkPen true false NoLine false false false (Normal Red) (Bright White))] /\
  v_cells (view_of 0 h) = [("e"%char, mkPen true false NoLine false false false (Normal Red) Own)] /\
  v_cells (view_of 0 (firstn 4 h)) =
    [(" "%char, with_ink (Normal Red) plain); (" "%char, with_ink (Normal Red) plain);
     ("a"%char, with_ink (Normal Red) plain)].
Proof. vm_compute. repeat split. Qed.

(** C116. A text is shown in the colours chosen last before the last format string sent to its stream;
    those are the terminal's own if none was chosen since the start or the last [resetFmt()]. Styles,
    other streams and the order of the calls make no difference. *)
Theorem C116_colours : forall h k m t,
  any_call h = true -> no_send k m -> plain_texts (h ++ [Send k] ++ m ++ [Put k t]) ->
  exists s rest p, run Unix (h ++ [Send k] ++ m ++ [Put k t]) start = Ok s /\
    t_cells (terminal_after (s_out (c_str s k))) = rest ++ drawn p t /\
    ink p = colour_of (fg_of h) /\ paper p = colour_of (bg_of h).
Proof. exact colours. Qed.
Print Assumptions C116_colours.
Example C116_colours_example :
  let h := [Call (CFG CDarkGray); Send 0; Call (CStyle SHidden); Send 0; Call (CBG CLightGray)] in
  any_call h = true /\ colour_of (fg_of h) = Bright Black /\ colour_of (bg_of h) = Normal White /\
  no_send 0 [Send 1; Put 0 (lit "x")] /\ plain_texts (h ++ [Send 0] ++ [Send 1; Put 0 (lit "x")] ++ [Put 0 (lit "y")]).
Proof.
  repeat split.
  - intros [H|[H|[]]]; discriminate.
  - intros k t H. cbn in H. repeat (destruct H as [H|H]; [try discriminate; injection H as <- <-; intros [K|[]]; discriminate|]). destruct H.
Qed.

(** C116. After [resetFmt()] a text is drawn as on a terminal just switched on, whatever came before. *)
Theorem C116_reset : forall h k t, plain_texts (h ++ [Call CReset; Send k; Put k t]) ->
  exists s rest, run Unix (h ++ [Call CReset; Send k; Put k t]) start = Ok s /\
    t_cells (terminal_after (s_out (c_str s k))) = rest ++ drawn plain t.
Proof. exact reset_plain. Qed.
Print Assumptions C116_reset.
Example C116_reset_example : plain_texts ([Call (CStyle SBlink); Send 0] ++ [Call CReset; Send 0; Put 0 (lit "y")]).
Proof.
  intros k t H. cbn in H. repeat (destruct H as [H|H]; [try discriminate; injection H as <- <-; intros [K|[]]; discriminate|]). destruct H.
Qed.

(** C116. The one style chosen after a reset is the style of the texts that follow, and the only one,
    however often colours are changed in between. *)
Theorem C116_style : forall h k m1 y m2 t,
  setting y -> no_style m1 -> no_style m2 ->
  plain_texts (h ++ [Call CReset; Send k] ++ m1 ++ [Call (CStyle y); Send k] ++ m2 ++ [Put k t]) ->
  exists s rest p,
    run Unix (h ++ [Call CReset; Send k] ++ m1 ++ [Call (CStyle y); Send k] ++ m2 ++ [Put k t]) start = Ok s /\
    t_cells (terminal_after (s_out (c_str s k))) = rest ++ drawn p t /\ styled y p = p.
Proof. exact style_one. Qed.
Print Assumptions C116_style.
Example C116_style_example :
  setting SUnderline /\ no_style [Call (CFG CRed); Send 0] /\ no_style [Call (CBG CBlue); Send 0; Put 0 (lit "x")] /\
  ~ setting SResetBold.
Proof.
  split; [exact I|]. split; [|split; [|intros H; exact H]].
  - intros f [H|[H|[]]]; inversion H. exact I.
  - intros f [H|[H|[H|[]]]]; inversion H. exact I.
Qed.

(** C116. Finding: a second style does not replace the first. Underline chosen after Bold draws bold
    underlined text. *)
Theorem C116_style_replaced_refuted :
  exists y z t s p, setting y /\ setting z /\
    run Unix [Call (CStyle y); Send 0; Call (CStyle z); Send 0; Put 0 t] start = Ok s /\
    t_cells (terminal_after (s_out (c_str s 0))) = drawn p t /\ t <> [] /\
    styled z p <> p /\ bold p = true /\ under p = OneLine.
Proof. exact style_replaced_refuted. Qed.
Print Assumptions C116_style_replaced_refuted.

(** C116. Finding: [ResetBold] does not take bold away. Its code, 21, draws a double line on ECMA-48
    terminals, so text that was bold stays bold and is underlined twice. *)
Theorem C116_reset_bold_refuted :
  exists t s p,
    run Unix [Call (CStyle SBold); Send 0; Call (CStyle SResetBold); Send 0; Put 0 t] start = Ok s /\
    t_cells (terminal_after (s_out (c_str s 0))) = drawn p t /\ t <> [] /\ bold p = true /\ under p = TwoLines.
Proof. exact reset_bold_refuted. Qed.
Print Assumptions C116_reset_bold_refuted.

(** C116. Finding: the functions return a reference to one shared string. A format kept for later
    (here red) draws what the last call asked for (blue) when it is sent. *)
Theorem C116_kept_refuted :
  exists wanted later t s p,
    run Unix [Call (CFG wanted); Call (CFG later); Send 0; Put 0 t] start = Ok s /\
    t_cells (terminal_after (s_out (c_str s 0))) = drawn p t /\ t <> [] /\
    ink p = colour_of later /\ ink p <> colour_of wanted.
Proof. exact kept_refuted. Qed.
Print Assumptions C116_kept_refuted.

(** C116. Finding: all streams share the remembered format. A stream asked only for bold text shows it
    in the colour another stream was asked for. *)
Theorem C116_streams_refuted :
  exists c t s p,
    run Unix [Call (CFG c); Send 1; Call (CStyle SBold); Send 0; Put 0 t] start = Ok s /\
    t_cells (terminal_after (s_out (c_str s 0))) = drawn p t /\ t <> [] /\ ink p <> Own.
Proof. exact streams_refuted. Qed.
Print Assumptions C116_streams_refuted.

(** C116. Without a console (the null implementation) every stream gets exactly its texts, provided no
    width is set. *)
Theorem C116_null : forall h, (forall k w, ~ In (Width k w) h) ->
  exists s, run NullConsole h start = Ok s /\ forall k, s_out (c_str s k) = texts k h.
Proof. exact null. Qed.
Print Assumptions C116_null.
Example C116_null_example :
  texts 0 [Call (CFG CRed); Send 0; Put 0 (lit "ab"); Put 1 (lit "c"); Clear 0; Put 0 (lit "d")] = lit "abd".
Proof. reflexivity. Qed.

(** C116. Finding: a width meant for the text after a format string pads the text on the Unix console,
    but the empty format string on the null console; and [clear()] eats it on the Unix console too. *)
Theorem C116_width_refuted :
  exists s1 s2 s3,
    run Unix [Width 0 4; Call (CFG CRed); Send 0; Put 0 (lit "x"); Put 0 (lit "y")] start = Ok s1 /\
    map fst (t_cells (terminal_after (s_out (c_str s1 0)))) = lit "   xy" /\
    run NullConsole [Width 0 4; Call (CFG CRed); Send 0; Put 0 (lit "x"); Put 0 (lit "y")] start = Ok s2 /\
    s_out (c_str s2 0) = lit "    xy" /\
    run Unix [Width 0 4; Clear 0; Put 0 (lit "x")] start = Ok s3 /\
    map fst (t_cells (terminal_after (s_out (c_str s3 0)))) = lit "x".
Proof. exact width_refuted. Qed.
Print Assumptions C116_width_refuted.

(** C116. The number of styles is right; the number of colours is not: [colorCount] is 16, but there is
    a colour numbered 16, so a loop up to the count leaves one out. *)
Theorem C116_style_count : forall n, n < styleCount <-> exists y, style_int y = n.
Proof. exact style_numbers. Qed.
Print Assumptions C116_style_count.
Theorem C116_color_count_refuted : exists c, ~ color_int c < colorCount.
Proof. exact color_count_refuted. Qed.
Print Assumptions C116_color_count_refuted.

(** C116. The size of the console is asked for once; all later answers repeat it, even if the window
    has changed since. *)
Theorem C116_info : forall ask ask' c r, ask 0 = Some (c, r) ->
  exists s, getColumnCount Unix ask (mkI 0 None) = Ok (s, c) /\
    getRowCount Unix ask (mkI 0 None) = Ok (s, r) /\
    getColumnCount Unix ask' s = Ok (s, c) /\ getRowCount Unix ask' s = Ok (s, r).
Proof. exact info_once. Qed.
Print Assumptions C116_info.
Example C116_info_example : (fun _ : nat => Some (80, 25)) 0 = Some (80, 25).
Proof. reflexivity. Qed.
(** C116. Finding: the size is said to be valid even when the system refused to give it, and then the
    functions read an uninitialised structure. *)
Theorem C116_info_refuted :
  exists ask, isInfoValid Unix = true /\ getColumnCount Unix ask (mkI 0 None) = UB.
Proof. exact info_refuted. Qed.
Print Assumptions C116_info_refuted.
