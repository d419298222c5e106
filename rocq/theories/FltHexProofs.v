(** Lemmas on hexadecimal floating-point texts. *)
From Coq Require Import String Ascii ZArith NArith Arith Bool Lia List QArith Qabs Lqa.
From Coq Require Import Floats.SpecFloat.
From Verif Require Import Common CmdModel CastModel IntToStrSpec JsonNumModel JsonSpec JsonNumProofs JsonReadProofs RealSpec RealProofs RealTextProofs
  FltModel FltSpec FltHexSpec FltTextProofs Flt32ReadProofs Flt64ReadProofs.
Import ListNotations.
Local Open Scope Z_scope.

Lemma hex_iff : forall c, isHex c = true <-> exists k, hex_digit c k.
Proof.
  intros c. unfold isHex, isDigit, hex_digit, num_of. rewrite !orb_true_iff, !andb_true_iff, !Z.leb_le. split.
  - intros [[H|H]|H]; eexists; [left|right; left|right; right]; (split; [exact H|reflexivity]).
  - intros (k & [[H _]|[[H _]|[H _]]]); auto.
Qed.
Lemma hex_val : forall c k, hex_digit c k -> hex_value c = k /\ 0 <= k.
Proof.
  intros c k H. unfold hex_digit, hex_value, isDigit, num_of in *. set (n := Z.of_N (N_of_ascii c)) in *. clearbody n.
  destruct H as [[H ->]|[[H ->]|[H ->]]].
  - replace ((48 <=? n) && (n <=? 57)) with true by (symmetry; apply andb_true_iff; rewrite !Z.leb_le; lia). lia.
  - replace ((48 <=? n) && (n <=? 57)) with false by (symmetry; apply andb_false_iff; rewrite !Z.leb_gt; lia).
    replace (n <=? 70) with true by (symmetry; apply Z.leb_le; lia). lia.
  - replace ((48 <=? n) && (n <=? 57)) with false by (symmetry; apply andb_false_iff; rewrite !Z.leb_gt; lia).
    replace (n <=? 70) with false by (symmetry; apply Z.leb_gt; lia). lia.
Qed.
Lemma hex_number : forall t n, hex_digits t n -> Forall (fun c => isHex c = true) t /\ to_number 16 hex_value t = n /\ 0 <= n.
Proof.
  intros t n H. induction H as [|t n c k H (F & E & P) D]; [repeat split; [constructor|lia]|].
  destruct (hex_val c k D) as [V K]. split; [|split; [|lia]].
  - apply Forall_app. split; [exact F|]. constructor; [|constructor]. apply hex_iff. exists k. exact D.
  - unfold to_number in *. rewrite fold_left_app, E. cbn [fold_left]. rewrite V. lia.
Qed.
Definition ends (p : ascii -> bool) (r : bytes) : Prop := match r with [] => True | c :: _ => p c = false end.
Lemma span_all : forall p t r, Forall (fun c => p c = true) t -> ends p r -> span p (t ++ r) = (t, r).
Proof.
  intros p t r F E. induction F as [|c t Hc F IH]; cbn [app span].
  - destruct r as [|c r]; [reflexivity|]. cbn in *. rewrite E. reflexivity.
  - rewrite Hc, IH. reflexivity.
Qed.
Lemma bexponent_tail : forall ex ev rest, binary_exponent ex ev -> hex_ends ex rest -> scan_exponent ["p"%char; "P"%char] (ex ++ rest) = (ev, rest).
Proof.
  intros ex ev rest [(-> & ->)|(c & sg & ds & -> & Hc & N & F & Hs)] Nm.
  - cbn [app]. destruct rest as [|c rest]; [reflexivity|]. unfold scan_exponent. cbn [existsb].
    destruct Nm as [_ Nm]. destruct (Nm eq_refl) as [_ Ni].
    replace (Ascii.eqb c "p") with false by (symmetry; apply Ascii.eqb_neq; intros ->; apply Ni; cbn; auto).
    replace (Ascii.eqb c "P") with false by (symmetry; apply Ascii.eqb_neq; intros ->; apply Ni; cbn; auto). reflexivity.
  - unfold scan_exponent. cbn [app]. replace (existsb (Ascii.eqb c) ["p"%char; "P"%char]) with true by (destruct Hc as [-> | ->]; reflexivity).
    assert (Nd : nodigit rest).
    { destruct rest as [|u rest]; [exact I|]. destruct Nm as [Nm _]. cbn. apply not_true_iff_false. intros C. apply Nm, digit_iff, C. }
    assert (S : span isDigit (ds ++ rest) = (ds, rest)) by (apply span_digits; [exact F|exact Nd]).
    destruct ds as [|d ds]; [now destruct N|].
    destruct Hs as [(-> & ->)|[(-> & ->)|(-> & ->)]].
    + cbn [app is_char]. inversion F as [|? ? D F']; subst.
      rewrite (Ascii.eqb_sym "-" d), (Ascii.eqb_sym "+" d). rewrite !(digit_not d) by (exact D || reflexivity).
      cbn [app] in S. rewrite S. now rewrite to_number_digits.
    + cbn [app is_char tl]. change (Ascii.eqb "-" "+") with false. change (Ascii.eqb "+" "+") with true. cbv iota. cbn [app] in S.
      rewrite S. now rewrite to_number_digits.
    + cbn [app is_char tl]. change (Ascii.eqb "-" "-") with true. cbv iota. cbn [app] in S. rewrite S. now rewrite to_number_digits.
Qed.
Lemma bexponent_head : forall ex ev rest, binary_exponent ex ev -> hex_ends ex rest ->
  match ex ++ rest with [] => True | c :: _ => isHex c = false /\ Ascii.eqb c "." = false end.
Proof.
  intros ex ev rest [(-> & ->)|(c & sg & ds & -> & Hc & _)] Nm; cbn [app].
  - destruct rest as [|c rest]; [exact I|]. destruct Nm as [_ Nm]. destruct (Nm eq_refl) as [Nh Ni]. split.
    + apply not_true_iff_false. intros C. apply hex_iff in C. destruct C as (k & C). exact (Nh k C).
    + apply Ascii.eqb_neq. intros ->. apply Ni. cbn; auto.
  - destruct Hc as [-> | ->]; split; reflexivity.
Qed.
Lemma hex_scan : forall x ip dot fp ex ev rest m, (x = "x"%char \/ x = "X"%char) -> (dot = [] /\ fp = [] \/ dot = ["."%char]) -> ip ++ fp <> [] ->
  hex_digits (ip ++ fp) m -> binary_exponent ex ev -> hex_ends ex rest ->
  scan ("0"%char :: x :: ip ++ dot ++ fp ++ ex ++ rest) = SNum m 2 (ev - 4 * Z.of_nat (length fp)).
Proof.
  intros x ip dot fp ex ev rest m Hx Hd N H X Nm. destruct (hex_number _ _ H) as (F & E & _). apply Forall_app in F. destruct F as [F1 F2].
  pose proof (bexponent_head ex ev rest X Nm) as Xs. pose proof (bexponent_tail ex ev rest X Nm) as Xt.
  assert (Nd : ends isHex (ex ++ rest)) by (destruct (ex ++ rest); [exact I|apply Xs]).
  assert (M : scan_mantissa isHex (ip ++ dot ++ fp ++ ex ++ rest) = (ip, fp, ex ++ rest)).
  { unfold scan_mantissa. destruct Hd as [(-> & ->)| ->].
    - cbn [app]. rewrite span_all by (exact F1 || exact Nd). destruct (ex ++ rest) as [|c t]; [reflexivity|].
      destruct Xs as (_ & D). now rewrite D.
    - rewrite span_all by (exact F1 || reflexivity). cbn [app]. change (Ascii.eqb "." ".") with true. cbv iota.
      rewrite span_all by (exact F2 || exact Nd). destruct ip, fp; try reflexivity. now destruct N. }
  unfold scan. change (Ascii.eqb "0" "0") with true. replace (lower_is x "x") with true by (destruct Hx as [-> | ->]; reflexivity).
  cbn [andb]. rewrite M, Xt. cbn [fst]. rewrite E. destruct ip, fp; try reflexivity. now destruct N.
Qed.
Lemma stofd_hex : forall prec emax t neg m e, starts_with_hex t neg m e -> stofd prec emax t = read_scaled prec emax neg m 2 e /\ 0 <= m.
Proof.
  intros prec emax t neg m e (bl & sg & x & ip & dot & fp & ex & ev & rest & -> & Fb & Sg & Hx & Hd & N & H & X & Nm & ->).
  split; [|exact (proj2 (proj2 (hex_number _ _ H)))].
  pose proof (hex_scan x ip dot fp ex ev rest m Hx Hd N H X Nm) as Sc. unfold stofd.
  set (r := x :: ip ++ dot ++ fp ++ ex ++ rest) in *.
  change (["0"%char; x] ++ ip ++ dot ++ fp ++ ex ++ rest) with ("0"%char :: r).
  destruct Sg as [(-> & ->)|[(-> & ->)|(-> & ->)]]; cbn [app] in *.
  - rewrite (skip_blanks bl ("0"%char :: r) Fb eq_refl). change (Ascii.eqb "0" "-") with false. change (Ascii.eqb "0" "+") with false. cbv iota. rewrite Sc. reflexivity.
  - rewrite (skip_blanks bl ("+"%char :: "0"%char :: r) Fb eq_refl). change (Ascii.eqb "+" "-") with false. change (Ascii.eqb "+" "+") with true. cbv iota. rewrite Sc. reflexivity.
  - rewrite (skip_blanks bl ("-"%char :: "0"%char :: r) Fb eq_refl). change (Ascii.eqb "-" "-") with true. cbv iota. rewrite Sc. reflexivity.
Qed.
Local Open Scope Q_scope.
Lemma hex_float : forall t neg m e, starts_with_hex t neg m e -> let x := times_pow 2 (if neg then - m else m) e in
  (float_range x -> exists f q, sToFloat t = Ok f /\ nearest_float x q /\ valid_binary 24 128 f = true /\ has_value f q /\ has_sign f neg) /\
  (~ float_range x -> sToFloat t = terminated).
Proof.
  intros t neg m e T x. destruct (stofd_hex 24 128 t neg m e T) as [Es Hm]. pose proof (read_scaled_spec32 neg m 2 e ltac:(lia) Hm) as R.
  apply (reads_wd32 _ x) in R; [|unfold x; destruct neg; cbn [sgn_of]; [rewrite times_opp|]; reflexivity].
  unfold sToFloat. rewrite Es. destruct R as [R1 R2]. split.
  - intros Rg. destruct (R1 Rg) as (f & q & -> & N & _ & V & H & Sg). exists f, q. auto.
  - intros Rg. rewrite (R2 Rg). reflexivity.
Qed.
Lemma hex_double : forall t neg m e, starts_with_hex t neg m e -> let x := times_pow 2 (if neg then - m else m) e in
  (double_range x -> exists f q, sToDouble t = Ok f /\ nearest_double x q /\ valid_binary 53 1024 f = true /\ has_value f q /\ has_sign f neg) /\
  (~ double_range x -> sToDouble t = terminated).
Proof.
  intros t neg m e T x. destruct (stofd_hex 53 1024 t neg m e T) as [Es Hm]. pose proof (read_scaled_spec64 neg m 2 e ltac:(lia) Hm) as R.
  apply (reads_wd64 _ x) in R; [|unfold x; destruct neg; cbn [sgn_of]; [rewrite times_opp|]; reflexivity].
  unfold sToDouble. rewrite Es. destruct R as [R1 R2]. split.
  - intros Rg. destruct (R1 Rg) as (f & q & -> & N & _ & V & H & Sg). exists f, q. auto.
  - intros Rg. rewrite (R2 Rg). reflexivity.
Qed.
