From Coq Require Import String Ascii ZArith NArith Arith Bool Lia List.
From Verif Require Import Common IntToStrSpec IntToStrModel IntToStrProofs StrfModel StrfProofs PcgModel U128Model U128Spec U128Proofs PcgIoModel PcgIoSpec PcgIoProofs PcgIoBigProofs.
Import ListNotations.
Local Open Scope Z_scope.

Definition numeric (k : kind) : Prop := match k with KByte => False | KWord w => 0 < w | KBig => True end.
Lemma insert_ok : forall k n o, numeric k -> 0 <= n < 2 ^ bits_of k -> base (oflags o) = Dec -> adj (oflags o) = Left ->
  exists a, numeral n a /\ insert_num k n o = Ok (mkO (text o ++ a ++ repeat (fill o) (width o - length a)) (oflags o) 0 (fill o)).
Proof.
  intros k n o K H B A. destruct k as [|w|]; [destruct K| |].
  - exists (dec n). split. { destruct (dec_decimal n) as [[_ D]|[D _]]; [exact D|lia]. }
    cbn [insert_num]. unfold insert_unsigned, insert. rewrite B, A. reflexivity.
  - destruct (buffer_numeral n H) as (t & E & N). exists t. split; [exact N|]. cbn [insert_num]. unfold insert_big. rewrite B, E. cbn [obind].
    unfold insert_text, insert. rewrite A. reflexivity.
Qed.
Lemma space_ok : forall o, width o = 0%nat -> insert_space o = mkO (text o ++ [" "%char]) (oflags o) 0 (fill o).
Proof.
  intros o W. unfold insert_space, insert_text, insert. rewrite W. cbn [app length Nat.sub repeat]. destruct (adj (oflags o)); reflexivity.
Qed.
Lemma table_ok : forall k data o, numeric k -> Forall (fun x => 0 <= x < 2 ^ bits_of k) data -> base (oflags o) = Dec -> adj (oflags o) = Left ->
  width o = 0%nat -> exists t, write_table k data o = Ok (mkO (text o ++ t) (oflags o) 0 (fill o)) /\
    (data = [] /\ t = [] \/ exists u, listed data u /\ t = " "%char :: u).
Proof.
  intros k data o K F. revert o. induction F as [|x data Hx F IH]; intros o B A W.
  - exists []. split; [|auto]. cbn. rewrite app_nil_r. destruct o; cbn in W |- *. now subst.
  - cbn [write_table]. rewrite space_ok by exact W.
    destruct (insert_ok k x (mkO (text o ++ [" "%char]) (oflags o) 0 (fill o)) K Hx B A) as (a & N & E). rewrite E. cbn [obind text oflags fill width Nat.sub repeat]. rewrite app_nil_r.
    destruct (IH (mkO ((text o ++ [" "%char]) ++ a) (oflags o) 0 (fill o)) B A eq_refl) as (t & E2 & H). rewrite E2.
    exists (" "%char :: a ++ t). split.
    + f_equal. cbn [text oflags fill]. rewrite <- !app_assoc. reflexivity.
    + right. exists (a ++ t). split; [|reflexivity]. destruct H as [[-> ->]|(u & L & ->)]; [rewrite app_nil_r; now constructor|now constructor].
Qed.
Lemma write_three_ok : forall k m c s o, numeric k -> 0 <= m < 2 ^ bits_of k -> 0 <= c < 2 ^ bits_of k -> 0 <= s < 2 ^ bits_of k ->
  base (oflags o) = Dec -> adj (oflags o) = Left -> exists t, write_three k m c s o = Ok (mkO (text o ++ t) (oflags o) 0 (fill o)) /\
  exists a u v, numeral m a /\ numeral c u /\ numeral s v /\ t = a ++ repeat (fill o) (width o - length a) ++ " "%char :: u ++ " "%char :: v.
Proof.
  intros k m c s o K M C S B A. unfold write_three. destruct (insert_ok k m o K M B A) as (a & Na & ->). cbn [obind].
  rewrite space_ok by reflexivity. cbn [text oflags fill].
  match goal with |- context [insert_num k c ?x] => destruct (insert_ok k c x K C B A) as (u & Nu & ->) end. cbn [obind].
  rewrite space_ok by reflexivity. cbn [text oflags fill width Nat.sub repeat].
  match goal with |- context [insert_num k s ?x] => destruct (insert_ok k s x K S B A) as (v & Nv & ->) end. cbn [text oflags fill width Nat.sub repeat].
  exists (a ++ repeat (fill o) (width o - length a) ++ " "%char :: u ++ " "%char :: v).
  split; [|exists a, u, v; split; [exact Na|]; split; [exact Nu|]; split; [exact Nv|]; reflexivity].
  f_equal. f_equal. rewrite ?app_nil_r, <- ?app_assoc. cbn [app]. rewrite <- ?app_assoc. reflexivity.
Qed.
Lemma write_ok : forall k m c s o, numeric k -> 0 <= m < 2 ^ bits_of k -> 0 <= c < 2 ^ bits_of k -> 0 <= s < 2 ^ bits_of k ->
  exists t, write_engine k m c s o = Ok (mkO (text o ++ t) (oflags o) 0 (fill o)) /\ listed_padded (fill o) (width o) [m; c; s] t.
Proof.
  intros k m c s o K M C S. unfold write_engine.
  destruct (write_three_ok k m c s (set_oflags (plain (oflags o)) o) K M C S eq_refl eq_refl) as (t & E & a & u & v & Na & Nu & Nv & T).
  rewrite E. cbn [obind]. exists t. split; [reflexivity|]. cbn [listed_padded]. exists a, (u ++ " "%char :: v). split; [exact Na|]. split; [|exact T].
  apply listed_more; [exact Nu|]. now apply listed_one.
Qed.
Lemma write_extended_ok : forall k kx m c s data o, numeric k -> numeric kx -> 0 <= m < 2 ^ bits_of k -> 0 <= c < 2 ^ bits_of k -> 0 <= s < 2 ^ bits_of k ->
  Forall (fun x => 0 <= x < 2 ^ bits_of kx) data ->
  exists t, write_extended k kx m c s data o = Ok (mkO (text o ++ t) (oflags o) 0 (fill o)) /\ listed_padded (fill o) (width o) (m :: c :: s :: data) t.
Proof.
  intros k kx m c s data o K KX M C S D. unfold write_extended.
  destruct (write_three_ok k m c s (set_oflags (plain (oflags o)) o) K M C S eq_refl eq_refl) as (t & E & a & u & v & Na & Nu & Nv & T).
  rewrite E. cbn [obind].
  match goal with |- context [write_table kx data ?x] => destruct (table_ok kx data x KX D eq_refl eq_refl eq_refl) as (t2 & E2 & H) end. rewrite E2. cbn [obind].
  exists (t ++ t2). split. { f_equal. cbn [text set_oflags set_fill oflags fill width]. f_equal. now rewrite app_assoc. }
  cbn [listed_padded]. exists a, (u ++ " "%char :: v ++ t2). split; [exact Na|]. split.
  - apply listed_more; [exact Nu|]. destruct H as [[-> ->]|(y & L & ->)]; [rewrite app_nil_r; now apply listed_one|now apply listed_more].
  - rewrite T. cbn [set_oflags fill width]. rewrite <- !app_assoc. cbn [app]. rewrite <- !app_assoc. reflexivity.
Qed.

(** ** Reading back *)
Lemma numeral_number : forall w n a, 0 <= n < 2 ^ w -> numeral n a -> number_of w a n.
Proof.
  intros w n a H (N & F & _ & V). exists [], a. split; [reflexivity|]. split; [exact N|]. split; [exact F|]. split; [lia|]. left. split; [now left|]. now symmetry.
Qed.
Lemma extract_ok : forall k b a n r f, numeric k -> 0 <= n < 2 ^ bits_of k -> numeral n a -> skipws f = true -> Forall blank b -> stops r ->
  (k = KBig -> r <> []) -> extract_num k (fresh (b ++ a ++ r) f) = (after r f, Some n).
Proof.
  intros k b a n r f K H N S B R Z0. destruct k as [|w|]; [destruct K| |].
  - cbn [extract_num]. apply extract_word_ok; try assumption. now apply numeral_number.
  - destruct N as (N & F & _ & V). rewrite extract_big_ok by (try assumption; cbn in H; lia). rewrite V. destruct r; [now destruct Z0|]. reflexivity.
Qed.
Lemma space_stops : forall r, stops (" "%char :: r).
Proof. intros r. unfold stops, is_digit. cbn. lia. Qed.
Lemma space_blank : blank " "%char.
Proof. right. reflexivity. Qed.
Definition settable_ok (settable : bool) (c c0 : Z) : Prop := if settable then Z.odd c = true else c0 = c.
Lemma odd_same : forall c, Z.odd c = true -> 2 * (c / 2) + 1 = c.
Proof. intros c H. rewrite (Z.div_mod c 2) at 2 by lia. rewrite Zmod_odd, H. reflexivity. Qed.
Lemma pad_space_stops : forall fl n r, blank fl \/ n = 0%nat -> stops (repeat fl n ++ " "%char :: r).
Proof.
  intros fl [|n] r H; [apply space_stops|]. destruct H as [H|H]; [|lia]. cbn. unfold blank, is_digit in *. lia.
Qed.
Lemma load_ok : forall k m settable c c0 s, numeric k -> 0 <= c < 2 ^ bits_of k -> settable_ok settable c c0 ->
  load (bits_of k) m c0 settable (m, c, s) = Some (c, s).
Proof.
  intros k m settable c c0 s K C H. unfold load. rewrite Z.eqb_refl. cbn [negb]. destruct settable; cbn in H.
  - rewrite stream_odd; [now rewrite odd_same|destruct k; cbn in K |- *; try tauto; lia|exact C].
  - subst c0. rewrite Z.eqb_refl. reflexivity.
Qed.
Lemma pad_zero : forall (width : nat) (a : bytes), width = 0%nat -> (width - length a = 0)%nat.
Proof. lia. Qed.
Lemma restore : forall k m settable c c0 s s0 fl width t r f, numeric k -> 0 <= m < 2 ^ bits_of k -> 0 <= c < 2 ^ bits_of k -> 0 <= s < 2 ^ bits_of k ->
  settable_ok settable c c0 -> listed_padded fl width [m; c; s] t -> blank fl \/ width = 0%nat -> stops r -> (k = KBig -> r <> []) ->
  read_engine k m settable (fresh (t ++ r) f) (c0, s0) = Ok (after r f, (c, s)).
Proof.
  intros k m settable c c0 s s0 fl width t r f K M C S SO (a & u0 & Na & L & T) P R Z0.
  inversion L as [|? u l v Nu L2]; subst. inversion L2 as [? ? Nv|? ? ? ? ? L3]; subst; [|inversion L3].
  unfold read_engine. cbn [iflags fresh]. change (set_iflags (decimal_skip f) (fresh ?t f)) with (fresh t (decimal_skip f)).
  rewrite <- !app_assoc. cbn [app]. rewrite <- !app_assoc. cbn [app].
  assert (PZ : blank fl \/ (width - length a = 0)%nat) by (destruct P as [P|P]; [now left|right; lia]).
  pose proof (extract_ok k [] a m (repeat fl (width - length a) ++ " "%char :: u ++ " "%char :: v ++ r) (decimal_skip f) K M Na eq_refl (Forall_nil _)) as X.
  change ([] ++ a ++ ?x) with (a ++ x) in X.
  rewrite X; [|apply pad_space_stops; assumption|intros _ Y; destruct (repeat fl (width - length a)); discriminate Y]. clear X.
  rewrite after_good by (destruct (repeat fl (width - length a)); discriminate).
  replace (repeat fl (width - length a) ++ " "%char :: u ++ " "%char :: v ++ r) with ((repeat fl (width - length a) ++ [" "%char]) ++ u ++ " "%char :: v ++ r) by (rewrite <- app_assoc; reflexivity).
  rewrite (extract_ok k _ u c); try assumption; [|reflexivity| |apply space_stops|discriminate].
  2: { apply Forall_app. split; [|repeat constructor; apply space_blank]. destruct PZ as [PZ|PZ]; [|rewrite PZ; constructor]. apply Forall_forall. intros x X. apply repeat_spec in X. now subst. }
  rewrite after_good by discriminate. change (" "%char :: v ++ r) with ([" "%char] ++ v ++ r).
  rewrite (extract_ok k _ v s); try assumption; [|reflexivity|repeat constructor; apply space_blank].
  cbn [failbit after fst]. rewrite load_ok by assumption. reflexivity.
Qed.
Lemma listed_nonempty : forall l u, listed l u -> u <> [].
Proof. intros l u H. destruct H as [n t (N & _)|n t l u (N & _) _]; [exact N|]. destruct t; discriminate. Qed.
Lemma restore_table : forall kx data u r f, numeric kx -> Forall (fun x => 0 <= x < 2 ^ bits_of kx) data -> listed data u -> skipws f = true -> stops r ->
  (kx = KBig -> r <> []) -> read_table kx (length data) (fresh (" "%char :: u ++ r) f) = Ok (after r f, Some data).
Proof.
  intros kx data u r f K F L SK R Z0. induction L as [n t N|n t l u N L IH].
  - inversion F; subst. cbn [length read_table]. change (" "%char :: t ++ r) with ([" "%char] ++ t ++ r).
    rewrite (extract_ok kx _ t n) by (try assumption; repeat constructor; apply space_blank). reflexivity.
  - inversion F as [|? ? Hn F']; subst. cbn [length read_table]. rewrite <- app_assoc. cbn [app]. change (" "%char :: t ++ " "%char :: u ++ r) with ([" "%char] ++ t ++ " "%char :: u ++ r).
    rewrite (extract_ok kx _ t n); try assumption; [|repeat constructor; apply space_blank|apply space_stops|discriminate].
    rewrite after_good by discriminate. cbn [failbit fresh]. rewrite (IH F'). reflexivity.
Qed.
Lemma restore_extended : forall k kx m settable c c1 s s1 data fl width t r f g, numeric k -> numeric kx ->
  0 <= m < 2 ^ bits_of k -> 0 <= c < 2 ^ bits_of k -> 0 <= s < 2 ^ bits_of k -> Forall (fun x => 0 <= x < 2 ^ bits_of kx) data -> data <> [] ->
  settable_ok settable c c1 -> listed_padded fl width (m :: c :: s :: data) t -> blank fl \/ width = 0%nat -> stops r -> (kx = KBig -> r <> []) ->
  read_extended k kx m settable (c1, s1) (length data) (fresh (t ++ r) f) g = Ok (after r f, ((c, s), data)).
Proof.
  intros k kx m settable c c1 s s1 data fl width t r f g K KX M C S D DN SO (a & u0 & Na & L & T) P R Z0.
  inversion L as [|? u l v0 Nu L2]; subst. inversion L2 as [|? v l u3 Nv L3]; subst; [tauto|].
  unfold read_extended.
  replace ((a ++ repeat fl (width - length a) ++ " "%char :: u ++ " "%char :: v ++ " "%char :: u3) ++ r) with
    ((a ++ repeat fl (width - length a) ++ " "%char :: u ++ " "%char :: v) ++ " "%char :: u3 ++ r)
    by (rewrite <- !app_assoc; cbn [app]; rewrite <- !app_assoc; cbn [app]; rewrite <- !app_assoc; reflexivity).
  rewrite (restore k m settable c c1 s s1 fl width); try assumption; [|exists a, (u ++ " "%char :: v); split; [exact Na|split; [constructor; [exact Nu|now constructor]|reflexivity]]|apply space_stops|discriminate].
  rewrite after_good by discriminate. cbn [obind failbit fresh iflags]. change (set_iflags (decimal_skip f) (fresh ?t f)) with (fresh t (decimal_skip f)).
  rewrite restore_table by (try assumption; reflexivity). reflexivity.
Qed.

(** ** Failure leaves the generator as it was *)
Lemma sentry_bad : forall i i', sentry i = (i', false) -> failbit i' = true /\ iflags i' = iflags i.
Proof.
  intros i i'. unfold sentry. destruct (negb (good i)); [intros [= <-]; cbn; now rewrite orb_true_r|]. destruct (skipws (iflags i)); [|discriminate].
  destruct (drop_space (rest i)); [|discriminate]. intros [= <-]. cbn. now rewrite orb_true_r.
Qed.
Lemma sentry_flags : forall i i' b, sentry i = (i', b) -> iflags i' = iflags i.
Proof.
  intros i i' b. unfold sentry. destruct (negb (good i)); [intros [= <- <-]; reflexivity|]. destruct (skipws (iflags i)); [|intros [= <- <-]; reflexivity].
  destruct (drop_space (rest i)); intros [= <- <-]; reflexivity.
Qed.
Lemma extract_flags : forall k i i' x, extract_num k i = (i', x) -> iflags i' = iflags i /\ (x = None -> failbit i' = true).
Proof.
  intros k i i' x. destruct k as [|w|]; cbn [extract_num].
  - unfold extract_char. destruct (sentry i) as [j ok] eqn:E. pose proof (sentry_flags _ _ _ E) as F. destruct ok; cbn [negb].
    + destruct (rest j); intros [= <- <-]; cbn; [split; [exact F|intros _; apply orb_true_r]|split; [exact F|discriminate]].
    + apply sentry_bad in E. intros [= <- <-]. tauto.
  - unfold extract_unsigned. destruct (sentry i) as [j ok] eqn:E. pose proof (sentry_flags _ _ _ E) as F. destruct ok; cbn [negb].
    + destruct (match rest j with [] => _ | _ => _ end) as [neg s]. destruct (take_digits 0 s) as [v r]. destruct s as [|c s]; [intros [= <- <-]; split; [exact F|discriminate]|].
      destruct (isdigit c); [|intros [= <- <-]; split; [exact F|discriminate]]. destruct (v <? 2 ^ w); intros [= <- <-]; (split; [exact F|discriminate]).
    + apply sentry_bad in E. intros [= <- <-]. tauto.
  - unfold extract_big. destruct (sentry i) as [j ok] eqn:E. pose proof (sentry_flags _ _ _ E) as F. destruct ok; cbn [negb].
    + destruct (big_loop (rest j) (of_int 0) true false) as [[[[cur dn] ov] r] en]. intros [= <- <-]. split; [destruct (dn || ov); exact F|discriminate].
    + apply sentry_bad in E. intros [= <- <-]. cbn. tauto.
Qed.
Lemma extract_sticky : forall k i i' x, failbit i = true -> extract_num k i = (i', x) -> failbit i' = true.
Proof. intros k i i' x F E. exact (proj1 (extract_dead2 k i i' x (good_fail i F) E)). Qed.
Lemma engine_failed : forall k m settable i g, exists i' g', read_engine k m settable i g = Ok (i', g') /\ iflags i' = iflags i /\ (failbit i' = true -> g' = g).
Proof.
  intros k m settable i g. unfold read_engine. destruct (extract_num k (set_iflags (decimal_skip (iflags i)) i)) as [i1 x1] eqn:E1.
  destruct (extract_num k i1) as [i2 x2] eqn:E2. destruct (extract_num k i2) as [i3 x3] eqn:E3.
  destruct (failbit i3) eqn:F3; [cbn [obind]; eexists _, _; split; [reflexivity|]; split; [reflexivity|]; auto|].
  destruct x1 as [x1|]. 2: { exfalso. pose proof (proj2 (extract_flags _ _ _ _ E1) eq_refl) as F1. apply (extract_sticky _ _ _ _ F1) in E2. apply (extract_sticky _ _ _ _ E2) in E3. congruence. }
  destruct x2 as [x2|]. 2: { exfalso. pose proof (proj2 (extract_flags _ _ _ _ E2) eq_refl) as F1. apply (extract_sticky _ _ _ _ F1) in E3. congruence. }
  destruct x3 as [x3|]. 2: { exfalso. pose proof (proj2 (extract_flags _ _ _ _ E3) eq_refl). congruence. }
  destruct (load _ _ _ _ _) as [g2|]; cbn [obind]; eexists _, _; (split; [reflexivity|]; split; [reflexivity|]); auto. cbn. congruence.
Qed.
Lemma table_failed : forall kx n i, failbit i = false -> exists i' d, read_table kx n i = Ok (i', d) /\ (d = None <-> failbit i' = true).
Proof.
  intros kx n. induction n as [|n IH]; intros i F; cbn [read_table]; [exists i, (Some []); split; [reflexivity|split; [discriminate|congruence]]|].
  destruct (extract_num kx i) as [i1 x1] eqn:E1. destruct (failbit i1) eqn:F1; [exists i1, None; split; [reflexivity|tauto]|].
  destruct x1 as [x1|]. 2: { pose proof (proj2 (extract_flags _ _ _ _ E1) eq_refl). congruence. }
  destruct (IH i1 F1) as (i' & d & E & H). rewrite E. cbn [obind]. eexists _, _. split; [reflexivity|]. rewrite <- H. destruct d; cbn; split; congruence.
Qed.
Lemma extended_failed : forall k kx m settable b n i g, exists i' g', read_extended k kx m settable b n i g = Ok (i', g') /\ iflags i' = iflags i /\ (failbit i' = true -> g' = g).
Proof.
  intros k kx m settable b n i g. unfold read_extended. destruct (engine_failed k m settable i b) as (i1 & b1 & E & F & _). rewrite E. cbn [obind].
  destruct (failbit i1) eqn:F1; [eexists _, _; split; [reflexivity|]; auto|].
  destruct (table_failed kx n (set_iflags (decimal_skip (iflags i1)) i1) F1) as (i2 & d & E2 & H). rewrite E2. cbn [obind].
  eexists _, _. split; [reflexivity|]. split; [exact F|]. cbn. intros F2. apply H in F2. now subst.
Qed.

(** ** The end of the text, for the 128-bit class *)
Lemma big_end : forall m settable c c0 s s0 t f, 0 <= m < 2 ^ 128 -> 0 <= c < 2 ^ 128 -> 0 <= s < 2 ^ 128 -> listed [m; c; s] t ->
  read_engine KBig m settable (fresh t f) (c0, s0) = Ok (mkS [] true true f, (c0, s0)).
Proof.
  intros m settable c c0 s s0 t f M C S L. inversion L as [|? a l u Na L1]; subst. inversion L1 as [|? b l v Nb L2]; subst. inversion L2 as [? ? Nv|? ? ? ? ? L3]; subst; [|inversion L3].
  unfold read_engine. cbn [iflags fresh]. change (set_iflags (decimal_skip f) (fresh ?t f)) with (fresh t (decimal_skip f)).
  pose proof (extract_ok KBig [] a m (" "%char :: b ++ " "%char :: v) (decimal_skip f) I M Na eq_refl (Forall_nil _) (space_stops _)) as X.
  change ([] ++ a ++ ?x) with (a ++ x) in X. rewrite X by discriminate. clear X. rewrite after_good by discriminate.
  change (" "%char :: b ++ " "%char :: v) with ([" "%char] ++ b ++ " "%char :: v).
  rewrite (extract_ok KBig _ b c); try assumption; [|exact I|reflexivity|repeat constructor; apply space_blank|apply space_stops|discriminate]. rewrite after_good by discriminate.
  replace (" "%char :: v) with ([" "%char] ++ v ++ []) by (rewrite app_nil_r; reflexivity). destruct Nv as (N & F & _ & V).
  rewrite extract_big_ok; try assumption; [|reflexivity|repeat constructor; apply space_blank|exact I|lia]. reflexivity.
Qed.

(** ** 8-bit numbers *)
Lemma byte_char : forall n, 0 <= n < 256 -> N_of_ascii (ascii_of_N (Z.to_N n)) = Z.to_N n.
Proof. intros n H. apply N_ascii_embedding. lia. Qed.
Definition blank_number (n : Z) : Prop := 9 <= n <= 13 \/ n = 32.
Lemma byte_write : forall m c s o, width o = 0%nat -> write_engine KByte m c s o =
  Ok (mkO (text o ++ [ascii_of_N (Z.to_N m); " "%char; ascii_of_N (Z.to_N c); " "%char; ascii_of_N (Z.to_N s)]) (oflags o) 0 (fill o)).
Proof.
  intros m c s [t f w fl] W. cbn in W. subst w. unfold write_engine, write_three, insert_num, insert_space, insert_text, insert. cbn [obind text oflags fill width adj plain set_oflags set_fill app length Nat.sub repeat]. rewrite <- !app_assoc. reflexivity.
Qed.
Lemma extract_byte : forall b n r f, 0 <= n < 256 -> ~ blank_number n -> skipws f = true -> Forall blank b ->
  extract_num KByte (fresh (b ++ ascii_of_N (Z.to_N n) :: r) f) = (fresh r f, Some n).
Proof.
  intros b n r f H NB K B. cbn [extract_num]. unfold extract_char. rewrite sentry_fresh; try assumption.
  - cbn. rewrite byte_char by exact H. do 2 f_equal. lia.
  - unfold blank, blank_number in *. rewrite byte_char by exact H. lia.
Qed.
Lemma byte_back : forall m settable c c0 s s0 r f, 0 <= m < 256 -> 0 <= c < 256 -> 0 <= s < 256 -> ~ blank_number m -> ~ blank_number c -> ~ blank_number s ->
  settable_ok settable c c0 ->
  read_engine KByte m settable (fresh ([ascii_of_N (Z.to_N m); " "%char; ascii_of_N (Z.to_N c); " "%char; ascii_of_N (Z.to_N s)] ++ r) f) (c0, s0) = Ok (fresh r f, (c, s)).
Proof.
  intros m settable c c0 s s0 r f M C S BM BC BS SO. unfold read_engine. cbn [iflags fresh app]. change (set_iflags (decimal_skip f) (fresh ?t f)) with (fresh t (decimal_skip f)).
  match goal with |- context [extract_num KByte (fresh (_ :: ?x) _)] => pose proof (extract_byte [] m x (decimal_skip f) M BM eq_refl (Forall_nil _)) as X end.
  cbn [app] in X. rewrite X. clear X.
  match goal with |- context [extract_num KByte (fresh (_ :: _ :: ?x) _)] => pose proof (extract_byte [" "%char] c x (decimal_skip f) C BC eq_refl (Forall_cons _ space_blank (Forall_nil _))) as X end.
  cbn [app] in X. rewrite X. clear X.
  pose proof (extract_byte [" "%char] s r (decimal_skip f) S BS eq_refl (Forall_cons _ space_blank (Forall_nil _))) as X.
  cbn [app] in X. rewrite X. clear X.
  cbn [failbit fresh fst]. assert (E : load (bits_of KByte) m c0 settable (m, c, s) = Some (c, s)).
  { unfold load. rewrite Z.eqb_refl. cbn [negb bits_of]. destruct settable; cbn in SO; [rewrite stream_odd by (change (2 ^ 8) with 256; lia); now rewrite odd_same|subst; now rewrite Z.eqb_refl]. }
  rewrite E. reflexivity.
Qed.
Lemma byte_blank : forall m settable c c0 s s0 f, 0 <= m < 256 -> 0 <= c < 256 -> ~ blank_number m -> ~ blank_number c -> blank_number s ->
  read_engine KByte m settable (fresh [ascii_of_N (Z.to_N m); " "%char; ascii_of_N (Z.to_N c); " "%char; ascii_of_N (Z.to_N s)] f) (c0, s0) = Ok (mkS [] true true f, (c0, s0)).
Proof.
  intros m settable c c0 s s0 f M C BM BC BS. unfold read_engine. cbn [iflags fresh app]. change (set_iflags (decimal_skip f) (fresh ?t f)) with (fresh t (decimal_skip f)).
  match goal with |- context [extract_num KByte (fresh (_ :: ?x) _)] => pose proof (extract_byte [] m x (decimal_skip f) M BM eq_refl (Forall_nil _)) as X end.
  cbn [app] in X. rewrite X. clear X.
  match goal with |- context [extract_num KByte (fresh (_ :: _ :: ?x) _)] => pose proof (extract_byte [" "%char] c x (decimal_skip f) C BC eq_refl (Forall_cons _ space_blank (Forall_nil _))) as X end.
  cbn [app] in X. rewrite X. clear X.
  assert (E : isspace (ascii_of_N (Z.to_N s)) = true). { apply isspace_blank. unfold blank, blank_number in *. rewrite byte_char by lia. lia. }
  cbn [extract_num]. unfold extract_char, sentry. cbn [good eofbit failbit negb orb fresh iflags decimal_skip skipws rest drop_space]. rewrite E. reflexivity.
Qed.
