(** Repeated passes: termination and divergence. *)
From Coq Require Import String Ascii ZArith NArith Arith Bool Lia List.
From Verif Require Import Common StrModel TplModel TplSpec TplProofs TplExpandProofs.
Import ListNotations.

Section MADE.
Variable Q : bytes -> list tpl -> Prop.
Lemma lookup_rep_made : forall env k v, (forall d, In d env -> made Q d) -> lookup_rep env k = Some v ->
  exists vs, v = write_all vs /\ (forall t, In t vs -> wf [] t) /\ Q k vs.
Proof.
  induction env as [|d env IH]; intros k v T H; [discriminate|]. cbn in H. destruct (assoc k (reps d)) as [x|] eqn:E; [|apply IH; auto; intros e I; apply T; now right].
  injection H as ->. destruct (T d (or_introl eq_refl)) as [r s Hr _]. eapply Hr, assoc_in, E.
Qed.
Lemma lookup_sect_made : forall env k ds env', (forall d, In d env -> made Q d) -> lookup_sect env k = Some (ds, env') ->
  (forall d, In d env' -> made Q d) /\ (forall d, In d ds -> made Q d).
Proof.
  intros env k ds env' T H. destruct (lookup_sect_split _ _ _ _ H) as (e1 & d & e2 & -> & -> & Ea & _). split.
  - intros x I. apply T. apply in_or_app. now right.
  - intros x I. destruct (T d) as [r s _ Hs]; [apply in_or_app; right; now left|]. eapply Hs; [eapply assoc_in, Ea|exact I].
Qed.
(** The text after a pass is again a written template; its pieces are kept ones or come from replacement texts. *)
Definition from_text (u : tpl) : Prop := exists k vs, Q k vs /\ In u vs.
Definition kept (st : settings) (root : dict) (u : tpl) : Prop := st = MaintainUnexistingOnlyCnt \/ fixed st root u.
Definition again (st : settings) (root : dict) (ws : list tpl) : Prop :=
  exists us, write_all us = write_all ws /\ forall u, In u us -> wf [] u /\ (from_text u \/ kept st root u).
Lemma again_nil : forall st root, again st root [].
Proof. intros. exists []. split; [reflexivity|]. intros u []. Qed.
Lemma again_app : forall st root a b, again st root a -> again st root b -> again st root (a ++ b).
Proof.
  intros st root a b (u1 & E1 & W1) (u2 & E2 & W2). exists (u1 ++ u2). split; [rewrite !write_all_app; congruence|].
  intros u I. apply in_app_or in I as [I|I]; auto.
Qed.
Lemma again_pass : forall st root t ks e0 sep, (forall d, In d (e0 ++ [root]) -> made Q d) -> wf ks t -> again st root (pass st (e0 ++ [root]) sep t).
Proof.
  intros st root. apply (tpl_nested (fun t => forall ks e0 sep, (forall d, In d (e0 ++ [root]) -> made Q d) -> wf ks t -> again st root (pass st (e0 ++ [root]) sep t))).
  - intros s ks e0 sep T W. exists [Txt s]. split; [reflexivity|]. intros u [<-|[]]. split; [eapply wf_mono; [|exact W]; intros k []|]. right. right. split; reflexivity.
  - intros k ks e0 sep T W. cbn [pass]. destruct (lookup_rep (e0 ++ [root]) k) as [v|] eqn:E.
    + destruct (lookup_rep_made _ _ _ T E) as (vs & -> & Wv & Qv). exists vs. split; [cbn; now rewrite app_nil_r|]. intros u I. split; [auto|]. left. exists k, vs. auto.
    + destruct st; try apply again_nil. exists [Key k]. split; [reflexivity|]. intros u [<-|[]]. split; [eapply wf_mono; [|exact W]; intros k0 []|]. right. right.
      apply rep_root in E. unfold fixed. cbn [pass hit]. rewrite E. auto.
  - intros s ks e0 sep T W. cbn [pass]. destruct sep; [|apply again_nil]. exists [Txt s]. split; [reflexivity|]. intros u [<-|[]]. inversion W; subst. split; [constructor; now apply sep_plain|]. right. right. split; reflexivity.
  - intros k body IH ks e0 sep T W. rewrite pass_sect. inversion W as [| | |? ? ? Hp Hh Hb]; subst. destruct (lookup_sect (e0 ++ [root]) k) as [(ds, env')|] eqn:E.
    + destruct (lookup_sect_made _ _ _ _ T E) as (T' & Td). destruct (lookup_sect_split _ _ _ _ E) as (e1 & d & e2 & Ee & -> & _).
      assert (Es : exists e3, d :: e2 = e3 ++ [root]).
      { destruct (@exists_last _ (d :: e2)) as (e3 & r & Er); [discriminate|]. rewrite Er in Ee. rewrite app_assoc in Ee. apply app_inj_tail in Ee as (_ & ->). rewrite Er. eauto. }
      destruct Es as (e3 & Es). rewrite Es in *. clear E Ee. induction ds as [|x ds IHd]; [apply again_nil|]. cbn [pass_each]. apply again_app.
      * assert (Tx : forall y, In y ((x :: e3) ++ [root]) -> made Q y) by (intros y [<-|Iy]; [apply Td; now left|auto]).
        unfold pass_all. clear Hh W IHd. induction body as [|t body IHb]; [apply again_nil|]. cbn [flat_map]. apply again_app.
        -- apply (IH t (or_introl eq_refl) (k :: ks) (x :: e3)); [exact Tx|apply Hb; now left].
        -- apply IHb; [intros u Iu; apply IH; now right|intros u Iu; apply Hb; now right].
      * apply IHd. intros y Iy. apply Td. now right.
    + destruct st.
      * apply again_nil.
      * exists [Sect k body]. split; [reflexivity|]. intros u [<-|[]]. split; [eapply wf_mono; [|exact W]; intros k0 []|]. right. right. apply sect_root in E. unfold fixed. rewrite pass_sect. cbn [hit]. rewrite E. auto.
      * exists body. split; [reflexivity|]. intros u I. split; [eapply wf_mono; [|apply Hb; exact I]; intros k0 []|]. right. now left.
Qed.
Lemma again_all : forall st root ts, made Q root -> (forall t, In t ts -> wf [] t) -> again st root (pass_all st [root] false ts).
Proof.
  intros st root ts M W. unfold pass_all. induction ts as [|t ts IH]; [apply again_nil|]. cbn [flat_map]. apply again_app.
  - apply (again_pass st root t [] []); [intros d [<-|[]]; exact M|apply W; now left].
  - apply IH. intros u I. apply W. now right.
Qed.
End MADE.

(** ** Divergence *)
Lemma diverges_step : forall K st root us k, made (circular K) root -> (forall k, K k -> has root k = true) -> (forall u, In u us -> wf [] u) -> K k -> In (Key k) us ->
  existsb (hit [root]) us = true /\ exists us' k', write_all us' = write_all (pass_all st [root] false us) /\ (forall u, In u us' -> wf [] u) /\ K k' /\ In (Key k') us'.
Proof.
  intros K st root us k M Hh W Hk I. apply in_split in I as (u1 & u2 & ->).
  assert (E : exists v, lookup_rep [root] k = Some v).
  { specialize (Hh k Hk). unfold has in Hh. cbn. destruct (assoc k (reps root)); [eauto|discriminate]. }
  destruct E as (v & E). split; [apply existsb_exists; exists (Key k); split; [apply in_or_app; right; now left|]; cbn [hit]; now rewrite E|].
  destruct (lookup_rep_made (circular K) [root] k v) as (vs & -> & Wv & Qv); [intros d [<-|[]]; exact M|exact E|]. destruct (Qv Hk) as (k' & Hk' & Ik').
  destruct (again_all (circular K) st root u1 M) as (a & Ea & Wa); [intros t I; apply W, in_or_app; now left|].
  destruct (again_all (circular K) st root u2 M) as (b & Eb & Wb); [intros t I; apply W, in_or_app; right; now right|].
  exists (a ++ vs ++ b), k'. repeat split.
  - unfold pass_all in *. rewrite flat_map_app. cbn [flat_map pass]. rewrite E. rewrite !write_all_app, Ea, Eb. cbn. now rewrite app_nil_r.
  - intros u I. apply in_app_or in I as [I|I]; [now apply Wa|]. apply in_app_or in I as [I|I]; [auto|now apply Wb].
  - exact Hk'.
  - apply in_or_app. right. apply in_or_app. now left.
Qed.
Lemma diverges : forall K st root, made (circular K) root -> (forall k, K k -> has root k = true) ->
  forall n us k, (forall u, In u us -> wf [] u) -> K k -> In (Key k) us -> getExpanded n root (write_all us) st = OutOfFuel.
Proof.
  intros K st root M Hh. induction n as [|n IH]; intros us k W Hk I; [reflexivity|]. cbn [getExpanded]. rewrite expand_all by exact W. cbn [obind app].
  destruct (diverges_step K st root us k M Hh W Hk I) as (-> & us' & k' & E & W' & Hk' & I'). rewrite <- E. eapply IH; eauto.
Qed.

(** ** Termination *)
Definition bounded (rank : bytes -> nat) (st : settings) (root : dict) (n : nat) (u : tpl) : Prop :=
  wf [] u /\ (fixed st root u \/ exists k, u = Key k /\ rank k < n).
Lemma from_bounded : forall rank st root n us, (forall k, rank k <= n) -> st <> MaintainUnexistingOnlyCnt ->
  (forall u, In u us -> wf [] u /\ (from_text (lower rank) u \/ kept st root u)) -> forall u, In u us -> bounded rank st root n u.
Proof.
  intros rank st root n us B Nst H u I. destruct (H u I) as (W & F). split; [exact W|]. destruct F as [(k & vs & L & Iv)|[F|F]]; [|congruence|now left].
  specialize (L u Iv). destruct u as [s|k'|s|k' b]; try contradiction; [left; split; reflexivity|]. right. exists k'. split; [reflexivity|]. specialize (B k). lia.
Qed.
Lemma bounded_step : forall rank st root n us, made (lower rank) root -> st <> MaintainUnexistingOnlyCnt -> (forall u, In u us -> bounded rank st root (S n) u) ->
  exists us', write_all us' = write_all (pass_all st [root] false us) /\ forall u, In u us' -> bounded rank st root n u.
Proof.
  intros rank st root n us M Nst. unfold pass_all. induction us as [|u us IH]; intros H; [exists []; split; [reflexivity|intros u []]|].
  destruct IH as (us' & E & B); [intros x I; apply H; now right|]. destruct (H u (or_introl eq_refl)) as (W & [F|(k & -> & Lk)]).
  - exists (u :: us'). split; [cbn [flat_map]; destruct F as (-> & _); cbn [app write_all flat_map]; unfold write_all in E; now rewrite E|]. intros x [<-|I]; [split; [exact W|now left]|auto].
  - cbn [flat_map pass]. destruct (lookup_rep [root] k) as [v|] eqn:El.
    + destruct (lookup_rep_made (lower rank) [root] k v) as (vs & -> & Wv & Qv); [intros d [<-|[]]; exact M|exact El|]. exists (vs ++ us'). split.
      * rewrite !write_all_app, E. cbn. now rewrite app_nil_r.
      * intros x I. apply in_app_or in I as [I|I]; [|auto]. split; [auto|]. specialize (Qv x I). destruct x as [s|k'|s|k' b]; try contradiction; [left; split; reflexivity|]. right. exists k'. split; [reflexivity|]. lia.
    + destruct st.
      * exists us'. split; [exact E|exact B].
      * exists (Key k :: us'). split; [cbn [app write_all flat_map]; unfold write_all in E; now rewrite E|]. intros x [<-|I]; [|auto]. split; [exact W|]. left. unfold fixed. cbn [pass hit]. rewrite El. auto.
      * congruence.
Qed.
Lemma bounded_ends : forall rank st root n us, made (lower rank) root -> st <> MaintainUnexistingOnlyCnt -> (forall u, In u us -> bounded rank st root n u) ->
  exists out, forall m, getExpanded (S n + m) root (write_all us) st = Ok out.
Proof.
  intros rank st root. induction n as [|n IH]; intros us M Nst H.
  - exists (unescape (write_all us)). intros m. cbn [plus getExpanded]. rewrite expand_all by (intros t I; now apply H). cbn [obind app].
    destruct (fixed_all st root us) as (-> & ->).
    { intros u I. destruct (H u I) as (_ & [F|(k & _ & L)]); [exact F|lia]. }
    apply deescape_all. intros t I. now apply H.
  - destruct (bounded_step rank st root n us M Nst H) as (us' & E & B). destruct (IH us' M Nst B) as (out & Ho).
    destruct (existsb (hit [root]) us) eqn:Eh.
    + exists out. intros m. change (S (S n) + m) with (S (S n + m)). remember (S n + m) as q. cbn [getExpanded]. rewrite expand_all by (intros t I; now apply H). cbn [obind app]. rewrite Eh, <- E. subst q. apply Ho.
    + exists (unescape (write_all us')). intros m. change (S (S n) + m) with (S (S n + m)). remember (S n + m) as q. cbn [getExpanded]. rewrite expand_all by (intros t I; now apply H). cbn [obind app]. rewrite Eh, <- E.
      apply deescape_all. intros t I. now apply B.
Qed.
Lemma terminates : forall rank n st root ts, made (lower rank) root -> (forall k, rank k <= n) -> st <> MaintainUnexistingOnlyCnt -> (forall t, In t ts -> wf [] t) ->
  exists out, forall m, getExpanded (n + 2 + m) root (write_all ts) st = Ok out.
Proof.
  intros rank n st root ts M B Nst W. destruct (again_all (lower rank) st root ts M W) as (us & E & H). pose proof (from_bounded rank st root n us B Nst H) as Hb.
  destruct (bounded_ends rank st root n us M Nst Hb) as (out & Ho). destruct (existsb (hit [root]) ts) eqn:Eh.
  - exists out. intros m. replace (n + 2 + m) with (S (S n + m)) by lia. remember (S n + m) as q. cbn [getExpanded]. rewrite expand_all by exact W. cbn [obind app]. rewrite Eh, <- E. subst q. apply Ho.
  - exists (unescape (write_all us)). intros m. replace (n + 2 + m) with (S (S n + m)) by lia. remember (S n + m) as q. cbn [getExpanded]. rewrite expand_all by exact W. cbn [obind app]. rewrite Eh, <- E.
    apply deescape_all. intros t I. now apply Hb.
Qed.


(** ** The step budget inside a pass is never the reason for stopping *)
Lemma at_out : forall src i, length src <= i -> at_ src i = UB.
Proof. intros src i L. unfold at_. apply nth_error_None in L. now rewrite L. Qed.
Lemma at_in : forall src i c, at_ src i = Ok c -> i < length src.
Proof. intros src i c H. unfold at_ in H. destruct (nth_error src i) eqn:E; [|discriminate]. apply nth_error_Some. congruence. Qed.
Lemma at_cases : forall src i, (exists c, at_ src i = Ok c) \/ at_ src i = UB.
Proof. intros. unfold at_. destruct (nth_error src i); eauto. Qed.
Lemma read_key_fuel : forall fuel src i acc, length src - i < fuel -> read_key fuel src i acc <> OutOfFuel /\ forall k j, read_key fuel src i acc = Ok (k, j) -> i <= j.
Proof.
  induction fuel as [|fuel IH]; intros src i acc L; [lia|]. cbn [read_key]. destruct (at_cases src i) as [(c & E)|E]; rewrite E; cbn [obind]; [|split; [discriminate|discriminate]].
  destruct (Ascii.eqb c rbrace); [split; [discriminate|intros k j H; injection H as <- <-; lia]|]. apply at_in in E. destruct (IH src (S i) (acc ++ [c])) as (H1 & H2); [lia|].
  split; [exact H1|]. intros k j H. apply H2 in H. lia.
Qed.
Lemma match_key_fuel : forall key src i, match_key src i key <> OutOfFuel /\ forall j, (match_key src i key = Ok (inr j) \/ match_key src i key = Ok (inl j)) -> i <= j.
Proof.
  induction key as [|k key IH]; intros src i; cbn [match_key].
  - split; [discriminate|]. intros j [H|H]; [discriminate|]. injection H as <-. lia.
  - destruct (at_cases src i) as [(c & E)|E]; rewrite E; cbn [obind]; [|split; [discriminate|intros j [H|H]; discriminate]].
    destruct (Ascii.eqb c k).
    + destruct (IH src (S i)) as (H1 & H2). split; [exact H1|]. intros j H. apply H2 in H. lia.
    + split; [discriminate|]. intros j [H|H]; [injection H as <-; lia|discriminate].
Qed.
Lemma find_end_fuel : forall fuel src i key, length src - i < fuel -> find_end fuel src i key <> OutOfFuel /\ forall a b, find_end fuel src i key = Ok (a, b) -> i <= a /\ a <= b.
Proof.
  induction fuel as [|fuel IH]; intros src i key L; [lia|]. cbn [find_end]. destruct (at_cases src i) as [(c & E)|E]; rewrite E; cbn [obind]; [|split; [discriminate|discriminate]].
  apply at_in in E. assert (N : find_end fuel src (S i) key <> OutOfFuel /\ forall a b, find_end fuel src (S i) key = Ok (a, b) -> i <= a /\ a <= b).
  { destruct (IH src (S i) key) as (H1 & H2); [lia|]. split; [exact H1|]. intros a b H. apply H2 in H. lia. }
  destruct (negb (Ascii.eqb c lbrace)); [exact N|]. destruct (after_backslash src i); [exact N|].
  destruct (at_cases src (i + 1)) as [(c1 & E1)|E1]; rewrite E1; cbn [obind]; [|split; [discriminate|discriminate]]. destruct (negb (Ascii.eqb c1 lbrace)); [exact N|].
  destruct (at_cases src (i + 2)) as [(c2 & E2)|E2]; rewrite E2; cbn [obind]; [|split; [discriminate|discriminate]]. destruct (negb (Ascii.eqb c2 "/")); [exact N|].
  destruct (match_key_fuel key src (i + 3)) as (M1 & M2). destruct (match_key src (i + 3) key) as [[j|j]| | |]; cbn [obind]; try (split; [discriminate|discriminate]); [| |congruence].
  - assert (Lj := M2 j (or_intror eq_refl)). destruct (at_cases src j) as [(c3 & E3)|E3]; rewrite E3; cbn [obind]; [|split; [discriminate|discriminate]]. destruct (negb (Ascii.eqb c3 rbrace)); [split; discriminate|].
    destruct (at_cases src (j + 1)) as [(c4 & E4)|E4]; rewrite E4; cbn [obind]; [|split; [discriminate|discriminate]]. destruct (negb (Ascii.eqb c4 rbrace)); [split; discriminate|].
    split; [discriminate|]. intros a b H. injection H as <- <-. lia.
  - assert (Lj := M2 j (or_introl eq_refl)). destruct (IH src (S j) key) as (H1 & H2); [lia|]. split; [exact H1|]. intros a b H. apply H2 in H. lia.
Qed.
Lemma expand_fuel : forall fuel src st env sep i e buf found, length src - i < fuel -> expand fuel src st env sep i e buf found <> OutOfFuel.
Proof.
  induction fuel as [|fuel IH]; intros src st env sep i e buf found L; [lia|]. rewrite expand_S. destruct (negb (i <? e)); [discriminate|].
  destruct (at_cases src i) as [(c & E)|E]; rewrite E; cbn [obind]; [|discriminate]. apply at_in in E.
  assert (S1 : forall j b f, i < j -> expand fuel src st env sep j e b f <> OutOfFuel) by (intros; apply IH; lia).
  match goal with |- obind ?x _ <> _ => assert (Sp : (exists b, x = Ok b) \/ x = UB) end.
  { destruct (negb (Ascii.eqb c lbrace)); [eauto|]. destruct (after_backslash src i); [eauto|]. destruct (at_cases src (i + 1)) as [(c1 & E1)|E1]; rewrite E1; cbn [obind]; eauto. }
  destruct Sp as [(b & ->)| ->]; cbn [obind]; [|discriminate]. destruct (negb b); [apply S1; lia|].
  destruct (at_cases src (i + 2)) as [(c2 & E2)|E2]; rewrite E2; cbn [obind]; [|discriminate].
  match goal with |- (let (t, k0) := ?x in _) <> _ => assert (Lk : i < snd x) by (destruct (Ascii.eqb c2 "#"); [cbn; lia|]; destruct (Ascii.eqb c2 "*"); cbn; lia); destruct x as (t, k0) end. cbn [snd] in Lk.
  destruct (read_key_fuel (S (length src)) src k0 []) as (R1 & R2); [lia|]. destruct (read_key (S (length src)) src k0 []) as [(key, j)| | |]; cbn [obind]; try discriminate; [|congruence].
  specialize (R2 key j eq_refl). destruct (at_cases src (j + 1)) as [(d & E3)|E3]; rewrite E3; cbn [obind]; [|discriminate]. destruct (negb (Ascii.eqb d rbrace)); [discriminate|].
  destruct t.
  - destruct (lookup_rep env key); apply S1; lia.
  - destruct (at_cases src (j + 2)) as [(d2 & E4)|E4]; rewrite E4; cbn [obind]; [|discriminate]. destruct (Ascii.eqb d2 rbrace); [discriminate|]. cbv zeta.
    destruct (find_end_fuel (S (length src)) src (j + 2) key) as (F1 & F2); [lia|]. destruct (find_end (S (length src)) src (j + 2) key) as [(a, l)| | |]; cbn [obind]; try discriminate; [|congruence].
    specialize (F2 a l eq_refl). destruct (lookup_sect env key) as [(ds, env')|].
    + assert (Ed : forall ds buf, each_dict fuel src st env' (j + 2) a ds buf <> OutOfFuel).
      { clear - IH L Lk R2 E. induction ds as [|x ds IHd]; intros buf; cbn [each_dict]; [discriminate|]. assert (X := IH src st (x :: env') (match ds with [] => false | _ => true end) (j + 2) a buf false).
        destruct (expand fuel src st (x :: env') _ (j + 2) a buf false) as [(b2, f2)| | |]; cbn [obind]; try discriminate; [apply IHd|exfalso; apply X; [lia|reflexivity]]. }
      specialize (Ed ds buf). destruct (each_dict fuel src st env' (j + 2) a ds buf); cbn [obind]; try discriminate; [|congruence]. apply S1. lia.
    + apply S1. lia.
  - apply S1. lia.
Qed.
Lemma deescape_fuel : forall fuel s i buf, length s - i < fuel -> deescape fuel s i buf <> OutOfFuel.
Proof.
  induction fuel as [|fuel IH]; intros s i buf L; [lia|]. cbn [deescape]. destruct (i <? length s - 1) eqn:E.
  - apply Nat.ltb_lt in E. destruct (at_cases s i) as [(c & E1)|E1]; rewrite E1; cbn [obind]; [|discriminate]. destruct (at_cases s (i + 1)) as [(d & E2)|E2]; rewrite E2; cbn [obind]; [|discriminate].
    match goal with |- context[at_ s ?j] => destruct (at_cases s j) as [(x & E3)|E3]; rewrite E3; cbn [obind]; [|discriminate] end. apply IH. destruct (_ && _); lia.
  - destruct (at_cases s (length s - 1)) as [(c & E1)|E1]; rewrite E1; discriminate.
Qed.
Lemma budget : forall n d src st, getExpanded n d src st = OutOfFuel -> found_passes n d src st.
Proof.
  induction n as [|n IH]; intros d src st H; [exact I|]. cbn [getExpanded] in H. cbn [found_passes].
  assert (X := expand_fuel (S (length src)) src st [d] false 0 (length src) [] false).
  destruct (expand (S (length src)) src st [d] false 0 (length src) [] false) as [(buf, f)| | |]; cbn [obind] in H; try discriminate; [|destruct X; [lia|reflexivity]].
  destruct f; [eauto|]. destruct buf as [|c b]; [discriminate|]. destruct (deescape_fuel (S (length (c :: b))) (c :: b) 0 []); [lia|exact H].
Qed.
