From Coq Require Import String Ascii ZArith NArith Arith Bool Lia List.
From Verif Require Import Common IntToStrSpec StrfModel PcgModel U128Model PcgIoModel PcgIoSpec PcgIoProofs PcgIoBigProofs PcgIoTextProofs PcgIoHexProofs.
Import ListNotations.
Local Open Scope Z_scope.

Lemma numeric_of : forall k, k <> KByte -> 0 < bits_of k -> numeric k.
Proof. intros [|w|] N B; cbn in *; tauto. Qed.
Lemma text_written : forall k m c s o, k <> KByte -> 0 < bits_of k -> 0 <= m < 2 ^ bits_of k -> 0 <= c < 2 ^ bits_of k -> 0 <= s < 2 ^ bits_of k ->
  exists t, write_engine k m c s o = Ok (mkO (text o ++ t) (oflags o) 0 (fill o)) /\ listed_padded (fill o) (width o) [m; c; s] t.
Proof. intros k m c s o N B. apply write_ok. now apply numeric_of. Qed.
Lemma restored : forall k m settable c c0 s s0 o r f, k <> KByte -> 0 < bits_of k ->
  0 <= m < 2 ^ bits_of k -> 0 <= c < 2 ^ bits_of k -> 0 <= s < 2 ^ bits_of k -> (if settable : bool then Z.odd c = true else c0 = c) ->
  width o = 0%nat \/ blank (fill o) -> stops r -> (k = KBig -> r <> []) ->
  exists t, write_engine k m c s o = Ok (mkO (text o ++ t) (oflags o) 0 (fill o)) /\
    read_engine k m settable (mkS (t ++ r) false false f) (c0, s0) = Ok (mkS r (match r with [] => true | _ => false end) false f, (c, s)).
Proof.
  intros k m settable c c0 s s0 o r f N B M C S SO W R Z0. destruct (text_written k m c s o N B M C S) as (t & E & L). exists t. split; [exact E|].
  change (mkS (t ++ r) false false f) with (fresh (t ++ r) f). rewrite (restore k m settable c c0 s s0 (fill o) (width o)); try assumption; [|now apply numeric_of|tauto].
  destruct r; reflexivity.
Qed.
Lemma extended_written : forall k kx m settable c c0 s s0 data o r f g, k <> KByte -> 0 < bits_of k -> kx <> KByte -> 0 < bits_of kx ->
  0 <= m < 2 ^ bits_of k -> 0 <= c < 2 ^ bits_of k -> 0 <= s < 2 ^ bits_of k -> Forall (fun x => 0 <= x < 2 ^ bits_of kx) data -> data <> [] ->
  (if settable : bool then Z.odd c = true else c0 = c) ->
  exists t, write_extended k kx m c s data o = Ok (mkO (text o ++ t) (oflags o) 0 (fill o)) /\
    listed_padded (fill o) (width o) (m :: c :: s :: data) t /\
    (width o = 0%nat \/ blank (fill o) -> stops r -> (kx = KBig -> r <> []) ->
     read_extended k kx m settable (c0, s0) (length data) (mkS (t ++ r) false false f) g =
     Ok (mkS r (match r with [] => true | _ => false end) false f, ((c, s), data))).
Proof.
  intros k kx m settable c c0 s s0 data o r f g N B NX BX M C S D DN SO.
  destruct (write_extended_ok k kx m c s data o (numeric_of _ N B) (numeric_of _ NX BX) M C S D) as (t & E & L). exists t. split; [exact E|]. split; [exact L|].
  intros W R Z0. change (mkS (t ++ r) false false f) with (fresh (t ++ r) f).
  rewrite (restore_extended k kx m settable c c0 s s0 data (fill o) (width o)); try assumption; try (now apply numeric_of); [|tauto].
  destruct r; reflexivity.
Qed.
Lemma failed_unchanged :
  (forall k m settable i g, exists i' g', read_engine k m settable i g = Ok (i', g') /\ iflags i' = iflags i /\ (failbit i' = true -> g' = g)) /\
  (forall k kx m settable b n i g, exists i' g', read_extended k kx m settable b n i g = Ok (i', g') /\ iflags i' = iflags i /\ (failbit i' = true -> g' = g)).
Proof. split; [exact engine_failed|exact extended_failed]. Qed.
Lemma big_end_refuted : forall m settable c c0 s s0 o f, 0 <= m < 2 ^ 128 -> 0 <= c < 2 ^ 128 -> 0 <= s < 2 ^ 128 -> width o = 0%nat ->
  exists t, write_engine KBig m c s o = Ok (mkO (text o ++ t) (oflags o) 0 (fill o)) /\
    read_engine KBig m settable (mkS t false false f) (c0, s0) = Ok (mkS [] true true f, (c0, s0)).
Proof.
  intros m settable c c0 s s0 o f M C S W. destruct (text_written KBig m c s o ltac:(discriminate) ltac:(cbn; lia) M C S) as (t & E & a & u & Na & L & T).
  exists t. split; [exact E|]. apply (big_end m settable c c0 s s0); try assumption. rewrite W in T. cbn [Nat.sub repeat app] in T. subst t. now constructor.
Qed.
Lemma byte_text : forall m settable c c0 s s0 o r f, 0 <= m < 256 -> 0 <= c < 256 -> 0 <= s < 256 -> width o = 0%nat ->
  exists t, write_engine KByte m c s o = Ok (mkO (text o ++ t) (oflags o) 0 (fill o)) /\
    map (fun a => Z.of_N (N_of_ascii a)) t = [m; 32; c; 32; s] /\
    (Forall (fun n => ~ (9 <= n <= 13 \/ n = 32)) [m; c; s] -> (if settable : bool then Z.odd c = true else c0 = c) ->
     read_engine KByte m settable (mkS (t ++ r) false false f) (c0, s0) = Ok (mkS r false false f, (c, s))).
Proof.
  intros m settable c c0 s s0 o r f M C S W. eexists. split; [apply byte_write; exact W|]. split.
  - cbn [map]. rewrite !byte_char by assumption. rewrite !Z2N.id by lia. reflexivity.
  - intros F SO. inversion F as [|? ? F1 F']; subst. inversion F' as [|? ? F2 F'']; subst. inversion F'' as [|? ? F3 _]; subst.
    exact (byte_back m settable c c0 s s0 r f M C S F1 F2 F3 SO).
Qed.
Lemma byte_refuted : forall m settable c c0 s s0 o f, 0 <= m < 256 -> 0 <= c < 256 -> Forall (fun n => ~ (9 <= n <= 13 \/ n = 32)) [m; c] -> 9 <= s <= 13 \/ s = 32 -> width o = 0%nat ->
  exists t, write_engine KByte m c s o = Ok (mkO (text o ++ t) (oflags o) 0 (fill o)) /\
    read_engine KByte m settable (mkS t false false f) (c0, s0) = Ok (mkS [] true true f, (c0, s0)).
Proof.
  intros m settable c c0 s s0 o f M C F S W. eexists. split; [apply byte_write; exact W|].
  inversion F as [|? ? F1 F']; subst. inversion F' as [|? ? F2 _]; subst. exact (byte_blank m settable c c0 s s0 f M C F1 F2 S).
Qed.
