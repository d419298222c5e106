(** Lemmas about the Base64 model. *)
From Coq Require Import String Ascii ZArith NArith Arith Bool Lia List.
From Verif Require Import Common Base64Model Base64Spec.
Import ListNotations.

Lemma list_ind3 {A} (P : list A -> Prop) :
  P [] -> (forall a, P [a]) -> (forall a b, P [a; b]) ->
  (forall a b c l, P l -> P (a :: b :: c :: l)) -> forall l, P l.
Proof.
  intros H0 H1 H2 H3.
  fix IH 1. intros [|a [|b [|c l]]];
    [exact H0 | exact (H1 a) | exact (H2 a b) | exact (H3 a b c l (IH l))].
Qed.

Lemma list_ind4 {A} (P : list A -> Prop) :
  P [] -> (forall a, P [a]) -> (forall a b, P [a; b]) -> (forall a b c, P [a; b; c]) ->
  (forall a b c d l, P l -> P (a :: b :: c :: d :: l)) -> forall l, P l.
Proof.
  intros H0 H1 H2 H3 H4.
  fix IH 1. intros [|a [|b [|c [|d l]]]];
    [exact H0 | exact (H1 a) | exact (H2 a b) | exact (H3 a b c) | exact (H4 a b c d l (IH l))].
Qed.

(** ** Bit-level facts (finite case analyses over the bits involved). *)
Ltac bits := repeat match goal with b : bool |- _ => destruct b end; vm_compute; reflexivity.

Notation v6 a b c d e f := (bits_value [a; b; c; d; e; f]).

Lemma k0 : forall b0 b1 b2 b3 b4 b5 b6 b7,
  N.shiftr (N.land (N_of_ascii (Ascii b0 b1 b2 b3 b4 b5 b6 b7)) 0xfc) 2 = v6 b7 b6 b5 b4 b3 b2.
Proof. intros. bits. Qed.
Lemma k1a : forall b0 b1 b2 b3 b4 b5 b6 b7,
  N.land (N_of_ascii (Ascii b0 b1 b2 b3 b4 b5 b6 b7)) 0x03 = bits_value [b1; b0].
Proof. intros. bits. Qed.
Lemma k1b : forall b0 b1 b2 b3 b4 b5 b6 b7,
  N.shiftr (N.land (N_of_ascii (Ascii b0 b1 b2 b3 b4 b5 b6 b7)) 0xf0) 4 = bits_value [b7; b6; b5; b4].
Proof. intros. bits. Qed.
Lemma k1c : forall a b c d e f,
  uchar (N.shiftl (bits_value [a; b]) 4 + bits_value [c; d; e; f]) = v6 a b c d e f.
Proof. intros. bits. Qed.
Lemma k2a : forall b0 b1 b2 b3 b4 b5 b6 b7,
  N.land (N_of_ascii (Ascii b0 b1 b2 b3 b4 b5 b6 b7)) 0x0f = bits_value [b3; b2; b1; b0].
Proof. intros. bits. Qed.
Lemma k2b : forall b0 b1 b2 b3 b4 b5 b6 b7,
  N.shiftr (N.land (N_of_ascii (Ascii b0 b1 b2 b3 b4 b5 b6 b7)) 0xc0) 6 = bits_value [b7; b6].
Proof. intros. bits. Qed.
Lemma k2c : forall a b c d e f,
  uchar (N.shiftl (bits_value [a; b; c; d]) 2 + bits_value [e; f]) = v6 a b c d e f.
Proof. intros. bits. Qed.
Lemma k3 : forall b0 b1 b2 b3 b4 b5 b6 b7,
  N.land (N_of_ascii (Ascii b0 b1 b2 b3 b4 b5 b6 b7)) 0x3f = v6 b5 b4 b3 b2 b1 b0.
Proof. intros. bits. Qed.
Lemma k4 : forall a b c d e f, uchar (v6 a b c d e f) = v6 a b c d e f.
Proof. intros. bits. Qed.

Lemma to4_bits : forall a0 a1 a2 a3 a4 a5 a6 a7 b0 b1 b2 b3 b4 b5 b6 b7 c0 c1 c2 c3 c4 c5 c6 c7,
  to4 (N_of_ascii (Ascii a0 a1 a2 a3 a4 a5 a6 a7))
      (N_of_ascii (Ascii b0 b1 b2 b3 b4 b5 b6 b7))
      (N_of_ascii (Ascii c0 c1 c2 c3 c4 c5 c6 c7)) =
  [ v6 a7 a6 a5 a4 a3 a2; v6 a1 a0 b7 b6 b5 b4; v6 b3 b2 b1 b0 c7 c6; v6 c5 c4 c3 c2 c1 c0 ].
Proof.
  intros. unfold to4.
  rewrite k0, k1a, k1b, k1c, k2a, k2b, k2c, k3, !k4. reflexivity.
Qed.

Lemma alpha_nth : forall a b c d e f,
  nth_error base64_chars (N.to_nat (v6 a b c d e f)) = Some (table1 (v6 a b c d e f)).
Proof. intros. bits. Qed.

Definition T6 (l : list bool) : ascii := table1 (bits_value l).

Lemma emit6 : forall gs ret,
  (forall g, In g gs -> exists a b c d e f, g = [a; b; c; d; e; f]) ->
  emit (map bits_value gs) ret = Ok (ret ++ map T6 gs).
Proof.
  induction gs as [|g gs IH]; intros ret H; simpl.
  - rewrite app_nil_r. reflexivity.
  - destruct (H g (or_introl eq_refl)) as (a & b & c & d & e & f & ->).
    rewrite alpha_nth. rewrite IH by (intros; apply H; right; assumption).
    rewrite <- app_assoc. reflexivity.
Qed.

Ltac six := intros g Hg; simpl in Hg;
  repeat (destruct Hg as [<-|Hg]; [repeat eexists|]); contradiction.

Lemma rfc_cons3 : forall a b c s,
  rfc4648 (a :: b :: c :: s) =
  map T6 (six_bit_groups (byte_bits a ++ byte_bits b ++ byte_bits c)) ++ rfc4648 s.
Proof.
  intros a b c s.
  assert (E : six_bit_groups (bit_string (a :: b :: c :: s)) =
    six_bit_groups (byte_bits a ++ byte_bits b ++ byte_bits c) ++ six_bit_groups (bit_string s)).
  { destruct a, b, c. reflexivity. }
  assert (L : length (six_bit_groups (byte_bits a ++ byte_bits b ++ byte_bits c)) = 4).
  { destruct a, b, c. reflexivity. }
  unfold rfc4648. cbv zeta. rewrite E, map_app, app_length, <- app_assoc, !map_length, L.
  do 4 f_equal.
  rewrite (Nat.add_comm 4). change 4 with (1 * 4) at 2.
  rewrite Nat.mod_add by lia. reflexivity.
Qed.

Lemma enc_loop_spec : forall s ret, enc_loop s [] ret = Ok (ret ++ rfc4648 s).
Proof.
  induction s as [| a | a b | a b c s IH] using list_ind3; intros ret.
  - simpl. unfold rfc4648. simpl. rewrite app_nil_r. reflexivity.
  - destruct a as [a0 a1 a2 a3 a4 a5 a6 a7].
    change (enc_loop [Ascii a0 a1 a2 a3 a4 a5 a6 a7] [] ret) with
      (obind (emit (firstn 2 (to4 (N_of_ascii (Ascii a0 a1 a2 a3 a4 a5 a6 a7))
          (N_of_ascii zero) (N_of_ascii zero))) ret) (fun r => Ok (r ++ ["="; "="]%char))).
    unfold zero. rewrite to4_bits.
    change (firstn 2 [v6 a7 a6 a5 a4 a3 a2; v6 a1 a0 false false false false;
      v6 false false false false false false; v6 false false false false false false])
      with (map bits_value [[a7; a6; a5; a4; a3; a2]; [a1; a0; false; false; false; false]]).
    rewrite emit6 by six. unfold obind. rewrite <- app_assoc. reflexivity.
  - destruct a as [a0 a1 a2 a3 a4 a5 a6 a7], b as [b0 b1 b2 b3 b4 b5 b6 b7].
    change (enc_loop [Ascii a0 a1 a2 a3 a4 a5 a6 a7; Ascii b0 b1 b2 b3 b4 b5 b6 b7] [] ret) with
      (obind (emit (firstn 3 (to4 (N_of_ascii (Ascii a0 a1 a2 a3 a4 a5 a6 a7))
          (N_of_ascii (Ascii b0 b1 b2 b3 b4 b5 b6 b7)) (N_of_ascii zero))) ret)
          (fun r => Ok (r ++ ["="]%char))).
    unfold zero. rewrite to4_bits.
    change (firstn 3 [v6 a7 a6 a5 a4 a3 a2; v6 a1 a0 b7 b6 b5 b4;
      v6 b3 b2 b1 b0 false false; v6 false false false false false false])
      with (map bits_value [[a7; a6; a5; a4; a3; a2]; [a1; a0; b7; b6; b5; b4];
                            [b3; b2; b1; b0; false; false]]).
    rewrite emit6 by six. unfold obind. rewrite <- app_assoc. reflexivity.
  - rewrite rfc_cons3.
    change (enc_loop (a :: b :: c :: s) [] ret) with
      (obind (emit (to4 (N_of_ascii a) (N_of_ascii b) (N_of_ascii c)) ret)
             (fun r => enc_loop s [] r)).
    destruct a as [a0 a1 a2 a3 a4 a5 a6 a7], b as [b0 b1 b2 b3 b4 b5 b6 b7],
      c as [c0 c1 c2 c3 c4 c5 c6 c7].
    rewrite to4_bits.
    change ([v6 a7 a6 a5 a4 a3 a2; v6 a1 a0 b7 b6 b5 b4; v6 b3 b2 b1 b0 c7 c6; v6 c5 c4 c3 c2 c1 c0])
      with (map bits_value [[a7; a6; a5; a4; a3; a2]; [a1; a0; b7; b6; b5; b4];
                            [b3; b2; b1; b0; c7; c6]; [c5; c4; c3; c2; c1; c0]]).
    rewrite emit6 by six. unfold obind. rewrite IH, <- app_assoc. reflexivity.
Qed.

Lemma encode_small : forall s, (N.of_nat (length s) < 4294967296)%N ->
  Base64Encode s = Ok (rfc4648 s).
Proof.
  intros s H. unfold Base64Encode.
  rewrite N.mod_small by exact H. rewrite Nnat.Nat2N.id, firstn_all.
  apply enc_loop_spec.
Qed.

Lemma encode_any : forall s,
  Base64Encode s = Ok (rfc4648 (firstn (N.to_nat (N.of_nat (length s) mod 4294967296)) s)).
Proof. intros s. unfold Base64Encode. apply enc_loop_spec. Qed.

Lemma rfc_length : forall s, length (rfc4648 s) = 4 * ((length s + 2) / 3).
Proof.
  induction s as [| a | a b | a b c s IH] using list_ind3.
  - reflexivity.
  - destruct a; reflexivity.
  - destruct a, b; reflexivity.
  - rewrite rfc_cons3, app_length, IH. destruct a, b, c.
    cbn [byte_bits app six_bit_groups map length].
    replace (S (S (S (length s))) + 2) with (length s + 2 + 1 * 3) by lia.
    rewrite Nat.div_add by lia. lia.
Qed.

Lemma T6_alpha : forall a b c d e f, in_alphabet (T6 [a; b; c; d; e; f]).
Proof.
  intros. exists (v6 a b c d e f). split; [|reflexivity].
  repeat match goal with b : bool |- _ => destruct b end; vm_compute; reflexivity.
Qed.

Lemma rfc_shape : forall s, exists body k,
  rfc4648 s = body ++ repeat "="%char k /\ k <= 2 /\ Forall in_alphabet body /\
  k = (3 - length s mod 3) mod 3.
Proof.
  induction s as [| a | a b | a b c s IH] using list_ind3.
  - exists [], 0. repeat split; auto.
  - destruct a as [a0 a1 a2 a3 a4 a5 a6 a7].
    exists [T6 [a7; a6; a5; a4; a3; a2]; T6 [a1; a0; false; false; false; false]], 2.
    repeat split; auto; repeat constructor; apply T6_alpha.
  - destruct a as [a0 a1 a2 a3 a4 a5 a6 a7], b as [b0 b1 b2 b3 b4 b5 b6 b7].
    exists [T6 [a7; a6; a5; a4; a3; a2]; T6 [a1; a0; b7; b6; b5; b4];
            T6 [b3; b2; b1; b0; false; false]], 1.
    repeat split; auto; repeat constructor; apply T6_alpha.
  - destruct IH as (body & k & E & Hk & Hf & Hk').
    rewrite rfc_cons3, E. destruct a as [a0 a1 a2 a3 a4 a5 a6 a7],
      b as [b0 b1 b2 b3 b4 b5 b6 b7], c as [c0 c1 c2 c3 c4 c5 c6 c7].
    cbn [byte_bits app six_bit_groups map].
    eexists (_ :: _ :: _ :: _ :: body), k. repeat split; auto.
    + repeat (constructor; [apply T6_alpha|]). exact Hf.
    + cbn [length]. replace (S (S (S (length s)))) with (length s + 1 * 3) by lia.
      rewrite Nat.mod_add by lia. exact Hk'.
Qed.

(** ** Decoding. *)
Lemma sext_T6 : forall a b c d e f, sext (T6 [a; b; c; d; e; f]) = v6 a b c d e f.
Proof. intros. bits. Qed.
Lemma T6_b64 : forall a b c d e f, is_base64 (T6 [a; b; c; d; e; f]) = true.
Proof. intros. bits. Qed.
Lemma T6_neq : forall a b c d e f, Ascii.eqb (T6 [a; b; c; d; e; f]) "=" = false.
Proof. intros. bits. Qed.

Lemma d0a : forall a b c d e f, N.shiftr (N.land (v6 a b c d e f) 0x30) 4 = bits_value [a; b].
Proof. intros. bits. Qed.
Lemma d0 : forall a b c d e f g h,
  ascii_of_N (uchar (N.shiftl (v6 a b c d e f) 2 + bits_value [g; h])) = Ascii h g f e d c b a.
Proof. intros. bits. Qed.
Lemma d1a : forall a b c d e f, N.land (v6 a b c d e f) 0xf = bits_value [c; d; e; f].
Proof. intros. bits. Qed.
Lemma d1b : forall a b c d e f, N.shiftr (N.land (v6 a b c d e f) 0x3c) 2 = bits_value [a; b; c; d].
Proof. intros. bits. Qed.
Lemma d1 : forall a b c d e f g h,
  ascii_of_N (uchar (N.shiftl (bits_value [a; b; c; d]) 4 + bits_value [e; f; g; h]))
  = Ascii h g f e d c b a.
Proof. intros. bits. Qed.
Lemma d2a : forall a b c d e f, N.land (v6 a b c d e f) 0x3 = bits_value [e; f].
Proof. intros. bits. Qed.
Lemma d2 : forall a b c d e f g h,
  ascii_of_N (uchar (N.shiftl (bits_value [a; b]) 6 + v6 c d e f g h)) = Ascii h g f e d c b a.
Proof. intros. bits. Qed.

Local Open Scope Z_scope.

(** A decoder without the machine counters. *)
Fixpoint dec_pure (rest : bytes) (pend ret : bytes) : bytes :=
  match rest with
  | [] => dec_tail pend ret
  | c :: rest' =>
      if negb (Ascii.eqb c "=") && is_base64 c then
        let pend' := pend ++ [c] in
        if Nat.eqb (length pend') 4 then
          let s k := sext (nth k pend' (ascii_of_N 0)) in
          dec_pure rest' []
            (ret ++ map ascii_of_N (to3 (s 0%nat) (s 1%nat) (s 2%nat) (s 3%nat)))
        else dec_pure rest' pend' ret
      else dec_tail pend ret
  end.

Lemma dec_loop_pure : forall rest in_ pend ret,
  0 <= in_ -> in_ + Z.of_nat (length rest) <= INT_MAX ->
  dec_loop rest (Z.of_nat (length rest)) in_ pend ret = Ok (dec_pure rest pend ret).
Proof.
  induction rest as [|c rest IH]; intros in_ pend ret H0 H1.
  - reflexivity.
  - cbn [dec_loop dec_pure]. cbn [length] in *. unfold INT_MAX, INT_MIN in *.
    rewrite (proj2 (Z.eqb_neq _ _)) by lia.
    rewrite (proj2 (Z.eqb_neq _ (-2147483648))) by lia.
    destruct (negb (c =? "=")%char && is_base64 c); [|reflexivity].
    rewrite (proj2 (Z.eqb_neq _ _)) by lia.
    replace (Z.of_nat (S (length rest)) - 1) with (Z.of_nat (length rest)) by lia.
    destruct (Nat.eqb (length (pend ++ [c])) 4); apply IH; unfold INT_MAX; lia.
Qed.

Lemma decode_pure : forall s, Z.of_nat (length s) <= INT_MAX ->
  Base64Decode s = Ok (dec_pure s [] []).
Proof.
  intros s H. unfold Base64Decode, to_i32.
  rewrite Z.mod_small by (unfold INT_MAX, UINT_MOD in *; lia).
  rewrite (proj2 (Z.leb_le _ _)) by exact H.
  apply dec_loop_pure; lia.
Qed.

Lemma dec_pure_eqsigns : forall k pend ret, dec_pure (repeat "="%char k) pend ret = dec_tail pend ret.
Proof. intros [|k] pend ret; reflexivity. Qed.

Lemma dec_step : forall a b c d e f rest pend ret,
  dec_pure (T6 [a; b; c; d; e; f] :: rest) pend ret =
  if Nat.eqb (length (pend ++ [T6 [a; b; c; d; e; f]])) 4 then
    let pend' := pend ++ [T6 [a; b; c; d; e; f]] in
    let s k := sext (nth k pend' (ascii_of_N 0)) in
    dec_pure rest [] (ret ++ map ascii_of_N (to3 (s 0%nat) (s 1%nat) (s 2%nat) (s 3%nat)))
  else dec_pure rest (pend ++ [T6 [a; b; c; d; e; f]]) ret.
Proof. intros. cbn [dec_pure]. rewrite T6_neq, T6_b64. reflexivity. Qed.

Ltac red_step := rewrite dec_step; cbn [app length Nat.eqb];
  cbv zeta; cbn [nth]; rewrite ?sext_T6.

Lemma dec_rfc : forall s ret, dec_pure (rfc4648 s) [] ret = ret ++ s.
Proof.
  induction s as [| a | a b | a b c s IH] using list_ind3; intros ret.
  - simpl. rewrite app_nil_r. reflexivity.
  - destruct a as [a0 a1 a2 a3 a4 a5 a6 a7].
    change (rfc4648 [Ascii a0 a1 a2 a3 a4 a5 a6 a7]) with
      (T6 [a7; a6; a5; a4; a3; a2] :: T6 [a1; a0; false; false; false; false]
       :: repeat "="%char 2).
    do 2 red_step. rewrite dec_pure_eqsigns. unfold dec_tail. cbn [length app Nat.sub repeat nth].
    rewrite !sext_T6. unfold to3. cbn [firstn map].
    rewrite d0a, d0. reflexivity.
  - destruct a as [a0 a1 a2 a3 a4 a5 a6 a7], b as [b0 b1 b2 b3 b4 b5 b6 b7].
    change (rfc4648 [Ascii a0 a1 a2 a3 a4 a5 a6 a7; Ascii b0 b1 b2 b3 b4 b5 b6 b7]) with
      (T6 [a7; a6; a5; a4; a3; a2] :: T6 [a1; a0; b7; b6; b5; b4]
       :: T6 [b3; b2; b1; b0; false; false] :: repeat "="%char 1).
    do 3 red_step. rewrite dec_pure_eqsigns. unfold dec_tail. cbn [length app Nat.sub repeat nth].
    rewrite !sext_T6. unfold to3. cbn [firstn map].
    rewrite d0a, d0, d1a, d1b, d1. reflexivity.
  - rewrite rfc_cons3. destruct a as [a0 a1 a2 a3 a4 a5 a6 a7],
      b as [b0 b1 b2 b3 b4 b5 b6 b7], c as [c0 c1 c2 c3 c4 c5 c6 c7].
    cbn [byte_bits app six_bit_groups map].
    do 4 red_step. unfold to3. cbn [map].
    rewrite !d0a, d0, !d1a, !d1b, d1, !d2a, d2. rewrite IH, <- app_assoc. reflexivity.
Qed.

Lemma roundtrip : forall s, Z.of_nat (length s) <= 1610612733 ->
  obind (Base64Encode s) Base64Decode = Ok s.
Proof.
  intros s H. rewrite encode_small by lia. cbn [obind].
  rewrite decode_pure.
  - rewrite dec_rfc. reflexivity.
  - rewrite rfc_length. unfold INT_MAX.
    pose proof (Nat.div_mod (length s + 2) 3 ltac:(lia)).
    pose proof (Nat.mod_upper_bound (length s + 2) 3 ltac:(lia)). lia.
Qed.

(** ** Stopping. *)
Lemma dec_pure_stop : forall a c b pend ret,
  forallb is_base64 a = true -> is_base64 c = false ->
  dec_pure (a ++ c :: b) pend ret = dec_pure a pend ret.
Proof.
  induction a as [|x a IH]; intros c b pend ret Ha Hc.
  - cbn [app dec_pure]. rewrite Hc, andb_false_r. reflexivity.
  - cbn [forallb] in Ha. apply andb_true_iff in Ha. destruct Ha as [Hx Ha].
    cbn [app dec_pure]. destruct (negb (x =? "=")%char && is_base64 x); [|reflexivity].
    destruct (Nat.eqb (length (pend ++ [x])) 4); apply IH; assumption.
Qed.

Lemma is_base64_spec : forall c, is_base64 c = true <-> in_alphabet c.
Proof.
  intros c. split.
  - intros H.
    assert (E : exists v, (v < 64)%N /\ c = table1 v).
    { exists (sext c).
      destruct c as [b0 b1 b2 b3 b4 b5 b6 b7].
      destruct b0, b1, b2, b3, b4, b5, b6, b7; vm_compute in H; try discriminate;
        vm_compute; split; reflexivity. }
    exact E.
  - intros (v & Hv & ->).
    assert (Hin : In v (map N.of_nat (seq 0 64))).
    { apply in_map_iff. exists (N.to_nat v). split; [apply Nnat.N2Nat.id|].
      apply in_seq. lia. }
    revert Hin. apply (proj1 (forallb_forall (fun v => is_base64 (table1 v)) _)).
    vm_compute. reflexivity.
Qed.

Lemma decode_stop : forall a c b,
  Z.of_nat (length (a ++ c :: b)) <= INT_MAX ->
  Forall in_alphabet a -> ~ in_alphabet c ->
  exists r, Base64Decode (a ++ c :: b) = Ok r /\ Base64Decode a = Ok r.
Proof.
  intros a c b Hl Ha Hc. exists (dec_pure a [] []).
  assert (Z.of_nat (length a) <= INT_MAX).
  { rewrite app_length in Hl. cbn [length] in Hl. lia. }
  rewrite !decode_pure by assumption. split; [|reflexivity].
  f_equal. apply dec_pure_stop.
  - apply forallb_forall. intros x Hx. apply is_base64_spec.
    rewrite Forall_forall in Ha. apply Ha. exact Hx.
  - destruct (is_base64 c) eqn:E; [|reflexivity].
    apply is_base64_spec in E. contradiction.
Qed.

(** Decoded length on text made of alphabet characters only. *)
Lemma dec_pure_length : forall t ret, forallb is_base64 t = true ->
  length (dec_pure t [] ret) = (length ret + length t / 4 * 3 + (length t mod 4 - 1))%nat.
Proof.
  assert (E : forall c, is_base64 c = true -> (c =? "=")%char = false).
  { intros [[] [] [] [] [] [] [] []]; vm_compute; congruence. }
  intros t ret. revert ret.
  induction t as [| a | a b | a b c | a b c d t IH] using list_ind4; intros ret H;
    cbn [forallb] in H; repeat (apply andb_true_iff in H; destruct H as [? H]).
  - cbn. lia.
  - cbn [dec_pure]. rewrite E, H0 by assumption. cbn. rewrite app_length. cbn. lia.
  - cbn [dec_pure]. rewrite !E, H0, H1 by assumption. cbn. rewrite app_length. cbn. lia.
  - cbn [dec_pure]. rewrite !E, H0, H1, H2 by assumption. cbn. rewrite app_length. cbn. lia.
  - cbn [dec_pure]. rewrite !E, H0, H1, H2, H3 by assumption.
    cbn [negb andb app length Nat.eqb]. cbv zeta. cbn [nth].
    rewrite IH by assumption. rewrite app_length, map_length.
    cbn [to3 length]. replace (S (S (S (S (length t))))) with (length t + 1 * 4)%nat by lia.
    rewrite Nat.div_add, Nat.mod_add by lia. lia.
Qed.

Lemma encode_rfc_all : forall s, Z.of_nat (length s) < 4294967296 ->
  Base64Encode s = Ok (rfc4648 s) /\
  length (rfc4648 s) = (4 * ((length s + 2) / 3))%nat /\
  exists body k, rfc4648 s = body ++ repeat "="%char k /\ (k <= 2)%nat /\
                 Forall in_alphabet body /\ k = ((3 - length s mod 3) mod 3)%nat.
Proof.
  intros s H. split; [apply encode_small; lia|]. split; [apply rfc_length|apply rfc_shape].
Qed.

Lemma roundtrip_long_fails : exists s : bytes,
  N.of_nat (length s) = 4294967296%N /\ obind (Base64Encode s) Base64Decode = Ok [].
Proof.
  exists (repeat "a"%char (N.to_nat 4294967296)).
  assert (L : N.of_nat (length (repeat "a"%char (N.to_nat 4294967296))) = 4294967296%N).
  { rewrite repeat_length. apply Nnat.N2Nat.id. }
  split; [exact L|].
  rewrite encode_any, L.
  replace (4294967296 mod 4294967296)%N with 0%N by reflexivity.
  reflexivity.
Qed.

Lemma rfc_injective : forall s t, rfc4648 s = rfc4648 t -> s = t.
Proof.
  intros s t H. pose proof (dec_rfc s []) as A. rewrite H, dec_rfc in A. cbn in A. congruence.
Qed.
