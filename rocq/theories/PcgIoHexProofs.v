From Coq Require Import String Ascii ZArith NArith Arith Bool Lia List.
From Verif Require Import Common IntToStrSpec StrfModel StrfProofs PcgModel U128Model U128Spec U128Proofs PcgIoModel PcgIoSpec PcgIoProofs PcgIoBigProofs.
Import ListNotations.
Local Open Scope Z_scope.

Lemma digit_of_hex : forall up k, 0 <= k < 16 -> hex_digit (digit_of up k) k /\ (digit_of up k = "0"%char -> k = 0).
Proof.
  intros up k H. assert (A : (if k <? 10 then 48 + k else if up then 55 + k else 87 + k) < 256) by (destruct (Z.ltb_spec k 10), up; lia).
  assert (B : 48 <= (if k <? 10 then 48 + k else if up then 55 + k else 87 + k)) by (destruct (Z.ltb_spec k 10), up; lia).
  unfold hex_digit, digit_of. rewrite N_ascii_embedding by lia. rewrite Z2N.id by lia. split.
  - destruct (Z.ltb_spec k 10), up; lia.
  - intros E. assert (N : N_of_ascii (ascii_of_N (Z.to_N (if k <? 10 then 48 + k else if up then 55 + k else 87 + k))) = 48%N) by (rewrite E; reflexivity).
    rewrite N_ascii_embedding in N by lia. destruct (Z.ltb_spec k 10), up; lia.
Qed.
Lemma hex_nil : forall n, hex_value [] n -> n = 0.
Proof. intros n H. remember ([] : list ascii) as l eqn:E. destruct H as [|t n c k T D]; [reflexivity|]. apply app_eq_nil in E as [_ E]. discriminate. Qed.
Lemma hex_one : forall c n, hex_value [c] n -> hex_digit c n.
Proof.
  intros c n H. remember [c] as l eqn:E. destruct H as [|t n c' k T D]; [discriminate|]. apply (app_inj_tail t []) in E as [-> ->].
  rewrite (hex_nil _ T). exact D.
Qed.
Lemma hex_zero_all : forall s m, hex_value s m -> 0 <= m /\ (m = 0 -> Forall (fun x => x = "0"%char) s).
Proof.
  induction 1 as [|s m c k S (IH0 & IH) D]; [split; [lia|constructor]|]. unfold hex_digit in D. split; [lia|]. intros E. assert (m = 0) by lia. assert (k = 0) by lia.
  apply Forall_app. split; [now apply IH|]. constructor; [|constructor]. assert (Q : N_of_ascii c = 48%N) by lia. rewrite <- (ascii_N_embedding c), Q. reflexivity.
Qed.
Lemma digits_loop_value : forall fuel up n, 0 <= n < 2 ^ Z.of_nat fuel -> (0 < fuel)%nat -> hex_numeral n (digits_loop fuel 16 up n).
Proof.
  induction fuel as [|fuel IH]; intros up n Hn Hf; [lia|]. cbn [digits_loop]. destruct (Z.ltb_spec n 16) as [S|S].
  - destruct (digit_of_hex up n ltac:(lia)) as (D & Z0). split; [discriminate|]. split.
    + change [digit_of up n] with ([] ++ [digit_of up n]). replace n with (16 * 0 + n) at 2 by lia. constructor; [constructor|exact D].
    + cbn [hd]. intros E. rewrite E. reflexivity.
  - assert (Hd : 0 < n / 16 < 2 ^ Z.of_nat fuel).
    { rewrite Nat2Z.inj_succ, Z.pow_succ_r in Hn by lia. split; [apply Z.div_str_pos; lia|apply Z.div_lt_upper_bound; lia]. }
    assert (Hf' : (0 < fuel)%nat) by (destruct fuel; [change (2 ^ Z.of_nat 0) with 1 in Hd; lia|lia]).
    destruct (IH up (n / 16) ltac:(lia) Hf') as (N & V & Z0). destruct (digit_of_hex up (n mod 16) (Z.mod_pos_bound n 16 ltac:(lia))) as (D & _).
    split; [intros E; apply app_eq_nil in E as [_ E]; discriminate|]. split.
    + replace n with (16 * (n / 16) + n mod 16) at 3 by (rewrite <- Z.div_mod; lia). now constructor.
    + intros E. exfalso. destruct (digits_loop fuel 16 up (n / 16)) as [|c t]; [now destruct N|]. cbn [app hd] in E. specialize (Z0 E). rewrite Z0 in V.
      apply hex_one in V. subst c. unfold hex_digit in V. cbn in V. lia.
Qed.
Lemma digits_hex : forall up n, 0 <= n -> hex_numeral n (digits 16 up n).
Proof. intros up n H. unfold digits. apply digits_loop_value; [now apply fuel_ok|lia]. Qed.
Lemma hex_zeros : forall j, hex_value (repeat "0"%char j) 0.
Proof.
  induction j as [|j IH]; [constructor|]. replace (S j) with (j + 1)%nat by lia. rewrite repeat_app. cbn [repeat]. replace 0 with (16 * 0 + 0) by lia.
  constructor; [exact IH|]. left. cbn. lia.
Qed.
Lemma hex_app : forall t n u k, hex_value t n -> hex_value u k -> hex_value (t ++ u) (n * 16 ^ Z.of_nat (length u) + k).
Proof.
  intros t n u k T U. induction U as [|u k c j U IH D].
  - cbn [length Z.of_nat]. rewrite app_nil_r, Z.pow_0_r. replace (n * 1 + 0) with n by lia. exact T.
  - rewrite app_length, Nat2Z.inj_add. change (Z.of_nat (length [c])) with 1. rewrite Z.pow_add_r by lia. rewrite app_assoc.
    replace (n * (16 ^ Z.of_nat (length u) * 16 ^ 1) + (16 * k + j)) with (16 * (n * 16 ^ Z.of_nat (length u) + k) + j) by lia. now constructor.
Qed.
Lemma hex_length_low : forall t n, hex_numeral n t -> n <> 0 -> 16 ^ (Z.of_nat (length t) - 1) <= n.
Proof.
  intros t n (N & V & Z0). revert Z0 N. induction V as [|t n c k T IH D]; intros Z0 N NZ; [now destruct N|].
  destruct t as [|a t].
  - rewrite (hex_nil _ T) in *. cbn. unfold hex_digit in D. lia.
  - assert (NN : n <> 0).
    { intros ->. cbn [app hd] in Z0. clear IH. assert (a <> "0"%char) by (intros ->; specialize (Z0 eq_refl); destruct t; discriminate).
      pose proof (proj2 (hex_zero_all _ _ T)) as P.
      specialize (P eq_refl). inversion P. congruence. }
    assert (16 ^ (Z.of_nat (length (a :: t)) - 1) <= n).
    { apply IH; [|discriminate|exact NN]. cbn [app hd] in *. intros E. specialize (Z0 E). destruct t; discriminate. }
    rewrite app_length. cbn [length] in *. rewrite !Nat2Z.inj_add. replace (Z.of_nat (S (length t)) + Z.of_nat 1 - 1) with ((Z.of_nat (S (length t)) - 1) + 1) by lia.
    rewrite Z.pow_add_r by lia. unfold hex_digit in D. lia.
Qed.
Lemma hex_length : forall t n, hex_numeral n t -> n < 2 ^ 64 -> (length t <= 16)%nat.
Proof.
  intros t n H B. destruct (Z.eq_dec n 0) as [->|NZ].
  - destruct (Nat.le_gt_cases (length t) 16) as [L|L]; [exact L|]. destruct H as (N & V & Z0).
    destruct t as [|a t]; [cbn in L; lia|]. cbn [hd] in Z0.
    pose proof (proj2 (hex_zero_all _ _ V)) as P.
    specialize (P eq_refl). inversion P; subst. rewrite Z0 by reflexivity. cbn. lia.
  - pose proof (hex_length_low t n H NZ) as L. destruct (Nat.le_gt_cases (length t) 16) as [G|G]; [exact G|].
    assert (16 ^ 16 <= 16 ^ (Z.of_nat (length t) - 1)) by (apply Z.pow_le_mono_r; lia). change (16 ^ 16) with (2 ^ 64) in *. lia.
Qed.
Lemma hex_print : forall n o, 0 <= n < 2 ^ 128 -> base (oflags o) = Hex -> adj (oflags o) <> Left -> showbase (oflags o) = false -> width o = 0%nat ->
  exists t, insert_big (big n) o = Ok (mkO (text o ++ t) (oflags o) 0 (fill o)) /\ hex_numeral n t.
Proof.
  intros n [tx [bs ad sb up sk] wd fl] H B A SB W. cbn in B, A, SB, W. subst bs sb wd. destruct (big_is n H) as (Wn & Vn).
  unfold insert_big. cbn [base oflags width]. destruct (shr_small (big n) 64 Wn ltac:(lia)) as (h & Eh & (Wh & Vh)). rewrite Eh. cbn [obind].
  rewrite (proj1 (to_spec _ Wh)), (proj1 (to_spec _ Wn)), Vh, Vn.
  assert (D : 0 <= n / 2 ^ 64 < 2 ^ 64) by (split; [apply Z.div_pos; lia|apply Z.div_lt_upper_bound; lia]). rewrite (Z.mod_small (n / 2 ^ 64)) by exact D.
  assert (M := Z.mod_pos_bound n (2 ^ 64) ltac:(lia)). pose proof (Z.div_mod n (2 ^ 64) ltac:(lia)) as DM.
  destruct (digits_hex up (n / 2 ^ 64) ltac:(lia)) as (N1 & V1 & Z1). pose proof (digits_hex up (n mod 2 ^ 64) ltac:(lia)) as L2. pose proof (hex_length _ _ L2 ltac:(lia)) as LL. destruct L2 as (N2 & V2 & Z2).
  set (hi := digits 16 up (n / 2 ^ 64)) in *. set (lo := digits 16 up (n mod 2 ^ 64)) in *.
  cbn [Nat.ltb Nat.leb orb]. rewrite orb_false_r. destruct (Z.eqb_spec (n / 2 ^ 64) 0) as [E0|E0]; cbn [negb].
  - exists lo. split.
    + unfold insert_unsigned, insert, set_oflags. cbn [base oflags adj showbase uppercase skipws width fill text andb app Nat.sub repeat]. fold lo.
      destruct ad; cbn [app]; rewrite ?app_nil_r; reflexivity.
    + replace n with (n mod 2 ^ 64) by lia. exact (conj N2 (conj V2 Z2)).
  - exists (hi ++ repeat "0"%char (16 - length lo) ++ lo). split.
    + unfold insert_unsigned, insert, set_oflags, set_fill, set_width. cbn [base oflags adj showbase uppercase skipws width fill text andb app Nat.sub repeat]. fold lo hi.
      destruct ad; [now destruct A| |]; cbn [app]; rewrite ?app_nil_r, <- ?app_assoc; reflexivity.
    + split; [intros E; apply app_eq_nil in E as [E _]; tauto|]. split.
      * replace n with (n / 2 ^ 64 * 16 ^ Z.of_nat (length (repeat "0"%char (16 - length lo) ++ lo)) + n mod 2 ^ 64).
        -- apply hex_app; [exact V1|]. replace (n mod 2 ^ 64) with (0 * 16 ^ Z.of_nat (length lo) + n mod 2 ^ 64) by lia. apply hex_app; [apply hex_zeros|exact V2].
        -- rewrite app_length, repeat_length. replace (16 - length lo + length lo)%nat with 16%nat by lia. change (16 ^ Z.of_nat 16) with (2 ^ 64). lia.
      * intros E. exfalso. destruct hi as [|c t]; [tauto|]. cbn [app hd] in *. specialize (Z1 E). rewrite Z1 in V1.
        apply hex_one in V1. subst c. unfold hex_digit in V1. cbn in V1. lia.
Qed.
