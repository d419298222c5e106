From Coq Require Import String ZArith Bool Lia List Permutation.
From Verif Require Import Common PcgModel PcgSpec PcgProofs PcgTopProofs PcgOutProofs.
Import ListNotations.
Local Open Scope Z_scope.

(** Numbers below a bound. *)
Lemma threshold_is : forall wx b, 0 < b < 2 ^ wx -> threshold wx b = 2 ^ wx mod b.
Proof.
  intros wx b H. unfold threshold. rewrite (Z.mod_small (2 ^ wx - b)) by lia.
  replace (2 ^ wx - b) with (2 ^ wx + (-1) * b) by lia. apply Z.mod_add. lia.
Qed.
Lemma residues : forall M b, 0 < b <= M ->
  (forall x, M mod b <= x < M -> 0 <= (x - M mod b) / b < M / b) /\
  forall y j, 0 <= y < b -> 0 <= j < M / b ->
    exists x, (M mod b <= x < M /\ x mod b = y /\ (x - M mod b) / b = j) /\
      forall x', M mod b <= x' < M -> x' mod b = y -> (x' - M mod b) / b = j -> x' = x.
Proof.
  intros M b H. pose proof (Z.div_mod M b) as DM. set (T := M mod b) in *. split.
  - intros x Hx. split; [apply Z.div_pos; lia|]. apply Z.div_lt_upper_bound; lia.
  - intros y j Hy Hj. pose proof (Z.mod_pos_bound (y - T) b ltac:(lia)) as HR. set (R := (y - T) mod b) in *.
    exists (T + j * b + R). split.
    + split; [nia|]. split.
      * replace (T + j * b + R) with (T + R + j * b) by ring. rewrite Z.mod_add by lia. unfold R. rewrite Z.add_mod_idemp_r by lia.
        replace (T + (y - T)) with y by ring. apply Z.mod_small. lia.
      * replace (T + j * b + R - T) with (j * b + R) by ring. rewrite Z.div_add_l, Z.div_small by lia. lia.
    + intros x' Hx' Ey Ej. pose proof (Z.div_mod (x' - T) b). rewrite Ej in *.
      assert ((x' - T) mod b = R); [|lia]. unfold R. rewrite <- Ey. rewrite Zminus_mod_idemp_l. reflexivity.
Qed.

Lemma fast_step : forall s, state 64 true s -> pcg32_fast s = Ok (after 64 fast_mult 0 1 s, xsh_rs 64 32 s).
Proof. intros s [H _]. reflexivity. Qed.
Lemma fast_good : good true fast_mult 0.
Proof. split; reflexivity. Qed.
Lemma fast_wide : wide 64.
Proof. right. lia. Qed.
Lemma fast_mult_range : 0 <= fast_mult < 2 ^ 64.
Proof. unfold fast_mult. lia. Qed.

Lemma least : forall (P : Z -> bool) n, 0 <= n -> P n = true -> exists k, 0 <= k <= n /\ P k = true /\ forall i, 0 <= i < k -> P i = false.
Proof.
  intros P n Hn. rewrite <- (Z2Nat.id n Hn). induction (Z.to_nat n) as [n' IH] using lt_wf_ind. intros E.
  destruct (existsb P (map Z.of_nat (seq 0 n'))) eqn:X.
  - apply existsb_exists in X. destruct X as [y [I Y]]. apply in_map_iff in I. destruct I as [j [<- I]]. apply in_seq in I.
    destruct (IH j ltac:(lia) Y) as (k & Hk & Q). exists k. split; [lia|exact Q].
  - exists (Z.of_nat n'). split; [lia|]. split; [exact E|]. intros i Hi. destruct (P i) eqn:Pi; [|reflexivity].
    exfalso. rewrite <- not_true_iff_false in X. apply X. apply existsb_exists. exists i. split; [|exact Pi].
    apply in_map_iff. exists (Z.to_nat i). split; [lia|]. apply in_seq. lia.
Qed.

(** Every output comes once for each rank within a period. *)
Lemma fast_outputs : forall s, state 64 true s ->
  exists f, (forall n, 0 <= n < 2 ^ 62 -> 0 <= xsh_rs 64 32 (after 64 fast_mult 0 n s) < 2 ^ 32 /\ 0 <= f n < 2 ^ 30) /\
  forall o k, 0 <= o < 2 ^ 32 -> 0 <= k < 2 ^ 30 ->
    exists n, (0 <= n < 2 ^ 62 /\ xsh_rs 64 32 (after 64 fast_mult 0 n s) = o /\ f n = k) /\
      forall n', 0 <= n' < 2 ^ 62 -> xsh_rs 64 32 (after 64 fast_mult 0 n' s) = o -> f n' = k -> n' = n.
Proof.
  intros s S. destruct (uniform true) as [U1 U2]. change (rank_bits true) with 30 in *.
  exists (fun n => rank true (after 64 fast_mult 0 n s)). split.
  - intros n Hn. apply U1. apply state_after; [exact fast_wide|exact fast_good|exact S].
  - intros o k Ho Hk. destruct (U2 o k Ho Hk) as (t & (T1 & T2 & T3) & TU).
    destruct (distance_top 64 true fast_mult 0 fast_wide fast_good fast_mult_range ltac:(lia) s t S T1) as (n & _ & Hn & A).
    change (period 64 true) with (2 ^ 62) in Hn. exists n. rewrite A. split; [auto|]. intros n' Hn' E1 E2.
    apply (same_count 64 true fast_mult 0 fast_wide fast_good n' n s S Hn' Hn).
    rewrite A. apply TU; auto. apply state_after; [exact fast_wide|exact fast_good|exact S].
Qed.

Lemma fast_bounded : forall s b, state 64 true s -> 0 < b < 2 ^ 32 ->
  exists n, 0 <= n < 2 ^ 62 /\ (forall i, 0 <= i < n -> xsh_rs 64 32 (after 64 fast_mult 0 i s) < 2 ^ 32 mod b) /\
    2 ^ 32 mod b <= xsh_rs 64 32 (after 64 fast_mult 0 n s) /\
    forall fuel, n < Z.of_nat fuel ->
      bounded_rand pcg32_fast 32 fuel b s = Ok (after 64 fast_mult 0 (n + 1) s, xsh_rs 64 32 (after 64 fast_mult 0 n s) mod b).
Proof.
  intros s b S Hb. pose proof (Z.mod_pos_bound (2 ^ 32) b ltac:(lia)) as HT. set (T := 2 ^ 32 mod b) in *.
  set (out := fun n => xsh_rs 64 32 (after 64 fast_mult 0 n s)).
  destruct (fast_outputs s S) as (f & _ & F). destruct (F T 0 ltac:(lia) ltac:(lia)) as (n0 & (Hn0 & E0 & _) & _).
  destruct (least (fun n => T <=? out n) n0 ltac:(lia)) as (n & Hn & En & L).
  { unfold out. rewrite E0. lia. }
  exists n. split; [lia|]. split; [intros i Hi; specialize (L i Hi); unfold out in L; lia|]. split; [unfold out in En; lia|].
  assert (Run : forall fuel i, 0 <= i <= n -> n - i < Z.of_nat fuel ->
    bounded_loop pcg32_fast 32 fuel b (after 64 fast_mult 0 i s) = Ok (after 64 fast_mult 0 (n + 1) s, out n mod b)).
  { induction fuel as [|fuel IH]; intros i Hi Hf; [lia|]. cbn [bounded_loop].
    rewrite fast_step by (apply state_after; [exact fast_wide|exact fast_good|exact S]). cbn [obind].
    rewrite <- after_add by lia. rewrite (Z.add_comm 1 i). rewrite threshold_is by lia. fold T.
    destruct (Z.eq_dec i n) as [->|N].
    - change (xsh_rs 64 32 (after 64 fast_mult 0 n s)) with (out n). rewrite En. reflexivity.
    - specialize (L i ltac:(lia)). unfold out in L. rewrite L. apply IH; lia. }
  intros fuel Hf. unfold bounded_rand. replace (b =? 0) with false by lia. apply (Run fuel 0); lia.
Qed.

(** Bounded numbers from any source. *)
Lemma bounded_range : forall R (rng : R -> outcome (R * Z)) wx fuel b r r' x, 0 <= b ->
  bounded_rand rng wx fuel b r = Ok (r', x) -> 0 <= x < b.
Proof.
  intros R rng wx fuel b r r' x Hb. unfold bounded_rand. destruct (Z.eqb_spec b 0) as [|N]; [discriminate|].
  revert r. induction fuel as [|fuel IH]; intros r; [discriminate|]. cbn [bounded_loop].
  destruct (rng r) as [[r1 v]| | |]; cbn [obind]; try discriminate. destruct (threshold wx b <=? v); [|apply IH].
  intros E. injection E as <- <-. apply Z.mod_pos_bound. lia.
Qed.

(** Shuffling. *)
Lemma nth_put : forall A (l : list A) i x k d, (i < length l)%nat -> nth k (put l i x) d = if Nat.eqb k i then x else nth k l d.
Proof.
  intros A l i x k d H. unfold put. destruct (Nat.eqb_spec k i) as [->|N].
  - rewrite app_nth2; rewrite firstn_length_le by lia; [|lia]. rewrite Nat.sub_diag. reflexivity.
  - destruct (Nat.lt_ge_cases k i) as [L|L].
    + rewrite app_nth1 by (rewrite firstn_length_le; lia). rewrite <- (firstn_skipn i l) at 2. rewrite app_nth1 by (rewrite firstn_length_le; lia). reflexivity.
    + rewrite app_nth2; rewrite firstn_length_le by lia; [|lia]. replace (k - i)%nat with (S (k - S i)) by lia. cbn [nth].
      rewrite <- (firstn_skipn (S i) l) at 2. rewrite app_nth2; rewrite firstn_length_le by lia; [|lia]. reflexivity.
Qed.
Lemma put_length : forall A (l : list A) i x, (i < length l)%nat -> length (put l i x) = length l.
Proof. intros. unfold put. rewrite app_length, firstn_length_le by lia. cbn [length]. rewrite skipn_length. lia. Qed.
Lemma exchange_length : forall A d (l : list A) i j, (i < length l)%nat -> (j < length l)%nat -> length (exchange d l i j) = length l.
Proof. intros. unfold exchange. rewrite !put_length; auto. rewrite put_length; auto. Qed.
Lemma swap_exchange : forall A d (l : list A) i j, (i < length l)%nat -> (j < length l)%nat -> swap_at l i j = exchange d l i j.
Proof.
  intros A d l i j Hi Hj. unfold swap_at. rewrite (nth_error_nth' l d Hi), (nth_error_nth' l d Hj).
  apply (nth_ext _ _ d d).
  - rewrite map_length, seq_length, exchange_length by assumption. reflexivity.
  - rewrite map_length, seq_length. intros k Hk. unfold exchange. rewrite !nth_put by (rewrite ?put_length; auto).
    rewrite (nth_indep _ d (nth i l d)) by (rewrite map_length, seq_length; exact Hk).
    match goal with |- nth k (map ?f _) _ = _ => rewrite (nth_indep (map f (seq 0 (length l))) (nth i l d) (f 0%nat)) by (rewrite map_length, seq_length; exact Hk); rewrite (map_nth f) end.
    rewrite seq_nth by exact Hk. cbn [Nat.add].
    rewrite (nth_indep l (nth i l d) d) by exact Hk.
    destruct (Nat.eqb_spec k i) as [Ei|Ni]; destruct (Nat.eqb_spec k j) as [Ej|Nj]; try reflexivity.
    rewrite <- Ei, <- Ej. reflexivity.
Qed.
Lemma exchange_last : forall A d (p : list A) z t, exchange d (p ++ z :: t) (length p) (length p) = p ++ z :: t.
Proof.
  intros A d p z t. assert (H : (length p < length (p ++ z :: t))%nat) by (rewrite app_length; cbn; lia).
  apply (nth_ext _ _ d d); [apply exchange_length; assumption|]. intros k Hk. unfold exchange.
  rewrite !nth_put by (rewrite ?put_length; auto). destruct (Nat.eqb_spec k (length p)) as [->|]; reflexivity.
Qed.
Lemma exchange_mid : forall A d (a b t : list A) x z,
  exchange d ((a ++ x :: b) ++ z :: t) (length a) (length (a ++ x :: b)) = (a ++ z :: b) ++ x :: t.
Proof.
  intros A d a b t x z. set (l := (a ++ x :: b) ++ z :: t).
  assert (Hi : (length a < length l)%nat) by (unfold l; rewrite !app_length; cbn; lia).
  assert (Hj : (length (a ++ x :: b) < length l)%nat) by (unfold l; rewrite (app_length (a ++ x :: b)); cbn; lia).
  assert (Ex : nth (length a) l d = x) by (unfold l; rewrite <- app_assoc; cbn [app]; rewrite nth_middle; reflexivity).
  assert (Ez : nth (length (a ++ x :: b)) l d = z) by (unfold l; rewrite nth_middle; reflexivity).
  unfold exchange. rewrite Ex, Ez.
  assert (P1 : put l (length a) z = (a ++ z :: b) ++ z :: t).
  { unfold put, l. rewrite <- !app_assoc. rewrite firstn_app, Nat.sub_diag, firstn_O, app_nil_r, firstn_all.
    f_equal. replace (S (length a)) with (length a + 1)%nat by lia. rewrite skipn_app. rewrite skipn_all2 by lia.
    replace (length a + 1 - length a)%nat with 1%nat by lia. reflexivity. }
  rewrite P1. replace (length (a ++ x :: b)) with (length (a ++ z :: b)) by (rewrite !app_length; reflexivity).
  unfold put. rewrite firstn_app, Nat.sub_diag, firstn_O, app_nil_r, firstn_all. f_equal.
  replace (S (length (a ++ z :: b))) with (length (a ++ z :: b) + 1)%nat by lia. rewrite skipn_app. rewrite skipn_all2 by lia.
  replace (length (a ++ z :: b) + 1 - length (a ++ z :: b))%nat with 1%nat by lia. reflexivity.
Qed.

(** One draw, on the first n elements. *)
Lemma draw_cases : forall A (p : list A) n c, length p = S n -> 0 <= c < Z.of_nat (S n) ->
  exists x p1, (forall d t, exchange d (p ++ t) (Z.to_nat c) n = p1 ++ x :: t) /\ nth_error p (Z.to_nat c) = Some x /\
    length p1 = n /\ Permutation p (p1 ++ [x]).
Proof.
  intros A p n c Hp Hc. assert (E : exists p' z, p = p' ++ [z]).
  { destruct p as [|y p0] using rev_ind; [discriminate|]. eauto. }
  destruct E as (p' & z & ->). rewrite app_length in Hp. cbn [length] in Hp. assert (Ln : length p' = n) by lia.
  destruct (Nat.eq_dec (Z.to_nat c) n) as [Ec|Nc].
  - exists z, p'. rewrite Ec. split; [|split; [|split; [exact Ln|apply Permutation_refl]]].
    + intros d t. rewrite <- app_assoc. cbn [app]. rewrite <- Ln. apply exchange_last.
    + rewrite nth_error_app2, Ln, Nat.sub_diag by lia. reflexivity.
  - assert (Lc : (Z.to_nat c < length p')%nat) by lia.
    destruct (nth_error p' (Z.to_nat c)) as [x|] eqn:Ex; [|apply nth_error_None in Ex; lia].
    apply nth_error_split in Ex. destruct Ex as (a & b & -> & La). exists x, (a ++ z :: b). split; [|split; [|split]].
    + intros d t. rewrite <- La, <- Ln. rewrite <- app_assoc. apply exchange_mid.
    + rewrite <- La, <- app_assoc. cbn [app]. rewrite nth_error_app2, Nat.sub_diag by lia. reflexivity.
    + rewrite app_length in *. cbn [length] in *. lia.
    + rewrite <- !app_assoc. apply Permutation_app_head. cbn [app]. 
      apply (Permutation_trans (l' := x :: z :: b)); [constructor; symmetry; apply Permutation_cons_append|].
      apply (Permutation_trans (l' := z :: x :: b)); [constructor|]. constructor. apply Permutation_cons_append.
Qed.
Lemma draws_cons : forall n c cs, draws_ok (S (S n)) (c :: cs) = (0 <= c < Z.of_nat (S (S n)) /\ draws_ok (S n) cs).
Proof. reflexivity. Qed.
Lemma arrange_cons : forall A (d : A) n c cs l, arrange d (S (S n)) (c :: cs) l = arrange d (S n) cs (exchange d l (Z.to_nat c) (S n)).
Proof. reflexivity. Qed.
Lemma arrange_prefix : forall A d n cs (p t : list A), length p = n -> draws_ok n cs ->
  exists q, arrange d n cs (p ++ t) = q ++ t /\ Permutation p q.
Proof.
  intros A d. induction n as [|n IH]; intros cs p t Hp Hd.
  - exists p. split; [reflexivity|apply Permutation_refl].
  - destruct n as [|n']; [exists p; split; [reflexivity|apply Permutation_refl]|]. remember (S n') as n.
    destruct cs as [|c cs]; [subst n; contradiction|].
    assert (Hc : 0 <= c < Z.of_nat (S n)) by (subst n; apply Hd). assert (Hd' : draws_ok n cs) by (subst n; apply Hd). clear Hd. rename Hd' into Hd.
    destruct (draw_cases A p n c Hp Hc) as (x & p1 & Sw & _ & L1 & P1).
    assert (R : arrange d (S n) (c :: cs) (p ++ t) = arrange d n cs (exchange d (p ++ t) (Z.to_nat c) n)) by (subst n; reflexivity). rewrite R.
    rewrite Sw. destruct (IH cs p1 (x :: t) L1 Hd) as (q & E & P). exists (q ++ [x]). rewrite E, <- app_assoc. split; [reflexivity|].
    eapply Permutation_trans; [exact P1|]. apply Permutation_app_tail. exact P.
Qed.
Lemma arrange_unique : forall A d n (p q t : list A), length p = n -> NoDup p -> Permutation p q ->
  exists cs, (draws_ok n cs /\ arrange d n cs (p ++ t) = q ++ t) /\
    forall cs', draws_ok n cs' -> arrange d n cs' (p ++ t) = q ++ t -> cs' = cs.
Proof.
  intros A d. induction n as [|n IH]; intros p q t Hp ND P.
  - exists []. destruct p; [|discriminate]. apply Permutation_nil in P. subst q. split; [split; reflexivity|]. intros cs' H _. exact H.
  - destruct n as [|n'].
    { exists []. destruct p as [|x [|]]; try discriminate. apply Permutation_length_1_inv in P. subst q. split; [split; reflexivity|]. intros cs' H _. exact H. }
    remember (S n') as n. assert (E : exists q' y, q = q' ++ [y]).
    { destruct q as [|y q0] using rev_ind; [apply Permutation_length in P; rewrite Hp in P; discriminate|]. eauto. }
    destruct E as (q' & y & ->).
    assert (Iy : In y p) by (apply (Permutation_in y (Permutation_sym P)); apply in_or_app; right; left; reflexivity).
    apply In_nth_error in Iy. destruct Iy as [k Ek]. assert (Lk : (k < length p)%nat) by (apply nth_error_Some; congruence).
    assert (Hk : 0 <= Z.of_nat k < Z.of_nat (S n)) by lia.
    destruct (draw_cases A p n (Z.of_nat k) Hp Hk) as (x & p1 & Sw & Nx & L1 & P1).
    assert (x = y) by (rewrite Nat2Z.id, Ek in Nx; congruence). subst x.
    assert (Pq : Permutation p1 q').
    { apply (Permutation_app_inv_r [y]). eapply Permutation_trans; [apply Permutation_sym; exact P1|exact P]. }
    assert (ND1 : NoDup p1).
    { apply (Permutation_NoDup P1) in ND. apply NoDup_remove_1 in ND. rewrite app_nil_r in ND. exact ND. }
    destruct (IH p1 q' (y :: t) L1 ND1 Pq) as (cs & [D1 D2] & U).
    exists (Z.of_nat k :: cs). split.
    + split.
      * subst n. cbn [draws_ok]. split; [exact Hk|exact D1].
      * subst n. cbn [arrange]. rewrite Sw. etransitivity; [exact D2|]. rewrite <- app_assoc. reflexivity.
    + intros cs' H1 H2. destruct cs' as [|c' cs']; [subst n; contradiction|].
      assert (Hc : 0 <= c' < Z.of_nat (S n)) by (subst n; apply H1).
      assert (H1' : draws_ok n cs') by (subst n; apply H1). clear H1. rename H1' into H1.
      assert (H2' : arrange d n cs' (exchange d (p ++ t) (Z.to_nat c') n) = (q' ++ [y]) ++ t) by (subst n; exact H2). clear H2. rename H2' into H2.
      destruct (draw_cases A p n c' Hp Hc) as (x' & p2 & Sw2 & Nx2 & L2 & P2). rewrite Sw2 in H2.
      destruct (arrange_prefix A d n cs' p2 (x' :: t) L2 H1) as (q2 & E2 & Pq2). pose proof H2 as H3. rewrite E2 in H3.
      rewrite <- app_assoc in H3. cbn [app] in H3.
      assert (LL : length q2 = length q').
      { apply Permutation_length in Pq2. apply Permutation_length in Pq. lia. }
      assert (X : q2 = q' /\ x' = y).
      { clear - H3 LL. revert q' H3 LL. induction q2 as [|e q2 IHq]; intros [|e' q'] H3 LL; try discriminate.
        - injection H3 as ->. auto.
        - injection H3 as -> H3. injection LL as LL. destruct (IHq q' H3 LL) as [-> ->]. auto. }
      destruct X as [-> ->].
      assert (C : Z.to_nat c' = k).
      { apply (NoDup_nth_error p); [exact ND|apply nth_error_Some; congruence|congruence]. }
      assert (c' = Z.of_nat k) by lia. subst c'. f_equal.
      assert (p2 = p1). { pose proof (Sw d t) as S1. pose proof (Sw2 d t) as S2. rewrite Sw in S2. apply app_inv_tail in S2. auto. }
      subst p2. apply U; [exact H1|]. rewrite H2, <- app_assoc. reflexivity.
Qed.

Lemma shuffle_step : forall R A (rng : R -> outcome (R * Z)) wx fuel n (l : list A) r, (1 <= n)%nat ->
  shuffle_loop rng wx fuel (S n) l r =
  obind (bounded_rand rng wx fuel (Z.of_nat (S n) mod 2 ^ wx) r) (fun '(r, chosen) => shuffle_loop rng wx fuel n (swap_at l (Z.to_nat chosen) n) r).
Proof. intros R A rng wx fuel [|n] l r H; [lia|reflexivity]. Qed.
Lemma shuffle_draws : forall R A (d : A) (rng : R -> outcome (R * Z)) wx fuel l r r' l', Z.of_nat (length l) < 2 ^ wx ->
  shuffle rng wx fuel l r = Ok (r', l') ->
  exists cs, drawn (bounded_rand rng wx fuel) (length l) r cs r' /\ draws_ok (length l) cs /\ l' = arrange d (length l) cs l.
Proof.
  intros R A d rng wx fuel l r r' l' Hl. unfold shuffle.
  assert (H : forall n l r, (n <= length l)%nat -> Z.of_nat n < 2 ^ wx -> shuffle_loop rng wx fuel n l r = Ok (r', l') ->
    exists cs, drawn (bounded_rand rng wx fuel) n r cs r' /\ draws_ok n cs /\ l' = arrange d n cs l).
  { induction n as [|n IH]; intros l0 r0 L Hn E.
    - injection E as <- <-. exists []. cbn. auto.
    - destruct n as [|n']; [injection E as <- <-; exists []; cbn; auto|]. remember (S n') as n.
      rewrite shuffle_step in E by lia. rewrite Z.mod_small in E by lia.
      destruct (bounded_rand rng wx fuel (Z.of_nat (S n)) r0) as [[r1 c]| | |] eqn:B; cbn [obind] in E; try discriminate.
      assert (NN : 0 <= Z.of_nat (S n)) by lia. pose proof (bounded_range _ _ _ _ _ _ _ _ NN B) as Hc. rewrite (swap_exchange _ d) in E by lia.
      destruct (IH (exchange d l0 (Z.to_nat c) n) r1) as (cs & D1 & D2 & D3); [rewrite exchange_length; lia|lia|exact E|].
      exists (c :: cs). subst n. split; [exists r1; auto|]. split; [split; auto|exact D3]. }
  intros E. apply (H (length l) l r); auto.
Qed.
Lemma shuffle_permutes : forall R A (rng : R -> outcome (R * Z)) wx fuel (l : list A) r r' l', Z.of_nat (length l) < 2 ^ wx ->
  shuffle rng wx fuel l r = Ok (r', l') -> Permutation l l'.
Proof.
  intros R A rng wx fuel [|d l] r r' l' Hl E; [injection E as <- <-; apply Permutation_refl|].
  destruct (shuffle_draws R A d rng wx fuel (d :: l) r r' l' Hl E) as (cs & _ & D & ->).
  destruct (arrange_prefix A d (length (d :: l)) cs (d :: l) [] eq_refl D) as (q & E2 & P). rewrite !app_nil_r in E2. rewrite E2. exact P.
Qed.
Lemma shuffle_unbiased : forall A d (l l' : list A), NoDup l -> Permutation l l' ->
  exists cs, (draws_ok (length l) cs /\ arrange d (length l) cs l = l') /\
    forall cs', draws_ok (length l) cs' -> arrange d (length l) cs' l = l' -> cs' = cs.
Proof.
  intros A d l l' ND P. destruct (arrange_unique A d (length l) l l' [] eq_refl ND P) as (cs & [D E] & U).
  rewrite !app_nil_r in *. exists cs. split; [auto|]. intros cs' H1 H2. apply U; [exact H1|]. rewrite ?app_nil_r. exact H2.
Qed.
(** The library's generator always finishes. *)
Lemma fast_shuffle : forall A (l : list A) s, state 64 true s -> Z.of_nat (length l) < 2 ^ 32 ->
  exists f0, forall fuel, (f0 <= fuel)%nat -> exists s' l', shuffle pcg32_fast 32 fuel l s = Ok (s', l') /\ state 64 true s'.
Proof.
  intros A l s S Hl. unfold shuffle.
  assert (H : forall n (l : list A) s, state 64 true s -> Z.of_nat n < 2 ^ 32 -> exists f0, forall fuel, (f0 <= fuel)%nat ->
    exists s' l', shuffle_loop pcg32_fast 32 fuel n l s = Ok (s', l') /\ state 64 true s').
  { clear. induction n as [|n IH]; intros l s St Hn; [exists 0%nat; intros; exists s, l; split; [reflexivity|exact St]|].
    destruct n as [|n']; [exists 0%nat; intros; exists s, l; split; [reflexivity|exact St]|]. remember (S n') as n.
    destruct (fast_bounded s (Z.of_nat (S n)) St ltac:(lia)) as (k & Hk & _ & _ & B).
    assert (S' : state 64 true (after 64 fast_mult 0 (k + 1) s)) by (apply state_after; [exact fast_wide|exact fast_good|exact St]).
    set (c := xsh_rs 64 32 (after 64 fast_mult 0 k s) mod Z.of_nat (S n)) in *.
    destruct (IH (swap_at l (Z.to_nat c) n) _ S' ltac:(lia)) as (f0 & F).
    exists (f0 + Z.to_nat k + 1)%nat. intros fuel Hf. rewrite shuffle_step by lia.
    rewrite Z.mod_small by lia. rewrite B by lia. cbn [obind]. apply F. lia. }
  apply H; assumption.
Qed.
Lemma shuffle_too_many : forall wx, 1 <= wx -> exists l : list Z, Z.of_nat (length l) = 2 ^ wx /\
  forall R (rng : R -> outcome (R * Z)) fuel r, shuffle rng wx fuel l r = UB.
Proof.
  intros wx Hw. assert (P : 2 ^ 1 <= 2 ^ wx) by (apply Z.pow_le_mono_r; lia). change (2 ^ 1) with 2 in P.
  exists (repeat 0 (Z.to_nat (2 ^ wx))). assert (E : Z.of_nat (length (repeat 0 (Z.to_nat (2 ^ wx)))) = 2 ^ wx) by (rewrite repeat_length; lia).
  split; [exact E|]. intros R rng fuel r. generalize dependent (repeat 0 (Z.to_nat (2 ^ wx))). intros l E.
  unfold shuffle. destruct (length l) as [|n] eqn:L; [lia|]. rewrite shuffle_step by lia. rewrite E, Z.mod_same by lia. reflexivity.
Qed.

(** The output function in its published form. *)
Lemma out32_is : forall s, 0 <= s < 2 ^ 64 -> xsh_rs 64 32 s = out32 s.
Proof.
  intros s H. pose proof (start_range s H) as Hq. unfold start in Hq. unfold xsh_rs, out32. change (xsh_rs_opbits (64 - 32)) with 3.
  cbn zeta. change (3 =? 0) with false. cbn iota. change (2 ^ 3 - 1) with 7. change (64 - 3) with 61. change (64 - 32 - 3 - 7) with 22.
  change (3 + (32 + 7) / 2) with 22. rewrite (Z.shiftr_div_pow2 s 61), (Z.shiftr_div_pow2 s 22) by lia.
  assert (R : Z.land (s / 2 ^ 61) 7 = s / 2 ^ 61).
  { change 7 with (Z.ones 3). rewrite Z.land_ones by lia. apply Z.mod_small. lia. }
  rewrite R. rewrite Z.shiftr_div_pow2 by lia. reflexivity.
Qed.
Lemma out32_after : forall s n, state 64 true s -> xsh_rs 64 32 (after 64 fast_mult 0 n s) = out32 (after 64 fast_mult 0 n s).
Proof. intros s n S. apply out32_is. assert (A : state 64 true (after 64 fast_mult 0 n s)) by (apply state_after; [exact fast_wide|exact fast_good|exact S]). apply A. Qed.
Lemma fast_step_out : forall s, state 64 true s -> pcg32_fast s = Ok (after 64 fast_mult 0 1 s, out32 s).
Proof. intros s S. rewrite fast_step by exact S. rewrite out32_is by apply S. reflexivity. Qed.
Lemma fast_outputs_out : forall s, state 64 true s ->
  exists f, (forall n, 0 <= n < 2 ^ 62 -> 0 <= out32 (after 64 fast_mult 0 n s) < 2 ^ 32 /\ 0 <= f n < 2 ^ 30) /\
  forall o k, 0 <= o < 2 ^ 32 -> 0 <= k < 2 ^ 30 ->
    exists n, (0 <= n < 2 ^ 62 /\ out32 (after 64 fast_mult 0 n s) = o /\ f n = k) /\
      forall n', 0 <= n' < 2 ^ 62 -> out32 (after 64 fast_mult 0 n' s) = o -> f n' = k -> n' = n.
Proof.
  intros s S. destruct (fast_outputs s S) as (f & F1 & F2). exists f. split.
  - intros n Hn. rewrite <- out32_after by exact S. auto.
  - intros o k Ho Hk. destruct (F2 o k Ho Hk) as (n & (N1 & N2 & N3) & N4). exists n. rewrite <- out32_after by exact S.
    split; [auto|]. intros n' Hn'. rewrite <- out32_after by exact S. auto.
Qed.
Lemma fast_bounded_out : forall s b, state 64 true s -> 0 < b < 2 ^ 32 ->
  exists n, 0 <= n < 2 ^ 62 /\ (forall i, 0 <= i < n -> out32 (after 64 fast_mult 0 i s) < 2 ^ 32 mod b) /\
    2 ^ 32 mod b <= out32 (after 64 fast_mult 0 n s) /\
    forall fuel, n < Z.of_nat fuel ->
      bounded_rand pcg32_fast 32 fuel b s = Ok (after 64 fast_mult 0 (n + 1) s, out32 (after 64 fast_mult 0 n s) mod b).
Proof.
  intros s b S Hb. destruct (fast_bounded s b S Hb) as (n & N1 & N2 & N3 & N4). exists n. rewrite <- out32_after by exact S.
  split; [exact N1|]. split; [|auto]. intros i Hi. rewrite <- out32_after by exact S. auto.
Qed.
Lemma uniform_out : forall mcg, exists rank,
  (forall s, state 64 mcg s -> 0 <= out32 s < 2 ^ 32 /\ 0 <= rank s < if mcg then 2 ^ 30 else 2 ^ 32) /\
  forall o k, 0 <= o < 2 ^ 32 -> 0 <= k < (if mcg then 2 ^ 30 else 2 ^ 32) ->
    exists s, (state 64 mcg s /\ out32 s = o /\ rank s = k) /\
      forall t, state 64 mcg t -> out32 t = o -> rank t = k -> t = s.
Proof.
  intros mcg. destruct (uniform mcg) as (U1 & U2). exists (rank mcg).
  assert (E : (if mcg then 2 ^ 30 else 2 ^ 32) = 2 ^ rank_bits mcg) by (destruct mcg; reflexivity). rewrite E. split.
  - intros s S. rewrite <- out32_is by apply S. auto.
  - intros o k Ho Hk. destruct (U2 o k Ho Hk) as (s & (S1 & S2 & S3) & S4). exists s. rewrite <- out32_is by apply S1.
    split; [auto|]. intros t T. rewrite <- out32_is by apply T. auto.
Qed.
Lemma generate_out : forall m c mcg s, state 64 mcg s ->
  generate 64 m c true (xsh_rs 64 32) s = Ok (one_step 64 m c s, out32 s) /\
  generate 64 m c false (xsh_rs 64 32) s = Ok (one_step 64 m c s, out32 (one_step 64 m c s)).
Proof.
  intros m c mcg s [S _]. unfold generate, bump, expr, one_step. change (64 <? 32) with false. cbn [andb obind].
  rewrite !out32_is; [auto|apply Z.mod_pos_bound; lia|exact S].
Qed.
