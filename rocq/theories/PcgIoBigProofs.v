From Coq Require Import String Ascii ZArith NArith Arith Bool Lia List.
From Verif Require Import Common IntToStrSpec IntToStrModel IntToStrProofs StrfModel StrfProofs PcgModel U128Model U128Spec U128Proofs PcgIoModel PcgIoSpec PcgIoProofs.
Import ListNotations.
Local Open Scope Z_scope.

(** ** The 128-bit class *)
Lemma big_is : forall n, 0 <= n < 2 ^ 128 -> is (big n) n.
Proof.
  intros n H. unfold big. pose proof (proj1 build_ok (n / 2 ^ 64) (n mod 2 ^ 64)) as B.
  assert (D : 0 <= n / 2 ^ 64 < 2 ^ 64) by (split; [apply Z.div_pos; lia|apply Z.div_lt_upper_bound; lia]).
  assert (M := Z.mod_pos_bound n (2 ^ 64) ltac:(lia)). specialize (B D M). replace (n mod 2 ^ 64 + 2 ^ 64 * (n / 2 ^ 64)) with n in B; [exact B|].
  pose proof (Z.div_mod n (2 ^ 64) ltac:(lia)). lia.
Qed.
Lemma of_big_value : forall a, of_big a = value a.
Proof. intros a. unfold of_big, v01, v23, value. lia. Qed.
Lemma small_is : forall z, 0 <= z < 2 ^ 64 -> is (of_int z) z.
Proof. exact (proj2 build_ok). Qed.
Lemma wf_bound : forall a, wf a -> 0 <= value a < 2 ^ 128.
Proof. intros a (A0 & A1 & A2 & A3). unfold word, value in *. change (2 ^ 128) with (2 ^ 32 * (2 ^ 32 * (2 ^ 32 * 2 ^ 32))). change (2 ^ 96) with (2 ^ 32 * (2 ^ 32 * 2 ^ 32)). change (2 ^ 64) with (2 ^ 32 * 2 ^ 32). lia. Qed.

(** Writing. *)
Lemma fill_buffer_ok : forall F fuel pos v buffer, wf v -> (pos <= fuel)%nat -> value v < 10 ^ Z.of_nat pos -> value v < 2 ^ Z.of_nat F -> (0 < F)%nat -> (0 < pos)%nat ->
  fill_buffer fuel pos v buffer = Ok (udec F (value v) ++ buffer).
Proof.
  intros F fuel. revert F. induction fuel as [|fuel IH]; intros F pos v buffer W L P B HF HP; [lia|].
  cbn [fill_buffer]. destruct (small_is 10 ltac:(lia)) as (W10 & V10). destruct (small_is 0 ltac:(lia)) as (W0 & V0).
  destruct (proj1 (div_spec v (of_int 10) W W10) ltac:(lia)) as (q & r & E & _ & (Wq & Vq) & _). rewrite E. cbn [obind].
  rewrite V10 in Vq. pose proof (wf_bound v W) as Bv.
  destruct (mul_spec q (of_int 10) Wq W10) as (Wm & Vm). rewrite V10, Vq in Vm.
  pose proof (Z.div_mod (value v) 10 ltac:(lia)) as DM. pose proof (Z.mod_pos_bound (value v) 10 ltac:(lia)) as MB.
  rewrite Z.mod_small in Vm by (split; [apply Z.mul_nonneg_nonneg; [apply Z.div_pos; lia|lia]|lia]).
  destruct (sub_spec v (mul q (of_int 10)) W Wm) as (Ws & Vs). rewrite Vm in Vs. replace (value v - value v / 10 * 10) with (value v mod 10) in Vs by lia.
  rewrite (proj1 (proj2 (to_spec _ Ws))), Vs, (Z.mod_small (value v mod 10) (2 ^ 128)), (Z.mod_small (value v mod 10) (2 ^ 32)) by lia.
  destruct pos as [|pos]; [lia|]. destruct F as [|F]; [lia|]. cbn [udec].
  rewrite (proj1 (proj2 (compare_spec q (of_int 0) Wq W0))), Vq, V0.
  destruct (Z.ltb_spec (value v) 10) as [S|S].
  - rewrite Z.div_small by lia. cbn [Z.eqb negb]. rewrite Z.mod_small by lia. reflexivity.
  - assert (Hq : 1 <= value v / 10) by (apply Z.div_le_lower_bound; lia).
    destruct (Z.eqb_spec (value v / 10) 0) as [Q0|Q0]; [lia|]. cbn [negb].
    assert (Pq : value q < 10 ^ Z.of_nat pos).
    { rewrite Vq. apply Z.div_lt_upper_bound; [lia|]. rewrite Nat2Z.inj_succ, Z.pow_succ_r in P by lia. lia. }
    assert (Fq : value q < 2 ^ Z.of_nat F).
    { rewrite Vq. apply Z.div_lt_upper_bound; [lia|]. rewrite Nat2Z.inj_succ, Z.pow_succ_r in B by lia. lia. }
    rewrite (IH F pos q _ Wq ltac:(lia) Pq Fq).
    + rewrite Vq, <- app_assoc. reflexivity.
    + destruct F; [cbn in Fq; lia|lia].
    + destruct pos; [cbn in Pq; lia|lia].
Qed.
Lemma buffer_numeral : forall n, 0 <= n < 2 ^ 128 -> exists t, fill_buffer 130 39 (big n) [] = Ok t /\ numeral n t.
Proof.
  intros n H. destruct (big_is n H) as (W & V). exists (udec 128 n). split.
  - rewrite (fill_buffer_ok 128) by (rewrite ?V; try assumption; try lia; change (Z.of_nat 39) with 39; change (Z.of_nat 128) with 128; lia). now rewrite V, app_nil_r.
  - apply udec_numeral; [|lia]. change (Z.of_nat 128) with 128. lia.
Qed.

(** Reading. *)
Lemma fold_mono : forall ds acc, Forall is_digit ds -> 0 <= acc -> acc <= fold_left (fun a c => 10 * a + (Z.of_N (N_of_ascii c) - 48)) ds acc.
Proof.
  intros ds acc F. revert acc. induction F as [|c ds D F IH]; intros acc H; cbn [fold_left]; [lia|].
  unfold is_digit in D. specialize (IH (10 * acc + (Z.of_N (N_of_ascii c) - 48)) ltac:(lia)). lia.
Qed.
Lemma big_loop_ok : forall ds r cur nothing, Forall is_digit ds -> stops r -> wf cur ->
  fold_left (fun a c => 10 * a + (Z.of_N (N_of_ascii c) - 48)) ds (value cur) < 2 ^ 128 -> exists cur',
  big_loop (ds ++ r) cur nothing false = (cur', match ds with [] => nothing | _ => false end, false, r, empty_b r) /\
  is cur' (fold_left (fun a c => 10 * a + (Z.of_N (N_of_ascii c) - 48)) ds (value cur)).
Proof.
  intros ds r cur nothing F S. revert cur nothing. induction F as [|c ds D F IH]; intros cur nothing W B.
  - exists cur. split; [|split; [exact W|reflexivity]]. cbn [app]. destruct r as [|a r]; [reflexivity|]. cbn [big_loop]. cbn in S.
    destruct (isdigit a) eqn:E; [apply isdigit_digit in E; tauto|]. reflexivity.
  - cbn [app big_loop fold_left] in *. assert (ED : isdigit c = true) by now apply isdigit_digit. rewrite ED. cbn [negb].
    unfold is_digit in D. pose proof (wf_bound cur W) as Bc. set (k := Z.of_N (N_of_ascii c) - 48) in *. assert (Hk : 0 <= k <= 9) by lia. clearbody k.
    destruct (small_is 10 ltac:(lia)) as (W10 & V10). destruct (small_is k ltac:(lia)) as (Wk & Vk).
    pose proof (fold_mono ds (10 * value cur + k) F ltac:(lia)) as M.
    destruct (mul_spec cur (of_int 10) W W10) as (Wm & Vm). rewrite V10, Z.mod_small in Vm by lia.
    destruct (add_spec (mul cur (of_int 10)) (of_int k) Wm Wk) as (Wa & Va). rewrite Vm, Vk, Z.mod_small in Va by lia.
    destruct (compare_spec _ _ Wm W) as (_ & _ & L1 & _). destruct (compare_spec _ _ Wa Wk) as (_ & _ & L2 & _). rewrite L1, L2, Vm, Va, Vk.
    destruct (Z.ltb_spec (value cur * 10) (value cur)); [lia|]. destruct (Z.ltb_spec (value cur * 10 + k) k); [lia|]. cbn [orb].
    replace (10 * value cur + k) with (value (add (mul cur (of_int 10)) (of_int k))) in B |- * by lia.
    destruct (IH _ false Wa B) as (cur' & E & I). exists cur'. split; [|exact I]. rewrite E. destruct ds; reflexivity.
Qed.
Lemma extract_big_ok : forall b ds r f, skipws f = true -> Forall blank b -> ds <> [] -> Forall is_digit ds -> stops r -> digits_value ds < 2 ^ 128 ->
  extract_num KBig (fresh (b ++ ds ++ r) f) = (mkS r (empty_b r) (empty_b r) f, Some (digits_value ds)).
Proof.
  intros b ds r f K B N F S V. destruct ds as [|d ds]; [tauto|]. cbn [extract_num]. unfold extract_big. cbn [app].
  rewrite sentry_fresh; [|assumption..|]. 2: { inversion F as [|? ? D _]; subst. unfold blank, is_digit in *. lia. }
  cbn [negb rest fresh]. destruct (small_is 0 ltac:(lia)) as (W0 & V0).
  destruct (big_loop_ok (d :: ds) r (of_int 0) true F S W0) as (cur & E & (Wc & Vc)); [rewrite V0; exact V|]. cbn [app] in E. rewrite E.
  rewrite V0 in Vc. fold (digits_value (d :: ds)) in Vc. cbn [orb option_map]. rewrite of_big_value, Vc. reflexivity.
Qed.
