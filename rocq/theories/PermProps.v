(** C94: the output functions of the PCG generators. *)
From Coq Require Import String ZArith Bool List.
From Verif Require Import Common PcgModel PermModel PcgSpec PermSpec PcgTopProofs PermProofs PermTopProofs.
Import ListNotations.
Local Open Scope Z_scope.

(** C94: the code computes the published formulas. *)
Theorem C94_formulas : (forall bits xb op xs, In (bits, xb, op, xs) rs_sizes -> forall s, 0 <= s < 2 ^ bits -> xsh_rs bits xb s = rs op xs bits xb s) /\
  (forall bits xb op xs, In (bits, xb, op, xs) rr_sizes -> forall s, 0 <= s < 2 ^ bits -> xsh_rr bits xb s = rr op xs bits xb s) /\
  (forall xb op, In (xb, op) xsl_sizes -> forall s, 0 <= s < 2 ^ (2 * xb) -> xsl_rr (2 * xb) xb s = xsl_spec op xb s /\ xsl_rr_rr (2 * xb) s = rrr op xb s).
Proof. exact formulas. Qed.
Print Assumptions C94_formulas.
Example C94_formulas_ex : In (64, 32, 5, 18) rr_sizes /\ xsh_rr 64 32 (12345678901234567890) = 2203698004 /\ rotated 8 0x96 3 = 0xD2.
Proof. split; [cbn; tauto|]. split; reflexivity. Qed.

(** C94: every result comes from equally many states, with and without an increment. *)
Theorem C94_states : (forall bits xb op xs mcg r, In (bits, xb, op, xs) rs_sizes -> 0 <= r < 2 ^ xb ->
    exactly (period bits mcg / 2 ^ xb) (fun s => state bits mcg s /\ xsh_rs bits xb s = r)) /\
  (forall bits xb op xs mcg r, In (bits, xb, op, xs) rr_sizes -> 0 <= r < 2 ^ xb ->
    exactly (period bits mcg / 2 ^ xb) (fun s => state bits mcg s /\ xsh_rr bits xb s = r)) /\
  (forall xb op mcg r, In (xb, op) xsl_sizes -> 0 <= r < 2 ^ xb ->
    exactly (period (2 * xb) mcg / 2 ^ xb) (fun s => state (2 * xb) mcg s /\ xsl_rr (2 * xb) xb s = r)).
Proof. exact states. Qed.
Print Assumptions C94_states.
Example C94_states_ex : period 128 false / 2 ^ 64 = 2 ^ 64 /\ period 16 true / 2 ^ 8 = 64 /\
  forallb (fun k => xsh_rr 16 8 k =? 77) (flat_map (fun b => map (fun i => b + 4 * i) [0; 1; 2; 3; 4; 5; 6; 7])
    [2531; 12995; 17539; 28195; 40547; 45219; 52227; 62275]) = true.
Proof. split; [reflexivity|]. split; [reflexivity|]. vm_compute. reflexivity. Qed.

(** C94: hence over one period, from any state on, every number is given equally often. *)
Theorem C94_period : forall w mcg m c, wide w -> good mcg m c -> 0 <= m < 2 ^ w -> 0 <= c < 2 ^ w -> forall s0, state w mcg s0 ->
  (forall xb op xs r, In (w, xb, op, xs) rs_sizes -> 0 <= r < 2 ^ xb ->
    exactly (period w mcg / 2 ^ xb) (fun n => 0 <= n < period w mcg /\ xsh_rs w xb (after w m c n s0) = r)) /\
  (forall xb op xs r, In (w, xb, op, xs) rr_sizes -> 0 <= r < 2 ^ xb ->
    exactly (period w mcg / 2 ^ xb) (fun n => 0 <= n < period w mcg /\ xsh_rr w xb (after w m c n s0) = r)) /\
  (forall xb op r, In (xb, op) xsl_sizes -> w = 2 * xb -> 0 <= r < 2 ^ xb ->
    exactly (period w mcg / 2 ^ xb) (fun n => 0 <= n < period w mcg /\ xsl_rr w xb (after w m c n s0) = r)).
Proof. exact whole_period. Qed.
Print Assumptions C94_period.
Example C94_period_ex : wide 64 /\ good false 6364136223846793005 1442695040888963407 /\ state 64 false 42 /\ In (64, 32, 5, 18) rr_sizes.
Proof. split; [right; discriminate|]. split; [split; reflexivity|]. split; [split; [split; [discriminate|reflexivity]|discriminate]|cbn; tauto]. Qed.

(** C94: the full-size output function is a permutation that [unoutput] undoes, both ways; a generator with
    it gives every number exactly once in a period. *)
Theorem C94_rxs : forall w op last m, In (w, op, last, m) rxs_sizes -> permutes (2 ^ w) (rxs op last m w) /\ exists u, In (w, m, u) multipliers /\
  (forall s, 0 <= s < 2 ^ w -> rxs_m_xs m w w s = Ok (rxs op last m w s) /\ unoutput u w (rxs op last m w s) = Ok s) /\
  (forall x, 0 <= x < 2 ^ w -> exists s, unoutput u w x = Ok s /\ 0 <= s < 2 ^ w /\ rxs_m_xs m w w s = Ok x).
Proof. intros w op last m H. exact (conj (rxs_permutes w op last m H) (rxs_code w op last m H)). Qed.
Print Assumptions C94_rxs.
Theorem C94_rxs_once : forall w op last m', In (w, op, last, m') rxs_sizes -> forall m c, good false m c -> 0 <= m < 2 ^ w -> 0 <= c < 2 ^ w ->
  forall s0 r, state w false s0 -> 0 <= r < 2 ^ w -> exactly 1 (fun n => 0 <= n < 2 ^ w /\ rxs_m_xs m' w w (after w m c n s0) = Ok r).
Proof. exact rxs_period. Qed.
Print Assumptions C94_rxs_once.
Example C94_rxs_ex : rxs_m_xs 277803737 32 32 123456789 = Ok 1486992966 /\ unoutput 2897767785 32 1486992966 = Ok 123456789 /\
  good false 747796405 2891336453 /\ state 32 false 7.
Proof. split; [reflexivity|]. split; [vm_compute; reflexivity|]. split; [split; reflexivity|]. split; [split; [discriminate|reflexivity]|discriminate]. Qed.

(** C94: for 16 bits it is undefined for the states where the product exceeds an int; undoing is defined. *)
Theorem C94_rxs16_refuted : (forall s, 0 <= s < 2 ^ 16 -> rxs_m_xs 62169 16 16 s = UB <-> INT_MAX < xorshift (3 + s / 2 ^ 13) s * 62169) /\
  (exists s, 0 <= s < 2 ^ 16 /\ rxs_m_xs 62169 16 16 s = UB) /\
  (forall x, 0 <= x < 2 ^ 16 -> exists s, unoutput 28009 16 x = Ok s /\ 0 <= s < 2 ^ 16 /\ rxs 3 11 62169 16 s = x).
Proof. exact rxs16_top. Qed.
Print Assumptions C94_rxs16_refuted.
Example C94_rxs16_ex : rxs_m_xs 62169 16 16 1000 = Ok 58193 /\ rxs_m_xs 62169 16 16 40000 = UB /\ unoutput 28009 16 58193 = Ok 1000.
Proof. vm_compute. auto. Qed.

(** C94: the multipliers of all sizes, that of 16 bits above among them, are stored with their inverses. *)
Theorem C94_inverses : (forall w m u, In (w, m, u) multipliers -> 0 < m < 2 ^ w /\ 0 < u < 2 ^ w /\ (m * u) mod 2 ^ w = 1) /\
  In (16, 62169, 28009) multipliers.
Proof. exact table_inverses. Qed.
Print Assumptions C94_inverses.

(** C94: [unxorshift] undoes the mixing for every shift and size. *)
Theorem C94_unxorshift : forall w shift, 0 < shift -> 0 < w ->
  (forall y, 0 <= y < 2 ^ w -> unxorshift (Z.to_nat w) w (xorshift shift y) w shift = Ok y) /\
  (forall x, 0 <= x < 2 ^ w -> exists y, unxorshift (Z.to_nat w) w x w shift = Ok y /\ 0 <= y < 2 ^ w /\ xorshift shift y = x).
Proof. exact unxorshift_top. Qed.
Print Assumptions C94_unxorshift.
Example C94_unxorshift_ex : xorshift 3 0xDEADBEEF = 3312978226 /\ unxorshift 32 32 3312978226 32 3 = Ok 0xDEADBEEF.
Proof. vm_compute. auto. Qed.

(** C94: the function for full-size results rotating both halves is a permutation; every number once. *)
Theorem C94_rrr : forall xb op, In (xb, op) xsl_sizes -> permutes (2 ^ (2 * xb)) (rrr op xb).
Proof. exact rrr_top. Qed.
Print Assumptions C94_rrr.
Theorem C94_rrr_once : forall xb op, In (xb, op) xsl_sizes -> forall m c, good false m c -> 0 <= m < 2 ^ (2 * xb) -> 0 <= c < 2 ^ (2 * xb) ->
  forall s0 r, state (2 * xb) false s0 -> 0 <= r < 2 ^ (2 * xb) ->
  exactly 1 (fun n => 0 <= n < 2 ^ (2 * xb) /\ xsl_rr_rr (2 * xb) (after (2 * xb) m c n s0) = r).
Proof. exact rrr_period. Qed.
Print Assumptions C94_rrr_once.
Example C94_rrr_ex : In (64, 6) xsl_sizes /\ xsl_rr_rr 64 0x0123456789ABCDEF = 7422252442433652872 /\ state 128 false (2 ^ 127).
Proof. split; [cbn; tauto|]. split; [reflexivity|]. split; [split; [discriminate|reflexivity]|discriminate]. Qed.

(** C94: the high half of the product: every result from equally many states. *)
Theorem C94_rxs_m : forall bits xb op m, In (bits, xb, op, m) rxm_sizes ->
  (forall s, 0 <= s < 2 ^ bits -> rxs_m m bits xb s = Ok ((xorshift (op + s / 2 ^ (bits - op)) s * m) mod 2 ^ bits / 2 ^ (bits - xb))) /\
  forall r, 0 <= r < 2 ^ xb -> exactly (2 ^ (bits - xb)) (fun s => 0 <= s < 2 ^ bits /\ rxs_m m bits xb s = Ok r).
Proof. exact rxs_m_states. Qed.
Print Assumptions C94_rxs_m.
Example C94_rxs_m_ex : In (32, 16, 3, 277803737) rxm_sizes /\ rxs_m 277803737 32 16 123456789 = Ok 15648.
Proof. split; [cbn; tauto|]. vm_compute. reflexivity. Qed.

(** C94: and the two without rotation, of any size. *)
Theorem C94_xsh : forall bits xb mcg r, 2 <= xb <= bits - 2 -> 0 <= r < 2 ^ xb ->
  (forall s, 0 <= s < 2 ^ bits -> xsh bits xb s = xorshift (xb / 2) s / 2 ^ (bits - xb)) /\
  exactly (period bits mcg / 2 ^ xb) (fun s => state bits mcg s /\ xsh bits xb s = r).
Proof. exact xsh_states. Qed.
Print Assumptions C94_xsh.
Theorem C94_xsl : forall xb mcg r, 2 <= xb -> 0 <= r < 2 ^ xb ->
  (forall s, 0 <= s < 2 ^ (2 * xb) -> xsl (2 * xb) xb s = Z.lxor (s / 2 ^ xb) (s mod 2 ^ xb)) /\
  exactly (period (2 * xb) mcg / 2 ^ xb) (fun s => state (2 * xb) mcg s /\ xsl (2 * xb) xb s = r).
Proof. exact xsl_states0. Qed.
Print Assumptions C94_xsl.
Example C94_xs_ex : xsh 64 32 0x0123456789ABCDEF = 19088452 /\ xsl 64 32 0x0123456789ABCDEF = 0x88888888.
Proof. vm_compute. auto. Qed.
