(** Property C97: the extended generators. *)
From Coq Require Import ZArith Bool List.
From Verif Require Import Common PcgModel PcgSpec PermModel PermSpec ExtModel ExtSpec ExtPeriodProofs ExtKdProofs ExtTopProofs ExtBackProofs ExtNamedProofs.
Import ListNotations.
Local Open Scope Z_scope.

(** What the other theorems ask of the constants holds of every generator with a name, and of the 32-bit one. *)
Theorem C97_named : (forall i p, i mod 2 = 1 -> 0 <= i < 2 ^ 64 -> In p (named32 i) -> sound p) /\
  (forall i p, i mod 2 = 1 -> 0 <= i < 2 ^ 128 -> In p (named64 i) -> sound p) /\
  (forall i p, In p (named32 i ++ named64 i) -> may_tock p = false) /\
  (forall tp ap k, 0 <= tp <= 32 -> 2 <= ap -> sound (ext_oneseq_rxs_m_xs_32_32 tp ap k)).
Proof. exact (conj named32_sound (conj named64_sound (conj named_none_tock small_sound))). Qed.
Print Assumptions C97_named.
(** A table turns in one way only, to another table. *)
Theorem C97_turned : forall p, sound p -> forall t, table p t ->
  exists t', table p t' /\ turned p 0 0 t t' /\ (forall t2, turned p 0 0 t t2 -> t2 = t') /\ t' <> t.
Proof. exact turned_only. Qed.
Print Assumptions C97_turned.
(** A draw: the base's number combined with the entry its state names, after the table has turned, if it does. *)
Theorem C97_draw : forall p, sound p -> forall s t, ready p (s, t) ->
  let s' := after (w p) (m p) (c p) 1 s in
  exists t1 t2, ready p (s', t2) /\
  draw p (s, t) = Ok ((s', t2), Z.lxor (output p (if output_previous p then s else s')) (nth (Z.to_nat (slot p s)) t2 0)) /\
  0 <= slot p s < 2 ^ table_pow2 p /\
  (turns p s -> turned p 0 0 t t1) /\ (~ turns p s -> t1 = t) /\ (turns_again p s -> turned p 0 0 t1 t2) /\ (~ turns_again p s -> t2 = t1).
Proof. exact draw_top. Qed.
Print Assumptions C97_draw.
(** Equidistribution in as many dimensions as the table has entries: from every state, every run of numbers comes
    from exactly one table. *)
Theorem C97_equidistributed : forall p, sound p -> forall s rs, kdd p = true -> state (w p) (is_mcg p) s -> table p rs ->
  exists t, table p t /\ (exists g, draws p (Z.to_nat (2 ^ table_pow2 p)) (s, t) = Ok (g, rs)) /\
  forall t', table p t' -> (exists g, draws p (Z.to_nat (2 ^ table_pow2 p)) (s, t') = Ok (g, rs)) -> t' = t.
Proof. exact equi. Qed.
Print Assumptions C97_equidistributed.
(** The exact period, from everywhere. *)
Theorem C97_period : forall p, sound p -> forall s t N, kdd p = true \/ is_mcg p = false \/ may_tock p = false ->
  state (w p) (is_mcg p) s -> table p t -> 0 <= N -> (returns p N (s, t) <-> (2 ^ true_period_pow2 p | N)).
Proof. exact period_ext. Qed.
Print Assumptions C97_period.
(** It is the one [period_pow2] gives only for bases of fewer than 64 bits. *)
Theorem C97_claim : forall p, may_tock p = true -> true_period_pow2 p = claimed_period_pow2 p.
Proof. exact claim_right. Qed.
Print Assumptions C97_claim.
Theorem C97_claim_refuted : forall p s t, sound p -> may_tock p = false -> ready p (s, t) ->
  exists N, 0 < N < 2 ^ claimed_period_pow2 p /\ returns p N (s, t).
Proof. exact claim_refuted. Qed.
Print Assumptions C97_claim_refuted.
(** [advance(n)] is [n] draws, if no entry of the table is 0 (and, for bases of fewer than 64 bits, it does not end on 0). *)
Theorem C97_advance : forall p, sound p -> forall s t n, kdd p = true -> state (w p) (is_mcg p) s -> table p t -> 0 <= n < 2 ^ w p ->
  Forall (fun x => x <> 0) t -> may_tock p = false \/ (is_mcg p = false /\ after (w p) (m p) (c p) n s <> 0) ->
  exists g rs, draws p (Z.to_nat n) (s, t) = Ok (g, rs) /\ advance p (s, t) n true = Ok g.
Proof. exact advance_forward. Qed.
Print Assumptions C97_advance.
Theorem C97_advance_zero_refuted : ready pcg32_k64_fast (0, entries0) /\
  exists g r g', draw pcg32_k64_fast (0, entries0) = Ok (g, r) /\ advance pcg32_k64_fast (0, entries0) 1 true = Ok g' /\
    fst g = fst g' /\ snd g <> snd g'.
Proof. exact zero_entry. Qed.
Print Assumptions C97_advance_zero_refuted.
Theorem C97_advance_tock_refuted : forall p, sound p -> forall t, kdd p = true -> may_tock p = true -> is_mcg p = false -> table p t ->
  exists t', advance p (0, t) 0 true = Ok (0, t') /\ turned p 0 0 t t' /\ t' <> t.
Proof. exact advance_bad. Qed.
Print Assumptions C97_advance_tock_refuted.
(** [backstep(n)] takes [n] draws back, if moreover neither end of the way is a state where the table turns, or [n]
    is a whole number of turns. *)
Theorem C97_backstep : forall p, sound p -> forall s t n, kdd p = true -> may_tock p = false -> ready p (s, t) -> 0 <= n < 2 ^ w p ->
  Forall (fun x => x <> 0) t ->
  (may_tick p = true -> (2 ^ advance_pow2 p | n) \/ ~ turnover p s /\ ~ turnover p (after (w p) (m p) (c p) n s)) ->
  exists g rs, draws p (Z.to_nat n) (s, t) = Ok (g, rs) /\ backstep p g n = Ok (s, t).
Proof. exact backstep_top. Qed.
Print Assumptions C97_backstep.
Theorem C97_backstep_refuted : forall p, sound p -> forall s t, kdd p = true -> may_tick p = true -> may_tock p = false -> ready p (s, t) ->
  turnover p s -> exists g r t', draw p (s, t) = Ok (g, r) /\ backstep p g 1 = Ok (s, t') /\ turned p 0 0 t t' /\ t' <> t.
Proof. exact backstep_bad. Qed.
Print Assumptions C97_backstep_refuted.
Theorem C97_backstep_arriving_refuted : ready pcg32_k64_fast (before0, repeat 5 64) /\
  exists g r g', draw pcg32_k64_fast (before0, repeat 5 64) = Ok (g, r) /\ backstep pcg32_k64_fast g 1 = Ok g' /\
    fst g' = before0 /\ snd g' <> repeat 5 64.
Proof. exact arriving. Qed.
Print Assumptions C97_backstep_arriving_refuted.
(** [set(x)], then one step back: [x] is drawn, and the other entries are as they were. *)
Theorem C97_set : forall p, sound p -> forall s t x, kdd p = true -> may_tock p = false -> ready p (s, t) -> entry p x ->
  (may_tick p = true -> ~ turnover p s /\ ~ turnover p (after (w p) (m p) (c p) 1 s)) ->
  exists g, set p x (s, t) = Ok g /\ ready p g /\ obind (backstep p g 1) (draw p) = Ok (g, x) /\
    fst g = after (w p) (m p) (c p) 1 s /\ length (snd g) = length t /\
    forall i, i <> Z.to_nat (slot p s) -> nth i (snd g) 0 = nth i t 0.
Proof. exact set_top. Qed.
Print Assumptions C97_set.
(** The table made from a seed depends on an order the compiler chooses. *)
Theorem C97_selfinit_refuted : exists a b, selfinit pcg32_k64_fast false 42 = Ok a /\ selfinit pcg32_k64_fast true 42 = Ok b /\
  fst a = fst b /\ snd a <> snd b.
Proof. exact init_order. Qed.
Print Assumptions C97_selfinit_refuted.

(** A generator with two entries that turn every 4 numbers. *)
Definition tiny : params := ext32 false (xsh_rs 64 32) inc64 1 2 true.
Example C97_ex_sound : sound tiny.
Proof. apply sound32; [exact rs_range|reflexivity|split; [discriminate|reflexivity]|split; discriminate|split; [discriminate|reflexivity]]. Qed.
Example C97_ex_table : table tiny [7; 8] /\ ready tiny (5, [7; 8]) /\ Forall (fun x => x <> 0) [7; 8] /\ ~ turnover tiny 5 /\ turnover tiny 8 /\
  kdd tiny = true /\ may_tick tiny = true /\ may_tock tiny = false.
Proof.
  assert (T : table tiny [7; 8]) by (split; [reflexivity|]; repeat constructor; discriminate).
  split; [exact T|]. split; [split; [split; [split; [discriminate|reflexivity]|discriminate]|exact T]|].
  split; [repeat constructor; discriminate|]. split; [discriminate|]. repeat split.
Qed.
Example C97_ex_advance : exists g rs, draws tiny 7 (5, [7; 8]) = Ok (g, rs) /\ advance tiny (5, [7; 8]) 7 true = Ok g /\ snd g <> [7; 8] /\
  nth 0 rs 0 = Z.lxor (xsh_rs 64 32 5) 8.
Proof.
  pose (g := match advance tiny (5, [7; 8]) 7 true with Ok g => g | _ => (0, []) end).
  pose (rs := match draws tiny 7 (5, [7; 8]) with Ok (_, rs) => rs | _ => [] end).
  vm_compute in g, rs. exists g, rs. split; [vm_compute; reflexivity|]. split; [vm_compute; reflexivity|]. split; [discriminate|reflexivity].
Qed.
Example C97_ex_periods : claimed_period_pow2 (pcg32_k64 inc64) = 2112 /\ true_period_pow2 (pcg32_k64 inc64) = 2064 /\
  claimed_period_pow2 (pcg32_k16384 inc64) = 524352 /\ true_period_pow2 (pcg32_k16384 inc64) = 524304 /\
  claimed_period_pow2 pcg64_k32_oneseq = 2176 /\ true_period_pow2 pcg64_k32_oneseq = 128.
Proof. vm_compute. repeat split. Qed.
Example C97_ex_tock : may_tock (ext_oneseq_rxs_m_xs_32_32 1 16 true) = true /\ table (ext_oneseq_rxs_m_xs_32_32 1 16 true) [7; 8].
Proof. split; [reflexivity|]. split; [reflexivity|]. repeat constructor; discriminate. Qed.
(** How many numbers the table of each named generator holds, in the order of the list, and which of them pick entries
    by the low bits (k) and which by the high bits (c): the number in the name, except for pcg32_k2. *)
Theorem C97_sizes : forall i,
  map (fun p => (2 ^ table_pow2 p, kdd p)) (named32 i) =
    [(64, true); (64, true); (64, true); (64, true); (64, true); (64, false); (64, false); (64, false);
     (1024, true); (1024, true); (1024, false); (1024, false); (16384, true); (16384, true)] /\
  map (fun p => (2 ^ table_pow2 p, kdd p)) (named64 i) =
    [(32, true); (32, true); (32, true); (32, false); (32, false); (32, false);
     (1024, true); (1024, true); (1024, false); (1024, false)].
Proof. exact named_sizes. Qed.
Print Assumptions C97_sizes.
(** The multipliers and increments of the named generators, in the order of the list, and of their tables: the published
    ones of PCG for 64 and 128 bits (for 32 and 64 bits), no increment for the generators without; [i]: the stream. *)
Theorem C97_constants : forall i,
  let K32 := 0x14057B7EF767814F in let K64 := 117397592171526113268558934119004209487 in
  map (fun p => (m p, c p)) (named32 i) =
    map (fun c => (0x5851F42D4C957F2D, c)) [i; K32; i; 0; K32; i; K32; 0; i; K32; i; K32; i; K32] /\
  map (fun p => (m p, c p)) (named64 i) =
    map (fun c => (47026247687942121848144207491837523525, c)) [i; K64; 0; i; K64; 0; i; K64; i; K64] /\
  Forall (fun p => (em p, ec p) = (747796405, 2891336453)) (named32 i) /\
  Forall (fun p => (em p, ec p) = (0x5851F42D4C957F2D, 0x14057B7EF767814F)) (named64 i).
Proof. exact named_constants. Qed.
Print Assumptions C97_constants.
