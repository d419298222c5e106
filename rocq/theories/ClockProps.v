(** C107: tickers and timelines with frame times in single precision. *)
From Coq Require Import ZArith NArith Arith Bool Lia List QArith Qabs.
From Coq Require Import Floats.SpecFloat.
From Verif Require Import Common RealSpec FltSpec AngleSpec TickerModel TickerSpec TimelineModel ClockModel ClockSpec.
From Verif Require ClockProofs ClockStuckProofs ClockLineProofs.
Import ListNotations.
Local Open Scope Z_scope.

(** C107. Times that are whole multiples of one power of two - frames, say, or 1024ths of one - are counted exactly as
    long as the frame times add up to at most 2^24 units: any history of calls returns what it would return in exact
    arithmetic and leaves the ticker in the same state. *)
Theorem C107_ticker_exact : forall k ops zops f z r, -149 <= k <= 103 -> Forall2 (same_call k) ops zops -> units k f z -> zsum (times exact_ft zops) <= 2 ^ 24 ->
  snd (trun float_ft ops (new_ticker float_ft f r)) = snd (trun exact_ft zops (new_ticker exact_ft z r)) /\
  same_ticker k (fst (trun float_ft ops (new_ticker float_ft f r))) (fst (trun exact_ft zops (new_ticker exact_ft z r))).
Proof. exact ClockProofs.ticker_same. Qed.
Print Assumptions C107_ticker_exact.
(** Frames of 1/2 and 3/4 against a target of 2, in quarters. *)
Example C107_ticker_exact_example :
  let half := S754_finite false 8388608 (-24) in let three := S754_finite false 12582912 (-24) in let two := S754_finite false 8388608 (-22) in
  let ops := [TUpdate float_ft half; TUpdate float_ft three; TPause float_ft; TUpdate float_ft half; TResume float_ft; TUpdate float_ft three; TUpdate float_ft half] in
  let zops := [TUpdate exact_ft 2; TUpdate exact_ft 3; TPause exact_ft; TUpdate exact_ft 2; TResume exact_ft; TUpdate exact_ft 3; TUpdate exact_ft 2] in
  Forall2 (same_call (-2)) ops zops /\ units (-2) two 8 /\ zsum (times exact_ft zops) <= 2 ^ 24 /\
  snd (trun float_ft ops (new_ticker float_ft two true)) = [Some false; Some false; None; Some false; None; Some true; Some false].
Proof.
  split; [repeat constructor; try lia; vm_compute; reflexivity|]. split; [split; vm_compute; reflexivity|]. split; [vm_compute; discriminate|vm_compute; reflexivity].
Qed.

(** C107. The same for timelines: with waits and frame times of at most 2^24 units, every history of calls - commands
    added, updates, jumps, resets, whatever the actions call and the predicates answer - ends as in exact arithmetic,
    with the same visible history. *)
Theorem C107_timeline_exact : forall k (pf : nat -> list (event spec_float) -> bool) (pz : nat -> list (event Z) -> bool) fuel ops zops st,
  -149 <= k <= 103 -> (forall p hf hz, Forall2 (same_event k) hf hz -> pf p hf = pz p hz) -> Forall2 (same_op k) ops zops ->
  same_outcome (same_timeline k) (run float_wt pf fuel ops (new_timeline float_wt st)) (run exact_wt pz fuel zops (new_timeline exact_wt st)).
Proof. exact (fun k pf pz fuel ops zops st Hk Hp => ClockLineProofs.timeline_same k Hk pf pz Hp fuel ops zops st). Qed.
Print Assumptions C107_timeline_exact.
(** A wait of one and a half, then an action, with frames of 3/4. *)
Example C107_timeline_exact_example :
  let three := S754_finite false 12582912 (-24) in let six := S754_finite false 12582912 (-23) in
  let ops := [OAppend (Wait (O := float_wt) six); OAppend (Do 7); OUpdate (O := float_wt) three; OUpdate (O := float_wt) three; OUpdate (O := float_wt) three] in
  let zops := [OAppend (Wait (O := exact_wt) 6); OAppend (Do 7); OUpdate (O := exact_wt) 3; OUpdate (O := exact_wt) 3; OUpdate (O := exact_wt) 3] in
  Forall2 (same_op (-2)) ops zops /\
  exists s, run exact_wt (fun _ _ => false) 9 zops (new_timeline exact_wt true) = Ok s /\ log s = [EFrame 3; EFrame 3; EFrame 3; EDo 7%nat] /\ finished s = true.
Proof.
  split; [repeat (constructor; unfold few; try lia); vm_compute; reflexivity|]. eexists. split; [vm_compute; reflexivity|]. split; reflexivity.
Qed.

(** C107. Frame times of any size: as long as everything fits into 2^24 units of 2^k, each update is off by at most half
    a unit, so the total after [n] updates is within [n] half units of the exact sum. *)
Theorem C107_total_error : forall k f l ps, -149 <= k <= 103 -> Forall2 float_is l ps -> Forall (fun p => 0 <= p)%Q ps ->
  (let off := inject_Z (Z.of_nat (length ps)) * times_pow 2 1 (k - 1) in
   qsum ps + off <= times_pow 2 (2 ^ 24) k ->
   exists q, float_is (total (fst (trun float_ft (map (TUpdate float_ft) l) (new_ticker float_ft f true)))) q /\ Qabs (q - qsum ps) <= off)%Q.
Proof. exact ClockStuckProofs.total_error. Qed.
Print Assumptions C107_total_error.
(** C107. Ticks come when they should, up to that error: an update that ticks has the exact time since the last tick at
    the target or short of it by at most the error, one that does not has less than the target plus the error. *)
Theorem C107_ticks_near : forall k f T l ps, -149 <= k <= 103 -> float_is f T -> Forall2 float_is l ps -> Forall (fun p => 0 <= p)%Q ps ->
  (let u := times_pow 2 1 (k - 1) in
   qsum ps + inject_Z (Z.of_nat (length ps)) * u <= times_pow 2 (2 ^ 24) k ->
   exists t bs, trun float_ft (map (TUpdate float_ft) l) (new_ticker float_ft f true) = (t, map Some bs) /\ length bs = length l /\
     forall i, (i < length l)%nat -> let since := skipn (last_tick bs i) (firstn (S i) ps) in let off := inject_Z (Z.of_nat (length since)) * u in
       (nth i bs false = true -> T - off <= qsum since) /\ (nth i bs false = false -> qsum since < T + off))%Q.
Proof. exact ClockStuckProofs.ticks_near. Qed.
Print Assumptions C107_ticks_near.
(** Twelve frames of 0.1f and a target of 1: units of 2^-23. *)
Example C107_error_example :
  let tenth := S754_finite false 13421773 (-27) in let p := times_pow 2 13421773 (-27) in
  Forall2 float_is (repeat tenth 12) (repeat p 12) /\ Forall (fun p => 0 <= p)%Q (repeat p 12) /\
  (qsum (repeat p 12) + inject_Z (Z.of_nat 12) * times_pow 2 1 (-23 - 1) <= times_pow 2 (2 ^ 24) (-23))%Q /\
  snd (trun float_ft (map (TUpdate float_ft) (repeat tenth 12)) (new_ticker float_ft f32_1 true)) = map Some (repeat false 9 ++ [true; false; false]) /\
  total (fst (trun float_ft (map (TUpdate float_ft) (repeat tenth 12)) (new_ticker float_ft f32_1 true))) = S754_finite false 10066331 (-23).
Proof.
  split; [repeat constructor; vm_compute; reflexivity|]. split; [repeat constructor; vm_compute; discriminate|]. split; [vm_compute; discriminate|]. split; vm_compute; reflexivity.
Qed.

(** C107, refuted: "the total time goes on growing".  Whatever the calls, with frame times of at most [B] neither the
    total nor the time since the last tick ever exceeds 2^25 times [B]. *)
Theorem C107_total_stops_refuted : forall B ops f r, is_float B -> (0 < B)%Q -> (B < times_pow 2 1 102)%Q -> Forall (frame_upto B) (times float_ft ops) ->
  let t := fst (trun float_ft ops (new_ticker float_ft f r)) in
  (exists p, float_is (total t) p /\ 0 <= p <= inject_Z (2 ^ 25) * B)%Q /\ (exists p, float_is (current t) p /\ 0 <= p <= inject_Z (2 ^ 25) * B)%Q.
Proof. exact ClockStuckProofs.total_upto. Qed.
Print Assumptions C107_total_stops_refuted.
(** C107, refuted: a ticker counting one unit per update counts to 2^24 and stays there. *)
Theorem C107_count_stops_refuted : forall f n,
  units 0 (total (fst (trun float_ft (repeat (TUpdate float_ft f32_1) n) (new_ticker float_ft f true)))) (Z.min (Z.of_nat n) (2 ^ 24)).
Proof. exact ClockStuckProofs.count_stops. Qed.
Print Assumptions C107_count_stops_refuted.
(** C107, refuted: "a running ticker ticks sooner or later".  With a target beyond 2^25 times the frame times it never
    does. *)
Theorem C107_never_ticks_refuted : forall B l f T, is_float B -> (0 < B)%Q -> (B < times_pow 2 1 102)%Q -> Forall (frame_upto B) l -> float_is f T ->
  (inject_Z (2 ^ 25) * B < T)%Q ->
  snd (trun float_ft (map (TUpdate float_ft) l) (new_ticker float_ft f true)) = map (fun _ => Some false) l.
Proof. exact ClockStuckProofs.never_ticks. Qed.
Print Assumptions C107_never_ticks_refuted.
(** C107, refuted: "a wait ends sooner or later".  A wait of 2^26 frame times or more never does: however many updates,
    nothing behind it happens. *)
Theorem C107_wait_never_ends_refuted : forall pf fuel w W B l fts, float_is w W -> (0 < W)%Q -> (inject_Z (2 ^ 26) * B <= W)%Q -> Forall (frame_upto B) fts ->
  exists s, run float_wt pf (S fuel) (map OAppend (Wait (O := float_wt) w :: l) ++ map (fun x => OUpdate (O := float_wt) x) fts) (new_timeline float_wt true) = Ok s /\
    getCurrentIndex s = 0 /\ finished s = false /\ log s = map EFrame fts.
Proof. exact ClockLineProofs.wait_stuck. Qed.
Print Assumptions C107_wait_never_ends_refuted.
(** Frames of one unit, a target and a wait of 2^26. *)
Example C107_stops_example :
  let long := S754_finite false 8388608 3 in
  is_float 1%Q /\ (1 < times_pow 2 1 102)%Q /\ Forall (frame_upto 1%Q) (repeat f32_1 5) /\ float_is long (times_pow 2 1 26) /\
  (inject_Z (2 ^ 25) * 1 < times_pow 2 1 26)%Q /\ (inject_Z (2 ^ 26) * 1 <= times_pow 2 1 26)%Q.
Proof.
  split; [exists 1, 0; split; [lia|reflexivity]|]. split; [vm_compute; reflexivity|]. split.
  - repeat constructor; exists 1%Q; (split; [split; vm_compute; reflexivity|split; vm_compute; discriminate]).
  - split; [split; vm_compute; reflexivity|]. split; [vm_compute; reflexivity|vm_compute; discriminate].
Qed.
