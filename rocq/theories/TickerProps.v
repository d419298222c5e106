(** C39, C40: tickers. *)
From Coq Require Import ZArith NArith Arith Bool Lia List SpecFloat.
From Verif Require Import TickerModel TickerSpec TickerProofs.
Import ListNotations.

(** C39. A running, looping ticker created with a target, updated with any frame times, ticks exactly on
    the updates where the time accumulated since its last tick (or its creation) reaches the target; the
    tick count (modulo 2^64), the total time and the accumulated time follow.  For any arithmetic of
    frame times in which multiplying the given times by [true] changes nothing. *)
Theorem C39_tick_times : forall O tgt l, (forall x, In x l -> fmulb O x true = x) ->
  exists t bs, trun O (map (TUpdate O) l) (new_ticker O tgt true) = (t, map Some bs)
    /\ length bs = length l
    /\ (forall i, i < length l ->
          nth i bs false = negb (flt O (fsum O (skipn (last_tick bs i) (firstn (S i) l))) tgt))
    /\ ticks t = (N.of_nat (count_true bs) mod SIZE_WRAP)%N
    /\ total t = fsum O l
    /\ current t = fsum O (skipn (last_tick bs (length l)) l)
    /\ target t = tgt /\ running t = true /\ loop t = true.
Proof. exact tick_times. Qed.
Print Assumptions C39_tick_times.
Example C39_exact_example :
  trun exact_ft (map (TUpdate exact_ft) [3; 5; 4; 20; 1; 2]%Z) (new_ticker exact_ft 10%Z true)
  = (Build_ticker exact_ft 10%Z 3%Z 35%Z true true 2,
     map Some [false; false; true; true; false; false]).
Proof. vm_compute. reflexivity. Qed.
(** In single precision: ten updates of 0.1f reach a target of 1.f on the tenth, although the sum is not exact. *)
Example C39_float_example :
  let tenth := S754_finite false 13421773 (-27) in
  fmulb float_ft tenth true = tenth /\
  snd (trun float_ft (map (TUpdate float_ft) (repeat tenth 11)) (new_ticker float_ft f32_1 true))
  = map Some (repeat false 9 ++ [true; false]).
Proof. vm_compute. auto. Qed.

(** C39. With a constant frame time [dt] the ticker has ticked [n / ceil(target / dt)] times after [n]
    updates: excess time is not carried over to the next period. *)
Theorem C39_constant_rate : forall tgt dt n, (0 < tgt)%Z -> (0 < dt)%Z ->
  let K := ((tgt + dt - 1) / dt)%Z in
  let t := fst (trun exact_ft (map (TUpdate exact_ft) (repeat dt n)) (new_ticker exact_ft tgt true)) in
  Z.of_N (ticks t) = ((Z.of_nat n / K) mod (Z.of_N SIZE_WRAP))%Z /\ current t = ((Z.of_nat n mod K) * dt)%Z
  /\ total t = (Z.of_nat n * dt)%Z.
Proof. exact constant_rate. Qed.
Print Assumptions C39_constant_rate.
Example C39_constant_example :
  ticks (fst (trun exact_ft (map (TUpdate exact_ft) (repeat 4%Z 100)) (new_ticker exact_ft 10%Z true))) = 33%N.
Proof. vm_compute. reflexivity. Qed.

(** C39. A non-looping ticker with a positive target stops at its tick: any further updates return false
    and change nothing. *)
Theorem C39_one_shot : forall O P t ft t' l, steady O P (ft :: l) -> P (total t) ->
  loop t = false -> flt O (fzero O) (target t) = true -> update O ft t = (t', true) ->
  running t' = false /\ trun O (map (TUpdate O) l) t' = (t', map (fun _ => Some false) l).
Proof. exact one_shot. Qed.
Print Assumptions C39_one_shot.
Example C39_one_shot_example :
  snd (trun exact_ft [TSetLoop exact_ft false; TUpdate exact_ft 6%Z; TUpdate exact_ft 6%Z; TUpdate exact_ft 60%Z; TRestart exact_ft; TUpdate exact_ft 60%Z]
    (new_ticker exact_ft 10%Z true)) = [None; Some false; Some true; Some false; None; Some true].
Proof. vm_compute. reflexivity. Qed.

(** C39. Over any history of calls not resetting the total, the total time is what it was plus the frame
    times of the updates made while running. *)
Theorem C39_total : forall O P ops t, steady O P (times O ops) -> P (total t) ->
  ~ In (TResetTotal O) ops -> ~ In (TResetAll O) ops ->
  total (fst (trun O ops t)) = fold_left (fadd O) (running_times O ops t) (total t).
Proof. exact total_running. Qed.
Print Assumptions C39_total.
Example C39_total_example :
  total (fst (trun exact_ft [TUpdate exact_ft 6%Z; TPause exact_ft; TUpdate exact_ft 7%Z; TResume exact_ft; TUpdate2 exact_ft 8%Z 5%Z; TResetTicks exact_ft]
    (new_ticker exact_ft 10%Z true))) = 14%Z.
Proof. vm_compute. reflexivity. Qed.

(** C39. In single precision what is asked of the frame times holds for all of them that are finite and not negative,
    whatever sums they give, rounded or even infinite; in exact arithmetic for all. *)
Theorem C39_float : forall xs, Forall frame_time xs -> steady float_ft time_sum xs /\ forall x, In x xs -> fmulb float_ft x true = x.
Proof. exact float_times. Qed.
Print Assumptions C39_float.
Theorem C39_exact : forall xs, steady exact_ft (fun _ => True) xs.
Proof. exact exact_steady. Qed.
Print Assumptions C39_exact.
Example C39_float_times_example : Forall frame_time [S754_zero false; S754_finite false 13421773 (-27); S754_finite false 16777215 104].
Proof. repeat constructor. Qed.

(** C40. A stopped ticker with a positive target forgets the time accumulated and nothing else; updates return false
    and change nothing. *)
Theorem C40_stop : forall O P t l, steady O P l -> P (total t) -> flt O (fzero O) (target t) = true ->
  current (stop O t) = fzero O /\ running (stop O t) = false /\ target (stop O t) = target t /\ total (stop O t) = total t /\
  ticks (stop O t) = ticks t /\ loop (stop O t) = loop t /\
  trun O (map (TUpdate O) l) (stop O t) = (stop O t, map (fun _ => Some false) l).
Proof. exact stop_quiet. Qed.
Print Assumptions C40_stop.
(** C40. Pausing a running ticker that is short of its target and resuming it later changes nothing, whatever updates
    come between. *)
Theorem C40_pause_resume : forall O P t l, steady O P l -> P (current t) -> P (total t) -> running t = true -> flt O (current t) (target t) = true ->
  trun O (TPause O :: map (TUpdate O) l ++ [TResume O]) t = (t, None :: map (fun _ => Some false) l ++ [None]).
Proof. exact pause_resume. Qed.
Print Assumptions C40_pause_resume.
(** C40. A restarted ticker ticks as a new one with the same (or the given) target would; resetting everything leaves
    a new one. *)
Theorem C40_restart : forall O t x l,
  snd (trun O (TRestart O :: map (TUpdate O) l) t) = None :: snd (trun O (map (TUpdate O) l) (setLoop O (loop t) (new_ticker O (target t) true))) /\
  snd (trun O (TRestart1 O x :: map (TUpdate O) l) t) = None :: snd (trun O (map (TUpdate O) l) (setLoop O (loop t) (new_ticker O x true))) /\
  fst (trun O [TResetAll O] t) = setLoop O (loop t) (new_ticker O (target t) (running t)).
Proof. exact restart_fresh. Qed.
Print Assumptions C40_restart.
Example C40_stop_example :
  let t := fst (trun exact_ft [TUpdate exact_ft 14%Z; TUpdate exact_ft 6%Z; TStop exact_ft] (new_ticker exact_ft 10%Z true)) in
  t = Build_ticker exact_ft 10%Z 0%Z 20%Z false true 1 /\
  snd (trun exact_ft (map (TUpdate exact_ft) [50; 50]%Z ++ [TRestart exact_ft; TUpdate exact_ft 9%Z; TUpdate exact_ft 1%Z]) t) = [Some false; Some false; None; Some false; Some true].
Proof. vm_compute. auto. Qed.

(** C40. What an update of a ticker that is not running does: the total never moves, and nothing at all
    changes unless the accumulated time had already reached the target, in which case it ticks. *)
Theorem C40_paused_update : forall O t ft, running t = false ->
  fadd O (current t) (fmulb O ft false) = current t -> fadd O (total t) (fmulb O ft false) = total t ->
  let '(t', b) := update O ft t in
  total t' = total t /\ target t' = target t /\ loop t' = loop t
  /\ b = negb (flt O (current t) (target t))
  /\ (b = false -> t' = t)
  /\ (b = true -> current t' = fzero O /\ running t' = loop t /\ ticks t' = ((ticks t + 1) mod SIZE_WRAP)%N).
Proof. exact paused_update. Qed.
Print Assumptions C40_paused_update.
Example C40_paused_example :
  let t := fst (trun exact_ft [TUpdate exact_ft 6%Z; TPause exact_ft] (new_ticker exact_ft 10%Z true)) in
  running t = false /\ update exact_ft 100%Z t = (t, false).
Proof. vm_compute. auto. Qed.

(** C40, refuted: "a paused ticker never ticks and stays paused".  Lowering the target of a paused ticker
    below its accumulated time makes it tick and run again. *)
Theorem C40_paused_silent_refuted : exists t : ticker exact_ft,
  t = fst (trun exact_ft [TUpdate exact_ft 5%Z; TPause exact_ft] (new_ticker exact_ft 10%Z true))
  /\ running t = false
  /\ let '(t', b) := update2 exact_ft 1%Z 3%Z t in b = true /\ running t' = true.
Proof. eexists. split; [reflexivity|]. vm_compute. auto. Qed.
Print Assumptions C40_paused_silent_refuted.

(** C40, refuted: a stopped non-looping ticker whose target is not positive ticks on every update. *)
Theorem C40_stopped_zero_target_refuted : forall (l : list Z) (t : ticker exact_ft),
  running t = false -> loop t = false -> current t = 0%Z -> (target t <= 0)%Z ->
  snd (trun exact_ft (map (TUpdate exact_ft) l) t) = map (fun _ => Some true) l.
Proof. exact zero_target_ticks. Qed.
Print Assumptions C40_stopped_zero_target_refuted.
Example C40_stopped_zero_target_example :
  let t := fst (trun exact_ft [TSetLoop exact_ft false; TStop exact_ft] (new_ticker exact_ft 0%Z true)) in
  running t = false /\ loop t = false /\ current t = 0%Z /\ (target t <= 0)%Z.
Proof. vm_compute. repeat split; auto; discriminate. Qed.
