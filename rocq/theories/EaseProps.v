(** Easing curves: the property theorems (C68, C69), in exact rational arithmetic. [LR] is the evaluation
    order in which an assignment inside a product is seen by the operands on its right; C68_order_refuted
    shows that the results depend on it. *)
From Coq Require Import ZArith QArith Qabs Bool List.
From Verif Require Import Common EaseModel EaseSpec EaseProofs.
Local Open Scope Q_scope.

(** C68. The three kinds of every family follow its shape, at every time (inside the duration or not). *)
Theorem C68_in : forall k t b c d, ~ d == 0 -> is_num (ease_in k LR t b c d) (eased_in (shape_of k) t b c d).
Proof. exact in_spec. Qed.
Print Assumptions C68_in.
Theorem C68_out : forall k t b c d, ~ d == 0 -> is_num (ease_out k LR t b c d) (eased_out (shape_of k) t b c d).
Proof. exact out_spec. Qed.
Print Assumptions C68_out.
Theorem C68_inOut : forall k t b c d, k <> Cubic -> 0 < d ->
  num_with (ease_inOut k LR t b c d) (eased_inOut (inOut_shape_of k) t b c d).
Proof. exact inOut_spec. Qed.
Print Assumptions C68_inOut.
Example C68_example :
  is_num (ease_in Quad LR 3 10 8 6) 12 /\ is_num (ease_out Quint LR 1 0 32 2) 31 /\
  is_num (ease_inOut Quart LR 3 100 16 4) (231 # 2) /\ is_num (ease_out Bounce LR 1 0 1 2) (49 # 64).
Proof. repeat split; eexists; (split; [vm_compute; reflexivity|vm_compute; reflexivity]). Qed.

(** C68. A zero duration is a violated assertion, for every curve. *)
Theorem C68_zero_duration : forall k o t b c d, d == 0 ->
  ease_in k o t b c d = UB /\ ease_out k o t b c d = UB /\ ease_inOut k o t b c d = UB.
Proof. exact zero_ub. Qed.
Print Assumptions C68_zero_duration.
Example C68_zero_duration_example : (0 # 7) == 0 /\ ease_in Bounce LR 1 1 1 (0 # 7) = UB.
Proof. split; reflexivity. Qed.

(** C68. The curves start at the start value and end at start plus change. *)
Theorem C68_ends : forall k b c d, 0 < d ->
  is_num (ease_in k LR 0 b c d) b /\ is_num (ease_in k LR d b c d) (b + c) /\
  is_num (ease_out k LR 0 b c d) b /\ is_num (ease_out k LR d b c d) (b + c) /\
  is_num (ease_inOut k LR 0 b c d) b /\ (k <> Cubic -> is_num (ease_inOut k LR d b c d) (b + c)).
Proof. exact all_ends. Qed.
Print Assumptions C68_ends.
Example C68_ends_example : is_num (ease_in Back LR 0 5 7 3) 5 /\ is_num (ease_in Back LR 3 5 7 3) 12.
Proof. split; eexists; (split; [vm_compute; reflexivity|vm_compute; reflexivity]). Qed.

(** C68. Out is the point reflection of in, and inOut of itself. *)
Theorem C68_reflection : forall k t b c d, ~ d == 0 -> exists x y, ease_in k LR (d - t) b c d = Ok x /\
  ease_out k LR t b c d = Ok y /\ x + y == 2 * b + c.
Proof. exact reflected. Qed.
Print Assumptions C68_reflection.
Theorem C68_inOut_reflection : forall k t b c d, k <> Cubic -> 0 < d -> exists x y, ease_inOut k LR (d - t) b c d = Ok x /\
  ease_inOut k LR t b c d = Ok y /\ x + y == 2 * b + c.
Proof. exact inOut_reflected. Qed.
Print Assumptions C68_inOut_reflection.
Example C68_reflection_example : is_num (ease_in Cubic LR 1 0 8 2) 1 /\ is_num (ease_out Cubic LR 1 0 8 2) 7.
Proof. split; eexists; (split; [vm_compute; reflexivity|vm_compute; reflexivity]). Qed.

(** C68. The power curves never go back. *)
Theorem C68_steady : forall k t t' b c d, k = Linear \/ k = Quad \/ k = Cubic \/ k = Quart \/ k = Quint ->
  0 <= c -> 0 <= t -> t <= t' -> t' <= d -> 0 < d ->
  (forall x x', ease_in k LR t b c d = Ok x -> ease_in k LR t' b c d = Ok x' -> x <= x') /\
  (forall x x', ease_out k LR t b c d = Ok x -> ease_out k LR t' b c d = Ok x' -> x <= x') /\
  (k <> Cubic -> forall x x', ease_inOut k LR t b c d = Ok x -> ease_inOut k LR t' b c d = Ok x' -> x <= x').
Proof. exact all_steady. Qed.
Print Assumptions C68_steady.
(** C68. Bounce stays between the start and the end. *)
Theorem C68_bounce_inside : forall t b c d, 0 <= c -> 0 <= t -> t <= d -> 0 < d ->
  (forall x, ease_in Bounce LR t b c d = Ok x -> b <= x <= b + c) /\
  (forall x, ease_out Bounce LR t b c d = Ok x -> b <= x <= b + c) /\
  (forall x, ease_inOut Bounce LR t b c d = Ok x -> b <= x <= b + c).
Proof. exact bounce_bounded. Qed.
Print Assumptions C68_bounce_inside.
(** C68. Bounce makes no jump: close times give close values. *)
Theorem C68_bounce_no_jump : forall t t' b c d x x', 0 <= c -> 0 <= t -> t <= t' -> t' <= d -> 0 < d ->
  ease_out Bounce LR t b c d = Ok x -> ease_out Bounce LR t' b c d = Ok x' ->
  Qabs (x' - x) <= (11 # 2) * c * ((t' - t) / d).
Proof. exact bounce_no_jump. Qed.
Print Assumptions C68_bounce_no_jump.
(** C68. Back does leave the range: it is below the start during the first 63 percent of the time. *)
Theorem C68_back_undershoots : forall t b c d, 0 < c -> 0 < d -> 0 < t -> t / d < 170158 # 270158 ->
  exists x, ease_in Back LR t b c d = Ok x /\ x < b.
Proof. exact back_undershoots. Qed.
Print Assumptions C68_back_undershoots.
Example C68_steady_example : is_num (ease_in Quad LR 1 0 9 3) 1 /\ is_num (ease_in Quad LR 2 0 9 3) 4 /\
  is_num (ease_in Back LR 1 0 1 2) (- (70158 # 800000)).
Proof. repeat split; eexists; (split; [vm_compute; reflexivity|vm_compute; reflexivity]). Qed.

(** C68, finding: Cubic's inOut is right in its first half only. Its second half follows another polynomial
    and always ends at start plus 2, whatever the change. *)
Theorem C68_cubic_inOut : forall o t b c d, ~ d == 0 ->
  (t / d < 1 # 2 -> is_num (ease_inOut Cubic o t b c d) (b + c * (power 3 (2 * (t / d)) / 2))) /\
  (1 # 2 <= t / d -> is_num (ease_inOut Cubic o t b c d) (b + 2 + c * (t / d) * (2 * (1 - t / d)) ^ 2)) /\
  is_num (ease_inOut Cubic o d b c d) (b + 2).
Proof. exact (fun o t b c d N => conj (cubic_inOut_first o t b c d N) (conj (cubic_inOut_second o t b c d N) (cubic_end o b c d N))). Qed.
Print Assumptions C68_cubic_inOut.
Theorem C68_cubic_inOut_refuted : exists b c d x, 0 < d /\ ease_inOut Cubic LR d b c d = Ok x /\ ~ x == b + c.
Proof. exists 0, 1, 1. eexists. split; [reflexivity|]. split; [reflexivity|]. vm_compute. discriminate. Qed.
Print Assumptions C68_cubic_inOut_refuted.

(** C68, finding: all curves that assign and read the time in one product give different values under the
    other order of evaluation; and for Circ's inOut it is [LR] that gives the unintended number under the
    root (at half time it should be 1 - 1 * 1 = 0), so no order suits all of them. *)
Theorem C68_order_refuted :
  (forall k, In k (Quad :: Cubic :: Quart :: Quint :: nil) ->
    exists x y, ease_in k LR 1 0 1 2 = Ok x /\ ease_in k RL 1 0 1 2 = Ok y /\ ~ x == y) /\
  (forall k, In k (Quad :: Cubic :: Quart :: Quint :: Back :: nil) ->
    exists x y, ease_out k LR 1 0 1 2 = Ok x /\ ease_out k RL 1 0 1 2 = Ok y /\ ~ x == y) /\
  (forall k, In k (Quad :: Quart :: Quint :: Back :: nil) ->
    exists x y, ease_inOut k LR (3 # 2) 0 1 2 = Ok x /\ ease_inOut k RL (3 # 2) 0 1 2 = Ok y /\ ~ x == y) /\
  (forall d, ~ d == 0 -> circ_radicand RL (d / 2) d == 0 /\ circ_radicand LR (d / 2) d == 2).
Proof. exact order_matters. Qed.
Print Assumptions C68_order_refuted.

(** C69. Mapping follows the curve over the distance from the lower end of the input range - if that is 0. *)
Theorem C69_map_from_zero : forall k i imin imax omin omax, imin == 0 -> 0 < imax - imin ->
  is_num (getMapEased (ease_in k) LR i imin imax omin omax) (eased_in (shape_of k) (i - imin) omin (omax - omin) (imax - imin)) /\
  is_num (getMapEased (ease_out k) LR i imin imax omin omax) (eased_out (shape_of k) (i - imin) omin (omax - omin) (imax - imin)) /\
  (k <> Cubic -> num_with (getMapEased (ease_inOut k) LR i imin imax omin omax)
    (eased_inOut (inOut_shape_of k) (i - imin) omin (omax - omin) (imax - imin))).
Proof. exact map_zero. Qed.
Print Assumptions C69_map_from_zero.
Example C69_example : is_num (getMapEased (ease_in Quad) LR 2 0 4 10 26) 14.
Proof. eexists. split; vm_compute; reflexivity. Qed.

(** C69, finding: otherwise it does not: the linear map sends the lower end to the lower end only if the input
    range starts at 0 or the output range is a point, and every other curve goes wrong on 1..2 to 0..1. *)
Theorem C69_map_shifted : forall o imin imax omin omax, ~ imax - imin == 0 ->
  (is_num (getMapEased (ease_in Linear) o imin imin imax omin omax) omin <-> imin == 0 \/ omin == omax).
Proof. exact map_linear_start. Qed.
Print Assumptions C69_map_shifted.
Theorem C69_map_refuted : forall k, exists x, getMapEased (ease_in k) LR 1 1 2 0 1 = Ok x /\ ~ x == 0.
Proof. exact map_shifted_wrong. Qed.
Print Assumptions C69_map_refuted.
Theorem C69_eased_refuted : forall k, exists x, getEased (ease_in k) LR 1 1 2 = Ok x /\ ~ x == 1.
Proof. exact eased_shifted_wrong. Qed.
Print Assumptions C69_eased_refuted.
