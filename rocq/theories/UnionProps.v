(** Property theorems C77 (unions and Maybe). *)
From Coq Require Import String Ascii ZArith NArith Arith Bool Lia List.
From Verif Require Import Common MplModel UnionModel UnionSpec UnionProofs.
Import ListNotations.
Local Open Scope Z_scope.

(** C77. Used as meant, in both builds, a union makes and destroys the objects one after the other,
    each exactly once, and every access sees the value given last. *)
Theorem C77_used_as_meant : forall checks Ts os, unique Z.eqb Ts = true -> Forall (fun o => In (type_of o) Ts) os ->
  disciplined None os = true -> life checks Ts os = Ok (in_turn (inits os), answers 0 os).
Proof. exact life_good. Qed.
Print Assumptions C77_used_as_meant.
Example C77_used_as_meant_example :
  let os := [Init 7 (inl 1); Get 7; Set_ 7 5; Take 7 0; Get 7; Deinit 7; Init 8 (inl 2); Get 8; Deinit 8] in
  unique Z.eqb [7; 8] = true /\ disciplined None os = true /\
  life false [7; 8] os = Ok ([Made 0; Gone 0; Made 1; Gone 1],
    [Nothing; Value 1; Nothing; Value 5; Value 0; Nothing; Nothing; Value 2; Nothing]).
Proof. repeat split; vm_compute; reflexivity. Qed.

(** C77. With the checks, every other use (wrong type, nothing held, constructed twice, destroyed
    twice, not destroyed at the end) stops at a failed check, as long as no constructor throws. *)
Theorem C77_misuse_caught : forall Ts os, unique Z.eqb Ts = true -> Forall (fun o => In (type_of o) Ts) os ->
  forallb no_throw os = true -> disciplined None os = false -> life true Ts os = failed.
Proof. exact life_bad. Qed.
Print Assumptions C77_misuse_caught.
Example C77_misuse_caught_example :
  let uses := [[Init 7 (inl 1); Get 8; Deinit 7]; [Get 7]; [Init 7 (inl 1); Init 8 (inl 2); Deinit 8];
               [Init 7 (inl 1); Deinit 7; Deinit 7]; [Init 7 (inl 1)]; [Init 7 (inl 1); Deinit 8]] in
  Forall (fun os => forallb no_throw os = true /\ disciplined None os = false /\ life true [7; 8] os = failed) uses.
Proof. repeat constructor. Qed.

(** C77. Expected: the checks catch every misuse. Refuted: when a constructor throws, the union counts
    as holding the object that never came to be. Whatever is done next, nothing included, either fails a
    check or, with every check passed, accesses an object that does not exist. *)
Theorem C77_throwing_constructor_refuted : forall Ts T m, unique Z.eqb Ts = true -> In T Ts ->
  (forall os, Forall (fun o => In (type_of o) Ts) os ->
     life true Ts (Init T (inr m) :: os) = failed \/ life true Ts (Init T (inr m) :: os) = UB) /\
  life true [7; 8] [Init 7 (inr m)] = failed /\
  life true [7; 8] [Init 7 (inr m); Init 7 (inl 1); Deinit 7] = failed /\
  life true [7; 8] [Init 7 (inr m); Deinit 7] = UB.
Proof.
  intros Ts T m U H. split; [intros os F; exact (thrown Ts T m os U H F)|].
  repeat split; vm_compute; reflexivity.
Qed.
Print Assumptions C77_throwing_constructor_refuted.

(** C77. Without the checks, constructing a second object over a first one is not noticed: the first is
    never destroyed. *)
Theorem C77_overwritten_refuted :
  life false [7; 8] [Init 7 (inl 1); Init 8 (inl 2); Deinit 8] =
    Ok ([Made 0; Made 1; Gone 1], [Nothing; Nothing; Nothing]) /\
  life false [7; 8] [Init 7 (inl 1); Get 8; Deinit 7] = UB.
Proof. split; vm_compute; reflexivity. Qed.
Print Assumptions C77_overwritten_refuted.

(** C77. The storage is large enough for each of the types, and suitably aligned (alignments are powers
    of two). *)
Theorem C77_storage : forall sizeof alignof Ts T, (forall x, exists k, alignof x = 2 ^ k /\ 0 <= k) -> In T Ts ->
  sizeof T <= storage_size sizeof Ts /\ (alignof T | storage_align alignof Ts).
Proof. exact storage_fits. Qed.
Print Assumptions C77_storage.
Example C77_storage_example :
  storage_size (fun T => if T =? 7 then 12 else 8) [7; 8] = 12 /\
  storage_align (fun T => if T =? 7 then 4 else 8) [7; 8] = 8.
Proof. split; reflexivity. Qed.

(** C77. The unchecked union for trivial types: every access with the type stored last sees the value
    stored last; any other access is undefined. *)
Theorem C77_pod : forall Ts os, Forall (fun o => In (pod_type o) Ts) os ->
  match pod_answers None os with
  | Some xs => exists u, psteps Ts os (mkUnion 0 None 0) = Ok (u, xs)
  | None => psteps Ts os (mkUnion 0 None 0) = UB
  end.
Proof. intros Ts os F. exact (pod_run Ts os None (mkUnion 0 None 0) F eq_refl). Qed.
Print Assumptions C77_pod.
Example C77_pod_example :
  pod_answers None [PInit 7 1; PGet 7; PInit 8 2; PSet 8 3; PGet 8] = Some [Value 1; Value 3] /\
  pod_answers None [PInit 7 1; PInit 8 2; PGet 7] = None.
Proof. split; reflexivity. Qed.

(** C77. The same for [Maybe], which holds an object or nothing. *)
Theorem C77_maybe : forall checks T os, disciplined None (map (maybe_op T) os) = true ->
  maybe_life checks T os = Ok (in_turn (inits (map (maybe_op T) os)), answers 0 (map (maybe_op T) os)).
Proof. exact maybe_good. Qed.
Print Assumptions C77_maybe.
Example C77_maybe_example :
  disciplined None (map (maybe_op 7) [MInit (inl 4); MGet; MTake 0; MDeinit; MInit (inl 9); MSet 3; MGet; MDeinit]) = true.
Proof. reflexivity. Qed.
