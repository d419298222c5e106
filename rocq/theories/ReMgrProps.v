(** C113: managers whose objects' constructors and destructors use them. *)
From Coq Require Import Arith Bool Lia List Permutation.
From Verif Require Import Common ReMgrModel ReMgrSpec ReMgrProofs.
Import ListNotations.

(** Whatever constructors and destructors do, nothing is destroyed twice, shown after its destruction or shown twice. *)
Theorem C113_sound : forall script ops s, run script ops fresh = Ok s ->
  exists L, shown s = map Some L /\ length L = vis s /\ NoDup L /\ (exists R, listed s = L ++ R) /\ NoDup (listed s) /\
    NoDup (log s) /\ forall id, In id (listed s) -> ~ In id (log s).
Proof. exact sound. Qed.
Print Assumptions C113_sound.

(** Every call ends. *)
Theorem C113_ends : forall script ops s o, run script ops fresh = Ok s ->
  (exists s', step script o s = Ok s') \/ step script o s = UB.
Proof. exact ends. Qed.
Print Assumptions C113_ends.

(** A refresh destroys, once each, the deleted objects and some that destructors it runs delete; such a one that is left
    stays deleted; in a debug build none is left. *)
Theorem C113_refresh : forall script debug ops s s', run script ops fresh = Ok s -> refresh script debug s = Ok s' ->
  exists D, log s' = log s ++ D /\ Permutation (listed s) (listed s' ++ D) /\ shown s' = map Some (listed s') /\
    (forall id, In id (listed s) -> deleted s id -> In id D) /\ (forall id, In id D -> doomed script s id) /\
    (forall id, In id (listed s') -> deleted s' id -> exists j, In j D /\ deletes_one_of id (script j)) /\
    (forall j k, In j D -> deletes_one_of k (script j) -> In k (listed s') -> deleted s' k) /\
    (debug = true -> Forall (living s') (listed s')).
Proof. exact (fun script debug ops s s' R => refresh_spec script debug s s' (reach script ops s R)). Qed.
Print Assumptions C113_refresh.

(** An object that a destructor creates during a refresh is never shown and never destroyed, whatever follows. *)
Theorem C113_lost : forall script debug ops s s' ops' s'' id, run script ops fresh = Ok s -> refresh script debug s = Ok s' ->
  length (objs s) <= id -> id < length (objs s') -> run script ops' s' = Ok s'' ->
  ~ In (Some id) (shown s'') /\ ~ In id (log s'') /\ exists_in s'' id.
Proof. exact lost. Qed.
Print Assumptions C113_lost.

(** Owners: destructors that only delete, each object deleted by one destructor at most and in use as long as its owner.
    As many refreshes as there are objects destroy exactly the doomed ones and leave none deleted. *)
Theorem C113_cascade : forall script, (forall id, only_deletes (script id)) -> forall ops s, run script ops fresh = Ok s -> owned_once script s ->
  exists s' D, refreshes script (length (listed s)) s = Ok s' /\ log s' = log s ++ D /\ Permutation (listed s) (listed s' ++ D) /\
    Forall (living s') (listed s') /\ forall id, In id D <-> doomed script s id.
Proof. exact cascade. Qed.
Print Assumptions C113_cascade.

(** Destructors that only delete: destroying everything works, in the order of the slots, exactly when no destructor
    deletes an object that is gone or comes before its own. *)
Theorem C113_clear : forall script, (forall id, only_deletes (script id)) -> forall ops s, run script ops fresh = Ok s ->
  let in_order := forall A id B, listed s = A ++ id :: B -> forall k, In (ADel k) (script id) -> exists_in s k /\ ~ In k A in
  (in_order -> exists s', clear script s = Ok s' /\ log s' = log s ++ listed s /\ shown s' = []) /\ (~ in_order -> clear script s = UB).
Proof. exact clear_order. Qed.
Print Assumptions C113_clear.

(** In any case, destroying everything also destroys, last, what destructors create meanwhile. *)
Theorem C113_clear_all : forall script ops s s', run script ops fresh = Ok s -> clear script s = Ok s' ->
  exists E, log s' = log s ++ listed s ++ E /\ forall id, In id E <-> length (objs s) <= id /\ id < length (objs s').
Proof. exact clear_everything. Qed.
Print Assumptions C113_clear_all.

(** When every destructor creates an object, a manager that holds any cannot be emptied. *)
Theorem C113_clear_creating : forall script ops s, (forall id, creates (script id)) -> run script ops fresh = Ok s -> listed s <> [] ->
  clear script s = UB.
Proof. exact clear_creating. Qed.
Print Assumptions C113_clear_creating.

(** Constructors that create: always fine; the new objects come last, each after those its constructor creates. *)
Theorem C113_constructor : forall script ops s l, run script ops fresh = Ok s -> (forall k, ~ deletes_one_of k l) ->
  exists s', step script (OMake l) s = Ok s' /\ listed s' = listed s ++ fst (born (ANew l) (length (objs s))) /\ log s' = log s /\ shown s' = shown s /\
    (exists m, objs s' = objs s ++ repeat (There true) m) /\ length (objs s') = snd (born (ANew l) (length (objs s))).
Proof. exact constructor_ok. Qed.
Print Assumptions C113_constructor.

(** ** Where it goes wrong *)

(** The destructor of object 0 deletes object 1 ... *)
Definition owner0 (id : nat) : list act := match id with 0 => [ADel 1] | _ => [] end.
(** ... and both are deleted: the refresh destroys 1 first, and 0 then writes into it. *)
Theorem C113_both_deleted_refuted : exists s, run owner0 [OMake []; OMake []; ODel 0; ODel 1] fresh = Ok s /\
  doomed owner0 s 0 /\ doomed owner0 s 1 /\ refresh owner0 false s = UB.
Proof.
  exists {| slots := [Some 0; Some 1] ++ repeat None 23; objs := [There false; There false]; vis := 0; next := 2; cap := 25; log := [] |}.
  split; [reflexivity|]. split; [apply doomed_now; [left; reflexivity|reflexivity]|]. split; [apply doomed_now; [right; left; reflexivity|reflexivity]|reflexivity].
Qed.
Print Assumptions C113_both_deleted_refuted.

Definition owner1 (id : nat) : list act := match id with 1 => [ADel 2] | _ => [] end.
(** Deleting an unrelated object moves 2 before its owner 1: emptying the manager is UB, without that it is not. *)
Theorem C113_order_refuted :
  (exists s, run owner1 [OMake []; OMake []; OMake []; ORefresh true; OClear] fresh = Ok s /\ log s = [0; 1; 2]) /\
  run owner1 [OMake []; OMake []; OMake []; ODel 0; ORefresh true; OClear] fresh = UB.
Proof.
  split; [|vm_compute; reflexivity].
  exists {| slots := repeat None 25; objs := [Gone; Gone; Gone]; vis := 0; next := 0; cap := 25; log := [0; 1; 2] |}. split; reflexivity.
Qed.
Print Assumptions C113_order_refuted.

Definition owns_before (id : nat) : list act := match id with 1 => [ADel 0] | _ => [] end.
(** A destructor that deletes an object the refresh has passed: it is shown although deleted, and the debug build stops. *)
Theorem C113_debug_refuted :
  (exists s, run owns_before [OMake []; OMake []; ODel 1; ORefresh false] fresh = Ok s /\ shown s = [Some 0] /\ deleted s 0) /\
  run owns_before [OMake []; OMake []; ODel 1; ORefresh true] fresh = UB.
Proof.
  split; [|vm_compute; reflexivity].
  exists {| slots := Some 0 :: repeat None 24; objs := [There false; Gone]; vis := 1; next := 1; cap := 25; log := [1] |}. repeat split; reflexivity.
Qed.
Print Assumptions C113_debug_refuted.

Definition spawner (id : nat) : list act := match id with 0 => [ANew []] | _ => [] end.
(** A destructor that creates an object when the slots are full; with one object less it works, and the new one is lost. *)
Theorem C113_full_refuted :
  run spawner (repeat (OMake []) 25 ++ [ODel 0; ORefresh true]) fresh = UB /\
  exists s, run spawner (repeat (OMake []) 24 ++ [ODel 0; ORefresh true; OClear]) fresh = Ok s /\ length (log s) = 24 /\ living s 24 /\ listed s = [].
Proof.
  split; [vm_compute; reflexivity|].
  exists {| slots := repeat None 24 ++ [Some 24]; objs := repeat Gone 24 ++ [There true]; vis := 0; next := 0; cap := 25; log := [0; 23] ++ seq 1 22 |}.
  split; [vm_compute; reflexivity|]. repeat split; reflexivity.
Qed.
Print Assumptions C113_full_refuted.

(** ** A case: 0 owns 1 and 3, 1 owns 2; 4 stands alone.  Deleting 0 dooms 0 to 3. *)
Definition tree (id : nat) : list act := match id with 0 => [ADel 1; ADel 3] | 1 => [ADel 2] | _ => [] end.
Example C113_case_forest : exists s, run tree [OMake []; OMake []; OMake []; OMake []; OMake []; ORefresh true; ODel 0] fresh = Ok s /\
  (forall id, only_deletes (tree id)) /\ owned_once tree s /\ doomed tree s 2 /\ ~ doomed tree s 4.
Proof.
  exists {| slots := [Some 0; Some 1; Some 2; Some 3; Some 4] ++ repeat None 20; objs := [There false; There true; There true; There true; There true]; vis := 5; next := 5; cap := 25; log := [] |}.
  split; [vm_compute; reflexivity|]. split; [|split; [split|split]].
  - intros [|[|id]] a; cbn; intros H; repeat destruct H as [<-|H]; eauto; destruct H.
  - intros [|[|i]] [|[|j]] k; cbn; intros H1 H2; try reflexivity; exfalso; repeat match goal with H : _ \/ _ |- _ => destruct H | H : False |- _ => destruct H end; congruence.
  - intros i k _ H. right. destruct i as [|[|i]]; cbn in H; repeat destruct H as [H|H]; try injection H as <-; try reflexivity; destruct H.
  - apply (doomed_then _ _ 1); [apply (doomed_then _ _ 0); [apply doomed_now; [left; reflexivity|reflexivity]|exists (ADel 1); cbn; split; [auto|constructor]|cbn; auto]|exists (ADel 2); cbn; split; [auto|constructor]|cbn; auto].
  - intros H. inversion H as [id H1 H2|id k H1 (a & Ha & Hk) H3]; subst; [discriminate|]. destruct id as [|[|id]]; cbn in Ha; repeat destruct Ha as [<-|Ha]; try (inversion Hk; fail); destruct Ha.
Qed.
Example C113_case_runs :
  obind (run tree [OMake []; OMake []; OMake []; OMake []; OMake []; ORefresh true; ODel 0; ORefresh false] fresh) (fun s => Ok (log s, shown s)) = Ok ([0; 3; 1], [Some 4; Some 2]) /\
  obind (run tree [OMake []; OMake []; OMake []; OMake []; OMake []; ORefresh true; ODel 0; ORefresh false; ORefresh false] fresh) (fun s => Ok (log s, shown s)) = Ok ([0; 3; 1; 2], [Some 4]).
Proof. vm_compute. split; reflexivity. Qed.
(** Constructors that create: 0 creates 1 (which creates 2) and 3; the manager shows 2, 1, 3, 0. *)
Example C113_case_constructor : obind (run spawner [OMake [ANew [ANew []]; ANew []]; ORefresh true] fresh) (fun s => Ok (shown s)) = Ok [Some 2; Some 1; Some 3; Some 0].
Proof. vm_compute. reflexivity. Qed.
