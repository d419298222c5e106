(** Property theorems C114 (loops over a manager whose bodies use it; TimelineManager::update). *)
From Coq Require Import Arith Bool List Permutation.
From Verif Require Import Common ReMgrModel ReMgrSpec IterModel IterSpec IterProofs.
Import ListNotations.

(** C114.  In every state a manager can reach, a loop over it whose body creates objects, deletes objects that are there and
    uses [t]: the behaviour is defined exactly if, at every use of [t], the objects created since [t] was bound had room in
    the slots there were then.  It then runs for every object shown before, once each and in order, [t] being that object at
    every use; the objects created are listed behind the others and are not shown, those deleted stay until the next
    refresh, and nothing is destroyed. *)
Theorem C114_iterate : forall script ops s body L, run script ops fresh = Ok s -> shown s = map Some L -> (forall id, In id L -> mild s (body id)) ->
  (fits body s L -> exists s', iterate body s = Ok (s', flat_map (fun id => repeat id (1 + uses (body id))) L) /\ after_loop body s L s') /\
  (~ fits body s L -> iterate body s = UB).
Proof. exact iterate_ok. Qed.
Print Assumptions C114_iterate.

(** C114.  A body that does not use [t] after creating is always fine. *)
Theorem C114_use_first : forall script ops s body L, run script ops fresh = Ok s -> shown s = map Some L -> (forall id, In id L -> mild s (body id)) ->
  (forall id A B, In id L -> body id = A ++ VUse :: B -> news A = 0) ->
  exists s', iterate body s = Ok (s', flat_map (fun id => repeat id (1 + uses (body id))) L) /\ after_loop body s L s'.
Proof. exact use_first. Qed.
Print Assumptions C114_use_first.

(** C114.  [TimelineManager::update] after every history of creations, updates and clears, whatever timelines the actions
    create and whenever timelines finish: it destroys the timelines deleted before ([D]) and, if the others ([L]) and the
    timelines created meanwhile have room in the slots, updates each of the others exactly once (the repeated entries are
    the [t->update], [t->isFinished()] and [*t] of the loop), deletes exactly the finished ones and leaves the new ones ([N])
    untouched for the next round.  If they have no room it is UB. *)
Theorem C114_timelines : forall upd debug ops m, trun upd ops tfresh = Ok m ->
  exists L D, Permutation (listed (mg m)) (L ++ D) /\ Forall (living (mg m)) L /\ Forall (deleted (mg m)) D /\
  (length L + spawned upd (tick m) L <= cap (mg m) -> exists s' N,
     tm_update upd debug (tick m) (mg m) = Ok (s', flat_map (fun id => repeat id (if snd (upd id (tick m)) then 3 else 2)) L) /\
     listed s' = L ++ N /\ length N = spawned upd (tick m) L /\ NoDup N /\ shown s' = map Some L /\ log s' = log (mg m) ++ D /\
     (forall id, In id L -> (deleted s' id <-> snd (upd id (tick m)) = true)) /\
     (forall id, In id N -> living s' id /\ length (objs (mg m)) <= id)) /\
  (cap (mg m) < length L + spawned upd (tick m) L -> tm_update upd debug (tick m) (mg m) = UB).
Proof. exact timelines_ok. Qed.
Print Assumptions C114_timelines.

(** C114.  The slots of a timeline manager: 25, 75, 225, ... *)
Theorem C114_slots : forall upd ops m, trun upd ops tfresh = Ok m -> exists k, cap (mg m) = 25 * 3 ^ k.
Proof. exact slots_count. Qed.
Print Assumptions C114_slots.

Definition one_more (id tick : nat) : nat * bool := (if id =? 0 then 1 else 0, false).
(** 25 timelines, the first of which creates another when updated: UB; with 24 timelines, or 26, it works. *)
Theorem C114_timelines_refuted :
  trun one_more (repeat TCreate 25 ++ [TUpdate true]) tfresh = UB /\
  (exists m, trun one_more (repeat TCreate 24 ++ [TUpdate true]) tfresh = Ok m /\ length (listed (mg m)) = 25) /\
  (exists m, trun one_more (repeat TCreate 26 ++ [TUpdate true]) tfresh = Ok m /\ length (listed (mg m)) = 27).
Proof.
  split; [vm_compute; reflexivity|]. split.
  - exists {| mg := {| slots := map Some (seq 0 25); objs := repeat (There true) 25; vis := 24; next := 25; cap := 25; log := [] |}; tick := 1 |}. split; vm_compute; reflexivity.
  - exists {| mg := {| slots := map Some (seq 0 27) ++ repeat None 48; objs := repeat (There true) 27; vis := 26; next := 27; cap := 75; log := [] |}; tick := 1 |}. split; vm_compute; reflexivity.
Qed.
Print Assumptions C114_timelines_refuted.

(** Three objects shown: a body that deletes the first and refreshes moves the last to its slot, so that object 2 is not
    reached through its own slot and the loop runs into the empty one: UB.  Likewise one that clears. *)
Definition three : outcome st := run quiet [OMake []; OMake []; OMake []; ORefresh true] fresh.
Theorem C114_refresh_refuted : obind three (iterate (fun id => if id =? 0 then [VDel 0; VRefresh] else [])) = UB.
Proof. vm_compute. reflexivity. Qed.
Print Assumptions C114_refresh_refuted.
Theorem C114_clear_refuted : obind three (iterate (fun id => if id =? 1 then [VClear] else [])) = UB.
Proof. vm_compute. reflexivity. Qed.
Print Assumptions C114_clear_refuted.

(** ** Cases *)
(** Object 1 creates two more and is used again, object 2 deletes 0; all have room. *)
Definition mix (id : nat) : list vact := match id with 1 => [VNew; VUse; VNew] | 2 => [VDel 0; VUse] | _ => [] end.
Example C114_case : exists s s', three = Ok s /\ shown s = map Some [0; 1; 2] /\ (forall id, In id [0; 1; 2] -> mild s (mix id)) /\
  iterate mix s = Ok (s', [0; 1; 1; 2; 2]) /\ listed s' = [0; 1; 2; 3; 4] /\ shown s' = map Some [0; 1; 2] /\ deleted s' 0 /\ living s' 4.
Proof.
  exists {| slots := map Some [0; 1; 2] ++ repeat None 22; objs := repeat (There true) 3; vis := 3; next := 3; cap := 25; log := [] |}.
  exists {| slots := map Some [0; 1; 2; 3; 4] ++ repeat None 20; objs := There false :: repeat (There true) 4; vis := 3; next := 5; cap := 25; log := [] |}.
  split; [vm_compute; reflexivity|]. split; [reflexivity|]. split.
  { intros id [<-|[<-|[<-|[]]]] a; cbn; intros H; repeat destruct H as [<-|H]; auto; try destruct H.
    right. right. exists 0. split; [reflexivity|]. exists true. reflexivity. }
  split; [vm_compute; reflexivity|]. split; [reflexivity|]. split; [reflexivity|]. split; reflexivity.
Qed.
(** Timeline 0 creates two others at its first update, 1 finishes at its second: what is updated in three rounds. *)
Definition some_timelines (id tick : nat) : nat * bool := (if (id =? 0) && (tick =? 0) then 2 else 0, (id =? 1) && (tick =? 1)).
Example C114_case_timelines : forall debug,
  obind (trun some_timelines [TCreate; TCreate; TUpdate debug; TUpdate debug; TUpdate debug] tfresh) (fun m => Ok (listed (mg m), log (mg m), shown (mg m))) = Ok ([0; 3; 2], [1], map Some [0; 3; 2]) /\
  obind (trun some_timelines [TCreate; TCreate; TUpdate debug] tfresh) (fun m => obind (tm_update some_timelines debug (tick m) (mg m)) (fun x => Ok (snd x))) = Ok [0; 0; 1; 1; 1; 2; 2; 3; 3].
Proof. intros [|]; vm_compute; split; reflexivity. Qed.
