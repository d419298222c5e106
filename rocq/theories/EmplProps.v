(** C123: emplacing owned objects in containers of pointers, with constructors that emplace and throw. *)
From Coq Require Import String Arith Bool List.
From Verif Require Import Common EmplModel EmplSpec EmplProofs.
Import ListNotations.

(** Every existing object has exactly one owner, and everything else that was begun is destroyed. *)
Theorem C123_tidy : forall (K : Type) (keqb : K -> K -> bool), (forall a b, keqb a b = true <-> a = b) ->
  forall isa p s rs, program keqb isa p nothing = Ok (s, rs) -> tidy s.
Proof. exact @st_tidy. Qed.
Print Assumptions C123_tidy.

(** The vector holds the objects pushed, in the order in which they were completed; the map holds, for every key, the object
    first completed for it; calls return exactly if their object and everything its constructor emplaced was completed. *)
Theorem C123_holds : forall (K : Type) (keqb : K -> K -> bool), (forall a b, keqb a b = true <-> a = b) ->
  forall isa p s rs, program keqb isa p nothing = Ok (s, rs) ->
  Forall2 (exists_as s) (vec s) (pushed (history p)) /\
  (forall k, match first_put keqb k (history p) with
             | Some t => exists a, at_key keqb k (mp s) = Some a /\ exists_as s a t
             | None => at_key keqb k (mp s) = None
             end) /\
  map (fun c => snd (completed c)) p = map (fun r => match r with Some _ => true | None => false end) rs.
Proof. exact @st_holds. Qed.
Print Assumptions C123_holds.

(** Objects, places in the vector and entries of the map outlast every later call, also one that throws. *)
Theorem C123_kept : forall (K : Type) (keqb : K -> K -> bool), (forall a b, keqb a b = true <-> a = b) ->
  forall isa p s rs c s' r, program keqb isa p nothing = Ok (s, rs) -> emplace keqb isa c s = Ok (s', r) ->
  (forall a t, exists_as s a t -> exists_as s' a t) /\
  (exists v, vec s' = vec s ++ v) /\ (forall k a, at_key keqb k (mp s) = Some a -> at_key keqb k (mp s') = Some a).
Proof. exact @st_kept. Qed.
Print Assumptions C123_kept.

(** getEmplaceUPtr returns the new object, of the type asked for, which is the last one. *)
Theorem C123_push : forall (K : Type) (keqb : K -> K -> bool), (forall a b, keqb a b = true <-> a = b) ->
  forall isa p s rs ty body th s' a, program keqb isa p nothing = Ok (s, rs) ->
  emplace keqb isa (EPush ty body th) s = Ok (s', Some a) ->
  nth_error (heap s) a = None /\ exists_as s' a ty /\ exists v, vec s' = v ++ [a].
Proof. exact @st_push. Qed.
Print Assumptions C123_push.

(** getEmplaceUPtrMap returns what the map holds for the key: the object it held before if there is one, else a new one,
    which is of the type asked for if the constructor did not use the key. *)
Theorem C123_put : forall (K : Type) (keqb : K -> K -> bool), (forall a b, keqb a b = true <-> a = b) ->
  forall isa p s rs k ty body th s' a, program keqb isa p nothing = Ok (s, rs) ->
  emplace keqb isa (EPut k ty body th) s = Ok (s', Some a) ->
  at_key keqb k (mp s') = Some a /\ (exists u, exists_as s' a u /\ isa u ty = true) /\
  (forall b, at_key keqb k (mp s) = Some b -> a = b) /\
  (at_key keqb k (mp s) = None -> nth_error (heap s) a = None) /\
  (at_key keqb k (mp s) = None -> first_put keqb k (history body) = None -> exists_as s' a ty).
Proof. exact @st_put. Qed.
Print Assumptions C123_put.

(** Programs that use every key with one type are defined. *)
Theorem C123_defined : forall (K : Type) (keqb : K -> K -> bool), (forall a b, keqb a b = true <-> a = b) ->
  forall isa, (forall t, isa t t = true) -> forall ty_of p, Forall (uses ty_of) p ->
  exists s rs, program keqb isa p nothing = Ok (s, rs).
Proof. exact @st_defined. Qed.
Print Assumptions C123_defined.

(** The reference returned need not be to the newly allocated instance: for a key in use that one is destroyed. *)
Theorem C123_new_refuted : exists t u a b : nat, exists w : own nat,
  program Nat.eqb Nat.eqb [EPut 5 t [] false; EPut 5 u [] false] nothing = Ok (w, [Some a; Some b]) /\
  a = b /\ heap w = [(t, Alive); (u, Dead)].
Proof. exists 1, 1, 0, 0. eexists. vm_compute. repeat split; reflexivity. Qed.
Print Assumptions C123_new_refuted.

(** A key in use for an object of another class: undefined. *)
Theorem C123_class_refuted : exists t u : nat,
  program Nat.eqb Nat.eqb [EPut 5 t [] false; EPut 5 u [] false] nothing = UB.
Proof. exists 1, 2. vm_compute. reflexivity. Qed.
Print Assumptions C123_class_refuted.

(** Constructors that emplace, one of which throws. *)
Definition demo : list (call nat) :=
  [EPush 1 [EPush 2 [] false; EPut 7 3 [] false] false;
   EPush 1 [EPush 4 [] false; EPut 8 3 [] true; EPush 9 [] false] false;
   EPut 7 3 [EPush 6 [] false] false].
Example C123_example :
  program Nat.eqb Nat.eqb demo nothing =
  Ok (Own [(1, Alive); (2, Alive); (3, Alive); (1, Dead); (4, Alive); (3, Dead); (3, Dead); (6, Alive)] [1; 0; 4; 7] [(7, 2)],
      [Some 0; None; Some 2]).
Proof. vm_compute. reflexivity. Qed.
Example C123_example_history :
  history demo = [(None, 2); (Some 7, 3); (None, 1); (None, 4); (None, 6); (Some 7, 3)].
Proof. vm_compute. reflexivity. Qed.
Example C123_example_uses : Forall (uses (fun _ => 3)) demo.
Proof. repeat constructor. Qed.
