(** Property C118: moving bimaps, references into them, erasing by their own keys. *)
From Coq Require Import String Arith Bool Lia List.
From Verif Require Import Common VecSpec BimapModel BimapSpec BmWorldModel BmWorldSpec BmWorldProofs.
Import ListNotations.

(** C118: any program of constructions from lists, moves, destructions, calls and erasures by
    references, in builds with ([nd = false]) and without ([nd = true]) assertions: every variable
    holds the pairs the specification says and answers accordingly, and every reference to a pair
    reads the value that pair has, wherever its bimap was moved to, until the pair is gone.  With
    assertions, a violated precondition stops the program. *)
Theorem C118_histories : forall T1 T2 (lt1 eq1 : T1 -> T1 -> bool) (lt2 eq2 : T2 -> T2 -> bool),
  strict_total lt1 eq1 -> strict_total lt2 eq2 -> forall nd h,
  match w_specs eq1 eq2 (negb nd) ([], 0) h with
  | Some s => exists w, w_run lt1 lt2 nd empty_world h = Ok w /\
      length (maps w) = length (fst s) /\
      (forall i, read (maps w) i = value s i) /\
      forall k, match nth_error (maps w) k with
        | Some (Some b) => exists l, var s k = Some l /\ answers eq1 eq2 lt1 lt2 b (map snd l)
        | _ => var s k = None
        end
  | None => nd = false -> w_run lt1 lt2 nd empty_world h = UB
  end.
Proof. exact (fun T1 T2 lt1 eq1 lt2 eq2 ST1 ST2 => histories lt1 eq1 lt2 eq2 ST1 ST2). Qed.
Print Assumptions C118_histories.
(** Variable 0 is built from a list, moved into variable 1, used again; a pair of it is erased by a
    reference to a key in variable 1 and variable 1 is moved back. *)
Definition C118_program : list (w_op nat nat) :=
  [Construct [(1, 10); (2, 20); (3, 30)]; MoveConstruct 0; Call 0 (Emplace 2 7); Call 0 (Emplace 9 8);
   EraseRef1 0 1; Call 1 (Erase2 10); MoveAssign 0 1; Destroy 1].
Example C118_program_ok : w_specs Nat.eqb Nat.eqb true ([], 0) C118_program = Some ([Some [(1, (2, 20)); (2, (3, 30))]; None], 5).
Proof. vm_compute. reflexivity. Qed.
(** The references to the pairs that were moved twice read the same as ever; the pair erased by its
    value and the one whose variable was assigned to are gone. *)
Example C118_program_reads : forall s, w_specs Nat.eqb Nat.eqb true ([], 0) C118_program = Some s ->
  map (value s) [0; 1; 2; 3; 4] = [None; Some (2, 20); Some (3, 30); None; None].
Proof. intros s H. rewrite C118_program_ok in H. injection H as <-. vm_compute. reflexivity. Qed.

(** C118: a program that runs with assertions does the very same without them. *)
Theorem C118_builds : forall T1 T2 (lt1 eq1 : T1 -> T1 -> bool) (lt2 eq2 : T2 -> T2 -> bool),
  strict_total lt1 eq1 -> strict_total lt2 eq2 -> forall h w,
  w_run lt1 lt2 false empty_world h = Ok w -> w_run lt1 lt2 true empty_world h = Ok w.
Proof. exact (fun T1 T2 lt1 eq1 lt2 eq2 ST1 ST2 => builds_agree lt1 eq1 lt2 eq2 ST1 ST2). Qed.
Print Assumptions C118_builds.
Example C118_builds_ex : exists w, w_run Nat.ltb Nat.ltb false empty_world C118_program = Ok w.
Proof. eexists. vm_compute. reflexivity. Qed.

(** C118: the converse fails: [b.erase(b.at(1))], or an erasure by the key a loop refers to, removes
    the pair properly without assertions and reads a destroyed key with them. *)
Theorem C118_own_key_refuted : forall own, In own [EraseRef1 0 0; EraseRef2 0 0] -> exists w,
  w_run Nat.ltb Nat.ltb true empty_world [Construct [(1, 10); (2, 20)]; own] = Ok w /\
  map (option_map pairs) (maps w) = [Some [(2, 20)]] /\
  w_run Nat.ltb Nat.ltb false empty_world [Construct [(1, 10); (2, 20)]; own] = UB.
Proof. intros own [<-|[<-|[]]]; (eexists; split; [vm_compute; reflexivity|]; vm_compute; auto). Qed.
Print Assumptions C118_own_key_refuted.
(** The only pair may be erased by its own key in both builds. *)
Example C118_only_pair : exists w,
  w_run Nat.ltb Nat.ltb false empty_world [Construct [(1, 10)]; EraseRef2 0 0] = Ok w /\ map (option_map pairs) (maps w) = [Some []].
Proof. eexists. split; [vm_compute; reflexivity|]. vm_compute. reflexivity. Qed.

(** C118: writing a new second half through the reference that a lookup by the first half returns is
    harmless if the new value compares with the halves of all other pairs as the old one did: the
    bimap then is one with the pair replaced, now and after any further operations. *)
Theorem C118_write_second : forall T1 T2 (lt1 eq1 : T1 -> T1 -> bool) (lt2 eq2 : T2 -> T2 -> bool),
  strict_total lt1 eq1 -> strict_total lt2 eq2 -> forall h l b x y y' i h2,
  spec_run eq1 eq2 [] h = Some l -> bm_run lt1 lt2 empty_bimap h = Ok b ->
  In (x, y) l -> find1 lt1 b x = Ok (Some i) ->
  (forall p, In p l -> p <> (x, y) -> lt2 (snd p) y = lt2 (snd p) y' /\ lt2 y (snd p) = lt2 y' (snd p)) ->
  match spec_run eq1 eq2 (map (fun p => if eq1 (fst p) x then (fst p, y') else p) l) h2 with
  | Some l2 => exists b2, bm_run lt1 lt2 (write2 b i y') h2 = Ok b2 /\ answers eq1 eq2 lt1 lt2 b2 l2
  | None => bm_run lt1 lt2 (write2 b i y') h2 = UB
  end.
Proof. exact (fun T1 T2 lt1 eq1 lt2 eq2 ST1 ST2 => written2 lt1 eq1 lt2 eq2 ST1 ST2). Qed.
Print Assumptions C118_write_second.
Example C118_write_second_ex : exists b b2,
  bm_run Nat.ltb Nat.ltb empty_bimap [Emplace 1 10; Emplace 2 20; Emplace 3 5] = Ok b /\
  find1 Nat.ltb b 1 = Ok (Some 0) /\
  bm_run Nat.ltb Nat.ltb (write2 b 0 15) [Emplace 4 10; Erase2 15] = Ok b2 /\ pairs b2 = [(2, 20); (3, 5); (4, 10)].
Proof. do 2 eexists. split; [vm_compute; reflexivity|]. vm_compute. auto. Qed.

(** C118: the same for the first half. *)
Theorem C118_write_first : forall T1 T2 (lt1 eq1 : T1 -> T1 -> bool) (lt2 eq2 : T2 -> T2 -> bool),
  strict_total lt1 eq1 -> strict_total lt2 eq2 -> forall h l b x y x' i h2,
  spec_run eq1 eq2 [] h = Some l -> bm_run lt1 lt2 empty_bimap h = Ok b ->
  In (x, y) l -> find2 lt2 b y = Ok (Some i) ->
  (forall p, In p l -> p <> (x, y) -> lt1 (fst p) x = lt1 (fst p) x' /\ lt1 x (fst p) = lt1 x' (fst p)) ->
  match spec_run eq1 eq2 (map (fun p => if eq2 (snd p) y then (x', snd p) else p) l) h2 with
  | Some l2 => exists b2, bm_run lt1 lt2 (write1 b i x') h2 = Ok b2 /\ answers eq1 eq2 lt1 lt2 b2 l2
  | None => bm_run lt1 lt2 (write1 b i x') h2 = UB
  end.
Proof. exact (fun T1 T2 lt1 eq1 lt2 eq2 ST1 ST2 => written1 lt1 eq1 lt2 eq2 ST1 ST2). Qed.
Print Assumptions C118_write_first.
Example C118_write_first_ex : exists b b2,
  bm_run Nat.ltb Nat.ltb empty_bimap [Emplace 1 10; Emplace 5 20] = Ok b /\ find2 Nat.ltb b 20 = Ok (Some 1) /\
  bm_run Nat.ltb Nat.ltb (write1 b 1 2) [Emplace 5 30; Erase1 2] = Ok b2 /\ pairs b2 = [(1, 10); (5, 30)].
Proof. do 2 eexists. split; [vm_compute; reflexivity|]. vm_compute. auto. Qed.
