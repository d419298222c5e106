(** Property theorems: growable arrays, refresh, recycler, manager, layouts. *)
From Coq Require Import String Ascii ZArith NArith Arith Bool Lia List Permutation.
From Verif Require Import Common ListAux MemModel MemSpec MemProofs MemHeapProofs MemRunProofs.
Import ListNotations.

(** C33: growing keeps the first [old] elements and value-initialises the others.  The old size must
    be below 2^32 (the loop counter is a 32-bit unsigned) and not exceed the array. *)
Theorem C33_grow : forall (A : Type) (d : A) fuel data old new,
  (old <= new)%N -> (old < 4294967296)%N -> N.to_nat old <= length data -> N.to_nat old <= fuel ->
  exists r, grow d fuel data old new = Ok r /\ length r = N.to_nat new
    /\ forall j, nth_error r j = if j <? N.to_nat old then nth_error data j
                                 else if j <? N.to_nat new then Some d else None.
Proof. exact @grow_ok. Qed.
Print Assumptions C33_grow.

Theorem C33_grow_smaller : forall (A : Type) (d : A) fuel data old new, (new < old)%N -> grow d fuel data old new = UB.
Proof. intros A d fuel data old new H. unfold grow. destruct (N.leb_spec old new); [lia|reflexivity]. Qed.
Print Assumptions C33_grow_smaller.

(** From 2^32 elements on, growing never returns. *)
Theorem C33_grow_huge_refuted : forall (A : Type) (d : A) fuel data old new,
  (4294967296 <= old)%N -> (old <= new)%N -> N.to_nat old <= length data -> grow d fuel data old new = OutOfFuel.
Proof. exact @grow_diverges. Qed.
Print Assumptions C33_grow_huge_refuted.

Example C33_ex : grow 0 9 [7; 8; 9] 2 5 = Ok [7; 8; 0; 0; 0].
Proof. vm_compute. reflexivity. Qed.
Example C33_ex_huge : forall n (x : nat), N.to_nat 4294967296 <= n -> grow x 100 (repeat x n) 4294967296 4294967297 = OutOfFuel.
Proof. intros n x H. apply C33_grow_huge_refuted; [lia|lia|rewrite repeat_length; exact H]. Qed.

(** C34: refreshing the first [length M] elements of an array: the alive ones end up in the first
    [length out] places, the dead ones have each been destroyed once, everything after is untouched;
    an alive item below the new size has not moved. *)
Theorem C34_refresh : forall (A : Type) (alive : A -> bool) (M : list A) post lg,
  exists out log, arr_refresh alive (map Some M ++ post, lg) (length M)
    = Ok ((map Some out ++ repeat None (length M - length out) ++ post, lg ++ log), length out)
    /\ Permutation out (filter alive M) /\ Permutation log (filter (fun a => negb (alive a)) M)
    /\ forall i a, nth_error M i = Some a -> alive a = true -> i < length out -> nth_error out i = Some a.
Proof. exact @refresh_ok. Qed.
Print Assumptions C34_refresh.

Example C34_ex : arr_refresh Nat.even (map Some [2; 3; 5; 4; 7; 6; 9] ++ [None], []) 7
  = Ok ((map Some [2; 6; 4] ++ repeat None 4 ++ [None], [9; 3; 7; 5]), 3).
Proof. vm_compute. reflexivity. Qed.
Example C34_ex_all_dead : arr_refresh Nat.even ([Some 1; Some 3], []) 2 = Ok (([None; None], [3; 1]), 0).
Proof. vm_compute. reflexivity. Qed.

(** C35: any history of creates, dels, refreshes, clears and reserves behaves as the specification:
    iteration, the flags seen through references, and the objects destroyed so far; destroying the
    manager destroys the rest and frees every block once. *)
Theorem C35_manager : forall base ops sp,
  (forall t, In (MCreate t) ops -> align t = align base) ->
  (forall n, In (MReserve n) ops -> (N.of_nat n < 4294967296)%N) ->
  mspec_run ops mspec0 = Some sp -> (N.of_nat (made sp) < 4294967296)%N ->
  exists g0 g refs, new_mgr = Ok g0 /\ mgr_run base ops (g0, []) = Ok (g, refs)
    /\ msize g = length (shown sp) /\ Permutation (iterate g) (map Some (shown sp))
    /\ (forall k f, In (k, f) (owned sp) -> exists p, nth_error refs k = Some p
          /\ object_at (mm g) p = Some k /\ getBool true base p (mm g) = Ok f)
    /\ Permutation (gone sp ++ map fst (owned sp)) (seq 0 (made sp))
    /\ ctors (trace (mm g)) = seq 0 (made sp) /\ Permutation (dtors (trace (mm g))) (gone sp)
    /\ exists m', mdestroy base g = Ok m' /\ Permutation (dtors (trace m')) (seq 0 (made sp))
          /\ Permutation (deallocs (trace m')) (allocs (trace m')) /\ NoDup (allocs (trace m')).
Proof. exact manager'. Qed.
Print Assumptions C35_manager.

Definition tA : ty := {| size := 16; align := 8 |}.
Definition tB : ty := {| size := 24; align := 8 |}.
Definition tC : ty := {| size := 16; align := 16 |}.
Definition ops35 : list mop :=
  [MCreate tA; MCreate tB; MCreate tA; MRefresh; MDel 1; MCreate tB; MRefresh; MDel 0; MCreate tA].
Example C35_ex_spec : mspec_run ops35 mspec0
  = Some {| owned := [(0, false); (2, true); (3, true); (4, true)]; shown := [0; 2; 3]; made := 5; gone := [1]; room := 25 |}.
Proof. vm_compute. reflexivity. Qed.
Example C35_ex : obind new_mgr (fun g0 => obind (mgr_run tA ops35 (g0, [])) (fun s => Ok (iterate (fst s), dtors (trace (mm (fst s))), snd s)))
  = Ok ([Some 0; Some 3; Some 2], [1], [(0, 8); (1, 8); (2, 8); (3, 8); (4, 8)]).
Proof. vm_compute. reflexivity. Qed.

(** C36: a recycler used directly, in any history of creates and drops. *)
Theorem C36_recycler : forall hasb base ops sp,
  (forall t, In (RCreate t) ops -> hasb = true -> align t = align base) ->
  rspec_run ops rspec0 = Some sp ->
  exists m held, rec_run hasb base ops (empty_mem, []) = Ok (m, held)
    /\ map (option_map (fun u : uptr => fst (fst u))) held = map (option_map snd) (placed sp)
    /\ (forall k u, nth_error held k = Some (Some u) -> object_at m (fst u) = Some k)
    /\ NoDup (in_use sp)
    /\ allocs (trace m) = seq 0 (fresh sp) /\ deallocs (trace m) = []
    /\ ctors (trace m) = seq 0 (length held)
    /\ (forall k, In k (dtors (trace m)) <-> nth_error held k = Some None) /\ NoDup (dtors (trace m))
    /\ (in_use sp = [] -> exists m', destroy_storage m = Ok m'
          /\ Permutation (deallocs (trace m')) (seq 0 (fresh sp)) /\ dtors (trace m') = dtors (trace m)).
Proof. exact recycler. Qed.
Print Assumptions C36_recycler.

(** With objects of one size the number of allocations is the largest number of objects alive at once. *)
Theorem C36_recycler_peak : forall hasb base sz ops sp,
  (forall t, In (RCreate t) ops -> size t = sz /\ (hasb = true -> align t = align base)) ->
  rspec_run ops rspec0 = Some sp ->
  exists m held, rec_run hasb base ops (empty_mem, []) = Ok (m, held) /\ length (allocs (trace m)) = peak ops rspec0.
Proof. exact recycler_peak. Qed.
Print Assumptions C36_recycler_peak.

(** A constructor that throws leaks its block: it is never freed. *)
Theorem C36_throwing_constructor_refuted : exists m m', create_throwing false tA empty_mem = Ok m
  /\ destroy_storage m = Ok m' /\ allocs (trace m') = [0] /\ deallocs (trace m') = [].
Proof.
  eexists _, _. split; [vm_compute; reflexivity|]. split; [vm_compute; reflexivity|]. vm_compute. auto.
Qed.
Print Assumptions C36_throwing_constructor_refuted.

Definition ops36 : list rop := [RCreate tA; RCreate tA; RCreate tB; RDrop 0; RDrop 1; RCreate tA; RDrop 2; RCreate tA; RCreate tA].
Example C36_ex : obind (rec_run false tA ops36 (empty_mem, [])) (fun s => Ok (snd s, trace (fst s)))
  = Ok ([None; None; None; Some ((1, 0), 16); Some ((0, 0), 16); Some ((3, 0), 16)],
        [EAlloc 0; ECtor 0; EAlloc 1; ECtor 1; EAlloc 2; ECtor 2; EDtor 0; EDtor 1; ECtor 3; EDtor 2; ECtor 4; EAlloc 3; ECtor 5]).
Proof. vm_compute. reflexivity. Qed.
Example C36_ex_spec : option_map (fun s => (fresh s, in_use s, stack s 24)) (rspec_run ops36 rspec0) = Some (4, [1; 0; 3], [2]).
Proof. vm_compute. reflexivity. Qed.
Example C36_ex_peak : peak [RCreate tA; RCreate tA; RDrop 0; RCreate tA; RDrop 1; RCreate tA] rspec0 = 2.
Proof. vm_compute. reflexivity. Qed.

(** C37: every object sits in a block allocated for exactly its own layout ... *)
Theorem C37_block_sizes : forall hasb base ops sp,
  (forall t, In (RCreate t) ops -> hasb = true -> align t = align base) ->
  rspec_run ops rspec0 = Some sp ->
  exists m held, rec_run hasb base ops (empty_mem, []) = Ok (m, held)
    /\ forall k t b, nth_error (placed sp) k = Some (Some (t, b)) ->
         exists f, nth_error (heap m) b = Some (CObj (lsize hasb t) f t k).
Proof. exact recycler_sizes. Qed.
Print Assumptions C37_block_sizes.

(** ... but with flags, a type of the same size and larger alignment is constructed in a block that is
    too small for it. *)
Theorem C37_overaligned_refuted : exists base t1 t2, align base = align t1 /\ size t1 = size t2 /\
  exists m u m2, create true t1 0 empty_mem = Ok (m, u) /\ recycle true base u m = Ok m2
    /\ create true t2 1 m2 = UB /\ exists m3 u3, create true t2 1 empty_mem = Ok (m3, u3).
Proof.
  exists {| size := 8; align := 8 |}, tA, tC. split; [reflexivity|]. split; [reflexivity|].
  eexists _, _, _. split; [vm_compute; reflexivity|]. split; [vm_compute; reflexivity|].
  split; [vm_compute; reflexivity|]. eexists _, _. vm_compute. reflexivity.
Qed.
Print Assumptions C37_overaligned_refuted.

Example C37_ex : obind (rec_run true tA ops36 (empty_mem, [])) (fun s => Ok (heap (fst s)))
  = Ok [CObj 24 true tA 4; CObj 24 true tA 3; CLink 32 None; CObj 24 true tA 5].
Proof. vm_compute. reflexivity. Qed.

(** C38: the flag written at creation is the one found through a base pointer exactly when the
    alignment of the object's type is that of the base type. *)
Theorem C38_flag_lookup : forall base t id m m' u, create true t id m = Ok (m', u) ->
  (getBool true base (fst u) m' = Ok true <-> align t = align base).
Proof. exact flag_lookup. Qed.
Print Assumptions C38_flag_lookup.

Theorem C38_overaligned_refuted : exists base t m u, align base < align t /\
  create true t 0 empty_mem = Ok (m, u) /\ getBool true base (fst u) m = UB.
Proof.
  exists tA, tC. eexists _, _. split; [cbn; lia|]. split; vm_compute; reflexivity.
Qed.
Print Assumptions C38_overaligned_refuted.

Example C38_ex : obind (create true tB 0 empty_mem) (fun r => getBool true tA (fst (snd r)) (fst r)) = Ok true.
Proof. vm_compute. reflexivity. Qed.
