(** Model of include/SSVUtils/GrowableArray/GrowableArray.hpp, Internal/SharedFuncs.hpp and
    MemoryManager/Internal/{LayoutImpl,StorageImpl,RecyclerImpl,ManagerImpl}.hpp.

    Simplifications: memory is a list of blocks, one per [new char[n]], named by allocation order; a
    pointer is a block and a byte offset in it.  The contents of an object are reduced to the number
    of its creation.  Arithmetic on [size_t] indices is exact (they stay below the number of blocks);
    the 32-bit loop counters [auto i(0u)] are modelled with their wrap-around. *)
From Coq Require Import String Ascii ZArith NArith Arith Bool Lia List.
From Verif Require Import Common.
Import ListNotations.

Notation "'let!' x ':=' e 'in' f" := (obind e (fun x => f)) (at level 200, x pattern, right associativity).

(** Writing one element of an array; outside the array nothing is written (callers check). *)
Fixpoint upd {A} (l : list A) (i : nat) (x : A) : list A :=
  match l, i with
  | [], _ => []
  | _ :: l', O => x :: l'
  | y :: l', S i' => y :: upd l' i' x
  end.

(** ** GrowableArray.hpp:38-45 [grow].
    The loop counter is an [unsigned int] compared with a [size_t].  [d] is the value-initialised
    element.  An access outside the old or new array is UB. *)
Definition UINT_WRAP : N := 4294967296.
Fixpoint grow_loop {A} (fuel : nat) (i old : N) (data new : list A) : outcome (list A) :=
  if (i <? old)%N then
    match fuel with
    | O => OutOfFuel
    | S f =>
      match nth_error data (N.to_nat i), nth_error new (N.to_nat i) with
      | Some x, Some _ =>
        grow_loop f ((i + 1) mod UINT_WRAP)%N old data (upd new (N.to_nat i) x)
      | _, _ => UB
      end
    end
  else Ok new.
Definition grow {A} (d : A) (fuel : nat) (data : list A) (old new : N) : outcome (list A) :=
  if (old <=? new)%N then grow_loop fuel 0 old data (repeat d (N.to_nat new)) else UB.

(** ** SharedFuncs.hpp:16-82, over the three callbacks it is given. *)
Section Refresh.
  Context {S : Type} (alive : S -> nat -> outcome bool) (swap : S -> nat -> nat -> outcome S)
          (deinit : S -> nat -> outcome S).

  (** SharedFuncs.hpp:25-35: [(true, iD)] when the function returns, [(false, iD)] at a dead item. *)
  Fixpoint scan_left (fuel : nat) (s : S) (iD iA : nat) : outcome (bool * nat) :=
    match fuel with
    | O => OutOfFuel
    | Datatypes.S f =>
      if iA <? iD then Ok (true, iD)
      else let! a := alive s iD in
           if a then scan_left f s (iD + 1) iA else Ok (false, iD)
    end.
  (** SharedFuncs.hpp:38-49: [None] when the function returns, else the index of an alive item. *)
  Fixpoint scan_right (fuel : nat) (s : S) (iD iA : nat) : outcome (S * option nat) :=
    match fuel with
    | O => OutOfFuel
    | Datatypes.S f =>
      let! a := alive s iA in
      if a then Ok (s, Some iA)
      else let! s' := deinit s iA in
           if iA <=? iD then Ok (s', None)
           else match iA with
                | O => UB                        (* would wrap to the largest [size_t] *)
                | Datatypes.S iA' => scan_right f s' iD iA'
                end
    end.
  (** SharedFuncs.hpp:22-60, including the assertion of line 51. *)
  Fixpoint refresh_loop (fuel : nat) (s : S) (iD iA : nat) : outcome (S * nat) :=
    match fuel with
    | O => OutOfFuel
    | Datatypes.S f =>
      let! r := scan_left (Datatypes.S f) s iD iA in
      match r with
      | (true, iD) => Ok (s, iD)
      | (false, iD) =>
        let! r2 := scan_right (Datatypes.S f) s iD iA in
        match r2 with
        | (s, None) => Ok (s, iD)
        | (s, Some iA) =>
          let! aD := alive s iD in
          let! aA := alive s iA in
          if negb aD && aA then
            let! s := swap s iD iA in
            let! s := deinit s iA in
            match iA with O => UB | Datatypes.S iA' => refresh_loop f s (iD + 1) iA' end
          else UB
        end
      end
    end.
  (** SharedFuncs.hpp:63-82: the new size (both [mSize] and [mSizeNext]).  The step budget
      [sizeNext + 2] is enough for every run (see the theorems). *)
  Definition refresh_impl (s : S) (sizeNext : nat) : outcome (S * nat) :=
    match sizeNext with
    | O => Ok (s, O)
    | Datatypes.S n => refresh_loop (sizeNext + 2) s O n
    end.
End Refresh.

(** The callbacks on a plain array of initialised or uninitialised elements, with a record of the
    destroyed ones; using an uninitialised element is UB. *)
Section Array.
  Context {A : Type} (alive : A -> bool).
  Definition arr := (list (option A) * list A)%type.
  Definition arr_alive (s : arr) (i : nat) : outcome bool :=
    match nth_error (fst s) i with Some (Some a) => Ok (alive a) | _ => UB end.
  Definition arr_swap (s : arr) (i j : nat) : outcome arr :=
    match nth_error (fst s) i, nth_error (fst s) j with
    | Some (Some a), Some (Some b) => Ok (upd (upd (fst s) i (Some b)) j (Some a), snd s)
    | _, _ => UB
    end.
  Definition arr_deinit (s : arr) (i : nat) : outcome arr :=
    match nth_error (fst s) i with
    | Some (Some a) => Ok (upd (fst s) i None, snd s ++ [a])
    | _ => UB
    end.
  Definition arr_refresh : arr -> nat -> outcome (arr * nat) := refresh_impl arr_alive arr_swap arr_deinit.
End Array.

(** ** Types and layouts, LayoutImpl.hpp:18-109.
    A type is its size and alignment.  [hasb] selects [LBool] (true) or [LNoBool] (false).
    [struct { 1 byte; T }] puts [T] at offset [alignof(T)] and occupies [alignof(T) + sizeof(T)]
    bytes since [sizeof(T)] is a multiple of [alignof(T)]. *)
Record ty := { size : nat; align : nat }.
Definition ioff (hasb : bool) (t : ty) : nat := if hasb then align t else 0.
Definition lsize (hasb : bool) (t : ty) : nat := ioff hasb t + size t.

(** A pointer: block and offset. *)
Definition ptr := (nat * nat)%type.
(** Contents of a block of [sz] bytes. *)
Inductive cell :=
| CRaw (sz : nat)                                   (* allocated, holding nothing *)
| CLink (sz : nat) (next : option ptr)              (* in a free chain *)
| CObj (sz : nat) (flag : bool) (t : ty) (id : nat) (* holding object [id] of type [t] *)
| CFreed.
Inductive event := EAlloc (blk : nat) | EDealloc (blk : nat) | ECtor (id : nat) | EDtor (id : nat).

(** The heap, the chunks of the storage (by [sizeof(T)]; StorageImpl.hpp:159-223; the single chunk of
    [MonoStorage] is the case of one key) and a trace of the observable events. *)
Record mem := { heap : list cell; chunks : list (nat * option ptr); trace : list event }.
Definition empty_mem : mem := {| heap := []; chunks := []; trace := [] |}.

(** StorageImpl.hpp:186-189 [chunks[sizeof(T)]], creating an empty chain when absent. *)
Fixpoint chunk_get (c : list (nat * option ptr)) (k : nat) : option ptr :=
  match c with
  | [] => None
  | (k', p) :: c' => if k =? k' then p else chunk_get c' k
  end.
Fixpoint chunk_set (c : list (nat * option ptr)) (k : nat) (p : option ptr) : list (nat * option ptr) :=
  match c with
  | [] => [(k, p)]
  | (k', q) :: c' => if k =? k' then (k', p) :: c' else (k', q) :: chunk_set c' k p
  end.

(** LayoutImpl.hpp:64-72 [getLayout] computes with the layout of [TBase]; before the block is UB. *)
Definition getLayout (hasb : bool) (base : ty) (p : ptr) : outcome ptr :=
  if ioff hasb base <=? snd p then Ok (fst p, snd p - ioff hasb base) else UB.

(** StorageImpl.hpp:116-121: the first two lines of [Chunk::create], and PtrChain::pop 78-84,
    LHelperBase::allocate 47-50. *)
Definition get_block (hasb : bool) (t : ty) (m : mem) : outcome (mem * nat) :=
  match chunk_get (chunks m) (size t) with
  | None => Ok ({| heap := heap m ++ [CRaw (lsize hasb t)];
                   chunks := chunk_set (chunks m) (size t) None;
                   trace := trace m ++ [EAlloc (length (heap m))] |}, length (heap m))
  | Some (b, o) =>
    match o, nth_error (heap m) b with
    | O, Some (CLink sz nx) =>
      Ok ({| heap := upd (heap m) b (CRaw sz); chunks := chunk_set (chunks m) (size t) nx; trace := trace m |}, b)
    | _, _ => UB
    end
  end.
(** LayoutImpl.hpp:77-99 [construct]: writing outside the block is UB. *)
Definition construct (hasb : bool) (t : ty) (id : nat) (m : mem) (b : nat) : outcome mem :=
  match nth_error (heap m) b with
  | Some (CRaw sz) =>
    if lsize hasb t <=? sz then
      Ok {| heap := upd (heap m) b (CObj sz true t id); chunks := chunks m; trace := trace m ++ [ECtor id] |}
    else UB
  | _ => UB
  end.
(** A [unique_ptr] with its deleter: pointer to the item and key of the chunk (ChunkDeleter 144-157). *)
Definition uptr := (ptr * nat)%type.
(** StorageImpl.hpp:114-123 [Chunk::create], RecyclerImpl.hpp:112-154 [createImpl]. *)
Definition create (hasb : bool) (t : ty) (id : nat) (m : mem) : outcome (mem * uptr) :=
  let! (m, b) := get_block hasb t m in
  let! m := construct hasb t id m b in
  Ok (m, ((b, ioff hasb t), size t)).
(** The state left behind when the constructor of [T] throws inside [Chunk::create]: the block is
    neither returned nor pushed back. *)
Definition create_throwing (hasb : bool) (t : ty) (m : mem) : outcome mem :=
  let! (m, b) := get_block hasb t m in Ok m.
(** StorageImpl.hpp:127-132 [Chunk::recycle], LayoutImpl.hpp:56-60 [destroy], PtrChain::push 70-75.
    Linking a pointer that is not the start of its block is UB (the chain later passes it to
    [delete[]]). *)
Definition recycle (hasb : bool) (base : ty) (u : uptr) (m : mem) : outcome mem :=
  let '(p, key) := u in
  match nth_error (heap m) (fst p) with
  | Some (CObj sz _ t id) =>
    if snd p =? ioff hasb t then
      let! q := getLayout hasb base p in
      if snd q =? 0 then
        Ok {| heap := upd (heap m) (fst q) (CLink sz (chunk_get (chunks m) key));
              chunks := chunk_set (chunks m) key (Some q);
              trace := trace m ++ [EDtor id] |}
      else UB
    else UB
  | _ => UB
  end.
(** LayoutImpl.hpp:101-108: the flag is the first byte of the layout; anywhere else in the block there
    is no flag (padding or the item's own bytes). *)
Definition getBool (hasb : bool) (base : ty) (p : ptr) (m : mem) : outcome bool :=
  let! q := getLayout hasb base p in
  match snd q, nth_error (heap m) (fst q) with
  | O, Some (CObj _ f _ _) => Ok f
  | _, _ => UB
  end.
Definition setBool (hasb : bool) (base : ty) (p : ptr) (x : bool) (m : mem) : outcome mem :=
  let! q := getLayout hasb base p in
  match snd q, nth_error (heap m) (fst q) with
  | O, Some (CObj sz _ t id) =>
    Ok {| heap := upd (heap m) (fst q) (CObj sz x t id); chunks := chunks m; trace := trace m |}
  | _, _ => UB
  end.
(** StorageImpl.hpp:60-68 [~PtrChain] and LayoutImpl.hpp:51-55 [deallocate]. *)
Fixpoint free_chain (fuel : nat) (p : option ptr) (m : mem) : outcome mem :=
  match p with
  | None => Ok m
  | Some (b, o) =>
    match fuel with
    | O => OutOfFuel
    | S f =>
      match o, nth_error (heap m) b with
      | O, Some (CLink _ nx) =>
        free_chain f nx {| heap := upd (heap m) b CFreed; chunks := chunks m; trace := trace m ++ [EDealloc b] |}
      | _, _ => UB
      end
    end
  end.
Fixpoint free_chunks (c : list (nat * option ptr)) (m : mem) : outcome mem :=
  match c with
  | [] => Ok m
  | (_, p) :: c' => let! m := free_chain (length (heap m)) p m in free_chunks c' m
  end.
(** Destruction of the storage. *)
Definition destroy_storage (m : mem) : outcome mem :=
  let! m := free_chunks (chunks m) m in Ok {| heap := heap m; chunks := []; trace := trace m |}.

(** ** A recycler used directly: the caller holds the returned [unique_ptr]s and drops them in any
    order.  [RDrop k] drops the [k]-th created one; dropping an empty pointer does nothing. *)
Inductive rop := RCreate (t : ty) | RDrop (k : nat).
Definition rstate := (mem * list (option uptr))%type.
Definition rec_step (hasb : bool) (base : ty) (o : rop) (s : rstate) : outcome rstate :=
  let '(m, held) := s in
  match o with
  | RCreate t => let! (m, u) := create hasb t (length held) m in Ok (m, held ++ [Some u])
  | RDrop k =>
    match nth_error held k with
    | Some (Some u) => let! m := recycle hasb base u m in Ok (m, upd held k None)
    | Some None => Ok s
    | None => UB
    end
  end.
Fixpoint rec_run (hasb : bool) (base : ty) (ops : list rop) (s : rstate) : outcome rstate :=
  match ops with
  | [] => Ok s
  | o :: ops' => let! s := rec_step hasb base o s in rec_run hasb base ops' s
  end.

(** ** ManagerImpl.hpp:187-306 [BaseManager]. *)
Record mgr := { mm : mem; items : list (option uptr); msize : nat; sizeNext : nat; capacity : nat }.

(** ManagerImpl.hpp:249-254 [reserve]; the raw slots are copied bytewise. *)
Definition reserve (n : nat) (g : mgr) : outcome mgr :=
  if capacity g <? n then
    let! it := grow None (S (capacity g)) (items g) (N.of_nat (capacity g)) (N.of_nat n) in
    Ok {| mm := mm g; items := it; msize := msize g; sizeNext := sizeNext g; capacity := n |}
  else UB.
(** ManagerImpl.hpp:211-214. *)
Definition new_mgr : outcome mgr :=
  reserve 25 {| mm := empty_mem; items := []; msize := 0; sizeNext := 0; capacity := 0 |}.
(** ManagerImpl.hpp:228-237 [create]; the reference returned is a pointer to the item. *)
Definition mcreate (t : ty) (id : nat) (g : mgr) : outcome (mgr * ptr) :=
  let! (m, u) := create true t id (mm g) in
  let g := {| mm := m; items := items g; msize := msize g; sizeNext := sizeNext g; capacity := capacity g |} in
  let! g := (if capacity g <=? sizeNext g then reserve (capacity g * 3) g else Ok g) in
  if sizeNext g <? length (items g) then
    Ok ({| mm := mm g; items := upd (items g) (sizeNext g) (Some u); msize := msize g;
           sizeNext := sizeNext g + 1; capacity := capacity g |}, fst u)
  else UB.
(** ManagerImpl.hpp:244-247 [del]. *)
Definition mdel (base : ty) (p : ptr) (g : mgr) : outcome mgr :=
  let! m := setBool true base p false (mm g) in
  Ok {| mm := m; items := items g; msize := msize g; sizeNext := sizeNext g; capacity := capacity g |}.
(** The three callbacks of [refresh], ManagerImpl.hpp:256-265 and 203-206. *)
Definition mstate := (mem * list (option uptr))%type.
Definition m_alive (base : ty) (s : mstate) (i : nat) : outcome bool :=
  match nth_error (snd s) i with Some (Some u) => getBool true base (fst u) (fst s) | _ => UB end.
Definition m_swap (s : mstate) (i j : nat) : outcome mstate :=
  match nth_error (snd s) i, nth_error (snd s) j with
  | Some (Some a), Some (Some b) => Ok (fst s, upd (upd (snd s) i (Some b)) j (Some a))
  | _, _ => UB
  end.
Definition m_deinit (base : ty) (s : mstate) (i : nat) : outcome mstate :=
  match nth_error (snd s) i with
  | Some (Some u) => let! m := recycle true base u (fst s) in Ok (m, upd (snd s) i None)
  | _ => UB
  end.
Definition mrefresh (base : ty) (g : mgr) : outcome mgr :=
  let! (s, n) := refresh_impl (m_alive base) m_swap (m_deinit base) (mm g, items g) (sizeNext g) in
  Ok {| mm := fst s; items := snd s; msize := n; sizeNext := n; capacity := capacity g |}.
(** ManagerImpl.hpp:239-243 [clear], with its 32-bit counter. *)
Fixpoint clear_loop (base : ty) (fuel : nat) (i n : N) (s : mstate) : outcome mstate :=
  if (i <? n)%N then
    match fuel with
    | O => OutOfFuel
    | S f => let! s := m_deinit base s (N.to_nat i) in clear_loop base f ((i + 1) mod UINT_WRAP)%N n s
    end
  else Ok s.
Definition mclear (base : ty) (g : mgr) : outcome mgr :=
  let! s := clear_loop base (S (sizeNext g)) 0 (N.of_nat (sizeNext g)) (mm g, items g) in
  Ok {| mm := fst s; items := snd s; msize := 0; sizeNext := 0; capacity := capacity g |}.
(** Destruction of the manager: ManagerImpl.hpp:215-218, then the slots (raw bytes), then the recycler. *)
Definition mdestroy (base : ty) (g : mgr) : outcome mem :=
  let! g := mclear base g in destroy_storage (mm g).

(** Number of the object a pointer leads to. *)
Definition object_at (m : mem) (p : ptr) : option nat :=
  match nth_error (heap m) (fst p) with Some (CObj _ _ _ id) => Some id | _ => None end.
(** ManagerImpl.hpp:275-290: what [for(auto& x : manager)] meets, in order. *)
Definition iterate (g : mgr) : list (option nat) :=
  map (fun s => match s with Some u => object_at (mm g) (fst u) | None => None end) (firstn (msize g) (items g)).

(** Histories: [MDel k] uses the reference returned by the [k]-th create. *)
Inductive mop := MCreate (t : ty) | MDel (k : nat) | MRefresh | MClear | MReserve (n : nat).
Definition mrun_state := (mgr * list ptr)%type.
Definition mgr_step (base : ty) (o : mop) (s : mrun_state) : outcome mrun_state :=
  let '(g, refs) := s in
  match o with
  | MCreate t => let! (g, p) := mcreate t (length refs) g in Ok (g, refs ++ [p])
  | MDel k => match nth_error refs k with Some p => let! g := mdel base p g in Ok (g, refs) | None => UB end
  | MRefresh => let! g := mrefresh base g in Ok (g, refs)
  | MClear => let! g := mclear base g in Ok (g, refs)
  | MReserve n => let! g := reserve n g in Ok (g, refs)
  end.
Fixpoint mgr_run (base : ty) (ops : list mop) (s : mrun_state) : outcome mrun_state :=
  match ops with
  | [] => Ok s
  | o :: ops' => let! s := mgr_step base o s in mgr_run base ops' s
  end.
