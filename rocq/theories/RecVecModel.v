(** Model of the recycled vectors, include/SSVUtils/MemoryManager/Internal/ManagerImpl.hpp:67-183
    [BaseRecVector], over the recyclers of MemModel.v (RecyclerImpl.hpp, StorageImpl.hpp), with several
    vectors alive at once, their move constructor and their destruction.

    Simplifications: those of MemModel.v.  The chunks of one recycler are a table by [sizeof(T)]; a
    pointer's deleter names the table (and the key) it was created from, as [ChunkDeleter] holds the
    address of its chunk.  Constructors and destructors of the items do not throw and do not use the
    vectors.  Growth of the [std::vector] of pointers is not observable and left out. *)
From Coq Require Import String Ascii ZArith NArith Arith Bool Lia List.
From Verif Require Import Common MemModel.
Import ListNotations.

(** Where the chunks live.  [InNodes]: [PolyStorage], an [unordered_map] (StorageImpl.hpp:171-189),
    whose nodes keep their addresses when the map is moved.  [Inside]: [MonoStorage] (162-167) and
    [PolyFixedStorage] (194-223), whose chunks are members of the recycler itself. *)
Inductive placement := InNodes | Inside.

Definition table := list (nat * option ptr).
(** StorageImpl.hpp:137-158 [unique_ptr] with [ChunkDeleter]: table of the chunk, pointer and key. *)
Definition held := (nat * uptr)%type.
(** ManagerImpl.hpp:84-85: the recycler (by the table it owns) and the items. *)
Record rvec := { own : nat; cells : list (option held) }.
(** All memory, all tables (those destroyed are [None]), all vectors in the order of their
    construction (those destroyed are [None]) and the number of objects made so far. *)
Record world := { wheap : list cell; wtrace : list event; tables : list (option table);
                  vecs : list (option rvec); count : nat }.
Definition empty_world : world := {| wheap := []; wtrace := []; tables := []; vecs := []; count := 0 |}.

Definition view (w : world) (c : table) : mem := {| heap := wheap w; chunks := c; trace := wtrace w |}.
Definition set_table (w : world) (s : nat) (c : option table) (m : mem) : world :=
  {| wheap := heap m; wtrace := trace m; tables := upd (tables w) s c; vecs := vecs w; count := count w |}.
Definition set_vec (w : world) (v : nat) (x : option rvec) : world :=
  {| wheap := wheap w; wtrace := wtrace w; tables := tables w; vecs := upd (vecs w) v x; count := count w |}.

Section RecVec.
  Context (kind : placement) (base : ty).

  (** StorageImpl.hpp:152-157: the deleter runs [Chunk::recycle] on its chunk; on a chunk that is no
      more this is UB.  An empty pointer runs nothing. *)
  Definition drop (p : option held) (w : world) : outcome world :=
    match p with
    | None => Ok w
    | Some (s, u) =>
      match nth_error (tables w) s with
      | Some (Some c) => let! m := recycle false base u (view w c) in Ok (set_table w s (Some (chunks m)) m)
      | _ => UB
      end
    end.
  (** [std::vector::clear]: the elements are destroyed in order. *)
  Fixpoint drop_all (l : list (option held)) (w : world) : outcome world :=
    match l with
    | [] => Ok w
    | p :: l' => let! w := drop p w in drop_all l' w
    end.

  (** A destroyed or never constructed vector cannot be used. *)
  Definition get_vec (w : world) (v : nat) : outcome rvec :=
    match nth_error (vecs w) v with Some (Some x) => Ok x | _ => UB end.

  (** ManagerImpl.hpp:88-91, the default constructor. *)
  Definition rv_new (w : world) : outcome world :=
    Ok {| wheap := wheap w; wtrace := wtrace w; tables := tables w ++ [Some []];
          vecs := vecs w ++ [Some {| own := length (tables w); cells := [] |}]; count := count w |}.
  (** ManagerImpl.hpp:105-110 [createAt], RecyclerImpl.hpp:75-83 [getCreateEmplaceAt]: an iterator past
      the end is UB. *)
  Definition rv_create_at (v i : nat) (t : ty) (w : world) : outcome world :=
    let! x := get_vec w v in
    match nth_error (tables w) (own x) with
    | Some (Some c) =>
      if i <=? length (cells x) then
        let! (m, u) := create false t (count w) (view w c) in
        let w := set_table w (own x) (Some (chunks m)) m in
        let w := set_vec w v (Some {| own := own x;
                   cells := firstn i (cells x) ++ Some (own x, u) :: skipn i (cells x) |}) in
        Ok {| wheap := wheap w; wtrace := wtrace w; tables := tables w; vecs := vecs w; count := S (count w) |}
      else UB
    | _ => UB
    end.
  (** ManagerImpl.hpp:99-103 [create], RecyclerImpl.hpp:63-68 [getCreateEmplace]: at the end. *)
  Definition rv_create (v : nat) (t : ty) (w : world) : outcome world :=
    let! x := get_vec w v in rv_create_at v (length (cells x)) t w.
  (** ManagerImpl.hpp:112-115 [operator[]] gives access to the pointer itself: [vec[i].reset()]. *)
  Definition rv_reset (v i : nat) (w : world) : outcome world :=
    let! x := get_vec w v in
    match nth_error (cells x) i with
    | Some p => drop p (set_vec w v (Some {| own := own x; cells := upd (cells x) i None |}))
    | None => UB
    end.
  (** [vec2[j] = std::move(vec1[i])], as [unique_ptr] does it: [reset(u.release())] with the old
      deleter, then the deleter is taken over. *)
  Definition rv_give (v i v2 j : nat) (w : world) : outcome world :=
    let! x := get_vec w v in
    match nth_error (cells x) i with
    | Some p =>
      let w := set_vec w v (Some {| own := own x; cells := upd (cells x) i None |}) in
      let! y := get_vec w v2 in
      match nth_error (cells y) j with
      | Some old => drop old (set_vec w v2 (Some {| own := own y; cells := upd (cells y) j p |}))
      | None => UB
      end
    | None => UB
    end.
  (** ManagerImpl.hpp:122-125 [clear]. *)
  Definition rv_clear (v : nat) (w : world) : outcome world :=
    let! x := get_vec w v in
    drop_all (cells x) (set_vec w v (Some {| own := own x; cells := [] |})).
  (** ManagerImpl.hpp:92, the move constructor, memberwise: the recycler, then the items.
      Inside: each chunk's chain is taken over and the source's nulled (StorageImpl.hpp:44-48, 107-109);
      the deleters of the items are moved as they are.  InNodes: the new map has the old nodes and the
      source is left empty. *)
  Definition rv_move (v : nat) (w : world) : outcome world :=
    let! x := get_vec w v in
    match nth_error (tables w) (own x) with
    | Some (Some c) =>
      let s := length (tables w) in
      match kind with
      | Inside =>
        let w := set_vec w v (Some {| own := own x; cells := [] |}) in
        Ok {| wheap := wheap w; wtrace := wtrace w;
              tables := upd (tables w) (own x) (Some (map (fun kp => (fst kp, None)) c)) ++ [Some c];
              vecs := vecs w ++ [Some {| own := s; cells := cells x |}]; count := count w |}
      | InNodes =>
        let w := set_vec w v (Some {| own := s; cells := [] |}) in
        Ok {| wheap := wheap w; wtrace := wtrace w; tables := tables w ++ [Some []];
              vecs := vecs w ++ [Some {| own := own x; cells := cells x |}]; count := count w |}
      end
    | _ => UB
    end.
  (** ManagerImpl.hpp:94-97: [clear], then the (empty) items and the recycler with its chunks. *)
  Definition rv_destroy (v : nat) (w : world) : outcome world :=
    let! x := get_vec w v in
    let! w := rv_clear v w in
    match nth_error (tables w) (own x) with
    | Some (Some c) =>
      let! m := destroy_storage (view w c) in
      Ok (set_vec (set_table w (own x) None m) v None)
    | _ => UB
    end.

  (** Histories; vectors are named by the order of their construction (a move constructs one). *)
  Inductive vop :=
  | VNew
  | VCreate (v : nat) (t : ty)
  | VCreateAt (v i : nat) (t : ty)
  | VReset (v i : nat)
  | VGive (v i v2 j : nat)
  | VClear (v : nat)
  | VMove (v : nat)
  | VDestroy (v : nat).
  Definition rv_step (o : vop) (w : world) : outcome world :=
    match o with
    | VNew => rv_new w
    | VCreate v t => rv_create v t w
    | VCreateAt v i t => rv_create_at v i t w
    | VReset v i => rv_reset v i w
    | VGive v i v2 j => rv_give v i v2 j w
    | VClear v => rv_clear v w
    | VMove v => rv_move v w
    | VDestroy v => rv_destroy v w
    end.
  Fixpoint rv_run (ops : list vop) (w : world) : outcome world :=
    match ops with
    | [] => Ok w
    | o :: ops' => let! w := rv_step o w in rv_run ops' w
    end.
End RecVec.

(** What a vector shows: for each pointer, empty or the number of the object it leads to. *)
Definition shows (w : world) (v : nat) : option (list (option nat)) :=
  match nth_error (vecs w) v with
  | Some (Some x) => Some (map (fun p => match p with
                                         | Some (_, u) => object_at (view w []) (fst u)
                                         | None => None end) (cells x))
  | _ => None
  end.

(** StorageImpl.hpp:51-56 [PtrChain::operator=(PtrChain&&)], for a recycler kept by value and assigned
    from another one (Inside): the chain is overwritten, nothing is freed. *)
Definition assign_table (dst src : table) : table * table := (src, map (fun kp => (fst kp, None)) src).
