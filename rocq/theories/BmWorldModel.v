(** Model of several bimaps that are constructed, moved, destroyed and asked to erase by references to
    keys that live in a bimap (include/SSVUtils/Bimap/Inc/Bimap.hpp), in builds with and without
    assertions.
    Pairs keep the number that stands for their address: the storage holds [unique_ptr]s
    (Bimap.hpp:34, 46-48), so moving a bimap moves the addresses and not the pairs.  The numbers are
    drawn from one counter for all bimaps. *)
From Coq Require Import String Arith Bool Lia List.
From Verif Require Import Common BimapModel.
Import ListNotations.

Section WORLD.
Context {T1 T2 : Type} (lt1 : T1 -> T1 -> bool) (lt2 : T2 -> T2 -> bool).

(** Bimap variables in the order in which they were constructed ([None]: destroyed) and a fresh address. *)
Record world := { maps : list (option (bimap T1 T2)); fresh : nat }.
Definition empty_world : world := {| maps := []; fresh := 0 |}.

Fixpoint set_at {A} (k : nat) (x : A) (l : list A) : list A :=
  match l, k with
  | [], _ => []
  | _ :: l, 0 => x :: l
  | y :: l, S k => y :: set_at k x l
  end.
Definition with_next (n : nat) (b : bimap T1 T2) : bimap T1 T2 :=
  {| storage := storage b; set1 := set1 b; set2 := set2 b; next := n |}.
Definition fresh_bimap (n : nat) : bimap T1 T2 := {| storage := []; set1 := []; set2 := []; next := n |}.

(** Reading a pair through its address: some live bimap must own it. *)
Fixpoint read (ms : list (option (bimap T1 T2))) (i : nat) : option (T1 * T2) :=
  match ms with
  | [] => None
  | Some b :: r => match deref b i with Some p => Some p | None => read r i end
  | None :: r => read r i
  end.

(** Bimap.hpp:114-130 [eraseImpl] in a build without assertions: the key is looked up (dereferencing
    [end] if it is absent) and the pair removed. *)
Definition erase1_ndebug (b : bimap T1 T2) (x : T1) : outcome (bimap T1 T2) :=
  obind (find1 lt1 b x) (fun r => match r with None => UB | Some i => erase_pair lt1 lt2 b i end).
Definition erase2_ndebug (b : bimap T1 T2) (y : T2) : outcome (bimap T1 T2) :=
  obind (find2 lt2 b y) (fun r => match r with None => UB | Some i => erase_pair lt1 lt2 b i end).

(** One call whose arguments live outside of the bimaps; [nd]: assertions are off. *)
Definition call (nd : bool) (b : bimap T1 T2) (o : bm_op T1 T2) : outcome (bimap T1 T2) :=
  if nd then
    match o with
    | Emplace x y => emplace_ndebug lt1 lt2 b x y
    | Erase1 x => erase1_ndebug b x
    | Erase2 y => erase2_ndebug b y
    | BClear => Ok (clear b)
    end
  else bm_step lt1 lt2 b o.
(** Bimap.hpp:141-144: the constructor from an initializer list emplaces the pairs in order. *)
Fixpoint construct (nd : bool) (b : bimap T1 T2) (l : list (T1 * T2)) : outcome (bimap T1 T2) :=
  match l with
  | [] => Ok b
  | p :: l => obind (call nd b (Emplace (fst p) (snd p))) (fun b' => construct nd b' l)
  end.

(** The assertion of Bimap.hpp:129 after the removal: [has] reads the key through the reference again,
    unless the set is empty and nothing is compared.  [ms] are the bimaps after the removal. *)
Definition recheck1 (ms : list (option (bimap T1 T2))) (b : bimap T1 T2) (i : nat) : outcome unit :=
  match set1 b with
  | [] => Ok tt
  | _ => match read ms i with
         | None => UB
         | Some p => obind (has1 lt1 b (fst p)) (fun h => if h then UB else Ok tt)
         end
  end.
Definition recheck2 (ms : list (option (bimap T1 T2))) (b : bimap T1 T2) (i : nat) : outcome unit :=
  match set2 b with
  | [] => Ok tt
  | _ => match read ms i with
         | None => UB
         | Some p => obind (has2 lt2 b (snd p)) (fun h => if h then UB else Ok tt)
         end
  end.

(** Client operations.  [EraseRef1 k i] is [erase(r)] on bimap [k], [r] a reference to the first half
    of the pair at address [i], in whichever bimap it is; [b.erase(b.at(x))] is one. *)
Inductive w_op :=
  | Construct (l : list (T1 * T2))
  | MoveConstruct (j : nat)
  | MoveAssign (k j : nat)
  | Destroy (k : nat)
  | Call (k : nat) (o : bm_op T1 T2)
  | EraseRef1 (k i : nat)
  | EraseRef2 (k i : nat).

(** Moves: the implicitly declared move operations of Bimap.hpp:24-53 move the storage and both sets.
    A moved-from [std::vector] or [std::set] is empty, as is one move-assigned to itself (libstdc++). *)
Definition w_step (nd : bool) (w : world) (o : w_op) : outcome world :=
  match o with
  | Construct l =>
    obind (construct nd (fresh_bimap (fresh w)) l) (fun b =>
    Ok {| maps := maps w ++ [Some b]; fresh := next b |})
  | MoveConstruct j =>
    match nth_error (maps w) j with
    | Some (Some b) => Ok {| maps := set_at j (Some (fresh_bimap (fresh w))) (maps w) ++ [Some b]; fresh := fresh w |}
    | _ => UB
    end
  | MoveAssign k j =>
    match nth_error (maps w) k, nth_error (maps w) j with
    | Some (Some _), Some (Some b) =>
      Ok {| maps := set_at j (Some (fresh_bimap (fresh w))) (set_at k (Some b) (maps w)); fresh := fresh w |}
    | _, _ => UB
    end
  | Destroy k =>
    match nth_error (maps w) k with
    | Some (Some _) => Ok {| maps := set_at k None (maps w); fresh := fresh w |}
    | _ => UB
    end
  | Call k o =>
    match nth_error (maps w) k with
    | Some (Some b) =>
      obind (call nd (with_next (fresh w) b) o) (fun b' =>
      Ok {| maps := set_at k (Some b') (maps w); fresh := next b' |})
    | _ => UB
    end
  | EraseRef1 k i =>
    match nth_error (maps w) k, read (maps w) i with
    | Some (Some b), Some p =>
      obind (erase1_ndebug b (fst p)) (fun b' =>
      let ms := set_at k (Some b') (maps w) in
      obind (if nd then Ok tt else recheck1 ms b' i) (fun _ =>
      Ok {| maps := ms; fresh := fresh w |}))
    | _, _ => UB
    end
  | EraseRef2 k i =>
    match nth_error (maps w) k, read (maps w) i with
    | Some (Some b), Some p =>
      obind (erase2_ndebug b (snd p)) (fun b' =>
      let ms := set_at k (Some b') (maps w) in
      obind (if nd then Ok tt else recheck2 ms b' i) (fun _ =>
      Ok {| maps := ms; fresh := fresh w |}))
    | _, _ => UB
    end
  end.
Fixpoint w_run (nd : bool) (w : world) (h : list w_op) : outcome world :=
  match h with [] => Ok w | o :: h => obind (w_step nd w o) (fun w' => w_run nd w' h) end.

(** Assignment through a [T1&] (Bimap.hpp:213-218, 234-238); [write2] of BimapModel is its mirror image. *)
Definition write1 (b : bimap T1 T2) (i : nat) (x : T1) : bimap T1 T2 :=
  {| storage := map (fun e => if fst e =? i then (fst e, (x, snd (snd e))) else e) (storage b);
     set1 := set1 b; set2 := set2 b; next := next b |}.
End WORLD.
Arguments world : clear implicits.
Arguments w_op : clear implicits.
