(** Managers whose objects use them: constructors and destructors that call [create] and [del] of the manager that
    owns the object (include/SSVUtils/MemoryManager/Internal/ManagerImpl.hpp:187-306).

    Simplified: memory blocks are not shown (MemModel has them): an object is in its block from its construction to the
    end of its destructor, and using its flag afterwards is UB (the block is then a link of the free chain,
    StorageImpl.hpp:70-75, 127-132).  Constructors and destructors call nothing but [create] and [del].  Objects are
    numbered in the order in which their constructors start; the 32-bit counter of [clear] does not wrap. *)
From Coq Require Import Arith Bool List.
From Verif Require Import Common MemModel.
Import ListNotations.

(** What a constructor or destructor does: [del] of an object, or [create] of one whose constructor does [l]. *)
Inductive act := ADel (k : nat) | ANew (l : list act).

(** An object and its flag, or one that was destroyed. *)
Inductive obj := There (flag : bool) | Gone.
(** The slots of [items] ([None]: raw bytes), the objects by number, the three counters, the objects destroyed so far. *)
Record st := { slots : list (option nat); objs : list obj; vis : nat; next : nat; cap : nat; log : list nat }.

Definition with_slots (v : list (option nat)) (s : st) := {| slots := v; objs := objs s; vis := vis s; next := next s; cap := cap s; log := log s |}.
Definition with_objs (v : list obj) (s : st) := {| slots := slots s; objs := v; vis := vis s; next := next s; cap := cap s; log := log s |}.

(** ManagerImpl.hpp:244-247 [del] through LayoutImpl.hpp:101-104. *)
Definition del (k : nat) (s : st) : outcome st :=
  match nth_error (objs s) k with
  | Some (There _) => Ok (with_objs (upd (objs s) k (There false)) s)
  | _ => UB
  end.
(** ManagerImpl.hpp:233-236: the last three lines of [create].  [inside] tells that a slot is being destroyed
    ([deinitAt], GrowableArray.hpp:105-109): growing then frees the slot under the running destructor of its
    [unique_ptr], which is still to be written to. *)
Definition place (inside : bool) (id : nat) (s : st) : outcome st :=
  if cap s <=? next s then
    if inside then UB
    else Ok {| slots := upd (slots s ++ repeat None (cap s * 3 - cap s)) (next s) (Some id); objs := objs s;
               vis := vis s; next := next s + 1; cap := cap s * 3; log := log s |}
  else Ok {| slots := upd (slots s) (next s) (Some id); objs := objs s; vis := vis s; next := next s + 1; cap := cap s; log := log s |}.
(** ManagerImpl.hpp:228-237 [create]: the flag is set, then the constructor runs (LayoutImpl.hpp:81-88), then the object
    gets its slot. *)
Fixpoint do_act (inside : bool) (a : act) (s : st) {struct a} : outcome st :=
  match a with
  | ADel k => del k s
  | ANew l =>
      let! s' := (fix go (l : list act) (s : st) : outcome st :=
        match l with [] => Ok s | b :: l' => let! s := do_act inside b s in go l' s end) l (with_objs (objs s ++ [There true]) s) in
      place inside (length (objs s)) s'
  end.
Fixpoint do_acts (inside : bool) (l : list act) (s : st) : outcome st :=
  match l with [] => Ok s | a :: l' => let! s := do_act inside a s in do_acts inside l' s end.

Section Run.
(** What the destructor of each object does. *)
Variable script : nat -> list act.

(** ManagerImpl.hpp:203-206. *)
Definition alive_at (s : st) (i : nat) : outcome bool :=
  match nth_error (slots s) i with
  | Some (Some id) => match nth_error (objs s) id with Some (There f) => Ok f | _ => UB end
  | _ => UB
  end.
(** ManagerImpl.hpp:260-263. *)
Definition swap_at (s : st) (i j : nat) : outcome st :=
  match nth_error (slots s) i, nth_error (slots s) j with
  | Some (Some a), Some (Some b) => Ok (with_slots (upd (upd (slots s) i (Some b)) j (Some a)) s)
  | _, _ => UB
  end.
(** GrowableArray.hpp:105-109 [deinitAt] down to StorageImpl.hpp:127-132 [recycle]. *)
Definition deinit_at (s : st) (i : nat) : outcome st :=
  match nth_error (slots s) i with
  | Some (Some id) =>
      match nth_error (objs s) id with
      | Some (There _) =>
          let! s := do_acts true (script id) s in
          Ok {| slots := upd (slots s) i None; objs := upd (objs s) id Gone; vis := vis s; next := next s; cap := cap s; log := log s ++ [id] |}
      | _ => UB
      end
  | _ => UB
  end.
(** SharedFuncs.hpp:75-80: the check under [SSVU_DEBUG]. *)
Fixpoint all_alive (n : nat) (s : st) : outcome bool :=
  match n with
  | O => Ok true
  | S n => let! b := all_alive n s in let! a := alive_at s n in Ok (b && a)
  end.
(** ManagerImpl.hpp:256-265 [refresh] with SharedFuncs.hpp:63-82. *)
Definition refresh (debug : bool) (s : st) : outcome st :=
  let! (s, n) := refresh_impl alive_at swap_at deinit_at s (next s) in
  let s := {| slots := slots s; objs := objs s; vis := n; next := n; cap := cap s; log := log s |} in
  if debug then let! b := all_alive n s in if b then Ok s else UB else Ok s.
(** ManagerImpl.hpp:239-243 [clear]: [sizeNext] is read again at every step. *)
Fixpoint clear_from (fuel : nat) (i : nat) (s : st) : outcome st :=
  if i <? next s then
    match fuel with O => OutOfFuel | S f => let! s := deinit_at s i in clear_from f (i + 1) s end
  else Ok {| slots := slots s; objs := objs s; vis := 0; next := 0; cap := cap s; log := log s |}.
(** A run visits at most [cap] slots: they cannot grow meanwhile. *)
Definition clear (s : st) : outcome st := clear_from (S (cap s)) 0 s.

(** Calls from outside. *)
Inductive op := OMake (l : list act) | ODel (k : nat) | ORefresh (debug : bool) | OClear.
Definition step (o : op) (s : st) : outcome st :=
  match o with
  | OMake l => do_act false (ANew l) s
  | ODel k => del k s
  | ORefresh debug => refresh debug s
  | OClear => clear s
  end.
Fixpoint run (ops : list op) (s : st) : outcome st :=
  match ops with [] => Ok s | o :: ops' => let! s := step o s in run ops' s end.
End Run.
(** ManagerImpl.hpp:211-214. *)
Definition fresh : st := {| slots := repeat None 25; objs := []; vis := 0; next := 0; cap := 25; log := [] |}.
(** ManagerImpl.hpp:275-290: what iterating meets. *)
Definition shown (s : st) : list (option nat) := firstn (vis s) (slots s).
