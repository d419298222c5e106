(** Programs over finite maps. *)
From Coq Require Import Arith Bool List.
From Verif Require Import VecModel VecSpec VmWorldModel.
Import ListNotations.

Section SPEC.
Context {K V : Type} (ltb eqb : K -> K -> bool) (dflt : V).
Notation fmap := (K -> option V).
Notation maps := (nat -> option fmap).
Definition none : fmap := fun _ => None.
Definition put (f : fmap) (k : K) (v : V) : fmap := fun x => if eqb k x then Some v else f x.
(** A subscript adds the key with the default value if it is missing. *)
Definition touch (f : fmap) (k : K) : fmap := match f k with Some _ => f | None => put f k dflt end.
Definition value (f : fmap) (k : K) : V := match f k with Some v => v | None => dflt end.
Definition known (f : fmap) (k : K) : bool := match f k with Some _ => true | None => false end.
Definition give (s : maps) (i : nat) (f : option fmap) : maps := fun j => if j =? i then f else s j.
(** [m[a] = m[b]] keeps its references if the subscript evaluated second adds nothing, or adds behind the other one
    without reallocating. *)
Definition link_safe (f : fmap) (fst_key snd_key : K) (realloc : bool) : bool :=
  known f snd_key || eqb fst_key snd_key || (negb realloc && ltb fst_key snd_key).
Definition sstep (s : maps) (c : vcmd K V) : option maps :=
  match c with
  | VNew i => match s i with None => Some (give s i (Some none)) | _ => None end
  | VCopy i j => match s i, s j with None, Some f => Some (give s i (Some f)) | _, _ => None end
  | VMove i j => match s i, s j with None, Some f => Some (give (give s i (Some f)) j (Some none)) | _, _ => None end
  | VCopyTo i j => match s i, s j with Some _, Some f => Some (give s i (Some f)) | _, _ => None end
  | VMoveTo i j => match s i, s j with Some _, Some f => Some (give (give s i (Some f)) j (Some none)) | _, _ => None end
  | VDo i (Assign k v) => match s i with Some f => Some (give s i (Some (put f k v))) | None => None end
  | VDo i (Touch k) => match s i with Some f => Some (give s i (Some (touch f k))) | None => None end
  | VDo i Clear => match s i with Some f => Some (give s i (Some none)) | None => None end
  | VLink i a j b right_first realloc =>
    match s i, s j with
    | Some f, Some g =>
      if i =? j then
        if (if right_first then link_safe f b a realloc else link_safe f a b realloc)
        then Some (give s i (Some (put (touch f b) a (value f b)))) else None
      else Some (give (give s j (Some (touch g b))) i (Some (put f a (value g b))))
    | _, _ => None
    end
  | VEnd i => match s i with Some _ => Some (give s i None) | None => None end
  end.
Fixpoint srun (s : maps) (p : list (vcmd K V)) : option maps :=
  match p with [] => Some s | c :: p => match sstep s c with Some s => srun s p | None => None end end.
(** The vectors hold exactly the maps, in the order of the keys. *)
Definition shows (w : vworld K V) (s : maps) : Prop :=
  forall i, match w i, s i with
  | Some d, Some f => ordered (fun p q => ltb (fst p) (fst q) = true) d /\ forall k v, In (k, v) d <-> f k = Some v
  | None, None => True
  | _, _ => False
  end.
End SPEC.
