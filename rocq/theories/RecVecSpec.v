(** What recycled vectors are meant to do, without memory: lists of objects, each object knowing the
    home it will go back to; every vector has one home. *)
From Coq Require Import Arith Bool List.
From Verif Require Import MemModel RecVecModel.
Import ListNotations.

(** An object: its number and its home. *)
Definition obj := (nat * nat)%type.
(** Homes (true: still there), vectors with their home and contents, objects made and objects
    destroyed, in order. *)
Record plainw := { homes : list bool; plain : list (option (nat * list (option obj))); born : nat; died : list nat }.
Definition plain0 : plainw := {| homes := []; plain := []; born := 0; died := [] |}.

Fixpoint put {A} (l : list A) (i : nat) (x : A) : list A :=
  match l, i with
  | [], _ => []
  | _ :: l', O => x :: l'
  | y :: l', S i' => y :: put l' i' x
  end.
Definition with_vec (s : plainw) (v : nat) (x : option (nat * list (option obj))) : plainw :=
  {| homes := homes s; plain := put (plain s) v x; born := born s; died := died s |}.
(** An object can only go back to a home that is there. *)
Definition bury (p : option obj) (s : plainw) : option plainw :=
  match p with
  | None => Some s
  | Some (id, h) =>
    if nth h (homes s) false
    then Some {| homes := homes s; plain := plain s; born := born s; died := died s ++ [id] |} else None
  end.
Fixpoint bury_all (l : list (option obj)) (s : plainw) : option plainw :=
  match l with
  | [] => Some s
  | p :: l' => match bury p s with Some s => bury_all l' s | None => None end
  end.
Definition the_vec (s : plainw) (v : nat) : option (nat * list (option obj)) :=
  match nth_error (plain s) v with Some x => x | None => None end.
Definition insert_new (s : plainw) (v i : nat) : option plainw :=
  match the_vec s v with
  | Some (h, l) =>
    if i <=? length l then
      Some {| homes := homes s; plain := put (plain s) v (Some (h, firstn i l ++ Some (born s, h) :: skipn i l));
              born := S (born s); died := died s |}
    else None
  | None => None
  end.
Definition plain_step (kind : placement) (o : vop) (s : plainw) : option plainw :=
  match o with
  | VNew => Some {| homes := homes s ++ [true]; plain := plain s ++ [Some (length (homes s), [])];
                    born := born s; died := died s |}
  | VCreate v t => match the_vec s v with Some (_, l) => insert_new s v (length l) | None => None end
  | VCreateAt v i t => insert_new s v i
  | VReset v i =>
    match the_vec s v with
    | Some (h, l) =>
      match nth_error l i with Some p => bury p (with_vec s v (Some (h, put l i None))) | None => None end
    | None => None
    end
  | VGive v i v2 j =>
    match the_vec s v with
    | Some (h, l) =>
      match nth_error l i with
      | Some p =>
        let s := with_vec s v (Some (h, put l i None)) in
        match the_vec s v2 with
        | Some (h2, l2) =>
          match nth_error l2 j with Some old => bury old (with_vec s v2 (Some (h2, put l2 j p))) | None => None end
        | None => None
        end
      | None => None
      end
    | None => None
    end
  | VClear v =>
    match the_vec s v with Some (h, l) => bury_all l (with_vec s v (Some (h, []))) | None => None end
  | VMove v =>
    match the_vec s v with
    | Some (h, l) =>
      let f := length (homes s) in
      (* the homes of a map travel with it; those inside a vector stay *)
      let '(old, new) := match kind with InNodes => (f, h) | Inside => (h, f) end in
      Some {| homes := homes s ++ [true];
              plain := put (plain s) v (Some (old, [])) ++ [Some (new, l)]; born := born s; died := died s |}
    | None => None
    end
  | VDestroy v =>
    match the_vec s v with
    | Some (h, l) =>
      match bury_all l (with_vec s v (Some (h, []))) with
      | Some s => Some {| homes := put (homes s) h false; plain := put (plain s) v None; born := born s; died := died s |}
      | None => None
      end
    | None => None
    end
  end.
Fixpoint plain_run (kind : placement) (ops : list vop) (s : plainw) : option plainw :=
  match ops with
  | [] => Some s
  | o :: ops' => match plain_step kind o s with Some s => plain_run kind ops' s | None => None end
  end.
(** What vector [v] contains: the numbers of its objects. *)
Definition contents (s : plainw) (v : nat) : option (list (option nat)) :=
  match the_vec s v with Some (_, l) => Some (map (option_map fst) l) | None => None end.

(** Sizes alone: which vectors exist and how many pointers each has. *)
Definition size_of (z : list (option nat)) (v : nat) : option nat :=
  match nth_error z v with Some x => x | None => None end.
Definition size_step (o : vop) (z : list (option nat)) : option (list (option nat)) :=
  match o with
  | VNew => Some (z ++ [Some 0])
  | VCreate v t => match size_of z v with Some n => Some (put z v (Some (S n))) | None => None end
  | VCreateAt v i t =>
    match size_of z v with Some n => if i <=? n then Some (put z v (Some (S n))) else None | None => None end
  | VReset v i => match size_of z v with Some n => if i <? n then Some z else None | None => None end
  | VGive v i v2 j =>
    match size_of z v, size_of z v2 with
    | Some n, Some n2 => if (i <? n) && (j <? n2) then Some z else None
    | _, _ => None
    end
  | VClear v => match size_of z v with Some n => Some (put z v (Some 0)) | None => None end
  | VMove v => match size_of z v with Some n => Some (put z v (Some 0) ++ [Some n]) | None => None end
  | VDestroy v => match size_of z v with Some n => Some (put z v None) | None => None end
  end.
Fixpoint size_run (ops : list vop) (z : list (option nat)) : option (list (option nat)) :=
  match ops with
  | [] => Some z
  | o :: ops' => match size_step o z with Some z => size_run ops' z | None => None end
  end.
(** Histories that hand no pointer from one vector to another, and those that move no vector. *)
Definition no_give (ops : list vop) : Prop := forall v i v2 j, ~ In (VGive v i v2 j) ops.
Definition no_move (ops : list vop) : Prop := forall v, ~ In (VMove v) ops.
