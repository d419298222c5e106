(** Specification of the memory recycler and the manager, independent of heaps and pointers. *)
From Coq Require Import Arith Bool List.
From Verif Require Import MemModel.
Import ListNotations.

(** What happened, read off a trace of events. *)
Definition allocs (tr : list event) : list nat := flat_map (fun e => match e with EAlloc b => [b] | _ => [] end) tr.
Definition deallocs (tr : list event) : list nat := flat_map (fun e => match e with EDealloc b => [b] | _ => [] end) tr.
Definition ctors (tr : list event) : list nat := flat_map (fun e => match e with ECtor b => [b] | _ => [] end) tr.
Definition dtors (tr : list event) : list nat := flat_map (fun e => match e with EDtor b => [b] | _ => [] end) tr.

(** *** Recycler: per size of object a stack of returned blocks; a new object takes the most recently
    returned block of its size, or a fresh one if there is none. *)
Record rspec := { stack : nat -> list nat; fresh : nat; placed : list (option (ty * nat)) }.
Definition rspec0 : rspec := {| stack := fun _ => []; fresh := 0; placed := [] |}.
Definition set_stack (f : nat -> list nat) (k : nat) (l : list nat) : nat -> list nat :=
  fun k' => if k' =? k then l else f k'.
Definition rspec_step (o : rop) (s : rspec) : option rspec :=
  match o with
  | RCreate t =>
    match stack s (size t) with
    | [] => Some {| stack := stack s; fresh := fresh s + 1; placed := placed s ++ [Some (t, fresh s)] |}
    | b :: r => Some {| stack := set_stack (stack s) (size t) r; fresh := fresh s; placed := placed s ++ [Some (t, b)] |}
    end
  | RDrop k =>
    match nth_error (placed s) k with
    | Some (Some (t, b)) =>
      Some {| stack := set_stack (stack s) (size t) (b :: stack s (size t)); fresh := fresh s; placed := upd (placed s) k None |}
    | Some None => Some s
    | None => None
    end
  end.
Fixpoint rspec_run (ops : list rop) (s : rspec) : option rspec :=
  match ops with
  | [] => Some s
  | o :: ops' => match rspec_step o s with Some s' => rspec_run ops' s' | None => None end
  end.
(** Blocks in use. *)
Definition in_use (s : rspec) : list nat := flat_map (fun x => match x with Some (_, b) => [b] | None => [] end) (placed s).
(** Number of objects alive after a history, and the most alive at any time during it. *)
Definition n_live (s : rspec) : nat := length (in_use s).
Fixpoint peak (ops : list rop) (s : rspec) : nat :=
  match ops with
  | [] => n_live s
  | o :: ops' => match rspec_step o s with Some s' => Nat.max (n_live s) (peak ops' s') | None => n_live s end
  end.

(** *** Manager: objects are numbered by creation. *)
Record mspec := {
  owned : list (nat * bool);   (* created and not destroyed, with their alive flag *)
  shown : list nat;            (* what iteration visits (in some order) *)
  made : nat;                  (* number of objects created *)
  gone : list nat;             (* destroyed objects *)
  room : nat                   (* capacity *)
}.
Definition mspec0 : mspec := {| owned := []; shown := []; made := 0; gone := []; room := 25 |}.
Definition mspec_step (o : mop) (s : mspec) : option mspec :=
  match o with
  | MCreate t =>
    Some {| owned := owned s ++ [(made s, true)]; shown := shown s; made := made s + 1; gone := gone s;
            room := if room s <=? length (owned s) then room s * 3 else room s |}
  | MDel k =>
    if existsb (fun x => fst x =? k) (owned s) then
      Some {| owned := map (fun x => if fst x =? k then (fst x, false) else x) (owned s); shown := shown s;
              made := made s; gone := gone s; room := room s |}
    else None
  | MRefresh =>
    Some {| owned := filter (fun x => snd x) (owned s); shown := map fst (filter (fun x => snd x) (owned s)); made := made s;
            gone := gone s ++ map fst (filter (fun x => negb (snd x)) (owned s)); room := room s |}
  | MClear =>
    Some {| owned := []; shown := []; made := made s; gone := gone s ++ map fst (owned s); room := room s |}
  | MReserve n =>
    if room s <? n then Some {| owned := owned s; shown := shown s; made := made s; gone := gone s; room := n |} else None
  end.
Fixpoint mspec_run (ops : list mop) (s : mspec) : option mspec :=
  match ops with
  | [] => Some s
  | o :: ops' => match mspec_step o s with Some s' => mspec_run ops' s' | None => None end
  end.
