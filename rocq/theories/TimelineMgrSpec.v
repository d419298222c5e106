(** What a timeline manager should do, without memory: timelines by number, which are present, which of
    those are about to go, which are gone. *)
From Coq Require Import String ZArith NArith Arith Bool List.
From Verif Require Import Common TimelineModel TimelineMgrModel.
Import ListNotations.
Local Open Scope nat_scope.

Section Spec.
  Context (O : wt_ops) (pred : nat -> list (event (WT O)) -> bool).
  Record tspec := {
    contents : list (timeline O);
    present : list (nat * bool);     (* number; true when it finished during the last update *)
    removed : list nat
  }.
  Definition tspec0 : tspec := {| contents := []; present := []; removed := [] |}.
  Definition staying (s : tspec) : list nat := map fst (filter (fun x => negb (snd x)) (present s)).
  Definition leaving (s : tspec) : list nat := map fst (filter (fun x => snd x) (present s)).

  (** One call; [None]: not allowed, or some timeline itself misbehaves.
      An update first removes the timelines that finished during the previous one, then updates every
      other timeline exactly once and notes which finished. *)
  Fixpoint update_all (fuel : nat) (ft : WT O) (n : nat) (ids : list nat) (l : list (timeline O)) : option (list (timeline O)) :=
    match l with
    | [] => Some []
    | t :: r =>
      match (if existsb (Nat.eqb n) ids then match step O pred fuel (OUpdate ft) t with Ok t' => Some t' | _ => None end else Some t),
            update_all fuel ft (S n) ids r with
      | Some t', Some r' => Some (t' :: r')
      | _, _ => None
      end
    end.
  Definition finished_in (l : list (timeline O)) (k : nat) : bool :=
    match nth_error l k with Some t => finished t | None => false end.
  Definition tspec_step (fuel : nat) (o : tmop O) (s : tspec) : option tspec :=
    match o with
    | TMCreate => Some {| contents := contents s ++ [new_timeline O true]; present := present s ++ [(length (contents s), false)]; removed := removed s |}
    | TMClear => Some {| contents := contents s; present := []; removed := removed s ++ map fst (present s) |}
    | TMUpdate ft =>
      match update_all fuel ft 0 (staying s) (contents s) with
      | Some l => Some {| contents := l; present := map (fun k => (k, finished_in l k)) (staying s); removed := removed s ++ leaving s |}
      | None => None
      end
    | TMOn k o =>
      if existsb (Nat.eqb k) (map fst (present s)) then
        match nth_error (contents s) k with
        | Some t => match step O pred fuel o t with
                    | Ok t' => Some {| contents := set_tl O (contents s) k t'; present := present s; removed := removed s |}
                    | _ => None end
        | None => None
        end
      else None
    end.
  Fixpoint tspec_run (fuel : nat) (ops : list (tmop O)) (s : tspec) : option tspec :=
    match ops with
    | [] => Some s
    | o :: ops' => match tspec_step fuel o s with Some s' => tspec_run fuel ops' s' | None => None end
    end.
End Spec.
Arguments contents {O}. Arguments present {O}. Arguments removed {O}.
