(** Model of getDistLevenshtein, include/SSVUtils/Core/String/Utils.hpp:245-277. *)
From Coq Require Import String Ascii ZArith NArith Arith Bool Lia List.
From Verif Require Import Common.
Import ListNotations.

(** Checked array write [costs[i] = v]. *)
Fixpoint set_nth {A} (i : nat) (v : A) (l : list A) : option (list A) :=
  match l, i with
  | [], _ => None
  | _ :: r, O => Some (v :: r)
  | x :: r, S i' => match set_nth i' v r with Some r' => Some (x :: r') | None => None end
  end.

(** Lines 261-274, the inner loop over [mB] from position [j]. Costs are natural numbers: they never
    exceed the string sizes, so [std::size_t] does not wrap. Any index outside the array is UB. *)
Fixpoint lev_inner (a : ascii) (bs : bytes) (j corner : nat) (costs : list nat) : outcome (list nat) :=
  match bs with
  | [] => Ok costs
  | b :: bs' =>
      match nth_error costs (j + 1), nth_error costs j with
      | Some upper, Some lft =>
          let v := if Ascii.eqb a b then corner
                   else let t := if upper <? corner then upper else corner in
                        (if lft <? t then lft else t) + 1 in
          match set_nth (j + 1) v costs with
          | Some costs' => lev_inner a bs' (j + 1) upper costs'
          | None => UB
          end
      | _, _ => UB
      end
  end.

(** Lines 255-275, the outer loop over [mA]. *)
Fixpoint lev_outer (as_ bs : bytes) (i : nat) (costs : list nat) : outcome (list nat) :=
  match as_ with
  | [] => Ok costs
  | a :: as' =>
      match set_nth 0 (i + 1) costs with
      | Some costs' => obind (lev_inner a bs 0 i costs') (fun c => lev_outer as' bs (i + 1) c)
      | None => UB
      end
  end.

(** Lines 245-277. *)
Definition getDistLevenshtein (a b : bytes) : outcome nat :=
  let m := length a in
  let n := length b in
  if m =? 0 then Ok n else
  if n =? 0 then Ok m else
  obind (lev_outer a b 0 (seq 0 (n + 1))) (fun costs =>
  match nth_error costs n with Some d => Ok d | None => UB end).
