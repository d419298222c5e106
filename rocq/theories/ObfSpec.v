(** A plain variable of the type under the same operations. *)
From Coq Require Import String Ascii ZArith NArith Arith Bool Lia List.
From Verif Require Import Common IntToStrModel ObfModel.
Import ListNotations.
Local Open Scope Z_scope.

Fixpoint plain_run (t : inttype) (v : Z) (ops : list obf_op) : outcome (list Z) :=
  match ops with
  | [] => Ok [v]
  | OSet w :: r => obind (plain_run t w r) (fun vs => Ok (v :: vs))
  | OBin b w :: r => obind (machine_op t b v w) (fun v' =>
                     obind (plain_run t v' r) (fun vs => Ok (v :: vs)))
  end.
