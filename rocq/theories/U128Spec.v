(** The number four words stand for. *)
From Coq Require Import ZArith.
From Verif Require Import U128Model.
Local Open Scope Z_scope.

Definition word (x : Z) : Prop := 0 <= x < 2 ^ 32.
Definition wf (a : x4) : Prop := word (v0 a) /\ word (v1 a) /\ word (v2 a) /\ word (v3 a).
Definition value (a : x4) : Z := v0 a + 2 ^ 32 * v1 a + 2 ^ 64 * v2 a + 2 ^ 96 * v3 a.
(** [a] is a proper 128-bit number with the value [z]. *)
Definition is (a : x4) (z : Z) : Prop := wf a /\ value a = z.
