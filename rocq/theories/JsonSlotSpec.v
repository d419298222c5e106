(** What sound value storage means. *)
From Coq Require Import String Ascii ZArith NArith Arith Bool Lia List Permutation.
From Verif Require Import Common JsonNumModel JsonModel JsonSlotModel.
Import ListNotations.

(** The tag says what is stored, everywhere. *)
Inductive matches : slot -> Prop :=
| m_null : matches (Clean KNll)
| m_leaf : forall id l, matches (Leaf (leaf_kind l) id l)
| m_node : forall id obj kids, (forall p, In p kids -> matches (snd p)) -> matches (Node (node_kind obj) id obj kids).
(** The objects living in a value. *)
Fixpoint live (s : slot) : list nat :=
  match s with
  | Clean _ => []
  | Leaf _ id _ => [id]
  | Node _ id _ kids => id :: flat_map (fun p => live (snd p)) kids
  end.
Definition live_all (ks : list (bytes * slot)) : list nat := flat_map (fun p => live (snd p)) ks.
(** Every object ever constructed (0 .. next-1) is alive once or was destroyed once, and never both. *)
Definition accounted (st : state) : Prop := Permutation (gone st ++ live_all (vars st)) (seq 0 (next st)).
Definition sound (st : state) : Prop := (forall p, In p (vars st) -> matches (snd p)) /\ accounted st.
(** The JSON value a slot stands for. *)
Fixpoint value (s : slot) : jval :=
  match s with
  | Clean _ => JNll
  | Leaf _ _ (LStr s) => JStr s
  | Leaf _ _ (LNum n) => JNum n
  | Leaf _ _ (LBln x) => JBln x
  | Node _ _ true kids => JObj (map (fun p => (fst p, value (snd p))) kids)
  | Node _ _ false kids => JArr (map (fun p => value (snd p)) kids)
  end.
Definition value_at (p : list nat) (st : state) : option jval := option_map value (get p (vars st)).
(** Neither path leads into the other. *)
Definition apart (p q : list nat) : Prop := (forall r, q <> p ++ r) /\ (forall r, p <> q ++ r).
(** What a moved-from value stands for: strings and containers are empty. *)
Definition emptied (v : jval) : jval := match v with JStr _ => JStr [] | JArr _ => JArr [] | JObj _ => JObj [] | _ => v end.
Definition plain_jval (v : plain_value) : jval :=
  match v with PLeaf (LStr s) => JStr s | PLeaf (LNum n) => JNum n | PLeaf (LBln x) => JBln x
  | PEmpty true => JObj [] | PEmpty false => JArr [] | PNull => JNll end.
