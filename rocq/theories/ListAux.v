(** List lemmas missing from the standard library of Coq 8.16. *)
From Coq Require Import Arith Bool Lia List.
Import ListNotations.

Lemma skipn_skipn : forall {A} n m (l : list A), skipn n (skipn m l) = skipn (n + m) l.
Proof.
  intros A n m. revert n. induction m as [|m IH]; intros n l.
  - rewrite Nat.add_0_r. reflexivity.
  - destruct l as [|x l]; [destruct n; cbn; rewrite ?skipn_nil; reflexivity|].
    cbn [skipn]. rewrite IH. replace (n + S m) with (S (n + m)) by lia. reflexivity.
Qed.

Lemma nth_error_skipn : forall {A} k (l : list A) x,
  nth_error l k = Some x -> skipn k l = x :: skipn (S k) l.
Proof.
  induction k as [|k IH]; intros [|y l] x H; cbn in H; try discriminate.
  - injection H as ->. reflexivity.
  - cbn [skipn]. rewrite (IH l x H). reflexivity.
Qed.

Lemma nth_error_lt : forall {A} (l : list A) k, k < length l -> exists x, nth_error l k = Some x.
Proof.
  intros A l k H. destruct (nth_error l k) as [x|] eqn:E; [exists x; reflexivity|].
  apply nth_error_None in E. lia.
Qed.
