(** C121: extracting C++ values from JSON values that are not constant. *)
From Coq Require Import String Ascii ZArith NArith Arith Bool Lia List.
From Verif Require Import Common JsonNumModel JsonModel JsonCnvModel JsonCnvSpec JsonShapeModel JsonShapeSpec JsonMutModel JsonMutSpec JsonShapeProofs JsonMutProofs JsonMacProofs.
Import ListNotations.

(** ** Classes with converters made by SSVJ_CNV *)
(** Reading a value that is not constant reads what reading it as a constant reads, and leaves it alone. *)
Theorem C121_macro : forall nd t v old c v', pextr nd t v old = Ok (c, v') <-> v' = v /\ cextr nd t v old = Ok c.
Proof. exact macro_value. Qed.
Print Assumptions C121_macro.
(** It throws only what reading a constant throws. *)
Theorem C121_macro_throws : forall nd t v old m, pextr nd t v old = Throw m -> cextr nd t v old = Throw m.
Proof. exact macro_throws. Qed.
Print Assumptions C121_macro_throws.
(** For the classes themselves, whatever the constant throws is thrown. *)
Theorem C121_macro_class : forall nd ts fs v old m,
  (pextr nd (TyStructArr ts) v old = Throw m <-> cextr nd (TyStructArr ts) v old = Throw m) /\
  (pextr nd (TyStructObj fs) v old = Throw m <-> cextr nd (TyStructObj fs) v old = Throw m).
Proof. exact macro_class. Qed.
Print Assumptions C121_macro_class.
(** Pairs and tuples are read out of bounds from arrays that are too short, where constants throw (C120_short_pair,
    C120_short_tuple). *)
Theorem C121_macro_short_refuted : forall nd a b l old, (length l < 2)%nat -> pextr nd (TyPair a b) (JArr l) old = UB.
Proof. exact macro_short. Qed.
Print Assumptions C121_macro_short_refuted.
Theorem C121_macro_tuple_refuted : forall ts l old, (length l < length ts)%nat -> Forall2 (fun t x => exists c, cextr true t x (fresh t) = Ok c) (firstn (length l) ts) l ->
  pextr true (TyTuple ts) (JArr l) old = UB.
Proof. exact macro_short_tuple. Qed.
Print Assumptions C121_macro_tuple_refuted.
Example C121_case_macro :
  pextr true (TyTuple [TyBool; TyStructObj [(["a"%char], TyVal)]]) (JArr [JBln true; JObj []]) VNull =
    Ok (VTup [VBool true; VTup [VJson JNll]], JArr [JBln true; JObj []]) /\
  pextr true (TyPair TyBool (TyStructArr [TyBool])) (JArr [JBln true; JArr []]) VNull = Throw "out_of_range"%string /\
  pextr true (TyStructArr [TyBool]) (JArr []) VNull = Throw "out_of_range"%string /\
  pextr true (TyTuple [TyBool; TyBool]) (JArr [JBln true]) VNull = UB.
Proof. repeat split; vm_compute; reflexivity. Qed.

(** ** Classes whose converters give the value on as it came, and direct calls of extrArr and extrObj *)
(** What is read from [v] is what is read from the same value as a constant: both succeed together, with the same result. *)
Theorem C121_value : forall nd t v old c, distinct t -> ((exists v', mextr nd t v old = Ok (c, v')) <-> cextr nd t v old = Ok c).
Proof. exact same_value. Qed.
Print Assumptions C121_value.

(** The source is left alone by a build with assertions; otherwise it may gain null members, at any depth, and nothing
    else; reading it again gives the same value. *)
Theorem C121_source : forall nd t v old c v', distinct t -> mextr nd t v old = Ok (c, v') -> (nd = false -> v' = v) /\ grown v v' /\ cextr nd t v' old = Ok c.
Proof. exact source. Qed.
Print Assumptions C121_source.

(** What a build without assertions leaves, exactly: null for the members that classes name and the source lacked. *)
Theorem C121_filled : forall t v old c v', distinct t -> mextr true t v old = Ok (c, v') -> filled t v v'.
Proof. exact filled_source. Qed.
Print Assumptions C121_filled.

(** Archived values are read back in both builds, and stay as they are. *)
Theorem C121_archived : forall t c nd, has_type t c -> distinct t -> mgetExtr nd t (getArch t c) = Ok (c, getArch t c).
Proof. exact archived_source. Qed.
Print Assumptions C121_archived.

(** A build with assertions gives what a build without them gives, or is stopped. *)
Theorem C121_builds : forall t v old, mextr false t v old = mextr true t v old \/ mextr false t v old = UB.
Proof. exact mbuilds. Qed.
Print Assumptions C121_builds.

(** Arrays that are too short are read out of bounds, instead of throwing as constants do (C120_short_pair, C120_short_tuple). *)
Theorem C121_short_pair_refuted : forall nd a b l old, (length l < 2)%nat -> mextr nd (TyPair a b) (JArr l) old = UB.
Proof. exact mshort_pair. Qed.
Print Assumptions C121_short_pair_refuted.
Theorem C121_short_tuple_refuted : forall ts l old, distinct (TyTuple ts) -> (length l < length ts)%nat -> Forall2 (reads false) (firstn (length l) ts) l ->
  mextr true (TyTuple ts) (JArr l) old = UB /\ mextr true (TyStructArr ts) (JArr l) old = UB.
Proof. exact mshort_tuple. Qed.
Print Assumptions C121_short_tuple_refuted.

(** Reading is not without effect on what is read: the source below gains a member. *)
Theorem C121_unchanged_refuted : exists t o old c, distinct t /\ mextr true t (JObj o) old = Ok (c, JObj ((["a"%char], JNll) :: o)).
Proof.
  exists (TyStructObj [(["b"%char], TyBool); (["a"%char], TyVal)]), [(["b"%char], JBln true)], VNull, (VTup [VBool true; VJson JNll]).
  split; [|vm_compute; reflexivity]. cbn. split; [|tauto]. constructor; [intros [H|[]]; discriminate|]. constructor; [intros []|constructor].
Qed.
Print Assumptions C121_unchanged_refuted.

(** ** Cases *)
Example C121_case_nested :
  mextr true (TyPair TyBool (TyStructObj [(["a"%char], TyMap TyStr TyBool)])) (JArr [JBln true; JObj []; JNll]) VNull =
    Ok (VPair (VBool true) (VTup [VMap []]), JArr [JBln true; JObj [(["a"%char], JNll)]; JNll]) /\
  mextr true (TyVec (TyStructObj [(["a"%char], TyVal)])) (JArr [JObj []]) VNull = Ok (VVec [VTup [VJson JNll]], JArr [JObj []]) /\
  mextr false (TyStructObj [(["a"%char], TyVal)]) (JObj []) VNull = UB /\
  mextr true (TyMap TyBool (TyStructObj [(["a"%char], TyVal)])) (JArr [JArr [JBln true; JObj []]]) (VMap []) =
    Ok (VMap [(VBool true, VTup [VJson JNll])], JArr [JArr [JBln true; JObj [(["a"%char], JNll)]]]).
Proof. repeat split; vm_compute; reflexivity. Qed.
Example C121_case_short : distinct (TyTuple [TyBool; TyStr]) /\ Forall2 (reads false) (firstn 1 [TyBool; TyStr]) [JBln true] /\
  mextr true (TyTuple [TyBool; TyStr]) (JArr [JBln true]) VNull = UB /\ cextr true (TyTuple [TyBool; TyStr]) (JArr [JBln true]) VNull = Throw "out_of_range"%string.
Proof. split; [cbn; tauto|]. split; [constructor; [exists true; reflexivity|constructor]|]. split; reflexivity. Qed.
Example C121_case_archived : distinct (TyStructObj [(["a"%char], TyBool)]) /\ has_type (TyStructObj [(["a"%char], TyBool)]) (VTup [VBool true]).
Proof. split; cbn; (split; [constructor; [intros []|constructor]|tauto]). Qed.
