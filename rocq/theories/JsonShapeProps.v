(** C120: extracting C++ values from JSON of any shape, in builds with and without assertions. *)
From Coq Require Import String Ascii ZArith NArith Arith Bool Lia List.
From Coq Require Import Floats.SpecFloat.
From Verif Require Import Common JsonNumModel JsonModel JsonCnvModel JsonCnvSpec JsonShapeModel JsonShapeSpec JsonShapeProofs.
Import ListNotations.
Local Open Scope Z_scope.

(** A build with assertions gives what a build without them gives, or is stopped by an assertion. *)
Theorem C120_builds : forall t v old, cextr false t v old = cextr true t v old \/ cextr false t v old = UB.
Proof. exact builds. Qed.
Print Assumptions C120_builds.

(** Which JSON values can be extracted as a type, in each build. *)
Theorem C120_defined : forall strict t v old, (exists c, cextr (negb strict) t v old = Ok c) <-> reads strict t v.
Proof. exact read_exactly. Qed.
Print Assumptions C120_defined.

(** Whatever was archived from a value of the type is read back in both builds. *)
Theorem C120_archived : forall t c nd, has_type t c -> cas nd t (getArch t c) = Ok c /\ cgetExtr nd t (getArch t c) = Ok c.
Proof. exact archived. Qed.
Print Assumptions C120_archived.

(** Whatever the target held is replaced; only maps are merged, the archived entries winning, and keep their entries if
    the JSON value is not an array. *)
Theorem C120_into : forall t c nd old, has_type t c -> replaces t -> cextr nd t (getArch t c) old = Ok c.
Proof. exact into. Qed.
Print Assumptions C120_into.
Theorem C120_into_map : forall k v m nd old, has_type (TyMap k v) (VMap m) ->
  exists r, cextr nd (TyMap k v) (getArch (TyMap k v) (VMap m)) (VMap old) = Ok (VMap r) /\
    forall j, map_get j r = match map_get j m with Some w => Some w | None => map_get j old end.
Proof. exact into_map. Qed.
Print Assumptions C120_into_map.
Theorem C120_other_map : forall k v j nd old, (forall l, j <> JArr l) -> cextr nd (TyMap k v) j old = Ok old.
Proof. exact other_map. Qed.
Print Assumptions C120_other_map.

(** Without assertions, surplus elements change nothing: in tuples and positional classes, ... *)
Theorem C120_surplus : forall ts l r old, length l = length ts ->
  cextr true (TyTuple ts) (JArr (l ++ r)) old = cextr true (TyTuple ts) (JArr l) old /\
  cextr true (TyStructArr ts) (JArr (l ++ r)) old = cextr true (TyStructArr ts) (JArr l) old.
Proof. exact surplus. Qed.
Print Assumptions C120_surplus.
(** ... pairs and the elements of maps. *)
Theorem C120_surplus_pair : forall a b x y r old, cextr true (TyPair a b) (JArr (x :: y :: r)) old = cextr true (TyPair a b) (JArr [x; y]) old.
Proof. exact surplus_pair. Qed.
Print Assumptions C120_surplus_pair.
Theorem C120_surplus_map : forall a b l l' old, Forall2 (fun e e' => exists x y r, e = JArr (x :: y :: r) /\ e' = JArr [x; y]) l l' ->
  cextr true (TyMap a b) (JArr l) old = cextr true (TyMap a b) (JArr l') old.
Proof. exact surplus_map. Qed.
Print Assumptions C120_surplus_map.
(** Without assertions, a missing member of a class is read as null. *)
Theorem C120_missing : forall fs o n old, missing o n -> cextr true (TyStructObj fs) (JObj o) old = cextr true (TyStructObj fs) (JObj (o ++ [(n, JNll)])) old.
Proof. exact missing_null. Qed.
Print Assumptions C120_missing.

(** Arrays that are too short: [std::out_of_range] for pairs in both builds, ... *)
Theorem C120_short_pair : forall nd a b x old, cextr nd (TyPair a b) (JArr []) old = Throw "out_of_range"%string /\
  (reads (negb nd) a x -> (nd = false -> fits a x) -> cextr nd (TyPair a b) (JArr [x]) old = Throw "out_of_range"%string).
Proof. exact short_pair. Qed.
Print Assumptions C120_short_pair.
(** ... for tuples and positional classes without assertions, ... *)
Theorem C120_short_tuple : forall ts l old, (length l < length ts)%nat -> Forall2 (reads false) (firstn (length l) ts) l ->
  cextr true (TyTuple ts) (JArr l) old = Throw "out_of_range"%string /\ cextr true (TyStructArr ts) (JArr l) old = Throw "out_of_range"%string.
Proof. exact short_tuple. Qed.
Print Assumptions C120_short_tuple.
(** ... but an element of a map that is too short ends the process: it is read inside a noexcept function. *)
Theorem C120_short_map_refuted : forall a b l1 e l2 old, reads false (TyMap a b) (JArr l1) -> (e = JArr [] \/ exists x, e = JArr [x] /\ reads false a x) ->
  cextr true (TyMap a b) (JArr (l1 ++ e :: l2)) old = Throw "terminate"%string.
Proof. exact short_map. Qed.
Print Assumptions C120_short_map_refuted.

(** C arrays are read as tuples of that many elements; character arrays from strings of at least that length, counting the NUL. *)
Theorem C120_carray : forall nd t n v cs old, (0 < n)%nat -> (cextr_carray nd n t v = Ok cs <-> cextr nd (TyTuple (repeat t n)) v old = Ok (VTup cs)).
Proof. exact carray_tuple. Qed.
Print Assumptions C120_carray.
Theorem C120_chars : forall n v cs, extr_chars n v = Ok cs <-> exists s, v = JStr s /\ (n <= S (length s))%nat /\ cs = firstn n (s ++ ["000"%char]).
Proof. exact chars_read. Qed.
Print Assumptions C120_chars.

(** So the builds differ: without assertions a class is read from an object lacking a member, the target of that member
    keeping its entries if it is a map; with assertions the process stops. *)
Theorem C120_lenient_refuted : exists t o old c, cextr true t (JObj o) old = Ok c /\ cextr false t (JObj o) old = UB.
Proof.
  exists (TyStructObj [(["m"%char], TyMap TyStr TyBool); (["b"%char], TyBool)]), [(["b"%char], JBln true)],
    (VTup [VMap [(VStr ["k"%char], VBool false)]; VBool false]), (VTup [VMap [(VStr ["k"%char], VBool false)]; VBool true]).
  split; vm_compute; reflexivity.
Qed.
Print Assumptions C120_lenient_refuted.

(** ** Cases *)
Example C120_case_archived : has_type (TyVec (TyPair TyStr (TyTuple [TyBool; TyInt KInt]))) (VVec [VPair (VStr ["a"%char]) (VTup [VBool true; VInt (-5)])]).
Proof. cbn. intros c [<-|[]]. cbn. repeat split; lia. Qed.
Example C120_case_into : has_type (TyMap TyStr TyBool) (VMap [(VStr ["a"%char], VBool true)]) /\ ~ replaces (TyMap TyStr TyBool) /\ replaces (TyTuple [TyBool]) /\
  cextr true (TyMap TyStr TyBool) (getArch (TyMap TyStr TyBool) (VMap [(VStr ["a"%char], VBool true)])) (VMap [(VStr ["a"%char], VBool false); (VStr ["b"%char], VBool false)]) =
    Ok (VMap [(VStr ["a"%char], VBool true); (VStr ["b"%char], VBool false)]).
Proof.
  split; [|split; [intros []|split; [exact I|reflexivity]]]. split; [exact I|]. split; [repeat constructor; intros []|]. intros p [<-|[]]. split; exact I.
Qed.
Example C120_case_surplus :
  cextr true (TyTuple [TyBool; TyInt KInt]) (JArr [JBln true; JNum (NS 3); JNll]) (fresh (TyTuple [TyBool; TyInt KInt])) = Ok (VTup [VBool true; VInt 3]) /\
  reads false (TyTuple [TyBool; TyInt KInt]) (JArr [JBln true; JNum (NS 3); JNll]) /\ reads true (TyTuple [TyBool; TyInt KInt]) (JArr [JBln true; JNum (NS 3); JNll]) /\
  cas false (TyTuple [TyBool; TyInt KInt]) (JArr [JBln true; JNum (NS 3); JNll]) = UB /\
  cas true (TyTuple [TyBool; TyInt KInt]) (JArr [JBln true; JNum (NS 3); JNll]) = Ok (VTup [VBool true; VInt 3]).
Proof.
  split; [reflexivity|]. split; [|split; [|split; reflexivity]]; right; exists [JBln true; JNum (NS 3); JNll]; (split; [reflexivity|]); cbn;
    (repeat split; try discriminate; try (exists true; reflexivity); try (exists (NS 3); split; [reflexivity|exact I]); intros; constructor).
Qed.
Example C120_case_nested :
  cextr true (TyVec (TyPair TyBool TyBool)) (JArr [JArr [JBln true; JBln false; JNll]]) VNull = Ok (VVec [VPair (VBool true) (VBool false)]) /\
  cextr false (TyVec (TyPair TyBool TyBool)) (JArr [JArr [JBln true; JBln false; JNll]]) VNull = UB /\
  cextr true (TyVec (TyPair TyBool TyBool)) (JArr [JArr [JBln true]]) VNull = Throw "out_of_range"%string /\
  cextr true (TyMap TyBool TyBool) (JArr [JArr [JBln true; JBln true]; JArr [JBln true]]) (VMap []) = Throw "terminate"%string /\
  cextr true (TyInt KInt) (JNum (NR (S754_finite false 1 64))) VNull = UB /\ cextr true (TyInt KInt) (JNum (NR (S754_finite false 7 (-1)))) VNull = Ok (VInt 3).
Proof. repeat split; vm_compute; reflexivity. Qed.
Example C120_case_carray : cextr_carray true 2 TyBool (JArr [JBln true; JBln false; JNll]) = Ok [VBool true; VBool false] /\
  cextr_carray true 2 TyBool (JArr [JBln true]) = Throw "out_of_range"%string /\ cextr_carray false 2 TyBool (JArr [JBln true]) = UB /\
  extr_chars 3 (JStr ["a"%char; "b"%char]) = Ok ["a"%char; "b"%char; "000"%char] /\ extr_chars 1 (JStr ["a"%char; "b"%char]) = Ok ["a"%char].
Proof. repeat split; reflexivity. Qed.
Example C120_case_missing : missing [(["b"%char], JBln true)] ["m"%char] /\
  cextr true (TyStructObj [(["m"%char], TyVal); (["b"%char], TyBool)]) (JObj [(["b"%char], JBln true)]) VNull = Ok (VTup [VJson JNll; VBool true]).
Proof. split; [intros [H|[]]; discriminate|reflexivity]. Qed.
