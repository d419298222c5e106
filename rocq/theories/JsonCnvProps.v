(** Properties of the conversions between C++ values and JSON (C57, C86). *)
From Coq Require Import String Ascii ZArith NArith Arith Bool Lia List.
From Coq Require Import Floats.SpecFloat.
From Verif Require Import Common JsonNumModel JsonModel JsonSpec JsonCnvModel JsonCnvSpec JsonCnvProofs JsonCnvTextProofs.
Import ListNotations.
Local Open Scope Z_scope.

(** C57: an archived value passes the check for its type and is extracted as itself. *)
Theorem C57_round_trip : forall t c, has_type t c ->
  isNoNum t (getArch t c) = true /\ is_ t (getArch t c) <> Some false /\ as_ t (getArch t c) = Ok c /\ getExtr t (getArch t c) = Ok c.
Proof. exact converted. Qed.
Print Assumptions C57_round_trip.
Definition sample_type : ty := TyStructObj [(lit "id", TyInt KUInt); (lit "at", TyPair TyBool (TyVec (TyTuple [TyInt KChar; TyStr])));
  (lit "a", TyMap (TyPair TyStr (TyEnum KUChar)) (TyBits 3))].
Definition sample_value : cv := VTup [VInt 4294967295; VPair (VBool true) (VVec [VTup [VInt (-128); VStr (lit "x")]; VTup [VInt 127; VStr []]]);
  VMap [(VPair (VStr (lit "k")) (VInt 255), VBits [true; false; false]); (VPair (VStr (lit "k")) (VInt 0), VBits [false; true; true])]].
Example C57_case : has_type sample_type sample_value /\ getExtr sample_type (getArch sample_type sample_value) = Ok sample_value.
Proof.
  split; [|vm_compute; reflexivity].
  cbn -[k_min k_max]. repeat split; try (vm_compute; intuition discriminate).
  all: try (repeat constructor; cbn; intuition discriminate).
  - intros c [<-|[<-|[]]]; repeat split; vm_compute; intuition discriminate.
  - destruct H as [<-|[<-|[]]]; repeat split; vm_compute; intuition discriminate.
  - destruct H as [<-|[<-|[]]]; repeat split; vm_compute; intuition discriminate.
Qed.
(** Into a target that already holds something: replaced, unless maps are involved. *)
Theorem C57_target_replaced : forall t c old, has_type t c -> replaces t -> extr t (getArch t c) old = Ok c.
Proof. exact converted_into. Qed.
Print Assumptions C57_target_replaced.
(** Maps are merged into the target. *)
Theorem C57_maps_merge : forall k v m old, has_type (TyMap k v) (VMap m) ->
  exists r, extr (TyMap k v) (getArch (TyMap k v) (VMap m)) (VMap old) = Ok (VMap r) /\
    forall j, map_get j r = match map_get j m with Some w => Some w | None => map_get j old end.
Proof. exact merged. Qed.
Print Assumptions C57_maps_merge.
Theorem C57_map_target_refuted : exists t c old, has_type t c /\ has_type t old /\ extr t (getArch t c) old <> Ok c.
Proof.
  exists (TyMap TyStr (TyInt KInt)), (VMap [(VStr (lit "a"), VInt 1)]), (VMap [(VStr (lit "b"), VInt 2)]).
  assert (H : forall s z, - 2 ^ 31 <= z <= 2 ^ 31 - 1 -> has_type (TyMap TyStr (TyInt KInt)) (VMap [(VStr s, VInt z)])).
  { intros s z Hz. cbn [has_type key_type map fst]. split; [exact Logic.I|]. split; [repeat constructor; intros []|].
    intros p [<-|[]]. split; [exact Logic.I|exact Hz]. }
  split; [apply H; lia|]. split; [apply H; lia|]. vm_compute. discriminate.
Qed.
Print Assumptions C57_map_target_refuted.
(** The check for a map type accepts every value, and extraction then leaves the target as it was. *)
Theorem C57_map_check_refuted : forall k v j, is_ (TyMap k v) j = Some true /\
  forall s old, extr (TyMap k v) (JStr s) old = Ok old.
Proof. intros k v j. split; reflexivity. Qed.
Print Assumptions C57_map_check_refuted.
(** C arrays, and character arrays filled up to their terminator. *)
Theorem C57_arrays : forall t cs n, length cs = n -> (forall c, In c cs -> has_type t c) ->
  is_array n t (toVal_array t cs) = true /\ extr_carray n t (toVal_array t cs) = Ok cs.
Proof. exact array_converted. Qed.
Print Assumptions C57_arrays.
(** The round trip works but the check denies it: it compares the length with the size of the array. *)
Theorem C57_literal_check_refuted : forall s, ~ In nul s -> toVal_chars (s ++ [nul]) = Ok (JStr s) /\
  extr_chars (S (length s)) (JStr s) = Ok (s ++ [nul]) /\ is_chars (S (length s)) (JStr s) = false.
Proof. exact chars_converted. Qed.
Print Assumptions C57_literal_check_refuted.
(** A shorter string in a character array is archived, but extracting it reads past the end of the string. *)
Theorem C57_short_literal_refuted : forall s n, ~ In nul s -> (S (length s) < n)%nat ->
  toVal_chars (s ++ repeat nul (n - length s)) = Ok (JStr s) /\ extr_chars n (JStr s) = UB.
Proof. exact chars_short. Qed.
Print Assumptions C57_short_literal_refuted.

(** C86: through text. *)
Theorem C86_through_text : forall pretty t c, has_type t c -> exact_type t -> writable (getArch t c) ->
  exists s, getWriteToStr pretty (getArch t c) = Ok s /\
    ((N.of_nat (length s) < 2 ^ 31)%N -> exists v, parse_text s = Ok v /\ isNoNum t v = true /\ getExtr t v = Ok c).
Proof. exact text_round_trip. Qed.
Print Assumptions C86_through_text.
Example C86_case : exists s v, getWriteToStr true (getArch sample_type sample_value) = Ok s /\ parse_text s = Ok v /\
  getExtr sample_type v = Ok sample_value /\ v <> getArch sample_type sample_value.
Proof.
  do 2 eexists. split; [vm_compute; reflexivity|]. split; [vm_compute; reflexivity|]. split; [vm_compute; reflexivity|]. vm_compute. discriminate.
Qed.

(** C57. The type check that ignores number kinds lets exactly the values of the type's shape through. *)
Theorem C57_check : forall t v, isNoNum t v = true <-> fits t v.
Proof. exact check_exact. Qed.
Print Assumptions C57_check.
(** C57. The strict check, where it exists, also asks for the number kind of the type. *)
Theorem C57_check_strict : forall t v b, is_ t v = Some b -> (b = true <-> strict_kind t v).
Proof. exact check_strict. Qed.
Print Assumptions C57_check_strict.
Example C57_check_example :
  fits (TyVec (TyPair TyStr (TyInt KInt))) (JArr [JArr [JStr (lit "a"); JNum (NS 1)]]) /\
  ~ fits (TyVec (TyInt KInt)) (JArr [JStr (lit "a")]) /\ is_ (TyInt KLong) (JNum (NU 3)) = Some false /\
  ~ fits (TyTuple [TyBool; TyBool]) (JArr [JBln true]).
Proof.
  repeat split; try (repeat constructor).
  - intros H. inversion H as [| | | | | | | |? ? F| | | | |]; subst. inversion F as [|? ? G]; subst. inversion G.
  - intros H. inversion H as [| | | | | | |? ? F| | | | | |]; subst. inversion F as [|? ? ? ? ? G]; subst. inversion G.
Qed.
