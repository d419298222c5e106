(** Model of include/SSVUtils/Core/Utils/Math.hpp, integer part (typed C++ arithmetic) and the
    floating-point functions over exact rationals. *)
From Coq Require Import String Ascii ZArith NArith Arith Bool Lia List QArith Qabs SpecFloat.
From Verif Require Import Common CInt.
Import ListNotations.
Local Open Scope Z_scope.

Notation "'let!' x ':=' e 'in' f" := (obind e (fun x => f)) (at level 200, x pattern, right associativity).

(** Math.hpp:291-298 [getMod(val, ub)]; the result type is the common type. *)
Definition getMod2 (v ub : tv) : outcome tv :=
  let! _ := cassert (cgt ub i0) in
  let! r := crem v ub in
  let! s := cadd r ub in
  let! result := crem s ub in
  let! _ := cassert (cge result i0 && clt result ub) in
  Ok result.

(** Math.hpp:309-320 [getMod(val, lb, ub)], all operands of one type; [mVal] keeps its type. *)
Definition getMod3 (v lb ub : tv) : outcome tv :=
  let! _ := cassert (clt lb ub) in
  let! range := csub ub lb in
  let! _ := cassert (cgt range i0) in
  let! r1 := cadd range i1 in
  let! _ := cassert (negb (ceq r1 i0)) in
  let! v' := (if clt v lb then
                let! d := csub lb v in
                let! q := cdiv d range in
                let! q1 := cadd q i1 in
                let! m := cmul range q1 in
                let! s := cadd v m in Ok (cconv (fst v) s)
              else Ok v) in
  let! d := csub v' lb in
  let! r := crem d range in
  cadd lb r.

(** Containers.hpp:262-277 [getByModIdx]: the size is a [size_t]; an index outside the container is
    UB ([operator[]]). *)
Definition getByModIdx {A} (l : list A) (idx : tv) : outcome A :=
  let! m := getMod2 idx (U64, Z.of_nat (length l)) in
  match nth_error l (Z.to_nat (snd m)) with Some x => Ok x | None => UB end.

(** Math.hpp:225-231, 242-249. *)
Definition get1DIdxFrom2D (x y cols : tv) : outcome tv :=
  let! _ := cassert (cge cols i0) in
  let! m := cmul y cols in cadd x m.
Definition get1DIdxFrom3D (x y z cols rows : tv) : outcome tv :=
  let! _ := cassert (cge cols i0 && cge rows i0) in
  let! yc := cmul y cols in
  let! s := cadd x yc in
  let! zc := cmul z cols in
  let! zcr := cmul zc rows in
  cadd s zcr.
(** Math.hpp:258-264: the assertion requires [mIdx > 0]. *)
Definition get2DIdxFrom1D (idx cols : tv) : outcome (tv * tv) :=
  let! _ := cassert (cgt idx i0 && negb (ceq cols i0)) in
  let! y := cdiv idx cols in
  let! yc := cmul y cols in
  let! x := csub idx yc in
  Ok (x, y).
(** Math.hpp:274-281. *)
Definition get3DIdxFrom1D (idx cols rows : tv) : outcome (tv * tv * tv) :=
  let! _ := cassert (cgt idx i0 && negb (ceq rows i0) && negb (ceq cols i0)) in
  let! y := cdiv idx cols in
  let! ym := crem y rows in
  let! cr := cmul cols rows in
  let! z := cdiv idx cr in
  Ok (y, ym, z).

(** Math.hpp:54-81 (in place; assignment converts to the type of [mX]). *)
Definition clampMin (x lo : tv) : tv := if clt x lo then cconv (fst x) lo else x.
Definition clampMax (x hi : tv) : tv := if cgt x hi then cconv (fst x) hi else x.
Definition clamp (x lo hi : tv) : outcome tv :=
  let! _ := cassert (cle lo hi) in
  Ok (if clt x lo then cconv (fst x) lo else if cgt x hi then cconv (fst x) hi else x).
(** Math.hpp:88-123. *)
Definition getClampedMin (x lo : tv) : tv :=
  cconv (common (fst x) (fst lo)) (if clt x lo then lo else x).
Definition getClampedMax (x hi : tv) : tv :=
  cconv (common (fst x) (fst hi)) (if cgt x hi then hi else x).
Definition getClamped (x lo hi : tv) : outcome tv :=
  let ct := common (common (fst x) (fst lo)) (fst hi) in
  let x' := cconv ct x in let lo' := cconv ct lo in let hi' := cconv ct hi in
  let! _ := cassert (cle lo' hi') in
  Ok (if clt x' lo' then lo' else if cgt x' hi' then hi' else x').

(** Math.hpp:33-49. *)
Definition getSign (x : tv) : Z :=
  if is_signed (fst x) then (if 0 <? snd x then 1 else 0) - (if snd x <? 0 then 1 else 0)
  else if 0 <? snd x then 1 else 0.

(** [std::abs] on a signed type (UB for the least value). *)
Definition cabs (a : tv) : outcome tv := let! z := fit (fst a) (Z.abs (snd a)) in Ok (fst a, z).
(** Math.hpp:322-333, 348-372, all operands of one type. *)
Definition getDistSquaredEuclidean (x1 y1 x2 y2 : tv) : outcome tv :=
  let! dx := csub x1 x2 in
  let! dx2 := cmul dx dx in
  let! dy := csub y1 y2 in
  let! dy2 := cmul dy dy in
  cadd dx2 dy2.
Definition getDistManhattan (x1 y1 x2 y2 : tv) : outcome tv :=
  let! dx := csub x1 x2 in
  let! ax := cabs dx in
  let! dy := csub y1 y2 in
  let! ay := cabs dy in
  cadd ax ay.
Definition getDistChebyshev (x1 y1 x2 y2 : tv) : outcome tv :=
  let! dx := csub x2 x1 in
  let! ax := cabs dx in
  let! dy := csub y2 y1 in
  let! ay := cabs dy in
  Ok (if clt ax ay then ay else ax).

(** Math.hpp:428-434 [getMap] on integers of one type. *)
Definition getMapInt (i imn imx omn omx : tv) : outcome tv :=
  let! di := csub imx imn in
  let! _ := cassert (negb (ceq di i0)) in
  let! a := csub i imn in
  let! b := csub omx omn in
  let! m := cmul a b in
  let! q := cdiv m di in
  cadd q omn.

(** ** Floating-point functions over exact rationals. *)
Local Open Scope Q_scope.
(** Rounding towards zero and [std::fmod] for a non-zero divisor (exact in IEEE arithmetic too). *)
Definition Qtrunc (q : Q) : Z := Z.quot (Qnum q) (Zpos (Qden q)).
Definition fmod (x d : Q) : Q := x - d * inject_Z (Qtrunc (x / d)).
Definition Qltb (a b : Q) : bool := negb (Qle_bool b a).

(** Math.hpp:131-139. *)
Definition getCycledValue (x mn mx : Q) : Q :=
  let delta := mx - mn in
  let result := fmod (x - mn) delta in
  mn + (if Qltb result 0 then result + delta else result).
(** Math.hpp:176-181. *)
Definition getWrapDeg (x : Q) : Q := let m := fmod x 360 in if Qltb m 0 then m + 360 else m.
(** Math.hpp:190-200. *)
Definition getRotatedDeg (start end_ speed : Q) : Q :=
  let diff := getCycledValue (getWrapDeg end_ - getWrapDeg start) (- (180)) 180 in
  if Qltb diff (- speed) then start - speed
  else if Qltb speed diff then start + speed
  else end_.
(** Math.hpp:27, 155-159, 209-214: [getRotatedRad] hands degrees to [getRotatedDeg]. *)
Definition radDegRatio : Q := 1745329251 # 100000000000.
Definition toRad (x : Q) : Q := x * radDegRatio.
Definition toDeg (x : Q) : Q := x / radDegRatio.
Definition getRotatedRad (start end_ speed : Q) : Q := getRotatedDeg (toDeg start) (toDeg end_) speed.
(** Math.hpp:415-420. *)
Definition getDistDeg (a b : Q) : Q := 180 - Qabs (fmod (Qabs (a - b)) 360 - 180).
(** Math.hpp:428-434, 440-446. *)
Definition getMap (i imn imx omn omx : Q) : outcome Q :=
  if Qeq_bool (imx - imn) 0 then UB else Ok ((i - imn) * (omx - omn) / (imx - imn) + omn).
Definition getLerp (w a b : Q) : outcome Q :=
  if Qle_bool 0 w && Qle_bool w 1 then Ok (a + w * (b - a)) else UB.

(** ** Single-precision check of [getWrapDeg] (Math.hpp:176-181).
    For |x| < 360 [std::fmod(x, 360.f)] is [x] itself, so only the comparison and the rounded addition
    remain.  Round to nearest even, binary32 (24 bits, exponent bound 128). *)
Definition f360 : spec_float := S754_finite false 11796480 (-15).
Definition getWrapDeg32_small (x : spec_float) : spec_float :=
  if SFltb x (S754_zero false) then SFadd 24 128 x f360 else x.
