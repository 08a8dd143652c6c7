(** * Conversion to int, axis masks and occupancy maps

    almath/types/occupancymapparams.h, src/types/occupancymapparams.cpp,
    src/types/alaxismask.cpp. *)

From Coq Require Import Reals ZArith Bool.
From Flocq Require Import Core.Core IEEE754.BinarySingleNaN.
From Verif Require Import Scalar RInst F32 Model_Vec Model_Almath.

(** The values of a 32 bit int. *)
Definition int_min : Z := -2147483648.
Definition int_max : Z := 2147483647.
Definition is_int (n : Z) : bool := ((int_min <=? n) && (n <=? int_max))%Z.

(** static_cast<int>(x): truncation, undefined behaviour when the truncated value is not an
    int (C++11 [conv.fpint]). *)
Class ToInt (T : Type) : Type := s_toInt : T -> res Z.

#[export] Instance RToInt : ToInt R := fun x =>
  if is_int (Rtrunc x) then Ok (Rtrunc x) else UB.

#[export] Instance F32ToInt : ToInt f32 := fun x =>
  match x with
  | B754_nan | B754_infinity _ => UB
  | _ => if is_int (Btrunc x) then Ok (Btrunc x) else UB
  end.

(** src/types/alaxismask.cpp:12-15 *)
Definition isAxisMask (m : Z) : bool := ((m <? 64) && (1 <=? m))%Z.

Section Model.
Context {T : Type} {S : Scalar T} {I : ToInt T}.
Local Open Scope sc_scope.

(** almath/types/occupancymapparams.h:51-56 *)
Definition roundToInt (x : T) : res Z :=
  if x >=? #0 then s_toInt (x + ##1//2) else s_toInt (x - ##1//2).

(** almath/types/occupancymapparams.h: Point2Di (typedef of a pair of ints) and
    lines 34-47: Pose2Di. *)
Record Point2Di := mkPoint2Di { pi_x : Z; pi_y : Z }.
Record Pose2Di := mkPose2Di { di_x : Z; di_y : Z; di_theta : T }.

(** almath/types/occupancymapparams.h:67-70 and 133-140 *)
Record OccupancyMapParams := mkMap {
  o_size : Z; o_metersPerPixel : T; o_originOffset : Position2D T; o_threshold : T }.

(** src/types/occupancymapparams.cpp:21-24 *)
Definition initOriginOffset (p : OccupancyMapParams) (center : Position2D T) : OccupancyMapParams :=
  mkMap (o_size p) (o_metersPerPixel p)
    (mkPosition2D (p2_x center - (#(o_size p) / #2 * o_metersPerPixel p))
                  (p2_y center + (#(o_size p) / #2 * o_metersPerPixel p)))
    (o_threshold p).

(** src/types/occupancymapparams.cpp:12-19 *)
Definition newOccupancyMapParams (size : Z) (mpp : T) (center : Position2D T) (threshold : T) : OccupancyMapParams :=
  initOriginOffset (mkMap size mpp p2_default threshold) center.

(** almath/types/occupancymapparams.h:79-90 *)
Definition getPixelFromOffsetAndScale (pose : Pose2D T) (mpp : T) (off : Position2D T) : res Point2Di :=
  let k := #1 / mpp in
  rbind (roundToInt ((pose_x pose - p2_x off) * k)) (fun x =>
  rbind (roundToInt ((- (pose_y pose - p2_y off)) * k)) (fun y =>
  Ok (mkPoint2Di x y))).

(** src/types/occupancymapparams.cpp:37-40 *)
Definition getPixelFromPose (p : OccupancyMapParams) (pose : Pose2D T) : res Point2Di :=
  getPixelFromOffsetAndScale pose (o_metersPerPixel p) (o_originOffset p).

(** src/types/occupancymapparams.cpp:44-48; pose2DFromPosition2D has 0 as default angle
    (almath/tools/almath.h). *)
Definition getPixelFromPosition (p : OccupancyMapParams) (pos : Position2D T) : res Point2Di :=
  getPixelFromOffsetAndScale (pose2DFromPosition2D pos #0) (o_metersPerPixel p) (o_originOffset p).

(** Negation of an int: overflow is undefined behaviour. *)
Definition negInt (n : Z) : res Z := if is_int (- n) then Ok (- n)%Z else UB.

(** src/types/occupancymapparams.cpp:50-53 *)
Definition getPoseFromPixel (p : OccupancyMapParams) (px : Pose2Di) : res (Pose2D T) :=
  rbind (negInt (di_y px)) (fun ny =>
  Ok (mkPose2D (#(di_x px) * o_metersPerPixel p + p2_x (o_originOffset p))
               (#ny * o_metersPerPixel p + p2_y (o_originOffset p)) (di_theta px))).

(** src/types/occupancymapparams.cpp:55-59 *)
Definition getPositionFromPixel (p : OccupancyMapParams) (px : Point2Di) : res (Position2D T) :=
  rbind (negInt (pi_y px)) (fun ny =>
  Ok (mkPosition2D (#(pi_x px) * o_metersPerPixel p + p2_x (o_originOffset p))
                   (#ny * o_metersPerPixel p + p2_y (o_originOffset p)))).

(** src/types/occupancymapparams.cpp:61-66 *)
Definition getDeltaPixelFromDeltaPosition (p : OccupancyMapParams) (pos : Position2D T) : res Point2Di :=
  getPixelFromOffsetAndScale (pose2DFromPosition2D pos #0) (o_metersPerPixel p) p2_default.

End Model.
Arguments Pose2Di : clear implicits.
Arguments OccupancyMapParams : clear implicits.
