(** * Properties C31 and C38: rounding to int, axis masks, occupancy maps *)
From Coq Require Import Reals List Lra Lia Psatz Bool Arith ZArith.
Import ListNotations.
From Flocq Require Import Core.Core Relative Plus_error IEEE754.BinarySingleNaN.
From Verif Require Import Scalar RInst F32 RLemmas F32Lemmas Model_Base Model_Vec Model_Almath Model_Map
  Spec_Angle.
Local Open Scope R_scope.
From Verif Require Proofs_Map.

(** ** C31 *)

(** C31, on the reals: roundToInt is the nearest integer (halves away from zero) when that is an
    int, and undefined behaviour otherwise. *)
Theorem C31_round : forall x : R, exists n : Z, nearest_away x n /\
  roundToInt x = if is_int n then Ok n else UB.
Proof. exact @Proofs_Map.C31_round_proof. Qed.
Print Assumptions C31_round.

(** C31, in binary32: for every finite float below 2^31 in magnitude, roundToInt is the nearest
    integer (halves away from zero), except for the float just below 1/2, its opposite, and the
    odd integers between 2^23 and 2^24 in magnitude. *)
Theorem C31_round_binary32 : forall (L : libm32) (x : f32), is_finite x = true ->
  Rabs (B2R x) < 2147483648 ->
  Rabs (B2R x) <> 16777215 * / 33554432 ->
  ~ (8388608 <= Rabs (B2R x) < 16777216 /\ exists k : Z, Rabs (B2R x) = IZR (2 * k + 1)) ->
  exists n : Z, nearest_away (B2R x) n /\ @roundToInt f32 (F32Scalar L) F32ToInt x = Ok n.
Proof. exact @Proofs_Map.C31_round_binary32_proof. Qed.
Print Assumptions C31_round_binary32.

(** C31: the exceptions above are real: 0.49999997f is rounded to 1 and 8388609.f to 8388610. *)
Theorem C31_round_binary32_refuted : forall L : libm32,
  @roundToInt f32 (F32Scalar L) F32ToInt (f32_frac 16777215 33554432) = Ok 1%Z /\
  B2R (f32_frac 16777215 33554432) = 16777215 / 33554432 /\ ~ nearest_away (16777215 / 33554432) 1 /\
  @roundToInt f32 (F32Scalar L) F32ToInt (f32_ofZ 8388609) = Ok 8388610%Z /\
  B2R (f32_ofZ 8388609) = 8388609 /\ ~ nearest_away 8388609 8388610.
Proof. exact @Proofs_Map.C31_round_binary32_refuted_proof. Qed.
Print Assumptions C31_round_binary32_refuted.

(** C31: converting a NaN, an infinity, or a float too large for an int is undefined behaviour. *)
Theorem C31_round_out_of_range : forall (L : libm32) (x : f32),
  is_finite x = false \/ 2147483649 < Rabs (B2R x) ->
  @roundToInt f32 (F32Scalar L) F32ToInt x = UB.
Proof. exact @Proofs_Map.C31_round_out_of_range_proof. Qed.
Print Assumptions C31_round_out_of_range.

(** C31: isAxisMask accepts exactly the numbers of the non-empty sets of the six axes
    x, y, z, wx, wy, wz (bits 1, 2, 4, 8, 16, 32). *)
Theorem C31_axis_mask : forall m : Z,
  isAxisMask m = true <->
  exists x y z wx wy wz : bool,
    m = (Z.b2z x * 1 + Z.b2z y * 2 + Z.b2z z * 4 + Z.b2z wx * 8 + Z.b2z wy * 16 + Z.b2z wz * 32)%Z /\
    (x || y || z || wx || wy || wz)%bool = true.
Proof. exact @Proofs_Map.C31_axis_mask_proof. Qed.
Print Assumptions C31_axis_mask.

Example C31_instance : roundToInt (5/2) = Ok 3%Z /\ roundToInt (-(5/2)) = Ok (-3)%Z /\ isAxisMask 63 = true /\ isAxisMask 0 = false.
Proof.
  split; [|split; [|split; reflexivity]].
  - destruct (C31_round (5/2)) as (n&N&E). rewrite E.
    assert (n = 3%Z); [|subst; reflexivity]. apply (Proofs_Map.nearest_away_unique (5/2)); [exact N|].
    apply Proofs_Map.nearest_away_pos; lra.
  - destruct (C31_round (-(5/2))) as (n&N&E). rewrite E.
    assert (n = (-3)%Z); [|subst; reflexivity]. apply (Proofs_Map.nearest_away_unique (-(5/2))); [exact N|].
    apply (Proofs_Map.nearest_away_opp (5/2) 3). apply Proofs_Map.nearest_away_pos; lra.
Qed.

Example C31_binary32_instance : forall L, exists n : Z, nearest_away (B2R (f32_ofZ 12345)) n /\ 
  @roundToInt f32 (F32Scalar L) F32ToInt (f32_ofZ 12345) = Ok n.
Proof.
  intro L.
  assert (V : B2R (f32_ofZ 12345) = 12345).
  { rewrite <- SF2R_B2SF. replace (B2SF (f32_ofZ 12345)) with (SpecFloat.S754_finite false 12641280 (-10)) by (vm_compute; reflexivity).
    unfold SF2R, F2R. cbn [Fnum Fexp cond_Zopp]. change (bpow radix2 (-10)) with (/1024). lra. }
  assert (A : Rabs (B2R (f32_ofZ 12345)) = 12345) by (rewrite V; apply Rabs_right; lra).
  apply C31_round_binary32; rewrite ?A; try lra. reflexivity.
Qed.

(** ** C38 *)

(** C38: in a map made of [size] pixels of [mpp] metres around [center], pixel (i,j) is at
    (i - size/2) mpp along x and (j - size/2) mpp against y from the centre. *)
Theorem C38_pixel_position : forall (size i j : Z) (mpp thr : R) (center : Position2D R), is_int (- j) = true ->
  getPositionFromPixel (newOccupancyMapParams size mpp center thr) (mkPoint2Di i j) =
  Ok (mkPosition2D (p2_x center + (IZR i - IZR size / 2) * mpp) (p2_y center - (IZR j - IZR size / 2) * mpp)) /\
  (forall theta, getPoseFromPixel (newOccupancyMapParams size mpp center thr) (mkPose2Di i j theta) =
     Ok (mkPose2D (p2_x center + (IZR i - IZR size / 2) * mpp) (p2_y center - (IZR j - IZR size / 2) * mpp) theta)).
Proof. exact @Proofs_Map.C38_pixel_position_proof. Qed.
Print Assumptions C38_pixel_position.

(** C38: converting a pixel to a position (or a pose) and back gives the pixel. *)
Theorem C38_round_trip : forall (p : OccupancyMapParams R) (i j : Z) (theta : R),
  o_metersPerPixel p <> 0 -> is_int i = true -> is_int j = true -> is_int (- j) = true ->
  rbind (getPositionFromPixel p (mkPoint2Di i j)) (getPixelFromPosition p) = Ok (mkPoint2Di i j) /\
  rbind (getPoseFromPixel p (mkPose2Di i j theta)) (getPixelFromPose p) = Ok (mkPoint2Di i j).
Proof. exact @Proofs_Map.C38_round_trip_proof. Qed.
Print Assumptions C38_round_trip.

(** C38: the pixel returned for a position is the one it lies in: the position is at most half a
    pixel away, in each direction, from that pixel's own position. *)
Theorem C38_pixel_of_position : forall (p : OccupancyMapParams R) (pos q : Position2D R) (px : Point2Di),
  0 < o_metersPerPixel p -> getPixelFromPosition p pos = Ok px -> getPositionFromPixel p px = Ok q ->
  Rabs (p2_x q - p2_x pos) <= o_metersPerPixel p / 2 /\ Rabs (p2_y q - p2_y pos) <= o_metersPerPixel p / 2.
Proof. exact @Proofs_Map.C38_pixel_of_position_proof. Qed.
Print Assumptions C38_pixel_of_position.

(** C38: the pixel difference of a metric difference d is the pixel of the point at d from the
    position of pixel (0,0). *)
Theorem C38_delta : forall (p : OccupancyMapParams R) (d o : Position2D R),
  getPositionFromPixel p (mkPoint2Di 0 0) = Ok o ->
  getDeltaPixelFromDeltaPosition p d = getPixelFromPosition p (mkPosition2D (p2_x o + p2_x d) (p2_y o + p2_y d)).
Proof. exact @Proofs_Map.C38_delta_proof. Qed.
Print Assumptions C38_delta.

(** C38, in binary32: the round trip is exact although every step rounds, for every map whose
    origin is within 2^20 pixels of (0,0), with pixels of 2^-60 to 2^60 metres, and every pixel
    with coordinates up to 2^20. *)
Theorem C38_round_trip_binary32 : forall (L : libm32) (p : OccupancyMapParams f32) (i j : Z),
  let '(mkMap _ mpp off _) := p in
  is_finite mpp = true -> is_finite (p2_x off) = true -> is_finite (p2_y off) = true ->
  bpow radix2 (-60) <= B2R mpp <= bpow radix2 60 ->
  Rabs (B2R (p2_x off)) <= 1048576 * B2R mpp -> Rabs (B2R (p2_y off)) <= 1048576 * B2R mpp ->
  (Z.abs i <= 2^20)%Z -> (Z.abs j <= 2^20)%Z ->
  rbind (@getPositionFromPixel f32 (F32Scalar L) p (mkPoint2Di i j)) (@getPixelFromPosition f32 (F32Scalar L) F32ToInt p)
    = Ok (mkPoint2Di i j).
Proof. exact @Proofs_Map.C38_round_trip_binary32_proof. Qed.
Print Assumptions C38_round_trip_binary32.

(** C38: further away the round trip fails: with pixels of one metre and an origin at 2^25 m,
    pixel (1,0) comes back as (0,0). *)
Theorem C38_round_trip_far_refuted : forall L : libm32,
  let p := mkMap 100 (f32_ofZ 1) (mkPosition2D (f32_ofZ 33554432) (f32_ofZ 0)) (f32_frac 1 4) in
  rbind (@getPositionFromPixel f32 (F32Scalar L) p (mkPoint2Di 1 0)) (@getPixelFromPosition f32 (F32Scalar L) F32ToInt p)
    = Ok (mkPoint2Di 0 0).
Proof. exact @Proofs_Map.C38_round_trip_far_refuted_proof. Qed.
Print Assumptions C38_round_trip_far_refuted.

Example C38_instance : forall L : libm32,
  let p := @newOccupancyMapParams f32 (F32Scalar L) 200 (f32_frac 1 20) (mkPosition2D (f32_ofZ 2) (f32_ofZ (-1))) (f32_frac 1 4) in
  rbind (@getPositionFromPixel f32 (F32Scalar L) p (mkPoint2Di 123 45)) (@getPixelFromPosition f32 (F32Scalar L) F32ToInt p)
    = Ok (mkPoint2Di 123 45).
Proof. intro L. vm_compute. reflexivity. Qed.

Example C38_binary32_hypotheses : is_finite (f32_frac 1 16) = true /\
  bpow radix2 (-60) <= B2R (f32_frac 1 16) <= bpow radix2 60 /\ Rabs (B2R (f32_ofZ 3)) <= 1048576 * B2R (f32_frac 1 16).
Proof.
  assert (V : B2R (f32_frac 1 16) = / 16).
  { rewrite <- SF2R_B2SF. replace (B2SF (f32_frac 1 16)) with (SpecFloat.S754_finite false 8388608 (-27)) by (vm_compute; reflexivity).
    unfold SF2R, F2R. cbn [Fnum Fexp cond_Zopp]. change (bpow radix2 (-27)) with (/134217728). lra. }
  split; [reflexivity|]. rewrite V, (proj1 (Proofs_Map.ofZ_exact 3 ltac:(lia))). rewrite Rabs_right by lra.
  split; [|lra]. change (/16) with (bpow radix2 (-4)). split; apply bpow_le; lia.
Qed.
