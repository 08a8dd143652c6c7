(** * Properties C24 - C27: the vector types *)
From Coq Require Import Reals List Lra Lia Psatz Nsatz Bool Arith ZArith.
Import ListNotations.
From Flocq Require Import IEEE754.BinarySingleNaN.
From Verif Require Import Scalar RInst F32 RLemmas Model_Base Model_Vec Model_Rigid Model_Almath
  Model_Helpers Spec_Geom Spec_Vec Proofs_Geom MemTac.
Local Open Scope R_scope.
From Verif Require Proofs_Vectors.

(** ** C24 *)

(** C24: the value types are real vector spaces. Rotation3D has no unary minus; it is
    multiplication by -1 there. *)
Theorem C24_vector_spaces :
  vector_space (V := Position2D R) (mkPosition2D 0 0) p2_add p2_sub p2_neg p2_scale /\
  vector_space (V := Position3D R) (mkPosition3D 0 0 0) p3_add p3_sub p3_neg p3_scale /\
  vector_space (V := Position6D R) (mkPosition6D 0 0 0 0 0 0) p6_add p6_sub p6_neg p6_scale /\
  vector_space (V := Velocity3D R) (mkVelocity3D 0 0 0) v3_add v3_sub v3_neg v3_scale /\
  vector_space (V := Velocity6D R) (mkVelocity6D 0 0 0 0 0 0) v6_add v6_sub v6_neg v6_scale /\
  vector_space (V := Rotation3D R) (mkRotation3D 0 0 0) e3_add e3_sub (fun a => e3_scale a (-1)) e3_scale /\
  vector_space (V := Pose2D R) (mkPose2D 0 0 0) pose_add pose_sub pose_neg pose_scale.
Proof. exact @Proofs_Vectors.C24_vector_spaces_proof. Qed.
Print Assumptions C24_vector_spaces.

(** C24: every operation acts on each coordinate separately, with the operation of R. *)
Theorem C24_pointwise :
  pointwise (V := Position2D R) cp2 p2_add p2_sub p2_neg p2_scale /\
  pointwise (V := Position3D R) cp3 p3_add p3_sub p3_neg p3_scale /\
  pointwise (V := Position6D R) cp6 p6_add p6_sub p6_neg p6_scale /\
  pointwise (V := Velocity3D R) cv3 v3_add v3_sub v3_neg v3_scale /\
  pointwise (V := Velocity6D R) cv6 v6_add v6_sub v6_neg v6_scale /\
  pointwise (V := Rotation3D R) ce3 e3_add e3_sub (fun a => e3_scale a (-1)) e3_scale /\
  pointwise (V := Pose2D R) cpose pose_add pose_sub pose_neg pose_scale.
Proof. exact @Proofs_Vectors.C24_pointwise_proof. Qed.
Print Assumptions C24_pointwise.

(** C24: in every arithmetic, a += b and a -= b leave a + b and a - b in a and change
    nothing else, also when a and b are the same object; a *= s and s * a equal a * s, and
    a / s is what a /= s leaves in a (with the same exception). *)
Theorem C24_compound_assignment : forall (T : Type) (S : Scalar T),
  (forall (m : mem (Position2D T)) o q, let r := p2_addIn m o q in
     r o = p2_add (m o) (m q) /\ forall x, x <> o -> r x = m x) /\
  (forall (m : mem (Position2D T)) o q, let r := p2_subIn m o q in
     r o = p2_sub (m o) (m q) /\ forall x, x <> o -> r x = m x) /\
  (forall (m : mem (Position3D T)) o q, let r := p3_addIn m o q in
     r o = p3_add (m o) (m q) /\ forall x, x <> o -> r x = m x) /\
  (forall (m : mem (Position3D T)) o q, let r := p3_subIn m o q in
     r o = p3_sub (m o) (m q) /\ forall x, x <> o -> r x = m x) /\
  (forall (m : mem (Position6D T)) o q, let r := p6_addIn m o q in
     r o = p6_add (m o) (m q) /\ forall x, x <> o -> r x = m x) /\
  (forall (m : mem (Position6D T)) o q, let r := p6_subIn m o q in
     r o = p6_sub (m o) (m q) /\ forall x, x <> o -> r x = m x) /\
  (forall (m : mem (Velocity3D T)) o q, let r := v3_addIn m o q in
     r o = v3_add (m o) (m q) /\ forall x, x <> o -> r x = m x) /\
  (forall (m : mem (Velocity3D T)) o q, let r := v3_subIn m o q in
     r o = v3_sub (m o) (m q) /\ forall x, x <> o -> r x = m x) /\
  (forall (m : mem (Rotation3D T)) o q, let r := e3_addIn m o q in
     r o = e3_add (m o) (m q) /\ forall x, x <> o -> r x = m x) /\
  (forall (m : mem (Rotation3D T)) o q, let r := e3_subIn m o q in
     r o = e3_sub (m o) (m q) /\ forall x, x <> o -> r x = m x) /\
  (forall (m : mem (Pose2D T)) o q, let r := pose_addIn m o q in
     r o = pose_add (m o) (m q) /\ forall x, x <> o -> r x = m x) /\
  (forall (m : mem (Pose2D T)) o q, let r := pose_subIn m o q in
     r o = pose_sub (m o) (m q) /\ forall x, x <> o -> r x = m x) /\
  (forall (a : Position2D T) s, p2_scaleIn a s = p2_scale a s) /\
  (forall (a : Position3D T) s, p3_scaleIn a s = p3_scale a s) /\
  (forall (a : Position6D T) s, p6_scaleIn a s = p6_scale a s) /\
  (forall (a : Velocity3D T) s, v3_scaleIn a s = v3_scale a s) /\
  (forall (a : Velocity6D T) s, v6_scaleIn a s = v6_scale a s) /\
  (forall (a : Rotation3D T) s, e3_scaleIn a s = e3_scale a s) /\
  (forall (a : Pose2D T) s, pose_scaleIn a s = pose_scale a s) /\
  (forall (a : Position2D T) s, p2_lscale s a = p2_scale a s) /\
  (forall (a : Velocity3D T) s, v3_lscale s a = v3_scale a s) /\
  (forall (a : Velocity6D T) s, v6_lscale s a = v6_scale a s) /\
  (forall (a : Position2D T) s, p2_div a s = match p2_divIn a s with (Ok _, b) => Ok b | (Throw, _) => Throw | (Abort, _) => Abort | (UB, _) => UB end) /\
  (forall (a : Position3D T) s, p3_div a s = match p3_divIn a s with (Ok _, b) => Ok b | (Throw, _) => Throw | (Abort, _) => Abort | (UB, _) => UB end) /\
  (forall (a : Position6D T) s, p6_div a s = match p6_divIn a s with (Ok _, b) => Ok b | (Throw, _) => Throw | (Abort, _) => Abort | (UB, _) => UB end) /\
  (forall (a : Velocity3D T) s, v3_div a s = match v3_divIn a s with (Ok _, b) => Ok b | (Throw, _) => Throw | (Abort, _) => Abort | (UB, _) => UB end) /\
  (forall (a : Velocity6D T) s, v6_div a s = match v6_divIn a s with (Ok _, b) => Ok b | (Throw, _) => Throw | (Abort, _) => Abort | (UB, _) => UB end) /\
  (forall (a : Rotation3D T) s, e3_div a s = match e3_divIn a s with (Ok _, b) => Ok b | (Throw, _) => Throw | (Abort, _) => Abort | (UB, _) => UB end) /\
  (forall (a : Pose2D T) s, pose_div a s = match pose_divIn a s with (Ok _, b) => Ok b | (Throw, _) => Throw | (Abort, _) => Abort | (UB, _) => UB end).
Proof. exact @Proofs_Vectors.C24_compound_assignment_proof. Qed.
Print Assumptions C24_compound_assignment.

(** C24: the dot product is bilinear, symmetric and positive, norm() is its square root,
    and Cauchy-Schwarz holds. *)
Theorem C24_dot_product :
  (forall (a b c : Position3D R) s,
    p3_dotProduct (p3_add a (p3_scale b s)) c = p3_dotProduct a c + s * p3_dotProduct b c /\
    p3_dotProduct a b = p3_dotProduct b a /\ 0 <= p3_dotProduct a a /\
    (p3_dotProduct a a = 0 -> a = mkPosition3D 0 0 0) /\ p3_norm a * p3_norm a = p3_dotProduct a a /\
    p3_dotProduct a b * p3_dotProduct a b <= p3_dotProduct a a * p3_dotProduct b b) /\
  (forall (a b c : Position2D R) s,
    p2_dotProduct (p2_add a (p2_scale b s)) c = p2_dotProduct a c + s * p2_dotProduct b c /\
    p2_dotProduct a b = p2_dotProduct b a /\ 0 <= p2_dotProduct a a /\
    (p2_dotProduct a a = 0 -> a = mkPosition2D 0 0) /\ p2_norm a * p2_norm a = p2_dotProduct a a /\
    p2_dotProduct a b * p2_dotProduct a b <= p2_dotProduct a a * p2_dotProduct b b).
Proof. exact @Proofs_Vectors.C24_dot_product_proof. Qed.
Print Assumptions C24_dot_product.

(** C24: the cross product is bilinear, antisymmetric, orthogonal to its arguments, of
    squared norm |a|^2 |b|^2 - (a.b)^2, right-handed (x cross y = z), and the planar one is
    the determinant. *)
Theorem C24_cross_product :
  (forall (a b c : Position3D R) s,
    p3_crossProduct (p3_add a (p3_scale b s)) c = p3_add (p3_crossProduct a c) (p3_scale (p3_crossProduct b c) s) /\
    p3_crossProduct a b = p3_neg (p3_crossProduct b a) /\
    p3_dotProduct a (p3_crossProduct a b) = 0 /\ p3_dotProduct b (p3_crossProduct a b) = 0 /\
    p3_dotProduct (p3_crossProduct a b) (p3_crossProduct a b)
      = p3_dotProduct a a * p3_dotProduct b b - p3_dotProduct a b * p3_dotProduct a b) /\
  p3_crossProduct (mkPosition3D 1 0 0) (mkPosition3D 0 1 0) = mkPosition3D 0 0 1 /\
  (forall (a b c : Position2D R) s,
    p2_crossProduct (p2_add a (p2_scale b s)) c = p2_crossProduct a c + s * p2_crossProduct b c /\
    p2_crossProduct a b = - p2_crossProduct b a /\
    p2_crossProduct (mkPosition2D 1 0) (mkPosition2D 0 1) = 1 /\
    p2_crossProduct a b * p2_crossProduct a b + p2_dotProduct a b * p2_dotProduct a b
      = p2_dotProduct a a * p2_dotProduct b b).
Proof. exact @Proofs_Vectors.C24_cross_product_proof. Qed.
Print Assumptions C24_cross_product.

(** C24: crossProduct(a, b, out) writes the cross product and nothing else, in every
    arithmetic, when out is neither a nor b... *)
Theorem C24_cross_product_out : forall (T : Type) (S : Scalar T) (m : mem (Position3D T)) a b o,
  a <> o -> b <> o ->
  let r := p3_crossProductOut m a b o in
  r o = p3_crossProduct (m a) (m b) /\ forall x, x <> o -> r x = m x.
Proof. exact @Proofs_Vectors.C24_cross_product_out_proof. Qed.
Print Assumptions C24_cross_product_out.

(** ... violated when out is one of them: crossProduct(a, b, a) with a = x, b = y gives
    the null vector instead of z. *)
Theorem C24_cross_product_aliased_refuted :
  let m := fun i => match i with O => mkPosition3D 1 0 0 | _ => mkPosition3D 0 1 0 end : Position3D R in
  p3_crossProductOut m 0 1 0 0%nat = mkPosition3D 0 0 0 /\
  p3_crossProduct (m 0%nat) (m 1%nat) = mkPosition3D 0 0 1.
Proof. exact @Proofs_Vectors.C24_cross_product_aliased_refuted_proof. Qed.
Print Assumptions C24_cross_product_aliased_refuted.

Example ex_C24 : p3_add (mkPosition3D 1 2 3) (p3_scale (mkPosition3D 1 0 (-1)) 2) = mkPosition3D 3 2 1.
Proof. unr. rec_eq; ring. Qed.

(** ** C25 *)

(** C25: v / s throws exactly when s = 0; otherwise it is the vector whose product by s is
    v, each coordinate divided by s. v /= s leaves v unchanged when it throws and otherwise
    holds v / s. *)
Theorem C25_division :
  (forall (a : Position2D R) s,
     (p2_div a s = Throw <-> s = 0) /\ (s <> 0 -> exists b, p2_div a s = Ok b /\ p2_scale b s = a /\ cp2 b = map (fun x => x / s) (cp2 a)) /\
     (s <> 0 -> p2_div (p2_scale a s) s = Ok a) /\
     (s = 0 -> p2_divIn a s = (Throw, a)) /\ (s <> 0 -> exists b, p2_divIn a s = (Ok tt, b) /\ p2_div a s = Ok b)) /\
  (forall (a : Position3D R) s,
     (p3_div a s = Throw <-> s = 0) /\ (s <> 0 -> exists b, p3_div a s = Ok b /\ p3_scale b s = a /\ cp3 b = map (fun x => x / s) (cp3 a)) /\
     (s <> 0 -> p3_div (p3_scale a s) s = Ok a) /\
     (s = 0 -> p3_divIn a s = (Throw, a)) /\ (s <> 0 -> exists b, p3_divIn a s = (Ok tt, b) /\ p3_div a s = Ok b)) /\
  (forall (a : Position6D R) s,
     (p6_div a s = Throw <-> s = 0) /\ (s <> 0 -> exists b, p6_div a s = Ok b /\ p6_scale b s = a /\ cp6 b = map (fun x => x / s) (cp6 a)) /\
     (s <> 0 -> p6_div (p6_scale a s) s = Ok a) /\
     (s = 0 -> p6_divIn a s = (Throw, a)) /\ (s <> 0 -> exists b, p6_divIn a s = (Ok tt, b) /\ p6_div a s = Ok b)) /\
  (forall (a : Velocity3D R) s,
     (v3_div a s = Throw <-> s = 0) /\ (s <> 0 -> exists b, v3_div a s = Ok b /\ v3_scale b s = a /\ cv3 b = map (fun x => x / s) (cv3 a)) /\
     (s <> 0 -> v3_div (v3_scale a s) s = Ok a) /\
     (s = 0 -> v3_divIn a s = (Throw, a)) /\ (s <> 0 -> exists b, v3_divIn a s = (Ok tt, b) /\ v3_div a s = Ok b)) /\
  (forall (a : Velocity6D R) s,
     (v6_div a s = Throw <-> s = 0) /\ (s <> 0 -> exists b, v6_div a s = Ok b /\ v6_scale b s = a /\ cv6 b = map (fun x => x / s) (cv6 a)) /\
     (s <> 0 -> v6_div (v6_scale a s) s = Ok a) /\
     (s = 0 -> v6_divIn a s = (Throw, a)) /\ (s <> 0 -> exists b, v6_divIn a s = (Ok tt, b) /\ v6_div a s = Ok b)) /\
  (forall (a : Rotation3D R) s,
     (e3_div a s = Throw <-> s = 0) /\ (s <> 0 -> exists b, e3_div a s = Ok b /\ e3_scale b s = a /\ ce3 b = map (fun x => x / s) (ce3 a)) /\
     (s <> 0 -> e3_div (e3_scale a s) s = Ok a) /\
     (s = 0 -> e3_divIn a s = (Throw, a)) /\ (s <> 0 -> exists b, e3_divIn a s = (Ok tt, b) /\ e3_div a s = Ok b)) /\
  (forall (a : Pose2D R) s,
     (pose_div a s = Throw <-> s = 0) /\ (s <> 0 -> exists b, pose_div a s = Ok b /\ pose_scale b s = a /\ cpose b = map (fun x => x / s) (cpose a)) /\
     (s <> 0 -> pose_div (pose_scale a s) s = Ok a) /\
     (s = 0 -> pose_divIn a s = (Throw, a)) /\ (s <> 0 -> exists b, pose_divIn a s = (Ok tt, b) /\ pose_div a s = Ok b)) /\
  (forall (a : Quaternion R) s,
     (q_div a s = Throw <-> s = 0) /\ (s <> 0 -> exists b, q_div a s = Ok b /\ q_scale b s = a /\ cq b = map (fun x => x / s) (cq a)) /\
     (s <> 0 -> q_div (q_scale a s) s = Ok a) /\
     (s = 0 -> q_divIn a s = (Throw, a)) /\ (s <> 0 -> exists b, q_divIn a s = (Ok tt, b) /\ q_div a s = Ok b)).
Proof. exact @Proofs_Vectors.C25_division_proof. Qed.
Print Assumptions C25_division.

(** C25: in binary32 division throws exactly for the two zeros (never for NaN), for every
    type, whatever the mathematical library. *)
Theorem C25_division_binary32 : forall (L : libm32) (s : f32),
  (forall (a : Position2D f32), (p2_div (S := F32Scalar L) a s = Throw <-> s = B754_zero true \/ s = B754_zero false) /\ snd (p2_divIn (S := F32Scalar L) a (B754_zero true)) = a) /\
  (forall (a : Position3D f32), (p3_div (S := F32Scalar L) a s = Throw <-> s = B754_zero true \/ s = B754_zero false) /\ snd (p3_divIn (S := F32Scalar L) a (B754_zero true)) = a) /\
  (forall (a : Position6D f32), (p6_div (S := F32Scalar L) a s = Throw <-> s = B754_zero true \/ s = B754_zero false) /\ snd (p6_divIn (S := F32Scalar L) a (B754_zero true)) = a) /\
  (forall (a : Velocity3D f32), (v3_div (S := F32Scalar L) a s = Throw <-> s = B754_zero true \/ s = B754_zero false) /\ snd (v3_divIn (S := F32Scalar L) a (B754_zero true)) = a) /\
  (forall (a : Velocity6D f32), (v6_div (S := F32Scalar L) a s = Throw <-> s = B754_zero true \/ s = B754_zero false) /\ snd (v6_divIn (S := F32Scalar L) a (B754_zero true)) = a) /\
  (forall (a : Rotation3D f32), (e3_div (S := F32Scalar L) a s = Throw <-> s = B754_zero true \/ s = B754_zero false) /\ snd (e3_divIn (S := F32Scalar L) a (B754_zero true)) = a) /\
  (forall (a : Pose2D f32), (pose_div (S := F32Scalar L) a s = Throw <-> s = B754_zero true \/ s = B754_zero false) /\ snd (pose_divIn (S := F32Scalar L) a (B754_zero true)) = a) /\
  (forall (a : Quaternion f32), (q_div (S := F32Scalar L) a s = Throw <-> s = B754_zero true \/ s = B754_zero false) /\ snd (q_divIn (S := F32Scalar L) a (B754_zero true)) = a).
Proof. exact @Proofs_Vectors.C25_division_binary32_proof. Qed.
Print Assumptions C25_division_binary32.

(** C25: normalize() throws exactly for the null vector (quaternion); otherwise the result
    has norm 1 and is the original divided by its norm. *)
Theorem C25_normalize :
  (forall a : Position2D R, (p2_normalize a = Throw <-> a = (mkPosition2D 0 0)) /\
     (a <> (mkPosition2D 0 0) -> exists b, p2_normalize a = Ok b /\ p2_norm b = 1 /\ a = p2_scale b (p2_norm a) /\ 0 < p2_norm a)) /\
  (forall a : Position3D R, (p3_normalize a = Throw <-> a = (mkPosition3D 0 0 0)) /\
     (a <> (mkPosition3D 0 0 0) -> exists b, p3_normalize a = Ok b /\ p3_norm b = 1 /\ a = p3_scale b (p3_norm a) /\ 0 < p3_norm a)) /\
  (forall a : Position6D R, (p6_normalize a = Throw <-> a = (mkPosition6D 0 0 0 0 0 0)) /\
     (a <> (mkPosition6D 0 0 0 0 0 0) -> exists b, p6_normalize a = Ok b /\ p6_norm b = 1 /\ a = p6_scale b (p6_norm a) /\ 0 < p6_norm a)) /\
  (forall a : Velocity3D R, (v3_normalize a = Throw <-> a = (mkVelocity3D 0 0 0)) /\
     (a <> (mkVelocity3D 0 0 0) -> exists b, v3_normalize a = Ok b /\ v3_norm b = 1 /\ a = v3_scale b (v3_norm a) /\ 0 < v3_norm a)) /\
  (forall a : Velocity6D R, (v6_normalize a = Throw <-> a = (mkVelocity6D 0 0 0 0 0 0)) /\
     (a <> (mkVelocity6D 0 0 0 0 0 0) -> exists b, v6_normalize a = Ok b /\ v6_norm b = 1 /\ a = v6_scale b (v6_norm a) /\ 0 < v6_norm a)) /\
  (forall a : Quaternion R, (q_normalize a = Throw <-> a = (mkQuaternion 0 0 0 0)) /\
     (a <> (mkQuaternion 0 0 0 0) -> exists b, q_normalize a = Ok b /\ q_norm b = 1 /\ a = q_scale b (q_norm a) /\ 0 < q_norm a)).
Proof. exact @Proofs_Vectors.C25_normalize_proof. Qed.
Print Assumptions C25_normalize.

(** C25 for Pose2D: normalize() concerns (x, y) only and throws when their norm is below
    1e-4. *)
Theorem C25_pose_normalize : forall a : Pose2D R,
  (pose_normalize a = Throw <-> sqrt (pose_x a * pose_x a + pose_y a * pose_y a) < 1/10000) /\
  (1/10000 <= pose_norm a -> exists b, pose_normalize a = Ok b /\ pose_norm b = 1 /\
    pose_x a = pose_x b * pose_norm a /\ pose_y a = pose_y b * pose_norm a /\ pose_theta b = pose_theta a).
Proof. exact @Proofs_Vectors.C25_pose_normalize_proof. Qed.
Print Assumptions C25_pose_normalize.

(** C25, violated for Pose2D: a non-null vector whose normalize() throws. *)
Theorem C25_pose_normalize_refuted :
  mkPose2D (1/100000) 0 0 <> mkPose2D 0 0 0 /\ pose_normalize (mkPose2D (1/100000) 0 0) = Throw.
Proof. exact @Proofs_Vectors.C25_pose_normalize_refuted_proof. Qed.
Print Assumptions C25_pose_normalize_refuted.

(** C25, violated in binary32: the squares underflow or overflow. 2^-100 in x is a non-null
    vector whose normalize() throws; 2^100 in x is normalised to the null vector. *)
Theorem C25_normalize_binary32_refuted : forall L : libm32,
  let tiny := mkPosition3D (f32_frac 1 (2^100)) (f32_ofZ 0) (f32_ofZ 0) in
  let big := mkPosition3D (f32_ofZ (2^100)) (f32_ofZ 0) (f32_ofZ 0) in
  p3_eqb (S := F32Scalar L) tiny (mkPosition3D (f32_ofZ 0) (f32_ofZ 0) (f32_ofZ 0)) = false /\
  p3_normalize (S := F32Scalar L) tiny = Throw /\
  exists b, p3_normalize (S := F32Scalar L) big = Ok b /\
    p3_eqb (S := F32Scalar L) b (mkPosition3D (f32_ofZ 0) (f32_ofZ 0) (f32_ofZ 0)) = true.
Proof. exact @Proofs_Vectors.C25_normalize_binary32_refuted_proof. Qed.
Print Assumptions C25_normalize_binary32_refuted.

Example ex_C25 : p3_normalize (mkPosition3D 3 0 4) = Ok (mkPosition3D (3/5) 0 (4/5)).
Proof.
  unfold p3_normalize, p3_div, p3_norm. cbn. rewrite (sqrt_unique' _ 5) by lra.
  rewrite Reqb_false by lra. apply f_equal. unr. rec_eq; field.
Qed.

(** ** C26 *)

(** C26: distance() of the position types is a distance function: the Euclidean one on the
    coordinates, whose square is distanceSquared(). *)
Theorem C26_metric :
  is_metric (V := Position2D R) p2_distance /\ is_metric (V := Position3D R) p3_distance /\
  (forall a b, p2_distance a b = lnorm (ldiff (cp2 a) (cp2 b)) /\ p2_distance a b * p2_distance a b = p2_distanceSquared a b) /\
  (forall a b, p3_distance a b = lnorm (ldiff (cp3 a) (cp3 b)) /\ p3_distance a b * p3_distance a b = p3_distanceSquared a b).
Proof. exact @Proofs_Vectors.C26_metric_proof. Qed.
Print Assumptions C26_metric.

(** C26: distance() on Pose2D, Position6D and Transform is the distance between the
    positions: it is symmetric, satisfies the triangle inequality, and is zero exactly when the positions
    agree, whatever the angles. *)
Theorem C26_position_distance :
  (forall a b : Pose2D R, pose_distance a b = p2_distance (position2DFromPose2D a) (position2DFromPose2D b) /\
     (pose_distance a b = 0 <-> pose_x a = pose_x b /\ pose_y a = pose_y b)) /\
  (forall a b : Position6D R, p6_distance a b = p3_distance (position3DFromPosition6D a) (position3DFromPosition6D b) /\
     (p6_distance a b = 0 <-> p6_x a = p6_x b /\ p6_y a = p6_y b /\ p6_z a = p6_z b)) /\
  (forall a b : Transform R, t_distance a b = p3_distance (position3DFromTransform a) (position3DFromTransform b) /\
     (t_distance a b = 0 <-> tpos a = tpos b)) /\
  (forall a b c : Pose2D R, pose_distance a b = pose_distance b a /\ pose_distance a c <= pose_distance a b + pose_distance b c) /\
  (forall a b c : Position6D R, p6_distance a b = p6_distance b a /\ p6_distance a c <= p6_distance a b + p6_distance b c) /\
  (forall a b c : Transform R, t_distance a b = t_distance b a /\ t_distance a c <= t_distance a b + t_distance b c).
Proof. exact @Proofs_Vectors.C26_position_distance_proof. Qed.
Print Assumptions C26_position_distance.

(** C26: isNear(a, b, eps) says that every coordinate differs by at most eps; it is
    reflexive for eps >= 0, symmetric, monotone in eps, and for eps = 0 is equality. *)
Theorem C26_tolerance :
  is_tolerance (V := Position2D R) cp2 p2_isNear /\
  is_tolerance (V := Position3D R) cp3 p3_isNear /\
  is_tolerance (V := Position6D R) cp6 p6_isNear /\
  is_tolerance (V := Velocity3D R) cv3 v3_isNear /\
  is_tolerance (V := Velocity6D R) cv6 v6_isNear /\
  is_tolerance (V := Rotation3D R) ce3 e3_isNear /\
  is_tolerance (V := Pose2D R) cpose pose_isNear /\
  is_tolerance (V := Rotation R) cm m_isNear /\
  is_tolerance (V := Transform R) ct t_isNear.
Proof. exact @Proofs_Vectors.C26_tolerance_proof. Qed.
Print Assumptions C26_tolerance.

(** C26: Quaternion.isNear accepts a pair when all the coordinates differ by less than eps
    after changing the sign of all of them or not; it is reflexive for eps > 0, symmetric,
    monotone, and unchanged when either argument changes sign. *)
Theorem C26_quaternion_tolerance : forall (a b : Quaternion R) (eps eps' : R),
  (q_isNear a b eps = true <->
     Forall (fun p => Rabs (fst p - snd p) < eps) (combine (cq a) (cq b)) \/
     Forall (fun p => Rabs (fst p + snd p) < eps) (combine (cq a) (cq b))) /\
  (0 < eps -> q_isNear a a eps = true) /\ q_isNear a b eps = q_isNear b a eps /\
  (eps <= eps' -> q_isNear a b eps = true -> q_isNear a b eps' = true) /\
  q_isNear (q_scale a (-1)) b eps = q_isNear a b eps /\ q_isNear a a 0 = false.
Proof. exact @Proofs_Vectors.C26_quaternion_tolerance_proof. Qed.
Print Assumptions C26_quaternion_tolerance.

(** C26: in binary32, isNear is false as soon as a compared coordinate (or eps) is NaN. *)
Theorem C26_nan : forall (L : libm32) (eps : f32),
  let nan_in (l : list f32) := Exists (fun x => is_nan x = true) l in
  (forall a b : Position2D f32, nan_in (cp2 a) \/ nan_in (cp2 b) \/ is_nan eps = true -> p2_isNear (S := F32Scalar L) a b eps = false) /\
  (forall a b : Position3D f32, nan_in (cp3 a) \/ nan_in (cp3 b) \/ is_nan eps = true -> p3_isNear (S := F32Scalar L) a b eps = false) /\
  (forall a b : Position6D f32, nan_in (cp6 a) \/ nan_in (cp6 b) \/ is_nan eps = true -> p6_isNear (S := F32Scalar L) a b eps = false) /\
  (forall a b : Velocity3D f32, nan_in (cv3 a) \/ nan_in (cv3 b) \/ is_nan eps = true -> v3_isNear (S := F32Scalar L) a b eps = false) /\
  (forall a b : Velocity6D f32, nan_in (cv6 a) \/ nan_in (cv6 b) \/ is_nan eps = true -> v6_isNear (S := F32Scalar L) a b eps = false) /\
  (forall a b : Rotation3D f32, nan_in (ce3 a) \/ nan_in (ce3 b) \/ is_nan eps = true -> e3_isNear (S := F32Scalar L) a b eps = false) /\
  (forall a b : Pose2D f32, nan_in (cpose a) \/ nan_in (cpose b) \/ is_nan eps = true -> pose_isNear (S := F32Scalar L) a b eps = false) /\
  (forall a b : Rotation f32, nan_in (cm a) \/ nan_in (cm b) \/ is_nan eps = true -> m_isNear (S := F32Scalar L) a b eps = false) /\
  (forall a b : Transform f32, nan_in (ct a) \/ nan_in (ct b) \/ is_nan eps = true -> t_isNear (S := F32Scalar L) a b eps = false).
Proof. exact @Proofs_Vectors.C26_nan_proof. Qed.
Print Assumptions C26_nan.

Example ex_C26 : p3_distance (mkPosition3D 1 1 1) (mkPosition3D 1 4 5) = 5 /\
  p3_isNear (mkPosition3D 1 1 1) (mkPosition3D 1 4 5) 4 = true.
Proof.
  split.
  - unfold p3_distance, p3_distanceSquared. cbn. apply sqrt_unique'; lra.
  - apply C26_tolerance. repeat constructor; cbn; unfold Rabs; destruct (Rcase_abs _); lra.
Qed.

(** ** C27 *)

(** C27, in every arithmetic: toVector gives exactly the coordinates in order, whatever the
    vector passed in held, and the constructor from that vector gives the value back. *)
Theorem C27_round_trip : forall (T : Type) (S : Scalar T),
  (forall (a : Position2D T) (out : list T), p2_toVector a = Ok (cp2 a) /\ p2_toVectorInto a out = Ok (cp2 a) /\ p2_ofVector (cp2 a) = a) /\
  (forall (a : Position3D T) (out : list T), p3_toVector a = Ok (cp3 a) /\ p3_toVectorInto a out = Ok (cp3 a) /\ p3_ofVector (cp3 a) = a) /\
  (forall (a : Position6D T) (out : list T), p6_toVector a = Ok (cp6 a) /\ p6_toVectorInto a out = Ok (cp6 a) /\ p6_ofVector (cp6 a) = a) /\
  (forall (a : Velocity3D T) (out : list T), v3_toVector a = Ok (cv3 a) /\ v3_toVectorInto a out = Ok (cv3 a) /\ v3_ofVector (cv3 a) = a) /\
  (forall (a : Velocity6D T) (out : list T), v6_toVector a = Ok (cv6 a) /\ v6_toVectorInto a out = Ok (cv6 a) /\ v6_ofVector (cv6 a) = a) /\
  (forall (a : Rotation3D T) (out : list T), e3_toVector a = Ok (ce3 a) /\ e3_toVectorInto a out = Ok (ce3 a) /\ e3_ofVector (ce3 a) = a) /\
  (forall (a : Pose2D T) (out : list T), pose_toVector a = Ok (cpose a) /\ pose_toVectorInto a out = Ok (cpose a) /\ pose_ofVector (cpose a) = a) /\
  (forall (a : Quaternion T) (out : list T), q_toVector a = Ok (cq a) /\ q_toVectorInto a out = Ok (cq a) /\ q_ofVector (cq a) = a).
Proof. exact @Proofs_Vectors.C27_round_trip_proof. Qed.
Print Assumptions C27_round_trip.

(** C27: a vector of another size gives the value with all coordinates zero. *)
Theorem C27_wrong_size : forall (T : Type) (S : Scalar T) (v : list T),
  (length v <> 2%nat -> p2_ofVector v = mkPosition2D (s_ofZ 0) (s_ofZ 0)) /\
  (length v <> 3%nat -> p3_ofVector v = mkPosition3D (s_ofZ 0) (s_ofZ 0) (s_ofZ 0)) /\
  (length v <> 6%nat -> p6_ofVector v = mkPosition6D (s_ofZ 0) (s_ofZ 0) (s_ofZ 0) (s_ofZ 0) (s_ofZ 0) (s_ofZ 0)) /\
  (length v <> 3%nat -> v3_ofVector v = mkVelocity3D (s_ofZ 0) (s_ofZ 0) (s_ofZ 0)) /\
  (length v <> 6%nat -> v6_ofVector v = mkVelocity6D (s_ofZ 0) (s_ofZ 0) (s_ofZ 0) (s_ofZ 0) (s_ofZ 0) (s_ofZ 0)) /\
  (length v <> 3%nat -> e3_ofVector v = mkRotation3D (s_ofZ 0) (s_ofZ 0) (s_ofZ 0)) /\
  (length v <> 3%nat -> pose_ofVector v = mkPose2D (s_ofZ 0) (s_ofZ 0) (s_ofZ 0)) /\
  (length v <> 4%nat -> q_ofVector v = mkQuaternion (s_ofZ 0) (s_ofZ 0) (s_ofZ 0) (s_ofZ 0)).
Proof. exact @Proofs_Vectors.C27_wrong_size_proof. Qed.
Print Assumptions C27_wrong_size.

(** C27, violated for Quaternion: the default is the identity quaternion, but a vector of
    the wrong size gives the zero quaternion. *)
Theorem C27_quaternion_wrong_size_refuted : forall v : list R, length v <> 4%nat ->
  q_ofVector v <> q_id.
Proof. exact @Proofs_Vectors.C27_quaternion_wrong_size_refuted_proof. Qed.
Print Assumptions C27_quaternion_wrong_size_refuted.

(** C27: writeToVector at a position with enough room overwrites exactly the type's
    size of elements with the values of toVector, keeps everything before and after, and
    advances the cursor by that size; with less room it writes out of bounds (undefined
    behaviour). *)
Theorem C27_writeToVector : forall (T : Type) (S : Scalar T) (pre post : list T),
  (forall (a : Position2D T), (length post >= 2)%nat ->
     p2_writeToVector a (pre ++ post) (length pre) = Ok (pre ++ cp2 a ++ skipn 2 post, (length pre + 2)%nat)) /\
  (forall (a : Position2D T), (length post < 2)%nat -> p2_writeToVector a (pre ++ post) (length pre) = UB) /\
  (forall (a : Position3D T), (length post >= 3)%nat ->
     p3_writeToVector a (pre ++ post) (length pre) = Ok (pre ++ cp3 a ++ skipn 3 post, (length pre + 3)%nat)) /\
  (forall (a : Position3D T), (length post < 3)%nat -> p3_writeToVector a (pre ++ post) (length pre) = UB) /\
  (forall (a : Position6D T), (length post >= 6)%nat ->
     p6_writeToVector a (pre ++ post) (length pre) = Ok (pre ++ cp6 a ++ skipn 6 post, (length pre + 6)%nat)) /\
  (forall (a : Position6D T), (length post < 6)%nat -> p6_writeToVector a (pre ++ post) (length pre) = UB) /\
  (forall (a : Velocity3D T), (length post >= 3)%nat ->
     v3_writeToVector a (pre ++ post) (length pre) = Ok (pre ++ cv3 a ++ skipn 3 post, (length pre + 3)%nat)) /\
  (forall (a : Velocity3D T), (length post < 3)%nat -> v3_writeToVector a (pre ++ post) (length pre) = UB) /\
  (forall (a : Velocity6D T), (length post >= 6)%nat ->
     v6_writeToVector a (pre ++ post) (length pre) = Ok (pre ++ cv6 a ++ skipn 6 post, (length pre + 6)%nat)) /\
  (forall (a : Velocity6D T), (length post < 6)%nat -> v6_writeToVector a (pre ++ post) (length pre) = UB) /\
  (forall (a : Pose2D T), (length post >= 3)%nat ->
     pose_writeToVector a (pre ++ post) (length pre) = Ok (pre ++ cpose a ++ skipn 3 post, (length pre + 3)%nat)) /\
  (forall (a : Pose2D T), (length post < 3)%nat -> pose_writeToVector a (pre ++ post) (length pre) = UB).
Proof. exact @Proofs_Vectors.C27_writeToVector_proof. Qed.
Print Assumptions C27_writeToVector.

Example ex_C27 : p2_writeToVector (mkPosition2D 1 2) [9; 9; 9; 9] 1 = Ok ([9; 1; 2; 9], 3%nat).
Proof. reflexivity. Qed.

(** C25, C24, C26: every norm is the Euclidean norm of the coordinates (for a Pose2D, of x and
    y), the scalar products are the sums of the products of the coordinates, a squared distance is
    the square of the distance, and isOrthogonal compares the scalar product with its tolerance. *)
Theorem C25_norms :
  (forall a b : Position2D R, p2_norm a = lnorm (cp2 a) /\ p2_dotProduct a b = ldot (cp2 a) (cp2 b) /\
     p2_distanceSquared a b = p2_distance a b * p2_distance a b /\ p2_distance a b = lnorm (ldiff (cp2 a) (cp2 b))) /\
  (forall a b : Position3D R, p3_norm a = lnorm (cp3 a) /\ p3_dotProduct a b = ldot (cp3 a) (cp3 b) /\
     (forall eps, p3_isOrthogonal a b eps = true <-> Rabs (ldot (cp3 a) (cp3 b)) <= eps)) /\
  (forall a b : Position6D R, p6_norm a = lnorm (cp6 a) /\ p6_distanceSquared a b = p6_distance a b * p6_distance a b) /\
  (forall a : Velocity3D R, v3_norm a = lnorm (cv3 a)) /\ (forall a : Velocity6D R, v6_norm a = lnorm (cv6 a)) /\
  (forall a : Rotation3D R, e3_norm a = lnorm (ce3 a)) /\ (forall a : Quaternion R, q_norm a = lnorm (cq a)) /\
  (forall a b : Pose2D R, pose_norm a = lnorm [pose_x a; pose_y a] /\ pose_distanceSquared a b = pose_distance a b * pose_distance a b) /\
  (forall a b : Transform R, t_distanceSquared a b = t_distance a b * t_distance a b).
Proof. exact @Proofs_Vectors.C25_norms_proof. Qed.
Print Assumptions C25_norms.

Example C25_norms_ex : e3_norm (mkRotation3D 1 2 2) = 3 /\ v6_norm (mkVelocity6D 1 1 1 1 0 0) = 2 /\ p3_isOrthogonal (mkPosition3D 1 0 0) (mkPosition3D 0 5 0) 0 = true.
Proof.
  destruct C25_norms as (_ & h3 & _ & _ & h6 & he & _). split; [|split].
  - rewrite he. unfold lnorm, sumsq, ce3. cbn. apply sqrt_lem_1; lra.
  - rewrite h6. unfold lnorm, sumsq, cv6. cbn. apply sqrt_lem_1; lra.
  - apply (proj2 (proj2 (h3 _ _)) 0). unfold ldot, cp3. cbn. rewrite Rabs_pos_eq; lra.
Qed.
