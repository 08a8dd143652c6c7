(** * Lemmas for Props_Shapes *)

From Coq Require Import Reals List Lra Lia Psatz Bool Arith.
Import ListNotations.
From Verif Require Import Scalar RInst RLemmas Model_Base Model_Vec Model_Rigid Model_Almath
  Model_Helpers Model_Tools Spec_Geom Proofs_Geom Proofs_Frames.
Local Open Scope R_scope.


(** The frame [t] with the translation of [s]. *)
Definition with_pos (t s : Transform R) : Transform R :=
  mkTransform (t_r1c1 t) (t_r1c2 t) (t_r1c3 t) (t_r1c4 s)
              (t_r2c1 t) (t_r2c2 t) (t_r2c3 t) (t_r2c4 s)
              (t_r3c1 t) (t_r3c2 t) (t_r3c3 t) (t_r3c4 s).

Lemma orthogonalSpaceInto_eq : forall v s, 
  orthogonalSpaceInto v s = rmap (fun t => with_pos t s) (orthogonalSpace v).
Proof.
  intros v s. unfold orthogonalSpace, orthogonalSpaceInto.
  destruct (p3_div v (p3_norm v)) as [a| | |]; try reflexivity. cbn [rbind].
  match goal with |- context[p3_normalize ?x] => destruct (p3_normalize x) as [b| | |] end; try reflexivity. cbn [rbind].
  match goal with |- context[p3_normalize ?x] => destruct (p3_normalize x) as [c| | |] end; try reflexivity.
Qed.

Lemma halfdelta_norm : forall a b, p3_norm (p3_scale (p3_sub b a) (1/2)) = 1/2 * p3_distance a b.
Proof.
  intros [a1 a2 a3] [b1 b2 b3]. unfold p3_norm, p3_distance, p3_distanceSquared, p3_scale, p3_sub. unr.
  replace ((b1 - a1) * (1 / 2) * ((b1 - a1) * (1 / 2)) + (b2 - a2) * (1 / 2) * ((b2 - a2) * (1 / 2)) + (b3 - a3) * (1 / 2) * ((b3 - a3) * (1 / 2)))
    with (1/2 * (1/2) * ((a1 - b1) * (a1 - b1) + (a2 - b2) * (a2 - b2) + (a3 - b3) * (a3 - b3))) by field.
  rewrite sqrt_mult_alt, sqrt_square by lra. reflexivity.
Qed.

Lemma halfdelta_0 : forall a b : Position3D R, p3_scale (p3_sub b a) (1/2) = mkPosition3D 0 0 0 <-> a = b.
Proof.
  intros [a1 a2 a3] [b1 b2 b3]. unfold p3_scale, p3_sub. unr. split; intro h.
  - assert (h1 := f_equal (@p3_x R) h). assert (h2 := f_equal (@p3_y R) h). assert (h3 := f_equal (@p3_z R) h). cbn in *.
    apply mkPosition3D_eq; lra.
  - injection h as -> -> ->. apply mkPosition3D_eq; ring.
Qed.

Lemma distance_0 : forall a b : Position3D R, a <> b -> 0 < p3_distance a b.
Proof.
  intros [a1 a2 a3] [b1 b2 b3] h. unfold p3_distance, p3_distanceSquared. unr. apply sqrt_lt_R0.
  assert (H : ~ (a1 - b1 = 0 /\ a2 - b2 = 0 /\ a3 - b3 = 0)).
  { intros [x [y z]]. apply h. apply mkPosition3D_eq; lra. }
  generalize (Rle_0_sqr (a1 - b1)), (Rle_0_sqr (a2 - b2)), (Rle_0_sqr (a3 - b3)). unfold Rsqr. intros.
  destruct (Req_dec (a1 - b1) 0) as [e|e]; [destruct (Req_dec (a2 - b2) 0) as [f|f]; [destruct (Req_dec (a3 - b3) 0) as [g|g]|]|].
  - tauto.
  - apply Rsqr_pos_lt in g. unfold Rsqr in g. lra.
  - apply Rsqr_pos_lt in f. unfold Rsqr in f. lra.
  - apply Rsqr_pos_lt in e. unfold Rsqr in e. lra.
Qed.

Lemma pill_unfold : forall a b, computePillParameters a b =
  rmap (fun t => (1/2 * p3_distance a b, with_pos t (transformFromPosition3D (p3_add a (p3_scale (p3_sub b a) (1/2))))))
    (orthogonalSpace (p3_scale (p3_sub b a) (1/2))).
Proof.
  intros a b. unfold computePillParameters. cbv zeta. rewrite orthogonalSpaceInto_eq. rsimp.
  destruct (orthogonalSpace _); reflexivity.
Qed.

Lemma C37_throws_proof : forall a b : Position3D R, computePillParameters a b = Throw <-> a = b.
Proof.
  intros a b. rewrite pill_unfold, <- halfdelta_0, <- C22_orthogonalSpace_throws_proof.
  destruct (orthogonalSpace _); cbn; split; intro h; try discriminate; reflexivity.
Qed.


Lemma pill_frame : forall a b : Position3D R, a <> b -> forall t,
  (t_r1c3 t, t_r2c3 t, t_r3c3 t) = vscale (1 / p3_norm (p3_scale (p3_sub b a) (1/2))) (p3v (p3_scale (p3_sub b a) (1/2))) ->
  let t' := with_pos t (transformFromPosition3D (p3_add a (p3_scale (p3_sub b a) (1/2)))) in
  tpos t' = vscale (1/2) (vadd (p3v a) (p3v b)) /\
  (t_r1c3 t', t_r2c3 t', t_r3c3 t') = vscale (1 / p3_distance a b) (vsub (p3v b) (p3v a)) /\
  getSphereCentersFromPill (1/2 * p3_distance a b) t' = (b, a).
Proof.
  intros a b ab t hz. cbv zeta. generalize (distance_0 a b ab). intro dp. rewrite halfdelta_norm in hz.
  set (d := p3_distance a b) in *. clearbody d. destruct a as [a1 a2 a3]. destruct b as [b1 b2 b3]. destruct t.
  unfold p3_scale, p3_sub, p3v, vscale, vsub, vx, vy, vz in hz. cbn in hz.
  injection hz as e1 e2 e3. rsimp. 
  unfold with_pos, tpos, transformFromPosition3D, p3_add, p3_scale, p3_sub, vscale, vadd, vsub, vx, vy, vz, p3v, getSphereCentersFromPill, t_mul_p3.
  unr. split; [|split].
  - apply f_equal2; [apply f_equal2|]; field.
  - rewrite e1, e2, e3. apply f_equal2; [apply f_equal2|]; field; lra.
  - rewrite e1, e2, e3. apply f_equal2; apply mkPosition3D_eq; field; lra.
Qed.

Lemma C37_parameters_proof : forall a b : Position3D R, a <> b ->
  exists tf, computePillParameters a b = Ok (1/2 * p3_distance a b, tf) /\
    t_isTransform tf (1/10000) = true /\
    tpos tf = vscale (1/2) (vadd (p3v a) (p3v b)) /\
    (t_r1c3 tf, t_r2c3 tf, t_r3c3 tf) = vscale (1 / p3_distance a b) (vsub (p3v b) (p3v a)).
Proof.
  intros a b ab. destruct (C22_orthogonalSpace_isTransform_proof (p3_scale (p3_sub b a) (1/2))) as [t [e [i z]]].
  { rewrite halfdelta_0. exact ab. }
  destruct (pill_frame a b ab t z) as [p1 [p2 _]].
  eexists. split; [rewrite pill_unfold, e; reflexivity|]. split; [|split; assumption].
  rewrite <- i. reflexivity.
Qed.


(** C37: the frame is exactly a rigid transform when the direction of the segment is not
    within 1e-4 of the z axis, or has no x component. *)
Lemma C37_rigid_if_proof : forall a b : Position3D R, a <> b ->
  let d := p3_sub b a in
  (1/10000 * p3_distance a b < Rabs (p3_x d) \/ 1/10000 * p3_distance a b < Rabs (p3_y d) \/ p3_x d = 0) ->
  exists half tf, computePillParameters a b = Ok (half, tf) /\ rigid tf.
Proof.
  intros a b ab d h. destruct (C22_orthogonalSpace_if_proof (p3_scale (p3_sub b a) (1/2))) as [t [e [r _]]].
  { rewrite halfdelta_0. exact ab. }
  { rewrite halfdelta_norm. fold d. unfold p3_scale. cbn [p3_x p3_y]. rsimp. rewrite !Rabs_mult, (Rabs_pos_eq (1/2)) by lra.
    destruct h as [h|[h|h]]; [left; lra|right; left; lra|right; right; rewrite h; ring]. }
  do 2 eexists. split; [rewrite pill_unfold, e; reflexivity|]. exact r.
Qed.

Lemma C37_rigid_exact_proof : forall a b : Position3D R, a <> b ->
  let d := p3_sub b a in
  exists half tf, computePillParameters a b = Ok (half, tf) /\
  (rigid tf <->
   1/10000 * p3_distance a b < Rabs (p3_x d) \/ 1/10000 * p3_distance a b < Rabs (p3_y d) \/ p3_x d = 0).
Proof.
  intros a b ab d. destruct (C22_orthogonalSpace_exact_proof (p3_scale (p3_sub b a) (1/2))) as [t [e [_ [_ r]]]].
  { rewrite halfdelta_0. exact ab. }
  rewrite halfdelta_norm in r. fold d in r. unfold p3_scale in r. cbn [p3_x p3_y] in r. revert r. rsimp. rewrite !Rabs_mult, (Rabs_pos_eq (1/2)) by lra.
  intro r. do 2 eexists. split; [rewrite pill_unfold, e; reflexivity|].
  etransitivity; [|etransitivity; [exact r|]].
  - unfold rigid, tmat. cbn. reflexivity.
  - split; (intros [h|[h|h]]; [left; lra|right; left; lra|right; right; lra]).
Qed.


Lemma C37_round_trip_proof : forall a b : Position3D R, a <> b ->
  exists half tf, computePillParameters a b = Ok (half, tf) /\ getSphereCentersFromPill half tf = (b, a).
Proof.
  intros a b ab. destruct (C22_orthogonalSpace_isTransform_proof (p3_scale (p3_sub b a) (1/2))) as [t [e [i z]]].
  { rewrite halfdelta_0. exact ab. }
  destruct (pill_frame a b ab t z) as [_ [_ p3]].
  do 2 eexists. split; [rewrite pill_unfold, e; reflexivity|]. exact p3.
Qed.


Lemma C37_order_refuted_proof : forall (a b : Position3D R) half tf,
  computePillParameters a b = Ok (half, tf) -> getSphereCentersFromPill half tf <> (a, b).
Proof.
  intros a b half tf e. assert (ab : a <> b).
  { intro h. apply C37_throws_proof in h. rewrite h in e. discriminate. }
  destruct (C37_round_trip_proof a b ab) as [half' [tf' [e' g]]]. rewrite e' in e. injection e as <- <-. rewrite g.
  intro k. injection k as -> . contradiction.
Qed.


Lemma C37_centres_proof : forall (half : R) (tf : Transform R),
  let (a, b) := getSphereCentersFromPill half tf in
  vadd (p3v a) (p3v b) = vscale 2 (tpos tf) /\ (rigid tf -> 0 <= half -> p3_distance a b = 2 * half).
Proof.
  intros half tf. unfold getSphereCentersFromPill. destruct tf. unfold vadd, vscale, p3v, tpos, t_mul_p3, vx, vy, vz. unr. split.
  - apply f_equal2; [apply f_equal2|]; ring.
  - intros [h _] hp. unfold p3_distance, p3_distanceSquared. unr.
    generalize (h 2%nat 2%nat ltac:(lia) ltac:(lia)). unfold mmul, mtrans, mident, tmat, of_rows, sum3. cbn. intro n.
    apply sqrt_unique'; [lra|].
    match goal with |- _ = ?x => replace x with (4 * half * half * (t_r1c3 * t_r1c3 + t_r2c3 * t_r2c3 + t_r3c3 * t_r3c3)) by ring end.
    rewrite n. ring.
Qed.




Lemma C39_symmetric_proof : forall (T : Type) (S : Scalar T) (m : T) (p : Position3D T) (d : T),
  length (pointMassInertia m p) = 9%nat /\
  forall i j, (i < 3)%nat -> (j < 3)%nat -> nth (3*i+j) (pointMassInertia m p) d = nth (3*j+i) (pointMassInertia m p) d.
Proof.
  intros T S m p d. split; [reflexivity|]. intros i j hi hj.
  destruct i as [|[|[|i]]]; try lia; destruct j as [|[|[|j]]]; try lia; reflexivity.
Qed.


Lemma C39_action_proof : forall (m : R) (p : Position3D R),
  let I : mat3 := fun i j => nth (3*i+j) (pointMassInertia m p) 0 in
  (forall v, mapply I v = vscale m (vcross (vcross (p3v p) v) (p3v p))) /\
  (forall v, vdot v (mapply I v) = m * vdot (vcross (p3v p) v) (vcross (p3v p) v)) /\
  (0 <= m -> forall v, 0 <= vdot v (mapply I v)) /\
  mapply I (p3v p) = (0, 0, 0).
Proof.
  intros m [x y z]. cbv zeta.
  assert (A : forall v, mapply (fun i j => nth (3*i+j) (pointMassInertia m (mkPosition3D x y z)) 0) v =
     vscale m (vcross (vcross (p3v (mkPosition3D x y z)) v) (p3v (mkPosition3D x y z)))).
  { intros [[a b] c]. unfold pointMassInertia, mapply, sum3, vscale, vcross, p3v, vx, vy, vz. unr.
    apply f_equal2; [apply f_equal2|]; ring. }
  assert (B : forall v, vdot v (mapply (fun i j => nth (3*i+j) (pointMassInertia m (mkPosition3D x y z)) 0) v) =
     m * vdot (vcross (p3v (mkPosition3D x y z)) v) (vcross (p3v (mkPosition3D x y z)) v)).
  { intro v. rewrite A. destruct v as [[a b] c]. unfold vdot, vscale, vcross, p3v, vx, vy, vz. cbn [fst snd p3_x p3_y p3_z]. ring. }
  split; [exact A|]. split; [exact B|]. split.
  - intros hm v. rewrite B. apply Rmult_le_pos; [exact hm|]. unfold vdot. 
    generalize (Rle_0_sqr (vx (vcross (p3v (mkPosition3D x y z)) v))), (Rle_0_sqr (vy (vcross (p3v (mkPosition3D x y z)) v))), (Rle_0_sqr (vz (vcross (p3v (mkPosition3D x y z)) v))).
    unfold Rsqr. lra.
  - rewrite A. unfold vscale, vcross, p3v, vx, vy, vz. cbn [fst snd p3_x p3_y p3_z]. apply f_equal2; [apply f_equal2|]; ring.
Qed.
