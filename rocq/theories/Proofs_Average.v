(** * Lemmas for Props_Average *)

From Coq Require Import Reals List Lra Lia Psatz Nsatz Bool Arith Permutation.
Import ListNotations.
From Verif Require Import Scalar RInst RLemmas Model_Base Model_Vec Model_Rigid Model_Average
  Spec_Geom Spec_Average SO3 SO3Quat Proofs_Geom.
Local Open Scope R_scope.

(** The conversion of Eigen on a rotation matrix. *)
Definition quat9_of (q : Quaternion R) a b c d e f g h i :=
  q_w q*q_w q+q_x q*q_x q+q_y q*q_y q+q_z q*q_z q = 1 /\
  quat9 (q_w q) (q_x q) (q_y q) (q_z q) a b c d e f g h i.

Lemma half_sqrt : forall s, 0 < s -> exists t u w, sqrt s = t /\ 1/2 * t = w /\ 4*(w*w) = s /\
  1/2 / t = u /\ u*(4*w) = 1.
Proof.
  intros s h. destruct (sqrt_ex s) as (t&et&ht&tt); [lra|].
  assert (0 < t) by nra. exists t, (1/2/t), (1/2*t). repeat split; try lra. field. lra.
Qed.

Lemma quat_w : forall a b c d e f g h i w v, so3 a b c d e f g h i ->
  4*(w*w) = 1+a+e+i -> v*(4*w) = 1 ->
  quat9_of (mkQuaternion w ((h-f)*v) ((c-g)*v) ((d-b)*v)) a b c d e f g h i.
Proof.
  intros * S hw hv. destruct S as [(h1&h2&h3&h4&h5&h6) h7].
  unfold quat9_of, quat9. cbn [q_w q_x q_y q_z]. repeat split; nsatz.
Qed.
Lemma quat_x : forall a b c d e f g h i x v, so3 a b c d e f g h i ->
  4*(x*x) = 1+a-e-i -> v*(4*x) = 1 ->
  quat9_of (mkQuaternion ((h-f)*v) x ((d+b)*v) ((g+c)*v)) a b c d e f g h i.
Proof.
  intros * S hw hv. destruct S as [(h1&h2&h3&h4&h5&h6) h7].
  unfold quat9_of, quat9. cbn [q_w q_x q_y q_z]. repeat split; nsatz.
Qed.
Lemma quat_y : forall a b c d e f g h i y v, so3 a b c d e f g h i ->
  4*(y*y) = 1-a+e-i -> v*(4*y) = 1 ->
  quat9_of (mkQuaternion ((c-g)*v) ((b+d)*v) y ((h+f)*v)) a b c d e f g h i.
Proof.
  intros * S hw hv. destruct S as [(h1&h2&h3&h4&h5&h6) h7].
  unfold quat9_of, quat9. cbn [q_w q_x q_y q_z]. repeat split; nsatz.
Qed.
Lemma quat_z : forall a b c d e f g h i z v, so3 a b c d e f g h i ->
  4*(z*z) = 1-a-e+i -> v*(4*z) = 1 ->
  quat9_of (mkQuaternion ((d-b)*v) ((c+g)*v) ((f+h)*v) z) a b c d e f g h i.
Proof.
  intros * S hw hv. destruct S as [(h1&h2&h3&h4&h5&h6) h7].
  unfold quat9_of, quat9. cbn [q_w q_x q_y q_z]. repeat split; nsatz.
Qed.

Lemma eigen_quat9 : forall a b c x d e f y g h i z, so3 a b c d e f g h i ->
  quat9_of (toEigenQuaternion (mkTransform a b c x d e f y g h i z)) a b c d e f g h i.
Proof.
  intros * S. unfold toEigenQuaternion. cbn [t_r1c1 t_r1c2 t_r1c3 t_r2c1 t_r2c2 t_r2c3 t_r3c1 t_r3c2 t_r3c3].
  unfold s_ltb, s_ofZ, s_add, s_sub, s_mul, s_div, s_sqrt, s_frac, RScalar.
  replace (IZR 1 / IZR (Z.pos 2)) with (1/2) by reflexivity.
  destruct (Rltb_spec 0 (a+e+i)) as [p|p].
  { destruct (half_sqrt (a+e+i+1)) as (t&u&w&et&ew&tt&eu&ut); [lra|].
    rewrite et, eu, ew. apply quat_w; [exact S|lra|exact ut]. }
  destruct (Rltb_spec a e) as [q|q].
  - destruct (Rltb_spec e i) as [r|r].
    + destruct (half_sqrt (i-a-e+1)) as (t&u&w&et&ew&tt&eu&ut); [lra|].
      rewrite et, eu, ew. apply quat_z; [exact S|lra|exact ut].
    + destruct (half_sqrt (e-i-a+1)) as (t&u&w&et&ew&tt&eu&ut); [lra|].
      rewrite et, eu, ew. apply quat_y; [exact S|lra|exact ut].
  - destruct (Rltb_spec a i) as [r|r].
    + destruct (half_sqrt (i-a-e+1)) as (t&u&w&et&ew&tt&eu&ut); [lra|].
      rewrite et, eu, ew. apply quat_z; [exact S|lra|exact ut].
    + destruct (half_sqrt (a-e-i+1)) as (t&u&w&et&ew&tt&eu&ut); [lra|].
      rewrite et, eu, ew. apply quat_x; [exact S|lra|exact ut].
Qed.

Lemma quaternion_of_mk : forall q a b c x d e f y g h i z,
  quaternion_of q (mkTransform a b c x d e f y g h i z) <-> quat9_of q a b c d e f g h i.
Proof.
  intros. unfold quaternion_of, quat9_of, unitq, qnorm2. rewrite tmat_mk.
  unfold qmat. cbv zeta. split.
  - intros [u m]. split; [exact u|]. unfold quat9.
    pose proof (m 0%nat 0%nat ltac:(lia) ltac:(lia)) as e1.
    pose proof (m 0%nat 1%nat ltac:(lia) ltac:(lia)) as e2.
    pose proof (m 0%nat 2%nat ltac:(lia) ltac:(lia)) as e3.
    pose proof (m 1%nat 0%nat ltac:(lia) ltac:(lia)) as e4.
    pose proof (m 1%nat 1%nat ltac:(lia) ltac:(lia)) as e5.
    pose proof (m 1%nat 2%nat ltac:(lia) ltac:(lia)) as e6.
    pose proof (m 2%nat 0%nat ltac:(lia) ltac:(lia)) as e7.
    pose proof (m 2%nat 1%nat ltac:(lia) ltac:(lia)) as e8.
    pose proof (m 2%nat 2%nat ltac:(lia) ltac:(lia)) as e9.
    cbn in e1,e2,e3,e4,e5,e6,e7,e8,e9. repeat split; symmetry; assumption.
  - intros [u (e1&e2&e3&e4&e5&e6&e7&e8&e9)]. split; [exact u|].
    rewrite e1,e2,e3,e4,e5,e6,e7,e8,e9. intros j k hj hk. reflexivity.
Qed.

Lemma eigen_of : forall t, rigid t -> quaternion_of (toEigenQuaternion t) t.
Proof.
  intros [a b c x d e f y g h i z] r. apply quaternion_of_mk, eigen_quat9.
  apply rigid_mk in r. exact r.
Qed.

(** ** Two quaternions of one rotation are equal or opposite *)

Lemma quat9_cover : forall p q a b c d e f g h i,
  quat9_of p a b c d e f g h i -> quat9_of q a b c d e f g h i -> p = q \/ p = qneg q.
Proof.
  intros [w x y z] [w' x' y' z'] * [n (e1&e2&e3&e4&e5&e6&e7&e8&e9)]
    [n' (k1&k2&k3&k4&k5&k6&k7&k8&k9)]. cbn [q_w q_x q_y q_z] in *.
  set (s := w*w'+x*x'+y*y'+z*z').
  assert (s2 : s*s = 1) by (unfold s; nsatz).
  assert (E : w = s*w' /\ x = s*x' /\ y = s*y' /\ z = s*z') by (unfold s; repeat split; nsatz).
  destruct E as (E1&E2&E3&E4). clearbody s.
  assert (D : s = 1 \/ s = -1).
  { assert ((s-1)*(s+1) = 0) by lra. destruct (Rmult_integral _ _ H); lra. }
  destruct D as [-> | ->]; [left|right]; unfold qneg; cbn [q_w q_x q_y q_z]; rec_eq; lra.
Qed.

Lemma quaternion_cover : forall p q t, quaternion_of p t -> quaternion_of q t ->
  p = q \/ p = qneg q.
Proof.
  intros p q [a b c x d e f y g h i z] hp hq.
  apply quaternion_of_mk in hp, hq. eapply quat9_cover; eassumption.
Qed.

(** ** The sum *)

Lemma qdot_comm : forall p q, qdot p q = qdot q p.
Proof. intros [a1 a2 a3 a4] [b1 b2 b3 b4]. unfold qdot. cbn [q_w q_x q_y q_z]. ring. Qed.
Lemma eq_dot_qdot : forall p q : Quaternion R, eq_dot p q = qdot p q.
Proof. intros [a1 a2 a3 a4] [b1 b2 b3 b4]. unfold qdot. unr. ring. Qed.
Lemma eq_neg_qneg : forall p : Quaternion R, eq_neg p = qneg p.
Proof. reflexivity. Qed.
Lemma eq_add_qadd : forall p q : Quaternion R, eq_add p q = qadd p q.
Proof. reflexivity. Qed.
Lemma qneg_qneg : forall p, qneg (qneg p) = p.
Proof. intros [a1 a2 a3 a4]. unfold qneg. cbn [q_w q_x q_y q_z]. rec_eq; ring. Qed.
Lemma qdot_neg_l : forall p q, qdot (qneg p) q = - qdot p q.
Proof. intros [a1 a2 a3 a4] [b1 b2 b3 b4]. unfold qdot, qneg. cbn [q_w q_x q_y q_z]. ring. Qed.
Lemma qdot_neg_r : forall p q, qdot p (qneg q) = - qdot p q.
Proof. intros [a1 a2 a3 a4] [b1 b2 b3 b4]. unfold qdot, qneg. cbn [q_w q_x q_y q_z]. ring. Qed.
Lemma qdot_add_l : forall p q r, qdot (qadd p q) r = qdot p r + qdot q r.
Proof. intros [a1 a2 a3 a4] [b1 b2 b3 b4] [c1 c2 c3 c4]. unfold qdot, qadd. cbn [q_w q_x q_y q_z]. ring. Qed.
Lemma qadd_assoc : forall p q r, qadd (qadd p q) r = qadd p (qadd q r).
Proof. intros [a1 a2 a3 a4] [b1 b2 b3 b4] [c1 c2 c3 c4]. unfold qadd. cbn [q_w q_x q_y q_z]. rec_eq; ring. Qed.
Lemma qadd_comm : forall p q, qadd p q = qadd q p.
Proof. intros [a1 a2 a3 a4] [b1 b2 b3 b4]. unfold qadd. cbn [q_w q_x q_y q_z]. rec_eq; ring. Qed.
Lemma qadd_0 : forall p, qadd p (mkQuaternion 0 0 0 0) = p.
Proof. intros [a1 a2 a3 a4]. unfold qadd. cbn [q_w q_x q_y q_z]. rec_eq; ring. Qed.
Lemma qadd_0_l : forall p, qadd (mkQuaternion 0 0 0 0) p = p.
Proof. intros [a1 a2 a3 a4]. unfold qadd. cbn [q_w q_x q_y q_z]. rec_eq; ring. Qed.
Lemma qneg_add : forall p q, qneg (qadd p q) = qadd (qneg p) (qneg q).
Proof. intros [a1 a2 a3 a4] [b1 b2 b3 b4]. unfold qadd, qneg. cbn [q_w q_x q_y q_z]. rec_eq; ring. Qed.
Lemma qsum_neg : forall l, qsum (map qneg l) = qneg (qsum l).
Proof.
  induction l as [|q l IH]; cbn [qsum map].
  - unfold qneg. cbn [q_w q_x q_y q_z]. rec_eq; ring.
  - rewrite IH, qneg_add. reflexivity.
Qed.
Lemma qdot_sum : forall l f, qdot (qsum l) f = fold_right Rplus 0 (map (fun q => qdot q f) l).
Proof.
  induction l as [|q l IH]; intros f; cbn [qsum map fold_right].
  - destruct f as [c1 c2 c3 c4]. unfold qdot. cbn [q_w q_x q_y q_z]. ring.
  - rewrite qdot_add_l, IH. reflexivity.
Qed.

(** The quaternion accumulated for one element. *)
Definition align (f q : Quaternion R) : Quaternion R :=
  if Rle_dec 0 (qdot q f) then q else qneg q.

Lemma align_dot : forall f q, qdot (align f q) f = Rabs (qdot q f).
Proof.
  intros f q. unfold align. destruct Rle_dec as [h|h].
  - rewrite Rabs_pos_eq; auto.
  - rewrite qdot_neg_l, Rabs_left; lra.
Qed.

Lemma average_loop_eq : forall (f : Quaternion R) l cq x y z,
  average_loop f l cq (mkPosition3D x y z) =
  (qadd cq (qsum (map (fun t => align f (toEigenQuaternion t)) l)),
   mkPosition3D (x + vx (vsum (map tpos l))) (y + vy (vsum (map tpos l)))
                (z + vz (vsum (map tpos l)))).
Proof.
  induction l as [|t l IH]; intros cq x y z.
  - cbn [average_loop map qsum vsum]. rewrite qadd_0. unfold vx, vy, vz. cbn [fst snd].
    apply f_equal. rec_eq; ring.
  - cbn [average_loop map qsum vsum]. cbn [p3_x p3_y p3_z]. cbv zeta.
    rewrite IH. apply f_equal2.
    + change (@eq_add R RScalar) with qadd. change (@eq_neg R RScalar) with qneg.
      rewrite qadd_assoc. do 2 f_equal. rewrite eq_dot_qdot. unfold align.
      change (@s_leb R RScalar) with Rleb. change (@s_ofZ R RScalar 0) with 0.
      destruct (Rleb_spec 0 (qdot (toEigenQuaternion t) f));
        destruct Rle_dec; first [reflexivity | exfalso; lra].
    + destruct t as [d1 d2 d3 d4 d5 d6 d7 d8 d9 d10 d11 d12]. unfold tpos, vadd, vx, vy, vz. cbv [s_add RScalar].
      cbn [fst snd t_r1c4 t_r2c4 t_r3c4]. rec_eq; ring.
Qed.

Definition qlist (l : list (Transform R)) := map (@toEigenQuaternion R _) l.
Definition qtotal (l : list (Transform R)) : Quaternion R :=
  match l with
  | [] => mkQuaternion 0 0 0 0
  | t :: _ => qsum (map (align (toEigenQuaternion t)) (qlist l))
  end.

Lemma ofZ_len : forall n, s_ofZ (Scalar := RScalar) (Z.of_nat n) = INR n.
Proof. intros. cbv [s_ofZ RScalar]. rewrite INR_IZR_INZ. reflexivity. Qed.

Definition p3of (v : vec3) : Position3D R := mkPosition3D (vx v) (vy v) (vz v).

Lemma average_eq : forall l, l <> [] ->
  averageTransforms l =
  Ok (eq_toTransform (eq_normalize (qtotal l)) (p3of (vmean (map tpos l)))).
Proof.
  intros [|t l] ne; [easy|]. clear ne. unfold averageTransforms.
  change (s_ofZ (Scalar := RScalar) 0) with 0.
  rewrite average_loop_eq. cbn [fst snd]. unfold qtotal, qlist.
  rewrite map_map. rewrite qadd_0_l. f_equal. f_equal.
  unfold p3of, vmean. rewrite map_length, ofZ_len.
  set (v := vsum _). clearbody v. set (n := INR _). clearbody n.
  destruct v as [[x y] z]. unfold vscale, vx, vy, vz. cbn [p3_x p3_y p3_z fst snd].
  cbv [s_mul s_div s_ofZ RScalar]. unfold Rdiv. rec_eq; ring.
Qed.

(** The rotation part of the result. *)
Lemma qdot_pos : forall p q, qdot p q <> 0 -> 0 < qdot p p.
Proof.
  intros [w x y z] q h. unfold qdot in *. cbn [q_w q_x q_y q_z] in *.
  destruct (Req_dec (w*w+x*x+y*y+z*z) 0) as [e|e].
  - exfalso. apply h. assert (w*w+x*x+y*y+z*z = 0) by exact e.
    pose proof (Rle_0_sqr w). pose proof (Rle_0_sqr x). pose proof (Rle_0_sqr y).
    pose proof (Rle_0_sqr z). unfold Rsqr in *.
    assert (w = 0) by (apply Rsqr_0_uniq; unfold Rsqr; lra).
    assert (x = 0) by (apply Rsqr_0_uniq; unfold Rsqr; lra).
    assert (y = 0) by (apply Rsqr_0_uniq; unfold Rsqr; lra).
    assert (z = 0) by (apply Rsqr_0_uniq; unfold Rsqr; lra).
    subst. ring.
  - pose proof (sum4sq_pos w x y z). lra.
Qed.

Definition qunit (q : Quaternion R) : Quaternion R := qscale (/ sqrt (qdot q q)) q.

Lemma eq_normalize_eq : forall q, 0 < qdot q q -> eq_normalize q = qunit q.
Proof.
  intros q h. unfold eq_normalize. rewrite eq_dot_qdot.
  cbv [s_ltb s_ofZ s_sqrt s_div RScalar]. rewrite Rltb_true by assumption.
  unfold qunit, qscale. destruct q as [c1 c2 c3 c4]. cbn [q_w q_x q_y q_z]. unfold Rdiv. rec_eq; ring.
Qed.

Lemma qunit_unit : forall q, 0 < qdot q q -> unitq (qunit q).
Proof.
  intros q h. destruct (sqrt_ex (qdot q q)) as (s&es&hs&ss); [lra|].
  unfold qunit. rewrite es. assert (s <> 0) by nra. clear es.
  destruct q as [w x y z]. unfold qdot in ss. unfold unitq, qnorm2, qscale.
  cbn [q_w q_x q_y q_z] in *.
  assert (E : /s*w*(/s*w) + /s*x*(/s*x) + /s*y*(/s*y) + /s*z*(/s*z) = /s*/s*(w*w+x*x+y*y+z*z))
    by ring.
  rewrite E, <- ss. field. assumption.
Qed.

Lemma toTransform_of : forall q p, unitq q -> quaternion_of q (eq_toTransform q p).
Proof.
  intros [w x y z] [px py pz] u. apply quaternion_of_mk. split; [exact u|].
  unfold quat9. unr. repeat split; ring.
Qed.

Lemma quaternion_of_rigid : forall q t, quaternion_of q t -> rigid t.
Proof.
  intros q [a b c x d e f y g h i z] hq. apply quaternion_of_mk in hq.
  apply rigid_mk. destruct q as [w qx qy qz]. destruct hq as [n (e1&e2&e3&e4&e5&e6&e7&e8&e9)].
  cbn [q_w q_x q_y q_z] in *. apply conj; [repeat apply conj|]; nsatz.
Qed.

Lemma toTransform_pos : forall q p, tpos (eq_toTransform q p) = (p3_x p, p3_y p, p3_z p).
Proof. intros [a1 a2 a3 a4] [b1 b2 b3]. reflexivity. Qed.

Lemma sum_abs_ge : forall f l q, In q l ->
  Rabs (qdot q f) <= fold_right Rplus 0 (map (fun q => qdot q f) (map (align f) l)).
Proof.
  intros f l q. assert (P : forall l, 0 <= fold_right Rplus 0 (map (fun q => qdot q f) (map (align f) l))).
  { induction l0 as [|a l0 IH]; cbn [map fold_right]; [lra|].
    rewrite align_dot. pose proof (Rabs_pos (qdot a f)). lra. }
  induction l as [|a l IH]; cbn [In map fold_right]; [easy|].
  rewrite align_dot. intros [->|h].
  - pose proof (P l). lra.
  - pose proof (Rabs_pos (qdot a f)). specialize (IH h). lra.
Qed.

Lemma qsum_align_pos : forall f l, unitq f -> In f l -> 0 < qdot (qsum (map (align f) l)) (qsum (map (align f) l)).
Proof.
  intros f l u h. apply qdot_pos with f. rewrite qdot_sum.
  pose proof (sum_abs_ge f l f h) as g.
  assert (e : qdot f f = 1) by exact u. rewrite e, Rabs_R1 in g. lra.
Qed.

Lemma qtotal_pos : forall l, l <> [] -> (forall t, In t l -> rigid t) -> 0 < qdot (qtotal l) (qtotal l).
Proof.
  intros [|t l] ne h; [easy|]. unfold qtotal. apply qsum_align_pos.
  - apply eigen_of, h. now left.
  - unfold qlist. cbn [map]. now left.
Qed.

Lemma C54_empty_proof : forall l : list (Transform R),
  averageTransforms l = Throw <-> l = [].
Proof.
  intros [|t l]; [easy|]. rewrite average_eq by discriminate. split; discriminate.
Qed.


Lemma C54_translation_proof : forall l : list (Transform R), l <> [] ->
  exists t, averageTransforms l = Ok t /\ tpos t = vmean (map tpos l).
Proof.
  intros l ne. rewrite average_eq by assumption. eexists. split; [reflexivity|].
  rewrite toTransform_pos. unfold p3of. cbn [p3_x p3_y p3_z].
  destruct (vmean (map tpos l)) as [[x y] z]. reflexivity.
Qed.


Lemma C54_rigid_proof : forall l : list (Transform R), l <> [] -> (forall t, In t l -> rigid t) ->
  exists t, averageTransforms l = Ok t /\ rigid t.
Proof.
  intros l ne h. rewrite average_eq by assumption. eexists. split; [reflexivity|].
  pose proof (qtotal_pos l ne h). rewrite eq_normalize_eq by assumption.
  eapply quaternion_of_rigid, toTransform_of, qunit_unit. assumption.
Qed.


(** Any choice of quaternions on one side gives the same sum up to the sign. *)
Lemma align_pos : forall f q, 0 < qdot q f -> align f q = q.
Proof. intros f q h. unfold align. destruct Rle_dec; [reflexivity|lra]. Qed.
Lemma align_neg : forall f q, qdot q f < 0 -> align f q = qneg q.
Proof. intros f q h. unfold align. destruct Rle_dec; [lra|reflexivity]. Qed.

Lemma qdot_add_r : forall f p q, qdot f (qadd p q) = qdot f p + qdot f q.
Proof. intros. rewrite qdot_comm, qdot_add_l, (qdot_comm p), (qdot_comm q). reflexivity. Qed.

(** A choice [p] of a quaternion for each of the [q]'s, up to sign. *)
Lemma align_choice : forall f f' ql pl, (f' = f \/ f' = qneg f) ->
  Forall2 (fun p q => p = q \/ p = qneg q) pl ql ->
  (forall p, In p pl -> 0 < qdot p f') ->
  qsum (map (align f) ql) = qsum pl \/ qsum (map (align f) ql) = qneg (qsum pl).
Proof.
  intros f f' ql pl hf F h.
  assert (E : (f' = f -> map (align f) ql = pl) /\ (f' = qneg f -> map (align f) ql = map qneg pl)).
  { clear hf. induction F as [|p q pl ql hq F IH].
    - split; reflexivity.
    - destruct IH as [I1 I2]; [intros; apply h; now right|].
      pose proof (h p (or_introl eq_refl)) as hp. split; intros ef.
      + cbn [map]. rewrite I1 by assumption. f_equal. subst f'. destruct hq as [->| ->].
        * apply align_pos. assumption.
        * rewrite qdot_neg_l in hp. rewrite align_neg by lra. reflexivity.
      + cbn [map]. rewrite I2 by assumption. f_equal. subst f'. rewrite qdot_neg_r in hp.
        destruct hq as [->| ->].
        * apply align_neg. lra.
        * rewrite qdot_neg_l in hp. rewrite align_pos by lra. rewrite qneg_qneg. reflexivity. }
  destruct E as [E1 E2]. destruct hf as [e|e].
  - left. rewrite E1; auto.
  - right. rewrite E2 by auto. apply qsum_neg.
Qed.

Lemma qunit_neg : forall q, qunit (qneg q) = qneg (qunit q).
Proof.
  intros q. unfold qunit. rewrite qdot_neg_l, qdot_neg_r, Ropp_involutive.
  destruct q as [c1 c2 c3 c4]. unfold qscale, qneg. cbn [q_w q_x q_y q_z]. rec_eq; ring.
Qed.

Lemma toTransform_neg : forall q p, eq_toTransform (qneg q) p = eq_toTransform (q : Quaternion R) p.
Proof. intros [a1 a2 a3 a4] [b1 b2 b3]. unr. rec_eq; ring. Qed.

Lemma total_choice : forall l qs, Forall2 quaternion_of qs l -> l <> [] ->
  (forall q, In q qs -> 0 < qdot q (hd (mkQuaternion 0 0 0 0) qs)) ->
  qtotal l = qsum qs \/ qtotal l = qneg (qsum qs).
Proof.
  intros l qs F ne h. destruct F as [|q t qs l hq F]; [easy|]. cbn [hd] in h.
  unfold qtotal. apply align_choice with (f' := q).
  - eapply quaternion_cover; [exact hq|]. apply eigen_of. eapply quaternion_of_rigid, hq.
  - unfold qlist. cbn [map]. constructor.
    + eapply quaternion_cover; [exact hq|]. apply eigen_of. eapply quaternion_of_rigid, hq.
    + clear - F. induction F as [|q t qs l hq F IH]; cbn [map]; constructor; [|exact IH].
      eapply quaternion_cover; [exact hq|]. apply eigen_of. eapply quaternion_of_rigid, hq.
  - exact h.
Qed.

Lemma C54_rotation_proof : forall (l : list (Transform R)) (qs : list (Quaternion R)), l <> [] ->
  Forall2 quaternion_of qs l ->
  (forall q, In q qs -> 0 < qdot q (hd (mkQuaternion 0 0 0 0) qs)) ->
  exists t, averageTransforms l = Ok t /\
    quaternion_of (qscale (/ sqrt (qdot (qsum qs) (qsum qs))) (qsum qs)) t.
Proof.
  intros l qs ne F h. rewrite average_eq by assumption. eexists. split; [reflexivity|].
  assert (R : forall t, In t l -> rigid t).
  { intros t ht. clear - F ht. induction F as [|q s qs l hq F IH]; [easy|].
    destruct ht as [->|ht]; [eapply quaternion_of_rigid, hq|auto]. }
  pose proof (qtotal_pos l ne R) as P. rewrite eq_normalize_eq by assumption.
  fold (qunit (qsum qs)).
  destruct (total_choice l qs F ne h) as [E|E]; rewrite E in *.
  - apply toTransform_of, qunit_unit. assumption.
  - rewrite qunit_neg, toTransform_neg. apply toTransform_of, qunit_unit.
    rewrite qdot_neg_l, qdot_neg_r, Ropp_involutive in P. assumption.
Qed.


Lemma quaternion_of_same : forall q s t, quaternion_of q s -> quaternion_of q t -> meq (tmat s) (tmat t).
Proof.
  intros q s t [_ a] [_ b] i j hi hj. rewrite <- (a i j hi hj). apply b; assumption.
Qed.

Lemma quaternion_of_meq : forall q s t, quaternion_of q s -> meq (tmat s) (tmat t) -> quaternion_of q t.
Proof.
  intros q s t [u a] m. split; [exact u|]. intros i j hi hj. rewrite <- (m i j hi hj). apply a; assumption.
Qed.

Lemma qsum_repeat : forall q n, qsum (repeat q n) = qscale (INR n) q.
Proof.
  induction n as [|n IH].
  - cbn [repeat qsum INR]. destruct q as [c1 c2 c3 c4]. unfold qscale. cbn [q_w q_x q_y q_z]. rec_eq; ring.
  - cbn [repeat qsum]. rewrite IH, S_INR. destruct q as [c1 c2 c3 c4]. unfold qscale, qadd. cbn [q_w q_x q_y q_z]. rec_eq; ring.
Qed.

Lemma qunit_scale : forall k q, 0 < k -> unitq q -> qunit (qscale k q) = q.
Proof.
  intros k q hk u. unfold qunit.
  assert (E : qdot (qscale k q) (qscale k q) = k*k).
  { replace (qdot (qscale k q) (qscale k q)) with (k*k*qnorm2 q) by
      (destruct q as [c1 c2 c3 c4]; unfold qdot, qscale, qnorm2; cbn [q_w q_x q_y q_z]; ring).
    rewrite u. ring. }
  rewrite E, sqrt_square by lra. destruct q as [c1 c2 c3 c4]. unfold qscale. cbn [q_w q_x q_y q_z].
  rec_eq; field; lra.
Qed.

Lemma C54_same_rotation_proof : forall (a : Transform R) (l : list (Transform R)), l <> [] ->
  rigid a -> (forall t, In t l -> meq (tmat t) (tmat a)) ->
  exists t, averageTransforms l = Ok t /\ meq (tmat t) (tmat a).
Proof.
  intros a l ne ra h.
  set (q := toEigenQuaternion a).
  assert (hq : quaternion_of q a) by (apply eigen_of; exact ra). clearbody q.
  destruct (C54_rotation_proof l (repeat q (length l)) ne) as (t&et&ht).
  - clear ne. induction l as [|t l IH]; cbn [length repeat]; constructor.
    + apply (quaternion_of_meq q a); [exact hq|]. intros i j hi hj. symmetry.
      apply (h t); [now left|assumption|assumption].
    + apply IH. intros s hs. apply h. now right.
  - intros p hp. apply repeat_spec in hp. subst p. destruct l as [|t l]; [easy|].
    cbn [length repeat hd]. destruct hq as [u _].
    change (qdot q q) with (qnorm2 q). rewrite u. lra.
  - exists t. split; [exact et|]. rewrite qsum_repeat in ht.
    fold (qunit (qscale (INR (length l)) q)) in ht. rewrite qunit_scale in ht.
    + apply (quaternion_of_same q t a ht hq).
    + apply lt_0_INR. destruct l; [easy|cbn; lia].
    + apply hq.
Qed.


Lemma vsum_repeat : forall v n, vsum (repeat v n) = vscale (INR n) v.
Proof.
  intros [[x y] z]. induction n as [|n IH].
  - cbn [repeat vsum INR]. unfold vscale, vx, vy, vz. cbn [fst snd]. pair_eq; ring.
  - cbn [repeat vsum]. rewrite IH, S_INR. unfold vscale, vadd, vx, vy, vz. cbn [fst snd]. pair_eq; ring.
Qed.

Lemma transform_ext : forall s t : Transform R, meq (tmat s) (tmat t) -> tpos s = tpos t -> s = t.
Proof.
  intros [a b c x d e f y g h i z] [a' b' c' x' d' e' f' y' g' h' i' z'] m p.
  rewrite !tmat_mk in m. unfold tpos in p. cbn [t_r1c4 t_r2c4 t_r3c4] in p. inversion p.
  rec_eq; try reflexivity;
  [exact (m 0%nat 0%nat ltac:(lia) ltac:(lia))|exact (m 0%nat 1%nat ltac:(lia) ltac:(lia))
  |exact (m 0%nat 2%nat ltac:(lia) ltac:(lia))|exact (m 1%nat 0%nat ltac:(lia) ltac:(lia))
  |exact (m 1%nat 1%nat ltac:(lia) ltac:(lia))|exact (m 1%nat 2%nat ltac:(lia) ltac:(lia))
  |exact (m 2%nat 0%nat ltac:(lia) ltac:(lia))|exact (m 2%nat 1%nat ltac:(lia) ltac:(lia))
  |exact (m 2%nat 2%nat ltac:(lia) ltac:(lia))].
Qed.

Lemma C54_equal_proof : forall (a : Transform R) (n : nat), rigid a -> n <> 0%nat ->
  averageTransforms (repeat a n) = Ok a.
Proof.
  intros a n ra hn.
  assert (ne : repeat a n <> []) by (destruct n; [easy|discriminate]).
  destruct (C54_same_rotation_proof a (repeat a n) ne ra) as (t&et&mt).
  { intros t ht. apply repeat_spec in ht. subst t. intros i j hi hj. reflexivity. }
  destruct (C54_translation_proof (repeat a n) ne) as (s&es&ps).
  rewrite et in es. injection es as <-. rewrite et. f_equal.
  apply transform_ext; [exact mt|]. rewrite ps. unfold vmean.
  rewrite map_length, repeat_length.
  replace (map tpos (repeat a n)) with (repeat (tpos a) n) by (clear; induction n; cbn; congruence).
  rewrite vsum_repeat. destruct (tpos a) as [[x y] z]. unfold vscale, vx, vy, vz. cbn [fst snd].
  assert (INR n <> 0) by (apply not_0_INR; exact hn). pair_eq; field; assumption.
Qed.


Lemma vsum_perm : forall l l', Permutation l l' -> vsum l = vsum l'.
Proof.
  induction 1 as [|v l l' P IH|u v l|l1 l2 l3 P1 I1 P2 I2]; cbn [vsum]; try congruence.
  destruct u as [[? ?] ?], v as [[? ?] ?], (vsum l) as [[? ?] ?].
  unfold vadd, vx, vy, vz. cbn [fst snd]. pair_eq; ring.
Qed.

Lemma qsum_perm : forall l l', Permutation l l' -> qsum l = qsum l'.
Proof.
  induction 1 as [|v l l' P IH|u v l|l1 l2 l3 P1 I1 P2 I2]; cbn [qsum]; try congruence.
  rewrite <- !qadd_assoc, (qadd_comm v u). reflexivity.
Qed.

Lemma C54_order_proof : forall (a : Transform R) (l l' : list (Transform R)), Permutation l l' ->
  averageTransforms (a :: l) = averageTransforms (a :: l').
Proof.
  intros a l l' P. rewrite !average_eq by discriminate. do 2 f_equal.
  - f_equal. unfold qtotal, qlist. apply qsum_perm. do 2 apply Permutation_map.
    apply perm_skip, P.
  - f_equal. unfold vmean. rewrite !map_length. cbn [length map].
    rewrite (Permutation_length P). f_equal. apply vsum_perm, perm_skip, Permutation_map, P.
Qed.


Lemma C54_translation_order_proof : forall l l' : list (Transform R), l <> [] -> Permutation l l' ->
  exists t t', averageTransforms l = Ok t /\ averageTransforms l' = Ok t' /\ tpos t = tpos t'.
Proof.
  intros l l' ne P.
  destruct (C54_translation_proof l ne) as (t&et&pt).
  destruct (C54_translation_proof l') as (t'&et'&pt').
  { intros ->. apply Permutation_sym, Permutation_nil in P. auto. }
  exists t, t'. repeat split; auto. rewrite pt, pt'. unfold vmean. rewrite !map_length.
  rewrite (Permutation_length P). f_equal. apply vsum_perm, Permutation_map, P.
Qed.


(** ** Change of reference frame *)

Lemma quaternion_of_mul : forall p q a b, quaternion_of p a -> quaternion_of q b ->
  quaternion_of (q_mul p q) (t_mul a b).
Proof.
  intros p q [a b c x d e f y g h i z] [a' b' c' x' d' e' f' y' g' h' i' z'] hp hq.
  apply quaternion_of_mk in hp, hq. rewrite t_mul_mk. apply quaternion_of_mk.
  destruct p as [w1 x1 y1 z1], q as [w2 x2 y2 z2].
  destruct hp as [n (e1&e2&e3&e4&e5&e6&e7&e8&e9)].
  destruct hq as [n' (k1&k2&k3&k4&k5&k6&k7&k8&k9)].
  cbn [q_w q_x q_y q_z] in *. unfold quat9_of, quat9. unr. subst.
  repeat split; nsatz.
Qed.

Lemma qdot_mul : forall g p q, qdot (q_mul g p) (q_mul g q) = qnorm2 g * qdot p q.
Proof. intros [a1 a2 a3 a4] [b1 b2 b3 b4] [c1 c2 c3 c4]. unfold qdot, qnorm2. unr. ring. Qed.

Lemma qsum_mul : forall g l, qsum (map (q_mul g) l) = q_mul g (qsum l).
Proof.
  intros [a1 a2 a3 a4]. induction l as [|[b1 b2 b3 b4] l IH]; cbn [map qsum].
  - unr. rec_eq; ring.
  - rewrite IH. destruct (qsum l) as [c1 c2 c3 c4]. unfold qadd. unr. rec_eq; ring.
Qed.

Lemma qunit_mul : forall g q, unitq g -> qunit (q_mul g q) = q_mul g (qunit q).
Proof.
  intros g q u. unfold qunit. rewrite qdot_mul, u, Rmult_1_l.
  set (k := / sqrt _). clearbody k. destruct g as [a1 a2 a3 a4], q as [b1 b2 b3 b4].
  unfold qscale. unr. rec_eq; ring.
Qed.

(** The dot product of two quaternions measures the angle between the rotations. *)
Lemma dot_trace : forall p q s t, quaternion_of p s -> quaternion_of q t ->
  4 * (qdot q p * qdot q p) = 1 + mtrace (mmul (mtrans (tmat s)) (tmat t)).
Proof.
  intros p q [a b c x d e f y g h i z] [a' b' c' x' d' e' f' y' g' h' i' z'] hp hq.
  apply quaternion_of_mk in hp, hq. rewrite !tmat_mk.
  destruct p as [w1 x1 y1 z1], q as [w2 x2 y2 z2].
  destruct hp as [n (e1&e2&e3&e4&e5&e6&e7&e8&e9)].
  destruct hq as [n' (k1&k2&k3&k4&k5&k6&k7&k8&k9)].
  unfold qdot. cbn [q_w q_x q_y q_z] in *. cbv [mtrace mmul mtrans sum3 of_rows].
  subst. nsatz.
Qed.

Lemma vsum_motion : forall g l, vsum (map (motion g) l) =
  vadd (mapply (tmat g) (vsum l)) (vscale (INR (length l)) (tpos g)).
Proof.
  intros g. set (M := tmat g). set (p := tpos g).
  induction l as [|v l IH].
  - cbn [map vsum length INR]. destruct p as [[? ?] ?].
    unfold mapply, vadd, vscale, sum3, vx, vy, vz. cbn [fst snd]. pair_eq; ring.
  - cbn [map vsum length]. rewrite IH, S_INR. unfold motion. fold M. fold p.
    destruct v as [[? ?] ?], (vsum l) as [[? ?] ?], p as [[? ?] ?].
    unfold mapply, vadd, vscale, sum3, vx, vy, vz. cbn [fst snd]. pair_eq; ring.
Qed.

Lemma vmean_motion : forall g l, l <> [] -> vmean (map (motion g) l) = motion g (vmean l).
Proof.
  intros g l ne. unfold vmean. rewrite vsum_motion, map_length.
  assert (INR (length l) <> 0) by (apply not_0_INR; destruct l; [easy|discriminate]).
  set (n := INR _) in *. clearbody n. unfold motion.
  set (M := tmat g). destruct (tpos g) as [[? ?] ?], (vsum l) as [[? ?] ?].
  unfold mapply, vadd, vscale, sum3, vx, vy, vz. cbn [fst snd]. pair_eq; field; assumption.
Qed.

Lemma tpos_mul : forall a b : Transform R, tpos (t_mul a b) = motion a (tpos b).
Proof.
  intros [a b c x d e f y g h i z] [a' b' c' x' d' e' f' y' g' h' i' z'].
  rewrite t_mul_mk. unfold motion. rewrite tmat_mk. unfold tpos.
  cbn [t_r1c4 t_r2c4 t_r3c4]. unfold mapply, vadd, sum3, vx, vy, vz, of_rows.
  cbn [fst snd]. pair_eq; ring.
Qed.

Lemma align_of : forall f q t, quaternion_of q t -> quaternion_of (align f q) t.
Proof.
  intros f q t [u m]. unfold align. destruct Rle_dec; [split; assumption|].
  split.
  - destruct q as [c1 c2 c3 c4]. unfold unitq, qnorm2, qneg in *. cbn [q_w q_x q_y q_z] in *. lra.
  - intros i j hi hj. rewrite <- (m i j hi hj). destruct q as [c1 c2 c3 c4].
    unfold qmat, qneg. cbn [q_w q_x q_y q_z]. cbv zeta.
    destruct i as [|[|[|i]]]; try lia; destruct j as [|[|[|j]]]; try lia; cbn; ring.
Qed.

Lemma C54_frame_proof : forall (g : Transform R) (l : list (Transform R)),
  rigid g -> (forall t, In t l -> rigid t) ->
  (forall t, In t l -> ~ half_turn_apart (hd g l) t) ->
  averageTransforms (map (t_mul g) l) = rmap (t_mul g) (averageTransforms l).
Proof.
  intros g l rg rl nh. destruct l as [|a l]; [reflexivity|]. cbn [hd] in nh.
  set (L := a :: l) in *.
  assert (ne : L <> []) by discriminate.
  assert (ne' : map (t_mul g) L <> []) by discriminate.
  set (G := toEigenQuaternion g).
  assert (hG : quaternion_of G g) by (apply eigen_of; exact rg).
  set (f := toEigenQuaternion a).
  assert (hf : quaternion_of f a) by (apply eigen_of, rl; now left).
  set (qs := map (align f) (qlist L)).
  assert (F : Forall2 quaternion_of qs L).
  { unfold qs, qlist. assert (H : forall t, In t L -> rigid t) by exact rl. clearbody L. clear - H.
    induction L as [|t L IH]; cbn [map]; constructor.
    - apply align_of, eigen_of, H. now left.
    - apply IH. intros s hs. apply H. now right. }
  assert (hqs : hd (mkQuaternion 0 0 0 0) qs = f).
  { unfold qs, qlist, L. cbn [map hd]. fold f. apply align_pos. change (qdot f f) with (qnorm2 f).
    rewrite (proj1 hf). lra. }
  assert (P : forall q, In q qs -> 0 < qdot q f).
  { intros q hq. unfold qs in hq. apply in_map_iff in hq. destruct hq as (p&<-&hp).
    unfold qlist in hp. apply in_map_iff in hp. destruct hp as (t&<-&ht).
    rewrite align_dot. apply Rabs_pos_lt. intros z.
    apply (nh t ht). unfold half_turn_apart.
    pose proof (dot_trace f (toEigenQuaternion t) a t hf (eigen_of t (rl t ht))) as D.
    rewrite z in D. lra. }
  destruct (C54_rotation_proof L qs ne F) as (t&et&qt); [rewrite hqs; exact P|].
  destruct (C54_rotation_proof (map (t_mul g) L) (map (q_mul G) qs) ne') as (t'&et'&qt').
  { clearbody qs L. clear - F hG. induction F as [|q s qs' l' hq F IH]; cbn [map]; constructor; [|exact IH].
    apply quaternion_of_mul; assumption. }
  { intros q hq. apply in_map_iff in hq. destruct hq as (p&<-&hp).
    replace (hd _ (map (q_mul G) qs)) with (q_mul G f).
    - rewrite qdot_mul, (proj1 hG), Rmult_1_l. apply P, hp.
    - unfold qs, qlist, L in hqs |- *. cbn [map hd] in hqs |- *. rewrite hqs. reflexivity. }
  destruct (C54_translation_proof L ne) as (u&eu&pu). rewrite et in eu. injection eu as <-.
  destruct (C54_translation_proof (map (t_mul g) L) ne') as (u'&eu'&pu'). rewrite et' in eu'.
  injection eu' as <-.
  rewrite et, et'. cbn [rmap]. f_equal. apply transform_ext.
  - rewrite qsum_mul in qt'. fold (qunit (q_mul G (qsum qs))) in qt'. fold (qunit (qsum qs)) in qt.
    rewrite qunit_mul in qt' by apply hG.
    apply (quaternion_of_same _ _ _ qt'). apply quaternion_of_mul; assumption.
  - rewrite tpos_mul, pu, pu', map_map.
    rewrite (map_ext _ (fun t => motion g (tpos t)) (tpos_mul g)).
    rewrite <- (map_map tpos (motion g)). apply vmean_motion. discriminate.
Qed.


(** ** The first transform matters *)

Definition rz (c s : R) : Transform R := mkTransform c (-s) 0 0 s c 0 0 0 0 1 0.

Lemma of_rz : forall w z, w*w+z*z = 1 ->
  quaternion_of (mkQuaternion w 0 0 z) (rz (1 - 2*(z*z)) (2*(z*w))).
Proof.
  intros w z u. apply quaternion_of_mk. split.
  - cbn [q_w q_x q_y q_z]. lra.
  - unfold quat9. cbn [q_w q_x q_y q_z]. repeat split; lra.
Qed.

Lemma C54_first_matters_proof :
  let a := mkTransform 1 0 0 0 0 1 0 0 0 0 1 0 in
  let b := mkTransform (-7/25) (-24/25) 0 0 (24/25) (-7/25) 0 0 0 0 1 0 in
  let c := mkTransform (-7/25) (24/25) 0 0 (-24/25) (-7/25) 0 0 0 0 1 0 in
  rigid a /\ rigid b /\ rigid c /\
  averageTransforms [a; b; c] = Ok a /\ averageTransforms [b; a; c] <> Ok a.
Proof.
  intros a b c.
  assert (ha : quaternion_of (mkQuaternion 1 0 0 0) a).
  { replace a with (rz (1 - 2*(0*0)) (2*(0*1))) by (unfold rz, a; rec_eq; lra). apply of_rz; lra. }
  assert (hb : quaternion_of (mkQuaternion (3/5) 0 0 (4/5)) b).
  { replace b with (rz (1 - 2*(4/5*(4/5))) (2*(4/5*(3/5)))) by (unfold rz, b; rec_eq; lra). apply of_rz; lra. }
  assert (hc : quaternion_of (mkQuaternion (3/5) 0 0 (-4/5)) c).
  { replace c with (rz (1 - 2*(-4/5*(-4/5))) (2*(-4/5*(3/5)))) by (unfold rz, c; rec_eq; lra). apply of_rz; lra. }
  assert (hc' : quaternion_of (mkQuaternion (-3/5) 0 0 (4/5)) c).
  { replace c with (rz (1 - 2*(4/5*(4/5))) (2*(4/5*(-3/5)))) by (unfold rz, c; rec_eq; lra). apply of_rz; lra. }
  split; [eapply quaternion_of_rigid, ha|]. split; [eapply quaternion_of_rigid, hb|].
  split; [eapply quaternion_of_rigid, hc|]. split.
  - destruct (C54_rotation_proof [a;b;c] [mkQuaternion 1 0 0 0; mkQuaternion (3/5) 0 0 (4/5); mkQuaternion (3/5) 0 0 (-4/5)])
      as (t&et&qt); [discriminate|repeat (apply Forall2_cons; [assumption|]); apply Forall2_nil| |].
    { cbn [hd In]. unfold qdot. intros q [<-|[<-|[<-|[]]]]; cbn [q_w q_x q_y q_z]; lra. }
    rewrite et. f_equal.
    destruct (C54_translation_proof [a;b;c]) as (u&eu&pu); [discriminate|].
    rewrite et in eu. injection eu as <-. apply transform_ext.
    + refine (quaternion_of_same _ t a _ ha). refine (eq_rect _ (fun q => quaternion_of q t) qt _ _).
      fold (qunit (qsum [mkQuaternion 1 0 0 0; mkQuaternion (3/5) 0 0 (4/5); mkQuaternion (3/5) 0 0 (-4/5)])).
      transitivity (qunit (qscale (11/5) (mkQuaternion 1 0 0 0))); [|apply qunit_scale; [lra|apply ha]].
      apply (f_equal qunit). unfold qsum, qadd, qscale. cbn [q_w q_x q_y q_z]. rec_eq; lra.
    + rewrite pu. unfold a, b, c, vmean. cbn [map vsum length INR]. unfold tpos.
      cbn [t_r1c4 t_r2c4 t_r3c4]. unfold vadd, vscale, vx, vy, vz. cbn [fst snd]. pair_eq; field.
  - destruct (C54_rotation_proof [b;a;c] [mkQuaternion (3/5) 0 0 (4/5); mkQuaternion 1 0 0 0; mkQuaternion (-3/5) 0 0 (4/5)])
      as (t&et&qt); [discriminate|repeat (apply Forall2_cons; [assumption|]); apply Forall2_nil| |].
    { cbn [hd In]. unfold qdot. intros q [<-|[<-|[<-|[]]]]; cbn [q_w q_x q_y q_z]; lra. }
    rewrite et. intros e. injection e as ->.
    set (S := qsum _) in qt. assert (ES : S = mkQuaternion 1 0 0 (8/5)).
    { unfold S, qsum, qadd. cbn [q_w q_x q_y q_z]. rec_eq; lra. }
    clearbody S. subst S. destruct (quaternion_cover _ _ _ qt ha) as [E|E];
      apply (f_equal q_z) in E; apply (f_equal (Rmult (sqrt (qdot (mkQuaternion 1 0 0 (8/5)) (mkQuaternion 1 0 0 (8/5)))))) in E;
      unfold qscale, qdot, qneg in E; cbn [q_w q_x q_y q_z] in E;
      rewrite <- Rmult_assoc, Rinv_r in E; try lra;
      apply Rgt_not_eq, sqrt_lt_R0; lra.
Qed.
