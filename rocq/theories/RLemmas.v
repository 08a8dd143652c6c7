(** * Facts on the real instance: comparisons, atan2, fmod *)

From Coq Require Import Reals ZArith Bool Lra Lia Psatz.
From Verif Require Import Scalar RInst.
Local Open Scope R_scope.

(** ** Comparisons *)

Lemma Rltb_spec : forall x y, reflect (x < y) (Rltb x y).
Proof. intros x y. unfold Rltb. destruct (Rlt_dec x y); constructor; lra. Qed.

Lemma Rleb_spec : forall x y, reflect (x <= y) (Rleb x y).
Proof. intros x y. unfold Rleb. destruct (Rle_dec x y); constructor; lra. Qed.

Lemma Reqb_spec : forall x y, reflect (x = y) (Reqb x y).
Proof. intros x y. unfold Reqb. destruct (Req_EM_T x y); constructor; lra. Qed.

Lemma Rltb_true : forall x y, x < y -> Rltb x y = true.
Proof. intros x y h. destruct (Rltb_spec x y); auto; lra. Qed.
Lemma Rltb_false : forall x y, y <= x -> Rltb x y = false.
Proof. intros x y h. destruct (Rltb_spec x y); auto; lra. Qed.
Lemma Rleb_true : forall x y, x <= y -> Rleb x y = true.
Proof. intros x y h. destruct (Rleb_spec x y); auto; lra. Qed.
Lemma Rleb_false : forall x y, y < x -> Rleb x y = false.
Proof. intros x y h. destruct (Rleb_spec x y); auto; lra. Qed.
Lemma Reqb_true : forall x y, x = y -> Reqb x y = true.
Proof. intros x y h. destruct (Reqb_spec x y); auto; lra. Qed.
Lemma Reqb_false : forall x y, x <> y -> Reqb x y = false.
Proof. intros x y h. destruct (Reqb_spec x y); auto; lra. Qed.

Lemma Rltb_iff : forall x y, Rltb x y = true <-> x < y.
Proof. intros x y; destruct (Rltb_spec x y); split; intros; auto; try lra; discriminate. Qed.
Lemma Rleb_iff : forall x y, Rleb x y = true <-> x <= y.
Proof. intros x y; destruct (Rleb_spec x y); split; intros; auto; try lra; discriminate. Qed.
Lemma Reqb_iff : forall x y, Reqb x y = true <-> x = y.
Proof. intros x y; destruct (Reqb_spec x y); split; intros; auto; try lra; discriminate. Qed.

(** Replace the scalar operations of the real instance by those of [R]. *)
Ltac rsimp :=
  cbn [s_add s_sub s_mul s_div s_neg s_abs s_sqrt s_cos s_sin s_acos s_atan2 s_fmod
       s_ltb s_leb s_eqb s_ofZ s_frac s_pi s_2pi s_pi2 s_pow2 s_wide wide_eval RScalar] in *;
  unfold s_pow2 in *;
  cbn [s_add s_sub s_mul s_div s_neg s_abs s_sqrt s_cos s_sin s_acos s_atan2 s_fmod
       s_ltb s_leb s_eqb s_ofZ s_frac s_pi s_2pi s_pi2 RScalar] in *.

(** ** Squares and square roots *)

Lemma sum3sq_0 : forall x y z, x*x + y*y + z*z = 0 -> x = 0 /\ y = 0 /\ z = 0.
Proof. intros x y z h. repeat split; nra. Qed.

Lemma sum2sq_0 : forall x y, x*x + y*y = 0 -> x = 0 /\ y = 0.
Proof. intros x y h. split; nra. Qed.

Lemma sqrt_eq_0_iff : forall x, 0 <= x -> (sqrt x = 0 <-> x = 0).
Proof.
  intros x hx; split; intro h.
  - apply sqrt_eq_0; auto.
  - subst; apply sqrt_0.
Qed.

(** [s] stands for a square root: its square and its sign. *)
Lemma sqrt_ex : forall x, 0 <= x -> exists s, sqrt x = s /\ 0 <= s /\ s * s = x.
Proof.
  intros x h. exists (sqrt x). split; [reflexivity|]. split; [apply sqrt_pos|].
  apply sqrt_sqrt; auto.
Qed.

Lemma sqrt_unique' : forall x s, 0 <= s -> s * s = x -> sqrt x = s.
Proof. intros x s h e. subst x. apply sqrt_square; auto. Qed.

(** ** Trigonometry *)

Lemma cs2 : forall a, cos a * cos a + sin a * sin a = 1.
Proof. intro a. generalize (sin2_cos2 a). unfold Rsqr. lra. Qed.

Lemma cos_eq_sin_eq_0 : forall a, -PI < a <= PI -> cos a = 1 -> a = 0.
Proof.
  intros a ha hc.
  assert (hs : sin a = 0) by (generalize (cs2 a); rewrite hc; nra).
  destruct (Rtotal_order a 0) as [h|[h|h]]; auto; exfalso.
  - assert (sin (-a) > 0) by (apply sin_gt_0; lra). rewrite sin_neg in H. lra.
  - destruct (Req_dec a PI) as [e|n].
    + subst. rewrite cos_PI in hc. lra.
    + assert (sin a > 0) by (apply sin_gt_0; lra). lra.
Qed.

(** An angle of ]-pi,pi] is determined by its cosine and sine. *)
Lemma angle_unique : forall a b, -PI < a <= PI -> -PI < b <= PI ->
  cos a = cos b -> sin a = sin b -> a = b.
Proof.
  intros a b ha hb hc hs.
  assert (h1 : cos (a - b) = 1).
  { rewrite cos_minus, hc, hs. generalize (cs2 b); lra. }
  assert (hh : forall d, -(2*PI) < d < 2*PI -> cos d = 1 -> d = 0).
  { intros d hd h.
    destruct (Rle_dec d PI) as [h2|h2].
    - destruct (Rlt_dec (-PI) d) as [h3|h3].
      + apply cos_eq_sin_eq_0; auto; lra.
      + assert (d + 2*PI = 0 \/ d + 2 * PI <> 0) as [z|z] by lra; [lra|].
        exfalso; apply z. apply cos_eq_sin_eq_0; [lra|].
        rewrite cos_plus, cos_2PI, sin_2PI. lra.
    - exfalso. assert (d - 2*PI = 0); [|lra].
      apply cos_eq_sin_eq_0; [lra|]. rewrite cos_minus, cos_2PI, sin_2PI. lra. }
  assert (a - b = 0) by (apply hh; auto; lra). lra.
Qed.

Lemma cos_atan' : forall x, cos (atan x) = / sqrt (1 + x*x).
Proof. intro x. rewrite cos_atan. unfold Rsqr. unfold Rdiv. ring. Qed.

Lemma sin_atan' : forall x, sin (atan x) = x / sqrt (1 + x*x).
Proof. intro x. rewrite sin_atan. unfold Rsqr. reflexivity. Qed.

Lemma sqrt_ratio : forall x y, x <> 0 -> sqrt (1 + y/x * (y/x)) = sqrt (x*x+y*y) / Rabs x.
Proof.
  intros x y hx.
  assert (hp : 0 < x * x) by nra.
  replace (1 + y/x*(y/x)) with ((x*x+y*y) / (x*x)) by (field; auto).
  rewrite sqrt_div; [|nra|auto].
  f_equal. replace (x*x) with (Rsqr x) by reflexivity. apply sqrt_Rsqr_abs.
Qed.

Lemma Ratan2_cos_sin : forall y x, x*x + y*y <> 0 ->
  cos (Ratan2 y x) = x / sqrt (x*x+y*y) /\ sin (Ratan2 y x) = y / sqrt (x*x+y*y).
Proof.
  intros y x h.
  assert (hp : 0 < x*x+y*y) by (destruct (Rtotal_order 0 (x*x+y*y)) as [k|[k|k]]; nra).
  assert (hs : 0 < sqrt (x*x+y*y)) by (apply sqrt_lt_R0; auto).
  unfold Ratan2.
  destruct (Rlt_dec 0 x) as [h1|h1].
  - rewrite cos_atan', sin_atan', sqrt_ratio, Rabs_right by lra. split; field; lra.
  - destruct (Rlt_dec x 0) as [h2|h2].
    + assert (e1 : cos (atan (y/x)) = - x / sqrt (x*x+y*y)).
      { rewrite cos_atan', sqrt_ratio, Rabs_left by lra. field; lra. }
      assert (e2 : sin (atan (y/x)) = - y / sqrt (x*x+y*y)).
      { rewrite sin_atan', sqrt_ratio, Rabs_left by lra. field; lra. }
      destruct (Rle_dec 0 y) as [h3|h3].
      * rewrite neg_cos, neg_sin, e1, e2. split; field; lra.
      * rewrite cos_minus, sin_minus, cos_PI, sin_PI, e1, e2. split; field; lra.
    + assert (hx : x = 0) by lra. subst x.
      replace (0*0+y*y) with (y*y) by ring.
      destruct (Rlt_dec 0 y) as [h3|h3].
      * rewrite cos_PI2, sin_PI2, sqrt_square by lra. split; field; lra.
      * destruct (Rlt_dec y 0) as [h4|h4].
        -- rewrite cos_neg, sin_neg, cos_PI2, sin_PI2.
           replace (y*y) with ((-y)*(-y)) by ring. rewrite sqrt_square by lra.
           split; field; lra.
        -- nra.
Qed.

Lemma Ratan2_range : forall y x, -PI < Ratan2 y x <= PI.
Proof.
  intros y x. generalize PI_RGT_0; intro hpi. unfold Ratan2.
  destruct (Rlt_dec 0 x) as [h1|h1].
  - generalize (atan_bound (y/x)); lra.
  - destruct (Rlt_dec x 0) as [h2|h2].
    + destruct (Rle_dec 0 y) as [h3|h3].
      * assert (y / x <= 0).
        { unfold Rdiv. assert (/x < 0) by (apply Rinv_lt_0_compat; auto). nra. }
        assert (atan (y/x) <= 0).
        { rewrite <- atan_0. destruct (Req_dec (y/x) 0) as [e|n].
          - rewrite e; lra.
          - left. apply atan_increasing. lra. }
        generalize (atan_bound (y/x)); lra.
      * assert (0 < y / x).
        { unfold Rdiv. assert (/x < 0) by (apply Rinv_lt_0_compat; auto). nra. }
        assert (0 < atan (y/x)).
        { rewrite <- atan_0. apply atan_increasing. lra. }
        generalize (atan_bound (y/x)); lra.
    + destruct (Rlt_dec 0 y); [lra|]. destruct (Rlt_dec y 0); lra.
Qed.

Lemma Ratan2_00 : Ratan2 0 0 = 0.
Proof.
  unfold Ratan2. repeat (match goal with |- context[Rlt_dec ?a ?b] => destruct (Rlt_dec a b) end); lra.
Qed.

Lemma Ratan2_polar : forall r t, 0 < r -> -PI < t <= PI -> Ratan2 (r * sin t) (r * cos t) = t.
Proof.
  intros r t hr ht.
  assert (e : r * cos t * (r * cos t) + r * sin t * (r * sin t) = r * r).
  { generalize (cs2 t); intro h. nra. }
  assert (n : r * cos t * (r * cos t) + r * sin t * (r * sin t) <> 0) by (rewrite e; nra).
  destruct (Ratan2_cos_sin (r * sin t) (r * cos t) n) as [h1 h2].
  rewrite e, sqrt_square in h1, h2 by lra.
  apply angle_unique; auto using Ratan2_range.
  - rewrite h1. field; lra.
  - rewrite h2. field; lra.
Qed.

Lemma Ratan2_cs : forall t, -PI < t <= PI -> Ratan2 (sin t) (cos t) = t.
Proof.
  intros t h. rewrite <- (Rmult_1_l (sin t)), <- (Rmult_1_l (cos t)).
  apply Ratan2_polar; auto; lra.
Qed.

(** Every point of the unit circle is [(cos t, sin t)] for one [t] of ]-pi,pi]. *)
Lemma circle_angle : forall c s, c*c + s*s = 1 ->
  exists t, -PI < t <= PI /\ cos t = c /\ sin t = s.
Proof.
  intros c s h. exists (Ratan2 s c).
  destruct (Ratan2_cos_sin s c) as [h1 h2]; [lra|].
  rewrite h, sqrt_1 in h1, h2.
  split; [apply Ratan2_range|]. split; [rewrite h1|rewrite h2]; field.
Qed.

(** [Ratan2] only depends on the direction. *)
Lemma Ratan2_scale : forall k y x, 0 < k -> Ratan2 (k*y) (k*x) = Ratan2 y x.
Proof.
  intros k y x hk.
  destruct (Req_dec (x*x+y*y) 0) as [e|n].
  - destruct (sum2sq_0 x y e); subst. rewrite !Rmult_0_r. reflexivity.
  - set (r := sqrt (x*x+y*y)).
    assert (hr : 0 < r) by (apply sqrt_lt_R0; destruct (Rtotal_order 0 (x*x+y*y)) as [?|[?|?]]; nra).
    destruct (Ratan2_cos_sin y x n) as [h1 h2]. fold r in h1, h2.
    replace (k*y) with ((k*r) * sin (Ratan2 y x)) by (rewrite h2; field; lra).
    replace (k*x) with ((k*r) * cos (Ratan2 y x)) by (rewrite h1; field; lra).
    apply Ratan2_polar; [nra|apply Ratan2_range].
Qed.

(** ** fmod *)

Lemma Int_part_bounds : forall x, IZR (Int_part x) <= x < IZR (Int_part x) + 1.
Proof. intro x. generalize (base_Int_part x). lra. Qed.

Lemma Rtrunc_bounds_pos : forall x, 0 <= x -> IZR (Rtrunc x) <= x < IZR (Rtrunc x) + 1 /\ (0 <= Rtrunc x)%Z.
Proof.
  intros x h. unfold Rtrunc. destruct (Rle_dec 0 x); [|lra].
  generalize (Int_part_bounds x); intro b. split; auto.
  assert (-1 < IZR (Int_part x)) by lra.
  change (-1) with (IZR (-1)) in H. apply lt_IZR in H. lia.
Qed.

Lemma Rtrunc_opp : forall x, Rtrunc (-x) = (- Rtrunc x)%Z.
Proof.
  intro x. unfold Rtrunc.
  destruct (Rle_dec 0 (-x)); destruct (Rle_dec 0 x).
  - assert (x = 0) by lra. subst. rewrite Ropp_0.
    assert (Int_part 0 = 0%Z); [|lia].
    generalize (Int_part_bounds 0); intro b.
    assert (IZR (Int_part 0) < 1) by lra. assert (-1 < IZR (Int_part 0)) by lra.
    change 1 with (IZR 1) in H. change (-1) with (IZR (-1)) in H0.
    apply lt_IZR in H. apply lt_IZR in H0. lia.
  - lia.
  - rewrite Ropp_involutive. lia.
  - lra.
Qed.

Lemma Rfmod_congr : forall x y, exists k : Z, Rfmod x y = x - IZR k * y.
Proof. intros x y. exists (Rtrunc (x/y)). reflexivity. Qed.

Lemma Rfmod_bound : forall x y, 0 < y -> (0 <= x -> 0 <= Rfmod x y < y) /\ (x <= 0 -> -y < Rfmod x y <= 0).
Proof.
  intros x y hy.
  assert (p : forall x, 0 <= x -> 0 <= Rfmod x y < y).
  { intros u hu. unfold Rfmod.
    assert (hq : 0 <= u / y) by (apply Rmult_le_pos; [auto|left; apply Rinv_0_lt_compat; auto]).
    destruct (Rtrunc_bounds_pos (u/y) hq) as [[b1 b2] _].
    assert (e : u = u / y * y) by (field; lra).
    set (n := IZR (Rtrunc (u/y))) in *. set (d := u / y) in *. rewrite e. split; nra. }
  split; auto.
  intro h. assert (e : Rfmod x y = - Rfmod (-x) y).
  { unfold Rfmod. replace (-x/y) with (-(x/y)) by (field; lra). rewrite Rtrunc_opp, opp_IZR. ring. }
  rewrite e. assert (0 <= -x) by lra. generalize (p (-x) H). lra.
Qed.
