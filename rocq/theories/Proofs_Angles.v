(** * Lemmas for Props_Angles *)

From Coq Require Import Reals List Lra Lia Psatz Bool Arith ZArith Permutation.
Import ListNotations.
From Flocq Require Import Core.Core Sterbenz IEEE754.BinarySingleNaN.
From Verif Require Import Scalar RInst F32 RLemmas F32Lemmas Model_Base Model_Vec Model_Rigid Model_Almath
  Spec_Angle Proofs_Geom.
Local Open Scope R_scope.


Lemma C28_modulo2PI_proof : forall x : R,
  same_angle (modulo2PI x) x /\ - PI <= modulo2PI x <= PI /\
  (- PI <= x <= PI -> modulo2PI x = x) /\
  (0 <= x -> - PI < modulo2PI x) /\
  modulo2PI (modulo2PI x) = modulo2PI x.
Proof.
  assert (P := PI_RGT_0).
  assert (I : forall x, - PI <= x <= PI -> modulo2PI x = x).
  { intros x h. unfold modulo2PI. rsimp.
    assert (F : Rfmod x (2*PI) = x).
    { destruct (Rfmod_congr x (2*PI)) as [k E]. destruct (Rfmod_bound x (2*PI) ltac:(lra)) as [B1 B2].
      assert (k = 0%Z).
      { destruct (Rle_dec 0 x) as [l|l].
        - specialize (B1 l). assert (-1 < IZR k < 1) by (split; nra).
          destruct H as [H1 H2]. change (-1) with (IZR (-1)) in H1. apply lt_IZR in H1. apply lt_IZR in H2. lia.
        - specialize (B2 ltac:(lra)). assert (-1 < IZR k < 1) by (split; nra).
          destruct H as [H1 H2]. change (-1) with (IZR (-1)) in H1. apply lt_IZR in H1. apply lt_IZR in H2. lia. }
      subst k. rewrite E. cbn. ring. }
    rewrite F. rewrite !Rltb_false by lra. reflexivity. }
  assert (M : forall x, same_angle (modulo2PI x) x /\ - PI <= modulo2PI x <= PI /\ (0 <= x -> - PI < modulo2PI x)).
  { intro x. unfold modulo2PI. rsimp.
    destruct (Rfmod_congr x (2*PI)) as [k E]. destruct (Rfmod_bound x (2*PI) ltac:(lra)) as [B1 B2].
    set (a := Rfmod x (2*PI)) in *. clearbody a.
    assert (B : (0 <= x /\ 0 <= a < 2 * PI) \/ (x < 0 /\ - (2*PI) < a <= 0)) by (destruct (Rle_dec 0 x); [left|right]; lra).
    destruct (Rltb_spec PI a) as [h|h].
    - split; [|lra]. exists (k+1)%Z. rewrite plus_IZR. lra.
    - destruct (Rltb_spec a (-PI)) as [h'|h'].
      + split; [|lra]. exists (k-1)%Z. rewrite minus_IZR. lra.
      + split; [|lra]. exists k. lra. }
  intro x. destruct (M x) as (m1&m2&m3). auto 8.
Qed.


Lemma C28_modulo2PI_congruent_proof : forall x y : R, same_angle x y ->
  modulo2PI x = modulo2PI y \/ (Rabs (modulo2PI x) = PI /\ modulo2PI x = - modulo2PI y).
Proof.
  intros x y [k E]. assert (P := PI_RGT_0).
  destruct (C28_modulo2PI_proof x) as ([a A]&[B1 B2]&_). destruct (C28_modulo2PI_proof y) as ([b B]&[C1 C2]&_).
  set (u := modulo2PI x) in *. set (v := modulo2PI y) in *. clearbody u v.
  assert (D : v - u = IZR (a + k - b) * (2*PI)) by (rewrite minus_IZR, plus_IZR; subst; lra).
  set (n := (a + k - b)%Z) in *. clearbody n.
  assert (N : -2 < IZR n < 2) by (split; nra). destruct N as [N1 N2].
  change (-2) with (IZR (-2)) in N1. apply lt_IZR in N1. apply lt_IZR in N2.
  assert (n = -1 \/ n = 0 \/ n = 1)%Z as [->|[->| ->]] by lia.
  - right. assert (u = PI /\ v = -PI) as [-> ->] by lra. rewrite Rabs_right by lra. lra.
  - left. lra.
  - right. assert (u = -PI /\ v = PI) as [-> ->] by lra. rewrite Rabs_left by lra. lra.
Qed.


Lemma C28_minus_pi_refuted_proof : modulo2PI (- PI) = - PI.
Proof. assert (P := PI_RGT_0). apply (C28_modulo2PI_proof (-PI)). lra. Qed.



Lemma f32_pi_facts : is_finite f32_pi = true /\ is_finite f32_2pi = true /\
  B2R f32_pi = 13176795 * / 4194304 /\ B2R f32_2pi = 2 * B2R f32_pi.
Proof.
  assert (E1 : B2SF f32_pi = SpecFloat.S754_finite false 13176795 (-22)) by (vm_compute; reflexivity).
  assert (E2 : B2SF f32_2pi = SpecFloat.S754_finite false 13176795 (-21)) by (vm_compute; reflexivity).
  assert (R1 : B2R f32_pi = IZR 13176795 * bpow radix2 (-22)).
  { rewrite <- SF2R_B2SF, E1. reflexivity. }
  assert (R2 : B2R f32_2pi = IZR 13176795 * bpow radix2 (-21)).
  { rewrite <- SF2R_B2SF, E2. reflexivity. }
  assert (b1 : bpow radix2 (-22) = / 4194304) by reflexivity.
  assert (b2 : bpow radix2 (-21) = / 2097152) by reflexivity.
  rewrite R1, R2, b1, b2.
  split; [rewrite <- is_finite_SF_B2SF, E1; reflexivity|].
  split; [rewrite <- is_finite_SF_B2SF, E2; reflexivity|].
  split; [reflexivity|]. lra.
Qed.

Lemma f32_opp_pi : is_finite (Bopp f32_pi) = true /\ B2R (Bopp f32_pi) = - B2R f32_pi.
Proof. split; [rewrite is_finite_Bopp; apply f32_pi_facts|apply B2R_Bopp]. Qed.

Lemma C28_modulo2PI_binary32_proof : forall (L : libm32) (x : f32), is_finite x = true ->
  let r := @modulo2PI f32 (F32Scalar L) x in
  is_finite r = true /\ (exists k : Z, B2R r = B2R x - IZR k * B2R f32_2pi) /\
  - B2R f32_pi <= B2R r <= B2R f32_pi /\
  (- B2R f32_pi <= B2R x <= B2R f32_pi -> B2R r = B2R x).
Proof.
  intros L x hx. destruct f32_pi_facts as (fp&f2&vp&v2). destruct f32_opp_pi as [fo vo].
  assert (pp : 0 < B2R f32_2pi) by lra.
  destruct (f32_fmod_spec x f32_2pi hx f2 pp) as (fa&[k E]&B1&B2).
  unfold modulo2PI. cbn [s_fmod s_ltb s_sub s_add s_neg s_pi s_2pi F32Scalar].
  set (a := f32_fmod x f32_2pi) in *. clearbody a. cbv zeta.
  rewrite !Bltb_correct by assumption. rewrite vo.
  assert (U : - B2R f32_pi <= B2R x <= B2R f32_pi -> k = 0%Z).
  { intros [u1 u2]. assert (N : -1 < IZR k < 1).
    { destruct (Rle_dec 0 (B2R x)) as [l|l]; [specialize (B1 l)|specialize (B2 ltac:(lra))]; split; nra. }
    destruct N as [N1 N2]. change (-1) with (IZR (-1)) in N1. apply lt_IZR in N1. apply lt_IZR in N2. lia. }
  assert (B : (0 <= B2R x /\ 0 <= B2R a < B2R f32_2pi) \/ (B2R x <= 0 /\ - B2R f32_2pi < B2R a <= 0))
    by (destruct (Rle_dec 0 (B2R x)); [left|right]; split; try apply B1; try apply B2; lra).
  destruct (Rlt_bool_spec (B2R f32_pi) (B2R a)) as [h|h].
  - destruct (Bminus_exact a f32_2pi fa f2) as [V F].
    + apply sterbenz; [typeclasses eauto|typeclasses eauto|apply generic_format_B2R|apply generic_format_B2R|]. lra.
    + apply Rlt_trans with (B2R f32_2pi); [apply Rabs_def1; lra|].
      apply Rle_lt_trans with (2 := f32_emax f32_2pi). apply Rle_abs.
    + split; [exact F|]. rewrite V. split; [exists (k+1)%Z; rewrite plus_IZR; lra|].
      split; [lra|]. intro u. exfalso. specialize (U u). subst k. lra.
  - destruct (Rlt_bool_spec (B2R a) (- B2R f32_pi)) as [h'|h'].
    + destruct (Bplus_exact a f32_2pi fa f2) as [V F].
      * replace (B2R a + B2R f32_2pi) with (B2R f32_2pi - - B2R a) by ring.
        apply sterbenz; [typeclasses eauto|typeclasses eauto|apply generic_format_B2R|apply generic_format_opp, generic_format_B2R|]. lra.
      * apply Rlt_trans with (B2R f32_2pi); [apply Rabs_def1; lra|].
        apply Rle_lt_trans with (2 := f32_emax f32_2pi). apply Rle_abs.
      * split; [exact F|]. rewrite V. split; [exists (k-1)%Z; rewrite minus_IZR; lra|].
        split; [lra|]. intro u. exfalso. specialize (U u). subst k. lra.
    + split; [exact fa|]. split; [exists k; exact E|]. split; [lra|].
      intro u. specialize (U u). subst k. lra.
Qed.


Lemma C28_modulo2PI_not_finite_proof : forall (L : libm32) (x : f32), is_finite x = false ->
  @modulo2PI f32 (F32Scalar L) x = B754_nan.
Proof. intros L [s|s| |s m e B] h; try discriminate h; reflexivity. Qed.




Lemma loop_spec : forall l (acc : Position2D R),
  meanAngle_loop l acc =
    if forallb (fun aw => Rltb 0 (snd aw)) l
    then Ok (mkPosition2D (p2_x acc + sum_cos l) (p2_y acc + sum_sin l)) else Throw.
Proof.
  induction l as [|[a w] l IH]; intro acc; cbn [meanAngle_loop forallb sum_cos sum_sin snd].
  - destruct acc; cbn. rewrite !Rplus_0_r. reflexivity.
  - rsimp. destruct (Rleb_spec w 0) as [h|h].
    + rewrite Rltb_false by exact h. reflexivity.
    + rewrite Rltb_true by lra. cbn [andb]. rewrite IH. cbn [p2_x p2_y p2_lscale p2_scale].
      unfold p2_lscale, p2_scale. cbn [p2_x p2_y]. rsimp.
      replace (p2_x acc + cos a * w + sum_cos l) with (p2_x acc + (w * cos a + sum_cos l)) by ring.
      replace (p2_y acc + sin a * w + sum_sin l) with (p2_y acc + (w * sin a + sum_sin l)) by ring.
      reflexivity.
Qed.

Lemma forallb_pos : forall (angles weights : list R), length angles = length weights ->
  forallb (fun aw => Rltb 0 (snd aw)) (combine angles weights) = true <-> Forall (fun w => 0 < w) weights.
Proof.
  induction angles as [|a l IH]; intros [|w ws] h; try discriminate h; cbn [combine forallb].
  - split; auto.
  - cbn in h. injection h as h. specialize (IH ws h). cbn [snd]. rewrite andb_true_iff, IH, Rltb_iff.
    split; [intros [p q]; constructor; assumption|]. intro q. inversion q; subst; auto.
Qed.

Lemma mean_unfold : forall angles weights : list R,
  weightedMeanAngle angles weights =
    if Nat.eqb (length angles) (length weights) then
      if forallb (fun aw => Rltb 0 (snd aw)) (combine angles weights) then
        if Rltb (resultant (combine angles weights)) (1/1000) then Throw
        else Ok (modulo2PI (Ratan2 (sum_sin (combine angles weights)) (sum_cos (combine angles weights))))
      else Throw
    else Throw.
Proof.
  intros a w. unfold weightedMeanAngle. destruct (Nat.eqb _ _); cbn [negb]; [|reflexivity].
  rewrite loop_spec. destruct (forallb _ _); cbn [rbind]; [|reflexivity].
  unfold p2_norm, p2_default. cbn [p2_x p2_y]. rsimp. unfold resultant. rewrite !Rplus_0_l. reflexivity.
Qed.

Lemma circular_mean_unique : forall l a b, is_circular_mean l a -> is_circular_mean l b -> a = b.
Proof.
  intros l a b (a1&a2&a3&a4) (b1&b2&b3&b4). apply angle_unique; auto; apply (Rmult_eq_reg_l (resultant l)); lra.
Qed.

Lemma circular_mean_atan2 : forall l, 0 < resultant l -> is_circular_mean l (modulo2PI (Ratan2 (sum_sin l) (sum_cos l))).
Proof.
  intros l h. assert (R := Ratan2_range (sum_sin l) (sum_cos l)).
  destruct (C28_modulo2PI_proof (Ratan2 (sum_sin l) (sum_cos l))) as (_&_&I&_). rewrite I by lra.
  assert (S : sum_cos l * sum_cos l + sum_sin l * sum_sin l <> 0).
  { intro e. unfold resultant in h. rewrite e, sqrt_0 in h. lra. }
  destruct (Ratan2_cos_sin _ _ S) as [C1 C2].
  split; [exact R|]. split; [exact h|]. rewrite C1, C2. unfold resultant in *. split; field; lra.
Qed.

Lemma C29_mean_exact_proof : forall angles weights : list R,
  let ok := length angles = length weights /\ Forall (fun w => 0 < w) weights /\
            1/1000 <= resultant (combine angles weights) in
  (ok -> exists m, weightedMeanAngle angles weights = Ok m /\ is_circular_mean (combine angles weights) m /\
           forall m', is_circular_mean (combine angles weights) m' -> m' = m) /\
  (~ ok -> weightedMeanAngle angles weights = Throw).
Proof.
  intros angles weights ok. rewrite mean_unfold. split.
  - intros (h1&h2&h3). rewrite (proj2 (Nat.eqb_eq _ _) h1), (proj2 (forallb_pos _ _ h1) h2).
    rewrite Rltb_false by exact h3. eexists. split; [reflexivity|].
    assert (M := circular_mean_atan2 (combine angles weights) ltac:(lra)).
    split; [exact M|]. intros m' h'. exact (circular_mean_unique _ _ _ h' M).
  - intro n. destruct (Nat.eqb_spec (length angles) (length weights)) as [h1|h1]; [|reflexivity].
    destruct (forallb _ _) eqn:h2; [|reflexivity].
    destruct (Rltb_spec (resultant (combine angles weights)) (1/1000)) as [h3|h3]; [reflexivity|].
    exfalso. apply n. split; [exact h1|]. split; [apply (forallb_pos angles weights h1); exact h2|lra].
Qed.


Lemma C29_mean_unweighted_proof : forall angles : list R,
  meanAngle angles = weightedMeanAngle angles (map (fun _ => 1) angles).
Proof.
  intro l. unfold meanAngle. f_equal. induction l; cbn; [reflexivity|]. f_equal. exact IHl.
Qed.


Lemma sum_perm : forall l l', Permutation l l' -> sum_cos l = sum_cos l' /\ sum_sin l = sum_sin l'.
Proof.
  induction 1 as [|[a w] l l' p [I1 I2]|[a w] [b v] l|l l' l'' p1 [I1 I2] p2 [J1 J2]]; cbn [sum_cos sum_sin].
  - auto.
  - rewrite I1, I2. auto.
  - split; ring.
  - rewrite I1, I2. auto.
Qed.

Lemma forallb_perm : forall {A} (f : A -> bool) l l', Permutation l l' -> forallb f l = forallb f l'.
Proof.
  intros A f. induction 1; cbn; try congruence. destruct (f x), (f y); reflexivity.
Qed.

Lemma C29_mean_permutation_proof : forall angles weights angles' weights' : list R,
  length angles = length weights -> length angles' = length weights' ->
  Permutation (combine angles weights) (combine angles' weights') ->
  weightedMeanAngle angles weights = weightedMeanAngle angles' weights'.
Proof.
  intros a w a' w' h h' p. rewrite !mean_unfold, (proj2 (Nat.eqb_eq _ _) h), (proj2 (Nat.eqb_eq _ _) h').
  rewrite (forallb_perm _ _ _ p). unfold resultant. destruct (sum_perm _ _ p) as [-> ->]. reflexivity.
Qed.


Lemma cos_sin_same : forall a b, same_angle a b -> cos b = cos a /\ sin b = sin a.
Proof.
  intros a b [k ->]. rewrite cos_plus, sin_plus.
  assert (E : cos (IZR k * (2*PI)) = 1 /\ sin (IZR k * (2*PI)) = 0).
  { assert (N : forall n : nat, cos (INR n * (2*PI)) = 1 /\ sin (INR n * (2*PI)) = 0).
    { intro n. replace (INR n * (2*PI)) with (0 + 2 * INR n * PI) by ring.
      rewrite cos_period, sin_period, cos_0, sin_0. auto. }
    destruct (Z_le_dec 0 k) as [l|l].
    - rewrite <- (Z2Nat.id k l), <- INR_IZR_INZ. apply N.
    - replace (IZR k * (2*PI)) with (- (INR (Z.to_nat (- k)) * (2*PI))).
      + rewrite cos_neg, sin_neg. destruct (N (Z.to_nat (-k))) as [-> ->]. split; ring.
      + rewrite INR_IZR_INZ, Z2Nat.id, opp_IZR by lia. ring. }
  destruct E as [-> ->]. split; ring.
Qed.

Lemma C29_mean_turns_proof : forall angles angles' weights : list R,
  Forall2 same_angle angles angles' -> weightedMeanAngle angles weights = weightedMeanAngle angles' weights.
Proof.
  intros a a' w h. rewrite !mean_unfold.
  assert (L : length a = length a') by (clear - h; induction h; cbn; congruence). rewrite L.
  destruct (Nat.eqb_spec (length a') (length w)) as [e|e]; [|reflexivity].
  assert (F : forallb (fun aw => Rltb 0 (snd aw)) (combine a w) = forallb (fun aw => Rltb 0 (snd aw)) (combine a' w)).
  { clear - h. revert w. induction h; intros [|v w]; cbn; try reflexivity. rewrite IHh. reflexivity. }
  assert (S : sum_cos (combine a w) = sum_cos (combine a' w) /\ sum_sin (combine a w) = sum_sin (combine a' w)).
  { clear - h. revert w. induction h as [|x y l l' s h IH]; intros [|v w]; cbn; auto.
    destruct (IH w) as [-> ->]. destruct (cos_sin_same _ _ s) as [-> ->]. auto. }
  rewrite F. unfold resultant. destruct S as [-> ->]. reflexivity.
Qed.


Lemma sums_rotate : forall d angles weights,
  sum_cos (combine (map (fun a => a + d) angles) weights) =
    cos d * sum_cos (combine angles weights) - sin d * sum_sin (combine angles weights) /\
  sum_sin (combine (map (fun a => a + d) angles) weights) =
    sin d * sum_cos (combine angles weights) + cos d * sum_sin (combine angles weights).
Proof.
  intro d. induction angles as [|a l IH]; intros [|w ws]; cbn [map combine sum_cos sum_sin]; try (split; ring).
  destruct (IH ws) as [-> ->]. rewrite cos_plus, sin_plus. split; ring.
Qed.

Lemma C29_mean_rotation_proof : forall (d : R) (angles weights : list R),
  match weightedMeanAngle angles weights, weightedMeanAngle (map (fun a => a + d) angles) weights with
  | Ok m, Ok m' => same_angle (m + d) m'
  | Throw, Throw => True
  | _, _ => False
  end.
Proof.
  intros d a w. destruct (C29_mean_exact_proof a w) as [p1 p2].
  destruct (C29_mean_exact_proof (map (fun a => a + d) a) w) as [q1 q2].
  destruct (sums_rotate d a w) as [S1 S2].
  assert (R : resultant (combine (map (fun a => a + d) a) w) = resultant (combine a w)).
  { unfold resultant. rewrite S1, S2. f_equal. generalize (cs2 d). intro c.
    set (C := sum_cos _). set (S := sum_sin _). 
    transitivity ((cos d * cos d + sin d * sin d) * (C*C + S*S)); [ring|]. rewrite c. ring. }
  rewrite map_length, R in q1, q2.
  cbv zeta in p1, p2, q1, q2.
  destruct (Classical_Prop.classic (length a = length w /\ Forall (fun w => 0 < w) w /\ 1/1000 <= resultant (combine a w))) as [ok|no].
  - destruct (p1 ok) as (m&->&(M1&M2&M3&M4)&_). destruct (q1 ok) as (m'&->&(N1&N2&N3&N4)&_).
    rewrite R in N2, N3, N4. rewrite S1 in N3. rewrite S2 in N4. rewrite <- M3, <- M4 in N3, N4.
    assert (c : cos m' = cos (m + d)).
    { apply (Rmult_eq_reg_l (resultant (combine a w))); [|lra]. rewrite N3, cos_plus. ring. }
    assert (s : sin m' = sin (m + d)).
    { apply (Rmult_eq_reg_l (resultant (combine a w))); [|lra]. rewrite N4, sin_plus. ring. }
    destruct (C28_modulo2PI_proof (m + d)) as ([k E]&B&_). set (u := modulo2PI (m+d)) in *. clearbody u.
    assert (P := PI_RGT_0).
    destruct (cos_sin_same u (m+d)) as [c' s']; [exists k; exact E|].
    destruct (Req_dec u (-PI)) as [e|ne].
    + assert (m' = PI).
      { apply angle_unique; [exact N1|lra| |]; [rewrite c, c', e, cos_neg|rewrite s, s', e, sin_neg, sin_PI]; [reflexivity|ring]. }
      exists (1 - k)%Z. rewrite minus_IZR. lra.
    + assert (m' = u) by (apply angle_unique; [exact N1|lra|congruence|congruence]).
      exists (- k)%Z. rewrite opp_IZR. lra.
  - rewrite (p2 no), (q2 no). exact I.
Qed.


Lemma sums_const : forall a weights, Forall (fun w => 0 < w) weights ->
  exists W, sum_cos (combine (map (fun _ => a) weights) weights) = W * cos a /\
            sum_sin (combine (map (fun _ => a) weights) weights) = W * sin a /\
            W = fold_right Rplus 0 weights /\ 0 <= W.
Proof.
  intros a ws h. induction h as [|w ws p h (W&I1&I2&I3&I4)].
  - exists 0. cbn. repeat split; try ring; lra.
  - exists (w + W). cbn [map combine sum_cos sum_sin fold_right]. rewrite I1, I2.
    split; [ring|]. split; [ring|]. split; [rewrite I3; reflexivity|lra].
Qed.

Lemma C29_mean_constant_proof : forall (a : R) (weights : list R),
  Forall (fun w => 0 < w) weights -> 1/1000 <= fold_right Rplus 0 weights ->
  exists m, weightedMeanAngle (map (fun _ => a) weights) weights = Ok m /\ same_angle m a /\ - PI < m <= PI.
Proof.
  intros a w h hw. destruct (sums_const a w h) as (W&E1&E2&E3&E4).
  assert (R : resultant (combine (map (fun _ => a) w) w) = W).
  { unfold resultant. rewrite E1, E2. replace (W * cos a * (W * cos a) + W * sin a * (W * sin a)) with (W * W).
    - apply sqrt_square; exact E4.
    - generalize (cs2 a). intro c. transitivity (W * W * (cos a * cos a + sin a * sin a)); [rewrite c|]; ring. }
  destruct (C29_mean_exact_proof (map (fun _ => a) w) w) as [p _].
  destruct p as (m&Em&(M1&M2&M3&M4)&_).
  { rewrite map_length. split; [reflexivity|]. split; [exact h|]. rewrite R, E3. exact hw. }
  exists m. split; [exact Em|]. split; [|exact M1]. rewrite R in *. rewrite E1 in M3. rewrite E2 in M4.
  apply Rmult_eq_reg_l in M3; [|lra]. apply Rmult_eq_reg_l in M4; [|lra].
  destruct (C28_modulo2PI_proof a) as ([k E]&B&_). set (u := modulo2PI a) in *. clearbody u.
  assert (P := PI_RGT_0). destruct (cos_sin_same u a) as [c' s']; [exists k; exact E|].
  destruct (Req_dec u (-PI)) as [e|ne].
  - assert (m = PI).
    { apply angle_unique; [exact M1|lra| |]; [rewrite M3, c', e, cos_neg|rewrite M4, s', e, sin_neg, sin_PI]; [reflexivity|ring]. }
    exists (k - 1)%Z. rewrite minus_IZR. lra.
  - assert (m = u) by (apply angle_unique; [exact M1|lra|congruence|congruence]).
    exists k. lra.
Qed.


Lemma sums_scale : forall k angles weights,
  sum_cos (combine angles (map (fun w => k * w) weights)) = k * sum_cos (combine angles weights) /\
  sum_sin (combine angles (map (fun w => k * w) weights)) = k * sum_sin (combine angles weights).
Proof.
  intro k. induction angles as [|a l IH]; intros [|w ws]; cbn [map combine sum_cos sum_sin]; try (split; ring).
  destruct (IH ws) as [-> ->]. split; ring.
Qed.

Lemma C29_mean_scaling_if : forall (k : R) (angles weights : list R) (m m' : R), 0 < k ->
  weightedMeanAngle angles weights = Ok m ->
  weightedMeanAngle angles (map (fun w => k * w) weights) = Ok m' -> m = m'.
Proof.
  intros k a w m m' hk. rewrite !mean_unfold, map_length. destruct (sums_scale k a w) as [-> ->].
  destruct (Nat.eqb _ _); [|discriminate].
  destruct (forallb _ _); [|discriminate]. destruct (Rltb _ _); [discriminate|].
  destruct (forallb _ _); [|discriminate]. destruct (Rltb _ _); [discriminate|].
  rewrite Ratan2_scale by exact hk. congruence.
Qed.

Lemma C29_mean_scaling_exact_proof : forall (k : R) (angles weights : list R), 0 < k ->
  let ok := length angles = length weights /\ Forall (fun w => 0 < w) weights /\
            1/1000 <= k * resultant (combine angles weights) in
  let r := weightedMeanAngle angles (map (fun w => k * w) weights) in
  (ok -> exists m, r = Ok m /\ is_circular_mean (combine angles weights) m) /\ (~ ok -> r = Throw).
Proof.
  intros k angles weights hk ok r.
  destruct (sums_scale k angles weights) as [EC ES].
  assert (RS : resultant (combine angles (map (fun w => k * w) weights)) = k * resultant (combine angles weights)).
  { unfold resultant. rewrite EC, ES.
    match goal with |- sqrt ?e = _ => replace e with ((k*k)*(sum_cos (combine angles weights) * sum_cos (combine angles weights) +
      sum_sin (combine angles weights) * sum_sin (combine angles weights))) by ring end.
    rewrite sqrt_mult; [|nra|nra]. rewrite sqrt_square by lra. reflexivity. }
  assert (F : Forall (fun w => 0 < w) (map (fun w => k * w) weights) <-> Forall (fun w => 0 < w) weights).
  { rewrite Forall_map. split; apply Forall_impl; intros w h; [|apply Rmult_lt_0_compat; lra].
    apply Rmult_lt_reg_l with k; lra. }
  destruct (C29_mean_exact_proof angles (map (fun w => k * w) weights)) as [A B]. cbv zeta in A, B.
  rewrite map_length, F, RS in A, B. fold ok in A, B. fold r in A, B. split; [|exact B].
  intro h. destruct (A h) as (m&e&(m1&m2&m3&m4)&_). exists m. split; [exact e|].
  rewrite RS in m2, m3, m4. rewrite EC in m3. rewrite ES in m4.
  split; [exact m1|]. split; [apply Rmult_lt_reg_l with k; lra|].
  split; apply Rmult_eq_reg_l with k; lra.
Qed.


Lemma C29_mean_scaling_refuted_proof : exists (k : R) (angles weights : list R) (m : R), 0 < k /\
  weightedMeanAngle angles weights = Ok m /\
  weightedMeanAngle angles (map (fun w => k * w) weights) = Throw.
Proof.
  exists (/ 2000), [0], [1], 0. split; [lra|].
  assert (R1 : resultant (combine [0] [1]) = 1).
  { unfold resultant. cbn. rewrite cos_0, sin_0. apply sqrt_unique'; lra. }
  assert (R2 : resultant (combine [0] (map (fun w => / 2000 * w) [1])) = / 2000).
  { unfold resultant. cbn. rewrite cos_0, sin_0. apply sqrt_unique'; lra. }
  rewrite !mean_unfold. rewrite R1, R2. cbn [length map Nat.eqb combine forallb snd].
  rewrite !(Rltb_true 0) by lra. cbn [andb].
  rewrite (Rltb_false 1), (Rltb_true (/2000)) by lra. split; [|reflexivity].
  cbn [sum_cos sum_sin]. rewrite cos_0, sin_0. f_equal.
  replace (1 * 0 + 0) with (1 * sin 0) by (rewrite sin_0; ring).
  replace (1 * 1 + 0) with (1 * cos 0) by (rewrite cos_0; ring).
  assert (P := PI_RGT_0). rewrite Ratan2_polar by lra.
  apply C28_modulo2PI_proof. lra.
Qed.




Lemma C30_clip_proof : forall lo hi x : R, lo <= hi ->
  let '(changed, x') := clipData lo hi x in
  lo <= x' <= hi /\ (changed = true <-> x' <> x) /\ (changed = false <-> lo <= x <= hi) /\
  (x < lo -> x' = lo) /\ (hi < x -> x' = hi) /\ clipData lo hi x' = (false, x').
Proof.
  intros lo hi x h. unfold clipData, clamp. rsimp.
  assert (T : true = false <-> False) by (split; [discriminate|tauto]).
  assert (F : false = true <-> False) by (split; [discriminate|tauto]).
  destruct (Rltb_spec x lo) as [a|a]; [|destruct (Rltb_spec hi x) as [b|b]].
  - rewrite (Rltb_false lo lo), (Rltb_false hi lo), (Reqb_true lo lo), (Reqb_false x lo) by lra. cbn [negb].
    repeat split; try lra; try congruence; intros; lra.
  - rewrite (Rltb_false hi lo), (Rltb_false hi hi), (Reqb_true hi hi), (Reqb_false x hi) by lra. cbn [negb].
    repeat split; try lra; try congruence; intros; lra.
  - rewrite (Rltb_false x lo), (Rltb_false hi x), (Reqb_true x x) by lra. cbn [negb].
    repeat split; try lra; try congruence; intros; lra.
Qed.


Lemma C30_clip_binary32_proof : forall (L : libm32) (lo hi x : f32),
  is_nan lo = false -> is_nan hi = false -> is_nan x = false -> Bleb lo hi = true ->
  let '(changed, x') := @clipData f32 (F32Scalar L) lo hi x in
  Bleb lo x' = true /\ Bleb x' hi = true /\
  (changed = false <-> Bleb lo x = true /\ Bleb x hi = true) /\ (changed = false -> x' = x) /\
  (changed = true <-> Beqb x x' = false) /\
  (Bltb x lo = true -> x' = lo) /\ (Bltb hi x = true -> x' = hi) /\
  @clipData f32 (F32Scalar L) lo hi x' = (false, x').
Proof.
  intros L lo hi x nl nh nx h. unfold clipData, clamp. cbn [s_ltb s_eqb F32Scalar].
  apply (Bleb_xr lo hi nl nh) in h.
  assert (E : forall u, is_nan u = false -> Beqb u u = true) by (intros u hu; apply Beqb_xr; auto).
  assert (LE : forall u v, is_nan u = false -> is_nan v = false -> xr v <= xr u -> Bltb u v = false)
    by (intros u v hu hv; apply Bltb_false_xr; auto).
  assert (NE : forall u v, is_nan u = false -> is_nan v = false -> xr u <> xr v -> Beqb u v = false).
  { intros u v hu hv n. destruct (Beqb u v) eqn:e; [|reflexivity]. apply Beqb_xr in e; auto. contradiction. }
  assert (BL : forall u v, is_nan u = false -> is_nan v = false -> (Bleb u v = true <-> xr u <= xr v)) by exact Bleb_xr.
  destruct (Bltb x lo) eqn:a; [|destruct (Bltb hi x) eqn:b].
  - apply (Bltb_xr x lo nx nl) in a. rewrite (LE lo lo), (LE hi lo), (E lo), (NE x lo) by (auto; lra).
    rewrite !BL by assumption. cbn [negb].
    repeat split; try lra; try congruence; try (intros [? ?]; lra).
    intro k. apply (Bltb_xr hi x nh nx) in k. exfalso; lra.
  - apply (Bltb_xr hi x nh nx) in b. apply (Bltb_false_xr x lo nx nl) in a.
    rewrite (LE hi lo), (LE hi hi), (E hi), (NE x hi) by (auto; lra).
    rewrite !BL by assumption. cbn [negb].
    repeat split; try lra; try congruence; try (intros [? ?]; lra).
  - rewrite a, b. apply (Bltb_false_xr hi x nh nx) in b. apply (Bltb_false_xr x lo nx nl) in a.
    rewrite (E x) by auto. rewrite !BL by assumption. cbn [negb].
    repeat split; try lra; try congruence; try (intros [? ?]; lra).
Qed.


Lemma C30_clip_nan_refuted_proof : forall (L : libm32) (lo hi : f32),
  @clipData f32 (F32Scalar L) lo hi B754_nan = (true, B754_nan).
Proof. intros L [|[|]| |[|]] [|[|]| |[|]]; reflexivity. Qed.


Lemma C30_clip_vector_proof : forall {T} {S : Scalar T} (lo hi : T) (l : list T),
  snd (clipDataV lo hi l) = map (fun x => snd (clipData lo hi x)) l /\
  (fst (clipDataV lo hi l) = true <-> exists x, In x l /\ fst (clipData lo hi x) = true).
Proof.
  intros T S lo hi. induction l as [|x l [I1 I2]].
  - split; [reflexivity|]. split; [discriminate|]. intros (x&[]&_).
  - cbn [clipDataV]. destruct (clipData lo hi x) as [c x'] eqn:E1. destruct (clipDataV lo hi l) as [cs l''].
    cbn [fst snd] in *. split.
    + cbn [map]. rewrite E1, I1. reflexivity.
    + rewrite orb_true_iff, I2. split.
      * intros [h|(y&h1&h2)]; [exists x; rewrite E1; split; [left; reflexivity|exact h]|exists y; split; [right; exact h1|exact h2]].
      * intros (y&[<-|h1]&h2); [left; rewrite E1 in h2; exact h2|right; exists y; auto].
Qed.


Lemma C30_clip_matrix_proof : forall {T} {S : Scalar T} (lo hi : T) (l : list (list T)),
  snd (clipDataVV lo hi l) = map (map (fun x => snd (clipData lo hi x))) l /\
  (fst (clipDataVV lo hi l) = true <-> exists r x, In r l /\ In x r /\ fst (clipData lo hi x) = true).
Proof.
  intros T S lo hi. induction l as [|r l [I1 I2]].
  - split; [reflexivity|]. split; [discriminate|]. intros (x&y&[]&_).
  - cbn [clipDataVV]. destruct (C30_clip_vector_proof lo hi r) as [V1 V2].
    destruct (clipDataV lo hi r) as [c r'] eqn:E1. destruct (clipDataVV lo hi l) as [cs l''].
    cbn [fst snd] in *. split.
    + cbn [map]. rewrite V1, I1. reflexivity.
    + rewrite orb_true_iff, I2, V2. split.
      * intros [(x&h1&h2)|(y&x&h1&h2&h3)]; [exists r, x|exists y, x]; repeat split; auto; [left|right]; auto.
      * intros (y&x&[<-|h1]&h2&h3); [left; exists x; auto|right; exists y, x; auto].
Qed.
