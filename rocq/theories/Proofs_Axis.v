(** * Lemmas for Props_Axis *)


From Coq Require Import Reals ZArith List Bool Lra Lia Psatz.
Import ListNotations.
From Flocq Require Import Core.Core IEEE754.BinarySingleNaN.
From Verif Require Import Scalar RInst RLemmas Model_Base Model_Vec Model_Rigid F32 Spec_Geom Spec_Round Spec_Axis.
From Verif Require Import F32Err NormLemmas.
From Verif Require Proofs_Round Proofs_Float.
Local Open Scope R_scope.
Import Proofs_Round Proofs_Float.

Lemma mulb : forall x y r s e f, apx x r e -> apx y s f -> Rabs r <= 2 -> Rabs s <= 1 -> 0 <= e <= / 20 -> 0 <= f <= / 100000 ->
  apx (Bmult mode_NE x y) (r * s) (21 / 10 * f + e + 22 / 10 * ulp1).
Proof.
  intros x y r s e f hx hy hr hs he hf. pose proof tiny_pos as tp. pose proof tiny_small as ts. pose proof huge_big as hb.
  assert (ef : 0 <= e * f <= / 20 * f) by (split; [apply Rmult_le_pos|apply Rmult_le_compat_r]; lra).
  assert (g : (2 + e) * (1 + f) <= 206 / 100) by lra.
  assert (g0 : 0 <= (2 + e) * (1 + f)) by (apply Rmult_le_pos; lra).
  apply apx_le with (1 := apx_mul x y r s 2 1 e f hx hy hr hs ltac:(lra)).
  assert (ulp1 * ((2 + e) * (1 + f)) <= ulp1 * (206 / 100)) by (apply Rmult_le_compat_l; [unfold ulp1; lra|exact g]).
  assert (tiny <= / 1000 * ulp1) by (unfold ulp1; lra). lra.
Qed.

Lemma one_apx : apx (f32_ofZ 1) 1 0.
Proof. split; [apply one_rd|]. rewrite (proj2 one_rd), Rminus_diag_eq by reflexivity. rewrite Rabs_R0. lra. Qed.

Lemma sum_le : forall op x y r s e f, apx x r e -> apx y s f -> Rabs r <= 2 -> Rabs s <= 1 -> 0 <= e <= / 20 -> 0 <= f <= / 20 ->
  apx (if (op : bool) then Bplus mode_NE x y else Bminus mode_NE x y) (if op then r + s else r - s) (e + f + 32 / 10 * ulp1).
Proof.
  intros op x y r s e f hx hy hr hs he hf. pose proof tiny_pos as tp. pose proof tiny_small as ts. pose proof huge_big as hb.
  assert (h : ulp1 * (2 + 1 + e + f) <= ulp1 * (31 / 10)) by (apply Rmult_le_compat_l; [unfold ulp1; lra|lra]).
  assert (tiny <= / 1000 * ulp1) by (unfold ulp1; lra).
  destruct op; [apply apx_le with (1 := apx_add x y r s 2 1 e f hx hy hr hs ltac:(lra)); lra
               |apply apx_le with (1 := apx_sub x y r s 2 1 e f hx hy hr hs ltac:(lra)); lra].
Qed.

Section Entries.
Variables (c s : f32) (C Sn e d : R).
Hypothesis (hc : apx c C e) (hs : apx s Sn e) (bC : Rabs C <= 1) (bS : Rabs Sn <= 1) (he : 0 <= e <= / 100) (hd : 0 <= d <= / 1000000).
Let t2 := Bminus mode_NE (f32_ofZ 1) c.

Lemma t2_apx : apx t2 (1 - C) (e + 32 / 10 * ulp1) /\ Rabs (1 - C) <= 2.
Proof.
  split; [|abs2; apply Rabs_le; lra].
  pose proof (sum_le false _ _ _ _ _ _ one_apx hc ltac:(rewrite Rabs_R1; lra) bC ltac:(lra) ltac:(lra)) as h. apply apx_le with (1 := h). lra.
Qed.

Lemma mul_le2 : forall r s : R, Rabs r <= 2 -> Rabs s <= 1 -> Rabs (r * s) <= 2.
Proof. intros r t h1 h2. rewrite Rabs_mult. replace 2 with (2 * 1) by ring. apply Rmult_le_compat; try apply Rabs_pos; assumption. Qed.
Lemma mul_le1 : forall r s : R, Rabs r <= 1 -> Rabs s <= 1 -> Rabs (r * s) <= 1.
Proof. intros r t h1 h2. rewrite Rabs_mult. replace 1 with (1 * 1) by ring. apply Rmult_le_compat; try apply Rabs_pos; assumption. Qed.

Definition bnd : R := 7 * d + 3 * e + 16 * ulp1.

Lemma diag_apx : forall x X, apx x X d -> Rabs X <= 1 -> apx (Bplus mode_NE c (Bmult mode_NE t2 (Bmult mode_NE x x))) (C + (1 - C) * (X * X)) bnd.
Proof.
  intros x X hx bX. destruct t2_apx as [h2 b2]. assert (u0 : 0 < ulp1 <= / 10000000) by (unfold ulp1; lra).
  assert (h3 := mulb x x X X d d hx hx ltac:(lra) bX ltac:(lra) ltac:(lra)).
  assert (h4 := mulb _ _ _ _ _ _ h2 h3 b2 (mul_le1 _ _ bX bX) ltac:(lra) ltac:(lra)).
  pose proof huge_big as hb. pose proof tiny_small as ts. assert (tiny <= / 1000 * ulp1) by (unfold ulp1; lra).
  apply apx_le with (1 := apx_add _ _ _ _ 1 2 _ _ hc h4 bC (mul_le2 _ _ b2 (mul_le1 _ _ bX bX)) ltac:(lra)). unfold bnd.
  match goal with |- _ + ulp1 * ?k + tiny <= _ => assert (k <= 32 / 10) by lra; assert (ulp1 * k <= ulp1 * (32 / 10)) by (apply Rmult_le_compat_l; lra) end. lra.
Qed.

Lemma off_apx : forall op x y z X Y Z, apx x X d -> apx y Y d -> apx z Z d -> Rabs X <= 1 -> Rabs Y <= 1 -> Rabs Z <= 1 ->
  apx (if (op : bool) then Bplus mode_NE (Bmult mode_NE (Bmult mode_NE t2 x) y) (Bmult mode_NE s z) else Bminus mode_NE (Bmult mode_NE (Bmult mode_NE t2 x) y) (Bmult mode_NE s z))
      (if op then (1 - C) * X * Y + Sn * Z else (1 - C) * X * Y - Sn * Z) bnd.
Proof.
  intros op x y z X Y Z hx hy hz bX bY bZ. destruct t2_apx as [h2 b2]. assert (u0 : 0 < ulp1 <= / 10000000) by (unfold ulp1; lra).
  assert (h6 := mulb _ _ _ _ _ _ h2 hx b2 bX ltac:(lra) ltac:(lra)).
  assert (h7 := mulb _ _ _ _ _ _ h6 hy (mul_le2 _ _ b2 bX) bY ltac:(lra) ltac:(lra)).
  assert (h9 := mulb _ _ _ _ _ _ hs hz ltac:(lra) bZ ltac:(lra) ltac:(lra)).
  apply apx_le with (1 := sum_le op _ _ _ _ _ _ h7 h9 (mul_le2 _ _ (mul_le2 _ _ b2 bX) bY) (mul_le1 _ _ bS bZ) ltac:(lra) ltac:(lra)). unfold bnd. lra.
Qed.
End Entries.

Definition rodrigues_rows (a : R) (u : vec3) : mat3 :=
  let C := cos a in let Sn := sin a in let x := vx u in let y := vy u in let z := vz u in
  of_rows (C + (1 - C) * (x * x)) ((1 - C) * x * y - Sn * z) ((1 - C) * x * z + Sn * y)
          ((1 - C) * x * y + Sn * z) (C + (1 - C) * (y * y)) ((1 - C) * y * z - Sn * x)
          ((1 - C) * x * z - Sn * y) ((1 - C) * y * z + Sn * x) (C + (1 - C) * (z * z)).

Lemma rodrigues_ok : forall a u, vdot u u = 1 -> turns_about (rodrigues_rows a u) a u.
Proof.
  intros a [[x y] z] h. split; [exact h|]. intros [[p q] r].
  unfold rodrigues, rodrigues_rows, mapply, sum3, of_rows, vadd, vscale, vcross, vdot, vx, vy, vz. cbn [fst snd]. apply f_equal2; [apply f_equal2|]; ring.
Qed.

Lemma limits : fin (f32_frac 100001 100000) /\ fin (f32_frac 99999 100000) /\
  1 + 9 / 1000000 <= v32 (f32_frac 100001 100000) /\ v32 (f32_frac 99999 100000) <= 1 - 9 / 1000000.
Proof.
  split; [reflexivity|]. split; [reflexivity|]. rewrite <- !SF2R_B2SF.
  replace (B2SF (f32_frac 100001 100000)) with (SpecFloat.S754_finite false 8388692 (-23)) by (vm_compute; reflexivity).
  replace (B2SF (f32_frac 99999 100000)) with (SpecFloat.S754_finite false 16777048 (-24)) by (vm_compute; reflexivity).
  cbn [SF2R]. unfold F2R. cbn [Fnum Fexp cond_Zopp bpow]. change (Z.pow_pos radix2 23) with 8388608%Z. change (Z.pow_pos radix2 24) with 16777216%Z. lra.
Qed.

Lemma limits2 : v32 (f32_frac 100001 100000) <= 1 + 11 / 1000000 /\ 1 - 11 / 1000000 <= v32 (f32_frac 99999 100000).
Proof.
  rewrite <- !SF2R_B2SF.
  replace (B2SF (f32_frac 100001 100000)) with (SpecFloat.S754_finite false 8388692 (-23)) by (vm_compute; reflexivity).
  replace (B2SF (f32_frac 99999 100000)) with (SpecFloat.S754_finite false 16777048 (-24)) by (vm_compute; reflexivity).
  cbn [SF2R]. unfold F2R. cbn [Fnum Fexp cond_Zopp bpow]. change (Z.pow_pos radix2 23) with 8388608%Z. change (Z.pow_pos radix2 24) with 16777216%Z. lra.
Qed.

Lemma some_libm : exists L e, accurate L e /\ e <= / 100.
Proof. destruct C68_accurate_proof as [L hL]. exists L, (bpow radix2 (-23)). split; [exact hL|cbn; lra]. Qed.

Lemma C85_axis_proof : forall (L : libm32) (e d : R) (angle ax ay az : f32) (u : vec3), accurate L e -> e <= / 100 ->
  is_finite angle = true -> is_finite ax = true -> is_finite ay = true -> is_finite az = true ->
  vnorm u = 1 -> vnorm (vsub (val ax, val ay, val az) u) <= d -> d <= bpow radix2 (-20) ->
  exists r M, @m_fromAngleDirection f32 (F32Scalar L) angle ax ay az = Ok r /\ turns_about M (val angle) u /\
    finite_r r /\ fro (mdiff (rval r) M) <= 21 * d + 9 * e + bpow radix2 (-18).
Proof.
  intros L e d angle ax ay az u hL he fa fx fy fz nu hu hd20.
  assert (d0 : 0 <= d) by (apply Rle_trans with (2 := hu); apply vnorm_pos). assert (hd : 0 <= d <= / 1000000) by (cbn in hd20; lra).
  destruct (hL angle fa) as [c1 [c2 [s1 s2]]]. assert (e0 : 0 <= e <= / 100) by (split; [apply Rle_trans with (2 := c2); apply Rabs_pos|exact he]).
  unfold val in *. pose proof (vnorm_coord (vsub (v32 ax, v32 ay, v32 az) u)) as [k1 [k2 k3]]. pose proof (vnorm_coord u) as [b1 [b2 b3]]. rewrite nu in b1, b2, b3.
  assert (hx : apx ax (vx u) d) by (split; [exact fx|]; exact (Rle_trans _ _ _ k1 hu)).
  assert (hy : apx ay (vy u) d) by (split; [exact fy|]; exact (Rle_trans _ _ _ k2 hu)).
  assert (hz : apx az (vz u) d) by (split; [exact fz|]; exact (Rle_trans _ _ _ k3 hu)).
  assert (uu : vdot u u = 1) by (rewrite <- vnorm_sq, nu; ring).
  assert (hc : apx (l_cos L angle) (cos (v32 angle)) e) by (split; assumption). assert (hs : apx (l_sin L angle) (sin (v32 angle)) e) by (split; assumption).
  assert (bC : Rabs (cos (v32 angle)) <= 1) by (apply Rabs_le, COS_bound). assert (bS : Rabs (sin (v32 angle)) <= 1) by (apply Rabs_le, SIN_bound).
  unfold m_fromAngleDirection. cbn [s_add s_mul s_sub s_ltb s_frac s_ofZ s_cos s_sin F32Scalar].
  destruct limits as [l1 [l2 [l3 l4]]].
  assert (bx : Rabs (v32 ax) <= 2) by (destruct hx as [_ hx]; abs2; apply Rabs_le; lra). assert (by_ : Rabs (v32 ay) <= 2) by (destruct hy as [_ hy]; abs2; apply Rabs_le; lra).
  assert (bz : Rabs (v32 az) <= 2) by (destruct hz as [_ hz]; abs2; apply Rabs_le; lra).
  pose proof huge_big as hb. pose proof tiny_small as ts. assert (u0 : 0 < ulp1 <= / 10000000) by (unfold ulp1; lra).
  set (N := vdot (v32 ax, v32 ay, v32 az) (v32 ax, v32 ay, v32 az)).
  assert (hN : Rabs (N - 1) <= 21 / 10 * d).
  { unfold N. rewrite <- vnorm_sq. set (n := vnorm (v32 ax, v32 ay, v32 az)).
    pose proof (vnorm_near (v32 ax, v32 ay, v32 az) u) as n1. pose proof (vnorm_near u (v32 ax, v32 ay, v32 az)) as n2. rewrite vnorm_vsub_sym in n2. rewrite nu in n1, n2. fold n in n1, n2.
    replace (n * n - 1) with ((n - 1) * (n + 1)) by ring. rewrite Rabs_mult, (Rmult_comm (21 / 10)). apply Rmult_le_compat; try apply Rabs_pos; apply Rabs_le; lra. }
  assert (sq : Rabs (v32 ax * v32 ax) + Rabs (v32 ay * v32 ay) + Rabs (v32 az * v32 az) = N).
  { rewrite !Rabs_pos_eq by apply Rle_0_sqr. unfold N, vdot, vx, vy, vz. cbn [fst snd]. reflexivity. }
  destruct (dot3_err ax ax ay ay az az) as [fn en]; try assumption; [rewrite sq; abs2; lra|]. rewrite sq in en.
  set (n := Bplus mode_NE _ _) in *. replace (v32 ax * v32 ax + v32 ay * v32 ay + v32 az * v32 az) with N in en by (unfold N, vdot, vx, vy, vz; cbn [fst snd]; reflexivity).
  assert (uN : ulp1 * N <= ulp1 * 2) by (apply Rmult_le_compat_l; [lra|abs2; lra]).
  assert (bn : Rabs (v32 n - 1) <= 4 / 1000000) by (abs2; apply Rabs_le; lra).
  assert (g1 : Bltb (f32_frac 100001 100000) n = false) by (rewrite Bltb_correct by assumption; apply Rlt_bool_false; abs2; lra).
  assert (g2 : Bltb n (f32_frac 99999 100000) = false) by (rewrite Bltb_correct by assumption; apply Rlt_bool_false; abs2; lra).
  rewrite g1, g2. cbn [orb]. eexists. exists (rodrigues_rows (v32 angle) u). split; [reflexivity|]. split; [now apply rodrigues_ok|].
  pose proof (diag_apx _ _ _ e d hc bC bS e0 hd) as D. pose proof (off_apx _ _ _ _ e d hc hs bC bS e0 hd) as O.
  pose proof (D _ _ hx b1) as x11. pose proof (D _ _ hy b2) as x22. pose proof (D _ _ hz b3) as x33.
  pose proof (O false _ _ _ _ _ _ hx hy hz b1 b2 b3) as x12. pose proof (O true _ _ _ _ _ _ hx hz hy b1 b3 b2) as x13.
  pose proof (O true _ _ _ _ _ _ hx hy hz b1 b2 b3) as x21. pose proof (O false _ _ _ _ _ _ hy hz hx b2 b3 b1) as x23.
  pose proof (O false _ _ _ _ _ _ hx hz hy b1 b3 b2) as x31. pose proof (O true _ _ _ _ _ _ hy hz hx b2 b3 b1) as x32. cbv iota in *.
  split; [unfold finite_r; cbn [m_r1c1 m_r1c2 m_r1c3 m_r2c1 m_r2c2 m_r2c3 m_r3c1 m_r3c2 m_r3c3]; repeat split;
    first [apply x11|apply x12|apply x13|apply x21|apply x22|apply x23|apply x31|apply x32|apply x33]|].
  assert (B0 : 0 <= bnd e d) by (unfold bnd; lra).
  apply Rle_trans with (3 * bnd e d).
  - apply Rle_trans with (fro (fun _ _ => bnd e d)).
    + apply fro_mono. intros i j hi hj. unfold mdiff, rval, rodrigues_rows, of_rows, val. cbn [m_r1c1 m_r1c2 m_r1c3 m_r2c1 m_r2c2 m_r2c3 m_r3c1 m_r3c2 m_r3c3].
      destruct i as [|[|[|i]]]; [| | |lia]; (destruct j as [|[|[|j]]]; [| | |lia]);
        [apply x11|apply x12|apply x13|apply x21|apply x22|apply x23|apply x31|apply x32|apply x33].
    + apply fro_le; [lra|]. unfold sum3. lra.
  - unfold bnd. assert (b18 : 64 * ulp1 = bpow radix2 (-18)) by (unfold ulp1; cbn; lra). rewrite <- b18. lra.
Qed.



Lemma C85_refused_proof : forall (L : libm32) (angle ax ay az : f32),
  is_finite ax = true -> is_finite ay = true -> is_finite az = true ->
  let q := val ax * val ax + val ay * val ay + val az * val az in
  q <= 1 - 2 / 100000 \/ 1 + 2 / 100000 <= q <= bpow radix2 100 ->
  @m_fromAngleDirection f32 (F32Scalar L) angle ax ay az = Throw.
Proof.
  intros L angle ax ay az fx fy fz q hq. unfold val in *.
  unfold m_fromAngleDirection. cbn [s_add s_mul s_sub s_ltb s_frac s_ofZ s_cos s_sin F32Scalar].
  destruct limits as [l1 [l2 _]]. destruct limits2 as [l3 l4].
  assert (sq : Rabs (v32 ax * v32 ax) + Rabs (v32 ay * v32 ay) + Rabs (v32 az * v32 az) = q) by (rewrite !Rabs_pos_eq by apply Rle_0_sqr; reflexivity).
  assert (q0 : 0 <= q) by (unfold q; pose proof (Rle_0_sqr (v32 ax)); pose proof (Rle_0_sqr (v32 ay)); pose proof (Rle_0_sqr (v32 az)); unfold Rsqr in *; lra).
  assert (qh : q <= / 100 * huge).
  { assert (h : 100 * bpow radix2 100 <= huge) by (unfold huge; cbn; lra). pose proof (bpow_gt_0 radix2 100). pose proof (bpow_ge_0 radix2 100).
    assert (1 <= bpow radix2 100) by (change 1 with (bpow radix2 0); apply bpow_le; lia). lra. }
  destruct (dot3_err ax ax ay ay az az) as [fn en]; try assumption; [rewrite sq; exact qh|]. rewrite sq in en. fold q in en.
  set (n := Bplus mode_NE _ _) in *. assert (ts : tiny <= / 1000000000) by (unfold tiny; cbn; lra).
  assert (u0 : 0 < ulp1 <= / 10000000) by (unfold ulp1; lra).
  assert (uq : ulp1 * q <= / 10000000 * q) by (apply Rmult_le_compat_r; lra).
  destruct hq as [hq|[hq _]].
  - assert (g : Bltb n (f32_frac 99999 100000) = true) by (rewrite Bltb_correct by assumption; apply Rlt_bool_true; abs2; lra).
    rewrite g, orb_true_r. reflexivity.
  - assert (g : Bltb (f32_frac 100001 100000) n = true) by (rewrite Bltb_correct by assumption; apply Rlt_bool_true; abs2; lra).
    rewrite g. reflexivity.
Qed.
