(** * Lemmas for Props_Segment *)


From Coq Require Import Reals ZArith List Bool Lra Lia Psatz.
Import ListNotations.
From Flocq Require Import Core.Core IEEE754.BinarySingleNaN.
From Verif Require Import Scalar RInst RLemmas Model_Base Model_Vec Model_Tools F32 Spec_Geom Spec_Round Spec_Segment.
From Verif Require Import F32Err Proofs_Float Proofs_Clip.
Local Open Scope R_scope.

(** ** Cross products *)

Lemma diff_apx : forall M x y, fin x -> fin y -> Rabs (v32 x) <= M -> Rabs (v32 y) <= M -> M <= bpow radix2 40 ->
  apx (Bminus mode_NE x y) (v32 x - v32 y) (2 * ulp1 * M + tiny) /\ Rabs (v32 x - v32 y) <= 2 * M.
Proof.
  intros M x y fx fy hx hy hM. assert (h : Rabs (v32 x - v32 y) <= 2 * M) by (abs2; apply Rabs_le; lra). split; [|exact h].
  assert (H : 2 * bpow radix2 40 <= huge) by (apply Rle_trans with (bpow radix2 1 * bpow radix2 40); [change (bpow radix2 1) with 2; lra|rewrite <- bpow_plus; apply bpow_le; lia]).
  destruct (sub_rd x y fx fy) as [f e]; [lra|]. split; [exact f|]. rewrite e. pose proof (rd_err (v32 x - v32 y)) as E.
  assert (ulp1 * Rabs (v32 x - v32 y) <= ulp1 * (2 * M)) by (apply Rmult_le_compat_l; [unfold ulp1; lra|exact h]). lra.
Qed.

Lemma cross_apx : forall op M x1 y1 x2 y2 r1 s1 r2 s2, 0 <= M <= bpow radix2 40 ->
  let e := 2 * ulp1 * M + tiny in
  apx x1 r1 e -> apx y1 s1 e -> apx x2 r2 e -> apx y2 s2 e ->
  Rabs r1 <= 2 * M -> Rabs s1 <= 2 * M -> Rabs r2 <= 2 * M -> Rabs s2 <= 2 * M ->
  apx ((if op : bool then Bplus mode_NE else Bminus mode_NE) (Bmult mode_NE x1 y1) (Bmult mode_NE x2 y2))
      (if op then r1 * s1 + r2 * s2 else r1 * s1 - r2 * s2) (33 * ulp1 * (M * M) + 100 * tiny * (M + 1)).
Proof.
  intros op M x1 y1 x2 y2 r1 s1 r2 s2 [M0 M1] e h1 h2 h3 h4 b1 b2 b3 b4.
  assert (MM : 0 <= M * M <= bpow radix2 80) by (split; [apply Rle_0_sqr|]; change 80%Z with (40 + 40)%Z; rewrite bpow_plus; apply Rmult_le_compat; lra).
  assert (H : 64 * bpow radix2 80 <= huge) by (apply Rle_trans with (bpow radix2 6 * bpow radix2 80); [change (bpow radix2 6) with 64; lra|rewrite <- bpow_plus; apply bpow_le; lia]).
  assert (H4 : bpow radix2 40 <= bpow radix2 80) by (apply bpow_le; lia). assert (H1 : 1 <= bpow radix2 40) by (change 1 with (bpow radix2 0); apply bpow_le; lia).
  pose proof tiny_pos as tp. pose proof tiny_small as ts. assert (tM : 0 <= tiny * M) by (apply Rmult_le_pos; lra).
  assert (tM2 : tiny * M <= / 1000 * M) by (apply Rmult_le_compat_r; lra).
  assert (tt : 0 <= tiny * tiny <= / 1000 * tiny) by (split; [apply Rmult_le_pos|apply Rmult_le_compat_r]; lra).
  assert (ee : (2 * M + e) * (2 * M + e) <= 401 / 100 * (M * M) + 5 * (tiny * M) + tiny) by (unfold e, ulp1; lra).
  assert (P : forall x y r s, apx x r e -> apx y s e -> Rabs r <= 2 * M -> Rabs s <= 2 * M -> apx (Bmult mode_NE x y) (r * s) (1202 / 100 * ulp1 * (M * M) + 5 * (tiny * M) + 2 * tiny) /\ Rabs (r * s) <= 4 * (M * M)).
  { intros x y r s hx hy br bs. split; [|rewrite Rabs_mult; replace (4 * (M * M)) with (2 * M * (2 * M)) by ring; apply Rmult_le_compat; try apply Rabs_pos; assumption].
    assert (q := apx_mul x y r s _ _ _ _ hx hy br bs ltac:(lra)). apply apx_le with (1 := q).
    assert (u5 : ulp1 * ((2 * M + e) * (2 * M + e)) <= ulp1 * (401 / 100 * (M * M) + 5 * (tiny * M) + tiny)) by (apply Rmult_le_compat_l; [unfold ulp1; lra|exact ee]).
    assert (e2 : 2 * M * e + 2 * M * e + e * e <= 801 / 100 * ulp1 * (M * M) + 45 / 10 * (tiny * M) + / 2 * tiny) by (unfold e, ulp1 in *; lra).
    unfold ulp1 in *. lra. }
  destruct (P _ _ _ _ h1 h2 b1 b2) as [p1 q1]. destruct (P _ _ _ _ h3 h4 b3 b4) as [p2 q2].
  assert (G : 4 * (M * M) + 4 * (M * M) + (1202 / 100 * ulp1 * (M * M) + 5 * (tiny * M) + 2 * tiny) + (1202 / 100 * ulp1 * (M * M) + 5 * (tiny * M) + 2 * tiny) <= huge) by (unfold ulp1; lra).
  destruct op.
  - apply apx_le with (1 := apx_add _ _ _ _ _ _ _ _ p1 p2 q1 q2 G). unfold ulp1. lra.
  - apply apx_le with (1 := apx_sub _ _ _ _ _ _ _ _ p1 p2 q1 q2 G). unfold ulp1. lra.
Qed.

(** ** Points in boxes *)

Lemma sides_in : forall (T : Type) (box : list (Position2D T)) a b, In (a, b) (sides box) -> In a box /\ In b box.
Proof.
  intros T [|p r] a b h; [destruct h|]. unfold sides in h. split; [now apply in_combine_l in h|].
  apply in_combine_r in h. apply in_app_or in h. destruct h as [h|[h|[]]]; [now right|now left].
Qed.

Lemma C82_inside_proof : forall (L : libm32) (M : R) (box : list (Position2D f32)) (p : Position2D f32),
  bpow radix2 (-60) <= M <= bpow radix2 40 -> Forall (point_in M) box -> point_in M p ->
  let inside := @pointInsideBox f32 (F32Scalar L) box p in
  let margin := bpow radix2 (-18) * (M * M) in
  ((forall a b, In (a, b) (sides box) -> cross a b a p < - margin) -> inside = true) /\
  ((exists a b, In (a, b) (sides box) /\ margin < cross a b a p) -> inside = false).
Proof.
  intros L M box p [M1 M2] hb hp inside margin. pose proof (bpow_gt_0 radix2 (-60)) as z.
  assert (T : 33 * ulp1 * (M * M) + 100 * tiny * (M + 1) <= margin).
  { unfold margin. assert (b18 : bpow radix2 (-18) = 64 * ulp1) by (rewrite u24; change 64 with (bpow radix2 6); rewrite <- bpow_plus; reflexivity). rewrite b18.
    assert (m2 : bpow radix2 (-120) <= M * M) by (change (-120)%Z with (-60 + -60)%Z; rewrite bpow_plus; apply Rmult_le_compat; lra).
    assert (m1 : bpow radix2 (-60) * M <= M * M) by (apply Rmult_le_compat_r; lra).
    assert (t1 : 100 * tiny <= ulp1 * bpow radix2 (-60)).
    { rewrite u24. apply Rle_trans with (bpow radix2 7 * tiny); [change (bpow radix2 7) with 128; pose proof tiny_pos; lra|unfold tiny; rewrite <- !bpow_plus; apply bpow_le; lia]. }
    assert (t2 : 100 * tiny <= 20 * ulp1 * bpow radix2 (-120)).
    { rewrite u24. apply Rle_trans with (bpow radix2 7 * tiny); [change (bpow radix2 7) with 128; pose proof tiny_pos; lra|].
      apply Rle_trans with (bpow radix2 1 * bpow radix2 (-24) * bpow radix2 (-120)); [unfold tiny; rewrite <- !bpow_plus; apply bpow_le; lia|].
      apply Rmult_le_compat_r; [apply bpow_ge_0|]. change (bpow radix2 1) with 2. pose proof (bpow_gt_0 radix2 (-24)). lra. }
    assert (t1' : 100 * tiny * M <= ulp1 * bpow radix2 (-60) * M) by (apply Rmult_le_compat_r; lra). pose proof (bpow_gt_0 radix2 (-120)). unfold ulp1 in *. lra. }
  assert (S : forall a b, In (a, b) (sides box) ->
    apx (Bminus mode_NE (Bmult mode_NE (Bminus mode_NE (p2_x b) (p2_x a)) (Bminus mode_NE (p2_y p) (p2_y a)))
                        (Bmult mode_NE (Bminus mode_NE (p2_y b) (p2_y a)) (Bminus mode_NE (p2_x p) (p2_x a)))) (cross a b a p) margin).
  { intros a b h. apply sides_in in h. destruct h as [ia ib]. rewrite Forall_forall in hb.
    destruct (hb a ia) as [a1 [a2 [a3 a4]]]. destruct (hb b ib) as [b1 [b2 [b3 b4]]]. destruct hp as [p1 [p2 [p3 p4]]]. unfold val in *.
    destruct (diff_apx M _ _ b1 a1 b3 a3 M2) as [d1 e1]. destruct (diff_apx M _ _ p2 a2 p4 a4 M2) as [d2 e2].
    destruct (diff_apx M _ _ b2 a2 b4 a4 M2) as [d3 e3]. destruct (diff_apx M _ _ p1 a1 p3 a3 M2) as [d4 e4].
    apply apx_le with (2 := T). exact (cross_apx false M _ _ _ _ _ _ _ _ (conj (Rlt_le _ _ (Rlt_le_trans _ _ _ z M1)) M2) d1 d2 d3 d4 e1 e2 e3 e4). }
  unfold inside, pointInsideBox. split.
  - intro h. apply forallb_forall. intros [a b] i. destruct (S a b i) as [f e]. specialize (h a b i).
    cbn [s_leb F32Scalar s_sub s_mul s_ofZ]. rewrite Bleb_correct; [|reflexivity|exact f]. rewrite (proj2 zero_rd).
    rewrite Rle_bool_false; [reflexivity|]. abs2. lra.
  - intros [a [b [i h]]]. destruct (S a b i) as [f e]. apply not_true_is_false. intro q. rewrite forallb_forall in q. specialize (q (a, b) i).
    cbn [s_leb F32Scalar s_sub s_mul s_ofZ] in q. rewrite Bleb_correct in q; [|reflexivity|exact f]. rewrite (proj2 zero_rd) in q.
    rewrite Rle_bool_true in q; [discriminate|]. abs2. lra.
Qed.


(** ** Segments *)

(** A quotient of two computed numbers. *)
Lemma quotient : forall (n g : f32) r G e, apx n (r * G) e -> apx g G e -> 0 < Rabs G -> 0 < e -> e <= / 100 * Rabs G -> 4 * ulp1 * Rabs G <= e ->
  Rabs (v32 n) <= 100 -> bpow radix2 (-20) <= Rabs G ->
  let d := e / Rabs G in
  fin (Bdiv mode_NE n g) /\ Rabs (v32 (Bdiv mode_NE n g) - r) <= 13 / 10 * d * (1 + Rabs r) + tiny /\ 4 * ulp1 <= d <= / 100.
Proof.
  intros n g r G e [fn en] [fg eg] G0 e0 h1 h2 hn hG d. set (K := Rabs G) in *.
  assert (iK : 0 < / K) by now apply Rinv_0_lt_compat.
  assert (dK : d * K = e) by (unfold d; field; lra).
  assert (d2 : 4 * ulp1 <= d <= / 100) by (split; apply Rmult_le_reg_r with K; lra).
  assert (gK : 99 / 100 * K <= Rabs (v32 g)).
  { pose proof (Rabs_triang (v32 g) (G - v32 g)) as t. replace (v32 g + (G - v32 g)) with G in t by ring. rewrite (Rabs_minus_sym G) in t. fold K in t. lra. }
  assert (g0 : v32 g <> 0) by (intro z; rewrite z, Rabs_R0 in gK; lra).
  assert (ig : / Rabs (v32 g) <= 102 / 100 * / K).
  { apply Rmult_le_reg_r with (Rabs (v32 g)); [lra|]. rewrite Rinv_l by lra. apply Rmult_le_reg_r with K; [exact G0|].
    replace (102 / 100 * / K * Rabs (v32 g) * K) with (102 / 100 * Rabs (v32 g) * (/ K * K)) by ring. rewrite Rinv_l by lra. lra. }
  assert (ig0 : 0 < / Rabs (v32 g)) by (apply Rinv_0_lt_compat; lra).
  assert (q1 : Rabs (v32 n / v32 g - r) <= 102 / 100 * d * (1 + Rabs r)).
  { replace (v32 n / v32 g - r) with (((v32 n - r * G) - r * (v32 g - G)) / v32 g) by (field; exact g0).
    unfold Rdiv. rewrite Rabs_mult, Rabs_inv.
    assert (t : Rabs ((v32 n - r * G) - r * (v32 g - G)) <= e * (1 + Rabs r)).
    { unfold Rminus at 1. apply Rle_trans with (1 := Rabs_triang _ _). rewrite Rabs_Ropp, Rabs_mult.
      assert (Rabs r * Rabs (v32 g - G) <= Rabs r * e) by (apply Rmult_le_compat_l; [apply Rabs_pos|exact eg]). lra. }
    apply Rle_trans with (e * (1 + Rabs r) * (102 / 100 * / K)); [|apply Req_le; unfold d, Rdiv; ring].
    apply Rmult_le_compat; [apply Rabs_pos|lra|exact t|exact ig]. }
  assert (big : Rabs (v32 n / v32 g) <= 200 * bpow radix2 20).
  { unfold Rdiv. rewrite Rabs_mult, Rabs_inv. apply Rle_trans with (100 * (102 / 100 * / K)); [apply Rmult_le_compat; try lra; apply Rabs_pos|].
    assert (/ K <= bpow radix2 20) by (change 20%Z with (- (-20))%Z; rewrite bpow_opp; apply Rinv_le; [apply bpow_gt_0|exact hG]). lra. }
  assert (H : 200 * bpow radix2 20 <= huge) by (apply Rle_trans with (bpow radix2 8 * bpow radix2 20); [change (bpow radix2 8) with 256; pose proof (bpow_gt_0 radix2 20); lra|rewrite <- bpow_plus; apply bpow_le; lia]).
  destruct (div_rd n g fn fg g0) as [f E]; [lra|]. split; [exact f|]. split; [|exact d2]. rewrite E.
  pose proof (rd_err (v32 n / v32 g)) as R1. set (q := v32 n / v32 g) in *.
  assert (q2 : Rabs q <= Rabs r + 102 / 100 * d * (1 + Rabs r)) by (replace q with ((q - r) + r) by ring; apply Rle_trans with (1 := Rabs_triang _ _); lra).
  assert (r0 := Rabs_pos r). assert (dr : 0 <= d * Rabs r <= / 100 * Rabs r) by (split; [apply Rmult_le_pos|apply Rmult_le_compat_r]; unfold ulp1 in *; lra).
  assert (q3 : Rabs q <= 102 / 100 * (1 + Rabs r)) by lra.
  assert (R2 : ulp1 * Rabs q <= d / 4 * (102 / 100 * (1 + Rabs r))) by (apply Rmult_le_compat; [unfold ulp1; lra|apply Rabs_pos|lra|exact q3]).
  replace (rd q - r) with ((rd q - q) + (q - r)) by ring. apply Rle_trans with (1 := Rabs_triang _ _). unfold ulp1 in *. lra.
Qed.

(** Which side of 0 and 1 the quotient is. *)
Lemma quotient_test : forall (q : f32) r d, fin q -> Rabs (v32 q - r) <= 13 / 10 * d * (1 + Rabs r) + tiny -> 4 * ulp1 <= d <= / 100 ->
  let out := (Bltb q (f32_ofZ 0) || Bltb (f32_ofZ 1) q)%bool in
  (r < - (3 * d) \/ 1 + 3 * d < r -> out = true) /\ (3 * d <= r <= 1 - 3 * d -> out = false) /\
  (out = false -> 0 <= v32 q <= 1).
Proof.
  intros q r d f h hd out. pose proof tiny_pos as tp. pose proof tiny_small as ts. unfold ulp1 in *. apply Rabs_le_inv in h.
  assert (B : out = (Rlt_bool (v32 q) 0 || Rlt_bool 1 (v32 q))%bool).
  { unfold out. rewrite !Bltb_correct by (assumption || reflexivity). rewrite (proj2 zero_rd), (proj2 one_rd). reflexivity. }
  rewrite B. split; [|split].
  - intros [k|k]; apply orb_true_iff.
    + left. apply Rlt_bool_true. rewrite (Rabs_left r) in h by lra. assert (0 <= (-r) * d <= (-r) * / 100) by (split; [apply Rmult_le_pos|apply Rmult_le_compat_l]; lra). lra.
    + right. apply Rlt_bool_true. rewrite (Rabs_pos_eq r) in h by lra. assert (0 <= d * (r - 1 - 3 * d) <= / 100 * (r - 1 - 3 * d)) by (split; [apply Rmult_le_pos|apply Rmult_le_compat_r]; lra).
      assert (0 <= d * d <= / 100 * d) by (split; [apply Rmult_le_pos|apply Rmult_le_compat_r]; lra). lra.
  - intros k. apply orb_false_iff. rewrite (Rabs_pos_eq r) in h by lra. assert (0 <= d * r <= / 100 * r) by (split; [apply Rmult_le_pos|apply Rmult_le_compat_r]; lra).
    assert (d * r <= d * 1) by (apply Rmult_le_compat_l; lra). split; apply Rlt_bool_false; lra.
  - intro k. apply orb_false_iff in k. destruct k as [k1 k2].
    destruct (Rlt_bool_spec (v32 q) 0) as [g1|g1]; [discriminate|]. destruct (Rlt_bool_spec 1 (v32 q)) as [g2|g2]; [discriminate|]. lra.
Qed.

Section Meet.
Variables (L : libm32) (a1 a2 b1 b2 : Position2D f32) (s t : R).
Hypothesis (ha1 : point_in 1 a1) (ha2 : point_in 1 a2) (hb1 : point_in 1 b1) (hb2 : point_in 1 b2) (hm : meet a1 a2 b1 b2 s t).
Let gxA := Bminus mode_NE (p2_x a2) (p2_x a1).
Let gyA := Bminus mode_NE (p2_y a2) (p2_y a1).
Let gxB := Bminus mode_NE (p2_x b2) (p2_x b1).
Let gyB := Bminus mode_NE (p2_y b2) (p2_y b1).
Let den := Bminus mode_NE (Bmult mode_NE gxB gyA) (Bmult mode_NE gxA gyB).
Let rB := Bdiv mode_NE (Bplus mode_NE (Bmult mode_NE gyA (Bminus mode_NE (p2_x a1) (p2_x b1))) (Bmult mode_NE gxA (Bminus mode_NE (p2_y b1) (p2_y a1)))) den.
Let D := cross b1 b2 a1 a2.

Lemma one_le : 1 <= bpow radix2 40.
Proof. change 1 with (bpow radix2 0). apply bpow_le. lia. Qed.
Lemma dif : forall p q : Position2D f32, point_in 1 p -> point_in 1 q ->
  apx (Bminus mode_NE (p2_x q) (p2_x p)) (dx p q) (2 * ulp1 + tiny) /\ Rabs (dx p q) <= 2 /\
  apx (Bminus mode_NE (p2_y q) (p2_y p)) (dy p q) (2 * ulp1 + tiny) /\ Rabs (dy p q) <= 2.
Proof.
  intros p q [p1 [p2 [p3 p4]]] [q1 [q2 [q3 q4]]]. unfold val in *. pose proof one_le as o.
  destruct (diff_apx 1 _ _ q1 p1 q3 p3 o) as [h1 h2]. destruct (diff_apx 1 _ _ q2 p2 q4 p4 o) as [h3 h4]. rewrite !Rmult_1_r in *. unfold dx, dy, val. auto.
Qed.
Lemma cross1 : forall op x1 y1 x2 y2 r1 s1 r2 s2,
  apx x1 r1 (2 * ulp1 + tiny) -> apx y1 s1 (2 * ulp1 + tiny) -> apx x2 r2 (2 * ulp1 + tiny) -> apx y2 s2 (2 * ulp1 + tiny) ->
  Rabs r1 <= 2 -> Rabs s1 <= 2 -> Rabs r2 <= 2 -> Rabs s2 <= 2 ->
  apx ((if op : bool then Bplus mode_NE else Bminus mode_NE) (Bmult mode_NE x1 y1) (Bmult mode_NE x2 y2))
      (if op then r1 * s1 + r2 * s2 else r1 * s1 - r2 * s2) (34 * ulp1).
Proof.
  intros op x1 y1 x2 y2 r1 s1 r2 s2 h1 h2 h3 h4 k1 k2 k3 k4. pose proof one_le as o. pose proof tiny_small as ts.
  assert (h := cross_apx op 1 x1 y1 x2 y2 r1 s1 r2 s2). cbv zeta in h. rewrite !Rmult_1_r in h.
  apply apx_le with (1 := h (conj Rle_0_1 o) h1 h2 h3 h4 k1 k2 k3 k4). unfold ulp1. lra.
Qed.

Lemma den_apx : apx den D (34 * ulp1) /\ Rabs D <= 8.
Proof.
  destruct (dif _ _ ha1 ha2) as [x1 [x2 [x3 x4]]]. destruct (dif _ _ hb1 hb2) as [y1 [y2 [y3 y4]]]. split.
  - unfold D, cross. rewrite (Rmult_comm (dy b1 b2)). exact (cross1 false _ _ _ _ _ _ _ _ y1 x3 x1 y3 y2 x4 x2 y4).
  - unfold D, cross. assert (Rabs (dx b1 b2 * dy a1 a2) <= 2 * 2) by (rewrite Rabs_mult; apply Rmult_le_compat; try apply Rabs_pos; assumption).
    assert (Rabs (dy b1 b2 * dx a1 a2) <= 2 * 2) by (rewrite Rabs_mult; apply Rmult_le_compat; try apply Rabs_pos; assumption).
    abs2. apply Rabs_le. lra.
Qed.

Hypothesis hD : / 1024 <= Rabs D.
Let dB := 34 * ulp1 / Rabs D.

Lemma rB_apx : fin rB /\ Rabs (v32 rB - t) <= 13 / 10 * dB * (1 + Rabs t) + tiny /\ 4 * ulp1 <= dB <= / 100.
Proof.
  destruct den_apx as [hd D8]. destruct (dif _ _ ha1 ha2) as [x1 [x2 [x3 x4]]]. destruct (dif _ _ hb1 ha1) as [y1 [y2 [y3 y4]]]. destruct (dif _ _ ha1 hb1) as [z1 [z2 [z3 z4]]].
  pose proof (cross1 true _ _ _ _ _ _ _ _ x3 y1 x1 z3 x4 y2 x2 z4) as n. cbv iota in n.
  assert (e : dy a1 a2 * dx b1 a1 + dx a1 a2 * dy a1 b1 = t * D).
  { destruct hm as [m1 m2]. unfold D, cross. replace (dx b1 a1) with (t * dx b1 b2 - s * dx a1 a2) by (unfold dx in *; lra).
    replace (dy a1 b1) with (s * dy a1 a2 - t * dy b1 b2) by (unfold dy in *; lra). ring. }
  rewrite e in n. assert (nb : Rabs (v32 (Bplus mode_NE (Bmult mode_NE gyA (Bminus mode_NE (p2_x a1) (p2_x b1))) (Bmult mode_NE gxA (Bminus mode_NE (p2_y b1) (p2_y a1))))) <= 100).
  { destruct n as [_ n]. assert (k : Rabs (t * D) <= 8).
    { rewrite <- e. apply Rle_trans with (1 := Rabs_triang _ _). rewrite !Rabs_mult.
      assert (Rabs (dy a1 a2) * Rabs (dx b1 a1) <= 2 * 2) by (apply Rmult_le_compat; try apply Rabs_pos; assumption).
      assert (Rabs (dx a1 a2) * Rabs (dy a1 b1) <= 2 * 2) by (apply Rmult_le_compat; try apply Rabs_pos; assumption). lra. }
    unfold gxA, gyA in *. abs2. apply Rabs_le. unfold ulp1 in *. lra. }
  assert (b20 : bpow radix2 (-20) <= / 1024) by (cbn; lra).
  unfold ulp1 in hd, n. exact (quotient _ _ t D (34 * ulp1) n hd ltac:(lra) ltac:(unfold ulp1; lra) ltac:(unfold ulp1; lra) ltac:(unfold ulp1; lra) nb ltac:(lra)).
Qed.

(** The fraction of the segment a1 a2, from one of the coordinates. *)
Lemma rA_apx : forall (p q g : f32) P Q G, apx p P (2 * ulp1 + tiny) -> apx q Q (2 * ulp1 + tiny) -> apx g G (2 * ulp1 + tiny) ->
  Rabs P <= 2 -> Rabs Q <= 2 -> Rabs G <= 2 -> P + t * Q = s * G -> / 512 <= Rabs D * Rabs G -> 0 <= v32 rB <= 1 ->
  let d := 280 * ulp1 / (Rabs D * Rabs G) in
  let r := Bdiv mode_NE (Bplus mode_NE p (Bmult mode_NE rB q)) g in
  - (3 * dB) <= t <= 1 + 3 * dB ->
  fin r /\ Rabs (v32 r - s) <= 13 / 10 * d * (1 + Rabs s) + tiny /\ 4 * ulp1 <= d <= / 100.
Proof.
  intros p q g P Q G hp hq hg bP bQ bG E hDG h01 d r ht. destruct rB_apx as [fB [eB hdB]]. destruct den_apx as [_ D8].
  pose proof tiny_pos as tp. pose proof tiny_small as ts. assert (huge_big' := huge_big). set (K := Rabs D) in *.
  assert (iK : 0 < / K) by (apply Rinv_0_lt_compat; lra). assert (uK : ulp1 * / K * K = ulp1) by (field; lra).
  assert (i8 : / 8 <= / K) by (apply Rinv_le; lra). assert (u0 : 0 < ulp1 <= / 1000000) by (unfold ulp1; lra).
  assert (w : ulp1 <= 8 * (ulp1 * / K)) by (assert (ulp1 * / 8 <= ulp1 * / K) by (apply Rmult_le_compat_l; lra); lra).
  assert (dBe : dB = 34 * (ulp1 * / K)) by (unfold dB, Rdiv; fold K; ring). set (k := ulp1 * / K) in *.
  assert (t1 : Rabs t <= 103 / 100) by (apply Rabs_le; lra).
  assert (eB' : Rabs (v32 rB - t) <= 92 * k).
  { apply Rle_trans with (1 := eB). assert (dB * Rabs t <= dB * (103 / 100)) by (apply Rmult_le_compat_l; lra). rewrite dBe in *. unfold ulp1 in *. lra. }
  assert (rq := apx_mul rB q t Q (103 / 100) 2 (92 * k) (2 * ulp1 + tiny) (conj fB eB') hq t1 bQ).
  assert (k1 : 0 < k <= / 3400) by lra.
  assert (kk : 0 <= k * ulp1 <= k * / 1000000) by (split; [apply Rmult_le_pos|apply Rmult_le_compat_l]; lra).
  assert (kt : 0 <= k * tiny <= / 1000 * tiny) by (split; [apply Rmult_le_pos|apply Rmult_le_compat_r]; lra).
  assert (ut : 0 <= ulp1 * tiny <= / 1000 * tiny) by (split; [apply Rmult_le_pos|apply Rmult_le_compat_r]; lra).
  assert (uu : 0 <= ulp1 * ulp1 <= / 1000000 * ulp1) by (split; [apply Rmult_le_pos|apply Rmult_le_compat_r]; lra).
  assert (t8 : tiny <= / 1000000 * ulp1) by (unfold ulp1; lra).
  specialize (rq ltac:(lra)). apply apx_le with (e' := 220 * k) in rq.
  2:{ assert (kuu : k * ulp1 * ulp1 <= k * ulp1 * 1) by (apply Rmult_le_compat_l; lra). assert (kut : k * tiny * ulp1 <= k * tiny * 1) by (apply Rmult_le_compat_l; lra). lra. }
  assert (bt : Rabs (t * Q) <= 206 / 100) by (rewrite Rabs_mult; replace (206 / 100) with (103 / 100 * 2) by lra; apply Rmult_le_compat; try apply Rabs_pos; assumption).
  assert (sm := apx_add _ _ _ _ _ _ _ _ hp rq bP bt ltac:(lra)). rewrite E in sm.
  apply apx_le with (e' := 280 * k) in sm; [|lra].
  assert (G0 : 0 < Rabs G) by (destruct (Rle_lt_or_eq_dec 0 (Rabs G) (Rabs_pos G)) as [z|z]; [exact z|rewrite <- z in hDG; rewrite Rmult_0_r in hDG; lra]).
  assert (hg' : apx g G (280 * k)) by (apply apx_le with (1 := hg); lra).
  assert (nb : Rabs (v32 (Bplus mode_NE p (Bmult mode_NE rB q))) <= 100).
  { destruct sm as [_ sm]. rewrite <- E in sm. abs2. apply Rabs_le. lra. }
  assert (G1 : / 4096 <= Rabs G) by (assert (K * Rabs G <= 8 * Rabs G) by (apply Rmult_le_compat_r; lra); lra).
  assert (b20 : bpow radix2 (-20) <= / 4096) by (cbn; lra).
  assert (l1 : 280 * k <= / 100 * Rabs G).
  { apply Rmult_le_reg_l with K; [lra|]. replace (K * (280 * k)) with (280 * ulp1) by (unfold k; field; lra). unfold ulp1. lra. }
  assert (l2 : 4 * ulp1 * Rabs G <= 280 * k) by (assert (4 * ulp1 * Rabs G <= 4 * ulp1 * 2) by (apply Rmult_le_compat_l; lra); lra).
  assert (Z := quotient _ _ s G (280 * k) sm hg' G0 ltac:(lra) l1 l2 nb ltac:(lra)). cbv zeta in Z.
  replace (280 * k / Rabs G) with d in Z by (unfold d, k; field; lra). exact Z.
Qed.
End Meet.

Lemma tol_val : fin (f32_frac 1 100000) /\ 9 / 1000000 <= v32 (f32_frac 1 100000) <= 11 / 1000000.
Proof.
  split; [reflexivity|]. rewrite <- SF2R_B2SF. replace (B2SF (f32_frac 1 100000)) with (SpecFloat.S754_finite false 10995116 (-40)) by (vm_compute; reflexivity).
  cbn [SF2R]. unfold F2R. cbn [Fnum Fexp cond_Zopp bpow]. change (Z.pow_pos radix2 40) with 1099511627776%Z. lra.
Qed.
Lemma tol_test : forall x r e, apx x r e -> 11 / 1000000 + e <= Rabs r -> Bltb (Babs x) (f32_frac 1 100000) = false.
Proof.
  intros x r e [f h] k. destruct tol_val as [ft ht]. rewrite Bltb_correct by (rewrite ?is_finite_Babs; assumption). rewrite B2R_Babs. apply Rlt_bool_false.
  pose proof (Rabs_triang (v32 x) (r - v32 x)) as t. replace (v32 x + (r - v32 x)) with r in t by ring. rewrite (Rabs_minus_sym r) in t. lra.
Qed.

Lemma point_apx : forall (p g r : f32) P G s d, fin p -> v32 p = P -> Rabs P <= 1 -> apx g G (2 * ulp1 + tiny) -> Rabs G <= 2 ->
  fin r -> Rabs (v32 r - s) <= 26 / 10 * d + tiny -> 0 <= s <= 1 -> 16 * ulp1 <= d <= / 100 ->
  apx (Bplus mode_NE p (Bmult mode_NE r g)) (P + s * G) (7 * d).
Proof.
  intros p g r P G s d fp vp bP hg bG fr er hs hd. pose proof tiny_pos as tp. pose proof tiny_small as ts. pose proof huge_big as hb.
  assert (u0 : 0 < ulp1 <= / 1000000) by (unfold ulp1; lra). assert (t8 : tiny <= / 1000000 * ulp1) by (unfold ulp1; lra).
  assert (m := apx_mul r g s G 1 2 (26 / 10 * d + tiny) (2 * ulp1 + tiny) (conj fr er) hg ltac:(apply Rabs_le; lra) bG).
  assert (du : 0 <= d * ulp1 <= / 100 * ulp1) by (split; [apply Rmult_le_pos|apply Rmult_le_compat_r]; lra).
  assert (dt : 0 <= d * tiny <= / 100 * tiny) by (split; [apply Rmult_le_pos|apply Rmult_le_compat_r]; lra).
  assert (ut : 0 <= ulp1 * tiny <= / 100 * tiny) by (split; [apply Rmult_le_pos|apply Rmult_le_compat_r]; lra).
  assert (tt : 0 <= tiny * tiny <= / 100 * tiny) by (split; [apply Rmult_le_pos|apply Rmult_le_compat_r]; lra).
  specialize (m ltac:(lra)). apply apx_le with (e' := 53 / 10 * d + 5 * ulp1) in m.
  2:{ assert (ulp1 * ((1 + (26 / 10 * d + tiny)) * (2 + (2 * ulp1 + tiny))) <= ulp1 * (21 / 10)).
      { apply Rmult_le_compat_l; [lra|]. lra. } lra. }
  assert (bs : Rabs (s * G) <= 2) by (rewrite Rabs_mult; replace 2 with (1 * 2) by ring; apply Rmult_le_compat; try apply Rabs_pos; [apply Rabs_le; lra|exact bG]).
  assert (a := apx_add p _ _ _ _ _ 0 _ (apx_self p fp) m ltac:(rewrite vp; exact bP) bs ltac:(lra)). rewrite vp in a. apply apx_le with (1 := a).
  assert (uu : 0 <= ulp1 * ulp1 <= / 100 * ulp1) by (split; [apply Rmult_le_pos|apply Rmult_le_compat_r]; lra). lra.
Qed.

Lemma C82_segments_proof : forall (L : libm32) (a1 a2 b1 b2 c : Position2D f32) (s t g : R),
  point_in 1 a1 -> point_in 1 a2 -> point_in 1 b1 -> point_in 1 b2 -> meet a1 a2 b1 b2 s t ->
  let D := Rabs (cross b1 b2 a1 a2) in
  g = Rabs (dx a1 a2) \/ dx a1 a2 = 0 /\ g = Rabs (dy a1 a2) -> / 512 <= D * g ->
  let e1 := bpow radix2 (-14) / (D * g) in let e2 := bpow radix2 (-17) / D in
  let '(crossing, p) := @intersectionSegment2D f32 (F32Scalar L) a1 a2 b1 b2 c in
  (s < - e1 \/ 1 + e1 < s \/ t < - e2 \/ 1 + e2 < t -> crossing = false) /\
  (e1 <= s <= 1 - e1 -> e2 <= t <= 1 - e2 -> crossing = true /\
     is_finite (p2_x p) = true /\ is_finite (p2_y p) = true /\
     Rabs (val (p2_x p) - (val (p2_x a1) + s * dx a1 a2)) <= 2 * e1 /\
     Rabs (val (p2_y p) - (val (p2_y a1) + s * dy a1 a2)) <= 2 * e1).
Proof.
  intros L a1 a2 b1 b2 c s t g ha1 ha2 hb1 hb2 hm D hg hDg e1 e2.
  destruct (dif _ _ ha1 ha2) as [x1 [x2 [x3 x4]]]. destruct (dif _ _ hb1 hb2) as [y1 [y2 [y3 y4]]]. destruct (dif _ _ ha1 hb1) as [z1 [z2 [z3 z4]]].
  destruct (den_apx a1 a2 b1 b2 ha1 ha2 hb1 hb2) as [hd D8]. fold D in D8.
  assert (g2 : 0 <= g <= 2) by (destruct hg as [->|[_ ->]]; (split; [apply Rabs_pos|assumption])).
  assert (hD : / 1024 <= D) by (assert (D * g <= D * 2) by (apply Rmult_le_compat_l; [apply Rabs_pos|lra]); lra).
  pose proof (rB_apx a1 a2 b1 b2 s t ha1 ha2 hb1 hb2 hm hD) as HB. cbv zeta in HB. fold D in HB.
  pose proof (fun p q g' P Q G i1 i2 i3 i4 i5 i6 i7 => rA_apx a1 a2 b1 b2 s t ha1 ha2 hb1 hb2 hm hD p q g' P Q G i1 i2 i3 i4 i5 i6 i7) as HA. cbv zeta in HA. fold D in HA.
  set (dB := 34 * ulp1 / D) in *. assert (iD : 0 < / D) by (apply Rinv_0_lt_compat; lra).
  assert (Dg0 : 0 < D * g) by lra. assert (iDg : 0 < / (D * g)) by now apply Rinv_0_lt_compat.
  assert (b14 : bpow radix2 (-14) = 1024 * ulp1) by (rewrite u24; change 1024 with (bpow radix2 10); rewrite <- bpow_plus; reflexivity).
  assert (b17 : bpow radix2 (-17) = 128 * ulp1) by (rewrite u24; change 128 with (bpow radix2 7); rewrite <- bpow_plus; reflexivity).
  assert (u0 : 0 < ulp1 <= / 1000000) by (unfold ulp1; lra).
  assert (m2 : 3 * dB <= e2) by (unfold e2, dB, Rdiv; rewrite b17; assert (0 < ulp1 * / D) by (apply Rmult_lt_0_compat; lra); lra).
  set (d := 280 * ulp1 / (D * g)). assert (ud : 0 < ulp1 * / (D * g)) by (apply Rmult_lt_0_compat; lra).
  assert (m1 : 36 / 10 * d <= e1) by (unfold e1, d, Rdiv; rewrite b14; lra).
  assert (g4 : / 4096 <= g) by (assert (D * g <= 8 * g) by (apply Rmult_le_compat_r; lra); lra).
  assert (d16 : 16 * ulp1 <= d).
  { apply Rmult_le_reg_r with (D * g); [exact Dg0|]. unfold d. replace (280 * ulp1 / (D * g) * (D * g)) with (280 * ulp1) by (field; lra).
    assert (D * g <= 8 * 2) by (apply Rmult_le_compat; lra). assert (16 * ulp1 * (D * g) <= 16 * ulp1 * 16) by (apply Rmult_le_compat_l; lra). lra. }
  unfold intersectionSegment2D. cbn [s_sub s_mul s_add s_div s_abs s_ltb s_ofZ s_frac F32Scalar].
  rewrite (tol_test _ _ _ hd) by (fold D; unfold ulp1; lra).
  set (rB := Bdiv mode_NE _ _) in *. destruct HB as [fB [eB hdB]].
  destruct (quotient_test rB t dB fB eB hdB) as [tB1 [tB2 tB3]].
  destruct (Bltb rB (f32_ofZ 0) || Bltb (f32_ofZ 1) rB)%bool eqn:EB.
  { split; [reflexivity|]. intros _ h. exfalso. specialize (tB2 ltac:(lra)). discriminate. }
  assert (ht : - (3 * dB) <= t <= 1 + 3 * dB).
  { split; apply Rnot_lt_le; intro h; [specialize (tB1 (or_introl h))|specialize (tB1 (or_intror h))]; discriminate. }
  specialize (tB3 eq_refl). destruct ha1 as [fa1 [fa1' [ba1 ba1']]]. unfold val in *. destruct hm as [hmx hmy]. unfold val in hmx, hmy.
  assert (F : forall r : f32, fin r /\ Rabs (v32 r - s) <= 13 / 10 * d * (1 + Rabs s) + tiny /\ 4 * ulp1 <= d <= / 100 ->
    let '(crossing, p) := (if (Bltb r (f32_ofZ 0) || Bltb (f32_ofZ 1) r)%bool then (false, c)
       else (true, mkPosition2D (Bplus mode_NE (p2_x a1) (Bmult mode_NE r (Bminus mode_NE (p2_x a2) (p2_x a1))))
                                (Bplus mode_NE (p2_y a1) (Bmult mode_NE r (Bminus mode_NE (p2_y a2) (p2_y a1)))))) in
    (s < - e1 \/ 1 + e1 < s \/ t < - e2 \/ 1 + e2 < t -> crossing = false) /\
    (e1 <= s <= 1 - e1 -> e2 <= t <= 1 - e2 -> crossing = true /\ fin (p2_x p) /\ fin (p2_y p) /\
       Rabs (v32 (p2_x p) - (v32 (p2_x a1) + s * dx a1 a2)) <= 2 * e1 /\ Rabs (v32 (p2_y p) - (v32 (p2_y a1) + s * dy a1 a2)) <= 2 * e1)).
  { intros r [fr [er hr]]. destruct (quotient_test r s d fr er hr) as [q1 [q2 q3]].
    destruct (Bltb r (f32_ofZ 0) || Bltb (f32_ofZ 1) r)%bool eqn:ER.
    - split; [reflexivity|]. intros h _. exfalso. specialize (q2 ltac:(lra)). discriminate.
    - split.
      + intros [h|[h|[h|h]]]; exfalso;
          [enough (false = true) by discriminate; apply q1; left; lra|enough (false = true) by discriminate; apply q1; right; lra|lra|lra].
      + intros h _. split; [reflexivity|]. cbn [p2_x p2_y].
        assert (er' : Rabs (v32 r - s) <= 26 / 10 * d + tiny).
        { apply Rle_trans with (1 := er). rewrite (Rabs_pos_eq s) by lra. assert (d * s <= d * 1) by (apply Rmult_le_compat_l; lra). lra. }
        destruct (point_apx (p2_x a1) _ r _ _ s d fa1 eq_refl ba1 x1 x2 fr er' ltac:(lra) ltac:(lra)) as [k1 k2].
        destruct (point_apx (p2_y a1) _ r _ _ s d fa1' eq_refl ba1' x3 x4 fr er' ltac:(lra) ltac:(lra)) as [k3 k4].
        split; [exact k1|]. split; [exact k3|]. split; [apply Rle_trans with (1 := k2)|apply Rle_trans with (1 := k4)]; lra. }
  pose proof tiny_small as ts.
  destruct hg as [eg|[ex eg]].
  - rewrite (tol_test _ _ _ x1) by (rewrite <- eg; unfold ulp1; lra). apply F. unfold d. rewrite eg in *.
    apply (HA _ _ _ (dx a1 b1) (dx b1 b2) (dx a1 a2)); try assumption. unfold dx, val in *. lra.
  - assert (vx : v32 (Bminus mode_NE (p2_x a2) (p2_x a1)) = 0).
    { destruct ha2 as [fa2 _]. destruct (sub_rd _ _ fa2 fa1) as [_ E]; [fold (dx a1 a2); unfold dx, val in ex; rewrite ex, Rabs_R0; pose proof huge_big; lra|].
      rewrite E. unfold dx, val in ex. rewrite ex. unfold rd. apply round_0, valid_rnd_N. }
    assert (T : Bltb (Babs (Bminus mode_NE (p2_x a2) (p2_x a1))) (f32_frac 1 100000) = true).
    { destruct tol_val as [ft htv]. rewrite Bltb_correct; [|rewrite is_finite_Babs; apply x1|exact ft]. rewrite B2R_Babs, vx, Rabs_R0. apply Rlt_bool_true. lra. }
    rewrite T, (tol_test _ _ _ x3) by (rewrite <- eg; unfold ulp1; lra). apply F. unfold d. rewrite eg in *.
    apply (HA _ _ _ (dy a1 b1) (dy b1 b2) (dy a1 a2)); try assumption. unfold dy, val in *. lra.
Qed.


Lemma C82_steep_refuted_proof : forall (L : libm32) (c : Position2D f32),
  (exists a1 a2 b1 b2 s t, point_in 1 a1 /\ point_in 1 a2 /\ point_in 1 b1 /\ point_in 1 b2 /\ meet a1 a2 b1 b2 s t /\
     2 <= Rabs (cross b1 b2 a1 a2) /\ 1 / 4 <= s <= 3 / 4 /\ 1 / 4 <= t <= 3 / 4 /\
     let '(crossing, p) := @intersectionSegment2D f32 (F32Scalar L) a1 a2 b1 b2 c in
     crossing = true /\ 1 / 100 <= Rabs (val (p2_y p) - (val (p2_y a1) + s * dy a1 a2))) /\
  (exists a1 a2 b1 b2 s t, point_in 1 a1 /\ point_in 1 a2 /\ point_in 1 b1 /\ point_in 1 b2 /\ meet a1 a2 b1 b2 s t /\
     2 <= Rabs (cross b1 b2 a1 a2) /\ 35 / 10000 <= s <= 1 - 35 / 10000 /\ 1 / 5 <= t <= 4 / 5 /\
     6 / 1000 <= (1 - s) * dy a1 a2 /\
     fst (@intersectionSegment2D f32 (F32Scalar L) a1 a2 b1 b2 c) = false).
Proof.
  intros L c. split.
  - exists (mkPosition2D (f32_frac 7 16) (f32_frac 63 64)), (mkPosition2D (f32_frac 28673 65536) (f32_frac (-7) 8)),
      (mkPosition2D (f32_frac (-15) 16) (f32_frac (-1) 64)), (mkPosition2D (f32_frac 61 64) (f32_frac (-3) 8)), (3334144 / 4914851), (3574464 / 4914851).
    assert (v1 : val (f32_frac 7 16) = 7 / 16) by (cbv; lra). assert (v2 : val (f32_frac 63 64) = 63 / 64) by (cbv; lra).
    assert (v3 : val (f32_frac 28673 65536) = 28673 / 65536) by (cbv; lra). assert (v4 : val (f32_frac (-7) 8) = - (7 / 8)) by (cbv; lra).
    assert (v5 : val (f32_frac (-15) 16) = - (15 / 16)) by (cbv; lra). assert (v6 : val (f32_frac (-1) 64) = - (1 / 64)) by (cbv; lra).
    assert (v7 : val (f32_frac 61 64) = 61 / 64) by (cbv; lra). assert (v8 : val (f32_frac (-3) 8) = - (3 / 8)) by (cbv; lra).
    unfold point_in, meet, cross, dx, dy. cbn [p2_x p2_y]. rewrite v1, v2, v3, v4, v5, v6, v7, v8.
    repeat match goal with |- _ /\ _ => split end;
    lazymatch goal with |- is_finite _ = true => reflexivity | |- fst _ = false => vm_compute; reflexivity | |- 2 <= _ => idtac | |- Rabs _ <= _ => apply Rabs_le; lra | |- let (_, _) := _ in _ => idtac | _ => try lra end.
    + rewrite Rabs_left by lra. lra.
    + destruct (@intersectionSegment2D f32 (F32Scalar L) _ _ _ _ c) as [b p] eqn:E.
      assert (hb : b = true) by (change b with (fst (b, p)); rewrite <- E; vm_compute; reflexivity).
      assert (hp : B2SF (p2_y p) = SpecFloat.S754_finite true 8888320 (-25)) by (change p with (snd (b, p)); rewrite <- E; vm_compute; reflexivity).
      split; [exact hb|]. unfold val. rewrite <- SF2R_B2SF, hp. cbn [SF2R]. unfold F2R. cbn [Fnum Fexp cond_Zopp bpow]. change (Z.pow_pos radix2 25) with 33554432%Z. change (- (8888320))%Z with (-8888320)%Z.
      rewrite Rabs_pos_eq by lra. lra.
  - exists (mkPosition2D (f32_frac 11 16) (f32_frac (-57) 64)), (mkPosition2D (f32_frac 45057 65536) (f32_frac 7 8)),
      (mkPosition2D (f32_frac (-3) 16) (f32_frac 3577 4096)), (mkPosition2D (f32_frac 61 64) (f32_frac 3553 4096)), (67338368 / 67575811), (414719033 / 540606488).
    assert (v1 : val (f32_frac 11 16) = 11 / 16) by (cbv; lra). assert (v2 : val (f32_frac (-57) 64) = - (57 / 64)) by (cbv; lra).
    assert (v3 : val (f32_frac 45057 65536) = 45057 / 65536) by (cbv; lra). assert (v4 : val (f32_frac 7 8) = 7 / 8) by (cbv; lra).
    assert (v5 : val (f32_frac (-3) 16) = - (3 / 16)) by (cbv; lra). assert (v6 : val (f32_frac 3577 4096) = 3577 / 4096) by (cbv; lra).
    assert (v7 : val (f32_frac 61 64) = 61 / 64) by (cbv; lra). assert (v8 : val (f32_frac 3553 4096) = 3553 / 4096) by (cbv; lra).
    unfold point_in, meet, cross, dx, dy. cbn [p2_x p2_y]. rewrite v1, v2, v3, v4, v5, v6, v7, v8.
    repeat match goal with |- _ /\ _ => split end;
    lazymatch goal with |- is_finite _ = true => reflexivity | |- fst _ = false => vm_compute; reflexivity | |- 2 <= _ => idtac | |- Rabs _ <= _ => apply Rabs_le; lra | |- let (_, _) := _ in _ => idtac | _ => try lra end.
    rewrite Rabs_pos_eq by lra. lra.
Qed.
