(** * Lemmas for Props_Clip *)


From Coq Require Import Reals ZArith List Bool Lra Lia Psatz.
Import ListNotations.
From Flocq Require Import Core.Core IEEE754.BinarySingleNaN.
From Verif Require Import Scalar RInst RLemmas Model_Base Model_Vec Model_Tools F32 Spec_Geom Spec_Round Spec_Odom Spec_Clip.
From Verif Require Import F32Err Proofs_Float.
Local Open Scope R_scope.

(** Values up to a relative error of [k] units and an absolute one of [t]. *)
Definition rel (x : f32) (r k t : R) : Prop := fin x /\ Rabs (v32 x - r) <= k * ulp1 * Rabs r + t.

Lemma rel_self : forall x, fin x -> rel x (v32 x) 0 0.
Proof. intros x h. split; [exact h|]. rewrite Rminus_diag_eq by reflexivity. rewrite Rabs_R0. lra. Qed.
Lemma rel_le : forall x r k t k' t', rel x r k t -> k <= k' -> t <= t' -> rel x r k' t'.
Proof.
  intros x r k t k' t' [h1 h2] hk ht. split; [exact h1|]. apply Rle_trans with (1 := h2). apply Rplus_le_compat; [|exact ht].
  apply Rmult_le_compat_r; [apply Rabs_pos|]. unfold ulp1. lra.
Qed.
Lemma rel_absorb : forall x r k t k', rel x r k t -> t <= (k' - k) * ulp1 * Rabs r -> rel x r k' 0.
Proof. intros x r k t k' [h1 h2] h. split; [exact h1|]. lra. Qed.
Lemma rel_size : forall x r k t, rel x r k t -> 0 <= k <= 20 -> Rabs (v32 x) <= 2 * Rabs r + t.
Proof.
  intros x r k t [h1 h2] hk. pose proof (Rabs_pos r) as r0.
  assert (k * ulp1 * Rabs r <= 1 * Rabs r) by (apply Rmult_le_compat_r; [exact r0|]; unfold ulp1; lra).
  replace (v32 x) with ((v32 x - r) + r) by ring. apply Rle_trans with (1 := Rabs_triang _ _). lra.
Qed.

Lemma rel_mul : forall x y r s k l t w, rel x r k t -> rel y s l w -> 0 <= k <= 20 -> 0 <= l <= 20 -> 0 <= t -> 0 <= w ->
  2 * Rabs r * Rabs s + 2 * w * Rabs r + 2 * t * Rabs s + 2 * t * w <= huge ->
  rel (Bmult mode_NE x y) (r * s) (k + l + 101 / 100) (2 * w * Rabs r + 2 * t * Rabs s + 2 * t * w + tiny).
Proof.
  intros x y r s k l t w [fx ex] [fy ey] hk hl ht hw hh. pose proof (Rabs_pos r) as r0. pose proof (Rabs_pos s) as s0.
  set (A := Rabs r) in *. set (B := Rabs s) in *. set (K := k * ulp1) in *. set (M := l * ulp1) in *.
  assert (hK : 0 <= K <= 20 * ulp1) by (unfold K, ulp1; lra). assert (hM : 0 <= M <= 20 * ulp1) by (unfold M, ulp1; lra).
  assert (P0 : 0 <= A * B) by now apply Rmult_le_pos. assert (P1 : 0 <= A * w) by now apply Rmult_le_pos.
  assert (P2 : 0 <= B * t) by now apply Rmult_le_pos. assert (P3 : 0 <= t * w) by now apply Rmult_le_pos.
  assert (c0 : K * M <= / 1000 * ulp1) by (apply Rle_trans with (20 * ulp1 * (20 * ulp1)); [apply Rmult_le_compat; lra|unfold ulp1; lra]).
  assert (KM0 : 0 <= K * M) by (apply Rmult_le_pos; lra).
  assert (c1 : K * M + ulp1 * ((1 + K) * (1 + M)) <= 101 / 100 * ulp1) by (unfold ulp1 in *; lra).
  assert (e1 : (A + (K * A + t)) * (B + (M * B + w)) = (1 + K) * (1 + M) * (A * B) + (1 + K) * (A * w) + (1 + M) * (B * t) + t * w) by ring.
  assert (b1 : (1 + K) * (1 + M) * (A * B) <= 2 * (A * B)) by (apply Rmult_le_compat_r; [exact P0|]; unfold ulp1 in *; lra).
  assert (b2 : (1 + K) * (A * w) <= 2 * (A * w)) by (apply Rmult_le_compat_r; [exact P1|]; unfold ulp1 in *; lra).
  assert (b3 : (1 + M) * (B * t) <= 2 * (B * t)) by (apply Rmult_le_compat_r; [exact P2|]; unfold ulp1 in *; lra).
  destruct (apx_mul x y r s A B (K * A + t) (M * B + w)) as [g1 g2]; try (split; assumption); try apply Rle_refl; [lra|].
  split; [exact g1|]. apply Rle_trans with (1 := g2). rewrite e1, Rabs_mult. fold A B.
  assert (d1 : (K + M + (K * M + ulp1 * ((1 + K) * (1 + M)))) * (A * B) <= (K + M + 101 / 100 * ulp1) * (A * B)) by (apply Rmult_le_compat_r; lra).
  assert (d2 : (1 + K + ulp1 * (1 + K)) * (A * w) <= 2 * (A * w)) by (apply Rmult_le_compat_r; [exact P1|]; unfold ulp1 in *; lra).
  assert (d3 : (1 + M + ulp1 * (1 + M)) * (B * t) <= 2 * (B * t)) by (apply Rmult_le_compat_r; [exact P2|]; unfold ulp1 in *; lra).
  assert (d4 : (1 + ulp1) * (t * w) <= 2 * (t * w)) by (apply Rmult_le_compat_r; [exact P3|]; unfold ulp1 in *; lra).
  replace ((k + l + 101 / 100) * ulp1) with (K + M + 101 / 100 * ulp1) by (unfold K, M; ring). lra.
Qed.

Lemma rel_div : forall x y r s k l t, rel x r k t -> rel y s l 0 -> 0 <= k <= 20 -> 0 <= l <= 20 -> 0 <= t -> 0 < s ->
  2 * (Rabs r / s) + 2 * (t / s) <= huge ->
  rel (Bdiv mode_NE x y) (r / s) (k + l + 102 / 100) (2 * (t / s) + tiny).
Proof.
  intros x y r s k l t [fx ex] [fy ey] hk hl ht hs hh. pose proof (Rabs_pos r) as r0. rewrite (Rabs_pos_eq s) in ey by lra.
  set (A := Rabs r) in *. set (K := k * ulp1) in *. set (M := l * ulp1) in *.
  assert (hK : 0 <= K <= 20 * ulp1) by (unfold K, ulp1; lra). assert (hM : 0 <= M <= 20 * ulp1) by (unfold M, ulp1; lra).
  set (d := (v32 y - s) / s). assert (ed : v32 y = s * (1 + d)) by (unfold d; field; lra).
  assert (hd : Rabs d <= M).
  { unfold d, Rdiv. rewrite Rabs_mult, (Rabs_pos_eq (/ s)) by (apply Rlt_le; now apply Rinv_0_lt_compat).
    apply Rmult_le_reg_r with s; [exact hs|]. rewrite Rmult_assoc, Rinv_l by lra. lra. }
  assert (hd' : - (20 * ulp1) <= d <= 20 * ulp1) by (apply Rabs_le_inv; lra).
  assert (d1 : 0 < 1 + d) by (unfold ulp1 in *; lra). assert (y0 : 0 < v32 y) by (rewrite ed; now apply Rmult_lt_0_compat).
  set (q := / (1 + d)). assert (hq : 0 < q <= 1 + 1 / 1000).
  { split; [now apply Rinv_0_lt_compat|]. unfold q. apply Rmult_le_reg_r with (1 + d); [exact d1|]. rewrite Rinv_l by lra. unfold ulp1 in *; lra. }
  assert (hq' : q <= 1 + 30 * ulp1).
  { unfold q. apply Rmult_le_reg_r with (1 + d); [exact d1|]. rewrite Rinv_l by lra. unfold ulp1 in *; lra. }
  assert (i0 : 0 < / s) by now apply Rinv_0_lt_compat. set (i := / s) in *.
  assert (ei : / v32 y = i * q) by (rewrite ed; unfold i, q; rewrite Rinv_mult; reflexivity).
  assert (Ai : 0 <= A * i) by (apply Rmult_le_pos; lra). assert (ti : 0 <= t * i) by (apply Rmult_le_pos; lra).
  assert (hx : Rabs (v32 x) <= (1 + K) * A + t) by (replace (v32 x) with ((v32 x - r) + r) by ring; apply Rle_trans with (1 := Rabs_triang _ _); fold A; lra).
  assert (big : Rabs (v32 x / v32 y) <= (1 + 60 * ulp1) * (A * i) + 2 * (t * i)).
  { unfold Rdiv. rewrite ei, Rabs_mult, (Rabs_pos_eq (i * q)) by (apply Rmult_le_pos; lra).
    apply Rle_trans with (((1 + K) * A + t) * (i * q)); [apply Rmult_le_compat_r; [apply Rmult_le_pos; lra|exact hx]|].
    replace (((1 + K) * A + t) * (i * q)) with ((1 + K) * q * (A * i) + q * (t * i)) by ring.
    apply Rplus_le_compat; apply Rmult_le_compat_r; try lra.
    apply Rle_trans with ((1 + 20 * ulp1) * (1 + 30 * ulp1)); [apply Rmult_le_compat; lra|unfold ulp1; lra]. }
  destruct (div_rd x y fx fy) as [h1 h2]; [lra| |].
  { unfold Rdiv in hh. fold i in hh. apply Rle_trans with (1 := big).
    assert ((1 + 60 * ulp1) * (A * i) <= 2 * (A * i)) by (apply Rmult_le_compat_r; [exact Ai|unfold ulp1; lra]). lra. }
  split; [exact h1|]. rewrite h2. pose proof (rd_err (v32 x / v32 y)) as E.
  assert (E2 : Rabs (v32 x / v32 y - r / s) <= (K + M) * (1 + 30 * ulp1) * (A * i) + 3 / 2 * (t * i)).
  { replace (v32 x / v32 y - r / s) with (((v32 x - r) - r * d) * (i * q)).
    2:{ unfold Rdiv. rewrite ei. fold i. replace ((v32 x - r - r * d) * (i * q)) with (v32 x * (i * q) - r * i * ((1 + d) * q)) by ring.
        unfold q at 2. rewrite Rinv_r by lra. ring. }
    rewrite Rabs_mult, (Rabs_pos_eq (i * q)) by (apply Rmult_le_pos; lra).
    assert (z : Rabs (v32 x - r - r * d) <= (K + M) * A + t).
    { unfold Rminus at 1. apply Rle_trans with (1 := Rabs_triang _ _). rewrite Rabs_Ropp, Rabs_mult. fold A.
      assert (A * Rabs d <= A * M) by (apply Rmult_le_compat_l; lra). lra. }
    apply Rle_trans with (((K + M) * A + t) * (i * q)); [apply Rmult_le_compat_r; [apply Rmult_le_pos; lra|exact z]|].
    replace (((K + M) * A + t) * (i * q)) with ((K + M) * q * (A * i) + q * (t * i)) by ring.
    apply Rplus_le_compat; apply Rmult_le_compat_r; try lra. apply Rmult_le_compat_l; lra. }
  replace (rd (v32 x / v32 y) - r / s) with ((rd (v32 x / v32 y) - v32 x / v32 y) + (v32 x / v32 y - r / s)) by ring.
  apply Rle_trans with (1 := Rabs_triang _ _). unfold Rdiv at 5 6. rewrite Rabs_mult, (Rabs_pos_eq (/ s)) by (fold i; lra). fold A i.
  assert (E3 : ulp1 * Rabs (v32 x / v32 y) <= ulp1 * ((1 + 60 * ulp1) * (A * i) + 2 * (t * i))) by (apply Rmult_le_compat_l; [unfold ulp1; lra|exact big]).
  assert (E4 : ((K + M) * (1 + 30 * ulp1) + ulp1 * (1 + 60 * ulp1)) * (A * i) <= (k + l + 102 / 100) * ulp1 * (A * i)).
  { apply Rmult_le_compat_r; [exact Ai|]. unfold K, M, ulp1. lra. }
  unfold Rdiv in *. fold i in E, E2, E3 |- *. unfold ulp1 in *. lra.
Qed.

Lemma rel_add : forall x y r s k t w, rel x r k t -> rel y s k w -> 0 <= k <= 20 -> 0 <= r -> 0 <= s -> 0 <= t -> 0 <= w ->
  2 * (r + s) + t + w <= huge ->
  rel (Bplus mode_NE x y) (r + s) (k + 101 / 100) (2 * (t + w) + tiny).
Proof.
  intros x y r s k t w [fx ex] [fy ey] hk hr hs ht hw hh. rewrite (Rabs_pos_eq r hr) in ex. rewrite (Rabs_pos_eq s hs) in ey.
  assert (kk : k * ulp1 <= 20 * ulp1) by (unfold ulp1; lra). assert (kr : k * ulp1 * r <= 20 * ulp1 * r) by (apply Rmult_le_compat_r; lra).
  assert (ks : k * ulp1 * s <= 20 * ulp1 * s) by (apply Rmult_le_compat_r; lra).
  destruct (apx_add x y r s r s (k * ulp1 * r + t) (k * ulp1 * s + w)) as [g1 g2]; try (split; assumption); try (rewrite Rabs_pos_eq; lra); [unfold ulp1 in *; lra|].
  split; [exact g1|]. apply Rle_trans with (1 := g2). rewrite Rabs_pos_eq by lra. unfold ulp1 in *. lra.
Qed.

Lemma rel_sqrt : forall x r k, rel x r k 0 -> 0 <= k <= 20 -> 0 < r -> tiny <= / 1000 * ulp1 * sqrt r ->
  rel (Bsqrt mode_NE x) (sqrt r) (k * (51 / 100) + 101 / 100) 0.
Proof.
  intros x r k [fx ex] hk hr ht. rewrite (Rabs_pos_eq r) in ex by lra. set (K := k * ulp1) in *.
  assert (hK : 0 <= K <= 20 * ulp1) by (unfold K, ulp1; lra). set (n := sqrt r) in *.
  assert (n0 : 0 < n) by now apply sqrt_lt_R0. assert (nn : n * n = r) by (apply sqrt_sqrt; lra).
  assert (Kr : 0 <= K * r <= 20 * ulp1 * r) by (split; [apply Rmult_le_pos; lra|apply Rmult_le_compat_r; lra]).
  assert (x0 : 0 <= v32 x) by (abs2; unfold ulp1 in *; lra).
  destruct (sqrt_rd x fx x0) as [h1 h2]. split; [exact h1|]. rewrite h2. set (m := sqrt (v32 x)).
  assert (m0 : 0 <= m) by apply sqrt_pos. assert (mm : m * m = v32 x) by now apply sqrt_sqrt.
  assert (K2 : 0 <= K * K <= 20 * ulp1 * K) by (split; [apply Rmult_le_pos; lra|apply Rmult_le_compat_r; lra]).
  assert (w1 : m <= (1 + 505 / 1000 * K) * n).
  { apply Rsqr_incr_0_var; [|apply Rmult_le_pos; lra]. unfold Rsqr. rewrite mm.
    replace ((1 + 505 / 1000 * K) * n * ((1 + 505 / 1000 * K) * n)) with ((1 + 505 / 1000 * K) * (1 + 505 / 1000 * K) * (n * n)) by ring. rewrite nn.
    apply Rle_trans with ((1 + K) * r); [abs2; lra|]. apply Rmult_le_compat_r; lra. }
  assert (w2 : (1 - 505 / 1000 * K) * n <= m).
  { apply Rsqr_incr_0_var; [|exact m0]. unfold Rsqr. rewrite mm.
    replace ((1 - 505 / 1000 * K) * n * ((1 - 505 / 1000 * K) * n)) with ((1 - 505 / 1000 * K) * (1 - 505 / 1000 * K) * (n * n)) by ring. rewrite nn.
    apply Rle_trans with ((1 - K) * r); [|abs2; lra]. apply Rmult_le_compat_r; [lra|]. unfold ulp1 in *. lra. }
  pose proof (rd_err m) as E. rewrite (Rabs_pos_eq m m0) in E. rewrite (Rabs_pos_eq n) by lra.
  assert (Kn : 0 <= K * n <= 20 * ulp1 * n) by (split; [apply Rmult_le_pos; lra|apply Rmult_le_compat_r; lra]).
  replace ((k * (51 / 100) + 101 / 100) * ulp1 * n) with (51 / 100 * (K * n) + 101 / 100 * ulp1 * n) by (unfold K; ring).
  abs2. apply Rabs_le. unfold ulp1 in *. lra.
Qed.

(** ** The ellipse *)

Lemma u24 : ulp1 = bpow radix2 (-24).
Proof. unfold ulp1. cbn. lra. Qed.
Lemma p40 : forall a, bpow radix2 (-20) <= a <= bpow radix2 20 -> 0 < a /\ bpow radix2 (-40) <= a * a <= bpow radix2 40.
Proof.
  intros a [h1 h2]. pose proof (bpow_gt_0 radix2 (-20)). split; [lra|]. change (-40)%Z with (-20 + -20)%Z. change 40%Z with (20 + 20)%Z.
  rewrite !bpow_plus. split; apply Rmult_le_compat; lra.
Qed.

Section Ellipse.
Variables (L : libm32) (mx my : f32).
Let A := Rabs (v32 mx).
Let B := Rabs (v32 my).
Hypothesis (fa : fin mx) (fb : fin my) (ha : bpow radix2 (-20) <= A <= bpow radix2 20) (hb : bpow radix2 (-20) <= B <= bpow radix2 20).

Lemma square_rel : forall m : f32, fin m -> bpow radix2 (-20) <= Rabs (v32 m) <= bpow radix2 20 ->
  rel (Bmult mode_NE (Babs m) (Babs m)) (Rabs (v32 m) * Rabs (v32 m)) (102 / 100) 0.
Proof.
  intros m fm hm. destruct (p40 _ hm) as [h0 [h1 h2]]. assert (fm' : fin (Babs m)) by now rewrite is_finite_Babs.
  pose proof (rel_self _ fm') as r0. rewrite B2R_Babs in r0.
  assert (hh : 2 * bpow radix2 40 <= huge) by (apply Rle_trans with (bpow radix2 1 * bpow radix2 40); [change (bpow radix2 1) with 2; lra|rewrite <- bpow_plus; apply bpow_le; lia]).
  pose proof (rel_mul _ _ _ _ _ _ _ _ r0 r0) as r1. rewrite Rabs_Rabsolu in r1. specialize (r1 ltac:(lra) ltac:(lra) ltac:(lra) ltac:(lra) ltac:(lra)).
  pose proof (bpow_gt_0 radix2 (-40)) as p.
  apply rel_absorb with (1 := r1). rewrite (Rabs_pos_eq (Rabs (v32 m) * Rabs (v32 m))) by lra.
  assert (t : tiny <= / 100 * ulp1 * bpow radix2 (-40)).
  { apply Rle_trans with (bpow radix2 (-7) * bpow radix2 (-24) * bpow radix2 (-40)); [rewrite <- !bpow_plus; apply bpow_le; lia|].
    rewrite u24. pose proof (bpow_gt_0 radix2 (-24)). apply Rmult_le_compat_r; [apply bpow_ge_0|]. apply Rmult_le_compat_r; [lra|]. cbn. lra. }
  assert (/ 100 * ulp1 * bpow radix2 (-40) <= / 100 * ulp1 * (Rabs (v32 m) * Rabs (v32 m))) by (apply Rmult_le_compat_l; [unfold ulp1; lra|exact h1]).
  lra.
Qed.

Let a2 := Bmult mode_NE (Babs mx) (Babs mx).
Let b2 := Bmult mode_NE (Babs my) (Babs my).
Definition norm32 (x y : f32) : f32 :=
  Bplus mode_NE (Bdiv mode_NE (Bmult mode_NE x x) a2) (Bdiv mode_NE (Bmult mode_NE y y) b2).

Lemma part_rel : forall m x : f32, fin m -> bpow radix2 (-20) <= Rabs (v32 m) <= bpow radix2 20 -> fin x -> Rabs (v32 x) <= bpow radix2 40 ->
  rel (Bdiv mode_NE (Bmult mode_NE x x) (Bmult mode_NE (Babs m) (Babs m))) ((v32 x / Rabs (v32 m))^2) (305 / 100) (bpow radix2 (-105)) /\
  0 <= (v32 x / Rabs (v32 m))^2 <= bpow radix2 120.
Proof.
  intros m x fm hm fx hx. destruct (p40 _ hm) as [h0 [h1 h2]]. pose proof (square_rel m fm hm) as rm.
  set (N := Rabs (v32 m)) in *. pose proof (rel_self x fx) as r0.
  assert (xx : Rabs (v32 x) * Rabs (v32 x) <= bpow radix2 80).
  { change 80%Z with (40 + 40)%Z. rewrite bpow_plus. apply Rmult_le_compat; try apply Rabs_pos; assumption. }
  assert (hh : 2 * bpow radix2 80 <= huge) by (apply Rle_trans with (bpow radix2 1 * bpow radix2 80); [change (bpow radix2 1) with 2; lra|rewrite <- bpow_plus; apply bpow_le; lia]).
  assert (r1 := rel_mul _ _ _ _ _ _ _ _ r0 r0 ltac:(lra) ltac:(lra) ltac:(lra) ltac:(lra) ltac:(lra)).
  assert (tp := tiny_pos). pose proof (bpow_gt_0 radix2 (-40)) as p40'.
  assert (iN : / (N * N) <= bpow radix2 40).
  { change 40%Z with (- (-40))%Z. rewrite bpow_opp. apply Rinv_le; [apply bpow_gt_0|exact h1]. }
  assert (i0 : 0 < / (N * N)) by (apply Rinv_0_lt_compat; pose proof (bpow_gt_0 radix2 (-40)); lra).
  assert (q : Rabs (v32 x * v32 x) / (N * N) <= bpow radix2 120).
  { change 120%Z with (80 + 40)%Z. rewrite bpow_plus. unfold Rdiv. apply Rmult_le_compat; try lra; [apply Rabs_pos|now rewrite Rabs_mult]. }
  assert (tq : tiny / (N * N) <= bpow radix2 (-110)).
  { change (-110)%Z with (-150 + 40)%Z. rewrite bpow_plus. unfold Rdiv. apply Rmult_le_compat; try lra. apply Rle_refl. }
  assert (H : 4 * bpow radix2 120 <= huge) by (apply Rle_trans with (bpow radix2 2 * bpow radix2 120); [change (bpow radix2 2) with 4; lra|rewrite <- bpow_plus; apply bpow_le; lia]).
  assert (U : bpow radix2 (-110) <= bpow radix2 120) by (apply bpow_le; lia).
  assert (E : (v32 x / N)^2 = v32 x * v32 x / (N * N)) by (field; lra). rewrite E.
  assert (S0 := Rle_0_sqr (v32 x)). unfold Rsqr in S0. split.
  - set (z := 2 * 0 * Rabs (v32 x) + 2 * 0 * Rabs (v32 x) + 2 * 0 * 0 + tiny) in r1. assert (ez : z = tiny) by (unfold z; ring). rewrite ez in r1.
    assert (r2 := rel_div _ _ _ _ _ _ _ r1 rm ltac:(lra) ltac:(lra) ltac:(lra) ltac:(lra) ltac:(lra)).
    apply rel_le with (1 := r2); [lra|]. assert (tiny <= bpow radix2 (-110)) by (apply bpow_le; lia).
    apply Rle_trans with (bpow radix2 5 * bpow radix2 (-110)); [change (bpow radix2 5) with 32; lra|rewrite <- bpow_plus; apply bpow_le; lia].
  - rewrite Rabs_pos_eq in q by exact S0. split; [|exact q]. unfold Rdiv. apply Rmult_le_pos; lra.
Qed.

Lemma norm_rel : forall x y : f32, fin x -> fin y -> Rabs (v32 x) <= bpow radix2 40 -> Rabs (v32 y) <= bpow radix2 40 ->
  rel (norm32 x y) (excess A B (v32 x) (v32 y)) (41 / 10) (bpow radix2 (-100)).
Proof.
  intros x y fx fy hx hy. destruct (part_rel mx x fa ha fx hx) as [r1 [p1 q1]]. destruct (part_rel my y fb hb fy hy) as [r2 [p2 q2]].
  assert (H : 8 * bpow radix2 120 <= huge) by (apply Rle_trans with (bpow radix2 3 * bpow radix2 120); [change (bpow radix2 3) with 8; lra|rewrite <- bpow_plus; apply bpow_le; lia]).
  assert (U : bpow radix2 (-105) <= bpow radix2 120) by (apply bpow_le; lia). pose proof (bpow_gt_0 radix2 (-105)) as U0.
  assert (r3 := rel_add _ _ _ _ _ _ _ r1 r2 ltac:(lra) p1 p2 ltac:(lra) ltac:(lra) ltac:(lra)).
  unfold norm32, excess, a2, b2. apply rel_le with (1 := r3); [lra|]. assert (tiny <= bpow radix2 (-105)) by (apply bpow_le; lia).
  apply Rle_trans with (bpow radix2 5 * bpow radix2 (-105)); [change (bpow radix2 5) with 32; lra|rewrite <- bpow_plus; apply bpow_le; lia].
Qed.

(** *** The point on the ellipse in the direction (c, s) *)
Variables (c s : f32).
Hypothesis (fc : fin c) (fs : fin s) (hc : Rabs (v32 c) <= 101 / 100) (hs : Rabs (v32 s) <= 101 / 100)
  (hcs : 96 / 100 <= v32 c * v32 c + v32 s * v32 s).
Let T32 := Bdiv mode_NE (Bmult mode_NE (Babs mx) (Babs my))
  (Bsqrt mode_NE (Bplus mode_NE (Bmult mode_NE (Bmult mode_NE b2 c) c) (Bmult mode_NE (Bmult mode_NE a2 s) s))).
Let D := B * B * (v32 c * v32 c) + A * A * (v32 s * v32 s).

Lemma D_low : 9 / 10 * bpow radix2 (-40) <= D.
Proof.
  destruct (p40 _ ha) as [a0 [a1 a2']]. destruct (p40 _ hb) as [b0 [b1 b2']]. pose proof (bpow_gt_0 radix2 (-40)) as p.
  assert (c0 := Rle_0_sqr (v32 c)). assert (s0 := Rle_0_sqr (v32 s)). unfold Rsqr in *. unfold D.
  assert (bpow radix2 (-40) * (v32 c * v32 c) <= B * B * (v32 c * v32 c)) by (apply Rmult_le_compat_r; assumption).
  assert (bpow radix2 (-40) * (v32 s * v32 s) <= A * A * (v32 s * v32 s)) by (apply Rmult_le_compat_r; assumption).
  assert (bpow radix2 (-40) * (96 / 100) <= bpow radix2 (-40) * (v32 c * v32 c + v32 s * v32 s)) by (apply Rmult_le_compat_l; lra). lra.
Qed.

Lemma term_rel : forall m k : f32, fin m -> bpow radix2 (-20) <= Rabs (v32 m) <= bpow radix2 20 -> fin k -> Rabs (v32 k) <= 101 / 100 ->
  rel (Bmult mode_NE (Bmult mode_NE (Bmult mode_NE (Babs m) (Babs m)) k) k) (Rabs (v32 m) * Rabs (v32 m) * (v32 k * v32 k)) (305 / 100) (4 * tiny) /\
  0 <= Rabs (v32 m) * Rabs (v32 m) * (v32 k * v32 k) <= 2 * bpow radix2 40.
Proof.
  intros m k fm hm fk hk. destruct (p40 _ hm) as [h0 [h1 h2]]. pose proof (square_rel m fm hm) as rm. set (N := Rabs (v32 m)) in *.
  pose proof (rel_self k fk) as r0. pose proof (bpow_gt_0 radix2 (-40)) as p. assert (tp := tiny_pos). assert (ts := tiny_small).
  assert (H : 8 * bpow radix2 40 <= huge) by (apply Rle_trans with (bpow radix2 3 * bpow radix2 40); [change (bpow radix2 3) with 8; lra|rewrite <- bpow_plus; apply bpow_le; lia]).
  assert (k0 := Rabs_pos (v32 k)). assert (G : 1 <= bpow radix2 40) by (change 1 with (bpow radix2 0); apply bpow_le; lia).
  assert (b1 : 0 <= N * N * Rabs (v32 k) <= bpow radix2 40 * (101 / 100)) by (split; [apply Rmult_le_pos; lra|apply Rmult_le_compat; lra]).
  assert (r1 := rel_mul _ _ _ _ _ _ _ _ rm r0 ltac:(lra) ltac:(lra) ltac:(lra) ltac:(lra)). rewrite (Rabs_pos_eq (N * N)) in r1 by lra.
  specialize (r1 ltac:(lra)). apply rel_le with (k' := 203 / 100) (t' := tiny) in r1; [|lra|lra].
  assert (e1 : Rabs (N * N * v32 k) = N * N * Rabs (v32 k)) by (rewrite Rabs_mult, (Rabs_pos_eq (N * N)) by lra; reflexivity).
  assert (b2' : 0 <= N * N * Rabs (v32 k) * Rabs (v32 k) <= bpow radix2 40 * (101 / 100) * (101 / 100)) by (split; [apply Rmult_le_pos; lra|apply Rmult_le_compat; lra]).
  assert (tk : 0 <= tiny * Rabs (v32 k) <= tiny * (101 / 100)) by (split; [apply Rmult_le_pos; lra|apply Rmult_le_compat_l; lra]).
  assert (r2 := rel_mul _ _ _ _ _ _ _ _ r1 r0 ltac:(lra) ltac:(lra) ltac:(lra) ltac:(lra)). rewrite e1 in r2. specialize (r2 ltac:(lra)).
  replace (N * N * (v32 k * v32 k)) with (N * N * v32 k * v32 k) by ring. split.
  - apply rel_le with (1 := r2); lra.
  - assert (k2 : v32 k * v32 k = Rabs (v32 k) * Rabs (v32 k)) by (rewrite <- Rabs_mult; rewrite Rabs_pos_eq; [reflexivity|apply Rle_0_sqr]).
    replace (N * N * v32 k * v32 k) with (N * N * (v32 k * v32 k)) by ring. rewrite k2.
    replace (N * N * (Rabs (v32 k) * Rabs (v32 k))) with (N * N * Rabs (v32 k) * Rabs (v32 k)) by ring. lra.
Qed.

Lemma T_rel : rel T32 (A * B / sqrt D) (52 / 10) 0 /\ 0 < A * B / sqrt D /\ bpow radix2 (-62) <= A * B / sqrt D <= bpow radix2 62.
Proof.
  destruct (p40 _ ha) as [a0 [a1 a2']]. destruct (p40 _ hb) as [b0 [b1 b2']]. pose proof D_low as dl. pose proof (bpow_gt_0 radix2 (-40)) as p.
  destruct (term_rel my c fb hb fc hc) as [r1 [p1 q1]]. destruct (term_rel mx s fa ha fs hs) as [r2 [p2 q2]].
  fold A in r2, p2, q2. fold B in r1, p1, q1. assert (tp := tiny_pos). assert (ts := tiny_small).
  assert (G : 1 <= bpow radix2 40) by (change 1 with (bpow radix2 0); apply bpow_le; lia).
  assert (H : 16 * bpow radix2 40 <= huge) by (apply Rle_trans with (bpow radix2 4 * bpow radix2 40); [change (bpow radix2 4) with 16; lra|rewrite <- bpow_plus; apply bpow_le; lia]).
  assert (r3 := rel_add _ _ _ _ _ _ _ r1 r2 ltac:(lra) p1 p2 ltac:(lra) ltac:(lra) ltac:(lra)). fold D in r3.
  assert (tu : 1000 * tiny <= / 100 * ulp1 * (/ 2 * bpow radix2 (-40))).
  { apply Rle_trans with (bpow radix2 10 * bpow radix2 (-150)); [change (bpow radix2 10) with 1024; unfold tiny; pose proof (bpow_gt_0 radix2 (-150)); lra|].
    apply Rle_trans with (bpow radix2 (-7) * bpow radix2 (-24) * (bpow radix2 (-1) * bpow radix2 (-40))); [rewrite <- !bpow_plus; apply bpow_le; lia|].
    rewrite u24. pose proof (bpow_gt_0 radix2 (-24)). change (bpow radix2 (-1)) with (/ 2). apply Rmult_le_compat_r; [lra|]. apply Rmult_le_compat_r; [lra|]. cbn. lra. }
  assert (tD : 1000 * tiny <= / 100 * ulp1 * D) by (unfold ulp1 in *; lra).
  apply rel_absorb with (k' := 407 / 100) in r3; [|rewrite (Rabs_pos_eq D) by lra; unfold ulp1 in *; lra].
  set (n := sqrt D) in *. assert (n0 : 0 < n) by (apply sqrt_lt_R0; lra). assert (nn : n * n = D) by (apply sqrt_sqrt; lra).
  assert (n1 : bpow radix2 (-21) <= n).
  { apply Rsqr_incr_0_var; [|lra]. unfold Rsqr. rewrite nn, <- bpow_plus. change (-21 + -21)%Z with (-2 + -40)%Z. rewrite bpow_plus. change (bpow radix2 (-2)) with (/ 4). lra. }
  assert (n2 : n <= bpow radix2 21).
  { apply Rsqr_incr_0_var; [|apply bpow_ge_0]. unfold Rsqr. rewrite nn, <- bpow_plus. change (21 + 21)%Z with (2 + 40)%Z. rewrite bpow_plus. change (bpow radix2 2) with 4. unfold D. lra. }
  assert (tn : tiny <= / 1000 * ulp1 * n).
  { apply Rle_trans with (bpow radix2 (-10) * bpow radix2 (-24) * bpow radix2 (-21)); [rewrite <- !bpow_plus; apply bpow_le; lia|].
    rewrite <- u24. assert (0 < ulp1) by (unfold ulp1; lra). apply Rmult_le_compat; [apply Rmult_le_pos; [apply bpow_ge_0|lra]|apply bpow_ge_0| |exact n1]. apply Rmult_le_compat_r; [lra|]. cbn. lra. }
  assert (r4 := rel_sqrt _ _ _ r3 ltac:(lra) ltac:(lra) tn). fold n in r4.
  assert (fa' : fin (Babs mx)) by now rewrite is_finite_Babs. assert (fb' : fin (Babs my)) by now rewrite is_finite_Babs.
  pose proof (rel_self _ fa') as ra. pose proof (rel_self _ fb') as rb. rewrite B2R_Babs in ra, rb. fold A in ra. fold B in rb.
  assert (ab1 : bpow radix2 (-40) <= A * B <= bpow radix2 40).
  { change (-40)%Z with (-20 + -20)%Z. change 40%Z with (20 + 20)%Z. rewrite !bpow_plus. pose proof (bpow_gt_0 radix2 (-20)). split; apply Rmult_le_compat; lra. }
  assert (r5 := rel_mul _ _ _ _ _ _ _ _ ra rb ltac:(lra) ltac:(lra) ltac:(lra) ltac:(lra)). rewrite (Rabs_pos_eq A), (Rabs_pos_eq B) in r5 by lra. specialize (r5 ltac:(lra)).
  apply rel_absorb with (k' := 102 / 100) in r5; [|rewrite (Rabs_pos_eq (A * B)) by lra; unfold ulp1 in *; lra].
  assert (i0 : 0 < / n) by now apply Rinv_0_lt_compat.
  assert (i1 : / n <= bpow radix2 21) by (change 21%Z with (- (-21))%Z; rewrite bpow_opp; apply Rinv_le; [apply bpow_gt_0|exact n1]).
  assert (i2 : bpow radix2 (-21) <= / n) by (change (-21)%Z with (- (21))%Z; rewrite bpow_opp; apply Rinv_le; [exact n0|exact n2]).
  assert (q : bpow radix2 (-61) <= A * B / n <= bpow radix2 61).
  { change (-61)%Z with (-40 + -21)%Z. change 61%Z with (40 + 21)%Z. rewrite !bpow_plus. unfold Rdiv. pose proof (bpow_gt_0 radix2 (-21)). split; apply Rmult_le_compat; lra. }
  assert (H2 : 4 * bpow radix2 61 <= huge) by (apply Rle_trans with (bpow radix2 2 * bpow radix2 61); [change (bpow radix2 2) with 4; lra|rewrite <- bpow_plus; apply bpow_le; lia]).
  pose proof (bpow_gt_0 radix2 (-61)) as q0.
  assert (hhd : 2 * (Rabs (A * B) / n) + 2 * (0 / n) <= huge) by (rewrite Rabs_pos_eq by lra; unfold Rdiv at 2; rewrite Rmult_0_l; lra).
  assert (r6 := rel_div _ _ _ _ _ _ _ r5 r4 ltac:(lra) ltac:(lra) ltac:(lra) n0 hhd).
  split; [|split; [lra|]].
  - apply rel_absorb with (1 := r6). rewrite (Rabs_pos_eq (A * B / n)) by lra. unfold Rdiv at 1. rewrite Rmult_0_l.
    assert (tiny <= / 1000 * ulp1 * bpow radix2 (-61)).
    { apply Rle_trans with (bpow radix2 (-10) * bpow radix2 (-24) * bpow radix2 (-61)); [rewrite <- !bpow_plus; apply bpow_le; lia|].
      rewrite <- u24. assert (0 < ulp1) by (unfold ulp1; lra). apply Rmult_le_compat_r; [apply bpow_ge_0|]. apply Rmult_le_compat_r; [lra|]. cbn. lra. }
    unfold ulp1 in *. lra.
  - assert (bpow radix2 (-62) <= bpow radix2 (-61)) by (apply bpow_le; lia). assert (bpow radix2 61 <= bpow radix2 62) by (apply bpow_le; lia). lra.
Qed.

Lemma scaled_square : forall m t x k : R, 0 < m -> Rabs (x - t * k) <= 63 / 10 * ulp1 * Rabs (t * k) + tiny ->
  bpow radix2 (-20) <= m -> Rabs (t * k) <= 2 * m ->
  Rabs ((x / m)^2 - (t * k / m)^2) <= 128 / 10 * ulp1 * (t * k / m)^2 + bpow radix2 (-100).
Proof.
  intros m t x k m0 h hm hy. set (y := t * k) in *. set (d := x - y) in *.
  assert (i0 : 0 < / m) by now apply Rinv_0_lt_compat.
  assert (i1 : / m <= bpow radix2 20) by (change 20%Z with (- (-20))%Z; rewrite bpow_opp; apply Rinv_le; [apply bpow_gt_0|exact hm]).
  set (z := y / m). set (e := d / m). assert (ex : x / m = z + e) by (unfold z, e, d; field; lra). rewrite ex.
  assert (he : Rabs e <= 63 / 10 * ulp1 * Rabs z + bpow radix2 (-130)).
  { unfold e, z, Rdiv. rewrite !Rabs_mult, !(Rabs_pos_eq (/ m)) by lra.
    apply Rle_trans with ((63 / 10 * ulp1 * Rabs y + tiny) * / m); [apply Rmult_le_compat_r; lra|].
    rewrite Rmult_plus_distr_r. apply Rplus_le_compat; [lra|]. change (-130)%Z with (-150 + 20)%Z. rewrite bpow_plus.
    pose proof tiny_pos. apply Rmult_le_compat; lra || apply Rle_refl. }
  assert (hz : Rabs z <= 2).
  { unfold z, Rdiv. rewrite Rabs_mult, (Rabs_pos_eq (/ m)) by lra. apply Rmult_le_reg_r with m; [exact m0|]. rewrite Rmult_assoc, Rinv_l by lra. lra. }
  replace ((z + e)^2 - z^2) with (2 * (z * e) + e * e) by ring. replace (z^2) with (Rabs z * Rabs z) by (rewrite <- Rabs_mult, Rabs_pos_eq; [ring|apply Rle_0_sqr]).
  assert (z0 := Rabs_pos z). assert (e0 := Rabs_pos e). set (Z := Rabs z) in *. set (w := bpow radix2 (-130)) in *.
  assert (w0 : 0 < w) by apply bpow_gt_0. assert (w1 : w <= / 1000000000 * ulp1) by (unfold w; rewrite u24; apply Rle_trans with (bpow radix2 (-30) * bpow radix2 (-24)); [rewrite <- bpow_plus; apply bpow_le; lia|apply Rmult_le_compat_r; [apply bpow_ge_0|cbn; lra]]).
  assert (t1 : Rabs (z * e) <= Z * (63 / 10 * ulp1 * Z + w)) by (rewrite Rabs_mult; fold Z; apply Rmult_le_compat_l; assumption).
  assert (t2 : Rabs (e * e) <= (63 / 10 * ulp1 * Z + w) * (63 / 10 * ulp1 * Z + w)) by (rewrite Rabs_mult; apply Rmult_le_compat; lra).
  assert (Zw : 0 <= Z * w <= 2 * w) by (split; [apply Rmult_le_pos; lra|apply Rmult_le_compat_r; lra]).
  assert (ww : w * w <= / 1000000000 * ulp1 * w) by (apply Rmult_le_compat_r; lra).
  assert (ZZ : 0 <= Z * Z) by apply Rle_0_sqr.
  assert (w10 : 10 * w <= bpow radix2 (-100)) by (apply Rle_trans with (bpow radix2 4 * w); [change (bpow radix2 4) with 16; lra|unfold w; rewrite <- bpow_plus; apply bpow_le; lia]).
  replace (2 * (z * e) + e * e) with ((z * e) + (z * e) + e * e) by ring.
  apply Rle_trans with (1 := Rabs_triang _ _). apply Rle_trans with (Rabs (z * e) + Rabs (z * e) + Rabs (e * e)); [apply Rplus_le_compat_r, Rabs_triang|].
  unfold ulp1 in *. lra.
Qed.

Lemma on_ellipse : fin (Bmult mode_NE T32 c) /\ fin (Bmult mode_NE T32 s) /\
  Rabs (v32 (Bmult mode_NE T32 c)) <= bpow radix2 40 /\ Rabs (v32 (Bmult mode_NE T32 s)) <= bpow radix2 40 /\
  Rabs (excess A B (v32 (Bmult mode_NE T32 c)) (v32 (Bmult mode_NE T32 s)) - 1) <= 13 * ulp1 /\
  exists t, 0 < t <= 11 / 10 * Rmax A B /\
    Rabs (v32 (Bmult mode_NE T32 c) - t * v32 c) <= bpow radix2 (-21) * t /\ Rabs (v32 (Bmult mode_NE T32 s) - t * v32 s) <= bpow radix2 (-21) * t.
Proof.
  destruct T_rel as [r [t0 [tl tu]]]. set (n := sqrt D) in *. set (t := A * B / n) in *. pose proof D_low as dl. pose proof (bpow_gt_0 radix2 (-40)) as p.
  assert (n0 : 0 < n) by (apply sqrt_lt_R0; lra). assert (nn : n * n = D) by (apply sqrt_sqrt; lra).
  destruct (p40 _ ha) as [a0 [a1 a2']]. destruct (p40 _ hb) as [b0 [b1 b2']].
  assert (tp := tiny_pos). assert (ts := tiny_small).
  assert (H : 8 * bpow radix2 62 <= huge) by (apply Rle_trans with (bpow radix2 3 * bpow radix2 62); [change (bpow radix2 3) with 8; lra|rewrite <- bpow_plus; apply bpow_le; lia]).
  assert (one : (t * v32 c / A)^2 + (t * v32 s / B)^2 = 1).
  { unfold t. replace ((A * B / n * v32 c / A) ^ 2 + (A * B / n * v32 s / B) ^ 2) with (D / (n * n)) by (unfold D; field; lra). rewrite nn. field. lra. }
  assert (pc := pow2_ge_0 (t * v32 c / A)). assert (ps := pow2_ge_0 (t * v32 s / B)).
  assert (kc : Rabs (t * v32 c) <= A).
  { apply Rmult_le_reg_r with (/ A); [now apply Rinv_0_lt_compat|]. rewrite Rinv_r by lra. rewrite <- (Rabs_pos_eq (/ A)) by (apply Rlt_le, Rinv_0_lt_compat, a0). rewrite <- Rabs_mult.
    rewrite <- (Rabs_pos_eq 1) by lra. apply Rsqr_le_abs_0. unfold Rsqr. fold (t * v32 c / A). replace (t * v32 c / A * (t * v32 c / A)) with ((t * v32 c / A)^2) by ring. lra. }
  assert (ks : Rabs (t * v32 s) <= B).
  { apply Rmult_le_reg_r with (/ B); [now apply Rinv_0_lt_compat|]. rewrite Rinv_r by lra. rewrite <- (Rabs_pos_eq (/ B)) by (apply Rlt_le, Rinv_0_lt_compat, b0). rewrite <- Rabs_mult.
    rewrite <- (Rabs_pos_eq 1) by lra. apply Rsqr_le_abs_0. unfold Rsqr. fold (t * v32 s / B). replace (t * v32 s / B * (t * v32 s / B)) with ((t * v32 s / B)^2) by ring. lra. }
  assert (M : forall k : f32, fin k -> Rabs (v32 k) <= 101 / 100 -> rel (Bmult mode_NE T32 k) (t * v32 k) (63 / 10) tiny).
  { intros k fk hk. assert (rk := rel_self k fk). assert (k0 := Rabs_pos (v32 k)).
    assert (tk : t * Rabs (v32 k) <= bpow radix2 62 * (101 / 100)) by (apply Rmult_le_compat; lra).
    assert (r1 := rel_mul _ _ _ _ _ _ _ _ r rk ltac:(lra) ltac:(lra) ltac:(lra) ltac:(lra)). rewrite (Rabs_pos_eq t) in r1 by lra. specialize (r1 ltac:(lra)).
    apply rel_le with (1 := r1); lra. }
  destruct (M c fc hc) as [f1 e1]. destruct (M s fs hs) as [f2 e2].
  set (x := Bmult mode_NE T32 c) in *. set (y := Bmult mode_NE T32 s) in *. clearbody x y.
  assert (B20 : 4 * bpow radix2 20 <= bpow radix2 40) by (change 4 with (bpow radix2 2); rewrite <- bpow_plus; apply bpow_le; lia).
  assert (G : 1 <= bpow radix2 20) by (change 1 with (bpow radix2 0); apply bpow_le; lia).
  assert (S1 : Rabs (v32 x) <= bpow radix2 40).
  { replace (v32 x) with ((v32 x - t * v32 c) + t * v32 c) by ring. apply Rle_trans with (1 := Rabs_triang _ _). unfold ulp1 in *. lra. }
  assert (S2 : Rabs (v32 y) <= bpow radix2 40).
  { replace (v32 y) with ((v32 y - t * v32 s) + t * v32 s) by ring. apply Rle_trans with (1 := Rabs_triang _ _). unfold ulp1 in *. lra. }
  split; [exact f1|]. split; [exact f2|]. split; [exact S1|]. split; [exact S2|]. split.
  - pose proof (scaled_square A t (v32 x) (v32 c) a0 e1 (proj1 ha) ltac:(lra)) as z1.
    pose proof (scaled_square B t (v32 y) (v32 s) b0 e2 (proj1 hb) ltac:(lra)) as z2.
    assert (w : bpow radix2 (-100) <= / 1000 * ulp1) by (rewrite u24; apply Rle_trans with (bpow radix2 (-10) * bpow radix2 (-24)); [rewrite <- bpow_plus; apply bpow_le; lia|apply Rmult_le_compat_r; [apply bpow_ge_0|cbn; lra]]).
    unfold excess. set (P := (t * v32 c / A)^2) in *. set (Q := (t * v32 s / B)^2) in *. clearbody P Q.
    assert (uP : 128 / 10 * ulp1 * P + 128 / 10 * ulp1 * Q = 128 / 10 * ulp1) by (rewrite <- Rmult_plus_distr_l, one; ring).
    replace ((v32 x / A) ^ 2 + (v32 y / B) ^ 2 - 1) with (((v32 x / A) ^ 2 - P) + ((v32 y / B) ^ 2 - Q)) by (rewrite <- one; ring).
    apply Rle_trans with (1 := Rabs_triang _ _). assert (0 < ulp1) by (unfold ulp1; lra). lra.
  - exists t. assert (X0 : A <= Rmax A B /\ B <= Rmax A B) by (split; [apply Rmax_l|apply Rmax_r]). set (X := Rmax A B) in *.
    assert (tt : tiny <= / 1000 * ulp1 * t).
    { apply Rle_trans with (bpow radix2 (-10) * bpow radix2 (-24) * bpow radix2 (-62)); [rewrite <- !bpow_plus; apply bpow_le; lia|].
      rewrite <- u24. assert (0 < ulp1) by (unfold ulp1; lra). apply Rmult_le_compat; [apply Rmult_le_pos; [apply bpow_ge_0|lra]|apply bpow_ge_0| |exact tl]. apply Rmult_le_compat_r; [lra|]. cbn. lra. }
    split; [split; [exact t0|]|].
    + assert (q : t * t * (96 / 100) <= X * X).
      { apply Rle_trans with (t * t * (v32 c * v32 c + v32 s * v32 s)); [apply Rmult_le_compat_l; [apply Rle_0_sqr|exact hcs]|].
        assert (v1 : (t * v32 c / A)^2 * (X * X) >= (t * v32 c)^2).
        { replace ((t * v32 c)^2) with ((t * v32 c / A)^2 * (A * A)) by (field; lra). apply Rle_ge, Rmult_le_compat_l; [exact pc|apply Rmult_le_compat; lra]. }
        assert (v2 : (t * v32 s / B)^2 * (X * X) >= (t * v32 s)^2).
        { replace ((t * v32 s)^2) with ((t * v32 s / B)^2 * (B * B)) by (field; lra). apply Rle_ge, Rmult_le_compat_l; [exact ps|apply Rmult_le_compat; lra]. }
        replace (t * t * (v32 c * v32 c + v32 s * v32 s)) with ((t * v32 c)^2 + (t * v32 s)^2) by ring.
        replace (X * X) with (((t * v32 c / A)^2 + (t * v32 s / B)^2) * (X * X)) by (rewrite one; ring). lra. }
      apply Rsqr_incr_0_var; [|lra]. unfold Rsqr. assert (0 <= X * X) by apply Rle_0_sqr. lra.
    + assert (b : bpow radix2 (-21) = 8 * ulp1) by (rewrite u24; change 8 with (bpow radix2 3); rewrite <- bpow_plus; reflexivity).
      assert (g : forall k, Rabs k <= 101 / 100 -> 63 / 10 * ulp1 * Rabs (t * k) + tiny <= bpow radix2 (-21) * t).
      { intros k hk. rewrite Rabs_mult, (Rabs_pos_eq t) by lra. assert (t * Rabs k <= t * (101 / 100)) by (apply Rmult_le_compat_l; lra). rewrite b. unfold ulp1 in *. lra. }
      split; [apply Rle_trans with (1 := e1)|apply Rle_trans with (1 := e2)]; now apply g.
Qed.
End Ellipse.

Lemma limit_val : fin (f32_frac 100001 100000) /\ 1 + 99 / 10000000 <= v32 (f32_frac 100001 100000) <= 1 + 101 / 10000000.
Proof.
  split; [reflexivity|]. rewrite <- SF2R_B2SF. replace (B2SF (f32_frac 100001 100000)) with (SpecFloat.S754_finite false 8388692 (-23)) by (vm_compute; reflexivity).
  cbn [SF2R]. unfold F2R. cbn [Fnum Fexp cond_Zopp bpow]. change (Z.pow_pos radix2 23) with 8388608%Z. lra.
Qed.


Lemma sin_small : forall x : R, Rabs (sin x) <= Rabs x.
Proof.
  assert (P : forall x, 0 <= x -> Rabs (sin x) <= x).
  { intros x h. destruct (Rle_lt_dec 1 x) as [g|g]; [apply Rle_trans with 1; [apply Rabs_le, SIN_bound|exact g]|].
    destruct (Req_dec x 0) as [->|n]; [rewrite sin_0, Rabs_R0; lra|]. pose proof PI2_1 as p.
    rewrite Rabs_pos_eq by (apply sin_ge_0; lra). apply Rlt_le, sin_lt_x. lra. }
  intro x. destruct (Rle_lt_dec 0 x) as [h|h]; [rewrite (Rabs_pos_eq x h); now apply P|].
  rewrite <- (Rabs_Ropp x), <- (Rabs_Ropp (sin x)), <- sin_neg. rewrite (Rabs_pos_eq (- x)) by lra. apply P. lra.
Qed.
Lemma half_prod : forall a b d : R, Rabs a <= 1 -> Rabs b <= Rabs (d / 2) -> Rabs (2 * (a * b)) <= Rabs d.
Proof.
  intros a b d h1 h2. rewrite !Rabs_mult, (Rabs_pos_eq 2) by lra. unfold Rdiv in h2. rewrite Rabs_mult, (Rabs_pos_eq (/ 2)) in h2 by lra.
  assert (Rabs a * Rabs b <= 1 * (Rabs d * / 2)) by (apply Rmult_le_compat; try apply Rabs_pos; assumption). lra.
Qed.
Lemma cos_close : forall x y : R, Rabs (cos x - cos y) <= Rabs (x - y).
Proof.
  intros x y. rewrite form2. replace (-2 * sin ((x - y) / 2) * sin ((x + y) / 2)) with (- (2 * (sin ((x + y) / 2) * sin ((x - y) / 2)))) by ring.
  rewrite Rabs_Ropp. apply half_prod; [apply Rabs_le, SIN_bound|apply sin_small].
Qed.
Lemma sin_close : forall x y : R, Rabs (sin x - sin y) <= Rabs (x - y).
Proof.
  intros x y. rewrite form4. replace (2 * cos ((x + y) / 2) * sin ((x - y) / 2)) with (2 * (cos ((x + y) / 2) * sin ((x - y) / 2))) by ring.
  apply half_prod; [apply Rabs_le, COS_bound|apply sin_small].
Qed.

Lemma clip_split : forall L mx my (m : Pose2D f32),
  let c := l_cos L (l_atan2 L (pose_y m) (pose_x m)) in let s := l_sin L (l_atan2 L (pose_y m) (pose_x m)) in
  let t := Bdiv mode_NE (Bmult mode_NE (Babs mx) (Babs my))
    (Bsqrt mode_NE (Bplus mode_NE (Bmult mode_NE (Bmult mode_NE (Bmult mode_NE (Babs my) (Babs my)) c) c)
                                  (Bmult mode_NE (Bmult mode_NE (Bmult mode_NE (Babs mx) (Babs mx)) s) s))) in
  @clipFootWithEllipse f32 (F32Scalar L) mx my m =
  if Bltb (norm32 mx my (pose_x m) (pose_y m)) (f32_frac 100001 100000) then (false, m)
  else (true, mkPose2D (Bmult mode_NE t c) (Bmult mode_NE t s) (pose_theta m)).
Proof. reflexivity. Qed.

Lemma norm_test : forall (mx my x y : f32), fin mx -> fin my ->
  bpow radix2 (-20) <= Rabs (v32 mx) <= bpow radix2 20 -> bpow radix2 (-20) <= Rabs (v32 my) <= bpow radix2 20 ->
  fin x -> fin y -> Rabs (v32 x) <= bpow radix2 40 -> Rabs (v32 y) <= bpow radix2 40 ->
  let b := Bltb (norm32 mx my x y) (f32_frac 100001 100000) in let E := excess (Rabs (v32 mx)) (Rabs (v32 my)) (v32 x) (v32 y) in
  (E <= 1 + 9 / 1000000 -> b = true) /\ (1 + 11 / 1000000 <= E -> b = false) /\
  (b = true -> E <= 1 + 11 / 1000000) /\ (b = false -> 1 <= E).
Proof.
  intros mx my x y fa fb ha hb fx fy hx hy b E. destruct (norm_rel mx my fa fb ha hb x y fx fy hx hy) as [f e]. fold E in e.
  destruct limit_val as [f1 h1]. assert (w : bpow radix2 (-100) <= / 1000 * ulp1) by (rewrite u24; apply Rle_trans with (bpow radix2 (-10) * bpow radix2 (-24)); [rewrite <- bpow_plus; apply bpow_le; lia|apply Rmult_le_compat_r; [apply bpow_ge_0|cbn; lra]]).
  assert (E0 : 0 <= E) by (unfold E, excess; apply Rplus_le_le_0_compat; apply pow2_ge_0). rewrite (Rabs_pos_eq E E0) in e. apply Rabs_le_inv in e. unfold ulp1 in *.
  assert (eb : b = Rlt_bool (v32 (norm32 mx my x y)) (v32 (f32_frac 100001 100000))) by (unfold b; now rewrite Bltb_correct). rewrite eb.
  split; [|split; [|split]].
  - intro h. apply Rlt_bool_true. lra.
  - intro h. apply Rlt_bool_false. lra.
  - destruct (Rlt_bool_spec (v32 (norm32 mx my x y)) (v32 (f32_frac 100001 100000))) as [g|g]; [intros _; lra|discriminate].
  - destruct (Rlt_bool_spec (v32 (norm32 mx my x y)) (v32 (f32_frac 100001 100000))) as [g|g]; [discriminate|intros _; lra].
Qed.

Lemma trig_ok : forall L e x, accurate L e -> 0 <= e <= / 100 -> fin x ->
  fin (l_cos L x) /\ fin (l_sin L x) /\ Rabs (v32 (l_cos L x)) <= 101 / 100 /\ Rabs (v32 (l_sin L x)) <= 101 / 100 /\
  96 / 100 <= v32 (l_cos L x) * v32 (l_cos L x) + v32 (l_sin L x) * v32 (l_sin L x).
Proof.
  intros L e x h he fx. destruct (h x fx) as [f1 [e1 [f2 e2]]]. unfold val in *. set (p := v32 (l_cos L x)) in *. set (q := v32 (l_sin L x)) in *.
  pose proof (COS_bound (v32 x)) as b1. pose proof (SIN_bound (v32 x)) as b2. pose proof (sin2_cos2 (v32 x)) as o. unfold Rsqr in o.
  set (C := cos (v32 x)) in *. set (S := sin (v32 x)) in *. split; [exact f1|]. split; [exact f2|].
  assert (g1 : - / 100 <= p - C <= / 100) by (abs2; lra). assert (g2 : - / 100 <= q - S <= / 100) by (abs2; lra). clear e1 e2.
  split; [apply Rabs_le; lra|]. split; [apply Rabs_le; lra|].
  set (d := p - C) in *. set (d' := q - S) in *. assert (Ep : p = C + d) by (unfold d; ring). assert (Eq : q = S + d') by (unfold d'; ring). rewrite Ep, Eq.
  assert (k1 : - / 100 <= C * d <= / 100) by (apply Rabs_le_inv; rewrite Rabs_mult; replace (/ 100) with (1 * / 100) by lra; apply Rmult_le_compat; try apply Rabs_pos; apply Rabs_le; lra).
  assert (k2 : - / 100 <= S * d' <= / 100) by (apply Rabs_le_inv; rewrite Rabs_mult; replace (/ 100) with (1 * / 100) by lra; apply Rmult_le_compat; try apply Rabs_pos; apply Rabs_le; lra).
  assert (s1 := Rle_0_sqr d). assert (s2 := Rle_0_sqr d'). unfold Rsqr in s1, s2. lra.
Qed.

Lemma C81_clip_proof : forall (L : libm32) (e : R) (mx my : f32) (m : Pose2D f32),
  accurate L e -> accurate_angle L e -> 0 <= e <= / 100 ->
  is_finite mx = true -> is_finite my = true -> is_finite (pose_x m) = true -> is_finite (pose_y m) = true ->
  let a := Rabs (val mx) in let b := Rabs (val my) in
  bpow radix2 (-20) <= a <= bpow radix2 20 -> bpow radix2 (-20) <= b <= bpow radix2 20 ->
  Rabs (val (pose_x m)) <= bpow radix2 40 -> Rabs (val (pose_y m)) <= bpow radix2 40 ->
  let E := excess a b (val (pose_x m)) (val (pose_y m)) in
  exists (clipped : bool) (m' : Pose2D f32), @clipFootWithEllipse f32 (F32Scalar L) mx my m = (clipped, m') /\
    is_finite (pose_x m') = true /\ is_finite (pose_y m') = true /\ pose_theta m' = pose_theta m /\
    (E <= 1 + 9 / 1000000 -> clipped = false) /\ (1 + 11 / 1000000 <= E -> clipped = true) /\
    (clipped = false -> m' = m) /\
    (clipped = true -> Rabs (excess a b (val (pose_x m')) (val (pose_y m')) - 1) <= bpow radix2 (-20) /\
       exists k, 0 < k /\ Rabs (val (pose_x m') - k * val (pose_x m)) <= (3 * e + bpow radix2 (-20)) * Rmax a b /\
                          Rabs (val (pose_y m') - k * val (pose_y m)) <= (3 * e + bpow radix2 (-20)) * Rmax a b) /\
    excess a b (val (pose_x m')) (val (pose_y m')) <= 1 + 11 / 1000000.
Proof.
  intros L e mx my m hL hA he fa fb fx fy a b ha hb hx hy E. unfold val in *.
  destruct (norm_test mx my _ _ fa fb ha hb fx fy hx hy) as [n1 [n2 [n3 n4]]]. fold a b in n1, n2, n3, n4. fold E in n1, n2, n3, n4.
  assert (b20 : 13 * ulp1 <= bpow radix2 (-20)) by (rewrite u24; apply Rle_trans with (bpow radix2 4 * bpow radix2 (-24)); [change (bpow radix2 4) with 16; pose proof (bpow_gt_0 radix2 (-24)); lra|rewrite <- bpow_plus; apply Rle_refl]).
  rewrite clip_split. destruct (Bltb (norm32 mx my (pose_x m) (pose_y m)) (f32_frac 100001 100000)) eqn:Eb.
  - exists false, m. split; [reflexivity|]. split; [exact fx|]. split; [exact fy|]. split; [reflexivity|]. split; [now intros _|]. split; [intro h; specialize (n2 h); discriminate|].
    split; [now intros _|]. split; [discriminate|]. now apply n3.
  - specialize (n4 eq_refl). clear n1 n2 n3.
    assert (nz : ~ (val (pose_x m) = 0 /\ val (pose_y m) = 0)).
    { unfold val. intros [z1 z2]. unfold E, excess in n4. rewrite z1, z2 in n4. unfold Rdiv in n4. rewrite !Rmult_0_l in n4. lra. }
    destruct (hA _ _ fy fx nz) as [ft [r [th [r0 [ex [ey et]]]]]]. set (t := l_atan2 L (pose_y m) (pose_x m)) in *. unfold val in ex, ey, et.
    destruct (trig_ok L e t hL he ft) as [fc [fs [hc [hs hcs]]]]. destruct (hL t ft) as [_ [ec [_ es]]]. unfold val in ec, es.
    destruct (on_ellipse mx my fa fb ha hb _ _ fc fs hc hs hcs) as [g1 [g2 [g3 [g4 [g5 [d [[d0 d1] [d2 d3]]]]]]]]. fold a b in g5, d1.
    eexists true, _. split; [reflexivity|]. cbn [pose_x pose_y pose_theta].
    set (x' := Bmult mode_NE _ (l_cos L t)) in *. set (y' := Bmult mode_NE _ (l_sin L t)) in *. clearbody x' y'.
    split; [exact g1|]. split; [exact g2|]. split; [reflexivity|]. split; [intro h|].
    { exfalso. destruct (norm_test mx my _ _ fa fb ha hb fx fy hx hy) as [n1 _]. fold a b in n1. fold E in n1. rewrite (n1 h) in Eb. discriminate. }
    split; [now intros _|]. split; [discriminate|].
    assert (b20' : bpow radix2 (-20) <= 11 / 1000000) by (cbn; lra).
    split; [|abs2; lra]. intros _. split; [lra|]. exists (d / r). split; [now apply Rdiv_lt_0_compat|].
    assert (cc : Rabs (v32 (l_cos L t) - cos th) <= 2 * e).
    { replace (v32 (l_cos L t) - cos th) with ((v32 (l_cos L t) - cos (v32 t)) + (cos (v32 t) - cos th)) by ring.
      apply Rle_trans with (1 := Rabs_triang _ _). pose proof (cos_close (v32 t) th). lra. }
    assert (ss : Rabs (v32 (l_sin L t) - sin th) <= 2 * e).
    { replace (v32 (l_sin L t) - sin th) with ((v32 (l_sin L t) - sin (v32 t)) + (sin (v32 t) - sin th)) by ring.
      apply Rle_trans with (1 := Rabs_triang _ _). pose proof (sin_close (v32 t) th). lra. }
    assert (b21 : bpow radix2 (-20) = 2 * bpow radix2 (-21)) by (change 2 with (bpow radix2 1); rewrite <- bpow_plus; reflexivity).
    pose proof (bpow_gt_0 radix2 (-21)) as p21. set (X := Rmax a b) in *.
    assert (G : forall v c C, Rabs (v - d * c) <= bpow radix2 (-21) * d -> Rabs (c - C) <= 2 * e -> Rabs (v - d / r * (r * C)) <= (3 * e + bpow radix2 (-20)) * X).
    { intros v c C h1 h2. replace (v - d / r * (r * C)) with ((v - d * c) + d * (c - C)) by (field; lra).
      apply Rle_trans with (1 := Rabs_triang _ _). rewrite Rabs_mult, (Rabs_pos_eq d) by lra.
      assert (d * Rabs (c - C) <= d * (2 * e)) by (apply Rmult_le_compat_l; lra).
      assert (d * (2 * e + bpow radix2 (-21)) <= 11 / 10 * X * (2 * e + bpow radix2 (-21))) by (apply Rmult_le_compat_r; lra).
      assert (X0 : 0 < X) by lra. assert (0 <= X * e) by (apply Rmult_le_pos; lra). assert (0 < X * bpow radix2 (-21)) by now apply Rmult_lt_0_compat.
      rewrite b21. lra. }
    rewrite ex, ey. split; eapply G; eassumption.
Qed.


Lemma C81_idempotent_proof : forall (L : libm32) (e : R) (mx my : f32) (m m' : Pose2D f32) (clipped : bool),
  accurate L e -> accurate_angle L e -> 0 <= e <= / 100 ->
  is_finite mx = true -> is_finite my = true -> is_finite (pose_x m) = true -> is_finite (pose_y m) = true ->
  bpow radix2 (-20) <= Rabs (val mx) <= bpow radix2 20 -> bpow radix2 (-20) <= Rabs (val my) <= bpow radix2 20 ->
  Rabs (val (pose_x m)) <= bpow radix2 40 -> Rabs (val (pose_y m)) <= bpow radix2 40 ->
  @clipFootWithEllipse f32 (F32Scalar L) mx my m = (clipped, m') ->
  @clipFootWithEllipse f32 (F32Scalar L) mx my m' = (false, m').
Proof.
  intros L e mx my m m' clipped hL hA he fa fb fx fy ha hb hx hy h. unfold val in *.
  destruct (norm_test mx my _ _ fa fb ha hb fx fy hx hy) as [_ [_ [_ n4]]].
  rewrite clip_split in h. destruct (Bltb (norm32 mx my (pose_x m) (pose_y m)) (f32_frac 100001 100000)) eqn:Eb.
  - injection h as <- <-. rewrite clip_split, Eb. reflexivity.
  - specialize (n4 eq_refl).
    assert (nz : ~ (val (pose_x m) = 0 /\ val (pose_y m) = 0)).
    { unfold val. intros [z1 z2]. unfold excess in n4. rewrite z1, z2 in n4. unfold Rdiv in n4. rewrite !Rmult_0_l in n4. lra. }
    destruct (hA _ _ fy fx nz) as [ft _]. set (t := l_atan2 L (pose_y m) (pose_x m)) in *.
    destruct (trig_ok L e t hL he ft) as [fc [fs [hc [hs hcs]]]].
    destruct (on_ellipse mx my fa fb ha hb _ _ fc fs hc hs hcs) as [g1 [g2 [g3 [g4 [g5 _]]]]].
    destruct (norm_test mx my _ _ fa fb ha hb g1 g2 g3 g4) as [k _].
    assert (k' := k ltac:(apply Rabs_le_inv in g5; unfold ulp1 in g5; lra)). clear k g1 g2 g3 g4 g5.
    injection h as <- <-. rewrite clip_split. cbn [pose_x pose_y].
    match goal with |- (if ?b then _ else _) = _ => replace b with true by (symmetry; exact k') end. reflexivity.
Qed.


Lemma quarter_exact : forall x : f32, fin x -> Rabs (v32 x) <= 2 -> apx (Bmult mode_NE (f32_ofZ 4) x) (4 * v32 x) (9 * ulp1).
Proof.
  intros x fx hx. assert (v4 : v32 (f32_ofZ 4) = 4) by (cbv; lra). pose proof huge_big as hb. pose proof tiny_small as ts. assert (f4 : fin (f32_ofZ 4)) by reflexivity.
  assert (h := apx_mul (f32_ofZ 4) x _ _ 4 2 0 0 (apx_self _ f4) (apx_self _ fx)). rewrite v4 in h.
  specialize (h ltac:(rewrite Rabs_pos_eq; lra) hx ltac:(lra)). apply apx_le with (1 := h). unfold ulp1. lra.
Qed.
Lemma C81_accurate_proof : exists L : libm32, accurate L (bpow radix2 (-19)) /\ accurate_angle L (bpow radix2 (-19)).
Proof.
  exists {| l_cos := fun x => correct_round (cos (val x)); l_sin := fun x => correct_round (sin (val x)); l_acos := fun x => x;
            l_atan2 := fun y x => Bmult mode_NE (f32_ofZ 4) (correct_round (Ratan2 (val y) (val x) / 4)) |}.
  assert (b23 : bpow radix2 (-23) = 2 * ulp1) by (rewrite u24; change 2 with (bpow radix2 1); rewrite <- bpow_plus; reflexivity).
  assert (b19 : bpow radix2 (-19) = 32 * ulp1) by (rewrite u24; change 32 with (bpow radix2 5); rewrite <- bpow_plus; reflexivity).
  assert (u0 : 0 < ulp1 <= / 1000) by (unfold ulp1; lra). split.
  - intros x hx. cbn [l_cos l_sin]. rewrite b19.
    destruct (correct_round_ok (cos (val x))) as [h1 h2]; [apply Rabs_le; apply COS_bound|].
    destruct (correct_round_ok (sin (val x))) as [h3 h4]; [apply Rabs_le; apply SIN_bound|]. rewrite b23 in *.
    repeat split; try assumption; lra.
  - intros y x fy fx nz. cbn [l_atan2]. rewrite b19. set (a := Ratan2 (val y) (val x)).
    pose proof (Ratan2_range (val y) (val x)) as ra. fold a in ra. pose proof PI_4 as p4.
    destruct (correct_round_ok (a / 4)) as [h1 h2]; [apply Rabs_le; lra|]. rewrite b23 in h2. unfold val in h2.
    set (q := correct_round (a / 4)) in *. apply Rabs_le_inv in h2.
    destruct (quarter_exact q h1) as [f e]; [apply Rabs_le; lra|]. split; [exact f|].
    set (n := val x * val x + val y * val y). assert (x0 := Rle_0_sqr (val x)). assert (y0 := Rle_0_sqr (val y)). unfold Rsqr in x0, y0.
    assert (n0 : n <> 0).
    { unfold n. intro z. apply nz. split; apply Rsqr_0_uniq; unfold Rsqr; lra. }
    destruct (Ratan2_cos_sin (val y) (val x) n0) as [c s]. fold a n in c, s.
    assert (r0 : 0 < sqrt n) by (apply sqrt_lt_R0; unfold n in *; lra).
    exists (sqrt n), a. split; [exact r0|]. rewrite c, s. split; [field; lra|]. split; [field; lra|].
    unfold val. apply Rabs_le_inv in e. apply Rabs_le. lra.
Qed.
