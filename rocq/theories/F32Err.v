(** * Rounding errors of binary32 operations *)

From Coq Require Import Reals ZArith Lra Lia Bool.
From Flocq Require Import Core.Core IEEE754.BinarySingleNaN.
From Flocq Require Import Relative.
From Verif Require Import Scalar F32.
Local Open Scope R_scope.

(** The value of a float, and being finite. *)
Notation v32 := (@B2R 24 128).
Notation fin x := (is_finite x = true).

Definition ulp1 : R := / 16777216.
Definition tiny : R := bpow radix2 (-150).
Definition huge : R := bpow radix2 126.

Lemma tiny_pos : 0 < tiny.
Proof. apply bpow_gt_0. Qed.
Lemma tiny_small : tiny <= / 1000000000000000000000000000000.
Proof.
  unfold tiny. apply Rle_trans with (bpow radix2 (-100)); [apply bpow_le; lia|].
  cbn [bpow]. apply Rinv_le; [lra|]. change (Z.pow_pos radix2 100) with 1267650600228229401496703205376%Z. lra.
Qed.
Lemma huge_big : 1000000000000000000000000000000 <= huge.
Proof.
  unfold huge. apply Rle_trans with (bpow radix2 100); [|apply bpow_le; lia].
  cbn [bpow]. change (Z.pow_pos radix2 100) with 1267650600228229401496703205376%Z. lra.
Qed.

Definition rd (x : R) : R := round radix2 (SpecFloat.fexp 24 128) ZnearestE x.

Lemma rd_err : forall x, Rabs (rd x - x) <= ulp1 * Rabs x + tiny.
Proof.
  intros x. unfold rd. destruct (error_N_FLT radix2 (-149) 24 eq_refl (fun z => negb (Z.even z)) x) as [e [t [he [ht [_ E]]]]].
  change (SpecFloat.fexp 24 128) with (FLT_exp (-149) 24). rewrite E.
  replace (x * (1 + e) + t - x) with (x * e + t) by ring.
  apply Rle_trans with (1 := Rabs_triang _ _). rewrite Rabs_mult.
  assert (h1 : Rabs e <= ulp1).
  { apply Rle_trans with (1 := he). unfold ulp1. cbn [bpow Z.add Z.opp Z.pos_sub]. cbn. lra. }
  assert (h2 : Rabs t <= tiny).
  { apply Rle_trans with (1 := ht). unfold tiny. apply Req_le.
    change (/ 2) with (bpow radix2 (-1)). rewrite <- bpow_plus. reflexivity. }
  pose proof (Rabs_pos x). assert (Rabs x * Rabs e <= ulp1 * Rabs x) by (rewrite Rmult_comm; now apply Rmult_le_compat_r). lra.
Qed.

Lemma rd_lt : forall x, Rabs x <= huge -> Rabs (rd x) < bpow radix2 128.
Proof.
  intros x h. pose proof (rd_err x) as E. pose proof tiny_small as Ht. pose proof huge_big as Hh.
  assert (bpow radix2 128 = 4 * huge) as ->.
  { unfold huge. change 4 with (bpow radix2 2). rewrite <- bpow_plus. reflexivity. }
  assert (T := Rabs_triang (rd x - x) x). replace (rd x - x + x) with (rd x) in T by ring.
  unfold ulp1 in E. lra.
Qed.

Lemma add_rd : forall x y : f32, fin x -> fin y -> Rabs (v32 x + v32 y) <= huge ->
  fin (Bplus mode_NE x y) /\ v32 (Bplus mode_NE x y) = rd (v32 x + v32 y).
Proof.
  intros x y hx hy h. generalize (Bplus_correct 24 128 _ _ mode_NE x y hx hy).
  rewrite Rlt_bool_true by (apply rd_lt, h). intros [h1 [h2 _]]. auto.
Qed.
Lemma sub_rd : forall x y : f32, fin x -> fin y -> Rabs (v32 x - v32 y) <= huge ->
  fin (Bminus mode_NE x y) /\ v32 (Bminus mode_NE x y) = rd (v32 x - v32 y).
Proof.
  intros x y hx hy h. generalize (Bminus_correct 24 128 _ _ mode_NE x y hx hy).
  rewrite Rlt_bool_true by (apply rd_lt, h). intros [h1 [h2 _]]. auto.
Qed.
Lemma mul_rd : forall x y : f32, fin x -> fin y -> Rabs (v32 x * v32 y) <= huge ->
  fin (Bmult mode_NE x y) /\ v32 (Bmult mode_NE x y) = rd (v32 x * v32 y).
Proof.
  intros x y hx hy h. generalize (Bmult_correct 24 128 _ _ mode_NE x y).
  rewrite Rlt_bool_true by (apply rd_lt, h). rewrite hx, hy. intros [h1 [h2 _]]. auto.
Qed.
Lemma div_rd : forall x y : f32, fin x -> fin y -> v32 y <> 0 -> Rabs (v32 x / v32 y) <= huge ->
  fin (Bdiv mode_NE x y) /\ v32 (Bdiv mode_NE x y) = rd (v32 x / v32 y).
Proof.
  intros x y hx hy ny h. generalize (Bdiv_correct 24 128 _ _ mode_NE x y ny).
  rewrite Rlt_bool_true by (apply rd_lt, h). rewrite hx. intros [h1 [h2 _]]. auto.
Qed.
Lemma sqrt_rd : forall x : f32, fin x -> 0 <= v32 x ->
  fin (Bsqrt mode_NE x) /\ v32 (Bsqrt mode_NE x) = rd (sqrt (v32 x)).
Proof.
  intros x hx h. generalize (Bsqrt_correct 24 128 _ _ mode_NE x). intros [h1 [h2 _]]. split; [|exact h1].
  rewrite h2. destruct x as [s|s| |s m e b]; try reflexivity; try discriminate hx. destruct s; [|reflexivity].
  exfalso. cbn in h. apply (Rlt_not_le _ _ (F2R_lt_0 radix2 (Float radix2 (Zneg m) e) eq_refl)). exact h.
Qed.
Lemma opp_rd : forall x : f32, fin x -> fin (Bopp x) /\ v32 (Bopp x) = - v32 x.
Proof. intros x hx. split; [now rewrite is_finite_Bopp|apply B2R_Bopp]. Qed.

Lemma one_rd : fin (f32_ofZ 1) /\ v32 (f32_ofZ 1) = 1.
Proof. split; [reflexivity|]. cbv. lra. Qed.
Lemma zero_rd : fin (f32_ofZ 0) /\ v32 (f32_ofZ 0) = 0.
Proof. split; reflexivity. Qed.

Ltac abs2 := repeat match goal with
  | h : Rabs _ <= _ |- _ => apply Rabs_le_inv in h; destruct h
  end.
Lemma abs_atom : forall x : R, - Rabs x <= x <= Rabs x.
Proof. intro x. split; [|apply Rle_abs]. rewrite <- (Ropp_involutive x) at 2. rewrite <- Rabs_Ropp. apply Ropp_le_contravar, Rle_abs. Qed.

(** Sums of products, with the rounding errors relative to the sum of the absolute values
    of their terms. *)
Lemma mul_err : forall x y : f32, fin x -> fin y -> Rabs (v32 x * v32 y) <= / 100 * huge ->
  fin (Bmult mode_NE x y) /\
  Rabs (v32 (Bmult mode_NE x y) - v32 x * v32 y) <= ulp1 * Rabs (v32 x * v32 y) + tiny.
Proof.
  intros x y hx hy h. pose proof (bpow_gt_0 radix2 126) as hp. fold huge in hp.
  destruct (mul_rd x y hx hy) as [h1 h2]; [lra|]. split; [exact h1|]. rewrite h2. apply rd_err.
Qed.

Lemma add_err : forall (x y : f32) r s a b e f, fin x -> fin y ->
  Rabs r <= a -> Rabs s <= b -> Rabs (v32 x - r) <= e -> Rabs (v32 y - s) <= f -> a + b + e + f <= huge ->
  fin (Bplus mode_NE x y) /\
  Rabs (v32 (Bplus mode_NE x y) - (r + s)) <= e + f + ulp1 * (a + b + e + f) + tiny.
Proof.
  intros x y r s a b e f hx hy ha hb he hf h.
  assert (hs : Rabs (v32 x + v32 y) <= a + b + e + f) by (abs2; apply Rabs_le; lra).
  destruct (add_rd x y hx hy) as [h1 h2]; [lra|]. split; [exact h1|]. rewrite h2.
  pose proof (rd_err (v32 x + v32 y)) as E.
  assert (ulp1 * Rabs (v32 x + v32 y) <= ulp1 * (a + b + e + f)) by (apply Rmult_le_compat_l; [unfold ulp1; lra|exact hs]).
  abs2. apply Rabs_le. lra.
Qed.

Lemma dot3_err : forall x1 y1 x2 y2 x3 y3 : f32,
  fin x1 -> fin y1 -> fin x2 -> fin y2 -> fin x3 -> fin y3 ->
  let S := Rabs (v32 x1 * v32 y1) + Rabs (v32 x2 * v32 y2) + Rabs (v32 x3 * v32 y3) in
  S <= / 100 * huge ->
  let p := Bplus mode_NE (Bplus mode_NE (Bmult mode_NE x1 y1) (Bmult mode_NE x2 y2)) (Bmult mode_NE x3 y3) in
  fin p /\ Rabs (v32 p - (v32 x1 * v32 y1 + v32 x2 * v32 y2 + v32 x3 * v32 y3)) <= 31 / 10 * ulp1 * S + 6 * tiny.
Proof.
  intros x1 y1 x2 y2 x3 y3 hx1 hy1 hx2 hy2 hx3 hy3 S hS p.
  pose proof (Rabs_pos (v32 x1 * v32 y1)) as p1. pose proof (Rabs_pos (v32 x2 * v32 y2)) as p2. pose proof (Rabs_pos (v32 x3 * v32 y3)) as p3.
  pose proof tiny_pos as tp. pose proof tiny_small as ts. pose proof huge_big as hb. unfold ulp1 in *.
  destruct (mul_err x1 y1 hx1 hy1) as [f1 e1]; [unfold S in hS; lra|].
  destruct (mul_err x2 y2 hx2 hy2) as [f2 e2]; [unfold S in hS; lra|].
  destruct (mul_err x3 y3 hx3 hy3) as [f3 e3]; [unfold S in hS; lra|].
  destruct (add_err _ _ _ _ _ _ _ _ f1 f2 (Rle_refl _) (Rle_refl _) e1 e2) as [f4 e4]; [unfold S, ulp1 in *; lra|].
  destruct (add_err _ _ _ _ _ _ _ _ f4 f3 (Rabs_triang _ _) (Rle_refl _) e4 e3) as [f5 e5]; [unfold S, ulp1 in *; lra|].
  split; [exact f5|]. apply Rle_trans with (1 := e5). unfold S, ulp1 in *. lra.
Qed.

Lemma dot3p_err : forall x1 y1 x2 y2 x3 y3 z : f32,
  fin x1 -> fin y1 -> fin x2 -> fin y2 -> fin x3 -> fin y3 -> fin z ->
  let S := Rabs (v32 x1 * v32 y1) + Rabs (v32 x2 * v32 y2) + Rabs (v32 x3 * v32 y3) + Rabs (v32 z) in
  S <= / 100 * huge ->
  let p := Bplus mode_NE (Bplus mode_NE (Bplus mode_NE (Bmult mode_NE x1 y1) (Bmult mode_NE x2 y2)) (Bmult mode_NE x3 y3)) z in
  fin p /\ Rabs (v32 p - (v32 x1 * v32 y1 + v32 x2 * v32 y2 + v32 x3 * v32 y3 + v32 z)) <= 5 * ulp1 * S + 8 * tiny.
Proof.
  intros x1 y1 x2 y2 x3 y3 z hx1 hy1 hx2 hy2 hx3 hy3 hz S hS p.
  pose proof (Rabs_pos (v32 x1 * v32 y1)) as p1. pose proof (Rabs_pos (v32 x2 * v32 y2)) as p2. pose proof (Rabs_pos (v32 x3 * v32 y3)) as p3.
  pose proof (Rabs_pos (v32 z)) as p4.
  pose proof tiny_pos as tp. pose proof tiny_small as ts. pose proof huge_big as hb.
  destruct (dot3_err x1 y1 x2 y2 x3 y3 hx1 hy1 hx2 hy2 hx3 hy3) as [f1 e1]; [unfold S in hS; cbv zeta; lra|].
  assert (hz0 : Rabs (v32 z - v32 z) <= 0) by (rewrite Rminus_diag_eq by reflexivity; rewrite Rabs_R0; lra).
  assert (ha : Rabs (v32 x1 * v32 y1 + v32 x2 * v32 y2 + v32 x3 * v32 y3) <= Rabs (v32 x1 * v32 y1) + Rabs (v32 x2 * v32 y2) + Rabs (v32 x3 * v32 y3)).
  { apply Rle_trans with (1 := Rabs_triang _ _). apply Rplus_le_compat_r, Rabs_triang. }
  destruct (add_err _ _ _ _ _ _ _ _ f1 hz ha (Rle_refl _) e1 hz0) as [f2 e2]; [cbv zeta in *; unfold S, ulp1 in *; lra|].
  split; [exact f2|]. apply Rle_trans with (1 := e2). cbv zeta in *. unfold S, ulp1 in *. lra.
Qed.
