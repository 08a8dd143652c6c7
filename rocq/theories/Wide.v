(** * Expressions the compiler evaluates in double precision: conversions and rounding *)

From Coq Require Import Reals ZArith Lra Lia Bool.
From Flocq Require Import Core.Core IEEE754.BinarySingleNaN.
From Verif Require Import Scalar F32 F32Lemmas F32Err F64Err.
Local Open Scope R_scope.

Notation fexp64 := (SpecFloat.fexp 53 1024).

Lemma in64 : forall x, generic_format radix2 fexp32 x -> generic_format radix2 fexp64 x.
Proof.
  intros x. apply generic_inclusion_mag. intros _. unfold SpecFloat.fexp, SpecFloat.emin. lia.
Qed.

(** From [float] to [double]: the same number. *)
Lemma f64_of_f32_ok : forall x : f32, is_finite x = true ->
  is_finite (f64_of_f32 x) = true /\ v64 (f64_of_f32 x) = B2R x.
Proof.
  intros [s|s| |s m e b] h; try discriminate; [split; reflexivity|]. cbn [f64_of_f32].
  set (x := B754_finite s m e b : f32).
  generalize (binary_normalize_correct 53 1024 _ _ mode_NE (cond_Zopp s (Zpos m)) e s). cbv zeta.
  change (F2R {| Fnum := cond_Zopp s (Zpos m); Fexp := e |}) with (B2R x).
  rewrite round_generic; [|apply valid_rnd_N|apply in64, generic_format_B2R].
  rewrite Rlt_bool_true; [intros [h1 [h2 _]]; auto|].
  apply Rlt_trans with (bpow radix2 128); [apply abs_B2R_lt_emax|apply bpow_lt; lia].
Qed.

(** From [double] to [float]: rounded to the nearest. *)
Lemma f32_of_f64_ok : forall y : f64, is_finite y = true -> Rabs (v64 y) <= huge ->
  is_finite (f32_of_f64 y) = true /\ B2R (f32_of_f64 y) = rd (v64 y).
Proof.
  intros [s|s| |s m e b] h hb; try discriminate.
  - split; [reflexivity|]. cbn. unfold rd. now rewrite round_0 by apply valid_rnd_N.
  - cbn [f32_of_f64]. set (y := B754_finite s m e b : f64) in *.
    generalize (binary_normalize_correct 24 128 _ _ mode_NE (cond_Zopp s (Zpos m)) e s). cbv zeta.
    change (F2R {| Fnum := cond_Zopp s (Zpos m); Fexp := e |}) with (v64 y).
    rewrite Rlt_bool_true by (apply rd_lt, hb). intros [h1 [h2 _]]. auto.
Qed.

(** The square of a [float] is a [double]. *)
Lemma sqr64 : forall x : R, generic_format radix2 fexp32 x -> generic_format radix2 fexp64 (x * x).
Proof.
  intros x h. apply (FLT_format_generic radix2 (-149) 24) in h. destruct h as [[m e] E h1 h2]. cbn [Fnum Fexp] in *.
  apply (generic_format_FLT radix2 (-1074) 53). exists (Float radix2 (m * m) (e + e)).
  - rewrite E. unfold F2R. cbn [Fnum Fexp]. rewrite mult_IZR, bpow_plus. ring.
  - cbn [Fnum]. rewrite Z.abs_mul. change (radix2 ^ 53)%Z with 9007199254740992%Z. change (radix2 ^ 24)%Z with 16777216%Z in h1. nia.
  - cbn [Fexp]. lia.
Qed.
Lemma pow2_exact : forall x : f32, is_finite x = true ->
  is_finite (Bmult mode_NE (f64_of_f32 x) (f64_of_f32 x)) = true /\
  v64 (Bmult mode_NE (f64_of_f32 x) (f64_of_f32 x)) = B2R x * B2R x.
Proof.
  intros x h. destruct (f64_of_f32_ok x h) as [f E].
  assert (b : Rabs (v64 (f64_of_f32 x) * v64 (f64_of_f32 x)) <= huge64).
  { rewrite E, Rabs_mult. apply Rle_trans with (bpow radix2 128 * bpow radix2 128).
    - apply Rmult_le_compat; try apply Rabs_pos; apply Rlt_le, abs_B2R_lt_emax.
    - rewrite <- bpow_plus. apply bpow_le. lia. }
  destruct (mul64_rd _ _ f f b) as [g1 g2]. split; [exact g1|]. rewrite g2, E. unfold rd64.
  apply round_generic; [apply valid_rnd_N|]. apply sqr64, generic_format_B2R.
Qed.

(** [std::pow(x, 2)] stored in a [float] is the [float] product. *)
Lemma pow2_stored : forall x : f32, is_finite x = true -> Rabs (B2R x * B2R x) <= huge ->
  is_finite (f32_wide (WPow2 x)) = true /\ B2R (f32_wide (WPow2 x)) = B2R (Bmult mode_NE x x).
Proof.
  intros x h hb. destruct (pow2_exact x h) as [f E]. unfold f32_wide. cbn [wide_eval].
  destruct (f32_of_f64_ok _ f) as [g1 g2]; [rewrite E; exact hb|]. split; [exact g1|]. rewrite g2, E.
  symmetry. apply (mul_rd x x h h hb).
Qed.

Lemma sub64_rd : forall x y : f64, is_finite x = true -> is_finite y = true -> Rabs (v64 x - v64 y) <= huge64 ->
  is_finite (Bminus mode_NE x y) = true /\ v64 (Bminus mode_NE x y) = rd64 (v64 x - v64 y).
Proof.
  intros x y hx hy h. generalize (Bminus_correct 53 1024 _ _ mode_NE x y hx hy).
  rewrite Rlt_bool_true by (apply rd64_lt, h). intros [h1 [h2 _]]. auto.
Qed.
Lemma sqrt64_rd : forall x : f64, is_finite x = true -> 0 <= v64 x ->
  is_finite (Bsqrt mode_NE x) = true /\ v64 (Bsqrt mode_NE x) = rd64 (sqrt (v64 x)).
Proof.
  intros x hx h. generalize (Bsqrt_correct 53 1024 _ _ mode_NE x). intros [h1 [h2 _]]. split; [|exact h1]. rewrite h2.
  destruct x as [s|s| |s m e b]; try reflexivity; try discriminate. destruct s; [|reflexivity]. exfalso.
  revert h. unfold B2R. pose proof (F2R_lt_0 radix2 (Float radix2 (cond_Zopp true (Zpos m)) e) eq_refl). lra.
Qed.
