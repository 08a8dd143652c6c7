(** * Property C77: the numbers written in the code, in single and double precision *)

From Coq Require Import Reals ZArith List Bool Lra Lia.
Import ListNotations.
From Flocq Require Import Core.Core IEEE754.BinarySingleNaN.
From Verif Require Import Scalar F32 F32Lemmas Model_UrdfText Model_Text Spec_Lits.
Local Open Scope R_scope.
From Verif Require Proofs_Lits.

(** A number written in the code as a decimal fraction m/d is the float, or the double, nearest to
    it (to the even one of two), if it is in the range of the type. *)
Theorem C77_literals : forall (m : Z) (d : positive),
  (Rabs (nearest 24 128 (IZR m / IZR (Zpos d))) < bpow radix2 128 ->
   is_finite (f32_frac m d) = true /\ B2R (f32_frac m d) = nearest 24 128 (IZR m / IZR (Zpos d))) /\
  (Rabs (nearest 53 1024 (IZR m / IZR (Zpos d))) < bpow radix2 1024 ->
   is_finite (f64_frac m d) = true /\ B2R (f64_frac m d) = nearest 53 1024 (IZR m / IZR (Zpos d))).
Proof. exact @Proofs_Lits.C77_literals_proof. Qed.
Print Assumptions C77_literals.

(** An integer that has few enough digits is represented exactly; others are rounded. *)
Theorem C77_integers : forall z : Z,
  ((Z.abs z <= 2 ^ 24)%Z -> is_finite (f32_ofZ z) = true /\ B2R (f32_ofZ z) = IZR z) /\
  ((Z.abs z <= 2 ^ 53)%Z -> is_finite (f64_ofZ z) = true /\ B2R (f64_ofZ z) = IZR z) /\
  ((Z.abs z < 2 ^ 64)%Z -> is_finite (f32_ofZ z) = true /\ B2R (f32_ofZ z) = nearest 24 128 (IZR z)).
Proof. exact @Proofs_Lits.C77_integers_proof. Qed.
Print Assumptions C77_integers.

Example C77_literals_ex : B2R (f32_frac 1 10000) = nearest 24 128 (1 / 10000) /\ B2R (f32_ofZ 16777217) = 16777216.
Proof.
  split.
  - apply C77_literals. apply Proofs_Lits.in_range; [reflexivity|reflexivity|lia|]. rewrite Rabs_pos_eq by lra.
    apply Rle_trans with 1; [lra|]. change 1 with (bpow radix2 0). apply bpow_le. lia.
  - rewrite <- SF2R_B2SF. replace (B2SF (f32_ofZ 16777217)) with (SpecFloat.S754_finite false 8388608 1) by (vm_compute; reflexivity).
    cbn [SF2R]. unfold F2R. cbn [Fnum Fexp cond_Zopp bpow]. change (Z.pow_pos radix2 1) with 2%Z. lra.
Qed.

(** fmod is exact: the remainder has the sign of the dividend and is smaller than the divisor. *)
Theorem C77_fmod : forall x y : f32, is_finite x = true -> is_finite y = true -> 0 < B2R y ->
  is_finite (f32_fmod x y) = true /\ exists k : Z, B2R x = IZR k * B2R y + B2R (f32_fmod x y) /\
  Rabs (B2R (f32_fmod x y)) < B2R y /\ 0 <= B2R x * B2R (f32_fmod x y).
Proof. exact @Proofs_Lits.C77_fmod_proof. Qed.
Print Assumptions C77_fmod.

Example C77_fmod_ex : f32_fmod (f32_ofZ (-7)) (f32_ofZ 3) = f32_ofZ (-1) /\ 0 < B2R (f32_ofZ 3).
Proof.
  split; [apply B2SF_inj; vm_compute; reflexivity|]. destruct (C77_integers 3) as (h & _). rewrite (proj2 (h ltac:(lia))). lra.
Qed.
