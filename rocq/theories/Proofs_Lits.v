(** * Lemmas for Props_Lits *)


From Coq Require Import Reals ZArith List Bool Lra Lia.
Import ListNotations.
From Flocq Require Import Core.Core IEEE754.BinarySingleNaN.
From Verif Require Import Scalar F32 F32Lemmas Model_UrdfText Model_Text Spec_Lits.
Local Open Scope R_scope.

Lemma frac_nearest : forall prec emax (p : Prec_gt_0 prec) (q : Prec_lt_emax prec emax) s (m d : positive),
  let x := SF2B _ (proj1 (Bdiv_correct_aux prec emax p q mode_NE s m 0 false d 0)) in
  Rabs (nearest prec emax (IZR (cond_Zopp s (Zpos m)) / IZR (Zpos d))) < bpow radix2 emax ->
  is_finite x = true /\ B2R x = nearest prec emax (IZR (cond_Zopp s (Zpos m)) / IZR (Zpos d)).
Proof.
  intros prec emax p q s m d x h. unfold x. clear x.
  generalize (Bdiv_correct_aux prec emax p q mode_NE s m 0 false d 0). cbv zeta. intros H.
  rewrite is_finite_SF2B, B2R_SF2B. destruct H as [v H]. cbn [proj1].
  unfold F2R in H. cbn [Fnum Fexp] in H. change (bpow radix2 0) with 1 in H. rewrite !Rmult_1_r in H. cbn [cond_Zopp] in H.
  unfold nearest in h. change (SpecFloat.fexp prec emax) with (FLT_exp (3 - emax - prec) prec) in H.
  change (round_mode mode_NE) with ZnearestE in H. rewrite Rlt_bool_true in H by exact h.
  destruct H as (H1 & H2 & _). split; [exact H2|exact H1].
Qed.

Lemma C77_literals_proof : forall (m : Z) (d : positive),
  (Rabs (nearest 24 128 (IZR m / IZR (Zpos d))) < bpow radix2 128 ->
   is_finite (f32_frac m d) = true /\ B2R (f32_frac m d) = nearest 24 128 (IZR m / IZR (Zpos d))) /\
  (Rabs (nearest 53 1024 (IZR m / IZR (Zpos d))) < bpow radix2 1024 ->
   is_finite (f64_frac m d) = true /\ B2R (f64_frac m d) = nearest 53 1024 (IZR m / IZR (Zpos d))).
Proof.
  intros m d. split; intros h.
  - destruct m as [|m|m]; [|exact (frac_nearest 24 128 _ _ false m d h)|exact (frac_nearest 24 128 _ _ true m d h)].
    split; [reflexivity|]. cbn. unfold nearest, Rdiv. rewrite Rmult_0_l, round_0; [reflexivity|apply valid_rnd_N].
  - destruct m as [|m|m]; [|exact (frac_nearest 53 1024 _ _ false m d h)|exact (frac_nearest 53 1024 _ _ true m d h)].
    split; [reflexivity|]. cbn. unfold nearest, Rdiv. rewrite Rmult_0_l, round_0; [reflexivity|apply valid_rnd_N].
Qed.


Lemma in_range : forall prec emax (p : Prec_gt_0 prec) (q : Prec_lt_emax prec emax) (x : R), (emax - prec < emax)%Z ->
  Rabs x <= bpow radix2 (emax - prec) -> Rabs (nearest prec emax x) < bpow radix2 emax.
Proof.
  intros prec emax p q x hl h. apply Rle_lt_trans with (bpow radix2 (emax - prec)); [|apply bpow_lt, hl].
  unfold nearest. apply abs_round_le_generic; [apply FLT_exp_valid, p|apply valid_rnd_N| |exact h].
  apply generic_format_bpow. unfold FLT_exp. red in p, q. lia.
Qed.

Lemma C77_integers_proof : forall z : Z,
  ((Z.abs z <= 2 ^ 24)%Z -> is_finite (f32_ofZ z) = true /\ B2R (f32_ofZ z) = IZR z) /\
  ((Z.abs z <= 2 ^ 53)%Z -> is_finite (f64_ofZ z) = true /\ B2R (f64_ofZ z) = IZR z) /\
  ((Z.abs z < 2 ^ 64)%Z -> is_finite (f32_ofZ z) = true /\ B2R (f32_ofZ z) = nearest 24 128 (IZR z)).
Proof.
  assert (G : forall prec emax (p : Prec_gt_0 prec) (q : Prec_lt_emax prec emax) z, (prec < emax)%Z -> Rabs (IZR z) <= bpow radix2 (emax - prec) ->
    is_finite (binary_normalize prec emax p q mode_NE z 0 false) = true /\ B2R (binary_normalize prec emax p q mode_NE z 0 false) = nearest prec emax (IZR z)).
  { intros prec emax p q z hl h. generalize (binary_normalize_correct prec emax p q mode_NE z 0 false). cbv zeta.
    assert (e : F2R (Float radix2 z 0) = IZR z) by (unfold F2R; cbn; ring). rewrite e.
    change (SpecFloat.fexp prec emax) with (FLT_exp (3 - emax - prec) prec). change (round_mode mode_NE) with ZnearestE.
    rewrite Rlt_bool_true; [intros (H1 & H2 & _); split; assumption|]. apply in_range; [exact p|exact q|red in p; lia|exact h]. }
  assert (X : forall prec emax (p : Prec_gt_0 prec) (q : Prec_lt_emax prec emax) z, (3 - emax - prec <= 0)%Z -> (Z.abs z <= 2 ^ prec)%Z ->
    nearest prec emax (IZR z) = IZR z).
  { intros prec emax p q z hm h. unfold nearest. apply round_generic; [apply valid_rnd_N|].
    destruct (Z.eq_dec (Z.abs z) (2 ^ prec)) as [e|n].
    - assert (s : IZR z = bpow radix2 prec \/ IZR z = - bpow radix2 prec).
      { rewrite <- IZR_Zpower by (red in p; lia). change (Zpower radix2 prec) with (2 ^ prec)%Z. rewrite <- e. rewrite <- opp_IZR.
        destruct (Z.abs_eq_or_opp z) as [a|a]; rewrite a; [left; reflexivity|right; now rewrite Z.opp_involutive]. }
      assert (b : generic_format radix2 (FLT_exp (3 - emax - prec) prec) (bpow radix2 prec)).
      { apply generic_format_bpow. unfold FLT_exp. red in p. lia. }
      destruct s as [-> | ->]; [exact b|now apply generic_format_opp].
    - apply generic_format_FLT. exists (Float radix2 z 0); [unfold F2R; cbn; ring|change (Z.abs z < 2 ^ prec)%Z; lia|exact hm]. }
  assert (B : forall z k, (0 <= k)%Z -> (Z.abs z <= 2 ^ k)%Z -> Rabs (IZR z) <= bpow radix2 k).
  { intros z k hk h. rewrite <- abs_IZR, <- IZR_Zpower by exact hk. apply IZR_le. exact h. }
  intros z. split; [|split]; intros h.
  - unfold f32_ofZ. rewrite <- (X 24%Z 128%Z _ _ z) by (first [lia|exact h]). apply G; [lia|]. apply B; [lia|].
    apply Z.le_trans with (1 := h). apply Z.pow_le_mono_r; lia.
  - unfold f64_ofZ. rewrite <- (X 53%Z 1024%Z _ _ z) by (first [lia|exact h]). apply G; [lia|]. apply B; [lia|].
    apply Z.le_trans with (1 := h). apply Z.pow_le_mono_r; lia.
  - unfold f32_ofZ. apply G; [lia|]. apply B; [lia|].
    apply Z.le_trans with (2 ^ 64)%Z; [lia|]. apply Z.pow_le_mono_r; lia.
Qed.



Lemma C77_fmod_proof : forall x y : f32, is_finite x = true -> is_finite y = true -> 0 < B2R y ->
  is_finite (f32_fmod x y) = true /\ exists k : Z, B2R x = IZR k * B2R y + B2R (f32_fmod x y) /\
  Rabs (B2R (f32_fmod x y)) < B2R y /\ 0 <= B2R x * B2R (f32_fmod x y).
Proof.
  intros x y hx hy yp. destruct (f32_fmod_spec x y hx hy yp) as (f & (k & e) & h1 & h2). split; [exact f|]. exists k. split; [lra|].
  destruct (Rle_or_lt 0 (B2R x)) as [p|p].
  - specialize (h1 p). split; [apply Rabs_def1; lra|]. apply Rmult_le_pos; lra.
  - destruct h2 as [h2 h3]; [lra|]. split; [apply Rabs_def1; lra|].
    replace (B2R x * B2R (f32_fmod x y)) with ((- B2R x) * (- B2R (f32_fmod x y))) by ring. apply Rmult_le_pos; lra.
Qed.
