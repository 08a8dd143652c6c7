(** * Lemmas on binary32 operations *)

From Coq Require Import ZArith Reals Lra Lia Bool Psatz.
From Flocq Require Import Core.Core Sterbenz IEEE754.BinarySingleNaN.
From Verif Require Import Scalar F32.
Local Open Scope R_scope.

Notation fexp32 := (SpecFloat.fexp 24 128).
Notation rnd32 := (round radix2 fexp32 (round_mode mode_NE)).
Notation fmt32 := (generic_format radix2 fexp32).

#[export] Instance valid_exp32 : Valid_exp fexp32 := fexp_correct 24 128 _.
#[export] Instance mono_exp32 : Monotone_exp fexp32 := FLT_exp_monotone (-149) 24.

Lemma fmt32_intro : forall m e, (Z.abs m <= 2^24)%Z -> (-149 <= e)%Z -> fmt32 (IZR m * bpow radix2 e).
Proof.
  intros m e h he.
  destruct (Z.eq_dec (Z.abs m) (2^24)) as [E|E].
  - assert (G : fmt32 (bpow radix2 (24 + e))).
    { apply generic_format_bpow. unfold fexp32, SpecFloat.emin. lia. }
    rewrite bpow_plus in G. change (bpow radix2 24) with (IZR (2^24)) in G.
    destruct (Z.abs_spec m) as [[h0 e0]|[h0 e0]].
    + replace m with (2^24)%Z by lia. exact G.
    + replace m with (- 2^24)%Z by lia. rewrite opp_IZR, Ropp_mult_distr_l_reverse.
      apply generic_format_opp. exact G.
  - apply (generic_format_FLT radix2 (-149) 24). exists (Float radix2 m e); [reflexivity| |exact he].
    cbn. change (2^24)%Z with 16777216%Z in *. cbn in *. lia.
Qed.

Lemma bounded24 : forall m e, SpecFloat.bounded 24 128 m e = true -> (Zpos m < 2^24)%Z /\ (-149 <= e)%Z.
Proof.
  intros m e h.
  assert (V := canonical_bounded 24 128 false m e h).
  assert (F : fmt32 (F2R (Float radix2 (Zpos m) e))) by (apply generic_format_canonical; exact V).
  unfold canonical, cexp in V. cbn [Fexp] in V.
  assert (E : (-149 <= e)%Z). { rewrite V. unfold fexp32, SpecFloat.emin. lia. }
  split; [|exact E].
  assert (D : (mag radix2 (F2R (Float radix2 (Zpos m) e)) <= 24 + e)%Z).
  { unfold SpecFloat.fexp in V. cbn [cond_Zopp] in V. lia. }
  assert (P : (Zpos m <> 0)%Z) by lia.
  assert (M := mag_F2R_Zdigits radix2 (Zpos m) e P).
  rewrite M in D.
  assert (K := Zdigits_correct radix2 (Zpos m)). cbn [Z.abs] in K.
  apply Z.lt_le_trans with (1 := proj2 K). change (2^24)%Z with (Zpower radix2 24).
  apply Zpower_le. lia.
Qed.

Lemma f32_emax : forall x : f32, Rabs (B2R x) < bpow radix2 128.
Proof. intro x. apply abs_B2R_lt_emax. Qed.

Lemma Bminus_exact : forall x y : f32, is_finite x = true -> is_finite y = true ->
  fmt32 (B2R x - B2R y) -> Rabs (B2R x - B2R y) < bpow radix2 128 ->
  B2R (Bminus mode_NE x y) = B2R x - B2R y /\ is_finite (Bminus mode_NE x y) = true.
Proof.
  intros x y hx hy F B. generalize (Bminus_correct 24 128 _ _ mode_NE x y hx hy).
  rewrite round_generic; [|apply valid_rnd_round_mode|exact F].
  rewrite Rlt_bool_true by exact B. tauto.
Qed.

Lemma Bplus_exact : forall x y : f32, is_finite x = true -> is_finite y = true ->
  fmt32 (B2R x + B2R y) -> Rabs (B2R x + B2R y) < bpow radix2 128 ->
  B2R (Bplus mode_NE x y) = B2R x + B2R y /\ is_finite (Bplus mode_NE x y) = true.
Proof.
  intros x y hx hy F B. generalize (Bplus_correct 24 128 _ _ mode_NE x y hx hy).
  rewrite round_generic; [|apply valid_rnd_round_mode|exact F].
  rewrite Rlt_bool_true by exact B. tauto.
Qed.

Lemma bpow_split : forall e e0, (e0 <= e)%Z -> bpow radix2 e = IZR (2^(e-e0)) * bpow radix2 e0.
Proof.
  intros e e0 h. replace e with ((e - e0) + e0)%Z at 1 by lia. rewrite bpow_plus. f_equal.
  rewrite <- IZR_Zpower by lia. reflexivity.
Qed.

(** fmod is exact. *)
Lemma f32_fmod_spec : forall x y : f32, is_finite x = true -> is_finite y = true -> 0 < B2R y ->
  is_finite (f32_fmod x y) = true /\
  (exists k : Z, B2R (f32_fmod x y) = B2R x - IZR k * B2R y) /\
  (0 <= B2R x -> 0 <= B2R (f32_fmod x y) < B2R y) /\
  (B2R x <= 0 -> - B2R y < B2R (f32_fmod x y) <= 0).
Proof.
  intros x y hx hy yp.
  destruct y as [sy|sy| |sy my ey By]; try discriminate hy; [cbn in yp; lra|].
  destruct x as [sx|sx| |sx mx ex Bx]; try discriminate hx.
  { cbn [f32_fmod]. split; [reflexivity|]. split; [exists 0%Z; cbn; ring|].
    cbn [B2R] in *. lra. }
  assert (sy = false).
  { destruct sy; [|reflexivity]. exfalso. cbn [B2R cond_Zopp] in yp.
    assert (F2R (Float radix2 (Zneg my) ey) < 0) by (apply F2R_lt_0; cbn; lia). cbn [Z.opp] in yp. lra. }
  subst sy. cbn [f32_fmod].
  destruct (bounded24 _ _ Bx) as [mxb exb]. destruct (bounded24 _ _ By) as [myb eyb].
  set (e := Z.min ex ey). set (ax := (Z.pos mx * 2 ^ (ex - e))%Z). set (ay := (Z.pos my * 2 ^ (ey - e))%Z).
  assert (ay0 : (0 < ay)%Z) by (unfold ay; apply Z.mul_pos_pos; [lia|apply Z.pow_pos_nonneg; lia]).
  assert (ax0 : (0 < ax)%Z) by (unfold ax; apply Z.mul_pos_pos; [lia|apply Z.pow_pos_nonneg; lia]).
  assert (mb := Z.mod_pos_bound ax ay ay0).
  assert (ml : (ax mod ay < 2^24)%Z).
  { destruct (Z.le_gt_cases ey ex) as [l|l].
    - assert (e = ey) by lia. assert (ay = Z.pos my). { unfold ay. rewrite H, Z.sub_diag. ring. } lia.
    - assert (e = ex) by lia. assert (ax = Z.pos mx). { unfold ax. rewrite H, Z.sub_diag. ring. }
      assert (ax mod ay <= ax)%Z by (apply Z.mod_le; lia). lia. }
  assert (EX : F2R (Float radix2 (Zpos mx) ex) = IZR ax * bpow radix2 e).
  { unfold F2R, ax. cbn [Fnum Fexp]. rewrite (bpow_split ex e) by (unfold e; lia). rewrite mult_IZR. ring. }
  assert (EY : F2R (Float radix2 (Zpos my) ey) = IZR ay * bpow radix2 e).
  { unfold F2R, ay. cbn [Fnum Fexp]. rewrite (bpow_split ey e) by (unfold e; lia). rewrite mult_IZR. ring. }
  set (r := (ax mod ay)%Z) in *.
  assert (ER : F2R (Float radix2 (cond_Zopp sx r) e) = (if sx then - IZR r else IZR r) * bpow radix2 e).
  { unfold F2R. cbn [Fnum Fexp]. destruct sx; cbn [cond_Zopp]; [rewrite opp_IZR|]; reflexivity. }
  assert (FR : fmt32 (F2R (Float radix2 (cond_Zopp sx r) e))).
  { unfold F2R. cbn [Fnum Fexp]. apply fmt32_intro; [destruct sx; cbn [cond_Zopp]; lia|unfold e; lia]. }
  assert (b0 := bpow_gt_0 radix2 e).
  assert (r0 : 0 <= IZR r) by (apply IZR_le; lia).
  assert (r1 : IZR r < IZR ay) by (apply IZR_lt; lia).
  assert (AB : Rabs (F2R (Float radix2 (cond_Zopp sx r) e)) < bpow radix2 128).
  { rewrite ER. apply Rle_lt_trans with (IZR ay * bpow radix2 e).
    - apply Rabs_le. destruct sx; split; nra.
    - rewrite <- EY. assert (Y := f32_emax (B754_finite false my ey By)). cbn [B2R cond_Zopp] in Y.
      rewrite Rabs_right in Y; [exact Y|]. rewrite EY. apply Rle_ge. nra. }
  generalize (binary_normalize_correct 24 128 _ _ mode_NE (cond_Zopp sx r) e sx). cbv zeta.
  rewrite round_generic; [|apply valid_rnd_round_mode|exact FR]. rewrite Rlt_bool_true by exact AB.
  intros (V&W&_). rewrite V, W, ER. split; [reflexivity|].
  assert (XR : B2R (B754_finite sx mx ex Bx) = (if sx then - IZR ax else IZR ax) * bpow radix2 e).
  { cbn [B2R]. destruct sx; cbn [cond_Zopp]; [|exact EX].
    change (- Z.pos mx)%Z with (Z.opp (Z.pos mx)). rewrite F2R_Zopp, EX. ring. }
  assert (YR : B2R (B754_finite false my ey By) = IZR ay * bpow radix2 e) by exact EY.
  rewrite XR, YR.
  assert (DM := Z.div_mod ax ay ltac:(lia)). fold r in DM.
  assert (DR : IZR ax = IZR ay * IZR (ax / ay) + IZR r) by (rewrite DM at 1; rewrite plus_IZR, mult_IZR; reflexivity).
  assert (a0 : 0 < IZR ax) by (apply IZR_lt; exact ax0).
  split; [|split].
  - exists (if sx then - (ax / ay) else ax / ay)%Z. destruct sx; [rewrite opp_IZR|]; rewrite DR; ring.
  - intro h. destruct sx; [exfalso; nra|]. split; nra.
  - intro h. destruct sx; [|exfalso; nra]. split; nra.
Qed.

(** Comparisons of floats that are not NaN are those of reals, an infinity being
    further than any finite float. *)
Definition xr (x : f32) : R :=
  match x with
  | B754_infinity s => if s then - bpow radix2 128 else bpow radix2 128
  | _ => B2R x
  end.

Lemma xr_finite : forall x : f32, is_finite x = true -> xr x = B2R x /\ - bpow radix2 128 < B2R x < bpow radix2 128.
Proof.
  intros x h. split; [destruct x; try discriminate h; reflexivity|].
  destruct (Rabs_def2 _ _ (f32_emax x)); split; assumption.
Qed.

Lemma f32_cases : forall x : f32, is_nan x = false ->
  is_finite x = true \/ x = B754_infinity true \/ x = B754_infinity false.
Proof. intros [s|[|]| |s m e B] h; try discriminate h; auto. Qed.

Lemma Bltb_xr : forall x y : f32, is_nan x = false -> is_nan y = false -> Bltb x y = true <-> xr x < xr y.
Proof.
  intros x y hx hy. assert (B := bpow_gt_0 radix2 128).
  destruct (f32_cases x hx) as [fx|[->| ->]]; destruct (f32_cases y hy) as [fy|[->| ->]];
  repeat match goal with H : is_finite ?v = true |- _ =>
    lazymatch goal with E : xr v = B2R v |- _ => fail | _ => destruct (xr_finite v H) as [? ?] end end.
  - rewrite Bltb_correct by assumption. rewrite H, H1.
    destruct (Rlt_bool_spec (B2R x) (B2R y)); split; intro; try discriminate; auto; lra.
  - rewrite H. cbn [xr]. split; [intro h|lra]. exfalso. destruct x as [s|[|]| |[|] m e Q]; cbn in fx; discriminate.
  - rewrite H. cbn [xr]. split; [lra|]. intros _. destruct x as [s|[|]| |[|] m e Q]; try discriminate; reflexivity.
  - rewrite H. cbn [xr]. split; [lra|]. intros _. destruct y as [s|[|]| |[|] m e Q]; try discriminate; reflexivity.
  - cbn. split; [discriminate|lra].
  - cbn. split; [lra|reflexivity].
  - rewrite H. cbn [xr]. split; [intro h|lra]. exfalso. destruct y as [s|[|]| |[|] m e Q]; cbn in fy; discriminate.
  - cbn. split; [discriminate|lra].
  - cbn. split; [discriminate|lra].
Qed.

Lemma Bltb_false_xr : forall x y : f32, is_nan x = false -> is_nan y = false -> Bltb x y = false <-> xr y <= xr x.
Proof.
  intros x y hx hy. generalize (Bltb_xr x y hx hy). destruct (Bltb x y); intros [h1 h2]; split; intro h; try discriminate; auto.
  - specialize (h1 eq_refl). lra.
  - destruct (Rlt_dec (xr x) (xr y)); [exfalso; discriminate (h2 r)|lra].
Qed.

Lemma xr_inj0 : forall x y : f32, is_nan x = false -> is_nan y = false -> xr x = xr y ->
  Bcompare x y = Some Eq.
Proof.
  intros x y hx hy h. assert (B := bpow_gt_0 radix2 128).
  destruct (f32_cases x hx) as [fx|[->| ->]]; destruct (f32_cases y hy) as [fy|[->| ->]];
  repeat match goal with H : is_finite ?v = true |- _ =>
    lazymatch goal with E : xr v = B2R v |- _ => fail | _ => destruct (xr_finite v H) as [? ?] end end;
  cbn [xr] in *; try lra; try reflexivity.
  rewrite Bcompare_correct by assumption. rewrite <- H, <- H1, h, Rcompare_Eq by reflexivity. reflexivity.
Qed.

Lemma Bleb_xr : forall x y : f32, is_nan x = false -> is_nan y = false -> Bleb x y = true <-> xr x <= xr y.
Proof.
  intros x y hx hy. assert (A := Bltb_xr x y hx hy).
  assert (D : Bleb x y = (Bltb x y || match Bcompare x y with Some Eq => true | _ => false end)%bool).
  { unfold Bleb, Bltb, SpecFloat.SFleb, SpecFloat.SFltb. fold (Bcompare x y). 
    change (SpecFloat.SFcompare (B2SF x) (B2SF y)) with (Bcompare x y).
    destruct (Bcompare x y) as [[| |]|]; reflexivity. }
  rewrite D. split.
  - intro h. apply orb_prop in h. destruct h as [h|h]; [left; apply A; exact h|].
    destruct (Bcompare x y) as [[| |]|] eqn:E; try discriminate.
    destruct (Rlt_dec (xr y) (xr x)) as [l|l]; [|lra].
    exfalso. apply (Bltb_xr y x hy hx) in l. unfold Bltb, SpecFloat.SFltb in l.
    change (SpecFloat.SFcompare (B2SF y) (B2SF x)) with (Bcompare y x) in l.
    rewrite Bcompare_swap, E in l. discriminate.
  - intros [l|e]; [rewrite (proj2 A l); reflexivity|].
    rewrite (xr_inj0 x y hx hy e). apply orb_true_r.
Qed.

Lemma Beqb_xr : forall x y : f32, is_nan x = false -> is_nan y = false -> Beqb x y = true <-> xr x = xr y.
Proof.
  intros x y hx hy. unfold Beqb, SpecFloat.SFeqb.
  change (SpecFloat.SFcompare (B2SF x) (B2SF y)) with (Bcompare x y). split.
  - intro h. destruct (Bcompare x y) as [[| |]|] eqn:E; try discriminate.
    assert (l1 : ~ xr x < xr y).
    { intro l. apply Bltb_xr in l; auto. unfold Bltb, SpecFloat.SFltb in l.
      change (SpecFloat.SFcompare (B2SF x) (B2SF y)) with (Bcompare x y) in l. rewrite E in l. discriminate. }
    assert (l2 : ~ xr y < xr x).
    { intro l. apply Bltb_xr in l; auto. unfold Bltb, SpecFloat.SFltb in l.
      change (SpecFloat.SFcompare (B2SF y) (B2SF x)) with (Bcompare y x) in l. rewrite Bcompare_swap, E in l. discriminate. }
    lra.
  - intro e. rewrite (xr_inj0 x y hx hy e). reflexivity.
Qed.
