(** * Lemmas for Props_Map *)

From Coq Require Import Reals List Lra Lia Psatz Bool Arith ZArith.
Import ListNotations.
From Flocq Require Import Core.Core Relative Plus_error IEEE754.BinarySingleNaN.
From Verif Require Import Scalar RInst F32 RLemmas F32Lemmas Model_Base Model_Vec Model_Almath Model_Map
  Spec_Angle.
Local Open Scope R_scope.


Lemma nearest_away_unique : forall x n m, nearest_away x n -> nearest_away x m -> n = m.
Proof.
  intros x n m [h1 h2] [k1 k2].
  assert (B : -2 < IZR (n - m) < 2).
  { rewrite minus_IZR. apply Rabs_le_inv in h1. apply Rabs_le_inv in k1. lra. }
  destruct B as [B1 B2]. change (-2) with (IZR (-2)) in B1. apply lt_IZR in B1. apply lt_IZR in B2.
  assert (C : (n - m = -1 \/ n = m \/ n - m = 1)%Z) by lia.
  assert (D : forall p q, nearest_away x p -> nearest_away x q -> (p - q = 1)%Z -> False).
  { clear. intros p q [h1 h2] [k1 k2] e. apply Rabs_le_inv in h1. apply Rabs_le_inv in k1.
    assert (E : IZR p = IZR q + 1) by (replace p with (q + 1)%Z by lia; rewrite plus_IZR; reflexivity).
    assert (e1 : IZR p - x = / 2) by lra. assert (e2 : IZR q - x = - / 2) by lra.
    rewrite e1 in h2. rewrite e2 in k2. rewrite Rabs_Ropp in k2. rewrite (Rabs_right (/2)) in h2, k2 by lra.
    specialize (h2 eq_refl). specialize (k2 eq_refl). clear - h2 k2 e1 e2 E.
    destruct (Rle_dec 0 x) as [l|l].
    - assert (0 <= IZR q).
      { assert (-1 < IZR q) by lra. change (-1) with (IZR (-1)) in H. apply lt_IZR in H. apply IZR_le. lia. }
      rewrite !Rabs_right in k2 by lra. lra.
    - assert (IZR p <= 0).
      { assert (IZR p < 1) by lra. apply lt_IZR in H. apply IZR_le. lia. }
      rewrite !Rabs_left1 in h2 by lra. lra. }
  destruct C as [C|[C|C]]; [|exact C|].
  - exfalso. apply (D m n); [split; auto|split; auto|lia].
  - exfalso. apply (D n m); [split; auto|split; auto|lia].
Qed.

Lemma nearest_away_opp : forall x n, nearest_away x n -> nearest_away (- x) (- n).
Proof.
  intros x n [h1 h2]. unfold nearest_away. rewrite opp_IZR.
  replace (- IZR n - - x) with (- (IZR n - x)) by ring. rewrite !Rabs_Ropp. split; assumption.
Qed.

Lemma nearest_away_pos : forall x n, 0 <= x -> IZR n - / 2 <= x < IZR n + / 2 -> nearest_away x n.
Proof.
  intros x n hx h. split; [apply Rabs_le; lra|]. intro e.
  assert (IZR n - x = / 2).
  { destruct (Rle_dec 0 (IZR n - x)); [rewrite Rabs_right in e; lra|rewrite Rabs_left in e; lra]. }
  rewrite !Rabs_right; lra.
Qed.

Lemma Rtrunc_floor : forall x n, 0 <= x -> IZR n <= x < IZR n + 1 -> Rtrunc x = n.
Proof.
  intros x n hx h. destruct (Rtrunc_bounds_pos x hx) as [b _].
  assert (B : -1 < IZR (Rtrunc x - n) < 1) by (rewrite minus_IZR; lra). destruct B as [B1 B2].
  change (-1) with (IZR (-1)) in B1. apply lt_IZR in B1. apply lt_IZR in B2. lia.
Qed.

Lemma C31_round_proof : forall x : R, exists n : Z, nearest_away x n /\
  roundToInt x = if is_int n then Ok n else UB.
Proof.
  intro x. unfold roundToInt, s_toInt, RToInt. rsimp.
  destruct (Rleb_spec 0 x) as [h|h].
  - exists (Rtrunc (x + 1/2)). split; [|reflexivity].
    destruct (Rtrunc_bounds_pos (x+1/2) ltac:(lra)) as [b _]. apply nearest_away_pos; lra.
  - exists (Rtrunc (x - 1/2)). split; [|reflexivity].
    replace (x - 1/2) with (- (- x + 1/2)) by ring. rewrite Rtrunc_opp.
    destruct (Rtrunc_bounds_pos (- x+1/2) ltac:(lra)) as [b _].
    rewrite <- (Ropp_involutive x) at 1. apply nearest_away_opp, nearest_away_pos; lra.
Qed.


(** A float of magnitude at least 2^e is a multiple of 2^(e-23). *)
Lemma grid : forall x e, fmt32 x -> bpow radix2 e <= Rabs x -> exists k : Z, x = IZR k * bpow radix2 (e - 23).
Proof.
  intros x e F h. set (c := cexp radix2 fexp32 x).
  assert (G : (e - 23 <= c)%Z).
  { assert (M : (e + 1 <= mag radix2 x)%Z) by (apply mag_ge_bpow; replace (e+1-1)%Z with e by ring; exact h).
    unfold c, cexp, SpecFloat.fexp. lia. }
  exists (Ztrunc (scaled_mantissa radix2 fexp32 x) * 2^(c - (e - 23)))%Z.
  rewrite mult_IZR, Rmult_assoc, <- bpow_split by lia.
  exact F.
Qed.

Lemma bpow_le_lt : forall a b : Z, bpow radix2 a < bpow radix2 b -> (a < b)%Z.
Proof. intros a b h. apply (lt_bpow radix2). exact h. Qed.

Lemma lt_IZR' : forall a b, IZR a < IZR b -> (a + 1 <= b)%Z.
Proof. intros a b h. apply lt_IZR in h. lia. Qed.

Lemma IZR_pow2 : forall e, (0 <= e)%Z -> bpow radix2 e = IZR (2^e).
Proof. intros e h. rewrite <- IZR_Zpower by exact h. reflexivity. Qed.

(** The floats for which adding a half before truncating goes wrong: the one just below a half,
    and the odd integers between 2^23 and 2^24. *)
Definition bad_round (v : R) : Prop :=
  v = 16777215 * / 33554432 \/ (8388608 <= v < 16777216 /\ exists k : Z, v = IZR (2 * k + 1)).

Lemma b_half : bpow radix2 (-1) = / 2. Proof. reflexivity. Qed.

Lemma half_up : forall v, fmt32 v -> 0 <= v -> ~ bad_round v -> exists n : Z,
  IZR n - / 2 <= v < IZR n + / 2 /\ IZR n <= rnd32 (v + / 2) < IZR n + 1.
Proof.
  intros v F v0 nb. assert (VR : Valid_rnd (round_mode mode_NE)) by apply valid_rnd_round_mode.
  destruct (Rlt_dec v (/2)) as [h|h].
  { exists 0%Z. split; [cbn; lra|]. split.
    { apply round_ge_generic; [apply valid_exp32|exact VR|apply generic_format_0|lra]. }
    destruct (Rlt_dec v (/4)) as [h4|h4].
    - apply Rle_lt_trans with (IZR 3 * bpow radix2 (-2)); [|change (bpow radix2 (-2)) with (/4); lra].
      apply round_le_generic; [apply valid_exp32|exact VR|apply fmt32_intro; lia|].
      change (bpow radix2 (-2)) with (/4). lra.
    - destruct (grid v (-2) F) as [k E]; [rewrite Rabs_right by lra; change (bpow radix2 (-2)) with (/4); lra|].
      change (bpow radix2 (-2 - 23)) with (/33554432) in E.
      assert (K : (k < 16777216)%Z) by (apply lt_IZR; lra).
      assert (K' : (k <> 16777215)%Z) by (intro e; apply nb; left; rewrite E, e; reflexivity).
      assert (K2 : IZR k <= 16777214) by (apply IZR_le; lia).
      apply Rle_lt_trans with (IZR 16777215 * bpow radix2 (-24)).
      + apply round_le_generic; [apply valid_exp32|exact VR|apply fmt32_intro; lia|].
        change (bpow radix2 (-24)) with (/16777216). lra.
      + change (bpow radix2 (-24)) with (/16777216). lra. }
  apply Rnot_lt_le in h.
  destruct (Rlt_dec v 8388608) as [h23|h23].
  - (* between 1/2 and 2^23 *)
    assert (Bv : exists e, bpow radix2 e <= v < bpow radix2 (e+1)).
    { exists (mag radix2 v - 1)%Z. replace (mag radix2 v - 1 + 1)%Z with (mag radix2 v : Z) by ring.
      destruct (mag radix2 v) as [m Hm]. cbn [mag_val]. specialize (Hm ltac:(lra)).
      rewrite Rabs_right in Hm by lra. exact Hm. }
    destruct Bv as [e Bv].
    assert (E1 : (-1 <= e)%Z).
    { assert (bpow radix2 (-1) < bpow radix2 (e+1)) by (rewrite b_half; lra). apply bpow_le_lt in H. lia. }
    assert (E2 : (e <= 22)%Z).
    { assert (bpow radix2 e < bpow radix2 23) by (change (bpow radix2 23) with 8388608; lra). apply bpow_le_lt in H. lia. }
    destruct (grid v e F) as [k E]; [rewrite Rabs_right by lra; lra|].
    set (n := Zfloor (v + /2)).
    assert (Bn : IZR n <= v + /2 < IZR n + 1) by (split; [apply Zfloor_lb|apply Zfloor_ub]).
    exists n. split; [lra|]. clearbody n.
    assert (Nb : (0 <= n <= 2^24)%Z).
    { split; [assert (-1 < IZR n) by lra; change (-1) with (IZR (-1)) in H; apply lt_IZR in H; lia|].
      apply le_IZR. change (2^24)%Z with 16777216%Z. lra. }
    split.
    { apply round_ge_generic; [apply valid_exp32|exact VR| |lra].
      rewrite <- (Rmult_1_r (IZR n)). change 1 with (bpow radix2 0). apply fmt32_intro; lia. }
    assert (H2 : / 2 = IZR (2^(22-e)) * bpow radix2 (e - 23)).
    { rewrite <- IZR_pow2 by lia. rewrite <- bpow_plus. replace (22 - e + (e - 23))%Z with (-1)%Z by ring. reflexivity. }
    assert (H3 : bpow radix2 (e+1) = IZR (2^24) * bpow radix2 (e-23)).
    { rewrite <- IZR_pow2 by lia. rewrite <- bpow_plus. f_equal. ring. }
    assert (bp := bpow_gt_0 radix2 (e-23)).
    destruct (Rle_dec (v + /2) (bpow radix2 (e+1))) as [l|l].
    + assert (X : v + /2 = IZR (k + 2^(22-e)) * bpow radix2 (e-23)) by (rewrite plus_IZR, E, H2 at 1; ring).
      rewrite round_generic; [lra|exact VR|]. rewrite X. apply fmt32_intro; [|lia].
      rewrite X, H3 in l. apply Rmult_le_reg_r in l; [|exact bp]. apply le_IZR in l.
      assert (0 <= k + 2 ^ (22 - e))%Z; [|lia]. apply le_IZR.
      apply Rmult_le_reg_r with (bpow radix2 (e-23)); [exact bp|]. rewrite <- X. lra.
    + apply Rnot_le_lt in l.
      assert (E3 : (e <= 21)%Z).
      { destruct (Z.eq_dec e 22) as [->|]; [|lia]. exfalso.
        change (bpow radix2 (22-23)) with (/2) in *. change (bpow radix2 (22+1)) with 8388608 in *.
        assert (k + 1 <= 16777216)%Z by (apply lt_IZR'; lra). apply IZR_le in H. rewrite plus_IZR in H. lra. }
      assert (X : IZR (2^(e+2)+1) * bpow radix2 (-1) = bpow radix2 (e+1) + /2).
      { rewrite plus_IZR, <- IZR_pow2, Rmult_plus_distr_r, <- bpow_plus by lia.
        replace (e + 2 + -1)%Z with (e+1)%Z by ring. rewrite b_half. ring. }
      apply Rle_lt_trans with (bpow radix2 (e+1) + /2).
      * apply round_le_generic; [apply valid_exp32|exact VR| |lra].
        rewrite <- X. apply fmt32_intro; [|lia].
        assert (2^(e+2) <= 2^23)%Z by (apply Z.pow_le_mono_r; lia).
        assert (0 < 2^(e+2))%Z by (apply Z.pow_pos_nonneg; lia). change (2^24)%Z with (2 * 2^23)%Z. lia.
      * assert (L : bpow radix2 (e+1) <= IZR n).
        { rewrite IZR_pow2 in * by lia. apply IZR_le. assert (2^(e+1) < n + 1)%Z; [|lia]. apply lt_IZR. rewrite plus_IZR. lra. }
        lra.
  - apply Rnot_lt_le in h23. 
    destruct (Rlt_dec v 16777216) as [h24|h24].
    + destruct (grid v 23 F) as [k E]; [rewrite Rabs_right by lra; exact h23|].
      change (bpow radix2 (23-23)) with 1 in E. rewrite Rmult_1_r in E.
      exists k. split; [lra|].
      assert (EV : Z.even k = true).
      { destruct (Z.even k) eqn:ev; [reflexivity|]. exfalso. apply nb. right. split; [lra|].
        rewrite Zeven.Zeven_odd_bool in ev. destruct (Z.odd k) eqn:od; [|discriminate].
        apply Zodd_bool_iff in od. destruct (Zodd_ex k od) as [j ->]. exists j. exact E. }
      assert (R : rnd32 (v + /2) = IZR k).
      { unfold round, scaled_mantissa.
        assert (C : cexp radix2 fexp32 (v + /2) = 0%Z).
        { unfold cexp. assert (M : mag radix2 (v+/2) = 24%Z :> Z).
          { apply mag_unique. rewrite Rabs_right by lra. change (bpow radix2 (24-1)) with 8388608.
            change (bpow radix2 24) with 16777216. split; [lra|].
            assert (k + 1 <= 16777216)%Z by (apply lt_IZR'; lra). apply IZR_le in H. rewrite plus_IZR in H. lra. }
          rewrite M. reflexivity. }
        rewrite C. cbn [round_mode]. unfold F2R. cbn [Fnum Fexp]. change (bpow radix2 (-0)) with 1. change (bpow radix2 0) with 1.
        rewrite !Rmult_1_r. f_equal. unfold ZnearestE, Znearest.
        assert (Fl : Zfloor (v + /2) = k) by (apply Zfloor_imp; rewrite plus_IZR; lra).
        rewrite Fl. rewrite Rcompare_Eq by lra. rewrite EV. reflexivity. }
      rewrite R. lra.
    + apply Rnot_lt_le in h24.
      destruct (grid v 24 F) as [k E]; [rewrite Rabs_right by lra; exact h24|].
      change (bpow radix2 (24-23)) with 2 in E.
      exists (2*k)%Z. rewrite mult_IZR. split; [lra|].
      assert (G : v <= rnd32 (v + /2)) by (apply round_ge_generic; [apply valid_exp32|exact VR|exact F|lra]).
      split; [lra|].
      assert (N := round_N_pt radix2 fexp32 (fun x => negb (Z.even x)) (v + /2)).
      destruct N as [FN N]. specialize (N v F).
      change (round radix2 fexp32 (Znearest (fun x => negb (Z.even x))) (v + /2)) with (rnd32 (v + /2)) in *.
      replace (v - (v + /2)) with (- / 2) in N by ring. rewrite Rabs_Ropp, (Rabs_right (/2)) in N by lra.
      apply Rabs_le_inv in N.
      destruct (grid _ 24 FN) as [j J]; [rewrite Rabs_right by lra; change (bpow radix2 24) with 16777216; lra|].
      change (bpow radix2 (24-23)) with 2 in J. rewrite J in *.
      assert (j < k + 1)%Z by (apply lt_IZR; rewrite plus_IZR; lra).
      assert (IZR j <= IZR k) by (apply IZR_le; lia). lra.
Qed.

Lemma f32_half : is_finite (f32_frac 1 2) = true /\ B2R (f32_frac 1 2) = / 2.
Proof.
  assert (E1 : B2SF (f32_frac 1 2) = SpecFloat.S754_finite false 8388608 (-24)) by (vm_compute; reflexivity).
  split; [rewrite <- is_finite_SF_B2SF, E1; reflexivity|].
  rewrite <- SF2R_B2SF, E1. unfold SF2R, F2R. cbn [Fnum Fexp cond_Zopp].
  change (bpow radix2 (-24)) with (/16777216). lra.
Qed.

Lemma Btrunc_Ztrunc : forall y : f32, Btrunc y = Ztrunc (B2R y).
Proof.
  intro y. apply eq_IZR. rewrite Btrunc_correct by exact eq_refl. unfold round, scaled_mantissa, cexp, FIX_exp, F2R.
  cbn [Fnum Fexp]. change (bpow radix2 (-0)) with 1. change (bpow radix2 0) with 1. rewrite !Rmult_1_r. reflexivity.
Qed.

Lemma toInt_spec : forall y : f32, is_finite y = true -> s_toInt y = if is_int (Ztrunc (B2R y)) then Ok (Ztrunc (B2R y)) else UB.
Proof.
  intros y h. rewrite <- Btrunc_Ztrunc. destruct y; try discriminate h; reflexivity.
Qed.

Lemma f32_zero : f32_ofZ 0 = B754_zero false. Proof. reflexivity. Qed.

Lemma fmt_2_31 : fmt32 2147483648.
Proof. change 2147483648 with (bpow radix2 31). apply generic_format_bpow. unfold SpecFloat.fexp, SpecFloat.emin. lia. Qed.

Lemma C31_round_binary32_proof : forall (L : libm32) (x : f32), is_finite x = true ->
  Rabs (B2R x) < 2147483648 ->
  Rabs (B2R x) <> 16777215 * / 33554432 ->
  ~ (8388608 <= Rabs (B2R x) < 16777216 /\ exists k : Z, Rabs (B2R x) = IZR (2 * k + 1)) ->
  exists n : Z, nearest_away (B2R x) n /\ @roundToInt f32 (F32Scalar L) F32ToInt x = Ok n.
Proof.
  intros L x fx bx b1 b2. destruct f32_half as [fh vh].
  assert (Fa : fmt32 (Rabs (B2R x))) by (apply generic_format_abs, generic_format_B2R).
  assert (NB : ~ bad_round (Rabs (B2R x))) by (intros [?|?]; contradiction).
  destruct (half_up _ Fa (Rabs_pos _) NB) as (n&N1&N2).
  assert (Nint : is_int n = true /\ is_int (- n) = true).
  { assert (0 <= n)%Z.
    { assert (-1 < IZR n). { generalize (Rabs_pos (B2R x)); lra. } change (-1) with (IZR (-1)) in H. apply lt_IZR in H. lia. }
    assert (n < 2147483648)%Z.
    { destruct (Rlt_dec (Rabs (B2R x)) 16777216) as [l|l].
      - apply lt_IZR. lra.
      - apply Rnot_lt_le in l. destruct (grid _ 24 Fa) as [k E]; [rewrite Rabs_right; [exact l|lra]|].
        change (bpow radix2 (24-23)) with 2 in E. rewrite E in *.
        assert (k + 1 <= 1073741824)%Z by (apply lt_IZR'; lra). apply IZR_le in H0. rewrite plus_IZR in H0.
        apply lt_IZR. lra. }
    unfold is_int, int_min, int_max. rewrite !andb_true_iff, !Z.leb_le. lia. }
  assert (BB : Rabs (rnd32 (Rabs (B2R x) + / 2)) < bpow radix2 128).
  { rewrite Rabs_right; [|apply Rle_ge; apply round_ge_generic; [apply valid_exp32|apply valid_rnd_round_mode|apply generic_format_0|generalize (Rabs_pos (B2R x)); lra]].
    apply Rle_lt_trans with (bpow radix2 32); [|apply bpow_lt; lia].
    apply round_le_generic; [apply valid_exp32|apply valid_rnd_round_mode| |change (bpow radix2 32) with 4294967296; lra].
    apply generic_format_bpow. unfold SpecFloat.fexp, SpecFloat.emin. lia. }
  unfold roundToInt. cbn [s_leb s_add s_sub s_ofZ s_frac F32Scalar]. rewrite f32_zero.
  rewrite Bleb_correct by (reflexivity || exact fx). cbn [B2R].
  assert (n0 : 0 <= IZR n).
  { assert (-1 < IZR n). { generalize (Rabs_pos (B2R x)); lra. } change (-1) with (IZR (-1)) in H. apply lt_IZR in H. apply IZR_le. lia. }
  destruct (Rle_bool_spec 0 (B2R x)) as [p|p].
  - rewrite (Rabs_right (B2R x)) in * by lra. exists n. split; [apply nearest_away_pos; lra|].
    generalize (Bplus_correct 24 128 _ _ mode_NE x (f32_frac 1 2) fx fh). rewrite vh.
    rewrite Rlt_bool_true by exact BB. intros (V&W&_). rewrite toInt_spec by exact W. rewrite V.
    assert (Z : Ztrunc (rnd32 (B2R x + /2)) = n).
    { rewrite Ztrunc_floor by lra. apply Zfloor_imp. rewrite plus_IZR. exact N2. }
    rewrite Z. rewrite (proj1 Nint). reflexivity.
  - rewrite (Rabs_left (B2R x)) in * by lra. exists (- n)%Z. split.
    { rewrite <- (Ropp_involutive (B2R x)). apply nearest_away_opp, nearest_away_pos; lra. }
    generalize (Bminus_correct 24 128 _ _ mode_NE x (f32_frac 1 2) fx fh). rewrite vh.
    assert (OP : rnd32 (B2R x - /2) = - rnd32 (- B2R x + / 2)).
    { cbn [round_mode]. rewrite <- round_NE_opp. f_equal. ring. }
    rewrite OP. rewrite Rabs_Ropp. rewrite Rlt_bool_true by exact BB.
    intros (V&W&_). rewrite toInt_spec by exact W. rewrite V.
    assert (Z : Ztrunc (- rnd32 (- B2R x + /2)) = (- n)%Z).
    { rewrite Ztrunc_opp. f_equal. rewrite Ztrunc_floor by lra. apply Zfloor_imp. rewrite plus_IZR. exact N2. }
    rewrite Z. rewrite (proj2 Nint). reflexivity.
Qed.


(** the float just below a half, and 2^23 + 1 *)
Definition below_half : f32 := f32_frac 16777215 33554432.
Definition odd_large : f32 := f32_ofZ 8388609.

Lemma C31_round_binary32_refuted_proof : forall L : libm32,
  @roundToInt f32 (F32Scalar L) F32ToInt (f32_frac 16777215 33554432) = Ok 1%Z /\
  B2R (f32_frac 16777215 33554432) = 16777215 / 33554432 /\ ~ nearest_away (16777215 / 33554432) 1 /\
  @roundToInt f32 (F32Scalar L) F32ToInt (f32_ofZ 8388609) = Ok 8388610%Z /\
  B2R (f32_ofZ 8388609) = 8388609 /\ ~ nearest_away 8388609 8388610.
Proof.
  intro L. split; [vm_compute; reflexivity|]. split.
  { rewrite <- SF2R_B2SF. replace (B2SF (f32_frac 16777215 33554432)) with (SpecFloat.S754_finite false 16777215 (-25)) by (vm_compute; reflexivity).
    unfold SF2R, F2R. cbn [Fnum Fexp cond_Zopp]. change (bpow radix2 (-25)) with (/33554432). reflexivity. }
  split. { intros [h _]. rewrite Rabs_right in h by lra. lra. }
  split; [vm_compute; reflexivity|]. split.
  { rewrite <- SF2R_B2SF. replace (B2SF (f32_ofZ 8388609)) with (SpecFloat.S754_finite false 8388609 0) by (vm_compute; reflexivity).
    unfold SF2R, F2R. cbn [Fnum Fexp cond_Zopp]. change (bpow radix2 0) with 1. lra. }
  intros [h _]. rewrite Rabs_right in h by lra. lra.
Qed.


Lemma C31_round_out_of_range_proof : forall (L : libm32) (x : f32),
  is_finite x = false \/ 2147483649 < Rabs (B2R x) ->
  @roundToInt f32 (F32Scalar L) F32ToInt x = UB.
Proof.
  intros L x h. destruct f32_half as [fh vh].
  destruct (is_finite x) eqn:fx.
  - destruct h as [h|h]; [discriminate|].
    assert (G : forall y : f32, is_finite y = true -> 2147483649 < Rabs (B2R y) -> s_toInt y = UB).
    { intros y fy hy. rewrite toInt_spec by exact fy.
      destruct (is_int (Ztrunc (B2R y))) eqn:e; [|reflexivity]. exfalso.
      unfold is_int, int_min, int_max in e. apply andb_prop in e. destruct e as [e1 e2].
      apply Z.leb_le in e1, e2. apply IZR_le in e1, e2.
      destruct (Rle_dec 0 (B2R y)) as [p|p].
      - rewrite Rabs_right in hy by lra. rewrite Ztrunc_floor in e2 by exact p.
        generalize (Zfloor_ub (B2R y)). lra.
      - rewrite Rabs_left in hy by lra. rewrite Ztrunc_ceil in e1 by lra.
        generalize (Zceil_lb (B2R y)). lra. }
    unfold roundToInt. cbn [s_leb s_add s_sub s_ofZ s_frac F32Scalar]. rewrite f32_zero.
    rewrite Bleb_correct by (reflexivity || exact fx). cbn [B2R].
    assert (VR : Valid_rnd (round_mode mode_NE)) by apply valid_rnd_round_mode.
    destruct (Rle_bool_spec 0 (B2R x)) as [p|p].
    + rewrite Rabs_right in h by lra.
      assert (M : B2R x <= rnd32 (B2R x + / 2)) by (apply round_ge_generic; [apply valid_exp32|exact VR|apply generic_format_B2R|lra]).
      generalize (Bplus_correct 24 128 _ _ mode_NE x (f32_frac 1 2) fx fh). rewrite vh.
      destruct (Rlt_bool_spec (Rabs (rnd32 (B2R x + /2))) (bpow radix2 128)) as [l|l].
      * intros (V&W&_). apply G; [exact W|]. rewrite V, Rabs_right by lra. lra.
      * intros (V&_). destruct (Bplus mode_NE x (f32_frac 1 2)); cbn in V; try discriminate V; reflexivity.
    + rewrite Rabs_left in h by lra.
      assert (M : rnd32 (B2R x - / 2) <= B2R x) by (apply round_le_generic; [apply valid_exp32|exact VR|apply generic_format_B2R|lra]).
      generalize (Bminus_correct 24 128 _ _ mode_NE x (f32_frac 1 2) fx fh). rewrite vh.
      destruct (Rlt_bool_spec (Rabs (rnd32 (B2R x - /2))) (bpow radix2 128)) as [l|l].
      * intros (V&W&_). apply G; [exact W|]. rewrite V, Rabs_left by lra. lra.
      * intros (V&_). destruct (Bminus mode_NE x (f32_frac 1 2)); cbn in V; try discriminate V; reflexivity.
  - clear h. destruct x as [s|[|]| |s m e B]; try discriminate fx; reflexivity.
Qed.


Lemma C31_axis_mask_proof : forall m : Z,
  isAxisMask m = true <->
  exists x y z wx wy wz : bool,
    m = (Z.b2z x * 1 + Z.b2z y * 2 + Z.b2z z * 4 + Z.b2z wx * 8 + Z.b2z wy * 16 + Z.b2z wz * 32)%Z /\
    (x || y || z || wx || wy || wz)%bool = true.
Proof.
  intro m. unfold isAxisMask. rewrite andb_true_iff, Z.ltb_lt, Z.leb_le. split.
  - intros [h1 h2]. exists (Z.testbit m 0), (Z.testbit m 1), (Z.testbit m 2), (Z.testbit m 3), (Z.testbit m 4), (Z.testbit m 5).
    assert (H : exists n : nat, (n < 63)%nat /\ m = Z.of_nat (S n)).
    { exists (Z.to_nat (m - 1)). split; lia. }
    destruct H as (n&hn&->). clear h1 h2.
    do 63 (destruct n as [|n]; [split; reflexivity|]). lia.
  - intros (x&y&z&a&b&c&->&h). destruct x, y, z, a, b, c; cbn in *; try discriminate h; lia.
Qed.





Lemma negInt_ok : forall j, is_int (- j) = true -> negInt j = Ok (- j)%Z.
Proof. intros j h. unfold negInt. rewrite h. reflexivity. Qed.

Lemma C38_pixel_position_proof : forall (size i j : Z) (mpp thr : R) (center : Position2D R), is_int (- j) = true ->
  getPositionFromPixel (newOccupancyMapParams size mpp center thr) (mkPoint2Di i j) =
  Ok (mkPosition2D (p2_x center + (IZR i - IZR size / 2) * mpp) (p2_y center - (IZR j - IZR size / 2) * mpp)) /\
  (forall theta, getPoseFromPixel (newOccupancyMapParams size mpp center thr) (mkPose2Di i j theta) =
     Ok (mkPose2D (p2_x center + (IZR i - IZR size / 2) * mpp) (p2_y center - (IZR j - IZR size / 2) * mpp) theta)).
Proof.
  intros size i j mpp thr [cx cy] h.
  unfold getPositionFromPixel, getPoseFromPixel, newOccupancyMapParams, initOriginOffset.
  cbn [pi_x pi_y di_x di_y di_theta o_size o_metersPerPixel o_originOffset p2_x p2_y]. rewrite (negInt_ok j h). cbn [rbind]. rsimp.
  rewrite opp_IZR. split; intros; f_equal; f_equal; field.
Qed.


Lemma round_at : forall (x : R) (n : Z), is_int n = true -> Rabs (IZR n - x) < / 2 -> roundToInt x = Ok n.
Proof.
  intros x n h e. destruct (C31_round_proof x) as (m&M&E). 
  assert (N : nearest_away x n) by (split; [lra|intro; lra]).
  rewrite (nearest_away_unique _ _ _ M N) in E. rewrite h in E. exact E.
Qed.

Lemma C38_round_trip_proof : forall (p : OccupancyMapParams R) (i j : Z) (theta : R),
  o_metersPerPixel p <> 0 -> is_int i = true -> is_int j = true -> is_int (- j) = true ->
  rbind (getPositionFromPixel p (mkPoint2Di i j)) (getPixelFromPosition p) = Ok (mkPoint2Di i j) /\
  rbind (getPoseFromPixel p (mkPose2Di i j theta)) (getPixelFromPose p) = Ok (mkPoint2Di i j).
Proof.
  intros [size mpp [ox oy] thr] i j theta. cbn [o_metersPerPixel]. intros h hi hj hn.
  unfold getPositionFromPixel, getPoseFromPixel, getPixelFromPosition, getPixelFromPose, getPixelFromOffsetAndScale, pose2DFromPosition2D.
  cbn [pi_x pi_y di_x di_y di_theta]. rewrite (negInt_ok j hn). cbn [rbind pose_x pose_y p2_x p2_y o_metersPerPixel o_originOffset]. rsimp.
  rewrite opp_IZR.
  replace ((IZR i * mpp + ox - ox) * (1 / mpp)) with (IZR i) by (field; exact h).
  replace (- (- IZR j * mpp + oy - oy) * (1 / mpp)) with (IZR j) by (field; exact h).
  rewrite (round_at (IZR i) i), (round_at (IZR j) j) by (assumption || (rewrite Rminus_diag_eq by reflexivity; rewrite Rabs_R0; lra)).
  cbn [rbind]. auto.
Qed.


Lemma C38_pixel_of_position_proof : forall (p : OccupancyMapParams R) (pos q : Position2D R) (px : Point2Di),
  0 < o_metersPerPixel p -> getPixelFromPosition p pos = Ok px -> getPositionFromPixel p px = Ok q ->
  Rabs (p2_x q - p2_x pos) <= o_metersPerPixel p / 2 /\ Rabs (p2_y q - p2_y pos) <= o_metersPerPixel p / 2.
Proof.
  intros [size mpp [ox oy] thr] [x y] q [i j]. cbn [o_metersPerPixel]. intros h.
  unfold getPositionFromPixel, getPixelFromPosition, getPixelFromOffsetAndScale, pose2DFromPosition2D.
  cbn [rbind pose_x pose_y p2_x p2_y o_metersPerPixel o_originOffset pi_x pi_y]. rsimp.
  destruct (C31_round_proof ((x - ox) * (1 / mpp))) as (n&[N _]&->).
  destruct (C31_round_proof (- (y - oy) * (1 / mpp))) as (m&[M _]&->).
  destruct (is_int n); [|discriminate]. destruct (is_int m); [|discriminate]. cbn [rbind].
  intro E. injection E as <- <-. unfold negInt. destruct (is_int (- m)); [|discriminate]. cbn [rbind].
  intro E. injection E as <-. cbn [p2_x p2_y]. rewrite opp_IZR.
  apply Rabs_le_inv in N. apply Rabs_le_inv in M.
  set (X := (x - ox) * (1/mpp)) in *. set (Y := - (y - oy) * (1/mpp)) in *.
  assert (EX : x = X * mpp + ox) by (unfold X; field; lra).
  assert (EY : y = - Y * mpp + oy) by (unfold Y; field; lra).
  clearbody X Y. subst x y. split; apply Rabs_le; split; nra.
Qed.


Lemma C38_delta_proof : forall (p : OccupancyMapParams R) (d o : Position2D R),
  getPositionFromPixel p (mkPoint2Di 0 0) = Ok o ->
  getDeltaPixelFromDeltaPosition p d = getPixelFromPosition p (mkPosition2D (p2_x o + p2_x d) (p2_y o + p2_y d)).
Proof.
  intros [size mpp [ox oy] thr] [dx dy] o.
  unfold getPositionFromPixel, negInt. cbn [pi_x pi_y]. replace (is_int (- 0)) with true by reflexivity. cbn [rbind].
  intro E. injection E as <-. unfold getDeltaPixelFromDeltaPosition, getPixelFromPosition, getPixelFromOffsetAndScale, pose2DFromPosition2D, p2_default.
  cbn [pose_x pose_y p2_x p2_y o_metersPerPixel o_originOffset]. rsimp.
  replace (0 * mpp + ox + dx - ox) with (dx - 0) by ring.
  replace ((- 0%Z)%Z) with 0%Z by reflexivity.
  replace (0 * mpp + oy + dy - oy) with (dy - 0) by ring. reflexivity.
Qed.


(** *** The round trip in binary32 *)

Notation uu := (/ 16777216).

Lemma small_prod : forall x d M, Rabs x <= M -> Rabs d <= uu -> Rabs (x * d) <= M * uu.
Proof.
  intros x d M h1 h2. rewrite Rabs_mult. apply Rmult_le_compat; auto using Rabs_pos.
Qed.

(** Rounded product: relative error, when the product is 0 or not too small and not too big. *)
Lemma mult_rel : forall x y : f32, is_finite x = true -> is_finite y = true ->
  (B2R x * B2R y = 0 \/ bpow radix2 (-100) <= Rabs (B2R x * B2R y)) -> Rabs (B2R x * B2R y) <= bpow radix2 100 ->
  is_finite (Bmult mode_NE x y) = true /\
  exists d, Rabs d <= uu /\ B2R (Bmult mode_NE x y) = B2R x * B2R y * (1 + d).
Proof.
  intros x y fx fy h1 h2.
  assert (B : Rabs (rnd32 (B2R x * B2R y)) < bpow radix2 128).
  { apply Rle_lt_trans with (bpow radix2 100); [|apply bpow_lt; lia].
    apply abs_round_le_generic; [apply valid_exp32|apply valid_rnd_round_mode| |exact h2].
    apply generic_format_bpow. unfold SpecFloat.fexp, SpecFloat.emin. lia. }
  generalize (Bmult_correct 24 128 _ _ mode_NE x y). rewrite Rlt_bool_true by exact B.
  rewrite fx, fy. intros (V&W&_). split; [exact W|]. rewrite V.
  destruct h1 as [z|h1].
  - exists 0. rewrite Rabs_R0. split; [lra|]. rewrite z, round_0 by apply valid_rnd_round_mode. ring.
  - destruct (relative_error_N_FLT_ex radix2 (-149) 24 eq_refl (fun x => negb (Z.even x)) (B2R x * B2R y)) as (d&D&E).
    { apply Rle_trans with (2 := h1). apply bpow_le. lia. }
    exists d. split; [|exact E]. change (Rabs d <= /2 * /8388608) in D. lra.
Qed.

Lemma div1_rel : forall y : f32, is_finite y = true ->
  bpow radix2 (-100) <= B2R y <= bpow radix2 100 ->
  is_finite (Bdiv mode_NE (f32_ofZ 1) y) = true /\
  exists d, Rabs d <= uu /\ B2R (Bdiv mode_NE (f32_ofZ 1) y) = / B2R y * (1 + d).
Proof.
  intros y fy [h1 h2].
  assert (p0 := bpow_gt_0 radix2 (-100)).
  assert (one : B2R (f32_ofZ 1) = 1 /\ is_finite (f32_ofZ 1) = true).
  { assert (E : B2SF (f32_ofZ 1) = SpecFloat.S754_finite false 8388608 (-23)) by (vm_compute; reflexivity).
    split; [|rewrite <- is_finite_SF_B2SF, E; reflexivity].
    rewrite <- SF2R_B2SF, E. unfold SF2R, F2R. cbn [Fnum Fexp cond_Zopp].
    change (bpow radix2 (-23)) with (/8388608). lra. }
  destruct one as [o1 o2].
  assert (i1 : bpow radix2 (-100) <= / B2R y).
  { change (-100)%Z with (- (100))%Z. rewrite bpow_opp. apply Rinv_le; lra. }
  assert (i2 : / B2R y <= bpow radix2 100).
  { rewrite <- (Rinv_inv (bpow radix2 100)). rewrite <- bpow_opp. apply Rinv_le; [exact p0|exact h1]. }
  assert (A : Rabs (/ B2R y) = / B2R y) by (apply Rabs_right; lra).
  assert (B : Rabs (rnd32 (/ B2R y)) < bpow radix2 128).
  { apply Rle_lt_trans with (bpow radix2 100); [|apply bpow_lt; lia].
    apply abs_round_le_generic; [apply valid_exp32|apply valid_rnd_round_mode| |lra].
    apply generic_format_bpow. unfold SpecFloat.fexp, SpecFloat.emin. lia. }
  generalize (Bdiv_correct 24 128 _ _ mode_NE (f32_ofZ 1) y ltac:(lra)). rewrite o1.
  replace (1 / B2R y) with (/ B2R y) by (field; lra).
  rewrite Rlt_bool_true by exact B. rewrite o2. intros (V&W&_). split; [exact W|]. rewrite V.
  destruct (relative_error_N_FLT_ex radix2 (-149) 24 eq_refl (fun x => negb (Z.even x)) (/ B2R y)) as (d&D&E).
  { rewrite A. apply Rle_trans with (2 := i1). apply bpow_le. lia. }
  exists d. split; [|exact E]. change (Rabs d <= /2 * /8388608) in D. lra.
Qed.

Lemma plus_rel : forall x y : f32, is_finite x = true -> is_finite y = true ->
  Rabs (B2R x + B2R y) <= bpow radix2 100 ->
  is_finite (Bplus mode_NE x y) = true /\
  exists d, Rabs d <= uu /\ B2R (Bplus mode_NE x y) = (B2R x + B2R y) * (1 + d).
Proof.
  intros x y fx fy h.
  assert (B : Rabs (rnd32 (B2R x + B2R y)) < bpow radix2 128).
  { apply Rle_lt_trans with (bpow radix2 100); [|apply bpow_lt; lia].
    apply abs_round_le_generic; [apply valid_exp32|apply valid_rnd_round_mode| |exact h].
    apply generic_format_bpow. unfold SpecFloat.fexp, SpecFloat.emin. lia. }
  generalize (Bplus_correct 24 128 _ _ mode_NE x y fx fy). rewrite Rlt_bool_true by exact B.
  intros (V&W&_). split; [exact W|]. rewrite V.
  destruct (FLT_plus_error_N_ex radix2 (-149) 24 (fun x => negb (Z.even x)) (B2R x) (B2R y)) as (d&D&E);
    [apply generic_format_B2R|apply generic_format_B2R|].
  exists d. split; [|exact E]. change (Rabs d <= (/2 * /8388608) / (1 + /2 * /8388608)) in D. lra.
Qed.

Lemma minus_rel : forall x y : f32, is_finite x = true -> is_finite y = true ->
  Rabs (B2R x - B2R y) <= bpow radix2 100 ->
  is_finite (Bminus mode_NE x y) = true /\
  exists d, Rabs d <= uu /\ B2R (Bminus mode_NE x y) = (B2R x - B2R y) * (1 + d).
Proof.
  intros x y fx fy h.
  assert (B : Rabs (rnd32 (B2R x - B2R y)) < bpow radix2 128).
  { apply Rle_lt_trans with (bpow radix2 100); [|apply bpow_lt; lia].
    apply abs_round_le_generic; [apply valid_exp32|apply valid_rnd_round_mode| |exact h].
    apply generic_format_bpow. unfold SpecFloat.fexp, SpecFloat.emin. lia. }
  generalize (Bminus_correct 24 128 _ _ mode_NE x y fx fy). rewrite Rlt_bool_true by exact B.
  intros (V&W&_). split; [exact W|]. rewrite V.
  destruct (FLT_plus_error_N_ex radix2 (-149) 24 (fun x => negb (Z.even x)) (B2R x) (- B2R y)) as (d&D&E);
    [apply generic_format_B2R|apply generic_format_opp, generic_format_B2R|].
  exists d. split; [|exact E]. change (Rabs d <= (/2 * /8388608) / (1 + /2 * /8388608)) in D. lra.
Qed.

Lemma ofZ_exact : forall z, (Z.abs z <= 2^24)%Z -> B2R (f32_ofZ z) = IZR z /\ is_finite (f32_ofZ z) = true.
Proof.
  intros z h. unfold f32_ofZ.
  generalize (binary_normalize_correct 24 128 _ _ mode_NE z 0 false). cbv zeta.
  assert (E : F2R (Float radix2 z 0) = IZR z) by (unfold F2R; cbn [Fnum Fexp]; change (bpow radix2 0) with 1; ring).
  rewrite E. rewrite round_generic; [|apply valid_rnd_round_mode|].
  - rewrite Rlt_bool_true; [tauto|]. rewrite <- abs_IZR. apply Rle_lt_trans with (IZR (2^24)); [apply IZR_le; exact h|].
    change (IZR (2^24)) with (bpow radix2 24). apply bpow_lt. lia.
  - rewrite <- (Rmult_1_r (IZR z)). change 1 with (bpow radix2 0). apply fmt32_intro; lia.
Qed.

Section Chain.
Variable mpp off : f32.
Hypothesis fm : is_finite mpp = true.
Hypothesis fo : is_finite off = true.
Hypothesis bm : bpow radix2 (-60) <= B2R mpp <= bpow radix2 60.
Hypothesis bo : Rabs (B2R off) <= 1048576 * B2R mpp.

Lemma chain : forall z : Z, (Z.abs z <= 2^20)%Z ->
  let c := Bminus mode_NE (Bplus mode_NE (Bmult mode_NE (f32_ofZ z) mpp) off) off in
  is_finite c = true /\ Rabs (B2R c - IZR z * B2R mpp) <= 3/10 * B2R mpp.
Proof.
  intros z hz. cbv zeta. assert (m0 := bpow_gt_0 radix2 (-60)).
  destruct (ofZ_exact z) as [Vz Fz]. { change (2^20)%Z with 1048576%Z in hz. change (2^24)%Z with 16777216%Z. lia. }
  assert (Az : Rabs (IZR z) <= 1048576) by (rewrite <- abs_IZR; apply IZR_le; exact hz).
  set (M := B2R mpp) in *.
  assert (big : 16777216 * M <= bpow radix2 100).
  { apply Rle_trans with (16777216 * bpow radix2 60); [lra|].
    change 16777216 with (bpow radix2 24). rewrite <- bpow_plus. apply bpow_le. lia. }
  assert (SC : forall X K, Rabs X <= K -> Rabs (X * M) <= K * M).
  { intros X K h. rewrite Rabs_mult, (Rabs_right M) by lra. apply Rmult_le_compat_r; lra. }
  (* everything divided by M *)
  assert (O : exists o, B2R off = o * M /\ Rabs o <= 1048576).
  { exists (B2R off / M). split; [field; lra|]. unfold Rdiv. rewrite Rabs_mult, Rabs_inv, (Rabs_right M) by lra.
    apply Rmult_le_reg_r with M; [lra|]. rewrite Rmult_assoc, Rinv_l, Rmult_1_r by lra. exact bo. }
  destruct O as (o&O1&O2).
  destruct (mult_rel (f32_ofZ z) mpp Fz fm) as (Fa&d1&D1&Va).
  { rewrite Vz. destruct (Z.eq_dec z 0) as [->|nz]; [left; ring|right].
    rewrite Rabs_mult, (Rabs_right (B2R mpp)) by (fold M; lra). fold M. rewrite <- abs_IZR.
    assert (1 <= IZR (Z.abs z)) by (apply IZR_le; lia).
    apply Rle_trans with (1 * bpow radix2 (-60)); [rewrite Rmult_1_l; apply bpow_le; lia|].
    apply Rmult_le_compat; lra. }
  { rewrite Vz. fold M. apply Rle_trans with (1048576 * M); [apply SC; exact Az|lra]. }
  rewrite Vz in Va. fold M in Va.
  set (A := IZR z * (1 + d1)).
  assert (VA : B2R (Bmult mode_NE (f32_ofZ z) mpp) = A * M) by (rewrite Va; unfold A; ring). clear Va.
  assert (e1 := small_prod _ _ _ Az D1). apply Rabs_le_inv in e1.
  assert (bA : Rabs A <= 1048577) by (apply Rabs_le_inv in Az; apply Rabs_le; unfold A; lra).
  assert (dA : Rabs (A - IZR z) <= 1048576 * uu) by (apply Rabs_le; unfold A; lra). clearbody A. clear e1.
  destruct (plus_rel _ off Fa fo) as (Fb&d2&D2&Vb).
  { rewrite VA, O1, <- Rmult_plus_distr_r. apply Rle_trans with (2097153 * M); [|lra]. apply SC.
    apply Rle_trans with (1 := Rabs_triang _ _). lra. }
  rewrite VA, O1 in Vb.
  assert (bAO : Rabs (A + o) <= 2097153) by (apply Rle_trans with (1 := Rabs_triang _ _); lra).
  assert (e2 := small_prod _ _ _ bAO D2). apply Rabs_le_inv in e2.
  set (B := (A + o) * (1 + d2)).
  assert (VB : B2R (Bplus mode_NE (Bmult mode_NE (f32_ofZ z) mpp) off) = B * M) by (rewrite Vb; unfold B; ring). clear Vb.
  assert (dB : Rabs (B - o - IZR z) <= 3145730 * uu).
  { apply Rabs_le_inv in dA. apply Rabs_le. unfold B. lra. }
  clearbody B. clear e2.
  assert (bB : Rabs (B - o) <= 1048577) by (apply Rabs_le_inv in dB; apply Rabs_le_inv in Az; apply Rabs_le; lra).
  destruct (minus_rel _ off Fb fo) as (Fc&d3&D3&Vc).
  { rewrite VB, O1, <- Rmult_minus_distr_r. apply Rle_trans with (1048577 * M); [apply SC; exact bB|lra]. }
  rewrite VB, O1 in Vc. split; [exact Fc|]. rewrite Vc.
  assert (e3 := small_prod _ _ _ bB D3). apply Rabs_le_inv in e3.
  replace ((B * M - o * M) * (1 + d3) - IZR z * M) with (((B - o) * (1 + d3) - IZR z) * M) by ring.
  apply SC. apply Rabs_le_inv in dB. apply Rabs_le. lra.
Qed.

Lemma pix : forall (L : libm32) (c : f32) (z : Z), (Z.abs z <= 2^20)%Z -> is_finite c = true ->
  Rabs (B2R c - IZR z * B2R mpp) <= 3/10 * B2R mpp ->
  @roundToInt f32 (F32Scalar L) F32ToInt (Bmult mode_NE c (Bdiv mode_NE (f32_ofZ 1) mpp)) = Ok z.
Proof.
  intros L c z hz fc h. assert (m0 := bpow_gt_0 radix2 (-60)).
  destruct (div1_rel mpp fm) as (Fk&d4&D4&Vk).
  { split; [apply Rle_trans with (2 := proj1 bm)|apply Rle_trans with (1 := proj2 bm)]; apply bpow_le; lia. }
  set (M := B2R mpp) in *. set (k := Bdiv mode_NE (f32_ofZ 1) mpp) in *.
  assert (Az : Rabs (IZR z) <= 1048576) by (rewrite <- abs_IZR; apply IZR_le; exact hz).
  assert (C : exists C, B2R c = C * M /\ Rabs (C - IZR z) <= 3/10).
  { exists (B2R c / M). split; [field; lra|].
    replace (B2R c / M - IZR z) with ((B2R c - IZR z * M) * / M) by (field; lra).
    rewrite Rabs_mult, Rabs_inv, (Rabs_right M) by lra.
    apply Rmult_le_reg_r with M; [lra|]. rewrite Rmult_assoc, Rinv_l, Rmult_1_r by lra. exact h. }
  destruct C as (C&C1&C2). assert (bC : Rabs C <= 1048577) by (apply Rabs_le_inv in C2; apply Rabs_le_inv in Az; apply Rabs_le; lra).
  assert (e4 := small_prod _ _ _ bC D4). apply Rabs_le_inv in e4.
  assert (W : B2R (Bmult mode_NE c k) = rnd32 (B2R c * B2R k) /\ is_finite (Bmult mode_NE c k) = true).
  { generalize (Bmult_correct 24 128 _ _ mode_NE c k).
    rewrite Rlt_bool_true. { rewrite fc, Fk. tauto. }
    apply Rle_lt_trans with (bpow radix2 100); [|apply bpow_lt; lia].
    apply abs_round_le_generic; [apply valid_exp32|apply valid_rnd_round_mode| |].
    - apply generic_format_bpow. unfold SpecFloat.fexp, SpecFloat.emin. lia.
    - rewrite C1, Vk. replace (C * M * (/ M * (1 + d4))) with (C * (1 + d4)) by (field; lra).
      apply Rle_trans with (bpow radix2 24); [|apply bpow_le; lia]. change (bpow radix2 24) with 16777216.
      apply Rabs_le_inv in bC; apply Rabs_le; lra. }
  destruct W as [W1 W2].
  rewrite C1, Vk in W1. replace (C * M * (/ M * (1 + d4))) with (C * (1 + d4)) in W1 by (field; lra).
  destruct (relative_error_N_FLT'_ex radix2 (-149) 24 eq_refl (fun x => negb (Z.even x)) (C * (1 + d4))) as (d5&eta&D5&H5&_&E5).
  assert (D5' : Rabs d5 <= uu). { change (Rabs d5 <= (/2 * /8388608) / (1 + /2 * /8388608)) in D5. lra. }
  assert (bQ : Rabs (C * (1 + d4)) <= 1048578) by (apply Rabs_le_inv in bC; apply Rabs_le; lra).
  assert (e5 := small_prod _ _ _ bQ D5'). apply Rabs_le_inv in e5.
  assert (H5' : Rabs eta <= /1000).
  { apply Rle_trans with (1 := H5). assert (bpow radix2 (-149) <= bpow radix2 (-20)) by (apply bpow_le; lia).
    change (bpow radix2 (-20)) with (/1048576) in H. lra. }
  change (round radix2 (FLT_exp (-149) 24) (Znearest (fun x => negb (Z.even x))) (C * (1 + d4))) with (rnd32 (C * (1 + d4))) in E5.
  rewrite E5 in W1. apply Rabs_le_inv in H5'.
  set (r := Bmult mode_NE c k) in *. clearbody r.
  assert (dr : Rabs (B2R r - IZR z) <= 45/100) by (apply Rabs_le_inv in C2; apply Rabs_le; rewrite W1; lra).
  apply Rabs_le_inv in dr.
  assert (br : Rabs (B2R r) <= 1048577) by (apply Rabs_le_inv in Az; apply Rabs_le; lra).
  destruct (C31_round_binary32_proof L r W2) as (n&N&E).
  - lra.
  - intro e. destruct (Z.eq_dec z 0) as [->|nz].
    + assert (Rabs (B2R r) <= 45/100) by (apply Rabs_le; lra). lra.
    + assert (1 <= Rabs (IZR z)) by (rewrite <- abs_IZR; apply IZR_le; lia).
      assert (Rabs (IZR z) <= Rabs (B2R r) + 45/100); [|lra].
      replace (IZR z) with (B2R r + (IZR z - B2R r)) by ring. apply Rle_trans with (1 := Rabs_triang _ _).
      apply Rplus_le_compat_l. apply Rabs_le. lra.
  - intros [h1 _]. lra.
  - rewrite E. f_equal. apply (nearest_away_unique _ _ _ N). split; [apply Rabs_le; lra|].
    intro e. exfalso. assert (Rabs (IZR z - B2R r) <= 45/100) by (apply Rabs_le; lra). lra.
Qed.
End Chain.

Lemma C38_round_trip_binary32_proof : forall (L : libm32) (p : OccupancyMapParams f32) (i j : Z),
  let '(mkMap _ mpp off _) := p in
  is_finite mpp = true -> is_finite (p2_x off) = true -> is_finite (p2_y off) = true ->
  bpow radix2 (-60) <= B2R mpp <= bpow radix2 60 ->
  Rabs (B2R (p2_x off)) <= 1048576 * B2R mpp -> Rabs (B2R (p2_y off)) <= 1048576 * B2R mpp ->
  (Z.abs i <= 2^20)%Z -> (Z.abs j <= 2^20)%Z ->
  rbind (@getPositionFromPixel f32 (F32Scalar L) p (mkPoint2Di i j)) (@getPixelFromPosition f32 (F32Scalar L) F32ToInt p)
    = Ok (mkPoint2Di i j).
Proof.
  intros L [size mpp [ox oy] thr] i j. cbn [p2_x p2_y]. intros fm fx fy bm bx by_ hi hj.
  unfold getPositionFromPixel, getPixelFromPosition, getPixelFromOffsetAndScale, pose2DFromPosition2D.
  cbn [pi_x pi_y].
  assert (hn : is_int (- j) = true).
  { change (2^20)%Z with 1048576%Z in hj. unfold is_int, int_min, int_max. rewrite andb_true_iff, !Z.leb_le. lia. }
  rewrite (negInt_ok j hn). cbn [rbind pose_x pose_y p2_x p2_y o_metersPerPixel o_originOffset].
  cbn [s_add s_sub s_mul s_div s_neg s_ofZ F32Scalar].
  destruct (chain mpp ox fm fx bm bx i hi) as [F1 B1].
  rewrite (pix mpp fm bm L _ i hi F1 B1). cbn [rbind].
  destruct (chain mpp oy fm fy bm by_ (-j)) as [F2 B2]; [rewrite Z.abs_opp; exact hj|].
  rewrite (pix mpp fm bm L _ j hj); [reflexivity| |].
  - rewrite is_finite_Bopp. exact F2.
  - rewrite B2R_Bopp. rewrite opp_IZR in B2. rewrite <- Rabs_Ropp. eapply Rle_trans; [right|exact B2]. f_equal. ring.
Qed.


Lemma C38_round_trip_far_refuted_proof : forall L : libm32,
  let p := mkMap 100 (f32_ofZ 1) (mkPosition2D (f32_ofZ 33554432) (f32_ofZ 0)) (f32_frac 1 4) in
  rbind (@getPositionFromPixel f32 (F32Scalar L) p (mkPoint2Di 1 0)) (@getPixelFromPosition f32 (F32Scalar L) F32ToInt p)
    = Ok (mkPoint2Di 0 0).
Proof. intro L. vm_compute. reflexivity. Qed.
