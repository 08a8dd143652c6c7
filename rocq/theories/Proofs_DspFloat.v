(** * Lemmas for Props_DspFloat *)


From Coq Require Import Reals ZArith List Bool Lra Lia Psatz Arith.
Import ListNotations.
From Flocq Require Import Core.Core IEEE754.BinarySingleNaN.
From Verif Require Import Scalar RInst F32 Model_Base Model_Dsp Spec_Dsp Spec_DspFloat.
From Verif Require Import F32Err Proofs_Dsp.
Local Open Scope R_scope.

Lemma tiny_val : tiny = / 2^150.
Proof. unfold tiny. change (bpow radix2 (-150)) with (/ IZR (Z.pow_pos radix2 150)). f_equal. rewrite (pow_IZR 2 150). reflexivity. Qed.
Lemma ulp1_val : ulp1 = / 2^24.
Proof. unfold ulp1. f_equal. lra. Qed.

Lemma abs_sum_pos : forall w, 0 <= abs_sum w.
Proof. induction w as [|a w hw]; cbn; [lra|]. pose proof (Rabs_pos (v32 a)). unfold abs_sum in hw. lra. Qed.

Lemma F2_length : forall (A B : Type) (P : A -> B -> Prop) l l', Forall2 P l l' -> length l = length l'.
Proof. induction 1; cbn; congruence. Qed.

Definition near_ (e B : R) (b : f32) (r : R) : Prop := fin b /\ Rabs (v32 b - r) <= e /\ Rabs r <= B.

Lemma sum4 : forall a b s n e y, a + b + s + n = e -> e <= y -> 0 <= s -> 0 <= n -> 0 + a + b <= y.
Proof. intros. lra. Qed.
Lemma sum4' : forall a b s n e, a + b + s + n = e -> 0 + a + b + s + n = e.
Proof. intros. lra. Qed.

Section Run.
Variable L : libm32.
Notation acc := (@accumulate f32 (F32Scalar L)).
Notation accR := (@accumulate R RScalar).
Notation proc := (@processFilter f32 (F32Scalar L)).
Notation procR := (@processFilter R RScalar).

Lemma acc_err : forall w buf bufR out outR B e M d,
  Forall (fun x => fin x) w -> Forall2 (near_ e B) buf bufR -> length w = length buf -> fin out -> Rabs (v32 out - outR) <= d ->
  0 <= e -> 0 <= B -> 0 <= d -> Rabs outR + abs_sum w * B <= M ->
  d + abs_sum w * e + INR (length w) * (4 * ulp1 * M + 2 * tiny) <= M -> M <= / 200 * huge ->
  exists y r, acc buf w out = Ok y /\ accR bufR (map v32 w) outR = Ok r /\ fin y /\
    Rabs (v32 y - r) <= d + abs_sum w * e + INR (length w) * (4 * ulp1 * M + 2 * tiny) /\
    Rabs r <= Rabs outR + abs_sum w * B.
Proof.
  assert (tp := tiny_pos). assert (up : 0 < ulp1) by (unfold ulp1; lra).
  induction w as [|a w hw]; intros buf bufR out outR B e M d hf hb hl fo ho he hB hd hM1 hM2 hM3.
  - exists out, outR. cbn in hl. destruct buf; [|discriminate]. inversion hb. subst. cbn. split; [reflexivity|]. split; [reflexivity|]. split; [exact fo|]. split; lra.
  - destruct buf as [|b buf]; [discriminate|]. inversion hb as [|? ? ? ? (fb & eb & bb) hb' E1 E2]. subst. inversion hf as [|? ? fa hf']. subst.
    assert (hs := abs_sum_pos w). cbn [abs_sum fold_right] in hM1, hM2. fold (abs_sum w) in hM1, hM2.
    change (length (a :: w)) with (S (length w)) in hM2. rewrite S_INR in hM2. set (n := INR (length w)) in *. assert (hn : 0 <= n) by apply pos_INR.
    set (sw := abs_sum w) in *. assert (ha := Rabs_pos (v32 a)). set (aa := Rabs (v32 a)) in *.
    assert (hM : 0 <= M) by (pose proof (Rabs_pos outR); nra).
    assert (hc : 0 <= 4 * ulp1 * M + 2 * tiny) by nra. set (c := 4 * ulp1 * M + 2 * tiny) in *.
    assert (hbv : Rabs (v32 b) <= B + e) by (replace (v32 b) with ((v32 b - y) + y) by ring; apply Rle_trans with (1 := Rabs_triang _ _); lra).
    assert (k1 : aa * B <= M) by (pose proof (Rabs_pos outR); nra).
    assert (k2 : aa * e <= M) by nra.
    assert (hpv : Rabs (v32 b * v32 a) <= 2 * M) by (rewrite Rabs_mult; fold aa; nra).
    destruct (mul_err b a fb fa) as [f1 e1]; [lra|].
    assert (e1' : Rabs (v32 (Bmult mode_NE b a) - y * v32 a) <= aa * e + ulp1 * (2 * M) + tiny).
    { replace (v32 (Bmult mode_NE b a) - y * v32 a) with ((v32 (Bmult mode_NE b a) - v32 b * v32 a) + (v32 b - y) * v32 a) by ring.
      apply Rle_trans with (1 := Rabs_triang _ _). rewrite Rabs_mult. fold aa. nra. }
    assert (hs' : Rabs (outR + y * v32 a) <= Rabs outR + aa * B).
    { apply Rle_trans with (1 := Rabs_triang _ _). rewrite Rabs_mult. fold aa. nra. }
    assert (hsum : Rabs (v32 out + v32 (Bmult mode_NE b a)) <= 2 * M).
    { replace (v32 out + v32 (Bmult mode_NE b a)) with ((v32 out - outR) + (v32 (Bmult mode_NE b a) - y * v32 a) + (outR + y * v32 a)) by ring.
      apply Rle_trans with (1 := Rabs_triang _ _). assert (t := Rabs_triang (v32 out - outR) (v32 (Bmult mode_NE b a) - y * v32 a)).
      unfold c in hM2. assert (0 <= n * (4 * ulp1 * M + 2 * tiny)) by (apply Rmult_le_pos; [exact hn|exact hc]).
      assert (0 <= sw * e) by (now apply Rmult_le_pos). assert (0 <= sw * B) by (now apply Rmult_le_pos). nra. }
    destruct (add_rd out (Bmult mode_NE b a) fo f1) as [f2 e2]; [pose proof (bpow_gt_0 radix2 126) as hp; fold huge in hp; lra|].
    assert (E := rd_err (v32 out + v32 (Bmult mode_NE b a))). rewrite <- e2 in E.
    assert (e3 : Rabs (v32 (Bplus mode_NE out (Bmult mode_NE b a)) - (outR + y * v32 a)) <= d + aa * e + c).
    { replace (v32 (Bplus mode_NE out (Bmult mode_NE b a)) - (outR + y * v32 a)) with
        ((v32 (Bplus mode_NE out (Bmult mode_NE b a)) - (v32 out + v32 (Bmult mode_NE b a))) + ((v32 out - outR) + (v32 (Bmult mode_NE b a) - y * v32 a))) by ring.
      apply Rle_trans with (1 := Rabs_triang _ _). assert (t := Rabs_triang (v32 out - outR) (v32 (Bmult mode_NE b a) - y * v32 a)).
      assert (ulp1 * Rabs (v32 out + v32 (Bmult mode_NE b a)) <= ulp1 * (2 * M)) by (apply Rmult_le_compat_l; lra).
      unfold c. lra. }
    destruct (hw buf l' (Bplus mode_NE out (Bmult mode_NE b a)) (outR + y * v32 a) B e M (d + aa * e + c)) as (z & r & h1 & h2 & h3 & h4 & h5); try assumption.
    + now injection hl.
    + assert (0 <= aa * e) by (now apply Rmult_le_pos). lra.
    + fold sw. lra.
    + fold sw n c. lra.
    + exists z, r. split; [exact h1|]. split; [exact h2|]. split; [exact h3|]. fold sw n c in h4, h5.
      cbn [abs_sum fold_right]. fold (abs_sum w). fold aa sw. change (length (a :: w)) with (S (length w)). rewrite S_INR. fold n. lra.
Qed.

Lemma push_rel : forall (P : f32 -> R -> Prop) b bR x xR, cb_cap b = cb_cap bR -> Forall2 P (cb_elts b) (cb_elts bR) -> P x xR ->
  (length (cb_elts b) <= cb_cap b)%nat ->
  cb_cap (cb_push b x) = cb_cap b /\ cb_cap (cb_push bR xR) = cb_cap bR /\ Forall2 P (cb_elts (cb_push b x)) (cb_elts (cb_push bR xR)) /\
  (length (cb_elts (cb_push b x)) <= cb_cap b)%nat.
Proof.
  intros P b bR x xR hc hP hx hl. assert (hlen := F2_length _ _ _ _ _ hP). unfold cb_push, cb_full. rewrite <- hc, <- hlen.
  destruct (Nat.eqb_spec (cb_cap b) 0) as [e|n]; [auto|].
  destruct (Nat.eqb_spec (length (cb_elts b)) (cb_cap b)) as [e|n']; cbn [cb_cap cb_elts].
  - split; [reflexivity|]. split; [congruence|]. split.
    + apply Forall2_app; [|constructor; [exact hx|constructor]]. inversion hP; cbn; [constructor|assumption].
    + rewrite app_length. cbn. destruct (cb_elts b) as [|z l]; cbn in *; lia.
  - split; [reflexivity|]. split; [congruence|]. split.
    + apply Forall2_app; [exact hP|constructor; [exact hx|constructor]].
    + rewrite app_length. cbn. lia.
Qed.

Variables (wIn wOut : list f32) (gain : f32) (U Y X : R).
Hypothesis fIn : Forall (fun x => fin x) wIn.
Hypothesis fOut : Forall (fun x => fin x) wOut.
Hypothesis fG : fin gain.
Hypothesis nG : v32 gain <> 0.
Hypothesis hX : 0 <= X.
Hypothesis hU : X / Rabs (v32 gain) <= U.
Hypothesis hU2 : U <= / 200 * huge.
Hypothesis hXY : X <= Y.
Hypothesis hrho : abs_sum wOut < 1.
Hypothesis hY1 : abs_sum wIn * U + abs_sum wOut * Y <= Y.
Hypothesis hY2 : Y <= / 200 * huge.
Let e_in := ulp1 * U + tiny.
Let c := 4 * ulp1 * Y + 2 * tiny.
Let E := (abs_sum wIn * e_in + INR (length wIn + length wOut) * c) / (1 - abs_sum wOut).
Hypothesis hE : E <= Y.

Definition frel (f : DigitalFilter f32) (g : DigitalFilter R) : Prop :=
  df_wIn f = wIn /\ df_wOut f = wOut /\ df_gain f = gain /\
  df_wIn g = map v32 wIn /\ df_wOut g = map v32 wOut /\ df_gain g = v32 gain /\
  cb_cap (df_in f) = length wIn /\ cb_cap (df_in g) = length wIn /\ cb_cap (df_out f) = length wOut /\ cb_cap (df_out g) = length wOut /\
  Forall2 (near_ e_in U) (cb_elts (df_in f)) (cb_elts (df_in g)) /\ Forall2 (near_ E Y) (cb_elts (df_out f)) (cb_elts (df_out g)) /\
  (length (cb_elts (df_in f)) <= length wIn)%nat /\ (length (cb_elts (df_out f)) <= length wOut)%nat.

Lemma U_pos : 0 <= U.
Proof. apply Rle_trans with (2 := hU). apply Rmult_le_pos; [exact hX|]. apply Rlt_le, Rinv_0_lt_compat, Rabs_pos_lt, nG. Qed.
Lemma c_pos : 0 <= c.
Proof. assert (tp := tiny_pos). unfold c, ulp1. lra. Qed.
Lemma e_in_pos : 0 <= e_in.
Proof. assert (tp := tiny_pos). assert (hu := U_pos). unfold e_in, ulp1. lra. Qed.
Lemma E_eq : abs_sum wIn * e_in + INR (length wIn) * c + abs_sum wOut * E + INR (length wOut) * c = E.
Proof. unfold E. rewrite plus_INR. field. lra. Qed.
Lemma E_pos : 0 <= E.
Proof.
  unfold E. apply Rmult_le_pos; [|apply Rlt_le, Rinv_0_lt_compat; lra].
  apply Rplus_le_le_0_compat; apply Rmult_le_pos; [apply abs_sum_pos|apply e_in_pos|apply pos_INR|apply c_pos].
Qed.

Lemma proc_err : forall f g x, frel f g -> fin x -> Rabs (v32 x) <= X ->
  exists y f' r g', proc f x = Ok (y, f') /\ procR g (v32 x) = Ok (r, g') /\ frel f' g' /\ near_ E Y y r.
Proof.
  intros f g x (a1 & a2 & a3 & b1 & b2 & b3 & c1 & c2 & c3 & c4 & d1 & d2 & l1 & l2) fx hx.
  assert (tp := tiny_pos). assert (hp := bpow_gt_0 radix2 126). fold huge in hp.
  assert (hg : 0 < Rabs (v32 gain)) by (apply Rabs_pos_lt, nG).
  assert (hq : Rabs (v32 x / v32 gain) <= U).
  { unfold Rdiv. rewrite Rabs_mult, Rabs_inv. apply Rle_trans with (2 := hU). apply Rmult_le_compat_r; [apply Rlt_le, Rinv_0_lt_compat, hg|exact hx]. }
  destruct (div_rd x gain fx fG nG) as [fq eq]; [lra|].
  assert (nq : near_ e_in U (Bdiv mode_NE x gain) (v32 x / v32 gain)).
  { split; [exact fq|]. split; [|exact hq]. rewrite eq. apply Rle_trans with (1 := rd_err _). unfold e_in.
    assert (ulp1 * Rabs (v32 x / v32 gain) <= ulp1 * U) by (apply Rmult_le_compat_l; [unfold ulp1; lra|exact hq]). lra. }
  unfold processFilter. cbv zeta. rewrite a1, a2, a3, b1, b2, b3.
  change (@s_div f32 (F32Scalar L) x gain) with (Bdiv mode_NE x gain). change (@s_div R RScalar (v32 x) (v32 gain)) with (v32 x / v32 gain).
  destruct (push_rel (near_ e_in U) (df_in f) (df_in g) (Bdiv mode_NE x gain) (v32 x / v32 gain)) as (p1 & p2 & p3 & p4); try assumption; [congruence|now rewrite c1|].
  set (bi := cb_push (df_in f) (Bdiv mode_NE x gain)) in *. set (bg := cb_push (df_in g) (v32 x / v32 gain)) in *. clearbody bi bg.
  assert (q1 := F2_length _ _ _ _ _ p3). assert (q2 := F2_length _ _ _ _ _ d2).
  assert (T : exists y r, (if cb_full bi && cb_full (df_out f) then
      let! s := acc (cb_elts bi) wIn (f32_ofZ 0) in acc (cb_elts (df_out f)) wOut s else Ok x) = Ok y /\
    (if cb_full bg && cb_full (df_out g) then
      let! s := accR (cb_elts bg) (map v32 wIn) 0 in accR (cb_elts (df_out g)) (map v32 wOut) s else Ok (v32 x)) = Ok r /\ near_ E Y y r).
  { unfold cb_full. rewrite <- q1, <- q2, p1, p2, c1, c2, c3, c4.
    destruct (Nat.eqb_spec (length (cb_elts bi)) (length wIn)) as [e1|n1]; cbn [andb].
    2:{ exists x, (v32 x). split; [reflexivity|]. split; [reflexivity|]. split; [exact fx|]. split; [rewrite Rminus_diag_eq, Rabs_R0 by reflexivity; apply E_pos|lra]. }
    destruct (Nat.eqb_spec (length (cb_elts (df_out f))) (length wOut)) as [e2|n2].
    2:{ exists x, (v32 x). split; [reflexivity|]. split; [reflexivity|]. split; [exact fx|]. split; [rewrite Rminus_diag_eq, Rabs_R0 by reflexivity; apply E_pos|lra]. }
    assert (EE := E_eq). assert (cp := c_pos). assert (Ep := E_pos). assert (Up := U_pos). assert (ep := e_in_pos).
    assert (sp := abs_sum_pos wOut). assert (sq := abs_sum_pos wIn). assert (n1 := pos_INR (length wIn)). assert (n2 := pos_INR (length wOut)).
    assert (k1 : 0 <= abs_sum wOut * E) by (now apply Rmult_le_pos). assert (k2 : 0 <= INR (length wOut) * c) by (now apply Rmult_le_pos).
    assert (k3 : 0 <= abs_sum wOut * Y) by (apply Rmult_le_pos; lra).
    destruct (acc_err wIn (cb_elts bi) (cb_elts bg) (f32_ofZ 0) 0 U e_in Y 0) as (s & rs & h1 & h2 & h3 & h4 & h5); try assumption.
    + now symmetry.
    + reflexivity.
    + change (v32 (f32_ofZ 0)) with 0. rewrite Rminus_0_r, Rabs_R0. lra.
    + lra.
    + rewrite Rabs_R0. lra.
    + fold c. exact (sum4 _ _ _ _ _ _ EE hE k1 k2).
    + rewrite Rabs_R0 in h5. fold c in h4.
      destruct (acc_err wOut (cb_elts (df_out f)) (cb_elts (df_out g)) s rs Y E Y (0 + abs_sum wIn * e_in + INR (length wIn) * c)) as (y & r & j1 & j2 & j3 & j4 & j5); try assumption.
      * now symmetry.
      * lra.
      * assert (0 <= abs_sum wIn * e_in) by (now apply Rmult_le_pos). assert (0 <= INR (length wIn) * c) by (now apply Rmult_le_pos). lra.
      * lra.
      * fold c. exact (Rle_trans _ _ _ (Req_le _ _ (sum4' _ _ _ _ _ EE)) hE).
      * exists y, r. fold c in j4. assert (j4' := Rle_trans _ _ _ j4 (Req_le _ _ (sum4' _ _ _ _ _ EE))). rewrite h1, h2. split; [exact j1|]. split; [exact j2|]. split; [exact j3|]. split; [exact j4'|lra]. }
  destruct T as (y & r & t1 & t2 & t3).
  destruct (push_rel (near_ E Y) (df_out f) (df_out g) y r) as (u1 & u2 & u3 & u4); try assumption; [congruence|now rewrite c3|].
  exists y. eexists. exists r. eexists. split.
  { exact (f_equal (fun z => rbind z (fun v => Ok (v, mkFilter bi (cb_push (df_out f) v) gain wIn wOut))) t1). }
  split.
  { exact (f_equal (fun z => rbind z (fun v => Ok (v, mkFilter bg (cb_push (df_out g) v) (v32 gain) (map v32 wIn) (map v32 wOut)))) t2). }
  split; [|exact t3].
  unfold frel. cbn [df_in df_out df_gain df_wIn df_wOut]. rewrite p1, p2, u1, u2. repeat split; try assumption; congruence.
Qed.

Lemma run_err : forall xs f g, frel f g -> Forall (fun x => fin x /\ Rabs (v32 x) <= X) xs ->
  exists ys f' rs g', @run_filter f32 (F32Scalar L) f xs = Ok (ys, f') /\ @run_filter R RScalar g (map v32 xs) = Ok (rs, g') /\
    Forall2 (near_ E Y) ys rs.
Proof.
  induction xs as [|x xs hxs]; intros f g h hx.
  - exists [], f, [], g. repeat split. constructor.
  - inversion hx as [|? ? (fx & bx) hx']. subst. destruct (proc_err f g x h fx bx) as (y & f1 & r & g1 & e1 & e2 & h1 & h2).
    destruct (hxs f1 g1 h1 hx') as (ys & f2 & rs & g2 & e3 & e4 & h3). exists (y :: ys), f2, (r :: rs), g2.
    cbn [run_filter map]. rewrite e1, e2. cbn [rbind]. rewrite e3, e4. split; [reflexivity|]. split; [reflexivity|]. now constructor.
Qed.

Lemma frel_start : forall f g, frel (resetFilter (configureFilter f wIn wOut gain)) (resetFilter (configureFilter g (map v32 wIn) (map v32 wOut) (v32 gain))).
Proof.
  intros f g. unfold frel, resetFilter, configureFilter, cb_clear, cb_set_capacity. cbn. rewrite !map_length.
  repeat split; try reflexivity; try constructor; lia.
Qed.
End Run.

Lemma equation_unique : forall wIn wOut g xs ys zs, difference_equation wIn wOut g xs ys -> difference_equation wIn wOut g xs zs -> ys = zs.
Proof.
  intros wIn wOut g xs ys zs [l1 h1] [l2 h2]. apply nth_ext with 0 0; [congruence|]. rewrite l1.
  intros k. induction k as [k IH] using lt_wf_ind. intros hk. change (at_ ys k = at_ zs k). rewrite (h1 k hk), (h2 k hk).
  destruct ((k + 1 <? length wIn)%nat || (k <? length wOut)%nat) eqn:e; [reflexivity|].
  apply orb_false_iff in e. destruct e as [_ e]. apply Nat.ltb_ge in e. f_equal. unfold wsum. f_equal. apply map_ext_in. intros j hj.
  apply in_seq in hj. f_equal. apply IH; lia.
Qed.

Lemma C78_filter_proof : forall (L : libm32) (f : DigitalFilter f32) (wIn wOut xs : list f32) (gain : f32) (U Y X : R),
  Forall (fun x => is_finite x = true) wIn -> Forall (fun x => is_finite x = true) wOut -> is_finite gain = true -> B2R gain <> 0 ->
  Forall (fun x => is_finite x = true /\ Rabs (B2R x) <= X) xs -> 0 <= X ->
  X / Rabs (B2R gain) <= U -> U <= 2^118 -> X <= Y -> Y <= 2^118 ->
  abs_sum wOut < 1 -> abs_sum wIn * U + abs_sum wOut * Y <= Y -> output_error wIn wOut U Y <= Y ->
  exists ys f', @run_filter f32 (F32Scalar L) (resetFilter (configureFilter f wIn wOut gain)) xs = Ok (ys, f') /\
  forall rs, difference_equation (map (@B2R 24 128) wIn) (map (@B2R 24 128) wOut) (B2R gain) (map (@B2R 24 128) xs) rs ->
  Forall2 (fun y r => is_finite y = true /\ Rabs (B2R y - r) <= output_error wIn wOut U Y /\ Rabs r <= Y) ys rs.
Proof.
  intros L f wIn wOut xs gain U Y X fI fO fG nG hx hX hU hU2 hXY hY hr h1 h2.
  assert (hh : 2^118 <= / 200 * huge).
  { unfold huge. change (bpow radix2 126) with (IZR (Z.pow_pos 2 126)). replace (IZR (Z.pow_pos 2 126)) with (2^118 * 256); [pose proof (pow_lt 2 118); lra|].
    change 256 with (IZR (2 ^ 8)). rewrite pow_IZR, <- mult_IZR. reflexivity. }
  destruct (run_err L wIn wOut gain U Y X) with (xs := xs) (f := resetFilter (configureFilter f wIn wOut gain))
    (g := resetFilter (configureFilter df_default (map v32 wIn) (map v32 wOut) (v32 gain))) as (ys & f' & rs & g' & e1 & e2 & e3); try assumption.
  - lra.
  - lra.
  - unfold output_error in h2. rewrite <- ulp1_val, <- tiny_val in h2. exact h2.
  - apply frel_start.
  - exists ys, f'. split; [exact e1|]. intros rs' hd.
    destruct (C35_difference_equation_proof df_default (map v32 wIn) (map v32 wOut) (v32 gain) (map v32 xs) nG) as (zs & g2 & e4 & e5).
    rewrite e2 in e4. injection e4 as <- _. rewrite (equation_unique _ _ _ _ _ _ hd e5). unfold output_error. rewrite <- ulp1_val, <- tiny_val.
    clear - e3. induction e3 as [|y r l l' (p1 & p2 & p3) h ih]; constructor; [|exact ih]. auto.
Qed.
