(** * Lemmas for Props_PidFloat *)


From Coq Require Import Reals ZArith List Bool Lra Lia Psatz.
Import ListNotations.
From Flocq Require Import Core.Core IEEE754.BinarySingleNaN.
From Verif Require Import Scalar RInst F32 Model_Base Model_Dsp Spec_Dsp Spec_PidFloat.
From Verif Require Import F32Err Proofs_Dsp Proofs_Float Proofs_DspFloat.
Local Open Scope R_scope.

Lemma apx_div : forall x y r a e, apx x r e -> fin y -> 0 < v32 y -> Rabs r <= a -> (a + e) / v32 y <= huge ->
  apx (Bdiv mode_NE x y) (r / v32 y) (e / v32 y + ulp1 * ((a + e) / v32 y) + tiny).
Proof.
  intros x y r a e [fx ex] fy hy ha hh.
  assert (iy : 0 < / v32 y) by (now apply Rinv_0_lt_compat).
  assert (hx : Rabs (v32 x) <= a + e) by (replace (v32 x) with ((v32 x - r) + r) by ring; apply Rle_trans with (1 := Rabs_triang _ _); lra).
  assert (hq : Rabs (v32 x / v32 y) <= (a + e) / v32 y).
  { unfold Rdiv. rewrite Rabs_mult, (Rabs_pos_eq (/ v32 y)) by lra. apply Rmult_le_compat_r; lra. }
  destruct (div_rd x y fx fy) as [h1 h2]; [lra|lra|]. split; [exact h1|]. rewrite h2.
  replace (rd (v32 x / v32 y) - r / v32 y) with ((rd (v32 x / v32 y) - v32 x / v32 y) + (v32 x - r) * / v32 y) by (unfold Rdiv; ring).
  apply Rle_trans with (1 := Rabs_triang _ _). rewrite Rabs_mult, (Rabs_pos_eq (/ v32 y)) by lra.
  assert (E := rd_err (v32 x / v32 y)).
  assert (t : ulp1 * Rabs (v32 x / v32 y) <= ulp1 * ((a + e) / v32 y)) by (apply Rmult_le_compat_l; [unfold ulp1; lra|exact hq]).
  assert (t2 : Rabs (v32 x - r) * / v32 y <= e / v32 y) by (unfold Rdiv; apply Rmult_le_compat_r; lra). lra.
Qed.

Lemma deadband_lip : forall th x y, 0 <= th -> Rabs (deadband th x - deadband th y) <= Rabs (x - y).
Proof.
  intros th x y h. unfold deadband, Rmax, Rmin. repeat destruct Rle_dec; unfold Rabs; repeat destruct Rcase_abs; lra.
Qed.
Lemma deadband_small : forall th x, 0 <= th -> Rabs (deadband th x) <= Rabs x.
Proof.
  intros th x h. unfold deadband, Rmax, Rmin. repeat destruct Rle_dec; unfold Rabs; repeat destruct Rcase_abs; lra.
Qed.

Definition err32 (th e : f32) : f32 :=
  if Bltb th e then Bminus mode_NE e th else if Bltb e (Bopp th) then Bplus mode_NE e th else f32_ofZ 0.
Lemma err32_ok : forall th e : f32, fin th -> fin e -> 0 <= v32 th -> Rabs (v32 e) <= huge ->
  apx (err32 th e) (deadband (v32 th) (v32 e)) (ulp1 * Rabs (v32 e) + tiny).
Proof.
  intros th e ft fe ht he. assert (tp := tiny_pos). destruct (opp_rd th ft) as [fo eo].
  assert (hd := deadband_small (v32 th) (v32 e) ht). assert (hc := deadband_code (v32 th) (v32 e) ht). unfold err32.
  rewrite !Bltb_correct by assumption. rewrite eo.
  unfold Rltb in hc. destruct (Rlt_bool_spec (v32 th) (v32 e)) as [h1|h1].
  - destruct (Rlt_dec (v32 th) (v32 e)) as [_|n]; [|lra].
    assert (hr : Rabs (v32 e - v32 th) <= Rabs (v32 e)) by (rewrite hc; exact hd).
    destruct (sub_rd e th fe ft) as [f1 e1]; [lra|]. split; [exact f1|]. rewrite e1, <- hc.
    apply Rle_trans with (1 := rd_err _). assert (ulp1 * Rabs (v32 e - v32 th) <= ulp1 * Rabs (v32 e)) by (apply Rmult_le_compat_l; [unfold ulp1; lra|exact hr]). lra.
  - destruct (Rlt_dec (v32 th) (v32 e)) as [n|_]; [lra|].
    destruct (Rlt_bool_spec (v32 e) (- v32 th)) as [h2|h2].
    + destruct (Rlt_dec (v32 e) (- v32 th)) as [_|n]; [|lra].
      assert (hr : Rabs (v32 e + v32 th) <= Rabs (v32 e)) by (rewrite hc; exact hd).
      destruct (add_rd e th fe ft) as [f1 e1]; [lra|]. split; [exact f1|]. rewrite e1, <- hc.
      apply Rle_trans with (1 := rd_err _). assert (ulp1 * Rabs (v32 e + v32 th) <= ulp1 * Rabs (v32 e)) by (apply Rmult_le_compat_l; [unfold ulp1; lra|exact hr]). lra.
    + destruct (Rlt_dec (v32 e) (- v32 th)) as [n|_]; [lra|]. destruct zero_rd as [f0 e0]. split; [exact f0|]. rewrite e0, <- hc.
      rewrite Rminus_0_r, Rabs_R0. assert (0 <= ulp1 * Rabs (v32 e)) by (apply Rmult_le_pos; [unfold ulp1; lra|apply Rabs_pos]). lra.
Qed.

Section Run.
Variable L : libm32.
Notation fb := (@computeFeedback f32 (F32Scalar L)).
Variables (kp kv ki th off T : f32) (M N : R).
Hypothesis fkp : fin kp.
Hypothesis fkv : fin kv.
Hypothesis fki : fin ki.
Hypothesis fth : fin th.
Hypothesis foff : fin off.
Hypothesis fT : fin T.
Hypothesis hkp : 0 <= v32 kp.
Hypothesis hkv : 0 <= v32 kv.
Hypothesis hki : 0 <= v32 ki.
Hypothesis hth : 0 <= v32 th.
Hypothesis hoff : 0 <= v32 off.
Hypothesis hT : 0 < v32 T.
Let D := M / v32 T.
Let P := M * v32 T.
Let u := ulp1.
Hypothesis hM : 1000 * tiny <= u * M.
Hypothesis hD : 1000 * tiny <= u * D.
Hypothesis hP : 1000 * tiny <= u * P.
Hypothesis hM2 : 1000 * M <= huge.
Hypothesis hD2 : 1000 * D <= huge.
Hypothesis hN : 1 <= N.
Hypothesis hN2 : N <= 4194304.
Let J := 2 * P * N.
Hypothesis hJ2 : 1000 * J <= huge.
Let B := v32 off + v32 kp * (2 * M) + v32 kv * (4 * D) + v32 ki * J.
Hypothesis hB2 : 1000 * B <= huge.
Let g := 8 * u * P + 2 * u * J.

Lemma pos_all : 0 < tiny /\ 0 < M /\ 0 < D /\ 0 < P /\ 0 < J /\ 0 < u <= / 1000000 /\ tiny <= / 1000000.
Proof.
  assert (tp := tiny_pos). assert (ts := tiny_small). assert (up : 0 < u <= / 1000000) by (unfold u, ulp1; lra).
  assert (a : 0 < M) by nra. assert (b : 0 < D) by nra. assert (c : 0 < P) by nra.
  assert (0 < J) by (unfold J; apply Rmult_lt_0_compat; lra). repeat split; lra.
Qed.

Definition prel (es : list R) (c : PIDController f32) : Prop :=
  pid_Kp c = kp /\ pid_Kv c = kv /\ pid_Ki c = ki /\ pid_period c = T /\ pid_threshold c = th /\ pid_offset c = off /\
  apx (pid_err c) (last es 0) (5 * u * M) /\ apx (pid_iErr c) (sum_list es * v32 T) (INR (length es) * g) /\
  pid_first c = match es with [] => true | _ => false end /\ Forall (fun e => Rabs e <= 2 * M) es.

Lemma sum_bound : forall es, Forall (fun e => Rabs e <= 2 * M) es -> Rabs (sum_list es) <= INR (length es) * (2 * M).
Proof.
  induction es as [|e es IH]; intros h; [cbn; rewrite Rabs_R0; lra|]. inversion h. subst. change (length (e :: es)) with (S (length es)). rewrite S_INR.
  cbn [sum_list fold_right]. fold (sum_list es). apply Rle_trans with (1 := Rabs_triang _ _). specialize (IH H2). lra.
Qed.
Lemma last_bound : forall es, Forall (fun e => Rabs e <= 2 * M) es -> Rabs (last es 0) <= 2 * M.
Proof.
  destruct pos_all as (_ & hm & _). induction es as [|e es IH]; intros h; [cbn; rewrite Rabs_R0; lra|]. inversion h. subst. cbn [last]. destruct es; [assumption|now apply IH].
Qed.

Lemma step_err : forall es c a b p, prel es c -> INR (length es) + 1 <= N -> fin a -> fin b -> Rabs (v32 a) <= M -> Rabs (v32 b) <= M ->
  let e := deadband (v32 th) (v32 a - v32 b) in
  prel (es ++ [e]) (snd (fb c a b p)) /\
  apx (fst (fb c a b p)) (pid_law (v32 kp, v32 kv, v32 ki) (v32 off) (v32 T) e (change es e) (sum_list es + e))
    (v32 kp * (5 * u * M) + v32 kv * (21 * u * D) + v32 ki * (N * g) + 13 * u * B + 8 * tiny).
Proof.
  intros es c a b p (k1 & k2 & k3 & k4 & k5 & k6 & r1 & r2 & r3 & r4) hlen fa fb_ ha hb e.
  destruct pos_all as (tp & Mp & Dp & Pp & Jp & [up us] & ts).
  assert (hu1 : u * M <= / 1000000 * M) by (apply Rmult_le_compat_r; lra).
  assert (hu2 : u * D <= / 1000000 * D) by (apply Rmult_le_compat_r; lra).
  assert (hu3 : u * P <= / 1000000 * P) by (apply Rmult_le_compat_r; lra).
  assert (hu4 : u * J <= / 1000000 * J) by (apply Rmult_le_compat_r; lra).
  assert (hut : 0 <= u * tiny <= / 1000000 * tiny) by (split; [apply Rmult_le_pos; lra|apply Rmult_le_compat_r; lra]).
  assert (huu : 0 <= u * (u * M) <= / 1000000 * (u * M)) by (split; [apply Rmult_le_pos; [lra|apply Rmult_le_pos; lra]|apply Rmult_le_compat_r; [apply Rmult_le_pos; lra|lra]]).
  assert (huD : 0 <= u * (u * D) <= / 1000000 * (u * D)) by (split; [apply Rmult_le_pos; [lra|apply Rmult_le_pos; lra]|apply Rmult_le_compat_r; [apply Rmult_le_pos; lra|lra]]).
  assert (huP : 0 <= u * (u * P) <= / 1000000 * (u * P)) by (split; [apply Rmult_le_pos; [lra|apply Rmult_le_pos; lra]|apply Rmult_le_compat_r; [apply Rmult_le_pos; lra|lra]]).
  assert (PJ : 2 * P <= J) by (unfold J; nra).
  (* error of the command *)
  assert (q1 : apx (Bminus mode_NE a b) (v32 a - v32 b) (0 + 0 + u * (M + M + 0 + 0) + tiny)) by (apply apx_sub; try (apply apx_self; assumption); try assumption; lra).
  set (e32 := Bminus mode_NE a b) in *. destruct q1 as [fe q1].
  assert (hd : Rabs (v32 a - v32 b) <= 2 * M) by (apply Rabs_le; generalize (Rabs_le_inv _ _ ha) (Rabs_le_inv _ _ hb); lra).
  assert (he32 : Rabs (v32 e32) <= 21 / 10 * M) by (replace (v32 e32) with ((v32 e32 - (v32 a - v32 b)) + (v32 a - v32 b)) by ring; apply Rle_trans with (1 := Rabs_triang _ _); lra).
  destruct (err32_ok th e32 fth fe hth) as [fr q2]; [lra|]. set (err := err32 th e32) in *.
  assert (hue : u * Rabs (v32 e32) <= u * (21 / 10 * M)) by (apply Rmult_le_compat_l; lra).
  assert (he : Rabs e <= 2 * M) by (apply Rle_trans with (1 := deadband_small _ _ hth); exact hd).
  assert (qe : apx err e (5 * u * M)).
  { split; [exact fr|]. replace (v32 err - e) with ((v32 err - deadband (v32 th) (v32 e32)) + (deadband (v32 th) (v32 e32) - e)) by ring.
    apply Rle_trans with (1 := Rabs_triang _ _). assert (l := deadband_lip (v32 th) (v32 e32) (v32 a - v32 b) hth). fold e in l. fold u in q2. lra. }
  (* derivative *)
  assert (lb := last_bound es r4).
  set (d32 := if pid_first c then f32_ofZ 0 else Bdiv mode_NE (Bminus mode_NE err (pid_err c)) T).
  assert (qd : apx d32 (change es e / v32 T) (21 * u * D) /\ Rabs (change es e / v32 T) <= 4 * D).
  { unfold d32. rewrite r3. unfold change. destruct es as [|z es'] eqn:ez.
    - destruct zero_rd as [f0 e0]. unfold Rdiv. rewrite Rmult_0_l, Rabs_R0. split; [|lra]. split; [exact f0|]. rewrite e0, Rminus_0_r, Rabs_R0. assert (0 <= u * D) by (apply Rmult_le_pos; lra). lra.
    - rewrite <- ez in *. assert (s1 := apx_sub err (pid_err c) e (last es 0) (2 * M) (2 * M) (5 * u * M) (5 * u * M) qe r1 he lb ltac:(lra)).
      assert (hc : Rabs (e - last es 0) <= 4 * M) by (apply Rabs_le; generalize (Rabs_le_inv _ _ he) (Rabs_le_inv _ _ lb); lra).
      assert (s2 := apx_le _ _ _ (15 * u * M) s1 ltac:(fold u; lra)).
      assert (iT : 0 < / v32 T) by (now apply Rinv_0_lt_compat).
      assert (D4 : (4 * M + 15 * u * M) / v32 T = 4 * D + 15 * u * D) by (unfold D, Rdiv; ring).
      assert (s3 := apx_div _ T _ (4 * M) _ s2 fT hT hc ltac:(rewrite D4; lra)). rewrite D4 in s3. split.
      + apply apx_le with (1 := s3). fold u. replace (15 * u * M / v32 T) with (15 * (u * D)) by (unfold D, Rdiv; ring).
        replace (u * (4 * D + 15 * u * D)) with (4 * (u * D) + 15 * (u * (u * D))) by ring. lra.
      + unfold Rdiv. rewrite Rabs_mult, (Rabs_pos_eq (/ v32 T)) by lra. unfold D, Rdiv. rewrite <- Rmult_assoc. apply Rmult_le_compat_r; lra. }
  destruct qd as [qd bd].
  (* integral *)
  set (n := INR (length es)) in *. assert (hn : 0 <= n) by apply pos_INR.
  assert (gp : 0 <= g) by (unfold g; assert (0 <= u * P) by (apply Rmult_le_pos; lra); assert (0 <= u * J) by (apply Rmult_le_pos; lra); lra).
  assert (gN : N * g <= 6 / 10 * J).
  { unfold g, J. replace (N * (8 * u * P + 2 * u * (2 * P * N))) with ((8 * u + 4 * (u * N)) * (P * N)) by ring.
    assert (u * N <= u * 4194304) by (apply Rmult_le_compat_l; lra). assert (0 <= P * N) by (apply Rmult_le_pos; lra).
    assert (u * 4194304 <= 25 / 100) by (unfold u, ulp1; lra).
    replace (6 / 10 * (2 * P * N)) with (12 / 10 * (P * N)) by field. apply Rmult_le_compat_r; lra. }
  assert (ng : n * g <= N * g) by (apply Rmult_le_compat_r; lra).
  assert (ng1 : (n + 1) * g <= N * g) by (apply Rmult_le_compat_r; lra).
  assert (bs : Rabs (sum_list es * v32 T) <= n * (2 * P)).
  { rewrite Rabs_mult, (Rabs_pos_eq (v32 T)) by lra. unfold P. assert (sb := sum_bound es r4). fold n in sb.
    replace (n * (2 * (M * v32 T))) with (n * (2 * M) * v32 T) by ring. apply Rmult_le_compat_r; lra. }
  assert (bn : (n + 1) * (2 * P) <= J) by (unfold J; replace (2 * P * N) with (N * (2 * P)) by ring; apply Rmult_le_compat_r; lra).
  assert (PT : (2 * M + 5 * u * M) * (v32 T + 0) = 2 * P + 5 * (u * P)) by (unfold P; ring).
  assert (i1 := apx_mul err T e (v32 T) (2 * M) (v32 T) (5 * u * M) 0 qe (apx_self T fT) he ltac:(rewrite Rabs_pos_eq; lra) ltac:(rewrite PT; lra)).
  rewrite PT in i1. assert (i2 := apx_le _ _ _ (8 * u * P) i1).
  assert (ih : 2 * M * 0 + v32 T * (5 * u * M) + 5 * u * M * 0 + ulp1 * (2 * P + 5 * (u * P)) + tiny <= 8 * u * P).
  { fold u. replace (v32 T * (5 * u * M)) with (5 * (u * P)) by (unfold P; ring). lra. }
  specialize (i2 ih). clear i1 ih.
  assert (be : Rabs (e * v32 T) <= 2 * P).
  { rewrite Rabs_mult, (Rabs_pos_eq (v32 T)) by lra. unfold P. replace (2 * (M * v32 T)) with (2 * M * v32 T) by ring. apply Rmult_le_compat_r; lra. }
  assert (i3 := apx_add _ _ _ _ _ _ _ _ r2 i2 bs be ltac:(lra)).
  assert (qi : apx (Bplus mode_NE (pid_iErr c) (Bmult mode_NE err T)) ((sum_list es + e) * v32 T) ((n + 1) * g)).
  { replace ((sum_list es + e) * v32 T) with (sum_list es * v32 T + e * v32 T) by ring. apply apx_le with (1 := i3). fold u.
    assert (u * (n * (2 * P) + 2 * P + n * g + 8 * u * P) <= u * (17 / 10 * J)) by (apply Rmult_le_compat_l; lra).
    replace ((n + 1) * g) with (n * g + (8 * u * P + 2 * u * J)) by (unfold g; ring). assert (u * (2 * P) <= u * J) by (apply Rmult_le_compat_l; lra). lra. }
  assert (bi : Rabs ((sum_list es + e) * v32 T) <= J).
  { replace ((sum_list es + e) * v32 T) with (sum_list es * v32 T + e * v32 T) by ring. apply Rle_trans with (1 := Rabs_triang _ _). lra. }
  set (i32 := Bplus mode_NE (pid_iErr c) (Bmult mode_NE err T)) in *.
  (* the call *)
  assert (call : fb c a b p = (Bplus mode_NE (Bplus mode_NE (Bplus mode_NE off (Bmult mode_NE kp err)) (Bmult mode_NE kv d32)) (Bmult mode_NE ki i32),
     mkPID kp kv ki T th off err (pid_err c) d32 i32 false)).
  { unfold computeFeedback, pid_finish. rewrite k1, k2, k3, k4, k5, k6. cbv zeta.
    match goal with |- context [if ?x then T else T] => replace (if x then T else T) with T by (destruct x; reflexivity) end. reflexivity. }
  rewrite call. cbn [fst snd]. clear call. split.
  - unfold prel. cbn [pid_Kp pid_Kv pid_Ki pid_period pid_threshold pid_offset pid_err pid_iErr pid_first].
    assert (hsum : sum_list (es ++ [e]) = sum_list es + e) by apply sum_app.
    rewrite last_last, hsum, app_length, plus_INR. cbn [length INR]. fold n. repeat (split; [first [reflexivity|assumption]|]).
    split; [destruct es; reflexivity|]. apply Forall_app. split; [exact r4|]. constructor; [exact he|constructor].
  - unfold pid_law.
    assert (Bp : 0 <= B) by (unfold B; repeat apply Rplus_le_le_0_compat; try assumption; apply Rmult_le_pos; lra).
    assert (B1 : v32 kp * (2 * M) <= B) by (unfold B; assert (0 <= v32 kv * (4 * D)) by (apply Rmult_le_pos; lra); assert (0 <= v32 ki * J) by (apply Rmult_le_pos; lra); lra).
    assert (B2 : v32 kv * (4 * D) <= B) by (unfold B; assert (0 <= v32 kp * (2 * M)) by (apply Rmult_le_pos; lra); assert (0 <= v32 ki * J) by (apply Rmult_le_pos; lra); lra).
    assert (B3 : v32 ki * J <= B) by (unfold B; assert (0 <= v32 kp * (2 * M)) by (apply Rmult_le_pos; lra); assert (0 <= v32 kv * (4 * D)) by (apply Rmult_le_pos; lra); lra).
    assert (huB : 0 <= u * B <= / 1000000 * B) by (split; [apply Rmult_le_pos; lra|apply Rmult_le_compat_r; lra]).
    (* products *)
    assert (prod : forall (k x : f32) r bx ex, fin k -> 0 <= v32 k -> apx x r ex -> Rabs r <= bx -> ex <= 6 / 10 * bx -> 0 <= ex -> v32 k * bx <= B ->
      apx (Bmult mode_NE k x) (v32 k * r) (v32 k * ex + 17 / 10 * u * B + tiny) /\ Rabs (v32 k * r) <= v32 k * bx).
    { intros k x r bx ex fk hk qx hr hex ex0 hb'. assert (t : v32 k * ex <= v32 k * (6 / 10 * bx)) by (apply Rmult_le_compat_l; lra).
      assert (ka : Rabs (v32 k) <= v32 k) by (rewrite Rabs_pos_eq; lra).
      assert (m := apx_mul k x (v32 k) r (v32 k) bx 0 ex (apx_self k fk) qx ka hr ltac:(lra)). split.
      - apply apx_le with (1 := m). fold u. assert (u * ((v32 k + 0) * (bx + ex)) <= u * (16 / 10 * B)) by (apply Rmult_le_compat_l; lra). lra.
      - rewrite Rabs_mult. apply Rmult_le_compat; try apply Rabs_pos; assumption. }
    assert (uM0 : 0 <= u * M) by (apply Rmult_le_pos; lra). assert (uD0 : 0 <= u * D) by (apply Rmult_le_pos; lra).
    assert (ng0 : 0 <= (n + 1) * g) by (apply Rmult_le_pos; lra).
    destruct (prod kp err e (2 * M) (5 * u * M) fkp hkp qe he ltac:(lra) ltac:(lra) B1) as [m1 c1].
    destruct (prod kv d32 _ (4 * D) (21 * u * D) fkv hkv qd bd ltac:(lra) ltac:(lra) B2) as [m2 c2].
    destruct (prod ki i32 _ J ((n + 1) * g) fki hki qi bi ltac:(lra) ltac:(lra) B3) as [m3 c3].
    set (E1 := v32 kp * (5 * u * M)) in *. set (E2 := v32 kv * (21 * u * D)) in *. set (E3 := v32 ki * ((n + 1) * g)) in *.
    assert (E10 : 0 <= E1 <= / 100000 * B) by (unfold E1; split; [apply Rmult_le_pos; lra|]; apply Rle_trans with (v32 kp * (/ 100000 * (2 * M))); [apply Rmult_le_compat_l; lra|lra]).
    assert (E20 : 0 <= E2 <= / 100000 * B) by (unfold E2; split; [apply Rmult_le_pos; lra|]; apply Rle_trans with (v32 kv * (/ 100000 * (4 * D))); [apply Rmult_le_compat_l; lra|lra]).
    assert (E30 : 0 <= E3 <= 6 / 10 * B) by (unfold E3; split; [apply Rmult_le_pos; lra|]; apply Rle_trans with (v32 ki * (6 / 10 * J)); [apply Rmult_le_compat_l; lra|lra]).
    assert (E3N : E3 <= v32 ki * (N * g)) by (unfold E3; apply Rmult_le_compat_l; lra).
    assert (hh : 1 <= huge) by (pose proof huge_big; lra).
    (* sums *)
    set (b0 := v32 off) in *. set (b1 := v32 kp * (2 * M)) in *. set (b2 := v32 kv * (4 * D)) in *. set (b3 := v32 ki * J) in *.
    assert (b10 : 0 <= b1) by (unfold b1; apply Rmult_le_pos; lra). assert (b20 : 0 <= b2) by (unfold b2; apply Rmult_le_pos; lra). assert (b30 : 0 <= b3) by (unfold b3; apply Rmult_le_pos; lra).
    assert (BB : b0 + b1 + b2 + b3 = B) by reflexivity. clearbody b1 b2 b3 E1 E2 E3 B.
    assert (a1 := apx_add off _ b0 _ b0 b1 0 _ (apx_self off foff) m1 ltac:(rewrite Rabs_pos_eq; lra) c1 ltac:(lra)).
    assert (a1' : apx (Bplus mode_NE off (Bmult mode_NE kp err)) (b0 + v32 kp * e) (E1 + 4 * u * B + 21 / 10 * tiny)).
    { apply apx_le with (1 := a1). fold u. assert (u * (b0 + b1 + 0 + (E1 + 17 / 10 * u * B + tiny)) <= u * (2 * B + 2 * tiny)) by (apply Rmult_le_compat_l; lra). lra. }
    assert (s1 : Rabs (b0 + v32 kp * e) <= b0 + b1) by (apply Rle_trans with (1 := Rabs_triang _ _); rewrite (Rabs_pos_eq b0) by lra; lra).
    assert (a2 := apx_add _ _ _ _ _ _ _ _ a1' m2 s1 c2 ltac:(lra)).
    assert (a2' : apx (Bplus mode_NE (Bplus mode_NE off (Bmult mode_NE kp err)) (Bmult mode_NE kv d32)) (b0 + v32 kp * e + v32 kv * (change es e / v32 T)) (E1 + E2 + 8 * u * B + 42 / 10 * tiny)).
    { apply apx_le with (1 := a2). fold u. match goal with |- context [ulp1 * ?z] => idtac | |- context [u * (?z)] => assert (u * z <= u * (2 * B + 5 * tiny)) by (apply Rmult_le_compat_l; lra) end. lra. }
    assert (s2 : Rabs (b0 + v32 kp * e + v32 kv * (change es e / v32 T)) <= b0 + b1 + b2) by (apply Rle_trans with (1 := Rabs_triang _ _); lra).
    assert (a3 := apx_add _ _ _ _ _ _ _ _ a2' m3 s2 c3 ltac:(lra)).
    apply apx_le with (1 := a3). fold u.
    assert (u * (b0 + b1 + b2 + b3 + (E1 + E2 + 8 * u * B + 42 / 10 * tiny) + (E3 + 17 / 10 * u * B + tiny)) <= u * (2 * B + 8 * tiny)) by (apply Rmult_le_compat_l; lra). lra.
Qed.
End Run.

Lemma history : forall L kp kv ki th off T M N p, fin kp -> fin kv -> fin ki -> fin th -> fin off -> fin T ->
  0 <= v32 kp -> 0 <= v32 kv -> 0 <= v32 ki -> 0 <= v32 th -> 0 <= v32 off -> 0 < v32 T ->
  1000 * tiny <= ulp1 * M -> 1000 * tiny <= ulp1 * (M / v32 T) -> 1000 * tiny <= ulp1 * (M * v32 T) ->
  1000 * M <= huge -> 1000 * (M / v32 T) <= huge -> 1 <= N -> N <= 4194304 -> 1000 * (2 * (M * v32 T) * N) <= huge ->
  1000 * (v32 off + v32 kp * (2 * M) + v32 kv * (4 * (M / v32 T)) + v32 ki * (2 * (M * v32 T) * N)) <= huge ->
  forall h es c, prel kp kv ki th off T M N es c -> INR (length es + length h) <= N ->
  Forall (fun x : f32 * f32 => fin (fst x) /\ fin (snd x) /\ Rabs (v32 (fst x)) <= M /\ Rabs (v32 (snd x)) <= M) h ->
  prel kp kv ki th off T M N (es ++ map (fun x : f32 * f32 => deadband (v32 th) (v32 (fst x) - v32 (snd x))) h)
    (fold_left (fun s x => snd (@computeFeedback f32 (F32Scalar L) s (fst x) (snd x) p)) h c).
Proof.
  intros L kp kv ki th off T M N p f1 f2 f3 f4 f5 f6 g1 g2 g3 g4 g5 g6 h1 h2 h3 h4 h5 h6 h7 h8 h9.
  induction h as [|[a b] h IH]; intros es c hr hl hx; cbn [map fold_left]; [now rewrite app_nil_r|].
  inversion hx as [|? ? (fa & fb & ma & mb) hx']. subst. cbn [fst snd] in *.
  assert (hl1 : INR (length es) + 1 <= N).
  { apply Rle_trans with (2 := hl). cbn [length]. rewrite plus_INR, S_INR. assert (q := pos_INR (length h)). lra. }
  destruct (step_err L kp kv ki th off T M N f1 f2 f3 f4 f5 f6 g1 g2 g3 g4 g5 g6 h1 h2 h3 h4 h5 h6 h7 h8 h9 es c a b p hr hl1 fa fb ma mb) as [s _].
  specialize (IH _ _ s). rewrite <- app_assoc in IH. apply IH; [|exact hx']. rewrite app_length. cbn [length] in *.
  replace (length es + 1 + length h)%nat with (length es + S (length h))%nat by lia. exact hl.
Qed.

Lemma C79_feedback_proof : forall (L : libm32) (kp kv ki th off T : f32) (c : PIDController f32) (h : list (f32 * f32)) (a b p : f32) (M : R) (N : nat),
  Forall (fun x => is_finite x = true) [kp; kv; ki; th; off; T] -> @pid_new f32 (F32Scalar L) kp kv ki th off T = Ok c ->
  Forall (fun x => is_finite (fst x) = true /\ is_finite (snd x) = true /\ Rabs (B2R (fst x)) <= M /\ Rabs (B2R (snd x)) <= M) (h ++ [(a, b)]) ->
  (length h < N)%nat -> (Z.of_nat N <= 2^22)%Z ->
  / 2^100 <= M <= 2^100 -> / 2^100 <= M / B2R T <= 2^100 -> / 2^100 <= M * B2R T -> M * B2R T * INR N <= 2^100 ->
  feedback_bound (B2R kp) (B2R kv) (B2R ki) (B2R off) (B2R T) M (INR N) <= 2^100 ->
  let c' := fold_left (fun s x => snd (@computeFeedback f32 (F32Scalar L) s (fst x) (snd x) p)) h c in
  let out := fst (@computeFeedback f32 (F32Scalar L) c' a b p) in
  let past := map (fun x => deadband (B2R th) (B2R (fst x) - B2R (snd x))) h in
  let e := deadband (B2R th) (B2R a - B2R b) in
  is_finite out = true /\
  Rabs (B2R out - pid_law (B2R kp, B2R kv, B2R ki) (B2R off) (B2R T) e (change past e) (sum_list past + e))
    <= feedback_error (B2R kp) (B2R kv) (B2R ki) (B2R off) (B2R T) M (INR N).
Proof.
  intros L kp kv ki th off T c h a b p M N hf hc hx hl hN hM hD hP hJ hB. cbv zeta.
  inversion hf as [|? ? f1 hf1]. inversion hf1 as [|? ? f2 hf2]. inversion hf2 as [|? ? f3 hf3]. inversion hf3 as [|? ? f4 hf4]. inversion hf4 as [|? ? f5 hf5]. inversion hf5 as [|? ? f6 _]. subst.
  assert (hc' : pid_checkData (mkPID kp kv ki T th off (f32_ofZ 0) (f32_ofZ 0) (f32_ofZ 0) (f32_ofZ 0) true) (S := F32Scalar L) = true /\ c = mkPID kp kv ki T th off (f32_ofZ 0) (f32_ofZ 0) (f32_ofZ 0) (f32_ofZ 0) true).
  { unfold pid_new in hc. cbv zeta in hc. destruct (pid_checkData _) eqn:e in hc; [|discriminate]. injection hc as <-. split; [exact e|reflexivity]. }
  destruct hc' as [ck ->]. clear hc. destruct zero_rd as [f0 e0].
  unfold pid_checkData in ck. cbn [pid_Kp pid_Kv pid_Ki pid_threshold pid_offset pid_period] in ck.
  rewrite !andb_true_iff in ck. destruct ck as (((((c1 & c2) & c3) & c4) & c5) & c6).
  assert (pp : forall x : f32, fin x -> @checkPositif f32 (F32Scalar L) x = true -> 0 <= v32 x).
  { intros x fx h0. unfold checkPositif in h0. apply negb_true_iff in h0. change (Bltb x (f32_ofZ 0) = false) in h0.
    rewrite Bltb_correct in h0 by assumption. rewrite e0 in h0. destruct (Rlt_bool_spec (v32 x) 0); [discriminate|assumption]. }
  assert (g6 : 0 < v32 T).
  { unfold checkStriclyPositif in c6. apply negb_true_iff in c6. change (Bleb T (f32_ofZ 0) = false) in c6.
    rewrite Bleb_correct in c6 by assumption. rewrite e0 in c6. destruct (Rle_bool_spec (v32 T) 0); [discriminate|assumption]. }
  assert (g1 := pp kp f1 c1). assert (g2 := pp kv f2 c2). assert (g3 := pp ki f3 c3). assert (g4 := pp th f4 c4). assert (g5 := pp off f5 c5). clear pp c1 c2 c3 c4 c5 c6.
  assert (tv := tiny_val). assert (uv := ulp1_val).
  assert (ht : forall x, / 2^100 <= x -> 1000 * tiny <= ulp1 * x).
  { intros x hx0. apply Rle_trans with (ulp1 * / 2^100); [|apply Rmult_le_compat_l; [unfold ulp1; lra|exact hx0]].
    rewrite tv, uv. replace (2^150) with (2^26 * (2^24 * 2^100)) by (rewrite <- !pow_add; f_equal; lia).
    rewrite !Rinv_mult. assert (0 < / 2^24 * / 2^100) by (apply Rmult_lt_0_compat; apply Rinv_0_lt_compat, pow_lt; lra).
    assert (/ 2^26 <= / 1000) by (apply Rinv_le_contravar; lra). set (z := / 2^24 * / 2^100) in *. nra. }
  assert (hh : 2^100 * 10000 <= huge).
  { unfold huge. replace (bpow radix2 126) with (2^100 * 2^26); [assert (0 < 2^100) by (apply pow_lt; lra); nra|].
    rewrite <- pow_add. change (bpow radix2 126) with (IZR (Z.pow_pos 2 126)). rewrite pow_IZR. reflexivity. }
  assert (p100 : 0 < 2^100) by (apply pow_lt; lra).
  assert (n1 : 1 <= INR N) by (change 1 with (INR 1); apply le_INR; lia).
  assert (n2 : INR N <= 4194304) by (rewrite INR_IZR_INZ; apply IZR_le; lia).
  apply Forall_app in hx. destruct hx as [hx hab]. inversion hab as [|? ? (fa & fb & ma & mb) _]. subst. cbn [fst snd] in *.
  assert (BE : feedback_bound (v32 kp) (v32 kv) (v32 ki) (v32 off) (v32 T) M (INR N) =
    v32 off + v32 kp * (2 * M) + v32 kv * (4 * (M / v32 T)) + v32 ki * (2 * (M * v32 T) * INR N)) by (unfold feedback_bound, Rdiv; ring).
  assert (q9 : 1000 * (v32 off + v32 kp * (2 * M) + v32 kv * (4 * (M / v32 T)) + v32 ki * (2 * (M * v32 T) * INR N)) <= huge) by (rewrite <- BE; lra).
  assert (q1 := ht M ltac:(lra)). assert (q2 := ht (M / v32 T) ltac:(lra)). assert (q3 := ht (M * v32 T) ltac:(lra)).
  assert (q4 : 1000 * M <= huge) by lra. assert (q5 : 1000 * (M / v32 T) <= huge) by lra.
  assert (q8 : 1000 * (2 * (M * v32 T) * INR N) <= huge) by lra.
  set (c0 := mkPID kp kv ki T th off (f32_ofZ 0) (f32_ofZ 0) (f32_ofZ 0) (f32_ofZ 0) true).
  assert (r0 : prel kp kv ki th off T M (INR N) [] c0).
  { unfold prel, c0. cbn [pid_Kp pid_Kv pid_Ki pid_period pid_threshold pid_offset pid_err pid_iErr pid_first last sum_list fold_right length INR].
    assert (z : apx (f32_ofZ 0) 0 0) by (split; [exact f0|rewrite e0, Rminus_0_r, Rabs_R0; lra]).
    assert (0 <= ulp1 * M) by (apply Rmult_le_pos; [unfold ulp1; lra|assert (0 < / 2^100) by (now apply Rinv_0_lt_compat); lra]).
    repeat (split; [reflexivity|]). split; [apply apx_le with (1 := z); lra|]. split; [rewrite !Rmult_0_l; exact z|]. split; [reflexivity|constructor]. }
  assert (hlen : INR (length h) + 1 <= INR N) by (rewrite <- S_INR; apply le_INR; lia).
  assert (r1 := history L kp kv ki th off T M (INR N) p f1 f2 f3 f4 f5 f6 g1 g2 g3 g4 g5 g6 q1 q2 q3 q4 q5 n1 n2 q8 q9 h [] c0 r0 ltac:(cbn [length Nat.add]; lra) hx).
  cbn [app] in r1.
  destruct (step_err L kp kv ki th off T M (INR N) f1 f2 f3 f4 f5 f6 g1 g2 g3 g4 g5 g6 q1 q2 q3 q4 q5 n1 n2 q8 q9 _ _ a b p r1 ltac:(rewrite map_length; exact hlen) fa fb ma mb) as [_ [s1 s2]].
  split; [exact s1|]. apply Rle_trans with (1 := s2). unfold feedback_error. rewrite BE, <- uv.
  replace (/ 2^147) with (8 * tiny).
  2:{ rewrite tv. replace (2^150) with (8 * 2^147); [field; apply pow_nonzero; lra|]. replace 8 with (2^3) by lra. rewrite <- pow_add. f_equal. }
  right. ring.
Qed.
