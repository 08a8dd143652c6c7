(** * Rounding errors of binary64 operations *)

From Coq Require Import Reals ZArith Lra Lia Bool.
From Flocq Require Import Core.Core IEEE754.BinarySingleNaN Plus_error.
From Flocq Require Import Relative.
From Verif Require Import Scalar F32.
Local Open Scope R_scope.

(** The value of a double. *)
Notation v64 := (@B2R 53 1024).

Definition u64 : R := / 9007199254740992.
Definition tiny64 : R := bpow radix2 (-1075).
Definition huge64 : R := bpow radix2 1022.

Lemma u64_pow : u64 = / 2 ^ 53.
Proof. unfold u64. f_equal. cbn [pow]. lra. Qed.
Lemma tiny64_pos : 0 < tiny64.
Proof. apply bpow_gt_0. Qed.
Lemma huge64_pos : 0 < huge64.
Proof. apply bpow_gt_0. Qed.
Lemma tiny64_small : tiny64 <= / 1000000000000000000000000000000.
Proof.
  unfold tiny64. apply Rle_trans with (bpow radix2 (-100)); [apply bpow_le; lia|].
  cbn [bpow]. apply Rinv_le; [lra|]. change (Z.pow_pos radix2 100) with 1267650600228229401496703205376%Z. lra.
Qed.
Lemma huge64_big : 1000000000000000000000000000000 <= huge64.
Proof.
  unfold huge64. apply Rle_trans with (bpow radix2 100); [|apply bpow_le; lia].
  cbn [bpow]. change (Z.pow_pos radix2 100) with 1267650600228229401496703205376%Z. lra.
Qed.

Definition rd64 (x : R) : R := round radix2 (SpecFloat.fexp 53 1024) ZnearestE x.

Lemma rd64_err : forall x, Rabs (rd64 x - x) <= u64 * Rabs x + tiny64.
Proof.
  intros x. unfold rd64. destruct (error_N_FLT radix2 (-1074) 53 eq_refl (fun z => negb (Z.even z)) x) as [e [t [he [ht [_ E]]]]].
  change (SpecFloat.fexp 53 1024) with (FLT_exp (-1074) 53). rewrite E.
  replace (x * (1 + e) + t - x) with (x * e + t) by ring.
  apply Rle_trans with (1 := Rabs_triang _ _). rewrite Rabs_mult.
  assert (h1 : Rabs e <= u64).
  { apply Rle_trans with (1 := he). unfold u64. cbn [bpow Z.add Z.opp Z.pos_sub]. cbn. lra. }
  assert (h2 : Rabs t <= tiny64).
  { apply Rle_trans with (1 := ht). unfold tiny64. apply Req_le.
    change (/ 2) with (bpow radix2 (-1)). rewrite <- bpow_plus. reflexivity. }
  pose proof (Rabs_pos x). assert (Rabs x * Rabs e <= u64 * Rabs x) by (rewrite Rmult_comm; now apply Rmult_le_compat_r). lra.
Qed.

Lemma rd64_lt : forall x, Rabs x <= huge64 -> Rabs (rd64 x) < bpow radix2 1024.
Proof.
  intros x h. pose proof (rd64_err x) as E. pose proof tiny64_small as Ht. pose proof huge64_big as Hh.
  assert (bpow radix2 1024 = 4 * huge64) as ->.
  { unfold huge64. change 4 with (bpow radix2 2). rewrite <- bpow_plus. reflexivity. }
  assert (T := Rabs_triang (rd64 x - x) x). replace (rd64 x - x + x) with (rd64 x) in T by ring.
  unfold u64 in E. lra.
Qed.

Lemma add64_rd : forall x y : f64, is_finite x = true -> is_finite y = true -> Rabs (v64 x + v64 y) <= huge64 ->
  is_finite (Bplus mode_NE x y) = true /\ v64 (Bplus mode_NE x y) = rd64 (v64 x + v64 y).
Proof.
  intros x y hx hy h. generalize (Bplus_correct 53 1024 _ _ mode_NE x y hx hy).
  rewrite Rlt_bool_true by (apply rd64_lt, h). intros [h1 [h2 _]]. auto.
Qed.
Lemma mul64_rd : forall x y : f64, is_finite x = true -> is_finite y = true -> Rabs (v64 x * v64 y) <= huge64 ->
  is_finite (Bmult mode_NE x y) = true /\ v64 (Bmult mode_NE x y) = rd64 (v64 x * v64 y).
Proof.
  intros x y hx hy h. generalize (Bmult_correct 53 1024 _ _ mode_NE x y).
  rewrite Rlt_bool_true by (apply rd64_lt, h). rewrite hx, hy. intros [h1 [h2 _]]. auto.
Qed.
Lemma div64_rd : forall x y : f64, is_finite x = true -> is_finite y = true -> v64 y <> 0 -> Rabs (v64 x / v64 y) <= huge64 ->
  is_finite (Bdiv mode_NE x y) = true /\ v64 (Bdiv mode_NE x y) = rd64 (v64 x / v64 y).
Proof.
  intros x y hx hy ny h. generalize (Bdiv_correct 53 1024 _ _ mode_NE x y ny).
  rewrite Rlt_bool_true by (apply rd64_lt, h). rewrite hx. intros [h1 [h2 _]]. auto.
Qed.

(** A sum has no error next to zero. *)
Lemma add64_rel : forall x y : f64, is_finite x = true -> is_finite y = true -> Rabs (v64 x + v64 y) <= huge64 ->
  is_finite (Bplus mode_NE x y) = true /\
  Rabs (v64 (Bplus mode_NE x y) - (v64 x + v64 y)) <= u64 * Rabs (v64 x + v64 y).
Proof.
  intros x y hx hy h. destruct (add64_rd x y hx hy h) as [h1 h2]. split; [exact h1|]. rewrite h2. unfold rd64.
  destruct (FLT_plus_error_N_ex radix2 (-1074) 53 (fun z => negb (Z.even z)) (v64 x) (v64 y)) as [e [he E]];
    [apply generic_format_B2R|apply generic_format_B2R|].
  change (SpecFloat.fexp 53 1024) with (FLT_exp (-1074) 53). rewrite E.
  replace ((v64 x + v64 y) * (1 + e) - (v64 x + v64 y)) with (e * (v64 x + v64 y)) by ring. rewrite Rabs_mult.
  apply Rmult_le_compat_r; [apply Rabs_pos|]. apply Rle_trans with (1 := he).
  assert (hu : u_ro radix2 53 = u64) by (unfold u_ro, u64; cbn; lra). rewrite hu.
  assert (0 < u64) by (unfold u64; lra).
  apply Rmult_le_reg_r with (1 + u64); [lra|]. field_simplify; [|lra]. nra.
Qed.
