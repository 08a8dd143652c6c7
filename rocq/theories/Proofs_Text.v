(** * Lemmas for Props_Text *)

From Coq Require Import String Ascii.
From Coq Require Import List ZArith Bool Lia Reals Lra.
From Flocq Require Import Core.Core IEEE754.BinarySingleNaN.
Import ListNotations.
From Verif Require Import Scalar F32 Model_Vec Model_Rigid Model_Pose Model_Text Spec_Text.
From Verif Require Import Model_Anim (is_space, drop_spaces).
Local Open Scope string_scope.
Local Open Scope Z_scope.

(** ** Powers of ten *)
Notation r10 := radix10.
Notation p10 := (bpow r10).

Lemma p10_IZR k : 0 <= k -> IZR (10 ^ k) = p10 k.
Proof. intros h. exact (IZR_Zpower r10 k h). Qed.
Lemma p10_pos k : (0 < p10 k)%R.
Proof. apply bpow_gt_0. Qed.
Lemma ten_pos k : 0 <= k -> 0 < 10 ^ k.
Proof. intros; apply Z.pow_pos_nonneg; lia. Qed.
Lemma ten_max k : 0 < 10 ^ Z.max 0 k.
Proof. apply ten_pos; lia. Qed.
(** 10^max(0,k) / 10^max(0,-k) is 10^k *)
Lemma p10_split k : (IZR (10 ^ Z.max 0 k) = p10 k * IZR (10 ^ Z.max 0 (- k)))%R.
Proof.
  rewrite 2 p10_IZR by lia. rewrite <- bpow_plus. f_equal. lia.
Qed.

(** ** Digits *)
Lemma ndigits_loop_ok f : forall n, 0 < n -> n < 2 ^ (Z.of_nat f + 1) ->
  let k := ndigits_loop f n in 1 <= k /\ 10 ^ (k - 1) <= n < 10 ^ k.
Proof.
  induction f as [|f IH]; intros n h0 h1.
  - change (2 ^ (Z.of_nat 0 + 1)) with 2 in h1. assert (n = 1) as -> by lia. cbn; lia.
  - cbn [ndigits_loop]. destruct (Z.ltb_spec n 10) as [h|h].
    + cbn. lia.
    + assert (h2 : 0 < n / 10) by (apply Z.div_str_pos; lia).
      assert (h3 : n / 10 < 2 ^ (Z.of_nat f + 1)).
      { apply Z.div_lt_upper_bound; [lia|]. rewrite Nat2Z.inj_succ in h1.
        replace (Z.succ (Z.of_nat f) + 1) with (1 + (Z.of_nat f + 1)) in h1 by lia.
        rewrite Z.pow_add_r in h1 by lia. change (2^1) with 2 in h1.
        assert (0 < 2 ^ (Z.of_nat f + 1)) by (apply Z.pow_pos_nonneg; lia). lia. }
      destruct (IH _ h2 h3) as [ka kb]. set (k := ndigits_loop f (n / 10)) in *. clearbody k.
      split; [lia|].
      replace (1 + k - 1) with (1 + (k - 1)) by lia. rewrite 2 Z.pow_add_r by lia. change (10^1) with 10.
      assert (hq := Z.div_mod n 10 ltac:(lia)). assert (hr := Z.mod_pos_bound n 10 ltac:(lia)). nia.
Qed.
Lemma ndigits_ok n : 0 < n -> 1 <= ndigits n /\ 10 ^ (ndigits n - 1) <= n < 10 ^ ndigits n.
Proof.
  intros h. apply ndigits_loop_ok; [exact h|]. rewrite Z2Nat.id by apply Z.log2_nonneg.
  apply Z.log2_spec. exact h.
Qed.

Lemma dec_exponent_ok n d : 0 < n -> 0 < d ->
  let x := dec_exponent n d in (p10 x <= IZR n / IZR d < p10 (x + 1))%R.
Proof.
  intros hn hd x. assert (Hd : (0 < IZR d)%R) by (apply IZR_lt; lia).
  assert (Hn : (0 < IZR n)%R) by (apply IZR_lt; lia).
  unfold x, dec_exponent. destruct (Z.leb_spec d n) as [h|h].
  - assert (hq : 0 < n / d) by (apply Z.div_str_pos; lia).
    destruct (ndigits_ok _ hq) as [k1 [k2 k3]]. set (k := ndigits (n / d)) in *. clearbody k.
    rewrite Z.sub_add. rewrite <- 2 p10_IZR by lia.
    assert (hm := Z.div_mod n d ltac:(lia)). assert (hr := Z.mod_pos_bound n d ltac:(lia)).
    split.
    + apply Rmult_le_reg_r with (IZR d); [exact Hd|]. unfold Rdiv. rewrite Rmult_assoc, Rinv_l, Rmult_1_r by lra.
      rewrite <- mult_IZR. apply IZR_le. nia.
    + apply Rmult_lt_reg_r with (IZR d); [exact Hd|]. unfold Rdiv. rewrite Rmult_assoc, Rinv_l, Rmult_1_r by lra.
      rewrite <- mult_IZR. apply IZR_lt. nia.
  - assert (hq : 0 < (d - 1) / n) by (apply Z.div_str_pos; lia).
    destruct (ndigits_ok _ hq) as [k1 [k2 k3]]. set (k := ndigits ((d - 1) / n)) in *. clearbody k.
    assert (hm := Z.div_mod (d - 1) n ltac:(lia)). assert (hr := Z.mod_pos_bound (d - 1) n ltac:(lia)).
    assert (Hp := p10_pos k). assert (Hp1 := p10_pos (k - 1)).
    split.
    + rewrite bpow_opp. apply Rmult_le_reg_r with (IZR d * p10 k)%R; [nra|].
      replace (/ p10 k * (IZR d * p10 k))%R with (IZR d) by (field; lra).
      replace (IZR n / IZR d * (IZR d * p10 k))%R with (IZR n * p10 k)%R by (field; lra).
      rewrite <- p10_IZR by lia. rewrite <- mult_IZR. apply IZR_le. nia.
    + replace (- k + 1) with (- (k - 1)) by lia. rewrite bpow_opp.
      apply Rmult_lt_reg_r with (IZR d * p10 (k - 1))%R; [nra|].
      replace (/ p10 (k - 1) * (IZR d * p10 (k - 1)))%R with (IZR d) by (field; lra).
      replace (IZR n / IZR d * (IZR d * p10 (k - 1)))%R with (IZR n * p10 (k - 1))%R by (field; lra).
      rewrite <- p10_IZR by lia. rewrite <- mult_IZR. apply IZR_lt. nia.
Qed.

Lemma div_even_ok n d : 0 <= n -> 0 < d -> (Rabs (IZR (div_even n d) - IZR n / IZR d) <= / 2)%R /\ 0 <= div_even n d.
Proof.
  intros hn hd. assert (Hd : (0 < IZR d)%R) by (apply IZR_lt; lia).
  assert (hm := Z.div_mod n d ltac:(lia)). assert (hr := Z.mod_pos_bound n d ltac:(lia)).
  assert (hq : 0 <= n / d) by (apply Z.div_pos; lia).
  assert (key : forall q, - d <= 2 * (q * d - n) <= d -> (Rabs (IZR q - IZR n / IZR d) <= / 2)%R).
  { intros q [h1 h2]. apply IZR_le in h1, h2. rewrite mult_IZR, minus_IZR, mult_IZR in h1, h2.
    rewrite opp_IZR in h1.
    replace (IZR q - IZR n / IZR d)%R with ((IZR q * IZR d - IZR n) * / IZR d)%R by (field; lra).
    rewrite Rabs_mult, (Rabs_pos_eq (/ IZR d)) by (left; apply Rinv_0_lt_compat; lra).
    apply Rmult_le_reg_r with (IZR d); [exact Hd|]. rewrite Rmult_assoc, Rinv_l, Rmult_1_r by lra.
    apply Rabs_le. lra. }
  unfold div_even. set (q := n / d) in *. set (r := n mod d) in *. clearbody q r.
  destruct (Z.ltb_spec (2 * r) d); [|destruct (Z.ltb_spec d (2 * r)); [|destruct (Z.even q)]];
    (split; [apply key; nia | lia]).
Qed.

(** The quotient is the one of Flocq. *)
Lemma div_even_nearest n d : 0 < d -> div_even n d = ZnearestE (IZR n / IZR d).
Proof.
  intros hd. assert (Hd : (0 < IZR d)%R) by (apply IZR_lt; lia).
  assert (hm := Z.div_mod n d ltac:(lia)). assert (hr := Z.mod_pos_bound n d ltac:(lia)).
  unfold Znearest. rewrite Zfloor_div by lia.
  assert (E : (IZR n / IZR d - IZR (n / d) = IZR (n mod d) / IZR d)%R).
  { rewrite hm at 1. rewrite plus_IZR, mult_IZR. field. lra. }
  rewrite E. unfold div_even. set (q := n / d) in *. set (r := n mod d) in *. cbv zeta.
  assert (C : 0 < r -> Zceil (IZR n / IZR d) = q + 1).
  { intros h. rewrite Zceil_floor_neq; rewrite Zfloor_div by lia; [reflexivity|]. fold q.
    assert (0 < IZR r / IZR d)%R by (apply Rdiv_lt_0_compat; [apply IZR_lt; exact h|exact Hd]). lra. }
  assert (H2 : forall c, (Rcompare (IZR r / IZR d) (/2) = c) <-> (2 * r ?= d) = c).
  { intros c. rewrite <- (Rcompare_IZR (2*r) d), mult_IZR.
    rewrite <- (Rcompare_mult_r (2 * IZR d) (IZR r / IZR d) (/2)) by lra.
    replace (IZR r / IZR d * (2 * IZR d))%R with (2 * IZR r)%R by (field; lra).
    replace (/2 * (2 * IZR d))%R with (IZR d) by field. tauto. }
  clear hm. destruct (Z.ltb_spec (2*r) d) as [h|h]; [rewrite (proj2 (H2 Lt)) by (now apply Z.compare_lt_iff); reflexivity|].
  destruct (Z.ltb_spec d (2*r)) as [h2|h2].
  - rewrite (proj2 (H2 Gt)) by (now apply Z.compare_gt_iff). now rewrite C by lia.
  - rewrite (proj2 (H2 Eq)) by (apply Z.compare_eq_iff; lia).
    destruct (Z.even q); cbn [negb]; [reflexivity|]. now rewrite C by lia.
Qed.

(** The digits are those of the nearest number with [p] digits. *)
Lemma round_digits_nearest p n d v x : 1 <= p -> 0 < n -> 0 < d -> round_digits p n d = (v, x) ->
  (IZR v * p10 (x - p + 1) = round r10 (FLX_exp p) ZnearestE (IZR n / IZR d))%R.
Proof.
  intros hp hn hd. unfold round_digits. destruct (dec_exponent_ok n d hn hd) as [e1 e2].
  set (X := dec_exponent n d) in *. clearbody X.
  assert (Hd : (0 < IZR d)%R) by (apply IZR_lt; lia).
  set (A := 10 ^ Z.max 0 (p - 1 - X)). set (B := 10 ^ Z.max 0 (X - p + 1)).
  assert (hA : 0 < A) by apply ten_max. assert (hB : 0 < B) by apply ten_max.
  assert (HA : (0 < IZR A)%R) by (apply IZR_lt; lia). assert (HB : (0 < IZR B)%R) by (apply IZR_lt; lia).
  assert (hAB : (IZR A / IZR B = p10 (p - 1 - X))%R).
  { unfold A, B. rewrite p10_split. replace (- (p - 1 - X)) with (X - p + 1) by lia. field. fold B. lra. }
  rewrite div_even_nearest by nia. rewrite 2 mult_IZR.
  replace (IZR n * IZR A / (IZR d * IZR B))%R with (IZR n / IZR d * (IZR A / IZR B))%R by (field; lra).
  rewrite hAB. set (Q := (IZR n / IZR d)%R) in *.
  assert (M : mag r10 Q = X + 1 :> Z).
  { apply mag_unique_pos. replace (X + 1 - 1) with X by lia. split; assumption. }
  unfold round, scaled_mantissa, cexp. rewrite M. unfold FLX_exp, F2R. cbn [Fnum Fexp].
  replace (- (X + 1 - p)) with (p - 1 - X) by lia.
  set (D := ZnearestE (Q * p10 (p - 1 - X))).
  destruct (Z.eqb_spec D (10 ^ p)) as [h|h]; intros E; injection E as <- <-.
  - rewrite h, 2 p10_IZR by lia. rewrite <- 2 bpow_plus. f_equal. lia.
  - f_equal. f_equal. lia.
Qed.

Lemma round_digits_ok p n d v x : 1 <= p -> 0 < n -> 0 < d -> round_digits p n d = (v, x) ->
  10 ^ (p - 1) <= v < 10 ^ p /\
  exists y, (p10 y <= IZR n / IZR d)%R /\
  (Rabs (IZR v * p10 (x - p + 1) - IZR n / IZR d) <= p10 (y - p + 1) / 2)%R.
Proof.
  intros hp hn hd. unfold round_digits. destruct (dec_exponent_ok n d hn hd) as [e1 e2].
  set (X := dec_exponent n d) in *. clearbody X.
  assert (Hd : (0 < IZR d)%R) by (apply IZR_lt; lia).
  set (A := 10 ^ Z.max 0 (p - 1 - X)). set (B := 10 ^ Z.max 0 (X - p + 1)).
  assert (hA : 0 < A) by apply ten_max. assert (hB : 0 < B) by apply ten_max.
  assert (HA : (0 < IZR A)%R) by (apply IZR_lt; lia). assert (HB : (0 < IZR B)%R) by (apply IZR_lt; lia).
  destruct (div_even_ok (n * A) (d * B) ltac:(nia) ltac:(nia)) as [w wn].
  set (D := div_even (n * A) (d * B)) in *. clearbody D.
  assert (hAB : (IZR A / IZR B = p10 (p - 1 - X))%R).
  { unfold A, B. rewrite p10_split. replace (- (p - 1 - X)) with (X - p + 1) by lia. field. fold B. lra. }
  rewrite 2 mult_IZR in w.
  replace (IZR n * IZR A / (IZR d * IZR B))%R with (IZR n / IZR d * (IZR A / IZR B))%R in w by (field; lra).
  rewrite hAB in w. set (Q := (IZR n / IZR d)%R) in *.
  assert (hq1 : (p10 (p - 1) <= Q * p10 (p - 1 - X))%R).
  { replace (p - 1) with (X + (p - 1 - X)) at 1 by lia. rewrite bpow_plus.
    apply Rmult_le_compat_r; [left; apply p10_pos | exact e1]. }
  assert (hq2 : (Q * p10 (p - 1 - X) < p10 p)%R).
  { replace p with ((X + 1) + (p - 1 - X)) at 2 by lia. rewrite bpow_plus.
    apply Rmult_lt_compat_r; [apply p10_pos | exact e2]. }
  apply Rabs_le_inv in w.
  assert (d1 : 10 ^ (p - 1) <= D).
  { apply Z.lt_succ_r. apply lt_IZR. rewrite succ_IZR, p10_IZR by lia. lra. }
  assert (d2 : D <= 10 ^ p).
  { apply Z.lt_succ_r. apply lt_IZR. rewrite succ_IZR, p10_IZR by lia. lra. }
  assert (err : (Rabs (IZR D * p10 (X - p + 1) - Q) <= p10 (X - p + 1) / 2)%R).
  { replace Q with (Q * p10 (p - 1 - X) * p10 (X - p + 1))%R.
    2:{ rewrite Rmult_assoc, <- bpow_plus. replace (p - 1 - X + (X - p + 1)) with 0 by lia. cbn. lra. }
    rewrite <- Rmult_minus_distr_r, Rabs_mult, (Rabs_pos_eq (p10 _)) by (left; apply p10_pos).
    assert (h := p10_pos (X - p + 1)).
    assert (Rabs (IZR D - Q * p10 (p - 1 - X)) <= / 2)%R by (apply Rabs_le; lra). nra. }
  destruct (Z.eqb_spec D (10 ^ p)) as [h|h]; intros E; injection E as <- <-.
  - split.
    + assert (0 < 10 ^ (p - 1)) by (apply ten_pos; lia).
      assert (h1 : 10 ^ p = 10 * 10 ^ (p - 1)) by (rewrite <- Z.pow_succ_r by lia; f_equal; lia). lia.
    + exists X. split; [exact e1|].
      replace (IZR (10 ^ (p - 1)) * p10 (X + 1 - p + 1))%R with (IZR D * p10 (X - p + 1))%R; [exact err|].
      rewrite h, 2 p10_IZR by lia. rewrite <- 2 bpow_plus. f_equal. lia.
  - split; [lia|]. exists X. split; [exact e1 | exact err].
Qed.

(** ** Texts *)
Lemma app_assoc_s a b c : (a ++ b) ++ c = a ++ (b ++ c).
Proof. induction a as [|x a IH]; cbn; [reflexivity | now rewrite IH]. Qed.
Lemma digit_of_char d : 0 <= d < 10 -> digit_of (digit_char d) = Some d.
Proof.
  intros h. assert (d = 0 \/ d = 1 \/ d = 2 \/ d = 3 \/ d = 4 \/ d = 5 \/ d = 6 \/ d = 7 \/ d = 8 \/ d = 9) as hd by lia.
  decompose [or] hd; subst d; reflexivity.
Qed.
Lemma read_dec n : forall v s acc k, 0 <= v ->
  read_digits (dec_string n v ++ s) acc k = read_digits s (acc * 10 ^ Z.of_nat n + v mod 10 ^ Z.of_nat n) (k + Z.of_nat n).
Proof.
  induction n as [|n IH]; intros v s acc k hv.
  - cbn [dec_string append]. change (10 ^ Z.of_nat 0) with 1. rewrite Z.mod_1_r. f_equal; lia.
  - cbn [dec_string]. rewrite app_assoc_s. rewrite IH by (apply Z.div_pos; lia).
    cbn [append]. cbn [read_digits]. rewrite digit_of_char by (apply Z.mod_pos_bound; lia).
    f_equal; [|lia].
    rewrite Nat2Z.inj_succ, Z.pow_succ_r by lia.
    assert (0 < 10 ^ Z.of_nat n) by (apply ten_pos; lia).
    rewrite (Z.rem_mul_r v 10) by lia. lia.
Qed.
Lemma dec_first n v : 0 <= v -> exists c t, dec_string (S n) v = String c t /\ digit_of c <> None.
Proof.
  revert v. induction n as [|n IH]; intros v hv.
  - exists (digit_char (v mod 10)), "". split; [reflexivity|]. rewrite digit_of_char by (apply Z.mod_pos_bound; lia). discriminate.
  - destruct (IH (v / 10)) as (c & t & e & h); [apply Z.div_pos; lia|].
    exists c, (t ++ String (digit_char (v mod 10)) ""). split; [|exact h].
    change (dec_string (S (S n)) v) with (dec_string (S n) (v / 10) ++ String (digit_char (v mod 10)) "").
    now rewrite e.
Qed.
Definition ends (s : string) : Prop :=
  match s with
  | "" => True
  | String c _ => digit_of c = None /\ c <> "."%char /\ c <> "e"%char /\ c <> "E"%char
  end.
Lemma read_digits_stop s acc k : match s with "" => True | String c _ => digit_of c = None end -> read_digits s acc k = (acc, k, s).
Proof. destruct s as [|c s]; [reflexivity|]. cbn. intros ->. reflexivity. Qed.

Lemma strip_ok f : forall v, 0 <= v -> let '(f', v') := strip f v in (f' <= f)%nat /\ v = v' * 10 ^ (Z.of_nat f - Z.of_nat f') /\ 0 <= v'.
Proof.
  induction f as [|f IH]; intros v hv; [cbn; lia|].
  cbn [strip]. destruct (Z.eqb_spec (v mod 10) 0) as [h|h].
  - specialize (IH (v / 10) ltac:(apply Z.div_pos; lia)). destruct (strip f (v / 10)) as [f' v'].
    destruct IH as (h1 & h2 & h3). split; [lia|]. split; [|exact h3].
    replace (Z.of_nat (S f) - Z.of_nat f') with (1 + (Z.of_nat f - Z.of_nat f')) by lia.
    rewrite Z.pow_add_r by lia. change (10^1) with 10.
    assert (hm := Z.div_mod v 10 ltac:(lia)). nia.
  - split; [lia|]. split; [|lia]. rewrite Z.sub_diag. lia.
Qed.
Lemma strip_unless_ok b f v : 0 <= v -> let '(f', v') := strip_unless b f v in (f' <= f)%nat /\ v = v' * 10 ^ (Z.of_nat f - Z.of_nat f') /\ 0 <= v'.
Proof.
  intros hv. unfold strip_unless. destruct b; [|now apply strip_ok].
  split; [lia|]. split; [|lia]. rewrite Z.sub_diag. lia.
Qed.

(** Reading the digits and the point. *)
Definition read_mantissa (s : string) : Z * Z * Z * string :=
  let '(a, i, s) := read_digits s 0 0 in
  let '(a, f, s) :=
    match s with
    | String "."%char s' => read_digits s' a 0
    | _ => (a, 0, s)
    end in (a, i, f, s).
Lemma read_decimal_eq s :
  read_decimal s =
  let '(neg, s) := read_sign s in
  let '(a, i, f, s) := read_mantissa s in
  if i + f =? 0 then None else
  match s with
  | String c s' =>
      if (Ascii.eqb c "e" || Ascii.eqb c "E")%bool then
        let '(xneg, s') := read_sign s' in
        let '(x, k, s') := read_digits s' 0 0 in
        if k =? 0 then None else Some (neg, a, (if xneg then - x else x) - f, s')
      else Some (neg, a, - f, s)
  | EmptyString => Some (neg, a, - f, s)
  end.
Proof.
  unfold read_decimal, read_mantissa. destruct (read_sign s) as [neg s1]. destruct (read_digits s1 0 0) as [[a i] s2].
  destruct (match s2 with String "."%char s' => read_digits s' a 0 | _ => (a, 0, s2) end) as [[a' f] s3]. reflexivity.
Qed.
Lemma not_dot (A : Type) c s (x : A) (y : string -> A) : c <> "."%char ->
  match String c s with String "."%char s' => y s' | _ => x end = x.
Proof. intros h. destruct c as [[] [] [] [] [] [] [] []]; try reflexivity. now destruct h. Qed.
Lemma read_point b i f v s :
  0 <= v < 10 ^ (Z.of_nat i + Z.of_nat f) ->
  match s with "" => True | String c _ => digit_of c = None /\ c <> "."%char end ->
  read_mantissa (point_text b i f v ++ s) = (v, Z.of_nat i, Z.of_nat f, s).
Proof.
  intros hv hs. unfold point_text, read_mantissa. rewrite app_assoc_s.
  assert (hf : 0 < 10 ^ Z.of_nat f) by (apply ten_pos; lia).
  assert (hi : 0 < 10 ^ Z.of_nat i) by (apply ten_pos; lia).
  rewrite Z.pow_add_r in hv by lia.
  assert (h1 : 0 <= v / 10 ^ Z.of_nat f) by (apply Z.div_pos; lia).
  assert (h2 : v / 10 ^ Z.of_nat f < 10 ^ Z.of_nat i) by (apply Z.div_lt_upper_bound; lia).
  rewrite read_dec by exact h1. rewrite (Z.mod_small (v / 10 ^ Z.of_nat f)) by lia.
  rewrite Z.mul_0_l, !Z.add_0_l.
  destruct ((f =? 0)%nat && negb b) eqn:e.
  - apply andb_prop in e. destruct e as [e _]. apply Nat.eqb_eq in e. subst f.
    cbn [append]. change (Z.of_nat 0) with 0. change (10 ^ 0) with 1. rewrite Z.div_1_r.
    destruct s as [|c s].
    + reflexivity.
    + destruct hs as [hs1 hs2]. rewrite read_digits_stop by exact hs1.
      now rewrite (not_dot (Z * Z * string) c s (v, 0, String c s) (fun s' => read_digits s' v 0) hs2).
  - rewrite app_assoc_s. cbn [append]. rewrite read_digits_stop by reflexivity.
    assert (hm := Z.mod_pos_bound v _ hf).
    rewrite read_dec by lia. rewrite Z.mod_mod by lia.
    rewrite read_digits_stop by (destruct s; [exact Logic.I | tauto]).
    rewrite (Z.mul_comm (v / _)). rewrite <- Z.div_mod by lia. rewrite Z.add_0_l. reflexivity.
Qed.
Lemma point_first b i f v : (1 <= i)%nat -> 0 <= v -> exists c t, point_text b i f v = String c t /\ digit_of c <> None.
Proof.
  intros hi hv. unfold point_text. destruct i as [|i]; [lia|].
  destruct (dec_first i (v / 10 ^ Z.of_nat f)) as (c & t & e & h).
  { apply Z.div_pos; [lia|]. apply ten_pos; lia. }
  rewrite e. eexists c, _. split; [cbn [append]; reflexivity | exact h].
Qed.

(** What %g writes is read as the number. *)
Lemma exponent_ends x s : match exponent_text x ++ s with "" => True | String c _ => digit_of c = None /\ c <> "."%char end.
Proof. cbn. split; [reflexivity | discriminate]. Qed.
Lemma abs_digits x : 0 <= Z.abs x < 10 ^ Z.max 2 (ndigits (Z.abs x)).
Proof.
  split; [lia|]. destruct (Z.eq_dec x 0) as [->|h].
  - cbn. lia.
  - destruct (ndigits_ok (Z.abs x)) as [h1 [_ h2]]; [lia|].
    eapply Z.lt_le_trans; [exact h2|]. apply Z.pow_le_mono_r; lia.
Qed.
Lemma read_sign_text fm neg c t : digit_of c <> None -> read_sign (sign_text fm neg ++ String c t) = (neg, String c t).
Proof.
  intros h. unfold sign_text. destruct neg; [reflexivity|]. destruct (showpos fm); [reflexivity|].
  cbn [append]. destruct c as [[] [] [] [] [] [] [] []]; try reflexivity; now destruct h.
Qed.
Lemma g_text_first b p v x : 0 <= v -> exists c t, g_text b p v x = String c t /\ digit_of c <> None.
Proof.
  intros hv. unfold g_text.
  destruct ((-4 <=? x) && (x <? p)).
  - assert (h := strip_unless_ok b (Z.to_nat (p - 1 - x)) v hv).
    destruct (strip_unless b (Z.to_nat (p - 1 - x)) v) as [f v']. apply point_first; [lia | tauto].
  - assert (h := strip_unless_ok b (Z.to_nat (p - 1)) v hv).
    destruct (strip_unless b (Z.to_nat (p - 1)) v) as [f v'].
    destruct (point_first b 1 f v') as (c & t & e & hc); [lia | tauto|].
    rewrite e. eexists c, _. split; [cbn [append]; reflexivity | exact hc].
Qed.
Lemma ends_weak s : ends s -> match s with "" => True | String c _ => digit_of c = None /\ c <> "."%char end.
Proof. destruct s; cbn; tauto. Qed.
Lemma read_g_text fm neg p v x s : 1 <= p -> 0 <= v < 10 ^ p -> ends s ->
  exists a y, read_decimal (sign_text fm neg ++ g_text (showpoint fm) p v x ++ s) = Some (neg, a, y, s)
    /\ (IZR a * p10 y = IZR v * p10 (x - p + 1))%R /\ 0 <= a /\ (a = 0 <-> v = 0).
Proof.
  intros hp hv hs. set (b := showpoint fm).
  destruct (g_text_first b p v x) as (c & t & e & hc); [lia|].
  rewrite read_decimal_eq. rewrite e. cbn [append]. rewrite read_sign_text by exact hc.
  change (String c (t ++ s)) with (String c t ++ s). rewrite <- e. clear c t e hc.
  unfold g_text. destruct ((-4 <=? x) && (x <? p)) eqn:hx.
  - apply andb_prop in hx. destruct hx as [hx1 hx2]. apply Z.leb_le in hx1. apply Z.ltb_lt in hx2.
    assert (h := strip_unless_ok b (Z.to_nat (p - 1 - x)) v ltac:(lia)).
    destruct (strip_unless b (Z.to_nat (p - 1 - x)) v) as [f v']. destruct h as (h1 & h2 & h3).
    rewrite Z2Nat.id in h2 by lia.
    assert (hv' : 0 <= v' < 10 ^ (Z.of_nat (Z.to_nat (Z.max 1 (x + 1))) + Z.of_nat f)).
    { split; [exact h3|]. rewrite Z2Nat.id by lia.
      assert (h4 : 0 < 10 ^ (p - 1 - x - Z.of_nat f)) by (apply ten_pos; lia).
      apply Z.mul_lt_mono_pos_r with (10 ^ (p - 1 - x - Z.of_nat f)); [exact h4|].
      rewrite <- h2, <- Z.pow_add_r by lia. eapply Z.lt_le_trans; [apply hv|]. apply Z.pow_le_mono_r; lia. }
    rewrite read_point by (first [exact hv' | exact (ends_weak s hs)]).
    destruct (Z.eqb_spec (Z.of_nat (Z.to_nat (Z.max 1 (x + 1))) + Z.of_nat f) 0) as [h4|_]; [lia|].
    exists v', (- Z.of_nat f). split; [|split; [|split]].
    + destruct s as [|c s]; [reflexivity|]. cbn in hs. destruct hs as (_ & _ & s1 & s2).
      apply Ascii.eqb_neq in s1, s2. rewrite s1, s2. reflexivity.
    + rewrite h2, mult_IZR, p10_IZR by lia. rewrite Rmult_assoc, <- bpow_plus. do 2 f_equal. lia.
    + exact h3.
    + assert (h4 : 0 < 10 ^ (p - 1 - x - Z.of_nat f)) by (apply ten_pos; lia). nia.
  - clear hx. assert (h := strip_unless_ok b (Z.to_nat (p - 1)) v ltac:(lia)).
    destruct (strip_unless b (Z.to_nat (p - 1)) v) as [f v']. destruct h as (h1 & h2 & h3).
    rewrite Z2Nat.id in h2 by lia.
    assert (h4 : 0 < 10 ^ (p - 1 - Z.of_nat f)) by (apply ten_pos; lia).
    assert (hv' : 0 <= v' < 10 ^ (Z.of_nat 1 + Z.of_nat f)).
    { split; [exact h3|].
      apply Z.mul_lt_mono_pos_r with (10 ^ (p - 1 - Z.of_nat f)); [exact h4|].
      rewrite <- h2, <- Z.pow_add_r by lia. eapply Z.lt_le_trans; [apply hv|]. apply Z.pow_le_mono_r; lia. }
    rewrite app_assoc_s. rewrite read_point by (first [exact hv' | exact (exponent_ends x s)]).
    destruct (Z.eqb_spec (Z.of_nat 1 + Z.of_nat f) 0) as [h5|_]; [lia|].
    exists v', (x - Z.of_nat f). split; [|split; [|split]].
    + unfold exponent_text. rewrite 2 app_assoc_s. cbn [append].
      assert (hd := abs_digits x).
      destruct (Z.to_nat (Z.max 2 (ndigits (Z.abs x)))) as [|k] eqn:hk; [lia|].
      assert (hk' : Z.max 2 (ndigits (Z.abs x)) = Z.of_nat (S k)) by lia. rewrite hk' in hd. clear hk hk'.
      change ((Ascii.eqb "e" "e" || Ascii.eqb "e" "E")%bool) with true. cbv beta iota.
      assert (hsg : read_sign ((if x <? 0 then "-" else "+") ++ dec_string (S k) (Z.abs x) ++ s) = (x <? 0, dec_string (S k) (Z.abs x) ++ s)).
      { destruct (x <? 0); reflexivity. }
      rewrite hsg. rewrite read_dec by lia. rewrite Z.mod_small by lia.
      rewrite read_digits_stop by (destruct s; [exact Logic.I | cbn in hs; tauto]).
      destruct (Z.eqb_spec (0 + Z.of_nat (S k)) 0) as [h6|_]; [lia|].
      do 3 f_equal. destruct (Z.ltb_spec x 0); lia.
    + rewrite h2, mult_IZR, p10_IZR by lia. rewrite Rmult_assoc, <- bpow_plus. do 2 f_equal. lia.
    + exact h3.
    + nia.
Qed.

(** ** Floats *)
Section Float.
Variables prec emax : Z.
Context (Hp : Prec_gt_0 prec) (He : Prec_lt_emax prec emax).
Notation fexp := (SpecFloat.fexp prec emax).

Lemma fexp_ge e : e - prec <= fexp e.
Proof. unfold SpecFloat.fexp. lia. Qed.

Lemma round_close x y : generic_format radix2 fexp x -> (0 < x)%R ->
  (Rabs (y - x) < x * bpow radix2 (- prec - 1))%R -> round radix2 fexp ZnearestE y = x.
Proof.
  intros F h hy. apply Rabs_lt_inv in hy.
  assert (V : Valid_exp fexp) by (apply fexp_correct; exact Hp).
  destruct (mag radix2 x) as (ex & hm). assert (hx := hm ltac:(lra)). rewrite Rabs_pos_eq in hx by lra.
  assert (hmag : mag radix2 x = ex :> Z) by (apply mag_unique_pos; exact hx). clear hm.
  assert (hb : (x * bpow radix2 (- prec - 1) < bpow radix2 (ex - prec) / 2)%R).
  { replace (bpow radix2 (ex - prec) / 2)%R with (bpow radix2 ex * bpow radix2 (- prec - 1))%R.
    - apply Rmult_lt_compat_r; [apply bpow_gt_0 | lra].
    - rewrite <- bpow_plus. replace (ex - prec) with (1 + (ex + (- prec - 1))) by lia.
      rewrite (bpow_plus radix2 1). change (bpow radix2 1) with 2%R. lra. }
  assert (hu : (bpow radix2 (ex - prec) <= ulp radix2 fexp x)%R).
  { rewrite ulp_neq_0 by lra. unfold cexp. rewrite hmag. apply bpow_le. apply fexp_ge. }
  apply Rle_antisym.
  - apply round_N_le_midp; [exact V | exact F|]. rewrite succ_eq_pos by lra. lra.
  - apply round_N_ge_midp; [exact V | exact F|]. rewrite pred_eq_pos by lra.
    unfold pred_pos. rewrite hmag. destruct (Req_bool_spec x (bpow radix2 (ex - 1))) as [e|e]; [|lra].
    assert (hg : (bpow radix2 (ex - 1 - prec) <= bpow radix2 (fexp (ex - 1)))%R) by (apply bpow_le, fexp_ge).
    assert (hb' : (x * bpow radix2 (- prec - 1) = bpow radix2 (ex - 1 - prec) / 2)%R).
    { rewrite e, <- bpow_plus. replace (ex - 1 - prec) with (1 + (ex - 1 + (- prec - 1))) by lia.
      rewrite (bpow_plus radix2 1). change (bpow radix2 1) with 2%R. lra. }
    lra.
Qed.

Lemma nearest_ok (neg : bool) n d (x : binary_float prec emax) :
  is_finite x = true -> Bsign x = neg ->
  round radix2 fexp ZnearestE ((if neg then -1 else 1) * (IZR (Zpos n) / IZR (Zpos d))) = B2R x ->
  nearest prec emax Hp He neg n d = Some x.
Proof.
  intros fx sx rx. unfold nearest.
  set (B := Bdiv_correct_aux prec emax Hp He mode_NE neg n 0 false d 0). cbv zeta in B.
  revert B. set (z := let '(mz, ez, lz) := SpecFloat.SFdiv_core_binary prec emax (Z.pos n) 0 (Z.pos d) 0 in
                      binary_round_aux prec emax mode_NE (xorb neg false) mz ez lz). intros B.
  assert (C := proj2 B). generalize (proj1 B). clear B. intros V.
  assert (hv : (F2R (Float radix2 (SpecFloat.cond_Zopp neg (Z.pos n)) 0) / F2R (Float radix2 (SpecFloat.cond_Zopp false (Z.pos d)) 0)
                = (if neg then -1 else 1) * (IZR (Zpos n) / IZR (Zpos d)))%R).
  { unfold F2R. cbn [Fnum Fexp bpow SpecFloat.cond_Zopp]. assert (IZR (Zpos d) <> 0)%R by (apply not_0_IZR; lia).
    destruct neg; cbn [SpecFloat.cond_Zopp]; [rewrite opp_IZR|]; field; assumption. }
  rewrite hv in C. change (round_mode mode_NE) with ZnearestE in C. rewrite rx in C.
  rewrite Rlt_bool_true in C by (apply abs_B2R_lt_emax).
  destruct C as (c1 & c2 & c3). rewrite xorb_false_r in c3.
  assert (e : SF2B z V = x).
  { apply B2R_Bsign_inj.
    - now rewrite is_finite_SF2B.
    - exact fx.
    - now rewrite B2R_SF2B.
    - now rewrite Bsign_SF2B, c3, sx. }
  rewrite e, fx. reflexivity.
Qed.

Lemma p2_IZR k : 0 <= k -> IZR (2 ^ k) = bpow radix2 k.
Proof. intros h. exact (IZR_Zpower radix2 k h). Qed.
Lemma p10_powerRZ k : p10 k = powerRZ 10 k.
Proof. exact (bpow_powerRZ r10 k). Qed.

(** The value of a float as a fraction. *)
Lemma B2R_fraction s m e h :
  B2R (B754_finite s m e h : binary_float prec emax)
  = ((if s then -1 else 1) * (IZR (Zpos m * 2 ^ Z.max 0 e) / IZR (2 ^ Z.max 0 (- e))))%R.
Proof.
  cbn [B2R]. unfold F2R. cbn [Fnum Fexp].
  assert (hs : IZR (SpecFloat.cond_Zopp s (Zpos m)) = ((if s then -1 else 1) * IZR (Zpos m))%R).
  { destruct s; cbn [SpecFloat.cond_Zopp]; [rewrite opp_IZR|]; lra. }
  rewrite hs, mult_IZR, (p2_IZR (Z.max 0 e)), (p2_IZR (Z.max 0 (- e))) by lia.
  replace (bpow radix2 (Z.max 0 e)) with (bpow radix2 e * bpow radix2 (Z.max 0 (- e)))%R.
  2:{ rewrite <- bpow_plus. f_equal. lia. }
  field. apply Rgt_not_eq, bpow_gt_0.
Qed.

(** What is written is read as a number close to the float... *)
Lemma print_read fm (x : binary_float prec emax) s : is_finite x = true -> ends s ->
  exists a y, read_decimal (print_float prec emax fm x ++ s) = Some (Bsign x, a, y, s)
  /\ 0 <= a
  /\ (a = 0 <-> B2R x = 0%R)
  /\ (Rabs (value_of (Bsign x, a, y) - B2R x) <= Rabs (B2R x) * p10 (1 - Z.max 1 (precision fm)) / 2)%R
  /\ value_of (Bsign x, a, y) = round r10 (FLX_exp (Z.max 1 (precision fm))) ZnearestE (B2R x).
Proof.
  intros fx hs. set (p := Z.max 1 (precision fm)). assert (hp : 1 <= p) by lia.
  destruct x as [sg|sg| |sg m e hb]; try discriminate.
  - destruct (read_g_text fm sg p 0 0 s hp) as (a & y & h1 & h2 & h3 & h4).
    { split; [lia|]. apply ten_pos; lia. } { exact hs. }
    exists a, y. cbn [print_float Bsign]. fold p. rewrite app_assoc_s. split; [exact h1|]. split; [exact h3|].
    assert (ha : a = 0) by (apply h4; reflexivity). split; [cbn; tauto|].
    subst a. unfold value_of. cbn [B2R]. rewrite Rmult_0_r, Rmult_0_l, Rminus_0_r, Rabs_R0. split; [lra|].
    symmetry. apply round_0. apply valid_rnd_N.
  - cbn [print_float Bsign]. fold p.
    set (n := Zpos m * 2 ^ Z.max 0 e). set (d := 2 ^ Z.max 0 (- e)).
    assert (hd : 0 < d) by (apply Z.pow_pos_nonneg; lia).
    assert (hn : 0 < n) by (assert (0 < 2 ^ Z.max 0 e) by (apply Z.pow_pos_nonneg; lia); lia).
    destruct (round_digits p n d) as [v x] eqn:er.
    destruct (round_digits_ok p n d v x hp hn hd er) as (hv & z & hz & herr).
    assert (hexact := round_digits_nearest p n d v x hp hn hd er).
    assert (hv0 : 0 < 10 ^ (p - 1)) by (apply ten_pos; lia).
    destruct (read_g_text fm sg p v x s hp) as (a & y & h1 & h2 & h3 & h4); [lia | exact hs|].
    exists a, y. rewrite app_assoc_s. split; [exact h1|]. split; [exact h3|].
    rewrite B2R_fraction. fold n d. set (Q := (IZR n / IZR d)%R) in *.
    assert (hQ : (0 < Q)%R) by (eapply Rlt_le_trans; [apply p10_pos | exact hz]).
    split.
    { split; intros h.
      - lia.
      - exfalso. destruct sg; lra. }
    unfold value_of. rewrite <- p10_powerRZ.
    assert (HX : ((if sg then -1 else 1) * IZR a * p10 y = round r10 (FLX_exp p) ZnearestE ((if sg then -1 else 1) * Q))%R).
    { rewrite Rmult_assoc, h2, hexact. destruct sg; [|now rewrite 2 Rmult_1_l].
      replace (-1 * Q)%R with (- Q)%R by ring. rewrite round_NE_opp. ring. }
    split; [|exact HX]. clear HX.
    replace ((if sg then -1 else 1) * IZR a * p10 y - (if sg then -1 else 1) * Q)%R
      with ((if sg then -1 else 1) * (IZR a * p10 y - Q))%R by ring.
    rewrite 2 Rabs_mult. replace (Rabs (if sg then -1 else 1)) with 1%R.
    2:{ destruct sg; [rewrite Rabs_left by lra; lra | rewrite Rabs_R1; reflexivity]. }
    rewrite 2 Rmult_1_l, (Rabs_pos_eq Q) by lra. rewrite h2.
    eapply Rle_trans; [exact herr|].
    replace (z - p + 1) with (z + (1 - p)) by lia. rewrite bpow_plus.
    assert (h := p10_pos (1 - p)). nra.
Qed.

(** ... and gives the float back when there are enough digits. *)
Lemma print_read_exact (x : binary_float prec emax) a y p :
  is_finite x = true -> 0 <= a -> (a = 0 <-> B2R x = 0%R) ->
  (Rabs (value_of (Bsign x, a, y) - B2R x) <= Rabs (B2R x) * p10 (1 - p) / 2)%R ->
  2 ^ prec < 10 ^ (p - 1) -> float_of prec emax Hp He (Bsign x) a y = Some x.
Proof.
  intros fx ha hz hc hp. unfold float_of.
  assert (hp1 : 0 <= p - 1).
  { destruct (Z.le_gt_cases 0 (p - 1)) as [h|h]; [exact h|]. rewrite (Z.pow_neg_r 10) in hp by lia.
    assert (0 <= 2 ^ prec) by (apply Z.pow_nonneg; lia). lia. }
  destruct (Z.eq_dec a 0) as [e|e].
  - assert (h := proj1 hz e). subst a. cbn [Z.mul].
    destruct x as [sg|sg| |sg m ex hb]; try discriminate; [reflexivity|].
    exfalso. rewrite B2R_fraction in h.
    assert (0 < IZR (Zpos m * 2 ^ Z.max 0 ex) / IZR (2 ^ Z.max 0 (- ex)))%R; [|destruct sg; lra].
    assert (0 < 2 ^ Z.max 0 ex) by (apply Z.pow_pos_nonneg; lia).
    apply Rdiv_lt_0_compat; apply IZR_lt; [lia | apply Z.pow_pos_nonneg; lia].
  - assert (hn := ten_max y). destruct (a * 10 ^ Z.max 0 y) as [|n|n] eqn:en; [nia| |nia].
    apply nearest_ok; [exact fx | reflexivity|].
    rewrite Z2Pos.id by apply ten_max. rewrite <- en, mult_IZR, p10_split.
    assert (hd : (0 < IZR (10 ^ Z.max 0 (- y)))%R) by (apply IZR_lt, ten_max).
    replace (IZR a * (p10 y * IZR (10 ^ Z.max 0 (- y))) / IZR (10 ^ Z.max 0 (- y)))%R with (IZR a * p10 y)%R by (field; lra).
    unfold value_of in hc. rewrite <- p10_powerRZ in hc.
    set (V := (IZR a * p10 y)%R) in *. rewrite Rmult_assoc in hc. fold V in hc.
    assert (hsmall : (p10 (1 - p) < bpow radix2 (- prec))%R).
    { replace (1 - p) with (- (p - 1)) by lia. rewrite 2 bpow_opp.
      apply Rinv_lt_contravar; [apply Rmult_lt_0_compat; apply bpow_gt_0|].
      rewrite <- p10_IZR by lia. rewrite <- p2_IZR by (unfold Prec_gt_0 in Hp; lia).
      apply IZR_lt. exact hp. }
    assert (hhalf : (bpow radix2 (- prec) = 2 * bpow radix2 (- prec - 1))%R).
    { replace (- prec) with (1 + (- prec - 1)) at 1 by lia. rewrite bpow_plus. reflexivity. }
    assert (gen := generic_format_B2R prec emax x).
    destruct x as [sg|sg| |sg m ex hb]; try discriminate.
    + exfalso. apply e, hz. reflexivity.
    + set (x := B754_finite sg m ex hb) in *. cbn [Bsign x] in hc |- *. change (Bsign x) with sg in *.
      destruct sg.
      * assert (hneg : (B2R x < 0)%R).
        { unfold x. rewrite B2R_fraction.
          assert (0 < IZR (Zpos m * 2 ^ Z.max 0 ex) / IZR (2 ^ Z.max 0 (- ex)))%R; [|lra].
          assert (0 < 2 ^ Z.max 0 ex) by (apply Z.pow_pos_nonneg; lia).
          apply Rdiv_lt_0_compat; apply IZR_lt; [lia | apply Z.pow_pos_nonneg; lia]. }
        replace (-1 * V)%R with (- V)%R in * by ring. rewrite round_NE_opp.
        rewrite (Rabs_left (B2R x)) in hc by exact hneg.
        replace (B2R x) with (- (- B2R x))%R at 1 by ring. f_equal. apply round_close.
        -- now apply generic_format_opp.
        -- lra.
        -- replace (V - - B2R x)%R with (- (- V - B2R x))%R by ring. rewrite Rabs_Ropp.
           eapply Rle_lt_trans; [exact hc|]. nra.
      * assert (hpos : (0 < B2R x)%R).
        { unfold x. rewrite B2R_fraction.
          assert (0 < IZR (Zpos m * 2 ^ Z.max 0 ex) / IZR (2 ^ Z.max 0 (- ex)))%R; [|lra].
          assert (0 < 2 ^ Z.max 0 ex) by (apply Z.pow_pos_nonneg; lia).
          apply Rdiv_lt_0_compat; apply IZR_lt; [lia | apply Z.pow_pos_nonneg; lia]. }
        rewrite Rmult_1_l in *. rewrite (Rabs_pos_eq (B2R x)) in hc by lra. apply round_close; [exact gen | exact hpos|].
        eapply Rle_lt_trans; [exact hc|]. nra.
Qed.
End Float.

(** ** The numbers of a text *)
Lemma hn_nil : has_numbers "" [].
Proof. exists O. intros [|f] _; reflexivity. Qed.
Lemma hn_word c s l : letter c = true -> has_numbers (skip_word s) l -> has_numbers (String c s) l.
Proof.
  intros h (n & e). exists (S n). intros [|f] hf; [lia|]. cbn [numbers]. rewrite h. apply e. lia.
Qed.
Lemma hn_skip c s l : letter c = false -> read_decimal (String c s) = None -> has_numbers s l -> has_numbers (String c s) l.
Proof.
  intros h h2 (n & e). exists (S n). intros [|f] hf; [lia|]. cbn [numbers]. rewrite h, h2. apply e. lia.
Qed.
Lemma hn_num c t s neg a y l : letter c = false -> read_decimal (String c t) = Some (neg, a, y, s) ->
  has_numbers s l -> has_numbers (String c t) ((neg, a, y) :: l).
Proof.
  intros h h2 (n & e). exists (S n). intros [|f] hf; [lia|]. cbn [numbers]. rewrite h, h2. f_equal. apply e. lia.
Qed.
(** A separator. *)
Definition separator (c : ascii) : bool :=
  negb (letter c || figure c || Ascii.eqb c "." || Ascii.eqb c "+" || Ascii.eqb c "-").
Lemma separator_read c s : separator c = true -> letter c = false /\ read_decimal (String c s) = None /\ ends (String c s).
Proof.
  intros h. destruct c as [[] [] [] [] [] [] [] []]; try discriminate h;
    (split; [reflexivity|]; split; [reflexivity|]; cbn; repeat split; discriminate).
Qed.
Lemma print_first prec emax fm (x : binary_float prec emax) : is_finite x = true ->
  exists c t, print_float prec emax fm x = String c t /\ letter c = false /\ is_space c = false.
Proof.
  intros fx.
  assert (key : forall sg v y, 0 <= v -> exists c t, sign_text fm sg ++ g_text (showpoint fm) (Z.max 1 (precision fm)) v y = String c t /\ letter c = false /\ is_space c = false).
  { intros sg v y hv. destruct (g_text_first (showpoint fm) (Z.max 1 (precision fm)) v y hv) as (c & t & e & h).
    rewrite e. unfold sign_text. destruct sg; [|destruct (showpos fm)]; cbn [append]; eexists _, _; (split; [reflexivity|]); try (split; reflexivity).
    destruct c as [[] [] [] [] [] [] [] []]; try (split; reflexivity); now destruct h. }
  destruct x as [sg|sg| |sg m e hb]; try discriminate; cbn [print_float].
  - apply key. lia.
  - set (n := Zpos m * 2 ^ Z.max 0 e). set (d := 2 ^ Z.max 0 (- e)).
    assert (hd : 0 < d) by (apply Z.pow_pos_nonneg; lia).
    assert (hn : 0 < n) by (assert (0 < 2 ^ Z.max 0 e) by (apply Z.pow_pos_nonneg; lia); lia).
    destruct (round_digits (Z.max 1 (precision fm)) n d) as [v y] eqn:er.
    destruct (round_digits_ok (Z.max 1 (precision fm)) n d v y (Z.le_max_l _ _) hn hd er) as (hv & _).
    apply key. assert (0 < 10 ^ (Z.max 1 (precision fm) - 1)) by (apply ten_pos; lia). lia.
Qed.

Section Shows.
Variables prec emax : Z.
Context (Hp : Prec_gt_0 prec) (He : Prec_lt_emax prec emax).
Notation shows := (shows prec emax Hp He).

Lemma shows_nil p : shows p "" [].
Proof. exists []. split; [apply hn_nil | constructor]. Qed.
Lemma shows_sep p c s l : separator c = true -> shows p s l -> shows p (String c s) l.
Proof.
  intros h (ds & h1 & h2). exists ds. split; [|exact h2]. destruct (separator_read c s h) as (a & b & _).
  now apply hn_skip.
Qed.
Lemma shows_word p c s l : letter c = true -> shows p (skip_word s) l -> shows p (String c s) l.
Proof. intros h (ds & h1 & h2). exists ds. split; [now apply hn_word | exact h2]. Qed.
Lemma shows_num fm (x : binary_float prec emax) s l : is_finite x = true -> ends s ->
  shows (Z.max 1 (precision fm)) s l -> shows (Z.max 1 (precision fm)) (print_float prec emax fm x ++ s) (x :: l).
Proof.
  intros fx hs (ds & h1 & h2).
  destruct (print_read prec emax fm x s fx hs) as (a & y & r1 & r2 & r3 & r4 & r5).
  destruct (print_first prec emax fm x fx) as (c & t & e & hl & _).
  exists ((Bsign x, a, y) :: ds). split.
  - rewrite e in *. cbn [append] in *. eapply hn_num; [exact hl | exact r1 | exact h1].
  - constructor; [|exact h2]. split; [exact r5|]. split.
    + rewrite p10_powerRZ in r4. exact r4.
    + intros hp. cbn [fst snd]. eapply print_read_exact; eassumption.
Qed.
Lemma shows_lit p c t s neg a y (x : binary_float prec emax) l : letter c = false ->
  read_decimal (String c t) = Some (neg, a, y, s) ->
  value_of (neg, a, y) = B2R x -> generic_format r10 (FLX_exp p) (B2R x) ->
  float_of prec emax Hp He neg a y = Some x -> shows p s l ->
  shows p (String c t) (x :: l).
Proof.
  intros hl hr hv hg hf (ds & h1 & h2). exists ((neg, a, y) :: ds). split.
  - eapply hn_num; eassumption.
  - constructor; [|exact h2]. split; [|split; [|intros _; exact hf]].
    { rewrite hv. symmetry. apply round_generic; [apply valid_rnd_N|exact hg]. }
    rewrite hv. rewrite Rminus_diag_eq by reflexivity. rewrite Rabs_R0.
    assert (h : (0 < powerRZ 10 (1 - p))%R) by (rewrite <- p10_powerRZ; apply p10_pos).
    assert (h3 := Rabs_pos (B2R x)). unfold Rdiv. repeat apply Rmult_le_pos; lra.
Qed.
End Shows.

Lemma float_of_SF prec emax Hp He neg a y (x : binary_float prec emax) :
  option_map (@B2SF prec emax) (float_of prec emax Hp He neg a y) = Some (B2SF x) -> float_of prec emax Hp He neg a y = Some x.
Proof.
  destruct (float_of prec emax Hp He neg a y) as [v|]; cbn [option_map]; intros h; [|discriminate].
  injection h as h. f_equal. now apply B2SF_inj.
Qed.
Lemma lit_zero s : ends s -> read_decimal ("0.0" ++ s) = Some (false, 0, -1, s).
Proof.
  intros h. rewrite read_decimal_eq. change (read_sign ("0.0" ++ s)) with (false, "0.0" ++ s). cbv beta iota.
  change "0.0" with (point_text true 1 1 0). rewrite read_point by (first [cbn; lia | now apply ends_weak]).
  destruct s as [|c s]; [reflexivity|]. cbn in h. destruct h as (_ & _ & s1 & s2).
  apply Ascii.eqb_neq in s1, s2. rewrite s1, s2. reflexivity.
Qed.
Lemma lit_one s : ends s -> read_decimal ("1.0" ++ s) = Some (false, 10, -1, s).
Proof.
  intros h. rewrite read_decimal_eq. change (read_sign ("1.0" ++ s)) with (false, "1.0" ++ s). cbv beta iota.
  change "1.0" with (point_text true 1 1 10). rewrite read_point by (first [cbn; lia | now apply ends_weak]).
  destruct s as [|c s]; [reflexivity|]. cbn in h. destruct h as (_ & _ & s1 & s2).
  apply Ascii.eqb_neq in s1, s2. rewrite s1, s2. reflexivity.
Qed.
Lemma shows_0 p s l : ends s -> shows 24 128 _ _ p s l -> shows 24 128 _ _ p (String "0" (String "." (String "0" s))) (f32_ofZ 0 :: l).
Proof.
  intros hs h. eapply shows_lit; [reflexivity | exact (lit_zero s hs) | | | | exact h].
  - cbn. lra.
  - cbn. apply generic_format_0.
  - reflexivity.
Qed.
Lemma f32_one : B2R (f32_ofZ 1) = 1%R.
Proof.
  unfold f32_ofZ. rewrite <- SF2R_B2SF.
  replace (B2SF (binary_normalize 24 128 prec_gt_0_24 prec_lt_emax_24 mode_NE 1 0 false)) with (SpecFloat.S754_finite false 8388608 (-23)) by (vm_compute; reflexivity).
  cbn [SF2R SpecFloat.cond_Zopp]. unfold F2R. cbn [Fnum Fexp bpow]. change (Z.pow_pos radix2 23) with 8388608. field.
Qed.
Lemma shows_1 p s l : 1 <= p -> ends s -> shows 24 128 _ _ p s l -> shows 24 128 _ _ p (String "1" (String "." (String "0" s))) (f32_ofZ 1 :: l).
Proof.
  intros hp hs h. eapply shows_lit; [reflexivity | exact (lit_one s hs) | | | | exact h].
  - unfold value_of. assert (e := f32_one).
    rewrite e. rewrite <- p10_powerRZ. change (-1)%Z with (- (1))%Z. rewrite bpow_opp. cbn [bpow]. change (Z.pow_pos r10 1) with 10. lra.
  - rewrite f32_one. change 1%R with (p10 0). apply generic_format_bpow. unfold FLX_exp. lia.
  - apply float_of_SF. vm_compute. reflexivity.
Qed.

Lemma skip_alnum c s : (letter c || figure c)%bool = true -> skip_word (String c s) = skip_word s.
Proof. intros h. cbn [skip_word]. now rewrite h. Qed.
Lemma skip_stop c s : (letter c || figure c)%bool = false -> skip_word (String c s) = String c s.
Proof. intros h. cbn [skip_word]. now rewrite h. Qed.
Ltac sep_ends := match goal with |- ends (String ?c _) => apply (proj2 (proj2 (separator_read c _ eq_refl))) | |- ends "" => exact Logic.I end.
Ltac show1 :=
  match goal with
  | |- shows _ _ _ _ _ "" [] => apply shows_nil
  | |- shows _ _ _ _ _ (String "0" (String "." (String "0" _))) _ => apply shows_0; [sep_ends|]
  | |- shows _ _ _ _ _ (String "1" (String "." (String "0" _))) _ => apply shows_1; [lia|sep_ends|]
  | |- shows _ _ _ _ _ (print_float _ _ _ _ ++ _) _ => apply shows_num; [assumption | sep_ends |]
  | |- shows _ _ _ _ _ (String ?c _) _ =>
      let b := eval vm_compute in (letter c) in
      match b with
      | true => apply shows_word; [reflexivity | repeat (rewrite skip_alnum by reflexivity); rewrite skip_stop by reflexivity]
      | false => apply shows_sep; [reflexivity|]
      end
  end.

Ltac out_writes :=
  intros st v F; cbv beta delta [c_Pose2D c_Position2D c_Position3D c_Position6D c_PositionAndVelocity c_Rotation c_Rotation3D c_Transform
    c_Velocity6D c_TransformAndVelocity6D c_Quaternion c_Velocity3D c_qiVector3 c_qiQuaternion c_qiTransform] in *;
  cbn [app] in *; unfold finite in F;
  repeat match goal with h : Forall _ (_ :: _) |- _ => inversion h; clear h; subst end;
  eexists; split; [reflexivity|];
  cbn [String.concat map item_text s_format setf append app endl transform_items velocity6d_items];
  rewrite ?app_assoc_s; cbn [append];
  change (precision (s_format st)) with (precision (mkFormat true true (precision (s_format st))));
  repeat show1.

Lemma C58_almath_proof :
  writes 24 128 _ _ out_Pose2D c_Pose2D /\ writes 24 128 _ _ out_Position2D c_Position2D
  /\ writes 24 128 _ _ out_Position3D c_Position3D /\ writes 24 128 _ _ out_Position6D c_Position6D
  /\ writes 24 128 _ _ out_PositionAndVelocity c_PositionAndVelocity /\ writes 24 128 _ _ out_Rotation c_Rotation
  /\ writes 24 128 _ _ out_Rotation3D c_Rotation3D /\ writes 24 128 _ _ out_Transform c_Transform
  /\ writes 24 128 _ _ out_TransformAndVelocity6D c_TransformAndVelocity6D
  /\ writes 24 128 _ _ out_Quaternion c_Quaternion /\ writes 24 128 _ _ out_Velocity3D c_Velocity3D
  /\ writes 24 128 _ _ out_Velocity6D c_Velocity6D.
Proof.
  repeat split; out_writes.
Qed.


Ltac out_writes_qi :=
  intros st v F; cbv beta delta [c_qiVector3 c_qiQuaternion c_qiTransform] in *;
  cbn [app] in *; unfold finite in F;
  repeat match goal with h : Forall _ (_ :: _) |- _ => inversion h; clear h; subst end;
  unfold out_qiTransform, out_qiQuaternion, out_qiVector3, put; cbn [s_text s_format s_left];
  rewrite ?app_assoc_s; eexists; (split; [reflexivity|]);
  cbn [String.concat map item_text s_format append app];
  repeat (first [show1 | rewrite app_assoc_s; cbn [append]]).

Lemma C58_qi_proof :
  writes 53 1024 _ _ out_qiVector3 c_qiVector3 /\ writes 53 1024 _ _ out_qiQuaternion c_qiQuaternion
  /\ writes 53 1024 _ _ out_qiTransform c_qiTransform.
Proof.
  repeat split; out_writes_qi.
Qed.


Lemma numbers_unique s l l' : has_numbers s l -> has_numbers s l' -> l = l'.
Proof.
  intros (n & h) (n' & h'). rewrite <- (h (n + n')%nat), <- (h' (n + n')%nat) by lia. reflexivity.
Qed.
Lemma shows_unique prec emax Hp He p s l l' : 2 ^ prec < 10 ^ (p - 1) ->
  shows prec emax Hp He p s l -> shows prec emax Hp He p s l' -> l = l'.
Proof.
  intros hp (ds & h1 & h2) (ds' & h1' & h2'). assert (ds' = ds) as -> by (eapply numbers_unique; eassumption).
  clear h1 h1'. revert l' h2'. induction h2 as [|d x ds l h hs IH]; intros l' h2'; inversion h2' as [|d' x' ds' l2 h' hs']; subst; [reflexivity|].
  f_equal; [|now apply IH]. assert (e := proj2 (proj2 h) hp). rewrite (proj2 (proj2 h') hp) in e. now injection e.
Qed.
Lemma append_cancel a b c : a ++ b = a ++ c -> b = c.
Proof. induction a as [|x a IH]; cbn [append]; [tauto|]. intros h. injection h as h. now apply IH. Qed.

Ltac laid := intros st [*];
  unfold out_Pose2D, out_Position2D, out_Position3D, out_Position6D, out_PositionAndVelocity, out_Rotation,
    out_Rotation3D, out_Transform, out_TransformAndVelocity6D, out_Quaternion, out_Velocity3D, out_Velocity6D,
    out_qiTransform, out_qiVector3, out_qiQuaternion, transform_items, velocity6d_items, put, setf, endl,
    c_Pose2D, c_Position2D, c_Position3D, c_Position6D, c_PositionAndVelocity, c_Rotation, c_Rotation3D,
    c_Transform, c_TransformAndVelocity6D, c_Quaternion, c_Velocity3D, c_Velocity6D, c_qiTransform, c_qiVector3,
    c_qiQuaternion, c_Transform, c_Velocity6D, sign_and_point;
  cbn [s_text s_format precision firstn tv_T tv_V qt_rotation qt_translation app map fill String.concat item_text append];
  rewrite ?app_assoc_s; cbn [append]; repeat (rewrite ?app_assoc_s; cbn [append]); reflexivity.

Lemma C58_layout_proof :
  laid_out 24 128 sign_and_point out_Pose2D "{x: %, y:%, theta:%}" c_Pose2D
  /\ laid_out 24 128 sign_and_point out_Position2D "{x: %, y:%}" c_Position2D
  /\ laid_out 24 128 sign_and_point out_Position3D "{x: %, y:%, z:%}" c_Position3D
  /\ laid_out 24 128 sign_and_point out_Position6D "{x: %, y: %, z: %, wx: %, wy: %, wz: %}" c_Position6D
  /\ laid_out 24 128 sign_and_point out_PositionAndVelocity "{q: %, dq: %}" c_PositionAndVelocity
  /\ laid_out 24 128 sign_and_point out_Rotation "% % %/% % %/% % %/" c_Rotation
  /\ laid_out 24 128 sign_and_point out_Rotation3D "{wx: % ,wy: % ,wz: %}" c_Rotation3D
  /\ laid_out 24 128 sign_and_point out_Transform "% % % %/% % % %/% % % %/0.0 0.0 0.0 1.0/"
       (fun t => firstn 12 (c_Transform t))
  /\ laid_out 24 128 sign_and_point out_TransformAndVelocity6D
       "% % % %/% % % %/% % % %/0.0 0.0 0.0 1.0/{xd: % ,yd: % ,zd: % ,wxd: % ,wyd: % ,wzd: %}"
       (fun d => firstn 12 (c_Transform (tv_T d)) ++ c_Velocity6D (tv_V d))%list
  /\ laid_out 24 128 sign_and_point out_Velocity6D "{xd: % ,yd: % ,zd: % ,wxd: % ,wyd: % ,wzd: %}" c_Velocity6D
  /\ laid_out 24 128 sign_and_point out_Quaternion "{w: %, x:%, y:%, z:%}" c_Quaternion
  /\ laid_out 24 128 sign_and_point out_Velocity3D "{xd: %, yd:%, zd:%}" c_Velocity3D
  /\ laid_out 53 1024 (fun fm => fm) out_qiVector3 "Vector3(%, %, %)" c_qiVector3
  /\ laid_out 53 1024 (fun fm => fm) out_qiQuaternion "Quaternion(%, %, %, %)" c_qiQuaternion
  /\ laid_out 53 1024 (fun fm => fm) out_qiTransform "Transform(Quaternion(%, %, %, %), Vector3(%, %, %))" c_qiTransform.
Proof.
  unfold laid_out; repeat split; laid.
Qed.



Lemma C58_distinct_proof : forall prec emax Hp He A (out : stream -> A -> stream) coords st x y,
  writes prec emax Hp He out coords -> 2 ^ prec < 10 ^ (precision (s_format st) - 1) ->
  Forall (finite prec emax) (coords x) -> Forall (finite prec emax) (coords y) ->
  s_text (out st x) = s_text (out st y) -> coords x = coords y.
Proof.
  intros prec emax Hp He A out coords st x y W hp fx fy e. destruct (W st x fx) as (t & ht & sx). destruct (W st y fy) as (t' & ht' & sy).
  rewrite ht, ht' in e. apply append_cancel in e. subst t'.
  assert (hm : Z.max 1 (precision (s_format st)) = precision (s_format st)).
  { apply Z.max_r. destruct (Z.le_gt_cases 1 (precision (s_format st))) as [h|h]; [exact h|].
    rewrite (Z.pow_neg_r 10) in hp by lia. assert (0 <= 2 ^ prec) by (apply Z.pow_nonneg; lia). lia. }
  rewrite hm in *. eapply shows_unique; eassumption.
Qed.


Lemma C58_special_proof : forall prec emax (Hp : Prec_gt_0 prec) (He : Prec_lt_emax prec emax) fm,
  (forall neg, print_float prec emax fm (B754_infinity neg) = (if neg then "-inf" else if showpos fm then "+inf" else "inf")) /\
  print_float prec emax fm B754_nan = (if showpos fm then "+nan" else "nan") /\
  (forall x : binary_float prec emax, (exists d, read_decimal (print_float prec emax fm x) = Some d) <-> is_finite x = true) /\
  (forall x y : binary_float prec emax, 2 ^ prec < 10 ^ (precision fm - 1) -> print_float prec emax fm x = print_float prec emax fm y -> x = y).
Proof.
  intros prec emax Hp He fm.
  assert (i1 : forall neg, print_float prec emax fm (B754_infinity neg) = (if neg then "-inf" else if showpos fm then "+inf" else "inf")).
  { intros [|]; cbn [print_float]; unfold sign_text; [reflexivity|]. now destruct (showpos fm). }
  assert (i2 : print_float prec emax fm B754_nan = (if showpos fm then "+nan" else "nan")).
  { cbn [print_float]. unfold sign_text. now destruct (showpos fm). }
  assert (i3 : forall x : binary_float prec emax, (exists d, read_decimal (print_float prec emax fm x) = Some d) <-> is_finite x = true).
  { intros x. split.
    - intros (d & h). destruct x as [s|s| |s m e hb]; try reflexivity; exfalso.
      + rewrite i1 in h. destruct s; [|destruct (showpos fm)]; discriminate h.
      + rewrite i2 in h. destruct (showpos fm); discriminate h.
    - intros fx. destruct (print_read prec emax fm x "" fx Logic.I) as (a & y & h & _).
      assert (e : forall s : string, s ++ "" = s) by (clear; induction s as [|c s IH]; cbn [append]; congruence).
      rewrite e in h. eexists. exact h. }
  split; [exact i1|]. split; [exact i2|]. split; [exact i3|]. intros x y hp e.
  destruct (is_finite x) eqn:fx; destruct (is_finite y) eqn:fy.
  - assert (hm : Z.max 1 (precision fm) = precision fm).
    { apply Z.max_r. destruct (Z.le_gt_cases 1 (precision fm)) as [h|h]; [exact h|].
      rewrite (Z.pow_neg_r 10) in hp by lia. assert (0 <= 2 ^ prec) by (apply Z.pow_nonneg; lia). lia. }
    assert (sx := shows_num prec emax Hp He fm x "" [] fx Logic.I (shows_nil prec emax Hp He _)).
    assert (sy := shows_num prec emax Hp He fm y "" [] fy Logic.I (shows_nil prec emax Hp He _)).
    rewrite e in sx. rewrite hm in sx, sy. assert (u : [x] = [y]) by (eapply shows_unique; eassumption). now injection u.
  - exfalso. apply i3 in fx. rewrite e in fx. apply i3 in fx. congruence.
  - exfalso. apply i3 in fy. rewrite <- e in fy. apply i3 in fy. congruence.
  - destruct x as [s|s| |s m ee hb]; try discriminate; destruct y as [s'|s'| |s' m' ee' hb']; try discriminate.
    + rewrite !i1 in e. destruct s, s', (showpos fm); try discriminate; reflexivity.
    + rewrite i1, i2 in e. destruct s, (showpos fm); discriminate.
    + rewrite i1, i2 in e. destruct s', (showpos fm); discriminate.
    + reflexivity.
Qed.




Lemma C58_toSpaceSeparated_proof :
  (forall v, Forall (finite 24 128) (c_Velocity6D v) -> shows 24 128 _ _ 6 (toSpaceSeparated out_Velocity6D v) (c_Velocity6D v))
  /\ (forall t, Forall (finite 24 128) (c_Transform t) -> shows 24 128 _ _ 6 (toSpaceSeparated out_Transform t) (c_Transform t))
  /\ (forall p, Forall (finite 24 128) (c_Position3D p) -> shows 24 128 _ _ 6 (toSpaceSeparated out_Position3D p) (c_Position3D p))
  /\ (forall p, Forall (finite 24 128) (c_Rotation3D p) -> shows 24 128 _ _ 6 (toSpaceSeparated out_Rotation3D p) (c_Rotation3D p))
  /\ (forall p, Forall (finite 24 128) (c_Position6D p) -> shows 24 128 _ _ 6 (toSpaceSeparated out_Position6D p) (c_Position6D p))
  /\ (forall q, Forall (finite 24 128) (c_Quaternion q) -> shows 24 128 _ _ 6 (toSpaceSeparated out_Quaternion q) (c_Quaternion q)).
Proof.
  assert (key : forall A (out : stream -> A -> stream) coords, writes 24 128 _ _ out coords ->
    forall x, Forall (finite 24 128) (coords x) -> shows 24 128 _ _ 6 (toSpaceSeparated out x) (coords x)).
  { intros A out coords W x F. destruct (W new_stream x F) as (t & e & h). unfold toSpaceSeparated. rewrite e. exact h. }
  destruct C58_almath_proof as (h1 & h2 & h3 & h4 & h5 & h6 & h7 & h8 & h9 & h10 & h11 & h12).
  repeat split; apply key; assumption.
Qed.


Lemma C58_flags_proof : forall st,
  let kept st' := s_format st' = s_format st /\ s_left st' = s_left st in
  let set_ st' := s_format st' = mkFormat true true (precision (s_format st)) /\ s_left st' = true in
  (forall x, kept (out_qiVector3 st x)) /\ (forall x, kept (out_qiQuaternion st x)) /\ (forall x, kept (out_qiTransform st x))
  /\ (forall x, set_ (out_Pose2D st x)) /\ (forall x, set_ (out_Position2D st x)) /\ (forall x, set_ (out_Position3D st x))
  /\ (forall x, set_ (out_Position6D st x)) /\ (forall x, set_ (out_PositionAndVelocity st x)) /\ (forall x, set_ (out_Rotation st x))
  /\ (forall x, set_ (out_Rotation3D st x)) /\ (forall x, set_ (out_Transform st x)) /\ (forall x, set_ (out_TransformAndVelocity6D st x))
  /\ (forall x, set_ (out_Quaternion st x)) /\ (forall x, set_ (out_Velocity3D st x)) /\ (forall x, set_ (out_Velocity6D st x)).
Proof.
  intros st. cbv zeta. repeat split.
Qed.


Lemma C58_flags_refuted_proof : exists st p,
  s_text (put st [Flt (f32_ofZ 1)]) = s_text st ++ "1"
  /\ s_text (put (out_Position2D st p) [Flt (f32_ofZ 1)]) = s_text (out_Position2D st p) ++ "+1.00000".
Proof.
  exists new_stream, (mkPosition2D (f32_ofZ 0) (f32_ofZ 0)). split; vm_compute; reflexivity.
Qed.


Lemma C58_precision_refuted_proof : exists x y : Position2D f32,
  Forall (finite 24 128) (c_Position2D x) /\ Forall (finite 24 128) (c_Position2D y) /\ x <> y
  /\ s_text (out_Position2D new_stream x) = s_text (out_Position2D new_stream y).
Proof.
  exists (mkPosition2D (f32_ofZ 1) (f32_ofZ 10000000)), (mkPosition2D (f32_ofZ 1) (f32_ofZ 10000001)).
  split; [repeat constructor|]. split; [repeat constructor|]. split; [|vm_compute; reflexivity].
  intros h. assert (e : B2SF (f32_ofZ 10000000) = B2SF (f32_ofZ 10000001)) by congruence.
  revert e. vm_compute. discriminate.
Qed.



(** ** Numbers in documents *)
Lemma is_space_iff c : is_space c = true <-> space c.
Proof.
  assert (e : is_space c = existsb (Nat.eqb (nat_of_ascii c)) [9; 10; 11; 12; 13; 32]%nat)
    by (destruct c as [[] [] [] [] [] [] [] []]; reflexivity).
  rewrite e, existsb_exists. unfold space. split.
  - intros (x & h & hx). apply Nat.eqb_eq in hx. now subst x.
  - intros h. exists (nat_of_ascii c). split; [exact h|apply Nat.eqb_refl].
Qed.

Lemma all_app (P : ascii -> Prop) a b : all_chars P (a ++ b) <-> all_chars P a /\ all_chars P b.
Proof. induction a as [|c a IH]; cbn [append all_chars]; [tauto|]. rewrite IH. tauto. Qed.
Lemma not_space c : ~ space c <-> is_space c = false.
Proof. rewrite <- is_space_iff. destruct (is_space c); split; congruence. Qed.

Lemma loop_spaces a s : all_chars space a -> tokens_loop (a ++ s) "" = tokens_loop s "".
Proof.
  induction a as [|c a IH]; cbn [append all_chars]; [reflexivity|]. intros (h & hs). cbn [tokens_loop].
  rewrite (proj2 (is_space_iff c) h). cbn [String.eqb]. now apply IH.
Qed.
Lemma loop_word w s cur : all_chars (fun c => ~ space c) w -> tokens_loop (w ++ s) cur = tokens_loop s (cur ++ w).
Proof.
  revert cur. induction w as [|c w IH]; intros cur; cbn [append all_chars].
  - intros _. f_equal. induction cur as [|x cur IH]; cbn [append]; congruence.
  - intros (h & hs). cbn [tokens_loop]. rewrite (proj1 (not_space c) h), IH by exact hs. now rewrite app_assoc_s.
Qed.
Lemma words_space c s l : space c -> words s l -> words (String c s) l.
Proof.
  intros hc h. destruct h as [s h|a w h1 h2 h3|a w d s l h1 h2 h3 h4 h5].
  - apply words_none. split; assumption.
  - change (String c (a ++ w)) with (String c a ++ w). apply words_one; [split; assumption|assumption|assumption].
  - change (String c (a ++ w ++ String d s)) with (String c a ++ w ++ String d s). apply words_more; [split; assumption|assumption..].
Qed.
Lemma words_loop s : forall cur, all_chars (fun c => ~ space c) cur -> words (cur ++ s) (tokens_loop s cur).
Proof.
  induction s as [|c s IH]; intros cur hc; cbn [tokens_loop].
  - destruct cur as [|x cur]; cbn [String.eqb].
    + apply words_none. exact Logic.I.
    + replace (String x cur ++ "") with ("" ++ String x cur).
      * apply words_one; [exact Logic.I|discriminate|exact hc].
      * cbn [append]. f_equal. clear. induction cur as [|y cur IH]; cbn [append]; congruence.
  - destruct (is_space c) eqn:e.
    + apply is_space_iff in e. destruct cur as [|x cur]; cbn [String.eqb].
      * cbn [append]. apply words_space; [exact e|]. exact (IH "" Logic.I).
      * change (String x cur ++ String c s) with ("" ++ String x cur ++ String c s).
        apply words_more; [exact Logic.I|discriminate|exact hc|exact e|]. exact (IH "" Logic.I).
    + apply not_space in e. replace (cur ++ String c s) with ((cur ++ String c "") ++ s) by now rewrite app_assoc_s.
      apply IH. apply all_app. split; [exact hc|split; [exact e|exact Logic.I]].
Qed.
Lemma words_tokens s l : words s l <-> tokens s = l.
Proof.
  split.
  - unfold tokens. induction 1 as [s h|a w h1 h2 h3|a w c s l h1 h2 h3 h4 h5 IH].
    + replace s with (s ++ ""); [now rewrite loop_spaces|]. clear. induction s as [|y cur IH]; cbn [append]; congruence.
    + rewrite loop_spaces by exact h1. replace w with (w ++ "") at 1; [|clear; induction w as [|y cur IH]; cbn [append]; congruence].
      rewrite loop_word by exact h3. cbn [append tokens_loop]. destruct w; [congruence|]. reflexivity.
    + rewrite loop_spaces by exact h1. rewrite loop_word by exact h3. cbn [append tokens_loop].
      rewrite (proj2 (is_space_iff c) h4). destruct w; [congruence|]. cbn [String.eqb]. now rewrite IH.
  - intros <-. exact (words_loop s "" Logic.I).
Qed.

(** The texts of numbers have no white space. *)
Lemma dec_plain n v : all_chars (fun c => ~ space c) (dec_string n v).
Proof.
  revert v. induction n as [|n IH]; intros v; cbn [dec_string]; [exact Logic.I|].
  apply all_app. split; [apply IH|]. split; [|exact Logic.I]. unfold space, digit_char.
  assert (h := Z.mod_pos_bound v 10 eq_refl). rewrite nat_ascii_embedding by lia.
  cbn [In]. lia.
Qed.
Ltac plain := repeat (first [exact Logic.I | apply dec_plain | apply all_app; split | split; [apply not_space; reflexivity|]]).
Lemma point_plain b i f v : all_chars (fun c => ~ space c) (point_text b i f v).
Proof. unfold point_text. apply all_app. split; [apply dec_plain|]. destruct ((f =? 0)%nat && negb b)%bool; plain. Qed.
Lemma g_plain b p v x : all_chars (fun c => ~ space c) (g_text b p v x).
Proof.
  unfold g_text. destruct ((-4 <=? x) && (x <? p))%bool.
  - destruct (strip_unless _ _ _). apply point_plain.
  - destruct (strip_unless _ _ _). apply all_app. split; [apply point_plain|]. unfold exponent_text. destruct (x <? 0); plain.
Qed.
Lemma print_plain prec emax fm x : all_chars (fun c => ~ space c) (print_float prec emax fm x).
Proof.
  assert (hs : forall b, all_chars (fun c => ~ space c) (sign_text fm b)).
  { intros b. unfold sign_text. destruct b; [plain|]. destruct (showpos fm); plain. }
  destruct x as [b|b| |b m e hb]; cbn [print_float].
  4: destruct (round_digits _ _ _).
  all: apply all_app; split; [apply hs|]; first [apply g_plain|plain].
Qed.

Lemma put_get prec emax Hp He p (x : binary_float prec emax) : is_finite x = true -> 2 ^ prec < 10 ^ (p - 1) ->
  get_value prec emax Hp He (put_value prec emax p x) = Some x.
Proof.
  intros fx hp. unfold get_value, put_value, read_float.
  set (fm := mkFormat false false p).
  assert (hm : Z.max 1 p = p).
  { apply Z.max_r. destruct (Z.le_gt_cases 1 p) as [h|h]; [exact h|].
    rewrite (Z.pow_neg_r 10) in hp by lia. assert (0 <= 2 ^ prec) by (apply Z.pow_nonneg; lia). lia. }
  assert (hd : drop_spaces (print_float prec emax fm x) = print_float prec emax fm x).
  { destruct (print_first prec emax fm x fx) as (c & t & -> & _ & h). cbn [drop_spaces]. now rewrite h. }
  rewrite hd. destruct (print_read prec emax fm x "") as (a & y & h1 & h2 & h3 & h4 & _); [exact fx|exact Logic.I|].
  assert (e : print_float prec emax fm x ++ "" = print_float prec emax fm x).
  { clear. induction (print_float prec emax fm x) as [|c s IH]; cbn [append]; congruence. }
  rewrite e in h1. rewrite h1. rewrite (print_read_exact prec emax Hp He x a y p fx h2 h3); [reflexivity| |exact hp].
  cbn [precision fm] in h4. rewrite hm in h4. exact h4.
Qed.

Lemma C59_double_proof : forall x, finite 53 1024 x -> get_double (put_double x) = Some x.
Proof.
  intros x h. apply put_get; [exact h|reflexivity].
Qed.


Lemma C59_not_finite_proof : forall x, ~ finite 53 1024 x -> get_double (put_double x) = None.
Proof.
  intros x h. destruct x as [b|b| |b m e hb]; try (exfalso; apply h; reflexivity); [destruct b|]; reflexivity.
Qed.


Lemma C59_float_proof : forall x, finite 24 128 x -> get_value 24 128 _ _ (put_value 24 128 9 x) = Some x.
Proof.
  intros x h. apply put_get; [exact h|reflexivity].
Qed.


Lemma C59_float_refuted_proof : exists x, finite 24 128 x /\ get_value 24 128 _ _ (put_value 24 128 8 x) <> Some x.
Proof.
  exists (f32_frac 16384001 16384). split; [reflexivity|].
  intros h. apply (f_equal (option_map (@B2SF 24 128))) in h. revert h. vm_compute. discriminate.
Qed.


(** ** Numerals *)
Lemma digit_of_figure c : digit_of c = if figure c then Some (Z.of_nat (nat_of_ascii c) - 48) else None.
Proof. reflexivity. Qed.
Lemma read_digits_run ds : forall s acc k, digits ds -> match s with "" => True | String c _ => figure c = false end ->
  read_digits (ds ++ s) acc k = (digits_value acc ds, k + Z.of_nat (String.length ds), s).
Proof.
  induction ds as [|c ds IH]; intros s acc k h hs.
  - cbn [append String.length digits_value]. rewrite read_digits_stop; [now rewrite Z.add_0_r|].
    destruct s; [exact Logic.I|]. rewrite digit_of_figure, hs. reflexivity.
  - destruct h as [h1 h2]. cbn [append read_digits]. rewrite digit_of_figure, h1. rewrite IH by assumption.
    cbn [digits_value String.length]. rewrite Nat2Z.inj_succ. f_equal. f_equal. lia.
Qed.
Lemma read_digits_split s : forall acc k, exists ds r, s = ds ++ r /\ digits ds /\
  match r with "" => True | String c _ => figure c = false end /\
  read_digits s acc k = (digits_value acc ds, k + Z.of_nat (String.length ds), r).
Proof.
  induction s as [|c s IH]; intros acc k.
  - exists "", "". repeat split. cbn. now rewrite Z.add_0_r.
  - destruct (figure c) eqn:h.
    + destruct (IH (10 * acc + (Z.of_nat (nat_of_ascii c) - 48)) (k + 1)) as (ds & r & e & hd & hr & e2).
      exists (String c ds), r. split; [now rewrite e|]. split; [split; assumption|]. split; [exact hr|].
      cbn [read_digits]. rewrite digit_of_figure, h, e2. cbn [digits_value String.length]. rewrite Nat2Z.inj_succ. f_equal. f_equal. lia.
    + exists "", (String c s). split; [reflexivity|]. split; [exact Logic.I|]. split; [exact h|].
      cbn [read_digits]. rewrite digit_of_figure, h. cbn. now rewrite Z.add_0_r.
Qed.
Lemma read_sign_split s : exists sg, s = sg ++ snd (read_sign s) /\ sign_text_of sg (fst (read_sign s)).
Proof.
  destruct s as [|c s]; [exists ""; split; [reflexivity|right; auto]|].
  destruct c as [[] [] [] [] [] [] [] []]; cbn [read_sign fst snd];
    try (exists ""; split; [reflexivity|right; auto]; fail).
  - exists "+". split; [reflexivity|right; auto].
  - exists "-". split; [reflexivity|left; auto].
Qed.
Definition unsigned (s : string) : Prop := match s with String c _ => c <> "+"%char /\ c <> "-"%char | "" => True end.
Lemma read_sign_run sg neg s : sign_text_of sg neg -> unsigned s -> read_sign (sg ++ s) = (neg, s).
Proof.
  intros [[-> ->]|[[->| ->] ->]] h; cbn [append]; try reflexivity.
  destruct s as [|c s]; [reflexivity|]. destruct h as [h1 h2].
  destruct c as [[] [] [] [] [] [] [] []]; try reflexivity; exfalso; auto.
Qed.
Lemma figure_unsigned c s : figure c = true -> unsigned (String c s).
Proof. intros h. destruct c as [[] [] [] [] [] [] [] []]; try discriminate h; split; discriminate. Qed.
Lemma length_zero s : Z.of_nat (String.length s) = 0 -> s = "".
Proof. destruct s; [reflexivity|]. cbn [String.length]. lia. Qed.
Lemma append_nil s : s ++ "" = s.
Proof. induction s as [|c s IH]; cbn; congruence. Qed.

Lemma read_decimal_numeral s neg a x r : read_decimal s = Some (neg, a, x, r) ->
  exists n, s = n ++ r /\ numeral n (neg, a, x).
Proof.
  rewrite read_decimal_eq. destruct (read_sign_split s) as (sg & es & hsg).
  destruct (read_sign s) as [ng s1] eqn:E. cbn [fst snd] in *. unfold read_mantissa.
  destruct (read_digits_split s1 0 0) as (di & s2 & e1 & hi & hr & ->).
  assert (D : exists p df s3, s2 = p ++ df ++ s3 /\ digits df /\ (p = "." \/ p = "" /\ df = "") /\
    match s2 with String "."%char s' => read_digits s' (digits_value 0 di) 0 | _ => (digits_value 0 di, 0, s2) end
    = (digits_value (digits_value 0 di) df, Z.of_nat (String.length df), s3)).
  { assert (K : (exists s', s2 = String "." s') \/
      match s2 with String "."%char s' => read_digits s' (digits_value 0 di) 0 | _ => (digits_value 0 di, 0, s2) end = (digits_value 0 di, 0, s2)).
    { destruct s2 as [|c s2]; [right; reflexivity|]. destruct c as [[] [] [] [] [] [] [] []]; try (right; reflexivity). left. eauto. }
    destruct K as [(s' & ->)| ->].
    - destruct (read_digits_split s' (digits_value 0 di) 0) as (df & s3 & e2 & hf & hr3 & ->).
      exists ".", df, s3. split; [now rewrite e2|]. split; [exact hf|]. split; [auto|]. reflexivity.
    - exists "", "", s2. split; [reflexivity|]. split; [exact Logic.I|]. split; [auto|]. reflexivity. }
  destruct D as (p & df & s3 & e2 & hf & hp & ->).
  destruct (Z.eqb_spec (0 + Z.of_nat (String.length di) + Z.of_nat (String.length df)) 0) as [z|z]; [discriminate|].
  assert (ne : di <> "" \/ df <> "").
  { destruct di; [right; intros ->; apply z; reflexivity|left; discriminate]. }
  assert (fin : forall e k r', s3 = e ++ r' -> exponent_of e k ->
    exists n, s = n ++ r' /\ numeral n (ng, digits_value (digits_value 0 di) df, k - Z.of_nat (String.length df))).
  { intros e k r' h he. exists (sg ++ di ++ p ++ df ++ e). split.
    - rewrite es, e1, e2, h. rewrite !app_assoc_s. reflexivity.
    - exists sg, di, p, df, e, ng, k. repeat (split; [assumption || reflexivity|]). reflexivity. }
  destruct s3 as [|c s4].
  - intros h. injection h as <- <- <- <-. destruct (fin "" 0 "" eq_refl) as (n & h1 & h2); [left; auto|].
    exists n. split; [exact h1|]. exact h2.
  - destruct (Ascii.eqb c "e" || Ascii.eqb c "E")%bool eqn:ce.
    + destruct (read_sign_split s4) as (sx & e4 & hsx). destruct (read_sign s4) as [xn s5] eqn:E5. cbn [fst snd] in *.
      destruct (read_digits_split s5 0 0) as (dx & s6 & e6 & hx & _ & ->).
      destruct (Z.eqb_spec (0 + Z.of_nat (String.length dx)) 0) as [z2|z2]; [discriminate|].
      intros h. injection h as <- <- <- <-.
      apply (fin (String c (sx ++ dx)) (if xn then - digits_value 0 dx else digits_value 0 dx)).
      * cbn [append]. rewrite e4, e6, !app_assoc_s. reflexivity.
      * right. exists c, sx, xn, dx. split; [reflexivity|]. split.
        { apply Bool.orb_true_iff in ce. destruct ce as [ce|ce]; apply Ascii.eqb_eq in ce; auto. }
        split; [exact hsx|]. split; [exact hx|]. split; [intros ->; apply z2; reflexivity|reflexivity].
    + intros h. injection h as <- <- <- <-. destruct (fin "" 0 (String c s4) eq_refl) as (n & h1 & h2); [left; auto|].
      exists n. split; [exact h1|]. exact h2.
Qed.

Lemma numeral_read_decimal n neg a x r : numeral n (neg, a, x) -> ends r ->
  read_decimal (n ++ r) = Some (neg, a, x, r).
Proof.
  intros (sg & i & p & f & e & ng & k & -> & hsg & hi & hf & hp & ne & he & E) hr. injection E as -> -> ->.
  assert (hr1 : match r with "" => True | String c _ => figure c = false end).
  { destruct r as [|c r]; [exact Logic.I|]. destruct hr as (h & _). rewrite digit_of_figure in h. destruct (figure c); [discriminate|reflexivity]. }
  assert (her : match e ++ r with "" => True | String c _ => figure c = false /\ c <> "."%char end).
  { destruct he as [[-> _]|(c & sx & xn & ds & -> & hc & _)].
    - destruct r as [|c r]; [exact Logic.I|]. split; [exact hr1|apply hr].
    - cbn [append]. destruct hc as [-> | ->]; split; try reflexivity; discriminate. }
  assert (her1 : match e ++ r with "" => True | String c _ => figure c = false end) by (destruct (e ++ r); tauto).
  assert (US : unsigned (i ++ p ++ f ++ e ++ r)).
  { destruct i as [|c i]; [|apply figure_unsigned, hi].
    destruct ne as [ne|ne]; [now destruct ne|]. destruct hp as [-> |[_ ->]]; [split; discriminate|now destruct ne]. }
  rewrite read_decimal_eq, !app_assoc_s. rewrite (read_sign_run sg ng) by assumption.
  unfold read_mantissa. rewrite read_digits_run; [|exact hi|destruct hp as [-> |[-> ->]]; [reflexivity|exact her1]].
  assert (M : match p ++ f ++ e ++ r with String "."%char s' => read_digits s' (digits_value 0 i) 0 | _ => (digits_value 0 i, 0, p ++ f ++ e ++ r) end
    = (digits_value (digits_value 0 i) f, Z.of_nat (String.length f), e ++ r)).
  { destruct hp as [-> |[-> ->]].
    - cbn [append]. now rewrite read_digits_run.
    - cbn [append digits_value String.length]. destruct (e ++ r) as [|c t]; [reflexivity|]. destruct her as [_ her].
      destruct c as [[] [] [] [] [] [] [] []]; try reflexivity. now destruct her. }
  rewrite M.
  destruct (Z.eqb_spec (0 + Z.of_nat (String.length i) + Z.of_nat (String.length f)) 0) as [z|z].
  { exfalso. destruct ne as [ne|ne]; apply ne, length_zero; lia. }
  destruct he as [[-> ->]|(c & sx & xn & ds & -> & hc & hsx & hds & nds & ->)].
  - cbn [append]. destruct r as [|c r]; [reflexivity|]. destruct hr as (_ & _ & c1 & c2).
    destruct (Ascii.eqb_spec c "e") as [q|q]; [contradiction|]. destruct (Ascii.eqb_spec c "E") as [q2|q2]; [contradiction|]. reflexivity.
  - cbn [append]. replace (Ascii.eqb c "e" || Ascii.eqb c "E")%bool with true by (destruct hc as [-> | ->]; reflexivity).
    rewrite app_assoc_s. rewrite (read_sign_run sx xn); [|exact hsx|destruct ds; [now destruct nds|apply figure_unsigned, hds]].
    rewrite read_digits_run by assumption.
    destruct (Z.eqb_spec (0 + Z.of_nat (String.length ds)) 0) as [z2|z2]; [exfalso; apply nds, length_zero; lia|reflexivity].
Qed.

Lemma space_is c : space c <-> is_space c = true.
Proof.
  unfold space. destruct c as [[] [] [] [] [] [] [] []]; cbn; split; intros h; try discriminate; try reflexivity; try tauto;
    repeat (destruct h as [h|h]; try discriminate h); try contradiction.
Qed.
Lemma drop_spaces_split s : exists a, s = a ++ drop_spaces s /\ all_chars space a.
Proof.
  induction s as [|c s (a & e & h)]; [exists ""; split; [reflexivity|exact Logic.I]|].
  cbn [drop_spaces]. destruct (is_space c) eqn:E.
  - exists (String c a). split; [cbn [append]; now rewrite <- e|]. split; [now apply space_is|exact h].
  - exists "". split; [reflexivity|exact Logic.I].
Qed.
Lemma drop_spaces_run a s : all_chars space a -> drop_spaces (a ++ s) = drop_spaces s.
Proof. induction a as [|c a IH]; [reflexivity|]. intros [h1 h2]. cbn [append drop_spaces]. apply space_is in h1. rewrite h1. auto. Qed.
Lemma numeral_first n d s : numeral n d -> drop_spaces (n ++ s) = n ++ s.
Proof.
  intros (sg & i & p & f & e & ng & k & -> & hsg & hi & hf & hp & ne & he & E). clear E he.
  destruct hsg as [[-> _]|[[->| ->] _]]; try reflexivity. cbn [append].
  assert (F : forall c t, figure c = true -> drop_spaces (String c t) = String c t).
  { intros c t h. cbn [drop_spaces]. destruct c as [[] [] [] [] [] [] [] []]; try discriminate h; reflexivity. }
  destruct i as [|c i]; [|cbn [append]; apply F, hi]. destruct hp as [-> |[_ ->]]; [reflexivity|]. destruct ne as [ne|ne]; now destruct ne.
Qed.
Lemma space_ends s : all_chars space s -> ends s.
Proof.
  destruct s as [|c s]; [auto|]. intros [h _]. apply space_is in h.
  destruct c as [[] [] [] [] [] [] [] []]; try discriminate h; cbn; repeat split; discriminate.
Qed.

Lemma nearest_some prec emax Hp He (neg : bool) n d (x : binary_float prec emax) :
  nearest prec emax Hp He neg n d = Some x ->
  is_finite x = true /\ Bsign x = neg /\
  B2R x = round radix2 (SpecFloat.fexp prec emax) ZnearestE ((if neg then -1 else 1) * (IZR (Zpos n) / IZR (Zpos d))).
Proof.
  unfold nearest.
  set (B := Bdiv_correct_aux prec emax Hp He mode_NE neg n 0 false d 0). cbv zeta in B.
  revert B. set (z := let '(mz, ez, lz) := SpecFloat.SFdiv_core_binary prec emax (Z.pos n) 0 (Z.pos d) 0 in
                      binary_round_aux prec emax mode_NE (xorb neg false) mz ez lz). intros B.
  assert (C := proj2 B). generalize (proj1 B). clear B. intros V.
  assert (hv : (F2R (Float radix2 (SpecFloat.cond_Zopp neg (Z.pos n)) 0) / F2R (Float radix2 (SpecFloat.cond_Zopp false (Z.pos d)) 0)
                = (if neg then -1 else 1) * (IZR (Zpos n) / IZR (Zpos d)))%R).
  { unfold F2R. cbn [Fnum Fexp bpow SpecFloat.cond_Zopp]. assert (IZR (Zpos d) <> 0)%R by (apply not_0_IZR; lia).
    destruct neg; cbn [SpecFloat.cond_Zopp]; [rewrite opp_IZR|]; field; assumption. }
  rewrite hv in C. change (round_mode mode_NE) with ZnearestE in C.
  destruct (is_finite (SF2B z V)) eqn:fz; [|discriminate]. intros h. injection h as <-. split; [exact fz|].
  rewrite is_finite_SF2B in fz. rewrite xorb_false_r in C.
  destruct (Rlt_bool _ _).
  - destruct C as (c1 & c2 & c3). rewrite B2R_SF2B, Bsign_SF2B. auto.
  - rewrite C in fz. discriminate.
Qed.

Lemma float_of_iff prec emax Hp He neg a x (v : binary_float prec emax) : 0 <= a ->
  float_of prec emax Hp He neg a x = Some v <->
  is_finite v = true /\ Bsign v = neg /\ B2R v = round radix2 (SpecFloat.fexp prec emax) ZnearestE (value_of (neg, a, x)).
Proof.
  intros ha. unfold float_of.
  destruct (Z.eq_dec a 0) as [e|e].
  - subst a. cbn [Z.mul]. unfold value_of. rewrite Rmult_0_r, Rmult_0_l, round_0 by apply valid_rnd_N. split.
    + intros h. injection h as <-. auto.
    + intros (h1 & h2 & h3). f_equal. apply B2R_Bsign_inj; auto.
  - assert (hn := ten_max x). destruct (a * 10 ^ Z.max 0 x) as [|n|n] eqn:en; [nia| |nia].
    assert (V : (IZR (Zpos n) / IZR (Zpos (Z.to_pos (10 ^ Z.max 0 (- x)))) = IZR a * p10 x)%R).
    { rewrite Z2Pos.id by apply ten_max. rewrite <- en, mult_IZR, p10_split.
      assert (hd : (0 < IZR (10 ^ Z.max 0 (- x)))%R) by (apply IZR_lt, ten_max). field. lra. }
    unfold value_of. rewrite <- p10_powerRZ, Rmult_assoc, <- V. split.
    + apply nearest_some.
    + intros (h1 & h2 & h3). apply nearest_ok; auto.
Qed.

Lemma digits_value_pos s : forall acc, 0 <= acc -> digits s -> 0 <= digits_value acc s.
Proof.
  induction s as [|c s IH]; intros acc h hs; [exact h|]. destruct hs as [h1 h2]. cbn [digits_value]. apply IH; [|exact h2].
  unfold figure in h1. apply andb_prop in h1. destruct h1 as [h1 _]. apply Nat.leb_le in h1. lia.
Qed.

Lemma C59_read_proof : forall prec emax Hp He s (v : binary_float prec emax),
  get_value prec emax Hp He s = Some v <->
  exists a n b d, s = a ++ n ++ b /\ all_chars space a /\ all_chars space b /\ numeral n d
    /\ finite prec emax v /\ Bsign v = fst (fst d)
    /\ B2R v = round radix2 (SpecFloat.fexp prec emax) ZnearestE (value_of d).
Proof.
  intros prec emax Hp He s v. unfold get_value, read_float. split.
  - intros h. destruct (drop_spaces_split s) as (a & es & ha).
    destruct (read_decimal (drop_spaces s)) as [[[[neg c] x] r]|] eqn:E; [|discriminate].
    destruct (read_decimal_numeral _ _ _ _ _ E) as (n & en & hn).
    destruct (float_of prec emax Hp He neg c x) as [w|] eqn:F; [|discriminate]. cbn [option_map] in h.
    destruct (drop_spaces_split r) as (b & er & hb).
    destruct (String.eqb_spec (drop_spaces r) "") as [q|q]; [|discriminate]. injection h as <-.
    rewrite q, append_nil in er. subst r.
    exists a, n, b, (neg, c, x). rewrite <- en. split; [exact es|]. split; [exact ha|]. split; [exact hb|]. split; [exact hn|].
    apply float_of_iff in F; [exact F|].
    destruct hn as (sg & i & p & f & e & ng & k & _ & _ & hi & hf & _ & _ & _ & hd). injection hd as _ -> _.
    apply digits_value_pos; [apply digits_value_pos; [lia|exact hi]|exact hf].
  - intros (a & n & b & [[neg c] x] & -> & ha & hb & hn & hv).
    rewrite drop_spaces_run by exact ha. rewrite (numeral_first n _ b hn).
    rewrite (numeral_read_decimal _ _ _ _ b hn) by (now apply space_ends).
    cbn [fst snd] in hv. apply (float_of_iff prec emax Hp He) in hv.
    2:{ destruct hn as (sg & i & p & f & e & ng & k & _ & _ & hi & hf & _ & _ & _ & hd). injection hd as _ -> _.
        apply digits_value_pos; [apply digits_value_pos; [lia|exact hi]|exact hf]. }
    rewrite hv. cbn [option_map]. replace (drop_spaces b) with ""; [reflexivity|].
    rewrite <- (append_nil b), drop_spaces_run by exact hb. reflexivity.
Qed.


Lemma C59_array3d_proof : forall s v,
  array3d_get s = Some v <->
  exists x y z, words s [x; y; z] /\ get_double x = Some (a0 v) /\ get_double y = Some (a1 v) /\ get_double z = Some (a2 v).
Proof.
  intros s v. unfold array3d_get. split.
  - intros h. destruct (tokens s) as [|x [|y [|z [|w l]]]] eqn:e; cbn [array3d_loop] in h;
      repeat (match goal with h : context [match get_double ?t with _ => _ end] |- _ => destruct (get_double t) eqn:? end; try discriminate h);
      cbn [app] in h; try discriminate h.
    injection h as <-. exists x, y, z. rewrite words_tokens, e. repeat split; assumption.
  - intros (x & y & z & h & h1 & h2 & h3). apply words_tokens in h. rewrite h. cbn [array3d_loop].
    rewrite h1, h2, h3. cbn [app]. destruct v as ((a & b) & c). reflexivity.
Qed.


Lemma C59_array3d_put_proof : forall v, finite 53 1024 (a0 v) -> finite 53 1024 (a1 v) -> finite 53 1024 (a2 v) ->
  array3d_get (array3d_put v) = Some v.
Proof.
  intros v h0 h1 h2. apply C59_array3d_proof. exists (put_double (a0 v)), (put_double (a1 v)), (put_double (a2 v)).
  split; [|split; [|split]; now apply C59_double_proof].
  assert (key : forall x, finite 53 1024 x -> put_double x <> "" /\ all_chars (fun c => ~ space c) (put_double x)).
  { intros x hx. split; [|apply print_plain]. destruct (print_first 53 1024 (mkFormat false false 17) x hx) as (c & t & e & _).
    unfold put_double, put_value. rewrite e. discriminate. }
  unfold array3d_put. cbn [append].
  apply (words_more ""); [exact Logic.I|apply key; assumption..| |].
  { apply is_space_iff. reflexivity. }
  apply (words_more ""); [exact Logic.I|apply key; assumption..| |].
  { apply is_space_iff. reflexivity. }
  apply (words_one ""); [exact Logic.I|apply key; assumption..].
Qed.
