(** * Lemmas for Props_Bezier *)

From Coq Require Import String.
From Coq Require Import List ZArith Bool Arith Lia Reals Lra.
Import ListNotations.
From Flocq Require Import IEEE754.BinarySingleNaN.
From Verif Require Import Scalar RInst F32 Model_Anim Spec_Anim.
Local Open Scope string_scope.
Local Open Scope list_scope.
Local Open Scope R_scope.


Lemma Rltb_t : forall x y : R, s_ltb x y = true <-> x < y.
Proof. intros. cbn. unfold Rltb. destruct (Rlt_dec x y); split; auto; discriminate. Qed.
Lemma Rltb_f : forall x y : R, s_ltb x y = false <-> y <= x.
Proof. intros. cbn. unfold Rltb. destruct (Rlt_dec x y); split; auto; try discriminate; try lra. Qed.

Lemma C52_segment_proof : forall p0_frame p0_value p1_dframe p1_dvalue p2_dframe p2_dvalue p3_frame p3_value,
  let r := check_segment p0_frame p0_value p1_dframe p1_dvalue p2_dframe p2_dvalue p3_frame p3_value in
  (r = Ok tt <-> valid_segment p0_frame p1_dframe p2_dframe p3_frame) /\ (r = Ok tt \/ r = Throw).
Proof.
  intros f0 v0 a1 o1 a2 o2 f3 v3. unfold check_segment, valid_segment. cbv zeta.
  destruct (Z.leb_spec (f3 - f0) 0) as [h|h].
  - split; [|auto]. split; [discriminate|]. intros [h1 _]. apply lt_IZR in h1. lia.
  - assert (h0 : IZR f0 < IZR f3) by (apply IZR_lt; lia).
    change (@s_ofZ R RScalar 0) with 0. change (@s_ofZ R RScalar (f3 - f0)) with (IZR (f3 - f0)). change (@s_ofZ R RScalar (- (f3 - f0))) with (IZR (- (f3 - f0))).
    rewrite opp_IZR, minus_IZR.
    destruct (s_ltb a1 0 || s_ltb (IZR f3 - IZR f0) a1)%bool eqn:e.
    + split; [|auto]. split; [discriminate|]. intros (_ & h1 & _). apply orb_true_iff in e. rewrite !Rltb_t in e. lra.
    + apply orb_false_iff in e. rewrite !Rltb_f in e. destruct (s_ltb 0 a2 || s_ltb a2 (- (IZR f3 - IZR f0)))%bool eqn:e2.
      * split; [|auto]. split; [discriminate|]. intros (_ & _ & h1). apply orb_true_iff in e2. rewrite !Rltb_t in e2. lra.
      * apply orb_false_iff in e2. rewrite !Rltb_f in e2. split; [|auto]. split; [|reflexivity]. intros _. lra.
Qed.


Lemma valid_pos : forall f0 a1 a2 f3, valid_segment f0 a1 a2 f3 -> 0 < IZR f3 - IZR f0 /\ 0 <= a1 <= IZR f3 - IZR f0 /\ 0 <= (IZR f3 - IZR f0) + a2 <= IZR f3 - IZR f0.
Proof. unfold valid_segment. cbv zeta. intros. lra. Qed.

(** An affine function of two parameters of a box that is positive at the corners. *)
Lemma corners : forall d a b p q r, 0 < d -> 0 <= a <= d -> 0 <= b <= d ->
  0 < r -> 0 < p * d + r -> 0 < q * d + r -> 0 < p * d + q * d + r -> 0 < p * a + q * b + r.
Proof.
  intros d a b p q r hd ha hb h1 h2 h3 h4.
  assert (g : forall c, 0 <= c <= d -> forall m n, 0 < n -> 0 < m * d + n -> 0 < m * c + n).
  { intros c hc m n hn hm. destruct (Rle_dec 0 m) as [l|l]; [generalize (Rmult_le_pos m c l (proj1 hc)); lra|].
    assert (m * c >= m * d) by (apply Rmult_le_ge_compat_neg_l; lra). lra. }
  replace (p * a + q * b + r) with (p * a + (q * b + r)) by ring. apply g; [exact ha|apply g; auto|].
  replace (p * d + (q * b + r)) with (q * b + (p * d + r)) by ring. apply g; auto. replace (q * d + (p * d + r)) with (p * d + q * d + r) by ring. exact h4.
Qed.

Lemma cube_incr : forall a b, a < b -> a^3 < b^3.
Proof.
  intros a b h. assert (E : b^3 - a^3 = (b - a) * ((b + a/2)^2 + 3/4 * a^2)) by field.
  assert (0 < (b + a/2)^2 + 3/4 * a^2).
  { generalize (pow2_ge_0 (b + a/2)), (pow2_ge_0 a). intros h1 h2. destruct (Req_dec a 0) as [->|n].
    - assert (0 < b) by lra. replace ((b + 0/2)^2 + 3/4*0^2) with (b*b) by field. apply Rmult_lt_0_compat; lra.
    - assert (0 < a^2) by (replace (a^2) with (Rsqr a) by (unfold Rsqr; ring); apply Rsqr_pos_lt, n). lra. }
  assert (0 < (b - a) * ((b + a/2)^2 + 3/4 * a^2)) by (apply Rmult_lt_0_compat; lra). lra.
Qed.

Lemma bezier_increasing : forall x0 x1 x2 x3, x0 < x3 -> x0 <= x1 <= x3 -> x0 <= x2 <= x3 ->
  forall s t, 0 <= s -> s < t -> t <= 1 -> bezier x0 x1 x2 x3 s < bezier x0 x1 x2 x3 t.
Proof.
  intros x0 x1 x2 x3 h0 h1 h2 s t hs hst ht.
  set (p := 3 * (1 - t)^2 * t - 3 * (1 - s)^2 * s). set (q := 3 * (1 - t) * t^2 - 3 * (1 - s) * s^2).
  set (d := x3 - x0). set (r := (t^3 - s^3) * d).
  assert (E : bezier x0 x1 x2 x3 t - bezier x0 x1 x2 x3 s = p * (x1 - x0) + q * (x2 - x0) + r) by (unfold bezier, p, q, r, d; ring).
  assert (hd : 0 < d) by (unfold d; lra).
  assert (0 < p * (x1 - x0) + q * (x2 - x0) + r); [|lra].
  apply (corners d); try (unfold d; lra).
  - unfold r. apply Rmult_lt_0_compat; [|exact hd]. generalize (cube_incr s t hst). lra.
  - replace (p * d + r) with (d * (/ 2 * ((2*t - 1)^3 - (2*s - 1)^3))) by (unfold p, r; field).
    apply Rmult_lt_0_compat; [exact hd|]. generalize (cube_incr (2*s - 1) (2*t - 1) ltac:(lra)). lra.
  - replace (q * d + r) with (d * ((3*t^2 - 2*t^3) - (3*s^2 - 2*s^3))) by (unfold q, r; ring).
    apply Rmult_lt_0_compat; [exact hd|].
    replace ((3*t^2 - 2*t^3) - (3*s^2 - 2*s^3)) with ((t - s) * (t * (1 - t) + s * (1 - s) + (t + s) * (2 - t - s) )) by ring.
    apply Rmult_lt_0_compat; [lra|].
    assert (0 <= t * (1 - t)) by (apply Rmult_le_pos; lra). assert (0 <= s * (1 - s)) by (apply Rmult_le_pos; lra).
    assert (0 < (t + s) * (2 - t - s)) by (apply Rmult_lt_0_compat; lra). lra.
  - replace (p * d + q * d + r) with (d * ((1 - s)^3 - (1 - t)^3)) by (unfold p, q, r; ring).
    apply Rmult_lt_0_compat; [exact hd|]. generalize (cube_incr (1 - t) (1 - s) ltac:(lra)). lra.
Qed.
Lemma bezier_0 : forall a b c d, bezier a b c d 0 = a.
Proof. intros. unfold bezier. ring. Qed.
Lemma bezier_1 : forall a b c d, bezier a b c d 1 = d.
Proof. intros. unfold bezier. ring. Qed.
Lemma bezier_cont : forall a b c d, continuity (bezier a b c d).
Proof. intros. unfold bezier. reg. Qed.

Lemma seg_x_incr : forall g, segment_ok g -> forall s t, 0 <= s -> s < t -> t <= 1 -> seg_x g s < seg_x g t.
Proof. intros g h. unfold segment_ok, valid_segment in h. cbv zeta in h. apply bezier_increasing; lra. Qed.
Lemma seg_x_bounds : forall g, segment_ok g -> forall t, 0 <= t <= 1 -> IZR (sg_f0 g) <= seg_x g t <= IZR (sg_f3 g).
Proof.
  intros g h t ht. assert (e0 : seg_x g 0 = IZR (sg_f0 g)) by apply bezier_0. assert (e1 : seg_x g 1 = IZR (sg_f3 g)) by apply bezier_1.
  split.
  - destruct (Req_dec t 0) as [->|n]; [lra|]. generalize (seg_x_incr g h 0 t ltac:(lra) ltac:(lra) ltac:(lra)). lra.
  - destruct (Req_dec t 1) as [->|n]; [lra|]. generalize (seg_x_incr g h t 1 ltac:(lra) ltac:(lra) ltac:(lra)). lra.
Qed.
Lemma seg_x_onto : forall g, segment_ok g -> forall x, IZR (sg_f0 g) <= x <= IZR (sg_f3 g) -> exists t, 0 <= t <= 1 /\ seg_x g t = x.
Proof.
  intros g h x hx. assert (e0 : seg_x g 0 = IZR (sg_f0 g)) by apply bezier_0. assert (e1 : seg_x g 1 = IZR (sg_f3 g)) by apply bezier_1.
  destruct (IVT_cor (fun t => seg_x g t - x) 0 1) as (t & ht & e).
  - apply continuity_minus; [apply bezier_cont|]. apply continuity_const. intros u v. reflexivity.
  - lra.
  - rewrite e0, e1. generalize (Rmult_le_pos (x - IZR (sg_f0 g)) (IZR (sg_f3 g) - x)). lra.
  - exists t. split; [exact ht|lra].
Qed.
Lemma seg_x_inj : forall g, segment_ok g -> forall s t, 0 <= s <= 1 -> 0 <= t <= 1 -> seg_x g s = seg_x g t -> s = t.
Proof.
  intros g h s t hs ht e. destruct (Rtotal_order s t) as [l|[l|l]]; [|exact l|].
  - generalize (seg_x_incr g h s t). lra.
  - generalize (seg_x_incr g h t s). lra.
Qed.

Lemma C52_segment_function_proof : forall f0 a1 a2 f3, valid_segment f0 a1 a2 f3 ->
  let x := bezier (IZR f0) (IZR f0 + a1) (IZR f3 + a2) (IZR f3) in
  (forall s t, 0 <= s -> s < t -> t <= 1 -> x s < x t) /\ x 0 = IZR f0 /\ x 1 = IZR f3 /\
  (forall z, IZR f0 <= z <= IZR f3 -> exists! t, 0 <= t <= 1 /\ x t = z).
Proof.
  intros f0 a1 a2 f3 h x. set (g := mkSegment f0 0 a1 0 a2 0 f3 0). assert (hg : segment_ok g) by exact h.
  split; [exact (seg_x_incr g hg)|]. split; [apply bezier_0|]. split; [apply bezier_1|].
  intros z hz. destruct (seg_x_onto g hg z hz) as (t & ht & e). exists t. split; [split; [exact ht|exact e]|].
  intros u [hu eu]. apply (seg_x_inj g hg); auto. change (x t = x u). change (x t = z) in e. congruence.
Qed.

Lemma C52_bounds_needed_proof : forall d e, 0 < d -> 0 < e ->
  (exists s t, 0 <= s /\ s < t /\ t <= 1 /\ bezier 0 (- e) d d t < bezier 0 (- e) d d s) /\
  (exists s t, 0 <= s /\ s < t /\ t <= 1 /\ bezier 0 0 (d + e) d t < bezier 0 0 (d + e) d s).
Proof.
  intros d e hd he.
  (* near 0: x(t) = -3e(1-t)^2 t + 3d(1-t)t^2 + d t^3 *)
  set (u := e / (2 * (e + d))).
  assert (hu0 : 0 < u) by (unfold u; apply Rdiv_lt_0_compat; lra).
  assert (hu1 : u < 1/2) by (unfold u; apply (Rmult_lt_reg_r (2 * (e + d))); [lra|]; unfold Rdiv; rewrite Rmult_assoc, Rinv_l; lra).
  assert (hu2 : u * (e + d) = e / 2) by (unfold u; field; lra).
  assert (K : - e * 3 * (1 - u)^2 * u + 3 * (1 - u) * u^2 * d + u^3 * d < 0).
  { replace (- e * 3 * (1 - u)^2 * u + 3 * (1 - u) * u^2 * d + u^3 * d) with (u * (- 3 * e * (1 - u)^2 + 3 * (1 - u) * (u * d) + u * (u * d))) by ring.
    assert (hud : u * d = e / 2 - u * e) by lra. rewrite hud.
    assert (- 3 * e * (1 - u)^2 + 3 * (1 - u) * (e / 2 - u * e) + u * (e / 2 - u * e) = e * (- 3/2 + 2 * u - u^2)) by field.
    rewrite H. assert (0 < u * (e * (3/2 - 2 * u + u^2))).
    { apply Rmult_lt_0_compat; [exact hu0|]. apply Rmult_lt_0_compat; [exact he|]. generalize (pow2_ge_0 u). lra. }
    lra. }
  split.
  - exists 0, u. split; [lra|]. split; [lra|]. split; [lra|]. unfold bezier in *. lra.
  - exists (1 - u), 1. split; [lra|]. split; [lra|]. split; [lra|]. unfold bezier. 
    assert (E : (1 - (1 - u))^3 * 0 + 3 * (1 - (1 - u))^2 * (1 - u) * 0 + 3 * (1 - (1 - u)) * (1 - u)^2 * (d + e) + (1 - u)^3 * d
      = d - (- e * 3 * (1 - u)^2 * u + 3 * (1 - u) * u^2 * d + u^3 * d)) by ring.
    rewrite E. lra.
Qed.


(** *** Curves *)

Section Curves.
Variable parse : string -> option R.

Lemma get_side_res : forall t, (exists s, get_side t = Ok s) \/ get_side t = Throw.
Proof. intro t. unfold get_side, get_string. destruct (attr "side" t) as [s|]; cbn [rbind]; [|auto]. destruct (String.eqb s "left"); [eauto|]. destruct (String.eqb s "right"); eauto. Qed.
Lemma tangent_loop_res : forall s l j, (exists i c, tangent_loop s j l = Ok (Some (j + i)%nat) /\ nth_error l i = Some c) \/ tangent_loop s j l = Ok None \/ tangent_loop s j l = Throw.
Proof.
  induction l as [|c l IH]; intro j; [auto|]. cbn [tangent_loop].
  assert (st : (exists i c', tangent_loop s (S j) l = Ok (Some (j + i)%nat) /\ nth_error (c :: l) i = Some c') \/ tangent_loop s (S j) l = Ok None \/ tangent_loop s (S j) l = Throw).
  { destruct (IH (S j)) as [(i & c' & e & n)|h]; [|auto]. left. exists (S i), c'. split; [rewrite e; do 2 f_equal; lia|exact n]. }
  destruct (is_named "Tangent" c); [|exact st]. destruct (get_side_res (snd c)) as [(s' & ->)| ->]; cbn [rbind]; [|auto].
  destruct (side_eqb s s'); [|exact st]. left. exists 0%nat, c. split; [do 2 f_equal; lia|reflexivity].
Qed.
Lemma get_tangent_res : forall k s, (exists t, get_tangent k s = Ok t) \/ get_tangent k s = Throw.
Proof.
  intros k s. unfold get_tangent, get_tangent_optional. destruct (tangent_loop_res s (pt_kids k) 0) as [(i & c & -> & e)|[->| ->]]; cbn [value rbind]; auto.
  left. unfold kid. cbn [Nat.add]. rewrite e. cbn. eauto.
Qed.
Lemma get_real_res : forall n k, (exists x, get_real parse n k = Ok x) \/ get_real parse n k = Throw.
Proof. intros. unfold get_real. destruct (attr n k) as [s|]; [|auto]. destruct (parse s); eauto. Qed.
Lemma get_frame_res : forall k, (exists f, get_frame k = Ok f) \/ get_frame k = Throw.
Proof. intros. unfold get_frame, get_int. destruct (attr "frame" k) as [s|]; [|auto]. destruct (parse_int s) as [z|]; cbn [rbind]; [|auto]. destruct (z <? 0)%Z; eauto. Qed.

Lemma pair_check : forall k k', let r := apply_cubic_bezier parse k k' check_segment in
  (r = Ok tt <-> exists s, segment_of parse k k' s /\ segment_ok s) /\ (r = Ok tt \/ r = Throw).
Proof.
  intros k k'. cbv zeta. unfold apply_cubic_bezier.
  assert (no : forall P : Prop, P -> (Throw = Ok tt <-> P) -> False) by (intros P p [h1 h2]; discriminate (h2 p)).
  Ltac thr := split; [split; [discriminate|]; intros (zs & (z1 & z2 & z3 & z4 & (zt & z5 & z6 & z7) & (zu & z8 & z9 & z10)) & _);
     unfold get_key_value, get_abscissa, get_ordinate in *; congruence|right; reflexivity].
  destruct (get_tangent_res k right) as [(t1 & q1)|q1]; rewrite q1; cbn [rbind]; [|thr].
  destruct (get_tangent_res k' left) as [(t2 & q2)|q2]; rewrite q2; cbn [rbind]; [|thr].
  destruct (get_frame_res k) as [(f0 & q3)|q3]; rewrite q3; cbn [rbind]; [|thr].
  unfold get_key_value, get_abscissa, get_ordinate.
  destruct (get_real_res "value" k) as [(v0 & q4)|q4]; rewrite q4; cbn [rbind]; [|thr].
  destruct (get_real_res "abscissaParam" t1) as [(a1 & q5)|q5]; rewrite q5; cbn [rbind]; [|thr].
  destruct (get_real_res "ordinateParam" t1) as [(o1 & q6)|q6]; rewrite q6; cbn [rbind]; [|thr].
  destruct (get_real_res "abscissaParam" t2) as [(a2 & q7)|q7]; rewrite q7; cbn [rbind]; [|thr].
  destruct (get_real_res "ordinateParam" t2) as [(o2 & q8)|q8]; rewrite q8; cbn [rbind]; [|thr].
  destruct (get_frame_res k') as [(f3 & q9)|q9]; rewrite q9; cbn [rbind]; [|thr].
  destruct (get_real_res "value" k') as [(v3 & q10)|q10]; rewrite q10; cbn [rbind]; [|thr].
  destruct (C52_segment_proof f0 v0 a1 o1 a2 o2 f3 v3) as [h1 h2]. split; [|exact h2]. rewrite h1. split.
  - intro h. exists (mkSegment f0 v0 a1 o1 a2 o2 f3 v3). split; [|exact h]. unfold segment_of. cbn.
    repeat split; auto; [exists t1|exists t2]; auto.
  - intros ([f0' v0' a1' o1' a2' o2' f3' v3'] & (e1 & e2 & e3 & e4 & (t1' & e5 & e6 & e7) & (t2' & e8 & e9 & e10)) & h). unfold segment_ok in h. 
    unfold get_key_value, get_abscissa, get_ordinate in *. cbn in *. congruence.
Qed.

Lemma adjacent_cons : forall A (x y : A) l a b, adjacent (x :: y :: l) a b <-> (a = x /\ b = y) \/ adjacent (y :: l) a b.
Proof.
  intros A x y l a b. split.
  - intros ([|z l1] & l2 & e).
    + injection e as -> -> _. auto.
    + injection e as _ e. right. exists l1, l2. exact e.
  - intros [[-> ->]|(l1 & l2 & e)]; [exists [], l; reflexivity|]. exists (x :: l1), l2. rewrite e. reflexivity.
Qed.
Lemma adjacent_short : forall A (l : list A) a b, (length l <= 1)%nat -> ~ adjacent l a b.
Proof. intros A l a b h (l1 & l2 & ->). rewrite app_length in h. cbn in h. lia. Qed.

Lemma keys_check : forall l, let r := adjacent_for_each (fun p0 p3 => apply_cubic_bezier parse p0 p3 check_segment) l in
  (r = Ok tt <-> valid_keys parse l) /\ (r = Ok tt \/ r = Throw).
Proof.
  induction l as [|k l IH]; [split; [|auto]; split; [|auto]; intros _ a b h; destruct (adjacent_short _ [] _ _ (Nat.le_0_l 1) h)|].
  destruct l as [|k' l]; [split; [|auto]; split; [|auto]; intros _ a b h; destruct (adjacent_short _ [k] _ _ (le_n 1) h)|].
  cbn [adjacent_for_each] in *. destruct (pair_check k k') as [h1 [h2|h2]]; rewrite h2 in *; cbn [rbind].
  - cbv zeta in IH. destruct IH as [i1 i2]. split; [|exact i2]. rewrite i1. split.
    + intros h a b i. apply adjacent_cons in i. destruct i as [[-> ->]|i]; [apply h1; reflexivity|apply h, i].
    + intros h a b i. apply h, adjacent_cons. auto.
  - split; [|auto]. split; [discriminate|]. intro h. apply h1. apply h, adjacent_cons. auto.
Qed.

Lemma segment_det : forall k k' s s', segment_of parse k k' s -> segment_of parse k k' s' -> s = s'.
Proof.
  intros k k' [f0 v0 a1 o1 a2 o2 f3 v3] [f0' v0' a1' o1' a2' o2' f3' v3'] (e1 & e2 & e3 & e4 & (t1 & e5 & e6 & e7) & (t2 & e8 & e9 & e10))
    (d1 & d2 & d3 & d4 & (u1 & d5 & d6 & d7) & (u2 & d8 & d9 & d10)). cbn in *. f_equal; congruence.
Qed.

Lemma on_curve_cons : forall k k' l x y, on_curve parse (k :: k' :: l) x y <->
  (exists s t, segment_of parse k k' s /\ 0 <= t <= 1 /\ x = seg_x s t /\ y = seg_y s t) \/ on_curve parse (k' :: l) x y.
Proof.
  intros. split.
  - intros (a & b & s & t & h & h1 & h2 & h3 & h4). apply adjacent_cons in h. destruct h as [[-> ->]|h].
    + left. exists s, t. auto.
    + right. exists a, b, s, t. auto.
  - intros [(s & t & h)|(a & b & s & t & h & h')].
    + exists k, k', s, t. split; [apply adjacent_cons; auto|]. exact h.
    + exists a, b, s, t. split; [apply adjacent_cons; auto|]. exact h'.
Qed.
Lemma valid_tail : forall k k' l, valid_keys parse (k :: k' :: l) -> valid_keys parse (k' :: l).
Proof. intros k k' l h a b i. apply h, adjacent_cons. auto. Qed.

Lemma on_curve_ge : forall l k f, valid_keys parse (k :: l) -> get_frame k = Ok f -> forall x y, on_curve parse (k :: l) x y ->
  IZR f <= x /\ (x = IZR f -> get_key_value parse k = Ok y).
Proof.
  induction l as [|k' l IH]; intros k f hv hf x y h.
  - destruct h as (a & b & s & t & h & _). destruct (adjacent_short _ [k] _ _ (le_n 1) h).
  - destruct (hv k k' ltac:(apply adjacent_cons; auto)) as (s & hs & ho).
    assert (ef : sg_f0 s = f) by (destruct hs as [e _]; congruence). apply on_curve_cons in h. destruct h as [(s' & t & hs' & ht & -> & ->)|h].
    + rewrite (segment_det _ _ _ _ hs' hs) in *. generalize (seg_x_bounds s ho t ht). rewrite ef. intro b. split; [lra|]. intro e.
      assert (t = 0) as ->. { apply (seg_x_inj s ho); [lra|lra|]. rewrite e. unfold seg_x. rewrite bezier_0, ef. reflexivity. }
      unfold seg_y. rewrite bezier_0. apply hs.
    + destruct (IH k' (sg_f3 s) (valid_tail _ _ _ hv) ltac:(apply hs) x y h) as [h1 h2].
      unfold segment_ok, valid_segment in ho. cbv zeta in ho. rewrite ef in ho. split; [lra|]. intro e. lra.
Qed.
Lemma on_curve_unique : forall l, valid_keys parse l -> forall x y y', on_curve parse l x y -> on_curve parse l x y' -> y = y'.
Proof.
  induction l as [|k l IH]; intros hv x y y' h h'.
  - destruct h as (a & b & s & t & h & _). destruct (adjacent_short _ [] _ _ (Nat.le_0_l 1) h).
  - destruct l as [|k' l]; [destruct h as (a & b & s & t & h & _); destruct (adjacent_short _ [k] _ _ (le_n 1) h)|].
    destruct (hv k k' ltac:(apply adjacent_cons; auto)) as (s & hs & ho).
    assert (tail : forall t y, 0 <= t <= 1 -> on_curve parse (k' :: l) (seg_x s t) y -> y = seg_y s t).
    { intros t z ht hz. destruct (on_curve_ge l k' (sg_f3 s) (valid_tail _ _ _ hv) ltac:(apply hs) _ _ hz) as [h1 h2].
      generalize (seg_x_bounds s ho t ht). intro b. assert (e : seg_x s t = IZR (sg_f3 s)) by lra. specialize (h2 e).
      assert (t = 1) as ->. { apply (seg_x_inj s ho); [lra|lra|]. rewrite e. unfold seg_x. rewrite bezier_1. reflexivity. }
      unfold seg_y. rewrite bezier_1. destruct hs as (_ & _ & _ & e4 & _). congruence. }
    apply on_curve_cons in h. apply on_curve_cons in h'.
    destruct h as [(s1 & t & hs1 & ht & -> & ->)|h], h' as [(s2 & t' & hs2 & ht' & ex & ->)|h'];
      try rewrite (segment_det _ _ _ _ hs1 hs) in *; try rewrite (segment_det _ _ _ _ hs2 hs) in *.
    + rewrite (seg_x_inj s ho t t' ht ht' ex). reflexivity.
    + symmetry. apply tail; auto.
    + rewrite ex in h. apply tail; auto.
    + apply (IH (valid_tail _ _ _ hv) x); auto.
Qed.
Lemma on_curve_exists : forall l k k' f f', valid_keys parse (k :: l ++ [k']) -> get_frame k = Ok f -> get_frame k' = Ok f' ->
  forall x, IZR f <= x <= IZR f' -> exists y, on_curve parse (k :: l ++ [k']) x y.
Proof.
  induction l as [|k1 l IH]; intros k k' f f' hv hf hf' x hx.
  - cbn [app] in *. destruct (hv k k' ltac:(apply adjacent_cons; auto)) as (s & hs & ho).
    destruct (seg_x_onto s ho x) as (t & ht & e).
    { destruct hs as (e1 & e2 & _). rewrite hf in e1. rewrite hf' in e2. injection e1 as <-. injection e2 as <-. exact hx. }
    exists (seg_y s t). apply on_curve_cons. left. exists s, t. auto.
  - cbn [app] in *. destruct (hv k k1 ltac:(apply adjacent_cons; auto)) as (s & hs & ho).
    destruct (Rle_dec x (IZR (sg_f3 s))) as [c|c].
    + destruct (seg_x_onto s ho x) as (t & ht & e).
      { destruct hs as (e1 & e2 & _). rewrite hf in e1. injection e1 as <-. lra. }
      exists (seg_y s t). apply on_curve_cons. left. exists s, t. auto.
    + destruct (IH k1 k' (sg_f3 s) f' (valid_tail _ _ _ hv) ltac:(apply hs) hf' x ltac:(lra)) as (y & h). exists y. apply on_curve_cons. auto.
Qed.
End Curves.

Lemma C52_curve_proof : forall parse_real curve, let r := check_cubic_bezier parse_real curve in
  (r = Ok tt <-> valid_keys parse_real (get_keys curve)) /\ (r = Ok tt \/ r = Throw).
Proof. intros. apply keys_check. Qed.


Lemma C52_curve_function_proof : forall parse_real curve first middle last f f',
  check_cubic_bezier parse_real curve = Ok tt -> get_keys curve = first :: middle ++ [last] ->
  get_frame first = Ok f -> get_frame last = Ok f' ->
  forall x, IZR f <= x <= IZR f' -> exists! y, on_curve parse_real (get_keys curve) x y.
Proof.
  intros parse curve k l k' f f' h e hf hf' x hx. apply (keys_check parse) in h. rewrite e in *.
  destruct (on_curve_exists parse l k k' f f' h hf hf' x hx) as (y & hy). exists y. split; [exact hy|].
  intros y' hy'. apply (on_curve_unique parse _ h x); auto.
Qed.


Lemma C52_check_all_proof : forall parse_real pt, let r := check_all parse_real pt in
  (r = Ok tt <->
     attr "typeVersion" pt = Some "2.0" /\
     forall curve, In curve (get_actuatorcurves pt) ->
       (exists a, attr "actuator" curve = Some a) /\ (exists n, get_int "fps" curve = Ok n /\ (0 < n)%Z) /\
       (exists u, attr "unit" curve = Some (unit_to_string u)) /\ valid_keys parse_real (get_keys curve)) /\
  (r = Ok tt \/ r = Throw).
Proof.
  intros parse pt. cbv zeta. unfold check_all.
  assert (V : (check_version pt = Ok tt /\ attr "typeVersion" pt = Some "2.0") \/ (check_version pt = Throw /\ attr "typeVersion" pt <> Some "2.0")).
  { unfold check_version, get_string. destruct (attr "typeVersion" pt) as [s|]; cbn [rbind]; [|right; split; [reflexivity|discriminate]].
    destruct (String.eqb_spec s "2.0") as [->|n]; [auto|]. right. split; [reflexivity|congruence]. }
  destruct V as [[-> v]|[-> v]]; cbn [rbind]; [|split; [split; [discriminate|intros [h _]; congruence]|auto]].
  assert (C : forall c, (check_curve parse c = Ok tt <-> (exists a, attr "actuator" c = Some a) /\ (exists n, get_int "fps" c = Ok n /\ (0 < n)%Z) /\
       (exists u, attr "unit" c = Some (unit_to_string u)) /\ valid_keys parse (get_keys c)) /\ (check_curve parse c = Ok tt \/ check_curve parse c = Throw)).
  { intro c. unfold check_curve. cbv zeta. unfold get_actuator at 1 2 3, get_string at 1 2 3. destruct (attr "actuator" c) as [a|]; cbn [rbind].
    2:{ split; [|auto]. split; [discriminate|]. intros ((a & h) & _). discriminate. }
    assert (I : (exists n, get_int "fps" c = Ok n) \/ get_int "fps" c = Throw).
    { unfold get_int. destruct (attr "fps" c) as [s|]; [|auto]. destruct (parse_int s); eauto. }
    unfold get_fps at 1 2 3. destruct I as [(n & I)|I]; rewrite I; cbn [rbind].
    2:{ split; [|auto]. split; [discriminate|]. intros (_ & (n & h & _) & _). congruence. }
    destruct (Z.leb_spec n 0) as [b|b]; cbn [rbind].
    { split; [|auto]. split; [discriminate|]. intros (_ & (n' & h & h') & _). injection h as <-. lia. }
    unfold get_unit at 1 2 3, get_string. destruct (attr "unit" c) as [u|]; cbn [rbind].
    2:{ split; [|auto]. split; [discriminate|]. intros (_ & _ & (u & h) & _). congruence. }
    assert (U : forall u', u = unit_to_string u' -> 
       ((check_cubic_bezier parse c = Ok tt <-> (exists a0, Some a = Some a0) /\ (exists n0, Ok n = Ok n0 /\ (0 < n0)%Z) /\
       (exists u0, Some u = Some (unit_to_string u0)) /\ valid_keys parse (get_keys c)) /\ (check_cubic_bezier parse c = Ok tt \/ check_cubic_bezier parse c = Throw))).
    { intros u' ->. destruct (C52_curve_proof parse c) as [h1 h2]. split; [|exact h2]. rewrite h1. split; [|tauto]. intro h. split; [eauto|]. split; [eauto|]. split; [eauto|exact h]. }
    destruct (String.eqb_spec u "dimensionless") as [e1|e1]; [exact (U dimensionless e1)|].
    destruct (String.eqb_spec u "radian") as [e2|e2]; [exact (U radian e2)|].
    destruct (String.eqb_spec u "degree") as [e3|e3]; [exact (U degree e3)|].
    destruct (String.eqb_spec u "meter") as [e4|e4]; [exact (U meter e4)|]. cbn [rbind].
    split; [|auto]. split; [discriminate|]. intros (_ & _ & (u' & h) & _). destruct u'; cbn in h; congruence. }
  assert (G : forall l, (check_curves parse l = Ok tt <-> forall c, In c l -> (exists a, attr "actuator" c = Some a) /\ (exists n, get_int "fps" c = Ok n /\ (0 < n)%Z) /\
       (exists u, attr "unit" c = Some (unit_to_string u)) /\ valid_keys parse (get_keys c)) /\ (check_curves parse l = Ok tt \/ check_curves parse l = Throw)).
  { induction l as [|c l IH]; cbn [check_curves].
    - split; [|auto]. split; [intros _ c []|auto].
    - destruct (C c) as [h1 [h2|h2]]; rewrite h2 in *; cbn [rbind].
      + destruct IH as [i1 i2]. split; [|exact i2]. rewrite i1. split; [|intros h c' i; apply h; cbn; auto].
        intros h c' [<-|i]; [apply h1; reflexivity|apply h, i].
      + split; [|auto]. split; [discriminate|]. intro h. apply h1, h. cbn; auto. }
  destruct (G (get_actuatorcurves pt)) as [h1 h2]. split; [|exact h2]. rewrite h1. tauto.
Qed.


Lemma C52_nan_refuted_proof : forall L, @check_segment f32 (F32Scalar L) 0 B754_nan B754_nan B754_nan B754_nan B754_nan 10 B754_nan = Ok tt.
Proof. intro L. vm_compute. reflexivity. Qed.
