(** * Lemmas for Props_Plain *)


From Coq Require Import Reals ZArith List Bool Lra Lia Psatz.
Import ListNotations.
From Flocq Require Import Core.Core Plus_error Relative IEEE754.BinarySingleNaN.
From Verif Require Import Scalar RInst RLemmas Model_Base Model_Vec Model_Rigid Model_Almath Model_Helpers F32 Spec_Geom Spec_Vec Spec_Plain.
From Verif Require Proofs_Geom Proofs_Rotation Proofs_Quat Proofs_ExpLogExact Proofs_Transform Proofs_Vectors MemTac.
Local Open Scope R_scope.
Import Proofs_Geom MemTac.

(** ** C72: comparison operators *)

Lemma Reqb_iff : forall x y : R, Reqb x y = true <-> x = y.
Proof. intros x y. unfold Reqb. destruct (Req_EM_T x y); split; intro h; congruence. Qed.

Lemma f32_eqb_iff : forall (L : libm32) (x y : f32), s_eqb (Scalar := F32Scalar L) x y = true <-> same_number x y.
Proof.
  intros L x y. unfold same_number. cbn [s_eqb F32Scalar]. split.
  - intro h. destruct (is_finite x) eqn:hx.
    + destruct (is_finite y) eqn:hy.
      * left. rewrite (Beqb_correct _ _ x y hx hy) in h. repeat split; auto. revert h. case Req_bool_spec; [auto|discriminate].
      * exfalso. destruct x as [sx|sx| |sx mx ex bx], y as [sy|sy| |sy my ey by_]; try discriminate hx; try discriminate hy; unfold Beqb, SpecFloat.SFeqb in h; cbn in h; try discriminate h; destruct sx, sy; discriminate h.
    + destruct x as [sx|sx| |sx mx ex bx]; try discriminate hx.
      * right. exists sx. split; auto. destruct y as [sy|sy| |sy my ey by_]; unfold Beqb, SpecFloat.SFeqb in h; cbn in h; try (destruct sx; discriminate h); try (destruct sx, sy; try discriminate h; reflexivity).
      * exfalso. destruct y as [sy|sy| |sy my ey by_]; discriminate h.
  - intros [(hx&hy&e)|(s&->&->)].
    + rewrite (Beqb_correct _ _ x y hx hy). now apply Req_bool_true.
    + destruct s; reflexivity.
Qed.

Lemma F2_cons : forall (A : Type) (rel : A -> A -> Prop) x y l l', Forall2 rel (x :: l) (y :: l') <-> rel x y /\ Forall2 rel l l'.
Proof. intros. split; [intro h; inversion h; auto|intros [h1 h2]; now constructor]. Qed.
Lemma F2_nil : forall (A : Type) (rel : A -> A -> Prop), Forall2 rel [] [] <-> True.
Proof. intros. split; auto. Qed.

Ltac cmp H := intros a b; repeat (rewrite F2_cons); rewrite F2_nil, ?andb_true_iff, ?H; tauto.

Lemma cmp_all : forall (T : Type) (S : Scalar T) (rel : T -> T -> Prop), (forall x y : T, s_eqb x y = true <-> rel x y) ->
  decides rel cp2 p2_eqb /\ decides rel cp3 p3_eqb /\ decides rel cp6 p6_eqb /\ decides rel cv3 v3_eqb /\
  decides rel cv6 v6_eqb /\ decides rel ce3 e3_eqb /\ decides rel cpose pose_eqb /\ decides rel cq q_eqb /\
  decides rel cm m_eqb /\ decides rel ct t_eqb.
Proof.
  intros T S rel H.
  repeat match goal with |- _ /\ _ => split end.
  - unfold decides, cp2, p2_eqb. cmp H.
  - unfold decides, cp3, p3_eqb. cmp H.
  - unfold decides, cp6, p6_eqb. cmp H.
  - unfold decides, cv3, v3_eqb. cmp H.
  - unfold decides, cv6, v6_eqb. cmp H.
  - unfold decides, ce3, e3_eqb. cmp H.
  - unfold decides, cpose, pose_eqb. cmp H.
  - unfold decides, cq, q_eqb. cmp H.
  - unfold decides, cm, m_eqb. cmp H.
  - unfold decides, ct, t_eqb. cmp H.
Qed.

Ltac eqs h := intros a b; rewrite (h a b); drec; cbv [cp2 cp3 cp6 cv3 cv6 ce3 cpose cq cm ct]; repeat rewrite F2_cons; rewrite F2_nil; cbn;
    split; [intros; repeat match goal with h1 : _ /\ _ |- _ => destruct h1 end; now subst|let e := fresh in intro e; injection e; intros; repeat split; assumption].


Lemma C72_reals_proof :
  decides (@eq R) cp2 p2_eqb /\ decides (@eq R) cp3 p3_eqb /\ decides (@eq R) cp6 p6_eqb /\
  decides (@eq R) cv3 v3_eqb /\ decides (@eq R) cv6 v6_eqb /\ decides (@eq R) ce3 e3_eqb /\
  decides (@eq R) cpose pose_eqb /\ decides (@eq R) cq q_eqb /\ decides (@eq R) cm m_eqb /\ decides (@eq R) ct t_eqb /\
  (forall a b : Position2D R, p2_eqb a b = true <-> a = b) /\ (forall a b : Position3D R, p3_eqb a b = true <-> a = b) /\
  (forall a b : Position6D R, p6_eqb a b = true <-> a = b) /\ (forall a b : Velocity3D R, v3_eqb a b = true <-> a = b) /\
  (forall a b : Velocity6D R, v6_eqb a b = true <-> a = b) /\ (forall a b : Rotation3D R, e3_eqb a b = true <-> a = b) /\
  (forall a b : Pose2D R, pose_eqb a b = true <-> a = b) /\ (forall a b : Quaternion R, q_eqb a b = true <-> a = b) /\
  (forall a b : Rotation R, m_eqb a b = true <-> a = b) /\ (forall a b : Transform R, t_eqb a b = true <-> a = b).
Proof.
  destruct (cmp_all R RScalar eq Reqb_iff) as (h1&h2&h3&h4&h5&h6&h7&h8&h9&h10).
  do 10 (split; [assumption|]).
  split; [eqs h1|]. split; [eqs h2|]. split; [eqs h3|]. split; [eqs h4|]. split; [eqs h5|]. split; [eqs h6|].
  split; [eqs h7|]. split; [eqs h8|]. split; [eqs h9|eqs h10].
Qed.


Lemma C72_binary32_proof : forall L : libm32, let S := F32Scalar L in
  decides same_number cp2 p2_eqb /\ decides same_number cp3 p3_eqb /\ decides same_number cp6 p6_eqb /\
  decides same_number cv3 v3_eqb /\ decides same_number cv6 v6_eqb /\ decides same_number ce3 e3_eqb /\
  decides same_number cpose pose_eqb /\ decides same_number cq q_eqb /\ decides same_number cm m_eqb /\
  decides same_number ct t_eqb.
Proof. intros L S. exact (cmp_all f32 S same_number (f32_eqb_iff L)). Qed.


Lemma same_self : forall x : f32, same_number x x <-> ~ not_a_number x.
Proof.
  intro x. unfold same_number, not_a_number. split.
  - intros [(h&_)|(s&->&_)] e; [subst x; discriminate h|discriminate e].
  - intro h. destruct x as [sx|sx| |sx mx ex bx]; [left; auto|right; eauto|now elim h|left; auto].
Qed.
Lemma F2_self : forall l : list f32, Forall2 same_number l l <-> Forall (fun x => ~ not_a_number x) l.
Proof.
  induction l as [|x l IH]; [split; constructor|]. rewrite F2_cons, IH, same_self, Forall_cons_iff. tauto.
Qed.
Lemma self_nan : forall (A : Type) (coords : A -> list f32) (eq : A -> A -> bool), decides same_number coords eq ->
  forall a, eq a a = true <-> Forall (fun x => ~ not_a_number x) (coords a).
Proof. intros A coords eq h a. rewrite (h a a). apply F2_self. Qed.

Lemma C72_equivalence_proof : forall (A : Type) (coords : A -> list f32) (eq : A -> A -> bool), decides same_number coords eq ->
  (forall a, eq a a = true <-> Forall (fun x => ~ not_a_number x) (coords a)) /\
  (forall a b, eq a b = eq b a) /\
  (forall a b c, eq a b = true -> eq b c = true -> eq a c = true) /\
  (forall a b, coords a = coords b -> Forall (fun x => ~ not_a_number x) (coords a) -> eq a b = true).
Proof.
  intros A coords eq h.
  assert (S1 : forall x y, same_number x y -> same_number y x).
  { intros x y [(a&b&c)|(s&a&b)]; [left; auto|right; eauto]. }
  assert (S2 : forall l l', Forall2 same_number l l' -> Forall2 same_number l' l).
  { intros l l' f. induction f; constructor; auto. }
  split; [exact (self_nan A coords eq h)|]. split; [|split].
  - intros a b. apply eq_true_iff_eq. rewrite (h a b), (h b a). split; apply S2.
  - intros a b c. rewrite (h a b), (h b c), (h a c). generalize (coords a) (coords b) (coords c). clear.
    intros l l' l'' f. revert l''. induction f as [|x y l l' e f IH]; intros l'' g; inversion g; subst; constructor; auto.
    destruct e as [(a&b&c)|(s&a&b)].
    + match goal with e : same_number y _ |- _ => destruct e as [(a'&b'&c')|(s'&a'&b')] end; [left|subst y; discriminate b]. repeat split; auto. now rewrite c.
    + match goal with e : same_number y _ |- _ => destruct e as [(a'&b'&c')|(s'&a'&b')] end; [subst y; discriminate a'|right]. exists s. split; auto. rewrite b in a'. injection a' as ->. exact b'.
  - intros a b e f. apply (h a b). rewrite <- e. now apply F2_self.
Qed.


Lemma C72_not_equal_proof : forall (T : Type) (S : Scalar T),
  opposite (@p2_neqb T S) p2_eqb /\ opposite (@p3_neqb T S) p3_eqb /\ opposite (@p6_neqb T S) p6_eqb /\
  opposite (@v3_neqb T S) v3_eqb /\ opposite (@v6_neqb T S) v6_eqb /\ opposite (@e3_neqb T S) e3_eqb /\
  opposite (@pose_neqb T S) pose_eqb.
Proof.
  intros T S. unfold opposite. repeat match goal with |- _ /\ _ => split end; intros a b.
  - unfold p2_neqb. destruct (p2_eqb a b); cbn; intuition congruence.
  - unfold p3_neqb. destruct (p3_eqb a b); cbn; intuition congruence.
  - unfold p6_neqb. destruct (p6_eqb a b); cbn; intuition congruence.
  - unfold v3_neqb. destruct (v3_eqb a b); cbn; intuition congruence.
  - unfold v6_neqb. destruct (v6_eqb a b); cbn; intuition congruence.
  - unfold e3_neqb. destruct (e3_eqb a b); cbn; intuition congruence.
  - unfold pose_neqb. destruct (pose_eqb a b); cbn; intuition congruence.
Qed.


Lemma C72_constructors_proof : forall (T : Type) (S : Scalar T) (v : T),
  cp2 (p2_fill v) = repeat v 2 /\ cp3 (p3_fill v) = repeat v 3 /\ cp6 (p6_fill v) = repeat v 6 /\
  cv3 (v3_fill v) = repeat v 3 /\ cv6 (v6_fill v) = repeat v 6 /\ ce3 (e3_fill v) = repeat v 3 /\ cpose (pose_fill v) = repeat v 3 /\
  @p2_default T S = p2_fill (s_ofZ 0) /\ @p3_default T S = p3_fill (s_ofZ 0) /\ @p6_default T S = p6_fill (s_ofZ 0) /\
  @v3_default T S = v3_fill (s_ofZ 0) /\ @v6_default T S = v6_fill (s_ofZ 0) /\ @e3_default T S = e3_fill (s_ofZ 0) /\
  @pose_default T S = pose_fill (s_ofZ 0).
Proof. intros. repeat split. Qed.


Lemma C72_neutral_proof :
  (forall a : Position2D R, p2_add a p2_default = a) /\ (forall a : Position3D R, p3_add a p3_default = a) /\
  (forall a : Position6D R, p6_add a p6_default = a) /\ (forall a : Velocity3D R, v3_add a v3_default = a) /\
  (forall a : Velocity6D R, v6_add a v6_default = a) /\ (forall a : Rotation3D R, e3_add a e3_default = a) /\
  (forall a : Pose2D R, pose_add a pose_default = a /\ pose_mul a pose_default = a /\ pose_mul pose_default a = a) /\
  (forall v : R, p2_scale (p2_fill 1) v = p2_fill v /\ p3_scale (p3_fill 1) v = p3_fill v /\ p6_scale (p6_fill 1) v = p6_fill v /\
     v3_scale (v3_fill 1) v = v3_fill v /\ v6_scale (v6_fill 1) v = v6_fill v /\ e3_scale (e3_fill 1) v = e3_fill v).
Proof.
  repeat match goal with |- _ /\ _ => split end; intros; repeat match goal with |- _ /\ _ => split end; drec; unr;
    try (f_equal; ring); try (rewrite cos_0, sin_0; f_equal; ring).
Qed.



(** ** C26 in binary32 *)

Definition rdd (x : R) : R := round radix2 (SpecFloat.fexp 24 128) ZnearestE x.
Notation fin x := (is_finite x = true).

Lemma fexp_valid : Valid_exp (SpecFloat.fexp 24 128).
Proof. apply (fexp_correct 24 128). reflexivity. Qed.
Lemma f32_format : forall x : f32, generic_format radix2 (SpecFloat.fexp 24 128) (B2R x).
Proof. intro x. apply generic_format_B2R. Qed.

Lemma leb_abs : forall (z e : f32), fin z -> fin e -> Bleb (Babs z) e = true <-> Rabs (B2R z) <= B2R e.
Proof.
  intros z e hz he. rewrite Bleb_correct; [|now rewrite is_finite_Babs|exact he]. rewrite B2R_Babs.
  split; [intro h; case (Rle_bool_spec (Rabs (B2R z)) (B2R e)) in h; [assumption|discriminate]|intro h; now apply Rle_bool_true].
Qed.
Lemma ltb_abs : forall (z e : f32), fin z -> fin e -> Bltb (Babs z) e = true <-> Rabs (B2R z) < B2R e.
Proof.
  intros z e hz he. rewrite Bltb_correct; [|now rewrite is_finite_Babs|exact he]. rewrite B2R_Babs.
  split; [intro h; case (Rlt_bool_spec (Rabs (B2R z)) (B2R e)) in h; [assumption|discriminate]|intro h; now apply Rlt_bool_true].
Qed.
Lemma inf_cmp : forall (z e : f32) s, B2SF z = SpecFloat.S754_infinity s -> fin e -> Bleb (Babs z) e = false /\ Bltb (Babs z) e = false.
Proof.
  intros z e s h he. destruct z as [sz|sz| |sz mz ez bz]; try discriminate h. destruct e as [se|se| |se me ee be]; try discriminate he; destruct s, se; split; reflexivity.
Qed.

Lemma huge_fin : forall e : f32, fin e -> B2R e < bpow radix2 128.
Proof. intros e he. pose proof (abs_B2R_lt_emax 24 128 e) as h. apply Rabs_def2 in h. lra. Qed.

(** One coordinate. *)
Lemma near_rd : forall x y e : f32, fin x -> fin y -> fin e ->
  (Bleb (Babs (Bminus mode_NE x y)) e = true <-> Rabs (rdd (B2R x - B2R y)) <= B2R e) /\
  (Bltb (Babs (Bminus mode_NE x y)) e = true <-> Rabs (rdd (B2R x - B2R y)) < B2R e).
Proof.
  intros x y e hx hy he. generalize (Bminus_correct 24 128 _ _ mode_NE x y hx hy).
  change (round radix2 (SpecFloat.fexp 24 128) (round_mode mode_NE) (B2R x - B2R y)) with (rdd (B2R x - B2R y)).
  case Rlt_bool_spec.
  - intros _ (e1&f1&_). rewrite <- e1. split; [now apply leb_abs|now apply ltb_abs].
  - intros hb (e1&_). destruct (inf_cmp _ e (Bsign x) e1 he) as [i1 i2]. rewrite i1, i2.
    pose proof (huge_fin e he). split; (split; [discriminate|intro; lra]).
Qed.

Lemma near_plus : forall x y e : f32, fin x -> fin y -> fin e ->
  (Bltb (Babs (Bplus mode_NE x y)) e = true <-> Rabs (rdd (B2R x + B2R y)) < B2R e).
Proof.
  intros x y e hx hy he. generalize (Bplus_correct 24 128 _ _ mode_NE x y hx hy).
  change (round radix2 (SpecFloat.fexp 24 128) (round_mode mode_NE) (B2R x + B2R y)) with (rdd (B2R x + B2R y)).
  case Rlt_bool_spec.
  - intros _ (e1&f1&_). rewrite <- e1. now apply ltb_abs.
  - intros hb (e1&_). destruct (inf_cmp _ e (Bsign x) e1 he) as [i1 i2]. rewrite i2.
    pose proof (huge_fin e he). split; [discriminate|intro; lra].
Qed.

Lemma rdd_le : forall d (e : f32), Rabs d <= B2R e -> Rabs (rdd d) <= B2R e.
Proof.
  intros d e h. assert (V := fexp_valid). unfold rdd. apply abs_round_le_generic; [exact V|apply valid_rnd_N|apply f32_format|exact h].
Qed.
Lemma rdd_ge : forall d (e : f32), B2R e <= Rabs d -> B2R e <= Rabs (rdd d).
Proof.
  intros d e h. assert (V := fexp_valid). unfold rdd. apply abs_round_ge_generic; [exact V|apply valid_rnd_N|apply f32_format|exact h].
Qed.
Lemma rdd_plus : forall x y : f32, Rabs (B2R x + B2R y) <= Rabs (rdd (B2R x + B2R y)) * (1 + / 16777216) /\
  Rabs (rdd (B2R x + B2R y)) <= Rabs (B2R x + B2R y) * (1 + / 16777216).
Proof.
  intros x y.
  assert (G : forall z : f32, generic_format radix2 (FLT_exp (-149) 24) (B2R z)) by (intro z; exact (f32_format z)).
  assert (U : u_ro radix2 24 = / 16777216) by (unfold u_ro; cbn; lra).
  assert (P : Prec_gt_0 24) by reflexivity. split.
  - destruct (FLT_plus_error_N_round_ex radix2 (-149) 24 (fun z => negb (Z.even z)) (B2R x) (B2R y) (G x) (G y)) as (e&h1&h2).
    change (round radix2 (FLT_exp (-149) 24) (Znearest (fun z => negb (Z.even z))) (B2R x + B2R y)) with (rdd (B2R x + B2R y)) in h2.
    rewrite h2 at 1. rewrite Rabs_mult. apply Rmult_le_compat_l; [apply Rabs_pos|]. rewrite U in h1.
    apply Rabs_le. apply Rabs_le_inv in h1. lra.
  - destruct (FLT_plus_error_N_ex radix2 (-149) 24 (fun z => negb (Z.even z)) (B2R x) (B2R y) (G x) (G y)) as (e&h1&h2).
    change (round radix2 (FLT_exp (-149) 24) (Znearest (fun z => negb (Z.even z))) (B2R x + B2R y)) with (rdd (B2R x + B2R y)) in h2.
    rewrite h2 at 1. rewrite Rabs_mult. apply Rmult_le_compat_l; [apply Rabs_pos|]. rewrite U in h1.
    apply Rabs_le. apply Rabs_le_inv in h1. lra.
Qed.
Lemma rdd_minus : forall x y : f32, Rabs (B2R x - B2R y) <= Rabs (rdd (B2R x - B2R y)) * (1 + / 16777216) /\
  Rabs (rdd (B2R x - B2R y)) <= Rabs (B2R x - B2R y) * (1 + / 16777216).
Proof.
  intros x y. replace (B2R x - B2R y) with (B2R x + B2R (Bopp y)) by (rewrite B2R_Bopp; ring). apply rdd_plus.
Qed.
Lemma rdd_opp : forall d, Rabs (rdd (- d)) = Rabs (rdd d).
Proof. intro d. unfold rdd. rewrite round_NE_opp. apply Rabs_Ropp. Qed.

Lemma near_one : forall (x y e : f32), fin x -> fin y -> fin e ->
  (Rabs (B2R x - B2R y) <= B2R e -> Bleb (Babs (Bminus mode_NE x y)) e = true) /\
  (Bleb (Babs (Bminus mode_NE x y)) e = true -> Rabs (B2R x - B2R y) <= B2R e * (1 + / 16777216)) /\
  Bleb (Babs (Bminus mode_NE x y)) e = Bleb (Babs (Bminus mode_NE y x)) e /\
  (0 <= B2R e -> Bleb (Babs (Bminus mode_NE x x)) e = true).
Proof.
  intros x y e hx hy he. destruct (near_rd x y e hx hy he) as [h _].
  split; [intro k; apply h, rdd_le, k|]. split.
  - intro k. apply h in k. destruct (rdd_minus x y) as [m _]. eapply Rle_trans; [exact m|]. apply Rmult_le_compat_r; lra.
  - split.
    + apply eq_true_iff_eq. rewrite h. destruct (near_rd y x e hy hx he) as [h' _]. rewrite h'.
      replace (B2R y - B2R x) with (- (B2R x - B2R y)) by ring. rewrite rdd_opp. reflexivity.
    + intro k. apply (near_rd x x e hx hx he). apply rdd_le. rewrite Rminus_diag_eq by reflexivity. now rewrite Rabs_R0.
Qed.

Lemma near_all : forall (V : Type) (coords : V -> list f32) (near : V -> V -> f32 -> bool),
  (forall a b e, near a b e = true <-> Forall2 (fun x y => Bleb (Babs (Bminus mode_NE x y)) e = true) (coords a) (coords b)) ->
  (forall a b, length (coords a) = length (coords b)) ->
  is_tolerance32 coords near.
Proof.
  intros V coords near H Hl a b e ha hb he.
  assert (L := Hl a b). split; [|split; [|split]].
  - intro k. apply H. revert ha hb k. generalize (coords a) (coords b). intros l l' ha hb k.
    induction k as [|x y l l' k1 k IH]; constructor; inversion ha; inversion hb; subst; auto. now apply near_one.
  - intro k. apply H in k. revert ha hb k. generalize (coords a) (coords b). intros l l' ha hb k.
    induction k as [|x y l l' k1 k IH]; constructor; inversion ha; inversion hb; subst; auto. now apply near_one.
  - apply eq_true_iff_eq. rewrite (H a b), (H b a). revert ha hb L. generalize (coords a) (coords b). intros l.
    induction l as [|x l IH]; intros [|y l'] ha hb L; try discriminate L; [split; constructor|].
    inversion ha; inversion hb; subst. rewrite !F2_cons, (IH l') by (auto; now injection L).
    destruct (near_one x y e) as (_&_&s&_); auto. rewrite s. reflexivity.
  - intro k. apply H. revert ha. generalize (coords a). intros l ha. induction ha as [|x l hx ha IH]; constructor; auto. now apply (near_one x x e).
Qed.


Lemma C26_tolerance_binary32_proof : forall L : libm32, let S := F32Scalar L in
  is_tolerance32 cp2 p2_isNear /\ is_tolerance32 cp3 p3_isNear /\ is_tolerance32 cp6 p6_isNear /\
  is_tolerance32 cv3 v3_isNear /\ is_tolerance32 cv6 v6_isNear /\ is_tolerance32 ce3 e3_isNear /\
  is_tolerance32 cpose pose_isNear /\ is_tolerance32 cm m_isNear /\ is_tolerance32 ct t_isNear.
Proof.
  intros L S. repeat match goal with |- _ /\ _ => split end; apply near_all; try reflexivity; intros a b e; subst S.
  - unfold cp2, p2_isNear. repeat rewrite F2_cons. rewrite F2_nil, ?andb_true_iff. cbn [s_leb s_abs s_sub F32Scalar]. tauto.
  - unfold cp3, p3_isNear. repeat rewrite F2_cons. rewrite F2_nil, ?andb_true_iff. cbn [s_leb s_abs s_sub F32Scalar]. tauto.
  - unfold cp6, p6_isNear. repeat rewrite F2_cons. rewrite F2_nil, ?andb_true_iff. cbn [s_leb s_abs s_sub F32Scalar]. tauto.
  - unfold cv3, v3_isNear. repeat rewrite F2_cons. rewrite F2_nil, ?andb_true_iff. cbn [s_leb s_abs s_sub F32Scalar]. tauto.
  - unfold cv6, v6_isNear. repeat rewrite F2_cons. rewrite F2_nil, ?andb_true_iff. cbn [s_leb s_abs s_sub F32Scalar]. tauto.
  - unfold ce3, e3_isNear. repeat rewrite F2_cons. rewrite F2_nil, ?andb_true_iff. cbn [s_leb s_abs s_sub F32Scalar]. tauto.
  - unfold cpose, pose_isNear. repeat rewrite F2_cons. rewrite F2_nil, ?andb_true_iff. cbn [s_leb s_abs s_sub F32Scalar]. tauto.
  - unfold cm, m_isNear. repeat rewrite F2_cons. rewrite F2_nil, ?andb_true_iff. cbn [s_leb s_abs s_sub F32Scalar]. tauto.
  - unfold ct, t_isNear. repeat rewrite F2_cons. rewrite F2_nil, ?andb_true_iff. cbn [s_leb s_abs s_sub F32Scalar]. tauto.
Qed.


Lemma C26_quaternion_tolerance_binary32_proof : forall (L : libm32) (a b : Quaternion f32) (eps : f32),
  Forall (fun x => is_finite x = true) (cq a) -> Forall (fun x => is_finite x = true) (cq b) -> is_finite eps = true ->
  let within (e : R) := Forall2 (fun x y => Rabs (B2R x - B2R y) < e) (cq a) (cq b) \/ Forall2 (fun x y => Rabs (B2R x + B2R y) < e) (cq a) (cq b) in
  (q_isNear (S := F32Scalar L) a b eps = true -> within (B2R eps)) /\
  (within (B2R eps * (1 - / 8388608)) -> q_isNear (S := F32Scalar L) a b eps = true).
Proof.
  intros L a b e ha hb he within. subst within.
  assert (Q : q_isNear (S := F32Scalar L) a b e = true <->
    Forall2 (fun x y => Bltb (Babs (Bminus mode_NE x y)) e = true) (cq a) (cq b) \/
    Forall2 (fun x y => Bltb (Babs (Bplus mode_NE x y)) e = true) (cq a) (cq b)).
  { unfold cq, q_isNear. repeat rewrite F2_cons. rewrite !F2_nil, orb_true_iff, ?andb_true_iff. cbn [s_ltb s_abs s_sub s_add F32Scalar]. tauto. }
  rewrite Q. clear Q. revert ha hb. generalize (cq a) (cq b). intros l l' ha hb.
  assert (K : forall (P Q : f32 -> f32 -> Prop), (forall x y, fin x -> fin y -> P x y -> Q x y) -> Forall2 P l l' -> Forall2 Q l l').
  { intros P Q h f. revert ha hb. induction f as [|x y l l' p f IH]; intros ha hb; constructor; inversion ha; inversion hb; subst; auto. }
  split.
  - intros [h|h]; [left|right]; revert h; apply K; intros x y hx hy h.
    + apply (near_rd x y e hx hy he) in h. destruct (Rlt_le_dec (Rabs (B2R x - B2R y)) (B2R e)) as [l0|l0]; [exact l0|]. apply rdd_ge in l0. lra.
    + apply (near_plus x y e hx hy he) in h. destruct (Rlt_le_dec (Rabs (B2R x + B2R y)) (B2R e)) as [l0|l0]; [exact l0|]. apply rdd_ge in l0. lra.
  - intros [h|h]; [left|right]; revert h; apply K; intros x y hx hy h.
    + apply (near_rd x y e hx hy he). destruct (rdd_minus x y) as [_ m]. pose proof (Rabs_pos (B2R x - B2R y)) as p. lra.
    + apply (near_plus x y e hx hy he). destruct (rdd_plus x y) as [_ m]. pose proof (Rabs_pos (B2R x + B2R y)) as p. lra.
Qed.



(** ** C73: polar coordinates *)

Lemma polar_norm : forall r t : R, sqrt ((r * cos t) * (r * cos t) + (r * sin t) * (r * sin t)) = Rabs r.
Proof.
  intros r t. replace (_ + _) with (Rsqr r).
  - apply sqrt_Rsqr_abs.
  - unfold Rsqr. pose proof (sin2_cos2 t) as h. unfold Rsqr in h. transitivity (r * r * (sin t * sin t + cos t * cos t)); [rewrite h|]; ring.
Qed.

Lemma polar_back : forall x y : R, x = sqrt (x * x + y * y) * cos (Ratan2 y x) /\ y = sqrt (x * x + y * y) * sin (Ratan2 y x).
Proof.
  intros x y. destruct (Req_EM_T (x * x + y * y) 0) as [e|e].
  - assert (x = 0) by nra. assert (y = 0) by nra. subst. replace (0 * 0 + 0 * 0) with 0 by ring. rewrite sqrt_0. split; ring.
  - destruct (Ratan2_cos_sin y x e) as [h1 h2].
    assert (hs : sqrt (x * x + y * y) <> 0) by (intro h; apply e; apply sqrt_eq_0; [nra|exact h]).
    rewrite h1, h2. split; field; exact hs.
Qed.


Lemma C73_from_polar_proof : forall r t : R,
  p2_norm (p2_fromPolar r t) = Rabs r /\ pose_norm (pose_fromPolar r t) = Rabs r /\
  pose_theta (pose_fromPolar r t) = t /\ position2DFromPose2D (pose_fromPolar r t) = p2_fromPolar r t /\
  (0 < r -> -PI < p2_getAngle (p2_fromPolar r t) <= PI /\
     (exists k : Z, p2_getAngle (p2_fromPolar r t) = t + 2 * PI * IZR k) /\
     pose_getAngle (pose_fromPolar r t) = p2_getAngle (p2_fromPolar r t)) /\
  (0 < r -> -PI < t <= PI -> p2_getAngle (p2_fromPolar r t) = t).
Proof.
  intros r t. split; [exact (polar_norm r t)|]. split; [exact (polar_norm r t)|]. split; [reflexivity|]. split; [reflexivity|].
  assert (A : 0 < r -> -PI < t <= PI -> p2_getAngle (p2_fromPolar r t) = t) by (intros h1 h2; exact (Ratan2_polar r t h1 h2)).
  split; [|exact A].
  intro hr. split; [exact (Ratan2_range _ _)|]. split; [|reflexivity].
  assert (hp := PI_RGT_0).
  set (k := up ((t - PI) / (2 * PI))). pose proof (archimed ((t - PI) / (2 * PI))) as [a1 a2]. fold k in a1, a2.
  assert (e : t - PI = (t - PI) / (2 * PI) * (2 * PI)) by (field; lra).
  assert (K : - PI <= t - 2 * PI * IZR k <= PI).
  { split; [|].
    - assert ((IZR k - (t - PI) / (2 * PI)) * (2 * PI) <= 1 * (2 * PI)) by (apply Rmult_le_compat_r; lra). lra.
    - assert ((t - PI) / (2 * PI) * (2 * PI) <= IZR k * (2 * PI)) by (apply Rmult_le_compat_r; lra). lra. }
  assert (C : forall (j : Z), cos t = cos (t + 2 * PI * IZR j) /\ sin t = sin (t + 2 * PI * IZR j)).
  { intro j. assert (P := fun n => cos_period t n). assert (Q := fun n => sin_period t n).
    destruct j as [|p|p].
    - rewrite Rmult_0_r, Rplus_0_r. auto.
    - replace (t + 2 * PI * IZR (Z.pos p)) with (t + 2 * INR (Pos.to_nat p) * PI); [rewrite P, Q; auto|].
      rewrite INR_IZR_INZ, positive_nat_Z. ring.
    - set (t' := t + 2 * PI * IZR (Z.neg p)).
      replace t with (t' + 2 * INR (Pos.to_nat p) * PI); [rewrite cos_period, sin_period; auto|].
      unfold t'. rewrite INR_IZR_INZ, positive_nat_Z. change (Z.neg p) with (- Z.pos p)%Z. rewrite opp_IZR. ring. }
  unfold p2_getAngle, p2_fromPolar. cbn [p2_x p2_y s_atan2 s_mul s_cos s_sin RScalar].
  destruct (Req_EM_T (t - 2 * PI * IZR k) (- PI)) as [e0|n].
  - exists (1 - k)%Z. rewrite minus_IZR. destruct (C (1 - k)%Z) as [c1 c2]. rewrite minus_IZR in c1, c2. rewrite c1, c2.
    apply Ratan2_polar; [exact hr|]. split; lra.
  - exists (- k)%Z. rewrite opp_IZR. destruct (C (- k)%Z) as [c1 c2]. rewrite opp_IZR in c1, c2. rewrite c1, c2.
    apply Ratan2_polar; [exact hr|]. split; lra.
Qed.


Lemma C73_to_polar_proof : forall p : Position2D R,
  p2_fromPolar (p2_norm p) (p2_getAngle p) = p /\ -PI < p2_getAngle p <= PI /\
  (forall k, 0 < k -> p2_getAngle (p2_scale p k) = p2_getAngle p) /\
  (forall theta, pose_getAngle (pose2DFromPosition2D p theta) = p2_getAngle p) /\
  (forall r t, 0 < r -> -PI < t <= PI -> p2_fromPolar r t = p -> r = p2_norm p /\ t = p2_getAngle p).
Proof.
  intros [x y]. split; [|split; [|split; [|split]]].
  - unfold p2_fromPolar, p2_norm, p2_getAngle. cbn [p2_x p2_y s_atan2 s_mul s_cos s_sin s_sqrt s_add RScalar].
    destruct (polar_back x y) as [h1 h2]. rewrite <- h1, <- h2. reflexivity.
  - exact (Ratan2_range _ _).
  - intros k hk. unfold p2_getAngle, p2_scale. cbn [p2_x p2_y s_atan2 s_mul RScalar]. rewrite (Rmult_comm y), (Rmult_comm x). now apply Ratan2_scale.
  - reflexivity.
  - intros r t hr ht e. destruct (C73_from_polar_proof r t) as (h1&_&_&_&_&h2). rewrite e in h1, h2. split.
    + rewrite h1. symmetry. apply Rabs_pos_eq. lra.
    + symmetry. now apply h2.
Qed.



(** ** C74: differential motion *)

Definition rel (a b : Transform R) : mat3 := mmul (tmat b) (mtrans (tmat a)).
Definition vee (M : mat3) : vec3 := (/2 * (M 2%nat 1%nat - M 1%nat 2%nat), /2 * (M 0%nat 2%nat - M 2%nat 0%nat), /2 * (M 1%nat 0%nat - M 0%nat 1%nat)).

Lemma diff_vee : forall a b, p6ang (position6DFromTransformDiff a b) = vee (rel a b).
Proof. intros a b. drec. unr. pair_eq; field. Qed.

Lemma vee_turns : forall M th u, turns_about M th u -> vee M = vscale (sin th) u.
Proof.
  intros M th ((u1, u2), u3) [h0 h].
  pose proof (h (1, 0, 0)) as h1. pose proof (h (0, 1, 0)) as h2. pose proof (h (0, 0, 1)) as h3.
  unfold mapply, rodrigues, vadd, vscale, vcross, vdot, sum3, vx, vy, vz in h1, h2, h3. cbn in h1, h2, h3.
  injection h1 as a1 a2 a3. injection h2 as b1 b2 b3. injection h3 as c1 c2 c3.
  unfold vee, vscale, vx, vy, vz. cbn [fst snd]. pair_eq; lra.
Qed.

Lemma sin_cubic : forall x, 0 <= x <= PI -> 0 <= x - sin x <= x * x * x / 6.
Proof.
  intros x h. destruct (sin_bound x 0 (proj1 h) (proj2 h)) as [B1 _].
  unfold sin_approx, sin_term in B1. cbn in B1. split; [|lra].
  destruct (Rle_lt_or_eq_dec 0 x (proj1 h)) as [l|<-]; [generalize (sin_lt_x x l); lra|rewrite sin_0; lra].
Qed.

Lemma meq_mapply : forall M N, meq M N -> forall v, mapply M v = mapply N v.
Proof.
  intros M N h v. unfold mapply, sum3. unfold meq in h.
  rewrite (h 0%nat 0%nat), (h 0%nat 1%nat), (h 0%nat 2%nat), (h 1%nat 0%nat), (h 1%nat 1%nat), (h 1%nat 2%nat), (h 2%nat 0%nat), (h 2%nat 1%nat), (h 2%nat 2%nat) by lia. reflexivity.
Qed.
Lemma turns_meq : forall M N th u, meq M N -> turns_about M th u -> turns_about N th u.
Proof. intros M N th u e [h1 h2]. split; [exact h1|]. intro v. rewrite <- (meq_mapply M N e v). apply h2. Qed.
Lemma rel_tmat : forall a b, meq (tmat (t_mul b (t_inverse a))) (rel a b).
Proof.
  intros a b i j hi hj. drec. destruct i as [|[|[|i]]]; [..|exfalso; clear -hi; lia]; (destruct j as [|[|[|j]]]; [..|exfalso; clear -hj; lia]); unr; ring.
Qed.

(** The relative rotation moves the turned vector. *)
Lemma rel_apply : forall a b v, orthonormal (tmat a) -> mapply (rel a b) (mapply (tmat a) v) = mapply (tmat b) v.
Proof.
  intros a b ((v1, v2), v3) h. unfold orthonormal, meq in h.
  assert (H : forall i j, (i < 3)%nat -> (j < 3)%nat -> sum3 (fun k => tmat a k i * tmat a k j) = mident i j) by (intros i j hi hj; apply h; assumption).
  assert (E : forall i, sum3 (fun k => rel a b i k * sum3 (fun l => tmat a k l * (match l with 0%nat => v1 | 1%nat => v2 | _ => v3 end))) =
    sum3 (fun l => (sum3 (fun m => tmat b i m * sum3 (fun k => tmat a k m * tmat a k l))) * (match l with 0%nat => v1 | 1%nat => v2 | _ => v3 end))).
  { intro i. unfold rel, mmul, mtrans, sum3. ring. }
  assert (F : forall i, sum3 (fun l => (sum3 (fun m => tmat b i m * sum3 (fun k => tmat a k m * tmat a k l))) * (match l with 0%nat => v1 | 1%nat => v2 | _ => v3 end)) =
    tmat b i 0%nat * v1 + tmat b i 1%nat * v2 + tmat b i 2%nat * v3).
  { intro i. set (B := tmat b). set (A := fun m l => sum3 (fun k => tmat a k m * tmat a k l)).
    assert (HA : forall i j, (i < 3)%nat -> (j < 3)%nat -> A i j = mident i j) by exact H.
    change (sum3 (fun l => (sum3 (fun m => B i m * A m l)) * (match l with 0%nat => v1 | 1%nat => v2 | _ => v3 end)) = B i 0%nat * v1 + B i 1%nat * v2 + B i 2%nat * v3).
    unfold sum3. rewrite !HA by lia. unfold mident. cbn [Nat.eqb]. ring. }
  unfold mapply, vx, vy, vz. cbn [fst snd].
  pair_eq.
  - etransitivity; [exact (E 0%nat)|]. exact (F 0%nat).
  - etransitivity; [exact (E 1%nat)|]. exact (F 1%nat).
  - etransitivity; [exact (E 2%nat)|]. exact (F 2%nat).
Qed.

Lemma vnorm_le : forall u k, 0 <= k -> vdot u u <= k * k -> vnorm u <= k.
Proof.
  intros u k hk h. unfold vnorm. rewrite <- (sqrt_square k hk). now apply sqrt_le_1_alt.
Qed.
Lemma vdot_pos : forall u, 0 <= vdot u u.
Proof. intro u. unfold vdot. pose proof (Rle_0_sqr (vx u)). pose proof (Rle_0_sqr (vy u)). pose proof (Rle_0_sqr (vz u)). unfold Rsqr in *. lra. Qed.
Lemma vnorm_sq : forall u, vnorm u * vnorm u = vdot u u.
Proof. intro u. apply sqrt_sqrt, vdot_pos. Qed.
Lemma orth_norm : forall M v, orthonormal M -> vdot (mapply M v) (mapply M v) = vdot v v.
Proof.
  intros M ((v1, v2), v3) h.
  assert (H : forall i j, (i < 3)%nat -> (j < 3)%nat -> sum3 (fun k => M k i * M k j) = mident i j) by (intros i j hi hj; apply h; assumption).
  pose proof (H 0 0 ltac:(lia) ltac:(lia))%nat as h00. pose proof (H 1 1 ltac:(lia) ltac:(lia))%nat as h11. pose proof (H 2 2 ltac:(lia) ltac:(lia))%nat as h22.
  pose proof (H 0 1 ltac:(lia) ltac:(lia))%nat as h01. pose proof (H 0 2 ltac:(lia) ltac:(lia))%nat as h02. pose proof (H 1 2 ltac:(lia) ltac:(lia))%nat as h12.
  unfold sum3, mident in *. cbn [Nat.eqb] in *.
  unfold vdot, mapply, vx, vy, vz. cbn [fst snd].
  transitivity (v1*v1*(M 0%nat 0%nat * M 0%nat 0%nat + M 1%nat 0%nat * M 1%nat 0%nat + M 2%nat 0%nat * M 2%nat 0%nat)
    + v2*v2*(M 0%nat 1%nat * M 0%nat 1%nat + M 1%nat 1%nat * M 1%nat 1%nat + M 2%nat 1%nat * M 2%nat 1%nat)
    + v3*v3*(M 0%nat 2%nat * M 0%nat 2%nat + M 1%nat 2%nat * M 1%nat 2%nat + M 2%nat 2%nat * M 2%nat 2%nat)
    + 2*v1*v2*(M 0%nat 0%nat * M 0%nat 1%nat + M 1%nat 0%nat * M 1%nat 1%nat + M 2%nat 0%nat * M 2%nat 1%nat)
    + 2*v1*v3*(M 0%nat 0%nat * M 0%nat 2%nat + M 1%nat 0%nat * M 1%nat 2%nat + M 2%nat 0%nat * M 2%nat 2%nat)
    + 2*v2*v3*(M 0%nat 1%nat * M 0%nat 2%nat + M 1%nat 1%nat * M 1%nat 2%nat + M 2%nat 1%nat * M 2%nat 2%nat)).
  - ring.
  - rewrite h00, h11, h22, h01, h02, h12. ring.
Qed.


Lemma C74_differential_proof : forall a b : Transform R, rigid a -> rigid b ->
  let p := position6DFromTransformDiff a b in
  let rel := mmul (tmat b) (mtrans (tmat a)) in
  p6lin p = vsub (tpos b) (tpos a) /\
  (forall th u, turns_about rel th u -> p6ang p = vscale (sin th) u) /\
  (exists th u, 0 <= th <= PI /\ turns_about rel th u).
Proof.
  intros a b ha hb p M. split; [|split].
  - subst p. drec. unr. reflexivity.
  - intros th u h. unfold p. rewrite diff_vee. now apply vee_turns.
  - destruct (Proofs_ExpLogExact.C16_euler_proof (t_mul b (t_inverse a))) as (th&u&h1&h2).
    + destruct (Proofs_Rotation.C05_transform_closure_proof b (t_inverse a)) as [h _]; auto.
      destruct (Proofs_Rotation.C05_transform_closure_proof a a) as (_&h&_); auto.
    + exists th, u. split; [exact h1|]. exact (turns_meq _ _ _ _ (rel_tmat a b) h2).
Qed.


Lemma C74_error_proof : forall (a b : Transform R) (th : R) (u v : vec3), rigid a -> rigid b -> 0 <= th <= PI ->
  turns_about (mmul (tmat b) (mtrans (tmat a))) th u ->
  let p := position6DFromTransformDiff a b in
  vnorm (vsub (vscale th u) (p6ang p)) <= th * th * th / 6 /\
  vnorm (vsub (vsub (motion b v) (motion a v)) (vadd (p6lin p) (vcross (p6ang p) (mapply (tmat a) v)))) <= (1 - cos th) * vnorm v.
Proof.
  intros a b th u v ha hb ht hu p.
  destruct (C74_differential_proof a b ha hb) as (h1&h2&_). fold p in h1, h2. specialize (h2 th u hu).
  destruct (sin_cubic th ht) as [s1 s2]. destruct hu as [hu1 hu2].
  split.
  - rewrite h2. apply vnorm_le; [lra|]. destruct u as ((u1, u2), u3).
    unfold vdot, vsub, vscale, vx, vy, vz in *. cbn [fst snd] in *.
    replace (_ + _) with ((th - sin th) * (th - sin th) * (u1 * u1 + u2 * u2 + u3 * u3)) by ring. rewrite hu1, Rmult_1_r.
    apply Rmult_le_compat; lra.
  - rewrite h1, h2.
    pose proof (rel_apply a b v (proj1 ha)) as e. unfold rel in e. rewrite hu2 in e.
    set (w := mapply (tmat a) v) in *.
    assert (W : vdot w w = vdot v v) by (apply orth_norm, (proj1 ha)).
    assert (hc : 0 <= 1 - cos th) by (pose proof (COS_bound th); lra).
    apply vnorm_le; [apply Rmult_le_pos; [exact hc|apply sqrt_pos]|].
    replace ((1 - cos th) * vnorm v * ((1 - cos th) * vnorm v)) with ((1 - cos th) * (1 - cos th) * (vnorm v * vnorm v)) by ring.
    rewrite vnorm_sq, <- W. unfold motion. rewrite <- e. fold w.
    assert (E : vdot (vsub (vsub (vadd (rodrigues th u w) (tpos b)) (vadd w (tpos a))) (vadd (vsub (tpos b) (tpos a)) (vcross (vscale (sin th) u) w)))
                     (vsub (vsub (vadd (rodrigues th u w) (tpos b)) (vadd w (tpos a))) (vadd (vsub (tpos b) (tpos a)) (vcross (vscale (sin th) u) w)))
      = (1 - cos th) * (1 - cos th) * (vdot w w + vdot u w * vdot u w * (vdot u u - 2))).
    { destruct u as ((u1, u2), u3), w as ((w1, w2), w3), (tpos a) as ((a1, a2), a3), (tpos b) as ((b1, b2), b3).
      unfold vdot, vsub, vadd, vcross, vscale, rodrigues, vadd, vscale, vcross, vdot, vx, vy, vz. cbn [fst snd]. ring. }
    rewrite E, hu1. apply Rmult_le_compat_l; [apply Rmult_le_pos; exact hc|].
    pose proof (Rle_0_sqr (vdot u w)) as q. unfold Rsqr in q. lra.
Qed.


Lemma C74_null_proof : forall a b : Transform R, rigid a -> rigid b ->
  let rel := mmul (tmat b) (mtrans (tmat a)) in
  (position6DFromTransformDiff a b = mkPosition6D 0 0 0 0 0 0 <->
   tpos a = tpos b /\ meq (mmul rel rel) mident).
Proof.
  intros a b ha hb M.
  assert (O : orthonormal M).
  { destruct (Proofs_Rotation.C05_transform_closure_proof a a) as (_&h&_); auto.
    destruct (Proofs_Rotation.C05_transform_closure_proof b (t_inverse a)) as [h' _]; auto.
    destruct h' as [h' _]. intros i j hi hj. rewrite <- (h' i j hi hj). unfold mmul, mtrans, sum3.
    pose proof (rel_tmat a b) as e. change (rel a b) with M in e. rewrite !(fun x y hx hy => e x y hx hy) by lia. reflexivity. }
  assert (V : p6ang (position6DFromTransformDiff a b) = vee M) by apply diff_vee.
  assert (Z : position6DFromTransformDiff a b = mkPosition6D 0 0 0 0 0 0 <-> tpos a = tpos b /\ vee M = (0, 0, 0)).
  { assert (D : p6lin (position6DFromTransformDiff a b) = vsub (tpos b) (tpos a)) by (clear; drec; reflexivity).
    rewrite <- V. destruct (position6DFromTransformDiff a b) as [x y z wx wy wz]. unfold p6lin, p6ang in *. cbn in *. clear - D.
    destruct (tpos a) as ((a1, a2), a3), (tpos b) as ((b1, b2), b3). unfold vsub, vx, vy, vz in D. cbn in D. injection D as -> -> ->. split.
    - intro h. injection h as d1 d2 d3 e1 e2 e3. split; pair_eq; lra.
    - intros [h1 h2]. injection h1 as -> -> ->. injection h2 as -> -> ->. f_equal; ring. }
  rewrite Z. apply and_iff_compat_l.
  assert (O' : forall i j, (i < 3)%nat -> (j < 3)%nat -> sum3 (fun k => M k i * M k j) = mident i j) by (intros i j hi hj; apply O; assumption).
  clear - O'. unfold vee. split.
  - intro h. injection h as e1 e2 e3.
    assert (T : forall i j, (i < 3)%nat -> (j < 3)%nat -> M i j = M j i).
    { intros i j hi hj. destruct i as [|[|[|i]]]; try lia; destruct j as [|[|[|j]]]; try lia; lra. }
    intros i j hi hj. rewrite <- (O' i j hi hj). unfold mmul, sum3. rewrite (T i 0%nat), (T i 1%nat), (T i 2%nat) by lia. reflexivity.
  - intro h.
    assert (T : forall i j, (i < 3)%nat -> (j < 3)%nat -> M j i = M i j).
    { intros i j hi hj. transitivity (sum3 (fun k => M k i * mident k j)).
      - unfold sum3, mident. destruct j as [|[|[|j]]]; try lia; cbn [Nat.eqb]; ring.
      - transitivity (sum3 (fun k => M k i * mmul M M k j)).
        + unfold sum3. rewrite !(fun x => h x j) by lia. reflexivity.
        + transitivity (sum3 (fun l => sum3 (fun k => M k i * M k l) * M l j)); [unfold mmul, sum3; ring|].
          unfold sum3 at 1. rewrite !O' by lia. unfold mident. destruct i as [|[|[|i]]]; try lia; cbn [Nat.eqb]; ring. }
    rewrite (T 1 2)%nat, (T 2 0)%nat, (T 0 1)%nat by lia. pair_eq; ring.
Qed.


Lemma C74_antisymmetric_proof : forall a b : Transform R,
  position6DFromTransformDiff b a = p6_neg (position6DFromTransformDiff a b) /\
  position6DFromTransformDiff a a = mkPosition6D 0 0 0 0 0 0.
Proof. intros a b. drec. split; unr; f_equal; field. Qed.



(** ** C75: conversions *)


Lemma C75_rotation_position_proof : forall (r : Rotation R) (p : Position3D R),
  let t := transformFromRotationPosition3D r p in
  transformFromRotationXYZ r (p3_x p) (p3_y p) (p3_z p) = t /\
  t = t_mul (transformFromPosition3D p) (transformFromRotation r) /\
  (forall v, motion t v = vadd (mapply (rmat r) v) (p3v p)) /\
  rotationFromTransform t = r /\ position3DFromTransform t = p /\
  (is_rot r <-> rigid t) /\ t_norm t = p3_norm p.
Proof.
  intros r p t. subst t. split; [reflexivity|]. split; [drec; unr; f_equal; ring|]. split.
  { intros ((v1, v2), v3). drec. reflexivity. }
  split; [drec; reflexivity|]. split; [drec; reflexivity|]. split; [reflexivity|drec; reflexivity].
Qed.


Lemma C75_parts_proof : forall (T : Type) (S : Scalar T) (t : Transform T),
  transformFromRotationPosition3D (rotationFromTransform t) (position3DFromTransform t) = t /\
  p2_x (position2DFromTransform t) = p3_x (position3DFromTransform t) /\
  p2_y (position2DFromTransform t) = p3_y (position3DFromTransform t) /\
  position2DFromPose2D (pose2DFromTransform t) = position2DFromTransform t.
Proof. intros T S t. drec. repeat split. Qed.


Lemma C75_norm_proof : forall t : Transform R, t_norm t = vnorm (tpos t) /\ t_norm t = t_distance t t_id /\
  (rigid t -> t_norm (t_inverse t) = t_norm t).
Proof.
  intro t. split; [drec; reflexivity|]. split.
  - drec. unr. f_equal. ring.
  - intro h. pose proof (orth_norm (mtrans (tmat t)) (tpos t)) as o.
    assert (e : tpos (t_inverse t) = vscale (-1) (mapply (mtrans (tmat t)) (tpos t))).
    { clear. drec. unr. pair_eq; ring. }
    assert (ot : orthonormal (mtrans (tmat t))).
    { destruct (Proofs_Rotation.C05_transform_closure_proof t t h h) as (_&[h' _]&_). exact h'. }
    assert (n : forall x, t_norm x = sqrt (vdot (tpos x) (tpos x))) by (clear; intro; drec; reflexivity).
    rewrite !n, e. f_equal. rewrite <- (o ot). destruct (mapply _ _) as ((x, y), z). unfold vscale, vdot, vx, vy, vz. cbn [fst snd]. ring.
Qed.


Lemma C75_position6D_proof : forall (p : Position3D R) (v : Velocity6D R) (x : Position6D R),
  transformFromPosition6D (position6DFromPosition3D p) = transformFromPosition3D p /\
  position3DFromPosition6D (position6DFromPosition3D p) = p /\
  p6lin (position6DFromVelocity6D v) = vlin v /\ p6ang (position6DFromVelocity6D v) = vang v /\
  (let (q, y) := quaternionPosition3DFromPosition6D x in
     unitq q /\ transformFromDisplacement (mkDisplacement y q) = transformFromPosition6D x).
Proof.
  intros p v x. split; [|split; [|split; [|split]]].
  - destruct p as [a b c]. unfold transformFromPosition6D, position6DFromPosition3D, transformFromPosition3D, t_fromPosition6. cbn [p6_x p6_y p6_z p6_wx p6_wy p6_wz p3_x p3_y p3_z].
    unr. rewrite cos_0, sin_0. f_equal; ring.
  - drec. reflexivity.
  - drec. reflexivity.
  - drec. reflexivity.
  - destruct x as [x y z wx wy wz]. cbn [quaternionPosition3DFromPosition6D p6_x p6_y p6_z p6_wx p6_wy p6_wz].
    destruct (Proofs_Quat.C11_quaternion_from_angles_proof wx wy wz) as [h1 h2].
    split; [exact h1|]. unfold transformFromDisplacement. cbn [d_P d_Q].
    assert (e : transformFromQuaternion (quaternionFromRotation3D (mkRotation3D wx wy wz)) = transformFromRotation (m_from3DRotation wx wy wz)).
    { rewrite <- h2. pose proof (Proofs_Quat.C13_homomorphism_proof _ _ h1 h1) as H. tauto. }
    rewrite e. clear. unr. f_equal; ring.
Qed.


(** ** Others *)


Lemma C02_premultiply_proof : forall (T : Type) (S : Scalar T) (m : mem (Transform T)) (i o : nat), i <> o ->
  t_preMultiply m i o o = t_mul (m i) (m o) /\ (forall x, x <> o -> t_preMultiply m i o x = m x).
Proof.
  intros T S m i o hn.
  set (P := fun m' : mem (Transform T) => m' o = t_mul (m i) (m o) /\ frame m o m').
  change (P (t_preMultiply m i o)).
  assert (H : forall m1, m1 o = m o -> frame m o m1 -> P (t_preMultiply m1 i o)).
  { destruct (m o) as [] eqn:Eo. destruct (m i) as [] eqn:Eq.
    intros m1 h F. cbv delta [t_preMultiply]. mem_steps.
    subst P. split; assumption. }
  apply H; auto using frame_refl.
Qed.


Lemma C02_premultiply_aliased_refuted_proof : exists m : mem (Transform R),
  rigid (m 0%nat) /\ t_preMultiply m 0 0 0%nat <> t_mul (m 0%nat) (m 0%nat).
Proof.
  exists (fun _ => mkTransform 0 (-1) 0 0 1 0 0 0 0 0 1 0). split.
  - apply proper_of_rows. unr. repeat split; ring.
  - intro h. unr in h. injection h; intros. lra.
Qed.


Lemma C04_rotation_vectors_proof : forall (r : Rotation R) (x y z : R),
  m_apply r x y z = mapply (rmat r) (x, y, z) /\
  (let v := m_mul_v3 r (mkVelocity3D x y z) in (v3_xd v, v3_yd v, v3_zd v)) = mapply (rmat r) (x, y, z) /\
  p3v (m_mul_p3 r (mkPosition3D x y z)) = mapply (rmat r) (x, y, z).
Proof. intros r x y z. drec. repeat split; unr; pair_eq; ring. Qed.


Lemma C09_float_vector_proof : forall (T : Type) (S : Scalar T) (t : Transform T) (out : list T),
  t_toFloatVector t out = Ok (ct t) /\ length (ct t) = 12%nat /\
  (t_isTransform t t_isTransform_default_eps = true -> t_ofVector (ct t) = t).
Proof.
  intros T S t out. split; [|split; [reflexivity|]].
  - unfold t_toFloatVector. destruct out as [|x0 [|x1 [|x2 [|x3 [|x4 [|x5 [|x6 [|x7 [|x8 [|x9 [|x10 [|x11 out]]]]]]]]]]]]; reflexivity.
  - intro h. destruct t as [a1 a2 a3 a4 b1 b2 b3 b4 c1 c2 c3 c4]. unfold t_ofVector, ct. cbn [length Nat.eqb orb nth t_r1c1 t_r1c2 t_r1c3 t_r1c4 t_r2c1 t_r2c2 t_r2c3 t_r2c4 t_r3c1 t_r3c2 t_r3c3 t_r3c4]. cbv zeta. rewrite h. reflexivity.
Qed.


Lemma C15_position_direction_proof : forall (a : R) (p : Position3D R), p3_norm p = 1 ->
  exists r, rotationFromAngleDirectionP a p = Ok r /\ turns_about (rmat r) a (p3v p).
Proof.
  intros a [x y z] h.
  assert (n : x*x+y*y+z*z = 1).
  { unfold p3_norm in h. cbn in h. rewrite <- (sqrt_sqrt (x*x+y*y+z*z)); [rewrite h; ring|].
    pose proof (Rle_0_sqr x). pose proof (Rle_0_sqr y). pose proof (Rle_0_sqr z). unfold Rsqr in *. lra. }
  destruct (Proofs_Quat.C15_rodrigues_proof a a x y z n) as (r&_&_&e&_&_&hr&_).
  exists r. split; [exact e|]. split; [exact n|]. intros ((v1, v2), v3).
  exact (hr (mkPosition3D v1 v2 v3)).
Qed.


Lemma C24_gain_proof : forall (k : R) (p : Position3D R) (x : Position6D R),
  (let v := p3_lscale_v3 k p in (v3_xd v, v3_yd v, v3_zd v)) = vscale k (p3v p) /\
  vlin (p6_lscale_v6 k x) = vscale k (p6lin x) /\ vang (p6_lscale_v6 k x) = vscale k (p6ang x).
Proof. intros k p x. drec. repeat split; reflexivity. Qed.


Lemma C26_displacement_tolerance_proof : forall (a b : Displacement R) (eps eps' : R),
  (d_isNear a b eps = true <-> p3_isNear (d_P a) (d_P b) eps = true /\ q_isNear (d_Q a) (d_Q b) eps = true) /\
  (0 < eps -> d_isNear a a eps = true) /\ d_isNear a b eps = d_isNear b a eps /\
  (eps <= eps' -> d_isNear a b eps = true -> d_isNear a b eps' = true) /\
  d_isNear (mkDisplacement (d_P a) (q_scale (d_Q a) (-1))) b eps = d_isNear a b eps.
Proof.
  intros [p q] [p' q'] eps eps'. unfold d_isNear. cbn [d_P d_Q].
  destruct Proofs_Vectors.C26_tolerance_proof as (_&h&_).
  destruct h as (_&p1&p2&p3&_).
  destruct (Proofs_Vectors.C26_quaternion_tolerance_proof q q' eps eps') as (_&q1&q2&q3&q4&_).
  split; [apply andb_true_iff|]. split; [intro e; rewrite (q1 e), (p1 p eps); [reflexivity|lra]|].
  split; [now rewrite (p2 p p'), q2|]. split; [|now rewrite q4].
  intros e. rewrite !andb_true_iff. intros [e1 e2]. split; [exact (p3 p p' eps eps' e e1)|auto].
Qed.
