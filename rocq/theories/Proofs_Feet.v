(** * Lemmas for Props_Feet *)

From Coq Require Import Reals List Lra Lia Psatz Bool Arith ZArith.
Import ListNotations.
From Verif Require Import Scalar RInst F32 RLemmas Model_Base Model_Vec Model_Almath Model_Tools Spec_Polygon Proofs_Geom.
Local Open Scope R_scope.


(** The numbers of the intersection test. *)
Lemma seg_solve : forall ax ay bx by_ dx dy, bx * ay - ax * by_ <> 0 ->
  let rB := (ay * (- dx) + ax * dy) / (bx * ay - ax * by_) in
  (dx + rB * bx) * ay = (dy + rB * by_) * ax.
Proof. intros ax ay bx by_ dx dy h. cbv zeta. field. exact h. Qed.

Lemma seg_unique : forall ax ay bx by_ dx dy tA tB, bx * ay - ax * by_ <> 0 ->
  dx + tB * bx = tA * ax -> dy + tB * by_ = tA * ay ->
  (ay * (- dx) + ax * dy) / (bx * ay - ax * by_) = tB.
Proof.
  intros ax ay bx by_ dx dy tA tB h e1 e2.
  apply Rmult_eq_reg_r with (bx * ay - ax * by_); [|exact h]. unfold Rdiv.
  rewrite Rmult_assoc, Rinv_l, Rmult_1_r by exact h.
  assert (dx = tA * ax - tB * bx) by lra. assert (dy = tA * ay - tB * by_) by lra. subst. ring.
Qed.

Definition seg (a1 a2 b1 b2 c : pt) := @intersectionSegment2D R RScalar a1 a2 b1 b2 c.

Lemma abs_pos_tol : forall x, 1/100000 <= Rabs x -> x <> 0.
Proof. intros x h e. subst. rewrite Rabs_R0 in h. lra. Qed.

(** What the function computes, once the tests are turned into propositions. *)
Lemma seg_spec : forall a1 a2 b1 b2 c : pt,
  (fst (seg a1 a2 b1 b2 c) = true ->
     side_visible a1 a2 /\ 1/100000 <= Rabs (cross_dir a1 a2 b1 b2) /\
     on_segment a1 a2 (snd (seg a1 a2 b1 b2 c)) /\ on_segment b1 b2 (snd (seg a1 a2 b1 b2 c))) /\
  (fst (seg a1 a2 b1 b2 c) = false -> snd (seg a1 a2 b1 b2 c) = c) /\
  (side_visible a1 a2 -> 1/100000 <= Rabs (cross_dir a1 a2 b1 b2) ->
   forall p, on_segment a1 a2 p -> on_segment b1 b2 p -> seg a1 a2 b1 b2 c = (true, p)).
Proof.
  intros [xa1 ya1] [xa2 ya2] [xb1 yb1] [xb2 yb2] c.
  unfold seg, intersectionSegment2D, side_visible, cross_dir, on_segment, between.
  cbn [p2_x p2_y]. rsimp.
  set (ax := xa2 - xa1). set (ay := ya2 - ya1). set (bx := xb2 - xb1). set (by_ := yb2 - yb1).
  assert (D : Rabs (bx * ay - ax * by_) = Rabs (ax * by_ - ay * bx)).
  { rewrite <- Rabs_Ropp. f_equal. ring. }
  destruct (Rltb_spec (Rabs (bx * ay - ax * by_)) (1/100000)) as [h|h].
  { cbn [fst snd]. repeat split; try discriminate. intros _ k. exfalso. lra. }
  assert (D0 : bx * ay - ax * by_ <> 0) by (apply abs_pos_tol; lra).
  generalize (seg_solve ax ay bx by_ (xb1 - xa1) (yb1 - ya1) D0).
  generalize (fun tA tB => seg_unique ax ay bx by_ (xb1 - xa1) (yb1 - ya1) tA tB D0).
  replace (ay * - (xb1 - xa1) + ax * (yb1 - ya1)) with (ay * (xa1 - xb1) + ax * (yb1 - ya1)) by ring.
  set (rB := (ay * (xa1 - xb1) + ax * (yb1 - ya1)) / (bx * ay - ax * by_)). cbv zeta.
  clearbody rB ax ay bx by_. intros U Sv.
  assert (UB : forall tA tB p, p = mkPosition2D (xa1 + tA * ax) (ya1 + tA * ay) ->
     p = mkPosition2D (xb1 + tB * bx) (yb1 + tB * by_) -> rB = tB /\
       xb1 - xa1 + rB * bx = tA * ax /\ yb1 - ya1 + rB * by_ = tA * ay).
  { intros tA tB p e1 e2. rewrite e1 in e2. injection e2 as e3 e4.
    assert (rB = tB) by (apply (U tA tB); lra). subst tB. split; [reflexivity|]. split; lra. }
  set (fin := fun rA : R => if Rltb rA 0 || Rltb 1 rA then (false, c)
               else (true, mkPosition2D (xa1 + rA * ax) (ya1 + rA * ay))).
  assert (F : forall rA, 0 <= rB <= 1 -> 
     xb1 - xa1 + rB * bx = rA * ax -> yb1 - ya1 + rB * by_ = rA * ay ->
     (fst (fin rA) = true ->
       (exists t, 0 <= t <= 1 /\ snd (fin rA) = mkPosition2D (xa1 + t * ax) (ya1 + t * ay)) /\
       (exists t, 0 <= t <= 1 /\ snd (fin rA) = mkPosition2D (xb1 + t * bx) (yb1 + t * by_))) /\
     (fst (fin rA) = false -> snd (fin rA) = c) /\
     (forall p, (exists t, 0 <= t <= 1 /\ p = mkPosition2D (xa1 + t * ax) (ya1 + t * ay)) ->
       (exists t, 0 <= t <= 1 /\ p = mkPosition2D (xb1 + t * bx) (yb1 + t * by_)) -> fin rA = (true, p))).
  { intros rA hB e1 e2. unfold fin.
    destruct (Rltb_spec rA 0) as [k|k]; [|destruct (Rltb_spec 1 rA) as [k2|k2]]; cbn [orb fst snd].
    - repeat split; try discriminate. intros p [tA [hA eA]] [tB [hB' eB]]. exfalso.
      destruct (UB tA tB p eA eB) as [_ [u1 u2]].
      assert ((rA - tA) * (bx * ay - ax * by_) = 0) by (replace ((rA - tA) * (bx * ay - ax * by_)) with (bx * (rA * ay - tA * ay) - by_ * (rA * ax - tA * ax)) by ring; rewrite <- e1, <- e2, <- u1, <- u2; ring).
      apply Rmult_integral in H. destruct H; [lra|contradiction].
    - repeat split; try discriminate. intros p [tA [hA eA]] [tB [hB' eB]]. exfalso.
      destruct (UB tA tB p eA eB) as [_ [u1 u2]].
      assert ((rA - tA) * (bx * ay - ax * by_) = 0) by (replace ((rA - tA) * (bx * ay - ax * by_)) with (bx * (rA * ay - tA * ay) - by_ * (rA * ax - tA * ax)) by ring; rewrite <- e1, <- e2, <- u1, <- u2; ring).
      apply Rmult_integral in H. destruct H; [lra|contradiction].
    - repeat split; try discriminate.
      + exists rA. split; [lra|reflexivity].
      + exists rB. split; [lra|]. f_equal; lra.
      + intros p [tA [hA eA]] [tB [hB' eB]].
        destruct (UB tA tB p eA eB) as [_ [u1 u2]].
        assert ((rA - tA) * (bx * ay - ax * by_) = 0) by (replace ((rA - tA) * (bx * ay - ax * by_)) with (bx * (rA * ay - tA * ay) - by_ * (rA * ax - tA * ax)) by ring; rewrite <- e1, <- e2, <- u1, <- u2; ring).
        apply Rmult_integral in H. destruct H; [|contradiction].
        assert (rA = tA) by lra. subst tA. rewrite eA. reflexivity. }
  fold (fin ((yb1 - ya1 + rB * by_) / ay)). fold (fin ((xb1 - xa1 + rB * bx) / ax)).
  destruct (Rltb_spec rB 0) as [k|k]; [|destruct (Rltb_spec 1 rB) as [k2|k2]]; cbn [orb fst snd].
  - repeat split; try discriminate. intros _ _ p [tA [hA eA]] [tB [hB' eB]]. exfalso.
    destruct (UB tA tB p eA eB) as [u _]. lra.
  - repeat split; try discriminate. intros _ _ p [tA [hA eA]] [tB [hB' eB]]. exfalso.
    destruct (UB tA tB p eA eB) as [u _]. lra.
  - destruct (Rltb_spec (Rabs ax) (1/100000)) as [v|v].
    + destruct (Rltb_spec (Rabs ay) (1/100000)) as [w|w].
      * cbn [fst snd]. repeat split; try discriminate. intros [V|V]; exfalso; lra.
      * assert (ay <> 0) by (apply abs_pos_tol; lra).
        destruct (F ((yb1 - ya1 + rB * by_) / ay)) as [F1 [F2 F3]].
        { lra. } { apply Rmult_eq_reg_r with ay; [|assumption]. rewrite Sv. field. assumption. }
        { field. assumption. }
        repeat split; auto.
        -- right. lra.
        -- lra.
        -- apply F1; assumption.
        -- apply F1; assumption.
    + assert (ax <> 0) by (apply abs_pos_tol; lra).
      destruct (F ((xb1 - xa1 + rB * bx) / ax)) as [F1 [F2 F3]].
      { lra. } { field. assumption. }
      { apply Rmult_eq_reg_r with ax; [|assumption]. rewrite <- Sv. field. assumption. }
      repeat split; auto.
      * left. lra.
      * lra.
      * apply F1; assumption.
      * apply F1; assumption.
Qed.

Lemma C32_segment_sound_proof : forall a1 a2 b1 b2 c p : pt,
  (intersectionSegment2D a1 a2 b1 b2 c = (true, p) -> on_segment a1 a2 p /\ on_segment b1 b2 p) /\
  (intersectionSegment2D a1 a2 b1 b2 c = (false, p) -> p = c).
Proof.
  intros a1 a2 b1 b2 c p. destruct (seg_spec a1 a2 b1 b2 c) as [h1 [h2 _]].
  unfold seg in *. split; intro e; rewrite e in *; cbn [fst snd] in *.
  - destruct (h1 eq_refl) as [_ [_ h]]. exact h.
  - apply h2. reflexivity.
Qed.


Lemma C32_segment_exact_proof : forall a1 a2 b1 b2 c p : pt,
  intersectionSegment2D a1 a2 b1 b2 c = (true, p) <->
  side_visible a1 a2 /\ 1/100000 <= Rabs (cross_dir a1 a2 b1 b2) /\ on_segment a1 a2 p /\ on_segment b1 b2 p.
Proof.
  intros a1 a2 b1 b2 c p. destruct (seg_spec a1 a2 b1 b2 c) as [h1 [h2 h3]].
  unfold seg in *. split.
  - intro e. rewrite e in *. cbn [fst snd] in *. exact (h1 eq_refl).
  - intros [e1 [e2 [e3 e4]]]. apply h3; assumption.
Qed.


Lemma C32_segment_small_refuted_proof : forall c : pt,
  let a1 := mkPosition2D (-15/10000) 0 in let a2 := mkPosition2D (15/10000) 0 in
  let b1 := mkPosition2D 0 (-15/10000) in let b2 := mkPosition2D 0 (15/10000) in
  on_segment a1 a2 (mkPosition2D 0 0) /\ on_segment b1 b2 (mkPosition2D 0 0) /\
  intersectionSegment2D a1 a2 b1 b2 c = (false, c).
Proof.
  intros c. cbv zeta. split; [|split].
  - exists (1/2). split; [lra|]. unfold between. cbn [p2_x p2_y]. f_equal; lra.
  - exists (1/2). split; [lra|]. unfold between. cbn [p2_x p2_y]. f_equal; lra.
  - unfold intersectionSegment2D. cbn [p2_x p2_y]. rsimp.
    rewrite Rltb_true; [reflexivity|]. 
    match goal with |- Rabs ?x < _ => replace x with (-(9/1000000)) by lra end.
    rewrite Rabs_Ropp, Rabs_right; lra.
Qed.




Lemma corner_lt : forall (l : list pt) i, (i < length l)%nat -> corner l i = nth i l (mkPosition2D 0 0).
Proof. intros l i h. unfold corner. rewrite Nat.mod_small by assumption. reflexivity. Qed.

Lemma nth_combine : forall (l m : list pt) i d, length l = length m ->
  nth i (combine l m) (d, d) = (nth i l d, nth i m d).
Proof. intros. apply combine_nth. assumption. Qed.

Lemma sides_spec : forall (l : list pt) a b, In (a, b) (sides l) <-> is_side l a b.
Proof.
  intros l a b. destruct l as [|p r].
  - split; [contradiction|]. intros [i [h _]]. cbn in h. lia.
  - unfold sides. set (l := p :: r) in *. set (m := r ++ [p]).
    assert (L : length l = length m) by (unfold l, m; rewrite app_length; cbn; lia).
    assert (N : forall i d, (i < length l)%nat -> nth i m d = corner l (i + 1)).
    { intros i d h. unfold corner, m. rewrite L in *. unfold m in *. rewrite app_length in *. cbn [length] in *.
      destruct (Nat.eq_dec i (length r)) as [e|e].
      - subst i. rewrite app_nth2, Nat.sub_diag by lia. rewrite Nat.mod_same by lia. reflexivity.
      - rewrite app_nth1 by lia. rewrite Nat.mod_small by lia. replace (i + 1)%nat with (S i) by lia.
        unfold l. cbn [nth]. apply nth_indep. lia. }
    split.
    + intro h. destruct (In_nth _ _ (mkPosition2D 0 0, mkPosition2D 0 0) h) as [i [hi e]].
      rewrite combine_length, <- L, Nat.min_id in hi.
      rewrite nth_combine in e by assumption. injection e as e1 e2. exists i.
      split; [exact hi|]. split.
      * rewrite <- e1. symmetry. apply corner_lt. exact hi.
      * rewrite <- e2. apply N. exact hi.
    + intros [i [hi [e1 e2]]].
      replace (a, b) with (nth i (combine l m) (mkPosition2D 0 0, mkPosition2D 0 0)).
      * apply nth_In. rewrite combine_length, <- L, Nat.min_id. exact hi.
      * rewrite nth_combine by assumption. rewrite N by assumption. rewrite e1, e2, (corner_lt _ i hi). reflexivity.
Qed.

Lemma inside_spec : forall (l : list pt) p, pointInsideBox l p = true <-> strictly_inside l p.
Proof.
  intros l p. unfold pointInsideBox. rewrite forallb_forall. split.
  - intros h a b s. apply sides_spec in s. specialize (h _ s). cbn beta iota in h. rsimp.
    unfold turn. destruct (Rleb_spec 0 ((p2_x b - p2_x a) * (p2_y p - p2_y a) - (p2_y b - p2_y a) * (p2_x p - p2_x a))); [discriminate|lra].
  - intros h [a b] s. apply sides_spec in s. specialize (h _ _ s). unfold turn in h. rsimp.
    rewrite Rleb_false; [reflexivity|]. lra.
Qed.

Lemma corner_mod : forall (l : list pt) i, corner l (i mod length l) = corner l i.
Proof.
  intros l i. unfold corner. destruct l; [reflexivity|]. rewrite Nat.mod_mod by (cbn; lia). reflexivity.
Qed.

Lemma side_any : forall (l : list pt) i, l <> [] -> is_side l (corner l i) (corner l (i + 1)).
Proof.
  intros l i h. assert (L : length l <> 0%nat) by (destruct l; [contradiction|discriminate]).
  exists (i mod length l). split; [apply Nat.mod_upper_bound; assumption|].
  split; [symmetry; apply corner_mod|].
  rewrite <- (corner_mod l (i mod length l + 1)), Nat.add_mod_idemp_l by assumption. rewrite corner_mod. reflexivity.
Qed.

Lemma corner_In : forall (l : list pt) i, l <> [] -> In (corner l i) l.
Proof.
  intros l i h. assert (L : length l <> 0%nat) by (destruct l; [contradiction|discriminate]).
  unfold corner. apply nth_In. apply Nat.mod_upper_bound. assumption.
Qed.

Lemma side_In : forall (l : list pt) a b, is_side l a b -> In a l /\ In b l.
Proof.
  intros l a b [i [h [e1 e2]]]. assert (l <> []) by (destruct l; [cbn in h; lia|discriminate]).
  subst. split; apply corner_In; assumption.
Qed.

Lemma hull_segment : forall l a b p, In a l -> In b l -> on_segment a b p -> hull l p.
Proof. intros l a b p ha hb [t [ht e]] C hC hl. subst p. apply hC; auto. Qed.

(** A point seen with weights [u], [v], [w] from three corners. *)
Lemma hull_triangle : forall l a b c (p : pt) u v w, In a l -> In b l -> In c l ->
  0 <= u -> 0 <= v -> 0 < w ->
  u * (p2_x a - p2_x p) + v * (p2_x b - p2_x p) + w * (p2_x c - p2_x p) = 0 ->
  u * (p2_y a - p2_y p) + v * (p2_y b - p2_y p) + w * (p2_y c - p2_y p) = 0 -> hull l p.
Proof.
  intros l a b c p u v w ha hb hc hu hv hw e1 e2 C hC hl.
  assert (Cbc : C (between b c (w / (v + w)))).
  { apply hC; auto. split.
    - apply Rmult_le_pos; [lra|]. left. apply Rinv_0_lt_compat. lra.
    - apply Rmult_le_reg_r with (v + w); [lra|]. unfold Rdiv. rewrite Rmult_assoc, Rinv_l; lra. }
  assert (e : p = between a (between b c (w / (v + w))) ((v + w) / (u + v + w))).
  { destruct p as [px py]. unfold between. cbn [p2_x p2_y] in *. apply mkPosition2D_eq.
    - apply Rmult_eq_reg_r with (u + v + w); [|lra]. field_simplify; [|lra]. lra.
    - apply Rmult_eq_reg_r with (u + v + w); [|lra]. field_simplify; [|lra]. lra. }
  rewrite e. apply hC; auto. split.
  - apply Rmult_le_pos; [lra|]. left. apply Rinv_0_lt_compat. lra.
  - apply Rmult_le_reg_r with (u + v + w); [lra|]. unfold Rdiv. rewrite Rmult_assoc, Rinv_l; lra.
Qed.

(** First sign change along a finite sequence. *)
Lemma sign_change : forall (f : nat -> R) n, f 0%nat <= 0 -> 0 < f n -> exists i, (i < n)%nat /\ f i <= 0 /\ 0 < f (i + 1)%nat.
Proof.
  intros f n h0 hn. induction n as [|n IH]; [lra|].
  destruct (Rlt_dec 0 (f n)) as [h|h].
  - destruct (IH h) as [i [a b]]. exists i. split; [lia|exact b].
  - exists n. split; [lia|]. split; [lra|]. replace (n + 1)%nat with (S n) by lia. exact hn.
Qed.

Lemma inside_hull : forall l p, l <> [] -> strictly_inside l p -> hull l p.
Proof.
  intros l p hl h.
  assert (L : (0 < length l)%nat) by (destruct l; [contradiction|cbn; lia]).
  set (f := fun i => turn p (corner l 0) (corner l (i + 1))).
  assert (T : forall i, turn (corner l i) (corner l (i + 1)) p < 0) by (intro i; apply h; apply side_any; assumption).
  assert (Z : corner l (length l) = corner l 0).
  { rewrite <- corner_mod, Nat.mod_same by lia. reflexivity. }
  destruct (sign_change f (length l - 2)) as [i [hi [f1 f2]]].
  - unfold f. cbn [Nat.add]. generalize (T 0%nat). cbn [Nat.add]. unfold turn. lra.
  - destruct (Nat.eq_dec (length l) 1) as [e|e].
    + exfalso. generalize (T 0%nat). cbn [Nat.add]. rewrite <- e, Z. unfold turn. lra.
    + unfold f. replace (length l - 2 + 1)%nat with (length l - 1)%nat by lia.
      generalize (T (length l - 1)%nat). replace (length l - 1 + 1)%nat with (length l) by lia. rewrite Z.
      unfold turn. lra.
  - unfold f in f1, f2. generalize (T (i + 1)%nat). intro f3.
    apply (hull_triangle l (corner l (i + 1)) (corner l (i + 1 + 1)) (corner l 0) p
      (turn p (corner l 0) (corner l (i + 1 + 1))) (- turn p (corner l 0) (corner l (i + 1)))
      (- turn (corner l (i + 1)) (corner l (i + 1 + 1)) p)); try (apply corner_In; assumption); try lra.
    + unfold turn. ring.
    + unfold turn. ring.
Qed.

Definition collide := @areTwoBoxesInCollision R RScalar.

Lemma collide_spec : forall A B, collide A B = true <->
  (exists a1 a2 b1 b2, is_side A a1 a2 /\ is_side B b1 b2 /\ fst (intersectionSegment2D a1 a2 b1 b2 p2_default) = true)
  \/ (A <> [] /\ strictly_inside B (corner A 0)) \/ (B <> [] /\ strictly_inside A (corner B 0)).
Proof.
  intros A B. unfold collide, areTwoBoxesInCollision. rewrite !orb_true_iff. rewrite existsb_exists.
  assert (K : forall X Y, match X with [] => false | a0 :: _ => pointInsideBox Y a0 end = true <->
     X <> [] /\ strictly_inside Y (corner X 0)).
  { intros X Y. destruct X as [|x X].
    - split; [discriminate|]. intros [h _]. contradiction.
    - rewrite inside_spec. assert (e : corner (x :: X) 0 = x) by (unfold corner; rewrite Nat.mod_0_l by discriminate; reflexivity).
      rewrite e. split; [|intros [_ h]; exact h]. intro h. split; [discriminate|exact h]. }
  rewrite (K A B), (K B A), or_assoc. apply or_iff_compat_r. split.
  - intros [[a1 a2] [h1 h2]]. cbn beta iota in h2. apply existsb_exists in h2. destruct h2 as [[b1 b2] [h3 h4]].
    exists a1, a2, b1, b2. rewrite <- !sides_spec. auto.
  - intros [a1 [a2 [b1 [b2 [h1 [h2 h3]]]]]]. exists (a1, a2). apply sides_spec in h1. split; [exact h1|].
    cbn beta iota. apply existsb_exists. exists (b1, b2). apply sides_spec in h2. split; assumption.
Qed.

Lemma C32_collision_exact_proof : forall A B : list pt,
  areTwoBoxesInCollision A B = true <->
  (exists a1 a2 b1 b2 p, is_side A a1 a2 /\ is_side B b1 b2 /\ side_visible a1 a2 /\
     1/100000 <= Rabs (cross_dir a1 a2 b1 b2) /\ on_segment a1 a2 p /\ on_segment b1 b2 p) \/
  (exists a l, A = a :: l /\ strictly_inside B a) \/ (exists b l, B = b :: l /\ strictly_inside A b).
Proof.
  intros A B.
  assert (K : forall X Y : list pt, (X <> [] /\ strictly_inside Y (corner X 0)) <-> exists a l, X = a :: l /\ strictly_inside Y a).
  { intros [|x X] Y.
    - split; [intros [h _]; contradiction|intros (a&l&e&_); discriminate].
    - assert (e : corner (x :: X) 0 = x) by (unfold corner; rewrite Nat.mod_0_l by discriminate; reflexivity).
      rewrite e. split; [intros [_ h]; exists x, X; auto|intros (a&l&e'&h)]. injection e' as -> _. split; [discriminate|exact h]. }
  rewrite <- !K. etransitivity; [apply (collide_spec A B)|]. apply or_iff_compat_r. split.
  - intros (a1&a2&b1&b2&s1&s2&e). destruct (intersectionSegment2D a1 a2 b1 b2 p2_default) as [r p] eqn:E. cbn [fst] in e. subst r.
    apply C32_segment_exact_proof in E. exists a1, a2, b1, b2, p. tauto.
  - intros (a1&a2&b1&b2&p&s1&s2&h). exists a1, a2, b1, b2. split; [exact s1|]. split; [exact s2|].
    apply C32_segment_exact_proof with (c := p2_default) in h. now rewrite h.
Qed.


Lemma C32_collision_sound_proof : forall A B : list pt, A <> [] -> B <> [] ->
  areTwoBoxesInCollision A B = true -> exists p, hull A p /\ hull B p.
Proof.
  intros A B hA hB h. apply collide_spec in h. destruct h as [h|[[_ h]|[_ h]]].
  - destruct h as [a1 [a2 [b1 [b2 [s1 [s2 e]]]]]].
    destruct (intersectionSegment2D a1 a2 b1 b2 p2_default) as [r p] eqn:E. cbn [fst] in e. subst r.
    apply C32_segment_sound_proof in E. destruct E as [k1 k2]. exists p.
    apply side_In in s1. apply side_In in s2.
    destruct s1 as [i1 i2]. destruct s2 as [i3 i4].
    split; [apply (hull_segment A a1 a2)|apply (hull_segment B b1 b2)]; assumption.
  - exists (corner A 0). split.
    + intros C hC hl. apply hl. apply corner_In. assumption.
    + apply inside_hull; assumption.
  - exists (corner B 0). split.
    + apply inside_hull; assumption.
    + intros C hC hl. apply hl. apply corner_In. assumption.
Qed.


Lemma C32_separated_proof : forall (A B : list pt) u v k, A <> [] -> B <> [] ->
  (forall p, In p A -> u * p2_x p + v * p2_y p <= k) ->
  (forall p, In p B -> k < u * p2_x p + v * p2_y p) ->
  areTwoBoxesInCollision A B = false.
Proof.
  intros A B u v k hA hB sA sB. destruct (areTwoBoxesInCollision A B) eqn:E; [|reflexivity]. exfalso.
  destruct (C32_collision_sound_proof A B hA hB E) as [p [pA pB]].
  assert (u * p2_x p + v * p2_y p <= k).
  { apply (pA (fun p => u * p2_x p + v * p2_y p <= k)); [|exact sA].
    intros a b t ca cb ht. unfold between. cbn [p2_x p2_y]. nra. }
  assert (k < u * p2_x p + v * p2_y p).
  { apply (pB (fun p => k < u * p2_x p + v * p2_y p)); [|exact sB].
    intros a b t ca cb ht. unfold between. cbn [p2_x p2_y].
    destruct (Rle_dec t (1/2)).
    - assert (0 <= t * (u * p2_x b + v * p2_y b - k)) by (apply Rmult_le_pos; lra).
      assert (0 < (1 - t) * (u * p2_x a + v * p2_y a - k)) by (apply Rmult_lt_0_compat; lra). lra.
    - assert (0 < t * (u * p2_x b + v * p2_y b - k)) by (apply Rmult_lt_0_compat; lra).
      assert (0 <= (1 - t) * (u * p2_x a + v * p2_y a - k)) by (apply Rmult_le_pos; lra). lra. }
  lra.
Qed.


Lemma C32_symmetric_visible_proof : forall A B : list pt,
  (forall a b, is_side A a b \/ is_side B a b -> side_visible a b) ->
  areTwoBoxesInCollision A B = areTwoBoxesInCollision B A.
Proof.
  assert (W : forall A B : list pt, (forall a b, is_side A a b \/ is_side B a b -> side_visible a b) ->
    collide A B = true -> collide B A = true).
  { intros A B hv h. apply collide_spec. apply collide_spec in h.
    destruct h as [h|[h|h]]; [|right; right; exact h|right; left; exact h]. left.
    destruct h as [a1 [a2 [b1 [b2 [s1 [s2 e]]]]]]. exists b1, b2, a1, a2. split; [exact s2|]. split; [exact s1|].
    destruct (intersectionSegment2D a1 a2 b1 b2 p2_default) as [r p] eqn:E. cbn [fst] in e. subst r.
    apply C32_segment_exact_proof in E. destruct E as [_ [k1 [k2 k3]]].
    assert (E : intersectionSegment2D b1 b2 a1 a2 p2_default = (true, p)).
    { apply C32_segment_exact_proof. split; [apply hv; auto|]. split; [|split; assumption].
      replace (cross_dir b1 b2 a1 a2) with (- cross_dir a1 a2 b1 b2) by (unfold cross_dir; ring).
      rewrite Rabs_Ropp. exact k1. }
    rewrite E. reflexivity. }
  intros A B hv. fold (collide A B) (collide B A).
  destruct (collide A B) eqn:E1; destruct (collide B A) eqn:E2; auto.
  - rewrite (W A B hv E1) in E2. discriminate.
  - rewrite (W B A) in E1; [discriminate| |exact E2]. intros a b [k|k]; apply hv; auto.
Qed.


(** Where a segment from a point strictly inside leaves: [f] maps each constraint to its
    values at the two ends. *)
Lemma exit_time : forall (L : list (R * R)), (forall u v, In (u, v) L -> u < 0) ->
  (forall u v, In (u, v) L -> v < 0) \/
  exists t, 0 < t <= 1 /\ (forall u v, In (u, v) L -> u + t * (v - u) <= 0) /\
    exists u v, In (u, v) L /\ u + t * (v - u) = 0.
Proof.
  induction L as [|[u v] L IH]; intro h.
  - left. intros u v [].
  - assert (hu : u < 0) by (apply (h u v); left; reflexivity).
    assert (hL : forall a b, In (a, b) L -> a < 0) by (intros a b i; apply (h a b); right; exact i).
    (* a point before [t] still satisfies the constraints *)
    assert (M : forall a b t s, a < 0 -> 0 <= s <= t -> a + t * (b - a) <= 0 -> a + s * (b - a) <= 0).
    { intros a b t s ha hs k. destruct (Rle_dec (b - a) 0); nra. }
    destruct (Rlt_dec v 0) as [hv|hv].
    + destruct (IH hL) as [k|[t [ht [k1 k2]]]].
      * left. intros a b [e|i]; [injection e as -> ->; exact hv|apply (k a b i)].
      * right. exists t. split; [exact ht|]. split.
        -- intros a b [e|i]; [injection e as -> ->; nra|apply k1; exact i].
        -- destruct k2 as [a [b [i e]]]. exists a, b. split; [right; exact i|exact e].
    + set (s := (- u) / (v - u)).
      assert (hd : 0 < v - u) by lra.
      assert (es : u + s * (v - u) = 0) by (unfold s; field; lra).
      assert (hs : 0 < s <= 1).
      { unfold s. split; [apply Rdiv_lt_0_compat; lra|].
        apply Rmult_le_reg_r with (v - u); [exact hd|]. unfold Rdiv. rewrite Rmult_assoc, Rinv_l; lra. }
      right. destruct (IH hL) as [k|[t [ht [k1 k2]]]].
      * exists s. split; [exact hs|]. split.
        -- intros a b [e|i]; [injection e as -> ->; lra|]. 
           generalize (k a b i) (hL a b i). intros. nra.
        -- exists u, v. split; [left; reflexivity|exact es].
      * destruct (Rle_dec s t) as [c|c].
        -- exists s. split; [exact hs|]. split.
           ++ intros a b [e|i]; [injection e as -> ->; lra|]. apply (M a b t s); auto; try lra. apply (hL a b i).
           ++ exists u, v. split; [left; reflexivity|exact es].
        -- exists t. split; [exact ht|]. split.
           ++ intros a b [e|i]; [injection e as -> ->|apply k1; exact i]. apply (M a b s t); lra.
           ++ destruct k2 as [a [b [i e]]]. exists a, b. split; [right; exact i|exact e].
Qed.

Lemma turn_between : forall a b p q t, turn a b (between p q t) = turn a b p + t * (turn a b q - turn a b p).
Proof. intros. unfold turn, between. cbn [p2_x p2_y]. ring. Qed.

Lemma poly_exit : forall B p r, strictly_inside B p -> ~ strictly_inside B r ->
  exists t b1 b2, 0 < t <= 1 /\ (forall c d, is_side B c d -> turn c d (between p r t) <= 0) /\
    is_side B b1 b2 /\ turn b1 b2 (between p r t) = 0.
Proof.
  intros B p r hp hr.
  set (L := map (fun s : pt * pt => (turn (fst s) (snd s) p, turn (fst s) (snd s) r)) (sides B)).
  assert (IL : forall c d, is_side B c d -> In (turn c d p, turn c d r) L).
  { intros c d s. apply sides_spec in s. unfold L. apply in_map_iff. exists (c, d). auto. }
  assert (LI : forall u v, In (u, v) L -> exists c d, is_side B c d /\ u = turn c d p /\ v = turn c d r).
  { intros u v i. unfold L in i. apply in_map_iff in i. destruct i as [[c d] [e i]]. cbn [fst snd] in e.
    injection e as <- <-. exists c, d. apply sides_spec in i. auto. }
  destruct (exit_time L) as [k|[t [ht [k1 [u [v [i e]]]]]]].
  - intros u v i. destruct (LI u v i) as [c [d [s [-> _]]]]. apply hp. exact s.
  - exfalso. apply hr. intros c d s. apply (k (turn c d p)). apply IL. exact s.
  - destruct (LI u v i) as [b1 [b2 [s [-> ->]]]]. exists t, b1, b2. split; [exact ht|]. split.
    + intros c d s'. rewrite turn_between. apply k1. apply IL. exact s'.
    + split; [exact s|]. rewrite turn_between. exact e.
Qed.

(** On a strictly convex polygon, consecutive corners turn right. *)
Lemma convex_turn : forall B i, convex_clockwise B -> turn (corner B i) (corner B (i + 1)) (corner B (i + 2)) < 0.
Proof.
  intros B i [h3 h]. set (n := length B) in *.
  set (k := (i mod n)%nat). assert (hk : (k < n)%nat) by (apply Nat.mod_upper_bound; lia).
  assert (E : forall j, corner B ((k + j) mod n) = corner B (i + j)).
  { intro j. unfold k. rewrite Nat.add_mod_idemp_l by lia. apply corner_mod. }
  specialize (h k ((k + 2) mod n)%nat hk).
  rewrite E in h. rewrite <- (corner_mod B (k + 1)) in h. fold n in h. rewrite E in h.
  replace (corner B k) with (corner B i) in h by (unfold k; symmetry; apply corner_mod).
  apply h.
  - apply Nat.mod_upper_bound. lia.
  - destruct (Nat.lt_ge_cases (k + 2) n) as [c|c].
    + rewrite Nat.mod_small by lia. lia.
    + assert (e2 : ((k + 2) mod n = k + 2 - n)%nat) by (symmetry; apply Nat.mod_unique with 1%nat; lia). lia.
  - destruct (Nat.lt_ge_cases (k + 2) n) as [c|c].
    + rewrite !Nat.mod_small by lia. lia.
    + assert (e2 : ((k + 2) mod n = k + 2 - n)%nat).
      { symmetry. apply Nat.mod_unique with 1%nat; lia. }
      rewrite e2. destruct (Nat.lt_ge_cases (k + 1) n) as [c'|c'].
      * rewrite Nat.mod_small by lia. lia.
      * assert (e1 : ((k + 1) mod n = k + 1 - n)%nat) by (symmetry; apply Nat.mod_unique with 1%nat; lia).
        rewrite e1. lia.
Qed.

Lemma pred_index : forall (B : list pt) i, (0 < length B)%nat -> exists k, corner B (k + 1) = corner B i /\ corner B (k + 2) = corner B (i + 1).
Proof.
  intros B i h. exists (i + (length B - 1))%nat. set (n := length B) in *.
  assert (E : forall j, corner B (j + n) = corner B j).
  { intro j. rewrite <- (corner_mod B (j + n)). fold n. replace (j + n)%nat with (j + 1 * n)%nat by lia.
    rewrite Nat.mod_add by lia. apply corner_mod. }
  replace (i + (n - 1) + 1)%nat with (i + n)%nat by lia. replace (i + (n - 1) + 2)%nat with (i + 1 + n)%nat by lia.
  split; apply E.
Qed.

(** Two distinct points of a line: any third one is between them up to scale. *)
Lemma turn_line : forall a b x : pt, a <> b -> turn a b x = 0 -> exists s, x = between a b s.
Proof.
  intros [ax ay] [bx by_] [x y] n e. unfold turn, between in *. cbn [p2_x p2_y] in *.
  assert (D : (bx - ax) * (bx - ax) + (by_ - ay) * (by_ - ay) <> 0).
  { intro h. apply sum2sq_0 in h. apply n. f_equal; lra. }
  exists (((x - ax) * (bx - ax) + (y - ay) * (by_ - ay)) / ((bx - ax) * (bx - ax) + (by_ - ay) * (by_ - ay))).
  apply mkPosition2D_eq.
  - apply Rmult_eq_reg_r with ((bx - ax) * (bx - ax) + (by_ - ay) * (by_ - ay)); [|exact D].
    field_simplify; [|exact D].
    assert (k : (bx - ax) * (y - ay) * (by_ - ay) = (by_ - ay) * (x - ax) * (by_ - ay)) by (f_equal; lra).
    nra.
  - apply Rmult_eq_reg_r with ((bx - ax) * (bx - ax) + (by_ - ay) * (by_ - ay)); [|exact D].
    field_simplify; [|exact D].
    assert (k : (bx - ax) * (y - ay) * (bx - ax) = (by_ - ay) * (x - ax) * (bx - ax)) by (f_equal; lra).
    nra.
Qed.

Lemma on_side : forall B b1 b2 x, convex_clockwise B -> is_side B b1 b2 ->
  (forall c d, is_side B c d -> turn c d x <= 0) -> turn b1 b2 x = 0 -> on_segment b1 b2 x.
Proof.
  intros B b1 b2 x hB [i [hi [-> ->]]] hx e.
  assert (hn : B <> []) by (destruct B; [cbn in hi; lia|discriminate]).
  generalize (convex_turn B i hB). intro T1.
  destruct (pred_index B i) as [k [k1 k2]]; [lia|].
  generalize (convex_turn B k hB). rewrite k1, k2. intro T0.
  destruct (turn_line (corner B i) (corner B (i + 1)) x) as [s es].
  { intro q. rewrite q in T1. unfold turn in T1. lra. }
  { exact e. }
  exists s. split; [|exact es]. split.
  - generalize (hx _ _ (side_any B k hn)). rewrite k1. subst x. rewrite turn_between.
    replace (turn (corner B k) (corner B i) (corner B i)) with 0 by (unfold turn; ring). nra.
  - generalize (hx _ _ (side_any B (i + 1) hn)). replace (i + 1 + 1)%nat with (i + 2)%nat by lia.
    subst x. rewrite turn_between.
    replace (turn (corner B (i + 1)) (corner B (i + 2)) (corner B (i + 1))) with 0 by (unfold turn; ring).
    replace (turn (corner B (i + 1)) (corner B (i + 2)) (corner B i)) with (turn (corner B i) (corner B (i + 1)) (corner B (i + 2))) by (unfold turn; ring).
    nra.
Qed.

Lemma on_segment_sub : forall a b s t, 0 <= s <= 1 -> 0 <= t <= 1 -> on_segment a b (between (between a b s) b t).
Proof.
  intros a b s t hs ht. exists (s + t * (1 - s)). split; [nra|].
  unfold between. cbn [p2_x p2_y]. f_equal; ring.
Qed.

Lemma cross_dir_turn : forall a1 a2 b1 b2 s t, turn b1 b2 (between a1 a2 s) <> turn b1 b2 (between a1 a2 t) ->
  cross_dir a1 a2 b1 b2 <> 0.
Proof.
  intros a1 a2 b1 b2 s t h e. apply h. rewrite !turn_between.
  replace (turn b1 b2 a2 - turn b1 b2 a1) with (- cross_dir a1 a2 b1 b2) by (unfold cross_dir, turn; ring).
  rewrite e. ring.
Qed.

Lemma between_1 : forall a b, between a b 1 = b.
Proof. intros a [x y]. unfold between. cbn. f_equal; ring. Qed.
Lemma between_0 : forall a b, between a b 0 = a.
Proof. intros [x y] b. unfold between. cbn. f_equal; ring. Qed.

(** A side of [A] going from strictly inside [B] to outside is seen by the edge test. *)
Definition crossing (A B : list pt) := exists a1 a2 b1 b2 p, is_side A a1 a2 /\ is_side B b1 b2 /\
  cross_dir a1 a2 b1 b2 <> 0 /\ on_segment a1 a2 p /\ on_segment b1 b2 p.

Lemma leave_crossing : forall A B a1 a2 s, convex_clockwise B -> is_side A a1 a2 -> 0 <= s <= 1 ->
  strictly_inside B (between a1 a2 s) -> ~ strictly_inside B a2 -> crossing A B.
Proof.
  intros A B a1 a2 s hB sA hs hi ho.
  destruct (poly_exit B _ _ hi ho) as [t [b1 [b2 [ht [hx [sB e]]]]]].
  exists a1, a2, b1, b2, (between (between a1 a2 s) a2 t). split; [exact sA|]. split; [exact sB|].
  split; [|split].
  - assert (E : between (between a1 a2 s) a2 t = between a1 a2 (s + t * (1 - s))).
    { unfold between. cbn [p2_x p2_y]. f_equal; ring. }
    apply (cross_dir_turn a1 a2 b1 b2 s (s + t * (1 - s))). rewrite <- E, e.
    generalize (hi _ _ sB). lra.
  - apply on_segment_sub; lra.
  - apply (on_side B); auto.
Qed.

(** Walking along the corners. *)
Lemma walk_crossing : forall A B k, convex_clockwise B -> A <> [] -> strictly_inside B (corner A k) ->
  ~ strictly_inside B (corner A 0) -> crossing A B.
Proof.
  intros A B k hB hA hk h0.
  assert (L : (0 < length A)%nat) by (destruct A; [contradiction|cbn; lia]).
  assert (W : forall n k, strictly_inside B (corner A k) -> ~ strictly_inside B (corner A (k + n)) -> crossing A B).
  { induction n as [|n IH]; intros j hj hn.
    - exfalso. apply hn. rewrite Nat.add_0_r. exact hj.
    - destruct (pointInsideBox B (corner A (j + 1))) eqn:E.
      + apply inside_spec in E. apply (IH (j + 1)%nat E). replace (j + 1 + n)%nat with (j + S n)%nat by lia. exact hn.
      + apply (leave_crossing A B (corner A j) (corner A (j + 1)) 0 hB); auto.
        * apply side_any; assumption.
        * lra.
        * rewrite between_0. exact hj.
        * intro c. apply inside_spec in c. rewrite c in E. discriminate. }
  apply (W (k * length A - k)%nat k hk).
  replace (k + (k * length A - k))%nat with (k * length A)%nat by nia.
  rewrite <- corner_mod, Nat.mod_mul by lia. exact h0.
Qed.

Lemma corner_inside_weak : forall A c d i, convex_clockwise A -> is_side A c d -> turn c d (corner A i) <= 0.
Proof.
  intros A c d i [h3 h] [j [hj [-> ->]]]. rewrite <- (corner_mod A i).
  assert (hm : (i mod length A < length A)%nat) by (apply Nat.mod_upper_bound; lia).
  set (k := (i mod length A)%nat) in *.
  destruct (Nat.eq_dec k j) as [e|e]; [|destruct (Nat.eq_dec k ((j + 1) mod length A)) as [e'|e']].
  - rewrite e. unfold turn. lra.
  - rewrite e', corner_mod. unfold turn. lra.
  - left. apply h; auto.
Qed.

Lemma overlap_crossing : forall A B q, convex_clockwise A -> convex_clockwise B ->
  strictly_inside A q -> strictly_inside B q ->
  strictly_inside B (corner A 0) \/ strictly_inside A (corner B 0) \/ crossing A B \/ crossing B A.
Proof.
  intros A B q cA cB qA qB.
  assert (nA : A <> []) by (destruct A; [destruct cA as [c _]; cbn in c; lia|discriminate]).
  assert (nB : B <> []) by (destruct B; [destruct cB as [c _]; cbn in c; lia|discriminate]).
  destruct (pointInsideBox B (corner A 0)) eqn:E1; [left; apply inside_spec; exact E1|].
  destruct (pointInsideBox A (corner B 0)) eqn:E2; [right; left; apply inside_spec; exact E2|].
  right. right.
  assert (o1 : ~ strictly_inside B (corner A 0)) by (intro c; apply inside_spec in c; rewrite c in E1; discriminate).
  assert (o2 : ~ strictly_inside A (corner B 0)) by (intro c; apply inside_spec in c; rewrite c in E2; discriminate).
  destruct (poly_exit B q (corner A 0) qB o1) as [t [b1 [b2 [ht [hx [sB e]]]]]].
  assert (x_on : on_segment b1 b2 (between q (corner A 0) t)) by (apply (on_side B); auto).
  destruct (Req_dec t 1) as [t1|t1].
  - (* the first corner of A lies on a side of B: one of its two sides is transversal *)
    subst t. rewrite between_1 in *. left.
    destruct (Req_dec (cross_dir (corner A 0) (corner A 1) b1 b2) 0) as [z|z].
    + destruct (pred_index A 0) as [k [k1 k2]]; [destruct cA; lia|]. cbn [Nat.add] in k2.
      exists (corner A k), (corner A (k + 1)), b1, b2, (corner A 0). split; [apply side_any; assumption|].
      split; [exact sB|]. split; [|split; [|exact x_on]].
      * intro z2. generalize (convex_turn A k cA). rewrite k1, k2. rewrite k1 in z2.
        generalize (hx b1 b2 sB) (qB b1 b2 sB). unfold turn, cross_dir in *. intros u1 u2 u3.
        set (x0 := p2_x (corner A 0)) in *. set (y0 := p2_y (corner A 0)) in *.
        set (x1 := p2_x (corner A 1)) in *. set (y1 := p2_y (corner A 1)) in *.
        set (xk := p2_x (corner A k)) in *. set (yk := p2_y (corner A k)) in *.
        set (bx := p2_x b2 - p2_x b1) in *. set (by_ := p2_y b2 - p2_y b1) in *.
        assert (N : bx <> 0 \/ by_ <> 0).
        { destruct (Req_dec bx 0) as [e0|]; [|left; assumption]. right. intro e1. rewrite e0, e1 in u2. lra. }
        assert (P1 : bx * ((x0 - xk) * (y1 - yk) - (y0 - yk) * (x1 - xk)) = 0).
        { replace (bx * ((x0 - xk) * (y1 - yk) - (y0 - yk) * (x1 - xk)))
            with ((x1 - x0) * ((x0 - xk) * by_ - (y0 - yk) * bx) - (x0 - xk) * ((x1 - x0) * by_ - (y1 - y0) * bx)) by ring.
          rewrite z, z2. ring. }
        assert (P2 : by_ * ((x0 - xk) * (y1 - yk) - (y0 - yk) * (x1 - xk)) = 0).
        { replace (by_ * ((x0 - xk) * (y1 - yk) - (y0 - yk) * (x1 - xk)))
            with ((y1 - y0) * ((x0 - xk) * by_ - (y0 - yk) * bx) - (y0 - yk) * ((x1 - x0) * by_ - (y1 - y0) * bx)) by ring.
          rewrite z, z2. ring. }
        destruct N as [N|N].
        -- apply Rmult_integral in P1. destruct P1; [contradiction|lra].
        -- apply Rmult_integral in P2. destruct P2; [contradiction|lra].
      * rewrite k1. exists 1. split; [lra|]. symmetry. apply between_1.
    + exists (corner A 0), (corner A 1), b1, b2, (corner A 0).
      split; [apply (side_any A 0); assumption|]. split; [exact sB|]. split; [exact z|]. split; [|exact x_on].
      exists 0. split; [lra|]. symmetry. apply between_0.
  - right. (* the exit point is strictly inside A *)
    assert (xA : strictly_inside A (between q (corner A 0) t)).
    { intros c d s. rewrite turn_between. generalize (qA c d s) (corner_inside_weak A c d 0 cA s). intros. nra. }
    destruct x_on as [s [hs es]]. rewrite es in xA.
    destruct (pointInsideBox A b2) eqn:E3.
    + apply inside_spec in E3. destruct sB as [i [hi [-> ->]]].
      apply (walk_crossing B A (i + 1)); auto.
    + apply (leave_crossing B A b1 b2 s); auto. intro c. apply inside_spec in c. rewrite c in E3. discriminate.
Qed.

Lemma C32_collision_convex_proof : forall (A B : list pt) (q : pt),
  convex_clockwise A -> convex_clockwise B -> strictly_inside A q -> strictly_inside B q ->
  (forall a1 a2, is_side A a1 a2 -> side_visible a1 a2) ->
  (forall a1 a2 b1 b2, is_side A a1 a2 -> is_side B b1 b2 -> transversal a1 a2 b1 b2) ->
  areTwoBoxesInCollision A B = true.
Proof.
  intros A B q cA cB qA qB hv ht. apply collide_spec.
  assert (nA : A <> []) by (destruct A; [destruct cA as [c _]; cbn in c; lia|discriminate]).
  assert (nB : B <> []) by (destruct B; [destruct cB as [c _]; cbn in c; lia|discriminate]).
  assert (K : forall a1 a2 b1 b2 p, is_side A a1 a2 -> is_side B b1 b2 -> cross_dir a1 a2 b1 b2 <> 0 ->
    on_segment a1 a2 p -> on_segment b1 b2 p -> fst (intersectionSegment2D a1 a2 b1 b2 p2_default) = true).
  { intros a1 a2 b1 b2 p s1 s2 n o1 o2.
    assert (E : intersectionSegment2D a1 a2 b1 b2 p2_default = (true, p)).
    { apply C32_segment_exact_proof. split; [apply hv; assumption|]. split; [|split; assumption].
      destruct (ht a1 a2 b1 b2 s1 s2); [contradiction|assumption]. }
    rewrite E. reflexivity. }
  destruct (overlap_crossing A B q cA cB qA qB) as [h|[h|[h|h]]].
  - right. left. auto.
  - right. right. auto.
  - left. destruct h as [a1 [a2 [b1 [b2 [p [s1 [s2 [n [o1 o2]]]]]]]]]. exists a1, a2, b1, b2. eauto.
  - left. destruct h as [b1 [b2 [a1 [a2 [p [s1 [s2 [n [o1 o2]]]]]]]]]. exists a1, a2, b1, b2.
    split; [exact s2|]. split; [exact s1|]. apply (K a1 a2 b1 b2 p); auto.
    intro z. apply n. unfold cross_dir in *. lra.
Qed.


Ltac sides4 h := apply sides_spec in h; cbn [sides combine app] in h;
  repeat (destruct h as [h|h]; [injection h as <- <-|]); [..|destruct h].

Lemma side4_intro : forall (l : list pt) a b, In (a, b) (sides l) -> is_side l a b.
Proof. intros. apply sides_spec. assumption. Qed.

Definition rect (x0 y0 x1 y1 : R) : list pt :=
  [mkPosition2D x0 y0; mkPosition2D x0 y1; mkPosition2D x1 y1; mkPosition2D x1 y0].

Lemma collide_false : forall A B,
  (forall a1 a2 b1 b2, is_side A a1 a2 -> is_side B b1 b2 ->
     side_visible a1 a2 -> 1/100000 <= Rabs (cross_dir a1 a2 b1 b2) -> False) ->
  ~ strictly_inside B (corner A 0) -> ~ strictly_inside A (corner B 0) ->
  areTwoBoxesInCollision A B = false.
Proof.
  intros A B h1 h2 h3. destruct (areTwoBoxesInCollision A B) eqn:E; [|reflexivity]. exfalso.
  apply collide_spec in E. destruct E as [[a1 [a2 [b1 [b2 [s1 [s2 e]]]]]]|[[_ E]|[_ E]]]; try contradiction.
  destruct (intersectionSegment2D a1 a2 b1 b2 p2_default) as [r p] eqn:E. cbn [fst] in e. subst r.
  apply C32_segment_exact_proof in E. destruct E as [k1 [k2 _]]. eapply h1; eauto.
Qed.

Lemma Rabs_small : forall x k, -k < x < k -> k <= Rabs x -> False.
Proof. intros x k h. generalize (Rabs_def1 x k). intros. lra. Qed.

Lemma C32_symmetric_refuted_proof :
  let A := [mkPosition2D (-2/1000000) (-2/1000000); mkPosition2D (-2/1000000) (2/1000000);
            mkPosition2D (2/1000000) (2/1000000); mkPosition2D (2/1000000) (-2/1000000)] in
  let B := [mkPosition2D 0 (-10); mkPosition2D 0 10; mkPosition2D 10 10; mkPosition2D 10 (-10)] in
  areTwoBoxesInCollision A B = false /\ areTwoBoxesInCollision B A = true.
Proof.
  cbv zeta. fold (rect (-2/1000000) (-2/1000000) (2/1000000) (2/1000000)). fold (rect 0 (-10) 10 10). split.
  - apply collide_false.
    + intros a1 a2 b1 b2 s1 _ v _. sides4 s1; unfold side_visible in v; cbn [p2_x p2_y] in v;
        destruct v as [v|v]; eapply Rabs_small; try exact v; lra.
    + intro h. generalize (h (mkPosition2D 0 (-10)) (mkPosition2D 0 10)). unfold turn, corner. cbn. intro k.
      assert (is_side (rect 0 (-10) 10 10) (mkPosition2D 0 (-10)) (mkPosition2D 0 10)) by (apply side4_intro; left; reflexivity).
      specialize (k H). lra.
    + intro h. generalize (h (mkPosition2D (2/1000000) (-2/1000000)) (mkPosition2D (-2/1000000) (-2/1000000))). unfold turn, corner. cbn. intro k.
      assert (is_side (rect (-2/1000000) (-2/1000000) (2/1000000) (2/1000000)) (mkPosition2D (2/1000000) (-2/1000000)) (mkPosition2D (-2/1000000) (-2/1000000))) by (apply side4_intro; right; right; right; left; reflexivity).
      specialize (k H). lra.
  - apply collide_spec. left.
    exists (mkPosition2D 0 (-10)), (mkPosition2D 0 10), (mkPosition2D (-2/1000000) (2/1000000)), (mkPosition2D (2/1000000) (2/1000000)).
    split; [apply side4_intro; left; reflexivity|]. split; [apply side4_intro; right; left; reflexivity|].
    assert (E : intersectionSegment2D (mkPosition2D 0 (-10)) (mkPosition2D 0 10) (mkPosition2D (-2/1000000) (2/1000000)) (mkPosition2D (2/1000000) (2/1000000)) p2_default = (true, mkPosition2D 0 (2/1000000))).
    { apply C32_segment_exact_proof. unfold side_visible, cross_dir, on_segment, between. cbn [p2_x p2_y].
      split; [right; rewrite Rabs_right; lra|]. split; [|split].
      - match goal with |- _ <= Rabs ?x => replace x with (-(8/100000)) by lra end. rewrite Rabs_Ropp, Rabs_right; lra.
      - exists (1/2 + 1/10000000). split; [lra|]. f_equal; lra.
      - exists (1/2). split; [lra|]. f_equal; lra. }
    rewrite E. reflexivity.
Qed.


Lemma C32_small_boxes_refuted_proof :
  let A := [mkPosition2D (-15/10000) (-5/10000); mkPosition2D (-15/10000) (5/10000);
            mkPosition2D (15/10000) (5/10000); mkPosition2D (15/10000) (-5/10000)] in
  let B := [mkPosition2D (-5/10000) (-15/10000); mkPosition2D (-5/10000) (15/10000);
            mkPosition2D (5/10000) (15/10000); mkPosition2D (5/10000) (-15/10000)] in
  strictly_inside A (mkPosition2D 0 0) /\ strictly_inside B (mkPosition2D 0 0) /\
  areTwoBoxesInCollision A B = false.
Proof.
  cbv zeta. fold (rect (-15/10000) (-5/10000) (15/10000) (5/10000)). fold (rect (-5/10000) (-15/10000) (5/10000) (15/10000)).
  split; [|split].
  - intros a b s. sides4 s; unfold turn; cbn [p2_x p2_y]; lra.
  - intros a b s. sides4 s; unfold turn; cbn [p2_x p2_y]; lra.
  - apply collide_false.
    + intros a1 a2 b1 b2 s1 s2 _ v. sides4 s1; sides4 s2; unfold cross_dir in v; cbn [p2_x p2_y] in v;
        eapply Rabs_small; try exact v; lra.
    + intro h. generalize (h (mkPosition2D (-5/10000) (-15/10000)) (mkPosition2D (-5/10000) (15/10000))). unfold turn, corner. cbn. intro k.
      match type of k with ?P -> _ => assert P by (apply side4_intro; left; reflexivity) end.
      specialize (k H). lra.
    + intro h. generalize (h (mkPosition2D (15/10000) (-5/10000)) (mkPosition2D (-15/10000) (-5/10000))). unfold turn, corner. cbn. intro k.
      match type of k with ?P -> _ => assert P by (apply side4_intro; right; right; right; left; reflexivity) end.
      specialize (k H). lra.
Qed.


Lemma C32_orientation_refuted_proof :
  let A := [mkPosition2D 0 0; mkPosition2D 3 0; mkPosition2D 3 3; mkPosition2D 0 3] in
  let B := [mkPosition2D 1 1; mkPosition2D 1 2; mkPosition2D 2 2; mkPosition2D 2 1] in
  convex_clockwise (rev A) /\ convex_clockwise B /\ (forall p, In p B -> strictly_inside (rev A) p) /\
  areTwoBoxesInCollision A B = false /\ areTwoBoxesInCollision (rev A) B = true /\
  (forall C : list pt, C <> [] -> areTwoBoxesInCollision [] C = true).
Proof.
  assert (CC : forall x0 y0 x1 y1 x2 y2 x3 y3,
    turn (mkPosition2D x0 y0) (mkPosition2D x1 y1) (mkPosition2D x2 y2) < 0 ->
    turn (mkPosition2D x0 y0) (mkPosition2D x1 y1) (mkPosition2D x3 y3) < 0 ->
    turn (mkPosition2D x1 y1) (mkPosition2D x2 y2) (mkPosition2D x3 y3) < 0 ->
    turn (mkPosition2D x1 y1) (mkPosition2D x2 y2) (mkPosition2D x0 y0) < 0 ->
    turn (mkPosition2D x2 y2) (mkPosition2D x3 y3) (mkPosition2D x0 y0) < 0 ->
    turn (mkPosition2D x2 y2) (mkPosition2D x3 y3) (mkPosition2D x1 y1) < 0 ->
    turn (mkPosition2D x3 y3) (mkPosition2D x0 y0) (mkPosition2D x1 y1) < 0 ->
    turn (mkPosition2D x3 y3) (mkPosition2D x0 y0) (mkPosition2D x2 y2) < 0 ->
    convex_clockwise [mkPosition2D x0 y0; mkPosition2D x1 y1; mkPosition2D x2 y2; mkPosition2D x3 y3]).
  { intros. split; [cbn; lia|]. cbn [length]. intros i j hi hj n1 n2.
    destruct i as [|[|[|[|i]]]]; try lia; destruct j as [|[|[|[|j]]]]; try lia; cbn in n2; try lia; assumption. }
  cbv zeta. cbn [rev app]. split; [|split; [|split; [|split; [|split]]]].
  - apply CC; unfold turn; cbn [p2_x p2_y]; lra.
  - apply CC; unfold turn; cbn [p2_x p2_y]; lra.
  - intros p [<-|[<-|[<-|[<-|[]]]]] a b s; sides4 s; unfold turn; cbn [p2_x p2_y]; lra.
  - destruct (areTwoBoxesInCollision _ _) eqn:E; [|reflexivity]. exfalso.
    apply collide_spec in E. destruct E as [[a1 [a2 [b1 [b2 [s1 [s2 e]]]]]]|[[_ E]|[_ E]]].
    + destruct (intersectionSegment2D a1 a2 b1 b2 p2_default) as [r p] eqn:E. cbn [fst] in e. subst r.
      apply C32_segment_sound_proof in E. destruct E as [[t [ht e]] [t' [ht' e']]]. rewrite e in e'. clear e p.
      unfold between in e'. injection e' as e1 e2.
      sides4 s1; sides4 s2; cbn [p2_x p2_y] in *; lra.
    + generalize (E (mkPosition2D 1 1) (mkPosition2D 1 2)). unfold turn, corner. cbn. intro k.
      match type of k with ?P -> _ => assert P by (apply side4_intro; left; reflexivity) end.
      specialize (k H). lra.
    + generalize (E (mkPosition2D 0 0) (mkPosition2D 3 0)). unfold turn, corner. cbn. intro k.
      match type of k with ?P -> _ => assert P by (apply side4_intro; left; reflexivity) end.
      specialize (k H). lra.
  - apply collide_spec. right. right. split; [discriminate|]. unfold corner. cbn.
    intros a b s; sides4 s; unfold turn; cbn [p2_x p2_y]; lra.
  - intros C hC. apply collide_spec. right. right. split; [exact hC|]. intros a b [i [hi _]]. cbn in hi. lia.
Qed.




Definition ellipse_norm (mx my : R) (m : Pose2D R) : R :=
  pose_x m / mx * (pose_x m / mx) + pose_y m / my * (pose_y m / my).

Lemma ellipse_spec : forall mx my (m : Pose2D R), mx <> 0 -> my <> 0 ->
  (ellipse_norm mx my m < 100001/100000 -> clipFootWithEllipse mx my m = (false, m)) /\
  (100001/100000 <= ellipse_norm mx my m -> exists m', clipFootWithEllipse mx my m = (true, m') /\
     pose_theta m' = pose_theta m /\ ellipse_norm mx my m' = 1 /\
     exists s, 0 < s < 1 /\ pose_x m' = s * pose_x m /\ pose_y m' = s * pose_y m).
Proof.
  intros mx my [x y th] hx hy. unfold clipFootWithEllipse, ellipse_norm. cbn [pose_x pose_y pose_theta]. rsimp.
  assert (A2 : Rabs mx * Rabs mx = mx * mx) by (rewrite <- Rabs_mult; apply Rabs_right; nra).
  assert (B2 : Rabs my * Rabs my = my * my) by (rewrite <- Rabs_mult; apply Rabs_right; nra).
  rewrite A2, B2.
  assert (E : x * x / (mx * mx) + y * y / (my * my) = x / mx * (x / mx) + y / my * (y / my)) by (field; auto).
  rewrite E. set (n := x / mx * (x / mx) + y / my * (y / my)) in *.
  split; intro h.
  - rewrite Rltb_true by exact h. reflexivity.
  - rewrite Rltb_false by exact h. eexists. split; [reflexivity|]. cbn [pose_x pose_y pose_theta].
    split; [reflexivity|].
    assert (N : x * x + y * y <> 0).
    { intro z. apply sum2sq_0 in z. destruct z as [-> ->]. unfold n in h. unfold Rdiv in h. lra. }
    destruct (Ratan2_cos_sin y x N) as [ec es]. rewrite ec, es.
    set (r := sqrt (x * x + y * y)) in *.
    assert (r2 : r * r = x * x + y * y) by (apply sqrt_sqrt; nra).
    assert (rp : 0 < r). { assert (0 <= r) by apply sqrt_pos. destruct H; [assumption|]. rewrite <- H in r2. lra. }
    set (q := my * my * (x / r) * (x / r) + mx * mx * (y / r) * (y / r)).
    assert (Pn : 0 < n) by lra.
    assert (eq_ : q = (mx * my / r) * (mx * my / r) * n) by (unfold q, n; field; repeat split; try assumption; lra).
    assert (ab : 0 < Rabs mx * Rabs my) by (apply Rmult_lt_0_compat; apply Rabs_pos_lt; assumption).
    assert (sq : sqrt q = Rabs mx * Rabs my / r * sqrt n).
    { apply sqrt_unique'.
      - apply Rmult_le_pos; [|apply sqrt_pos]. left. apply Rdiv_lt_0_compat; lra.
      - rewrite eq_. replace (Rabs mx * Rabs my / r * sqrt n * (Rabs mx * Rabs my / r * sqrt n))
          with ((Rabs mx * Rabs mx) * (Rabs my * Rabs my) / (r * r) * (sqrt n * sqrt n)) by (field; lra).
        rewrite A2, B2, sqrt_sqrt by lra. field. lra. }
    rewrite sq.
    assert (sn : 1 < sqrt n) by (rewrite <- sqrt_1; apply sqrt_lt_1; lra).
    replace (Rabs mx * Rabs my / (Rabs mx * Rabs my / r * sqrt n)) with (r / sqrt n) by (field; repeat split; try lra; apply Rabs_no_R0; assumption).
    replace (r / sqrt n * (x / r)) with (/ sqrt n * x) by (field; lra).
    replace (r / sqrt n * (y / r)) with (/ sqrt n * y) by (field; lra).
    split.
    + replace (/ sqrt n * x / mx * (/ sqrt n * x / mx) + / sqrt n * y / my * (/ sqrt n * y / my))
        with (n / (sqrt n * sqrt n)) by (unfold n at 1; field; repeat split; auto; lra).
      rewrite sqrt_sqrt by lra. field. lra.
    + exists (/ sqrt n). split; [|split; reflexivity]. split; [apply Rinv_0_lt_compat; lra|].
      rewrite <- Rinv_1. apply Rinv_lt_contravar; lra.
Qed.

Lemma C32_ellipse_exact_proof : forall (mx my : R) (m : Pose2D R), mx <> 0 -> my <> 0 ->
  let excess (p : Pose2D R) := (pose_x p / mx)^2 + (pose_y p / my)^2 in
  (excess m < 100001/100000 -> clipFootWithEllipse mx my m = (false, m)) /\
  (100001/100000 <= excess m -> exists m', clipFootWithEllipse mx my m = (true, m') /\
     pose_theta m' = pose_theta m /\ excess m' = 1 /\
     exists s, 0 < s < 1 /\ pose_x m' = s * pose_x m /\ pose_y m' = s * pose_y m).
Proof.
  intros mx my m hx hy. cbv zeta. cbn [pow]. rewrite !Rmult_1_r.
  destruct (ellipse_spec mx my m hx hy) as [h1 h2]. unfold ellipse_norm in *. split; [exact h1|].
  intro h. destruct (h2 h) as [m' [e1 [e2 [e3 e4]]]]. exists m'. rewrite !Rmult_1_r. auto.
Qed.


Lemma C32_ellipse_idempotent_proof : forall (mx my : R) (m m' : Pose2D R) b, mx <> 0 -> my <> 0 ->
  clipFootWithEllipse mx my m = (b, m') -> clipFootWithEllipse mx my m' = (false, m').
Proof.
  intros mx my m m' b hx hy e. destruct (ellipse_spec mx my m hx hy) as [h1 h2].
  destruct (ellipse_spec mx my m' hx hy) as [k1 _]. apply k1.
  destruct (Rlt_dec (ellipse_norm mx my m) (100001/100000)) as [c|c].
  - rewrite (h1 c) in e. injection e as _ <-. exact c.
  - destruct h2 as [q [e1 [_ [e3 _]]]]; [lra|]. rewrite e1 in e. injection e as _ <-. lra.
Qed.


Lemma C32_ellipse_outside_refuted_proof : clipFootWithEllipse 1 1 (mkPose2D (1000001/1000000) 0 0) =
  (false, mkPose2D (1000001/1000000) 0 0) /\ 1 < (1000001/1000000 / 1)^2 + (0 / 1)^2.
Proof.
  split.
  - apply C32_ellipse_exact_proof; try lra. cbn [pose_x pose_y pow]. lra.
  - cbn [pow]. lra.
Qed.


Lemma C32_ellipse_null_axis_refuted_proof : forall (L : libm32) (th : f32),
  fst (@clipFootWithEllipse f32 (F32Scalar L) (f32_ofZ 0) (f32_ofZ 1) (mkPose2D (f32_ofZ 0) (f32_ofZ 0) th)) = true.
Proof.
  intros L th. unfold clipFootWithEllipse. cbv zeta. cbn [pose_x pose_y pose_theta].
  match goal with |- fst (if ?c then _ else _) = true => replace c with false by (vm_compute; reflexivity) end.
  reflexivity.
Qed.


Lemma C33_frame_any_arithmetic_proof : forall (T : Type) (S : Scalar T),
  (forall a1 a2 b1 b2 c, fst (intersectionSegment2D a1 a2 b1 b2 c) = false ->
     snd (intersectionSegment2D a1 a2 b1 b2 c) = c) /\
  (forall lbox rbox ls (m : Pose2D T), let r := avoidFootCollision lbox rbox ls m in
     pose_x (snd r) = pose_x m /\ pose_y (snd r) = pose_y m /\ (fst r = false -> snd r = m)) /\
  (forall mx my (m : Pose2D T), let r := clipFootWithEllipse mx my m in
     pose_theta (snd r) = pose_theta m /\ (fst r = false -> snd r = m)).
Proof.
  intros T S. split; [|split].
  - intros a1 a2 b1 b2 c. unfold intersectionSegment2D. cbv zeta.
    repeat match goal with |- context[if ?b then _ else _] => destruct b end; cbn [fst snd]; auto; discriminate.
  - intros lbox rbox ls m. cbv zeta. unfold avoidFootCollision, dichotomie.
    repeat match goal with |- context[if ?b then _ else _] => destruct b end; cbn [fst snd pose_x pose_y]; auto; repeat split; discriminate.
  - intros mx my m. cbv zeta. unfold clipFootWithEllipse. cbv zeta.
    match goal with |- context[if ?b then _ else _] => destruct b end; cbn [fst snd pose_theta]; split; auto; discriminate.
Qed.




Lemma computeBox_moved : forall (l : list pt) m, computeBox l m = map (moved m) l.
Proof.
  intros l [x y t]. unfold computeBox. apply map_ext. intros [px py]. unfold moved. unr. rec_eq; ring.
Qed.

(** The boxes collide when the second one is moved by [m] with the heading replaced by [t]. *)
Definition hits (fixed moving : list pt) (m : Pose2D R) (t : R) : bool :=
  areTwoBoxesInCollision fixed (map (moved (mkPose2D (pose_x m) (pose_y m) t)) moving).

Lemma loop_spec : forall n fixed moving m lo w,
  hits fixed moving m (lo + w) = true -> (lo = 0 \/ hits fixed moving m lo = false) ->
  exists k, (k <= 2 ^ n - 1)%nat /\
    let r := lo + w * INR k / 2 ^ n in
    dichotomie_loop n fixed moving m lo (lo + w) lo = r /\
    hits fixed moving m (lo + w * INR (k + 1) / 2 ^ n) = true /\
    (r = 0 \/ hits fixed moving m r = false).
Proof.
  intros n fixed moving. induction n as [|n IH]; intros m lo w h1 h0.
  - exists 0%nat. split; [cbn; lia|]. cbv zeta. cbn [dichotomie_loop pow INR Nat.add].
    replace (lo + w * 0 / 1) with lo by field. replace (lo + w * 1 / 1) with (lo + w) by field. auto.
  - cbn [dichotomie_loop]. rewrite computeBox_moved. rsimp.
    replace ((lo + (lo + w)) * (1 / 2)) with (lo + w / 2) by field.
    change (areTwoBoxesInCollision fixed (map (moved (mkPose2D (pose_x m) (pose_y m) (lo + w / 2))) moving))
      with (hits fixed moving m (lo + w / 2)).
    set (m' := mkPose2D (pose_x m) (pose_y m) (lo + w / 2)).
    assert (HH : forall t, hits fixed moving m' t = hits fixed moving m t) by reflexivity.
    assert (p2 : (1 <= 2 ^ n)%nat) by (clear; induction n; cbn; lia).
    assert (p2' : 2 ^ n <> 0) by (apply pow_nonzero; lra).
    destruct (hits fixed moving m (lo + w / 2)) eqn:E.
    + destruct (IH m' lo (w / 2)) as [k [hk K]]; [rewrite HH; exact E|rewrite HH; exact h0|]. cbv zeta in *.
      exists k. split; [cbn [Nat.pow]; lia|]. rewrite !HH in K. cbn [pow].
      replace (lo + w * INR k / (2 * 2 ^ n)) with (lo + w / 2 * INR k / 2 ^ n) by (field; assumption).
      replace (lo + w * INR (k + 1) / (2 * 2 ^ n)) with (lo + w / 2 * INR (k + 1) / 2 ^ n) by (field; assumption).
      exact K.
    + destruct (IH m' (lo + w / 2) (w / 2)) as [k [hk K]].
      * rewrite HH. replace (lo + w / 2 + w / 2) with (lo + w) by field. exact h1.
      * right. rewrite HH. exact E.
      * cbv zeta in *. exists (2 ^ n + k)%nat. split; [cbn [Nat.pow]; lia|]. rewrite !HH in K. cbn [pow].
        assert (I2 : INR (2 ^ n) = 2 ^ n) by (rewrite pow_INR; reflexivity).
        replace (lo + w * INR (2 ^ n + k) / (2 * 2 ^ n)) with (lo + w / 2 + w / 2 * INR k / 2 ^ n)
          by (rewrite plus_INR, I2; field; assumption).
        replace (lo + w * INR (2 ^ n + k + 1) / (2 * 2 ^ n)) with (lo + w / 2 + w / 2 * INR (k + 1) / 2 ^ n)
          by (rewrite !plus_INR, I2; field; assumption).
        replace (lo + w / 2 + w / 2) with (lo + w) in K by field. exact K.
Qed.

Lemma C33_flag_proof : forall (lbox rbox : list pt) (leftSupport : bool) (m : Pose2D R),
  let fixed := if leftSupport then lbox else rbox in
  let moving := if leftSupport then rbox else lbox in
  fst (avoidFootCollision lbox rbox leftSupport m) = areTwoBoxesInCollision fixed (map (moved m) moving) /\
  (fst (avoidFootCollision lbox rbox leftSupport m) = false -> snd (avoidFootCollision lbox rbox leftSupport m) = m).
Proof.
  intros lbox rbox ls m. cbv zeta. unfold avoidFootCollision. rewrite !computeBox_moved.
  destruct ls.
  - destruct (areTwoBoxesInCollision lbox (map (moved m) rbox)); cbn [fst snd]; split; auto. discriminate.
  - destruct (areTwoBoxesInCollision rbox (map (moved m) lbox)); cbn [fst snd]; split; auto. discriminate.
Qed.


Lemma C33_bisection_proof : forall (lbox rbox : list pt) (leftSupport : bool) (m m' : Pose2D R),
  let fixed := if leftSupport then lbox else rbox in
  let moving := if leftSupport then rbox else lbox in
  avoidFootCollision lbox rbox leftSupport m = (true, m') ->
  exists k, (k <= 31)%nat /\ m' = mkPose2D (pose_x m) (pose_y m) (pose_theta m * (INR k / 32)) /\
    areTwoBoxesInCollision fixed
      (map (moved (mkPose2D (pose_x m) (pose_y m) (pose_theta m * (INR (k + 1) / 32)))) moving) = true /\
    (k = 0%nat \/ areTwoBoxesInCollision fixed (map (moved m') moving) = false).
Proof.
  intros lbox rbox ls m m'. cbv zeta. intro e.
  set (fixed := if ls then lbox else rbox). set (moving := if ls then rbox else lbox).
  assert (E : hits fixed moving m (pose_theta m) = true /\ m' = dichotomie fixed moving m).
  { unfold avoidFootCollision in e. rewrite !computeBox_moved in e. unfold hits.
    replace (mkPose2D (pose_x m) (pose_y m) (pose_theta m)) with m by (destruct m; reflexivity).
    unfold fixed, moving. destruct ls.
    - destruct (areTwoBoxesInCollision lbox (map (moved m) rbox)); [|discriminate]. injection e as <-. auto.
    - destruct (areTwoBoxesInCollision rbox (map (moved m) lbox)); [|discriminate]. injection e as <-. auto. }
  destruct E as [E1 E2].
  destruct (loop_spec 5 fixed moving m 0 (pose_theta m)) as [k [hk [K1 [K2 K3]]]].
  { rewrite Rplus_0_l. exact E1. } { left. reflexivity. }
  cbv zeta in *. unfold dichotomie in E2. rsimp. rewrite Rplus_0_l in K1. rewrite K1 in E2.
  assert (P : 2 ^ 5 = 32) by (cbn [pow]; lra). rewrite P in *.
  replace (0 + pose_theta m * INR k / 32) with (pose_theta m * (INR k / 32)) in * by field.
  replace (0 + pose_theta m * INR (k + 1) / 32) with (pose_theta m * (INR (k + 1) / 32)) in * by field.
  destruct (Req_dec (pose_theta m) 0) as [th0|th0].
  - exists 0%nat. split; [lia|]. rewrite th0 in *. cbn [INR Nat.add].
    replace (0 * (0 / 32)) with 0 by field. replace (0 * (1 / 32)) with 0 by field.
    replace (0 * (INR k / 32)) with 0 in E2 by field. split; [exact E2|]. split; [exact E1|]. left. reflexivity.
  - exists k. split; [cbn in hk; lia|]. split; [exact E2|]. split; [exact K2|].
    destruct K3 as [K3|K3]; [|right; rewrite E2; exact K3].
    left. destruct (Nat.eq_dec k 0) as [z|z]; [exact z|]. exfalso.
    assert (hk0 : INR k <> 0) by (apply not_0_INR; exact z).
    apply Rmult_integral in K3. destruct K3 as [c|c]; [contradiction|]. apply hk0. lra.
Qed.


Lemma loop_free : forall n fixed moving m lo hi best, hits fixed moving m best = false ->
  hits fixed moving m (dichotomie_loop n fixed moving m lo hi best) = false.
Proof.
  intros n fixed moving. induction n as [|n IH]; intros m lo hi best h; [exact h|].
  cbn [dichotomie_loop]. rewrite computeBox_moved.
  match goal with |- context[areTwoBoxesInCollision fixed (map (moved ?p) moving)] => set (m' := p) end.
  assert (HH : forall t, hits fixed moving m' t = hits fixed moving m t) by reflexivity.
  destruct (areTwoBoxesInCollision fixed (map (moved m') moving)) eqn:E.
  - rewrite <- HH. apply IH. rewrite HH. exact h.
  - rewrite <- HH. apply IH. exact E.
Qed.

Lemma loop_zero : forall n fixed moving m w,
  (dichotomie_loop n fixed moving m 0 w 0 = 0 /\ forall j, (1 <= j <= n)%nat -> hits fixed moving m (w / 2 ^ j) = true) \/
  (hits fixed moving m (dichotomie_loop n fixed moving m 0 w 0) = false /\
   exists j, (1 <= j <= n)%nat /\ hits fixed moving m (w / 2 ^ j) = false).
Proof.
  intros n fixed moving. induction n as [|n IH]; intros m w.
  - left. split; [reflexivity|]. lia.
  - cbn [dichotomie_loop]. rewrite computeBox_moved. rsimp. replace ((0 + w) * (1 / 2)) with (w / 2) by field.
    set (m' := mkPose2D (pose_x m) (pose_y m) (w/2)).
    assert (HH : forall t, hits fixed moving m' t = hits fixed moving m t) by reflexivity.
    assert (HJ : forall j, w / 2 / 2 ^ j = w / 2 ^ (S j)).
    { intro j. assert (2 ^ j <> 0) by (apply pow_nonzero; lra). cbn [pow]. field. assumption. }
    assert (H1 : w / 2 ^ 1 = w / 2) by (cbn [pow]; field).
    destruct (areTwoBoxesInCollision fixed (map (moved m') moving)) eqn:E.
    + destruct (IH m' (w/2)) as [[r1 r2]|[r1 (j&hj&r2)]].
      * left. split; [exact r1|]. intros j hj. destruct j as [|[|j]]; [lia|rewrite H1; exact E|].
        rewrite <- HJ, <- HH. apply r2. lia.
      * right. split; [rewrite <- HH; exact r1|]. exists (S j). split; [lia|]. rewrite <- HJ, <- HH. exact r2.
    + right. split; [rewrite <- HH; apply loop_free; exact E|]. exists 1%nat. split; [lia|]. rewrite H1. exact E.
Qed.

Lemma C33_result_free_exact_proof : forall (lbox rbox : list pt) (leftSupport : bool) (m : Pose2D R),
  let fixed := if leftSupport then lbox else rbox in
  let moving := if leftSupport then rbox else lbox in
  let free th := areTwoBoxesInCollision fixed (map (moved (mkPose2D (pose_x m) (pose_y m) th)) moving) = false in
  areTwoBoxesInCollision fixed (map (moved (snd (avoidFootCollision lbox rbox leftSupport m))) moving) = false <->
  (free (pose_theta m) \/ free (pose_theta m / 2) \/ free (pose_theta m / 4) \/ free (pose_theta m / 8) \/
   free (pose_theta m / 16) \/ free (pose_theta m / 32) \/ free 0).
Proof.
  intros lbox rbox ls m. cbv zeta.
  set (fixed := if ls then lbox else rbox). set (moving := if ls then rbox else lbox).
  destruct (C33_flag_proof lbox rbox ls m) as [f1 f2]. cbv zeta in *. fold fixed moving in f1.
  destruct (avoidFootCollision lbox rbox ls m) as [b m'] eqn:E. cbn [fst snd] in *.
  assert (M : mkPose2D (pose_x m) (pose_y m) (pose_theta m) = m) by (destruct m; reflexivity). rewrite M. rewrite <- f1.
  destruct b.
  - assert (D : m' = dichotomie fixed moving m).
    { unfold avoidFootCollision in E. unfold fixed, moving.
      destruct ls; [destruct (areTwoBoxesInCollision lbox _)|destruct (areTwoBoxesInCollision rbox _)]; congruence. }
    set (w := pose_theta m) in *.
    assert (LZ := loop_zero 5 fixed moving m w). rewrite D. unfold dichotomie. rsimp.
    match goal with |- areTwoBoxesInCollision fixed (map (moved (mkPose2D _ _ ?t)) moving) = false <-> _ =>
      change (areTwoBoxesInCollision fixed (map (moved (mkPose2D (pose_x m) (pose_y m) t)) moving)) with (hits fixed moving m t) end.
    change (hits fixed moving m (dichotomie_loop 5 fixed moving m 0 w 0) = false <->
      (true = false \/ hits fixed moving m (w/2) = false \/ hits fixed moving m (w/4) = false \/ hits fixed moving m (w/8) = false \/
       hits fixed moving m (w/16) = false \/ hits fixed moving m (w/32) = false \/ hits fixed moving m 0 = false)).
    assert (P1 : w / 2 ^ 1 = w / 2) by (cbn [pow]; field). assert (P2 : w / 2 ^ 2 = w / 4) by (cbn [pow]; field).
    assert (P3 : w / 2 ^ 3 = w / 8) by (cbn [pow]; field). assert (P4 : w / 2 ^ 4 = w / 16) by (cbn [pow]; field).
    assert (P5 : w / 2 ^ 5 = w / 32) by (cbn [pow]; field).
    destruct LZ as [[-> r]|[r (j&hj&rj)]].
    + rewrite <- P1, <- P2, <- P3, <- P4, <- P5. rewrite !r by lia. split; [tauto|].
      intros h. repeat (destruct h as [h|h]; [discriminate h|]). exact h.
    + split; [intros _|intros _; exact r].
      destruct j as [|[|[|[|[|[|j]]]]]]; try lia; rewrite ?P1, ?P2, ?P3, ?P4, ?P5 in rj; tauto.
  - rewrite (f2 eq_refl), <- f1. tauto.
Qed.


Lemma C33_result_free_refuted_proof :
  let box := [mkPosition2D 0 0; mkPosition2D 0 1; mkPosition2D 1 1; mkPosition2D 1 0] in
  avoidFootCollision box box true (mkPose2D (1/2) (1/2) 0) = (true, mkPose2D (1/2) (1/2) 0) /\
  areTwoBoxesInCollision box (map (moved (mkPose2D (1/2) (1/2) 0)) box) = true.
Proof.
  cbv zeta. set (box := [mkPosition2D 0 0; mkPosition2D 0 1; mkPosition2D 1 1; mkPosition2D 1 0]).
  assert (C : areTwoBoxesInCollision box (map (moved (mkPose2D (1/2) (1/2) 0)) box) = true).
  { apply collide_spec. right. right. split; [discriminate|]. unfold corner. cbn. unfold moved. cbn.
    rewrite cos_0, sin_0. intros a b s; sides4 s; unfold turn; cbn [p2_x p2_y]; lra. }
  split; [|exact C].
  destruct (avoidFootCollision box box true (mkPose2D (1/2) (1/2) 0)) as [b m'] eqn:E.
  destruct (C33_flag_proof box box true (mkPose2D (1/2) (1/2) 0)) as [f1 _]. cbv zeta in *.
  rewrite E, C in f1. cbn [fst] in f1. subst b. f_equal.
  destruct (C33_bisection_proof _ _ _ _ _ E) as [k [_ [e _]]]. cbn [pose_x pose_y pose_theta] in e.
  rewrite e. f_equal. ring.
Qed.
