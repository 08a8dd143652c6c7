(** * Lemmas for Props_Vectors *)

From Coq Require Import Reals List Lra Lia Psatz Nsatz Bool Arith ZArith.
Import ListNotations.
From Flocq Require Import IEEE754.BinarySingleNaN.
From Verif Require Import Scalar RInst F32 RLemmas Model_Base Model_Vec Model_Rigid Model_Almath
  Model_Helpers Spec_Geom Spec_Vec Proofs_Geom MemTac.
Local Open Scope R_scope.


Ltac vs := unfold vector_space; repeat split; intros; drec; unr; rec_eq; ring.

Lemma C24_vector_spaces_proof :
  vector_space (V := Position2D R) (mkPosition2D 0 0) p2_add p2_sub p2_neg p2_scale /\
  vector_space (V := Position3D R) (mkPosition3D 0 0 0) p3_add p3_sub p3_neg p3_scale /\
  vector_space (V := Position6D R) (mkPosition6D 0 0 0 0 0 0) p6_add p6_sub p6_neg p6_scale /\
  vector_space (V := Velocity3D R) (mkVelocity3D 0 0 0) v3_add v3_sub v3_neg v3_scale /\
  vector_space (V := Velocity6D R) (mkVelocity6D 0 0 0 0 0 0) v6_add v6_sub v6_neg v6_scale /\
  vector_space (V := Rotation3D R) (mkRotation3D 0 0 0) e3_add e3_sub (fun a => e3_scale a (-1)) e3_scale /\
  vector_space (V := Pose2D R) (mkPose2D 0 0 0) pose_add pose_sub pose_neg pose_scale.
Proof. split; [|split; [|split; [|split; [|split; [|split]]]]]; vs. Qed.


Ltac pw := unfold pointwise; repeat split; intros;
  [ drec; match goal with h : _ = _ |- _ => unr in h; injection h; intros; subst; reflexivity end
  | drec; try reflexivity; unr; repeat (apply f_equal2; [ring|]); reflexivity .. ].

Lemma C24_pointwise_proof :
  pointwise (V := Position2D R) cp2 p2_add p2_sub p2_neg p2_scale /\
  pointwise (V := Position3D R) cp3 p3_add p3_sub p3_neg p3_scale /\
  pointwise (V := Position6D R) cp6 p6_add p6_sub p6_neg p6_scale /\
  pointwise (V := Velocity3D R) cv3 v3_add v3_sub v3_neg v3_scale /\
  pointwise (V := Velocity6D R) cv6 v6_add v6_sub v6_neg v6_scale /\
  pointwise (V := Rotation3D R) ce3 e3_add e3_sub (fun a => e3_scale a (-1)) e3_scale /\
  pointwise (V := Pose2D R) cpose pose_add pose_sub pose_neg pose_scale.
Proof. split; [|split; [|split; [|split; [|split; [|split]]]]]; pw. Qed.


Ltac cas := intros m o q; cbv zeta;
  match goal with |- ?M ?o = ?r /\ (forall x, x <> ?o -> ?M x = ?m x) =>
    change (M o = r /\ frame m o M);
    let P := fresh "P" in
    set (P := fun m' => m' o = r /\ frame m o m'); change (P M);
    match goal with |- P (?f m o q) =>
      let H := fresh "H" in
      assert (H : forall m1, m1 o = m o -> frame m o m1 -> P (f m1 o q));
      [ destruct (Nat.eq_dec q o) as [->|hn];
        [ destruct (m o) as [] eqn:Eo
        | destruct (m o) as [] eqn:Eo; destruct (m q) as [] eqn:Eq ];
        let m1 := fresh in let e := fresh in let F := fresh in
        intros m1 e F;
        cbv delta [p2_addIn p2_subIn p3_addIn p3_subIn p6_addIn p6_subIn v3_addIn v3_subIn e3_addIn e3_subIn pose_addIn pose_subIn];
        mem_steps; subst P; split; assumption
      | apply H; auto using frame_refl ]
    end
  end.

Lemma C24_compound_assignment_proof : forall (T : Type) (S : Scalar T),
  (forall (m : mem (Position2D T)) o q, let r := p2_addIn m o q in
     r o = p2_add (m o) (m q) /\ forall x, x <> o -> r x = m x) /\
  (forall (m : mem (Position2D T)) o q, let r := p2_subIn m o q in
     r o = p2_sub (m o) (m q) /\ forall x, x <> o -> r x = m x) /\
  (forall (m : mem (Position3D T)) o q, let r := p3_addIn m o q in
     r o = p3_add (m o) (m q) /\ forall x, x <> o -> r x = m x) /\
  (forall (m : mem (Position3D T)) o q, let r := p3_subIn m o q in
     r o = p3_sub (m o) (m q) /\ forall x, x <> o -> r x = m x) /\
  (forall (m : mem (Position6D T)) o q, let r := p6_addIn m o q in
     r o = p6_add (m o) (m q) /\ forall x, x <> o -> r x = m x) /\
  (forall (m : mem (Position6D T)) o q, let r := p6_subIn m o q in
     r o = p6_sub (m o) (m q) /\ forall x, x <> o -> r x = m x) /\
  (forall (m : mem (Velocity3D T)) o q, let r := v3_addIn m o q in
     r o = v3_add (m o) (m q) /\ forall x, x <> o -> r x = m x) /\
  (forall (m : mem (Velocity3D T)) o q, let r := v3_subIn m o q in
     r o = v3_sub (m o) (m q) /\ forall x, x <> o -> r x = m x) /\
  (forall (m : mem (Rotation3D T)) o q, let r := e3_addIn m o q in
     r o = e3_add (m o) (m q) /\ forall x, x <> o -> r x = m x) /\
  (forall (m : mem (Rotation3D T)) o q, let r := e3_subIn m o q in
     r o = e3_sub (m o) (m q) /\ forall x, x <> o -> r x = m x) /\
  (forall (m : mem (Pose2D T)) o q, let r := pose_addIn m o q in
     r o = pose_add (m o) (m q) /\ forall x, x <> o -> r x = m x) /\
  (forall (m : mem (Pose2D T)) o q, let r := pose_subIn m o q in
     r o = pose_sub (m o) (m q) /\ forall x, x <> o -> r x = m x) /\
  (forall (a : Position2D T) s, p2_scaleIn a s = p2_scale a s) /\
  (forall (a : Position3D T) s, p3_scaleIn a s = p3_scale a s) /\
  (forall (a : Position6D T) s, p6_scaleIn a s = p6_scale a s) /\
  (forall (a : Velocity3D T) s, v3_scaleIn a s = v3_scale a s) /\
  (forall (a : Velocity6D T) s, v6_scaleIn a s = v6_scale a s) /\
  (forall (a : Rotation3D T) s, e3_scaleIn a s = e3_scale a s) /\
  (forall (a : Pose2D T) s, pose_scaleIn a s = pose_scale a s) /\
  (forall (a : Position2D T) s, p2_lscale s a = p2_scale a s) /\
  (forall (a : Velocity3D T) s, v3_lscale s a = v3_scale a s) /\
  (forall (a : Velocity6D T) s, v6_lscale s a = v6_scale a s) /\
  (forall (a : Position2D T) s, p2_div a s = match p2_divIn a s with (Ok _, b) => Ok b | (Throw, _) => Throw | (Abort, _) => Abort | (UB, _) => UB end) /\
  (forall (a : Position3D T) s, p3_div a s = match p3_divIn a s with (Ok _, b) => Ok b | (Throw, _) => Throw | (Abort, _) => Abort | (UB, _) => UB end) /\
  (forall (a : Position6D T) s, p6_div a s = match p6_divIn a s with (Ok _, b) => Ok b | (Throw, _) => Throw | (Abort, _) => Abort | (UB, _) => UB end) /\
  (forall (a : Velocity3D T) s, v3_div a s = match v3_divIn a s with (Ok _, b) => Ok b | (Throw, _) => Throw | (Abort, _) => Abort | (UB, _) => UB end) /\
  (forall (a : Velocity6D T) s, v6_div a s = match v6_divIn a s with (Ok _, b) => Ok b | (Throw, _) => Throw | (Abort, _) => Abort | (UB, _) => UB end) /\
  (forall (a : Rotation3D T) s, e3_div a s = match e3_divIn a s with (Ok _, b) => Ok b | (Throw, _) => Throw | (Abort, _) => Abort | (UB, _) => UB end) /\
  (forall (a : Pose2D T) s, pose_div a s = match pose_divIn a s with (Ok _, b) => Ok b | (Throw, _) => Throw | (Abort, _) => Abort | (UB, _) => UB end).
Proof.
  intros T S.
  repeat match goal with |- _ /\ _ => apply conj end.
  all: first [ cas | intros a s; reflexivity | intros a s; cbv [p2_div p3_div p6_div v3_div v6_div e3_div pose_div p2_divIn p3_divIn p6_divIn v3_divIn v6_divIn e3_divIn pose_divIn]; destruct (s_eqb s _); reflexivity ].
Qed.


Lemma C24_dot_product_proof :
  (forall (a b c : Position3D R) s,
    p3_dotProduct (p3_add a (p3_scale b s)) c = p3_dotProduct a c + s * p3_dotProduct b c /\
    p3_dotProduct a b = p3_dotProduct b a /\ 0 <= p3_dotProduct a a /\
    (p3_dotProduct a a = 0 -> a = mkPosition3D 0 0 0) /\ p3_norm a * p3_norm a = p3_dotProduct a a /\
    p3_dotProduct a b * p3_dotProduct a b <= p3_dotProduct a a * p3_dotProduct b b) /\
  (forall (a b c : Position2D R) s,
    p2_dotProduct (p2_add a (p2_scale b s)) c = p2_dotProduct a c + s * p2_dotProduct b c /\
    p2_dotProduct a b = p2_dotProduct b a /\ 0 <= p2_dotProduct a a /\
    (p2_dotProduct a a = 0 -> a = mkPosition2D 0 0) /\ p2_norm a * p2_norm a = p2_dotProduct a a /\
    p2_dotProduct a b * p2_dotProduct a b <= p2_dotProduct a a * p2_dotProduct b b).
Proof.
  split.
  - intros [a1 a2 a3] [b1 b2 b3] [c1 c2 c3] s. unr. split; [ring|]. split; [ring|].
    split; [apply sum3sq_pos|]. split.
    { intro h. destruct (sum3sq_0 _ _ _ h) as (->&->&->). reflexivity. }
    split; [apply sqrt_sqrt; apply sum3sq_pos|].
    assert (h1 := Rle_0_sqr (a1*b2-a2*b1)). assert (h2 := Rle_0_sqr (a1*b3-a3*b1)). assert (h3 := Rle_0_sqr (a2*b3-a3*b2)).
    unfold Rsqr in *. lra.
  - intros [a1 a2] [b1 b2] [c1 c2] s. unr. split; [ring|]. split; [ring|].
    split; [apply sum2sq_pos|]. split.
    { intro h. destruct (sum2sq_0 _ _ h) as (->&->). reflexivity. }
    split; [apply sqrt_sqrt; apply sum2sq_pos|].
    assert (h1 := Rle_0_sqr (a1*b2-a2*b1)). unfold Rsqr in *. lra.
Qed.


Lemma C24_cross_product_proof :
  (forall (a b c : Position3D R) s,
    p3_crossProduct (p3_add a (p3_scale b s)) c = p3_add (p3_crossProduct a c) (p3_scale (p3_crossProduct b c) s) /\
    p3_crossProduct a b = p3_neg (p3_crossProduct b a) /\
    p3_dotProduct a (p3_crossProduct a b) = 0 /\ p3_dotProduct b (p3_crossProduct a b) = 0 /\
    p3_dotProduct (p3_crossProduct a b) (p3_crossProduct a b)
      = p3_dotProduct a a * p3_dotProduct b b - p3_dotProduct a b * p3_dotProduct a b) /\
  p3_crossProduct (mkPosition3D 1 0 0) (mkPosition3D 0 1 0) = mkPosition3D 0 0 1 /\
  (forall (a b c : Position2D R) s,
    p2_crossProduct (p2_add a (p2_scale b s)) c = p2_crossProduct a c + s * p2_crossProduct b c /\
    p2_crossProduct a b = - p2_crossProduct b a /\
    p2_crossProduct (mkPosition2D 1 0) (mkPosition2D 0 1) = 1 /\
    p2_crossProduct a b * p2_crossProduct a b + p2_dotProduct a b * p2_dotProduct a b
      = p2_dotProduct a a * p2_dotProduct b b).
Proof.
  split; [|split].
  - intros [a1 a2 a3] [b1 b2 b3] [c1 c2 c3] s. unr. repeat split; try (rec_eq; ring); ring.
  - unr. rec_eq; ring.
  - intros [a1 a2] [b1 b2] [c1 c2] s. unr. repeat split; ring.
Qed.


Lemma C24_cross_product_out_proof : forall (T : Type) (S : Scalar T) (m : mem (Position3D T)) a b o,
  a <> o -> b <> o ->
  let r := p3_crossProductOut m a b o in
  r o = p3_crossProduct (m a) (m b) /\ forall x, x <> o -> r x = m x.
Proof.
  intros T S m a b o ha hb r. unfold r, p3_crossProductOut, mseq. split.
  - rewrite !mupd_same. rewrite !(mupd_other _ o a _ ha), !(mupd_other _ o b _ hb). reflexivity.
  - intros x hx. rewrite !(mupd_other _ o x _ hx). reflexivity.
Qed.


Lemma C24_cross_product_aliased_refuted_proof :
  let m := fun i => match i with O => mkPosition3D 1 0 0 | _ => mkPosition3D 0 1 0 end : Position3D R in
  p3_crossProductOut m 0 1 0 0%nat = mkPosition3D 0 0 0 /\
  p3_crossProduct (m 0%nat) (m 1%nat) = mkPosition3D 0 0 1.
Proof. cbv zeta. split; unr; rec_eq; ring. Qed.




Ltac dv := intros a s; cbv [p2_div p3_div p6_div v3_div v6_div e3_div pose_div q_div p2_divIn p3_divIn p6_divIn v3_divIn v6_divIn e3_divIn pose_divIn q_divIn]; cbn [s_eqb s_ofZ RScalar];
  destruct (Reqb_spec s 0) as [h|h];
  [ split; [split; [intro; exact h | reflexivity]|]; split; [intro; contradiction|];
    split; [intro; contradiction|]; split; [reflexivity|intro; contradiction]
  | split; [split; [discriminate|intro; contradiction]|]; split;
    [ intros _; eexists; split; [reflexivity|]; split;
      [ drec; unr; rec_eq; field; exact h | drec; unr; repeat (apply f_equal2; [field; exact h|]); reflexivity ]
    | split; [intros _; apply f_equal; drec; unr; rec_eq; field; exact h|];
      split; [intro; contradiction|]; intros _; eexists; split; reflexivity ] ].

Lemma C25_division_proof :
  (forall (a : Position2D R) s,
     (p2_div a s = Throw <-> s = 0) /\ (s <> 0 -> exists b, p2_div a s = Ok b /\ p2_scale b s = a /\ cp2 b = map (fun x => x / s) (cp2 a)) /\
     (s <> 0 -> p2_div (p2_scale a s) s = Ok a) /\
     (s = 0 -> p2_divIn a s = (Throw, a)) /\ (s <> 0 -> exists b, p2_divIn a s = (Ok tt, b) /\ p2_div a s = Ok b)) /\
  (forall (a : Position3D R) s,
     (p3_div a s = Throw <-> s = 0) /\ (s <> 0 -> exists b, p3_div a s = Ok b /\ p3_scale b s = a /\ cp3 b = map (fun x => x / s) (cp3 a)) /\
     (s <> 0 -> p3_div (p3_scale a s) s = Ok a) /\
     (s = 0 -> p3_divIn a s = (Throw, a)) /\ (s <> 0 -> exists b, p3_divIn a s = (Ok tt, b) /\ p3_div a s = Ok b)) /\
  (forall (a : Position6D R) s,
     (p6_div a s = Throw <-> s = 0) /\ (s <> 0 -> exists b, p6_div a s = Ok b /\ p6_scale b s = a /\ cp6 b = map (fun x => x / s) (cp6 a)) /\
     (s <> 0 -> p6_div (p6_scale a s) s = Ok a) /\
     (s = 0 -> p6_divIn a s = (Throw, a)) /\ (s <> 0 -> exists b, p6_divIn a s = (Ok tt, b) /\ p6_div a s = Ok b)) /\
  (forall (a : Velocity3D R) s,
     (v3_div a s = Throw <-> s = 0) /\ (s <> 0 -> exists b, v3_div a s = Ok b /\ v3_scale b s = a /\ cv3 b = map (fun x => x / s) (cv3 a)) /\
     (s <> 0 -> v3_div (v3_scale a s) s = Ok a) /\
     (s = 0 -> v3_divIn a s = (Throw, a)) /\ (s <> 0 -> exists b, v3_divIn a s = (Ok tt, b) /\ v3_div a s = Ok b)) /\
  (forall (a : Velocity6D R) s,
     (v6_div a s = Throw <-> s = 0) /\ (s <> 0 -> exists b, v6_div a s = Ok b /\ v6_scale b s = a /\ cv6 b = map (fun x => x / s) (cv6 a)) /\
     (s <> 0 -> v6_div (v6_scale a s) s = Ok a) /\
     (s = 0 -> v6_divIn a s = (Throw, a)) /\ (s <> 0 -> exists b, v6_divIn a s = (Ok tt, b) /\ v6_div a s = Ok b)) /\
  (forall (a : Rotation3D R) s,
     (e3_div a s = Throw <-> s = 0) /\ (s <> 0 -> exists b, e3_div a s = Ok b /\ e3_scale b s = a /\ ce3 b = map (fun x => x / s) (ce3 a)) /\
     (s <> 0 -> e3_div (e3_scale a s) s = Ok a) /\
     (s = 0 -> e3_divIn a s = (Throw, a)) /\ (s <> 0 -> exists b, e3_divIn a s = (Ok tt, b) /\ e3_div a s = Ok b)) /\
  (forall (a : Pose2D R) s,
     (pose_div a s = Throw <-> s = 0) /\ (s <> 0 -> exists b, pose_div a s = Ok b /\ pose_scale b s = a /\ cpose b = map (fun x => x / s) (cpose a)) /\
     (s <> 0 -> pose_div (pose_scale a s) s = Ok a) /\
     (s = 0 -> pose_divIn a s = (Throw, a)) /\ (s <> 0 -> exists b, pose_divIn a s = (Ok tt, b) /\ pose_div a s = Ok b)) /\
  (forall (a : Quaternion R) s,
     (q_div a s = Throw <-> s = 0) /\ (s <> 0 -> exists b, q_div a s = Ok b /\ q_scale b s = a /\ cq b = map (fun x => x / s) (cq a)) /\
     (s <> 0 -> q_div (q_scale a s) s = Ok a) /\
     (s = 0 -> q_divIn a s = (Throw, a)) /\ (s <> 0 -> exists b, q_divIn a s = (Ok tt, b) /\ q_div a s = Ok b)).
Proof. repeat match goal with |- _ /\ _ => apply conj end. all: dv. Qed.


Lemma f32_eq0 : forall s : f32, Beqb s (f32_ofZ 0) = true <-> s = B754_zero true \/ s = B754_zero false.
Proof.
  intro s. split.
  - destruct s as [[]|[]| |[] m e b]; intro h; auto; exfalso; revert h; discriminate.
  - intros [->| ->]; reflexivity.
Qed.

Lemma C25_division_binary32_proof : forall (L : libm32) (s : f32),
  (forall (a : Position2D f32), (p2_div (S := F32Scalar L) a s = Throw <-> s = B754_zero true \/ s = B754_zero false) /\ snd (p2_divIn (S := F32Scalar L) a (B754_zero true)) = a) /\
  (forall (a : Position3D f32), (p3_div (S := F32Scalar L) a s = Throw <-> s = B754_zero true \/ s = B754_zero false) /\ snd (p3_divIn (S := F32Scalar L) a (B754_zero true)) = a) /\
  (forall (a : Position6D f32), (p6_div (S := F32Scalar L) a s = Throw <-> s = B754_zero true \/ s = B754_zero false) /\ snd (p6_divIn (S := F32Scalar L) a (B754_zero true)) = a) /\
  (forall (a : Velocity3D f32), (v3_div (S := F32Scalar L) a s = Throw <-> s = B754_zero true \/ s = B754_zero false) /\ snd (v3_divIn (S := F32Scalar L) a (B754_zero true)) = a) /\
  (forall (a : Velocity6D f32), (v6_div (S := F32Scalar L) a s = Throw <-> s = B754_zero true \/ s = B754_zero false) /\ snd (v6_divIn (S := F32Scalar L) a (B754_zero true)) = a) /\
  (forall (a : Rotation3D f32), (e3_div (S := F32Scalar L) a s = Throw <-> s = B754_zero true \/ s = B754_zero false) /\ snd (e3_divIn (S := F32Scalar L) a (B754_zero true)) = a) /\
  (forall (a : Pose2D f32), (pose_div (S := F32Scalar L) a s = Throw <-> s = B754_zero true \/ s = B754_zero false) /\ snd (pose_divIn (S := F32Scalar L) a (B754_zero true)) = a) /\
  (forall (a : Quaternion f32), (q_div (S := F32Scalar L) a s = Throw <-> s = B754_zero true \/ s = B754_zero false) /\ snd (q_divIn (S := F32Scalar L) a (B754_zero true)) = a).
Proof.
  intros L s. repeat match goal with |- _ /\ _ => apply conj end.
  all: intros a; cbv [p2_div p3_div p6_div v3_div v6_div e3_div pose_div q_div p2_divIn p3_divIn p6_divIn v3_divIn v6_divIn e3_divIn pose_divIn q_divIn]; cbn [s_eqb s_ofZ F32Scalar]; split;
    [ rewrite <- f32_eq0; destruct (Beqb s (f32_ofZ 0)); split; auto; discriminate | reflexivity ].
Qed.


Lemma lnorm0 : forall l, sumsq l = 0 -> Forall (fun x => x = 0) l.
Proof.
  assert (P : forall l, 0 <= sumsq l).
  { induction l as [|x l IH]; cbn; [lra|]. assert (h := Rle_0_sqr x). unfold Rsqr in h. lra. }
  induction l as [|x l IH]; intro h; constructor; cbn in h.
  - specialize (P l). assert (h2 := Rle_0_sqr x). unfold Rsqr in h2. nra.
  - apply IH. specialize (P l). assert (h2 := Rle_0_sqr x). unfold Rsqr in h2. lra.
Qed.
Lemma sumsq_pos : forall l, 0 <= sumsq l.
Proof. induction l as [|x l IH]; cbn; [lra|]. assert (h := Rle_0_sqr x). unfold Rsqr in h. lra. Qed.

(** What the six normalize functions share, on lists of coordinates. *)
Lemma sumsq_scale : forall l k, sumsq (map (fun x => x * k) l) = k * k * sumsq l.
Proof. induction l as [|x l IH]; intro k; cbn; [ring|]. rewrite IH. ring. Qed.

Lemma normalize_gen : forall (V : Type) (co : V -> list R) (zero : V) (norm : V -> R)
    (scale : V -> R -> V) (normalize : V -> res V),
  (forall a b, co a = co b -> a = b) -> Forall (fun x => x = 0) (co zero) ->
  (forall a, Forall (fun x => x = 0) (co a) -> a = zero) ->
  (forall a, norm a = sqrt (sumsq (co a))) ->
  (forall a k, co (scale a k) = map (fun x => x * k) (co a)) ->
  (forall a, normalize a = if Reqb (norm a) 0 then Throw else if Reqb (norm a) 0 then Throw else Ok (scale a (1 / norm a))) ->
  forall a : V, (normalize a = Throw <-> a = zero) /\
  (a <> zero -> exists b, normalize a = Ok b /\ norm b = 1 /\ a = scale b (norm a) /\ 0 < norm a).
Proof.
  intros V co zero norm scale normalize inj z0 zu hn hs hd a.
  assert (E : norm a = 0 <-> a = zero).
  { split.
    - intro h. apply zu, lnorm0. rewrite hn in h. apply sqrt_eq_0_iff; [apply sumsq_pos|exact h].
    - intros ->. rewrite hn. revert z0. induction (co zero) as [|x l IH]; intro F; cbn; [apply sqrt_0|].
      inversion F; subst. replace (0*0 + sumsq l) with (sumsq l) by ring. apply IH; assumption. }
  rewrite (hd a). destruct (Reqb_spec (norm a) 0) as [h|h].
  - split; [tauto|]. intro k. exfalso. tauto.
  - split; [split; [discriminate|tauto]|]. intros _. eexists. split; [reflexivity|].
    assert (p : 0 < norm a). { destruct (sqrt_pos (sumsq (co a))) as [q|q]; [rewrite hn; exact q|]. rewrite <- hn in q. congruence. }
    assert (NN : norm a * norm a = sumsq (co a)). { rewrite hn. apply sqrt_sqrt, sumsq_pos. }
    split; [|split; [|exact p]].
    + rewrite hn, hs, sumsq_scale, <- NN. apply sqrt_unique'; [lra|]. field. exact h.
    + apply inj. rewrite !hs, map_map. rewrite <- (map_id (co a)) at 1. apply map_ext. intro x. field. exact h.
Qed.

Ltac nz := match goal with |- forall a : ?V, _ => idtac end;
  first [ refine (normalize_gen _ cp2 _ _ _ _ _ _ _ _ _ _) | refine (normalize_gen _ cp3 _ _ _ _ _ _ _ _ _ _)
        | refine (normalize_gen _ cp6 _ _ _ _ _ _ _ _ _ _) | refine (normalize_gen _ cv3 _ _ _ _ _ _ _ _ _ _)
        | refine (normalize_gen _ cv6 _ _ _ _ _ _ _ _ _ _) | refine (normalize_gen _ cq _ _ _ _ _ _ _ _ _ _) ];
  [ intros [] [] h; cbn in h; injection h; intros; subst; reflexivity
  | repeat constructor
  | intros [] F; cbn in F; repeat match goal with H : Forall _ _ |- _ => inversion H; subst; clear H end; reflexivity
  | intros []; unr; f_equal; ring
  | intros [] k; reflexivity
  | intros []; reflexivity ].

Lemma C25_normalize_proof :
  (forall a : Position2D R, (p2_normalize a = Throw <-> a = (mkPosition2D 0 0)) /\
     (a <> (mkPosition2D 0 0) -> exists b, p2_normalize a = Ok b /\ p2_norm b = 1 /\ a = p2_scale b (p2_norm a) /\ 0 < p2_norm a)) /\
  (forall a : Position3D R, (p3_normalize a = Throw <-> a = (mkPosition3D 0 0 0)) /\
     (a <> (mkPosition3D 0 0 0) -> exists b, p3_normalize a = Ok b /\ p3_norm b = 1 /\ a = p3_scale b (p3_norm a) /\ 0 < p3_norm a)) /\
  (forall a : Position6D R, (p6_normalize a = Throw <-> a = (mkPosition6D 0 0 0 0 0 0)) /\
     (a <> (mkPosition6D 0 0 0 0 0 0) -> exists b, p6_normalize a = Ok b /\ p6_norm b = 1 /\ a = p6_scale b (p6_norm a) /\ 0 < p6_norm a)) /\
  (forall a : Velocity3D R, (v3_normalize a = Throw <-> a = (mkVelocity3D 0 0 0)) /\
     (a <> (mkVelocity3D 0 0 0) -> exists b, v3_normalize a = Ok b /\ v3_norm b = 1 /\ a = v3_scale b (v3_norm a) /\ 0 < v3_norm a)) /\
  (forall a : Velocity6D R, (v6_normalize a = Throw <-> a = (mkVelocity6D 0 0 0 0 0 0)) /\
     (a <> (mkVelocity6D 0 0 0 0 0 0) -> exists b, v6_normalize a = Ok b /\ v6_norm b = 1 /\ a = v6_scale b (v6_norm a) /\ 0 < v6_norm a)) /\
  (forall a : Quaternion R, (q_normalize a = Throw <-> a = (mkQuaternion 0 0 0 0)) /\
     (a <> (mkQuaternion 0 0 0 0) -> exists b, q_normalize a = Ok b /\ q_norm b = 1 /\ a = q_scale b (q_norm a) /\ 0 < q_norm a)).
Proof. repeat match goal with |- _ /\ _ => apply conj end. all: nz. Qed.


Lemma C25_pose_normalize_proof : forall a : Pose2D R,
  (pose_normalize a = Throw <-> sqrt (pose_x a * pose_x a + pose_y a * pose_y a) < 1/10000) /\
  (1/10000 <= pose_norm a -> exists b, pose_normalize a = Ok b /\ pose_norm b = 1 /\
    pose_x a = pose_x b * pose_norm a /\ pose_y a = pose_y b * pose_norm a /\ pose_theta b = pose_theta a).
Proof.
  intros [x y th]. unfold pose_normalize, pose_norm. cbn.
  destruct (sqrt_ex (x*x+y*y)) as (s&e&h&ss); [apply sum2sq_pos|]. rewrite e.
  rewrite (Rabs_right s) by lra. destruct (Rltb_spec s (1/10000)) as [l|l].
  - split; [tauto|]. intro; lra.
  - split; [split; [discriminate|intro; contradiction]|]. intros l'. eexists. split; [reflexivity|]. cbn.
    split; [|repeat split; field; lra].
    apply sqrt_unique'; [lra|]. transitivity ((x*x+y*y)/(s*s)); [|field; lra]. rewrite <- ss. field. lra.
Qed.


Lemma C25_pose_normalize_refuted_proof :
  mkPose2D (1/100000) 0 0 <> mkPose2D 0 0 0 /\ pose_normalize (mkPose2D (1/100000) 0 0) = Throw.
Proof.
  split.
  - intro h. injection h. lra.
  - apply C25_pose_normalize_proof. cbn. rewrite (sqrt_unique' _ (1/100000)); lra.
Qed.


Lemma C25_normalize_binary32_refuted_proof : forall L : libm32,
  let tiny := mkPosition3D (f32_frac 1 (2^100)) (f32_ofZ 0) (f32_ofZ 0) in
  let big := mkPosition3D (f32_ofZ (2^100)) (f32_ofZ 0) (f32_ofZ 0) in
  p3_eqb (S := F32Scalar L) tiny (mkPosition3D (f32_ofZ 0) (f32_ofZ 0) (f32_ofZ 0)) = false /\
  p3_normalize (S := F32Scalar L) tiny = Throw /\
  exists b, p3_normalize (S := F32Scalar L) big = Ok b /\
    p3_eqb (S := F32Scalar L) b (mkPosition3D (f32_ofZ 0) (f32_ofZ 0) (f32_ofZ 0)) = true.
Proof.
  intro L. cbv zeta. split; [vm_compute; reflexivity|]. split; [vm_compute; reflexivity|].
  eexists. split.
  - unfold p3_normalize, p3_div.
    match goal with |- (if ?c then _ else _) = _ => replace c with false by (vm_compute; reflexivity) end. reflexivity.
  - vm_compute. reflexivity.
Qed.




Fixpoint ldot (u v : list R) : R := match u, v with x :: u', y :: v' => x * y + ldot u' v' | _, _ => 0 end.

Lemma cs_list : forall u v, ldot u v * ldot u v <= sumsq u * sumsq v.
Proof.
  induction u as [|x u IH]; intros [|y v]; cbn.
  - lra.
  - assert (h := sumsq_pos v). assert (h2 := Rle_0_sqr y). unfold Rsqr in h2. lra.
  - lra.
  - specialize (IH v). assert (A := sumsq_pos u). assert (B := sumsq_pos v).
    destruct (sqrt_ex _ A) as (a&_&ha&ea). destruct (sqrt_ex _ B) as (b&_&hb&eb).
    rewrite <- ea, <- eb in *. set (D := ldot u v) in *. clearbody D.
    assert (D1 : D <= a*b). { apply Rnot_lt_le. intro n. assert (0 <= a*b) by nra. nra. }
    assert (D2 : - (a*b) <= D). { apply Rnot_lt_le. intro n. assert (0 <= a*b) by nra. nra. }
    assert (K : 2*(x*y*D) <= x*x*(b*b) + y*y*(a*a)).
    { destruct (Rle_dec 0 (x*y)) as [p|p].
      - assert (x*y*D <= x*y*(a*b)) by (apply Rmult_le_compat_l; assumption).
        assert (h := Rle_0_sqr (x*b - y*a)). unfold Rsqr in h. lra.
      - assert (x*y*D <= x*y*(-(a*b))).
        { apply Ropp_le_cancel. replace (-(x*y*D)) with ((-(x*y))*D) by ring.
          replace (-(x*y*(-(a*b)))) with ((-(x*y))*(-(a*b))) by ring. apply Rmult_le_compat_l; lra. }
        assert (h := Rle_0_sqr (x*b + y*a)). unfold Rsqr in h. lra. }
    lra.
Qed.

Lemma tri_list : forall u v w, length u = length v -> length v = length w ->
  lnorm (ldiff u w) <= lnorm (ldiff u v) + lnorm (ldiff v w).
Proof.
  intros u v w e1 e2.
  assert (E : sumsq (ldiff u w) = sumsq (ldiff u v) + 2 * ldot (ldiff u v) (ldiff v w) + sumsq (ldiff v w)).
  { revert v w e1 e2. induction u as [|x u IH]; intros [|y v] [|z w] e1 e2; cbn in *; try lia; try discriminate; [lra|].
    change (sumsq (map (fun p => fst p - snd p) (combine u w))) with (sumsq (ldiff u w)). rewrite (IH v w) by lia. fold (ldiff u v) (ldiff v w). ring. }
  unfold lnorm. assert (C := cs_list (ldiff u v) (ldiff v w)).
  destruct (sqrt_ex _ (sumsq_pos (ldiff u w))) as (a&->&ha&ea).
  destruct (sqrt_ex _ (sumsq_pos (ldiff u v))) as (b&->&hb&eb).
  destruct (sqrt_ex _ (sumsq_pos (ldiff v w))) as (c&->&hc&ec).
  rewrite <- eb, <- ec in *. rewrite <- ea in E. set (D := ldot _ _) in *. clearbody D.
  assert (D <= b*c). { apply Rnot_lt_le. intro n. assert (0 <= b*c) by nra. nra. }
  apply Rnot_lt_le. intro n. nra.
Qed.

Lemma ldiff_sym : forall u v, sumsq (ldiff u v) = sumsq (ldiff v u).
Proof. unfold ldiff. induction u as [|x u IH]; intros [|y v]; cbn; try lra. rewrite (IH v). ring. Qed.

Lemma ldiff_0 : forall u v, length u = length v -> (sumsq (ldiff u v) = 0 <-> u = v).
Proof.
  unfold ldiff. induction u as [|x u IH]; intros [|y v] e; cbn in *; try discriminate; [tauto|].
  assert (h := sumsq_pos (map (fun p => fst p - snd p) (combine u v))).
  assert (h2 := Rle_0_sqr (x-y)). unfold Rsqr in h2. split.
  - intro E. assert (E2 : (x-y)*(x-y) = 0) by lra. assert (x = y) by nra. subst y.
    f_equal. apply IH; [lia|lra].
  - intro E. injection E as -> ->. rewrite (proj2 (IH v eq_refl) eq_refl). ring.
Qed.

Lemma metric_gen : forall (V : Type) (co : V -> list R) n (d : V -> V -> R),
  (forall a, length (co a) = n) -> (forall a b, co a = co b -> a = b) ->
  (forall a b, d a b = lnorm (ldiff (co a) (co b))) -> is_metric d.
Proof.
  intros V co n d hl inj hd. repeat split.
  - intros. rewrite hd. apply sqrt_pos.
  - intro h. apply inj, ldiff_0; [rewrite !hl; reflexivity|]. rewrite hd in h. apply sqrt_eq_0_iff; [apply sumsq_pos|exact h].
  - intros ->. rewrite hd. unfold lnorm. rewrite (proj2 (ldiff_0 (co b) (co b) eq_refl) eq_refl). apply sqrt_0.
  - intros. rewrite !hd. unfold lnorm. rewrite ldiff_sym. reflexivity.
  - intros. rewrite !hd. apply tri_list; rewrite !hl; reflexivity.
Qed.

Lemma C26_metric_proof :
  is_metric (V := Position2D R) p2_distance /\ is_metric (V := Position3D R) p3_distance /\
  (forall a b, p2_distance a b = lnorm (ldiff (cp2 a) (cp2 b)) /\ p2_distance a b * p2_distance a b = p2_distanceSquared a b) /\
  (forall a b, p3_distance a b = lnorm (ldiff (cp3 a) (cp3 b)) /\ p3_distance a b * p3_distance a b = p3_distanceSquared a b).
Proof.
  assert (A : forall a b : Position2D R, p2_distance a b = lnorm (ldiff (cp2 a) (cp2 b))).
  { intros [] []. unr. f_equal. ring. }
  assert (B : forall a b : Position3D R, p3_distance a b = lnorm (ldiff (cp3 a) (cp3 b))).
  { intros [] []. unr. f_equal. ring. }
  split; [|split; [|split]].
  - apply (metric_gen _ cp2 2); [reflexivity| |exact A]. intros [] [] h. injection h; intros; subst; reflexivity.
  - apply (metric_gen _ cp3 3); [reflexivity| |exact B]. intros [] [] h. injection h; intros; subst; reflexivity.
  - intros a b. split; [apply A|]. rewrite A. unfold lnorm. rewrite sqrt_sqrt by apply sumsq_pos. drec. unr. ring.
  - intros a b. split; [apply B|]. rewrite B. unfold lnorm. rewrite sqrt_sqrt by apply sumsq_pos. drec. unr. ring.
Qed.


Lemma C26_position_distance_proof :
  (forall a b : Pose2D R, pose_distance a b = p2_distance (position2DFromPose2D a) (position2DFromPose2D b) /\
     (pose_distance a b = 0 <-> pose_x a = pose_x b /\ pose_y a = pose_y b)) /\
  (forall a b : Position6D R, p6_distance a b = p3_distance (position3DFromPosition6D a) (position3DFromPosition6D b) /\
     (p6_distance a b = 0 <-> p6_x a = p6_x b /\ p6_y a = p6_y b /\ p6_z a = p6_z b)) /\
  (forall a b : Transform R, t_distance a b = p3_distance (position3DFromTransform a) (position3DFromTransform b) /\
     (t_distance a b = 0 <-> tpos a = tpos b)) /\
  (forall a b c : Pose2D R, pose_distance a b = pose_distance b a /\ pose_distance a c <= pose_distance a b + pose_distance b c) /\
  (forall a b c : Position6D R, p6_distance a b = p6_distance b a /\ p6_distance a c <= p6_distance a b + p6_distance b c) /\
  (forall a b c : Transform R, t_distance a b = t_distance b a /\ t_distance a c <= t_distance a b + t_distance b c).
Proof.
  destruct C26_metric_proof as (M2&M3&_).
  assert (A : forall a b : Pose2D R, pose_distance a b = p2_distance (position2DFromPose2D a) (position2DFromPose2D b)).
  { intros [] []. unr. reflexivity. }
  assert (C : forall a b : Position6D R, p6_distance a b = p3_distance (position3DFromPosition6D a) (position3DFromPosition6D b)).
  { intros [] []. unr. reflexivity. }
  assert (B : forall a b : Transform R, t_distance a b = p3_distance (position3DFromTransform a) (position3DFromTransform b)).
  { intros [] []. unr. reflexivity. }
  destruct M2 as (_&z2&s2&t2). destruct M3 as (_&z3&s3&t3).
  split; [|split; [|split; [|split; [|split]]]].
  - intros a b. split; [apply A|]. rewrite A, z2. destruct a, b. cbn. split.
    + intro h. injection h. auto.
    + intros [-> ->]. reflexivity.
  - intros a b. split; [apply C|]. rewrite C, z3. destruct a, b. cbn. split.
    + intro h. injection h. auto.
    + intros (->&->&->). reflexivity.
  - intros a b. split; [apply B|]. rewrite B, z3. destruct a, b. cbn. split.
    + intro h. injection h. intros; subst; reflexivity.
    + intro h. injection h. intros; subst; reflexivity.
  - intros a b c. rewrite !A. split; [apply s2|apply t2].
  - intros a b c. rewrite !C. split; [apply s3|apply t3].
  - intros a b c. rewrite !B. split; [apply s3|apply t3].
Qed.


Lemma tol_gen : forall (V : Type) (co : V -> list R) n (near : V -> V -> R -> bool),
  (forall a, length (co a) = n) -> (forall a b, co a = co b -> a = b) ->
  (forall a b eps, near a b eps = forallb (fun p => Rleb (Rabs (fst p - snd p)) eps) (combine (co a) (co b))) ->
  is_tolerance co near.
Proof.
  intros V co n near hl inj hd.
  assert (I : forall a b eps, near a b eps = true <-> Forall (fun p => Rabs (fst p - snd p) <= eps) (combine (co a) (co b))).
  { intros. rewrite hd, forallb_forall, Forall_forall. split; intros h x hx; apply Rleb_iff, h, hx. }
  assert (S : forall a b eps, near a b eps = near b a eps).
  { intros. rewrite !hd. generalize (co a) (co b). induction l as [|x l IH]; intros [|y k]; cbn; try reflexivity.
    rewrite IH, Rabs_minus_sym. reflexivity. }
  split; [exact I|]. split; [|split; [exact S|split]].
  - intros a eps h. apply I. induction (co a) as [|x l IH]; constructor; [|exact IH].
    cbn. replace (x - x) with 0 by ring. rewrite Rabs_R0. exact h.
  - intros a b eps eps' h H. apply I. apply I in H. revert H. apply Forall_impl. intros p hp. lra.
  - intros a b H. apply I in H. apply inj. assert (L : length (co a) = length (co b)) by (rewrite !hl; reflexivity).
    revert L H. generalize (co a) (co b). induction l as [|x l IH]; intros [|y k] L H; cbn in *; try discriminate; [reflexivity|].
    inversion H as [|? ? H1 H2]; subst. f_equal; [|apply IH; [lia|exact H2]].
    cbn in H1. assert (Z := Rabs_pos (x - y)). assert (Rabs (x-y) = 0) by lra.
    destruct (Req_dec (x-y) 0) as [|nz]; [lra|]. apply Rabs_no_R0 in nz. contradiction.
Qed.

Ltac tol n := apply (tol_gen _ _ n);
  [ reflexivity | intros [] [] h; injection h; intros; subst; reflexivity
  | intros [] [] eps; unr; repeat match goal with |- context [if Rleb ?x ?y then _ else _] => destruct (Rleb x y) end; reflexivity ].

Lemma C26_tolerance_proof :
  is_tolerance (V := Position2D R) cp2 p2_isNear /\
  is_tolerance (V := Position3D R) cp3 p3_isNear /\
  is_tolerance (V := Position6D R) cp6 p6_isNear /\
  is_tolerance (V := Velocity3D R) cv3 v3_isNear /\
  is_tolerance (V := Velocity6D R) cv6 v6_isNear /\
  is_tolerance (V := Rotation3D R) ce3 e3_isNear /\
  is_tolerance (V := Pose2D R) cpose pose_isNear /\
  is_tolerance (V := Rotation R) cm m_isNear /\
  is_tolerance (V := Transform R) ct t_isNear.
Proof.
  repeat match goal with |- _ /\ _ => apply conj end.
  - tol 2%nat.
  - tol 3%nat.
  - tol 6%nat.
  - tol 3%nat.
  - tol 6%nat.
  - tol 3%nat.
  - tol 3%nat.
  - tol 9%nat.
  - tol 12%nat.
Qed.


Lemma C26_quaternion_tolerance_proof : forall (a b : Quaternion R) (eps eps' : R),
  (q_isNear a b eps = true <->
     Forall (fun p => Rabs (fst p - snd p) < eps) (combine (cq a) (cq b)) \/
     Forall (fun p => Rabs (fst p + snd p) < eps) (combine (cq a) (cq b))) /\
  (0 < eps -> q_isNear a a eps = true) /\ q_isNear a b eps = q_isNear b a eps /\
  (eps <= eps' -> q_isNear a b eps = true -> q_isNear a b eps' = true) /\
  q_isNear (q_scale a (-1)) b eps = q_isNear a b eps /\ q_isNear a a 0 = false.
Proof.
  assert (I : forall (a b : Quaternion R) eps, q_isNear a b eps = true <->
     Forall (fun p => Rabs (fst p - snd p) < eps) (combine (cq a) (cq b)) \/
     Forall (fun p => Rabs (fst p + snd p) < eps) (combine (cq a) (cq b))).
  { intros [w x y z] [w' x' y' z'] eps. unfold q_isNear, cq. cbn.
    rewrite orb_true_iff, !andb_true_iff, !Rltb_iff. split.
    - intros [h|h]; [left|right]; decompose [and] h; repeat constructor; assumption.
    - intros [h|h]; [left|right]; repeat match goal with H : Forall _ _ |- _ => inversion H; subst; clear H end; cbn in *; tauto. }
  assert (B : forall x y : bool, (x = true <-> y = true) -> x = y).
  { intros [] [] h; try reflexivity; destruct h as [h1 h2]; [symmetry; auto|auto]. }
  intros a b eps eps'. split; [apply I|]. split; [|split; [|split; [|split]]].
  - intro h. apply I. left. destruct a. repeat constructor; cbn;
      match goal with |- Rabs ?e < _ => replace e with 0 by ring end; rewrite Rabs_R0; exact h.
  - apply B. rewrite !I. destruct a, b. unfold cq. cbn.
    split; (intros [h|h]; [left|right]; repeat match goal with H : Forall _ _ |- _ => inversion H; subst; clear H end;
      repeat constructor; cbn in *; first [rewrite Rabs_minus_sym; assumption | rewrite Rplus_comm; assumption]).
  - intros h H. apply I. apply I in H. destruct H as [H|H]; [left|right]; revert H; apply Forall_impl; intros p hp; lra.
  - apply B. rewrite !I. destruct a, b. unfold cq. cbn.
    split; (intros [h|h]; [right|left]; repeat match goal with H : Forall _ _ |- _ => inversion H; subst; clear H end;
      repeat constructor; cbn in *; match goal with |- Rabs ?e < _ =>
        match goal with H : Rabs ?f < _ |- _ => replace e with (- f) by ring; rewrite Rabs_Ropp; exact H end end).
  - apply not_true_is_false. rewrite I. intro h. destruct a. unfold cq in h. cbn in h.
    destruct h as [h|h]; inversion h as [|? ? H1 H2]; subst; cbn in H1;
      match type of H1 with Rabs ?e < 0 => assert (P := Rabs_pos e); lra end.
Qed.


Lemma nan_near : forall (x y eps : f32), is_nan x = true \/ is_nan y = true ->
  Bleb (Babs (Bminus mode_NE x y)) eps = false.
Proof.
  intros x y eps h. assert (E : Bminus mode_NE x y = B754_nan).
  { destruct h as [h|h]; [destruct x; try discriminate h; destruct y; reflexivity|destruct y; try discriminate h; destruct x; reflexivity]. }
  rewrite E. destruct eps as [[]|[]| |[]]; reflexivity.
Qed.

Lemma nan_eps : forall (x eps : f32), is_nan eps = true -> Bleb x eps = false.
Proof. intros x eps h. destruct eps; try discriminate h. destruct x as [[]|[]| |[]]; reflexivity. Qed.

Ltac nn := intros a b h; drec; unfold cp2, cp3, cp6, cv3, cv6, ce3, cpose, cq, cm, ct in h;
  cbn [p2_x p2_y p3_x p3_y p3_z p6_x p6_y p6_z p6_wx p6_wy p6_wz v3_xd v3_yd v3_zd v6_xd v6_yd v6_zd v6_wxd v6_wyd v6_wzd
       e3_wx e3_wy e3_wz pose_x pose_y pose_theta q_w q_x q_y q_z m_r1c1 m_r1c2 m_r1c3 m_r2c1 m_r2c2 m_r2c3 m_r3c1 m_r3c2 m_r3c3
       t_r1c1 t_r1c2 t_r1c3 t_r1c4 t_r2c1 t_r2c2 t_r2c3 t_r2c4 t_r3c1 t_r3c2 t_r3c3 t_r3c4] in h;
  cbv [p2_isNear p3_isNear p6_isNear v3_isNear v6_isNear e3_isNear pose_isNear q_isNear m_isNear t_isNear];
  cbn [p2_x p2_y p3_x p3_y p3_z p6_x p6_y p6_z p6_wx p6_wy p6_wz v3_xd v3_yd v3_zd v6_xd v6_yd v6_zd v6_wxd v6_wyd v6_wzd
       e3_wx e3_wy e3_wz pose_x pose_y pose_theta q_w q_x q_y q_z m_r1c1 m_r1c2 m_r1c3 m_r2c1 m_r2c2 m_r2c3 m_r3c1 m_r3c2 m_r3c3
       t_r1c1 t_r1c2 t_r1c3 t_r1c4 t_r2c1 t_r2c2 t_r2c3 t_r2c4 t_r3c1 t_r3c2 t_r3c3 t_r3c4 s_abs s_sub s_leb F32Scalar];
  destruct h as [h|[h|h]];
  [ repeat match goal with H : Exists _ _ |- _ => inversion H; subst; clear H end;
    match goal with H : is_nan ?x = true |- context [Bleb (Babs (Bminus mode_NE ?x ?y)) ?e] =>
      rewrite (nan_near x y e (or_introl H)); rewrite ?andb_false_r, ?andb_false_l; reflexivity end
  | repeat match goal with H : Exists _ _ |- _ => inversion H; subst; clear H end;
    match goal with H : is_nan ?y = true |- context [Bleb (Babs (Bminus mode_NE ?x ?y)) ?e] =>
      rewrite (nan_near x y e (or_intror H)); rewrite ?andb_false_r, ?andb_false_l; reflexivity end
  | match type of h with is_nan ?e = true => rewrite !(fun x => nan_eps x e h) end; rewrite ?andb_false_r, ?andb_false_l; reflexivity ].

Lemma C26_nan_proof : forall (L : libm32) (eps : f32),
  let nan_in (l : list f32) := Exists (fun x => is_nan x = true) l in
  (forall a b : Position2D f32, nan_in (cp2 a) \/ nan_in (cp2 b) \/ is_nan eps = true -> p2_isNear (S := F32Scalar L) a b eps = false) /\
  (forall a b : Position3D f32, nan_in (cp3 a) \/ nan_in (cp3 b) \/ is_nan eps = true -> p3_isNear (S := F32Scalar L) a b eps = false) /\
  (forall a b : Position6D f32, nan_in (cp6 a) \/ nan_in (cp6 b) \/ is_nan eps = true -> p6_isNear (S := F32Scalar L) a b eps = false) /\
  (forall a b : Velocity3D f32, nan_in (cv3 a) \/ nan_in (cv3 b) \/ is_nan eps = true -> v3_isNear (S := F32Scalar L) a b eps = false) /\
  (forall a b : Velocity6D f32, nan_in (cv6 a) \/ nan_in (cv6 b) \/ is_nan eps = true -> v6_isNear (S := F32Scalar L) a b eps = false) /\
  (forall a b : Rotation3D f32, nan_in (ce3 a) \/ nan_in (ce3 b) \/ is_nan eps = true -> e3_isNear (S := F32Scalar L) a b eps = false) /\
  (forall a b : Pose2D f32, nan_in (cpose a) \/ nan_in (cpose b) \/ is_nan eps = true -> pose_isNear (S := F32Scalar L) a b eps = false) /\
  (forall a b : Rotation f32, nan_in (cm a) \/ nan_in (cm b) \/ is_nan eps = true -> m_isNear (S := F32Scalar L) a b eps = false) /\
  (forall a b : Transform f32, nan_in (ct a) \/ nan_in (ct b) \/ is_nan eps = true -> t_isNear (S := F32Scalar L) a b eps = false).
Proof.
  intros L eps. cbv zeta. repeat match goal with |- _ /\ _ => apply conj end. all: nn.
Qed.




Lemma C27_round_trip_proof : forall (T : Type) (S : Scalar T),
  (forall (a : Position2D T) (out : list T), p2_toVector a = Ok (cp2 a) /\ p2_toVectorInto a out = Ok (cp2 a) /\ p2_ofVector (cp2 a) = a) /\
  (forall (a : Position3D T) (out : list T), p3_toVector a = Ok (cp3 a) /\ p3_toVectorInto a out = Ok (cp3 a) /\ p3_ofVector (cp3 a) = a) /\
  (forall (a : Position6D T) (out : list T), p6_toVector a = Ok (cp6 a) /\ p6_toVectorInto a out = Ok (cp6 a) /\ p6_ofVector (cp6 a) = a) /\
  (forall (a : Velocity3D T) (out : list T), v3_toVector a = Ok (cv3 a) /\ v3_toVectorInto a out = Ok (cv3 a) /\ v3_ofVector (cv3 a) = a) /\
  (forall (a : Velocity6D T) (out : list T), v6_toVector a = Ok (cv6 a) /\ v6_toVectorInto a out = Ok (cv6 a) /\ v6_ofVector (cv6 a) = a) /\
  (forall (a : Rotation3D T) (out : list T), e3_toVector a = Ok (ce3 a) /\ e3_toVectorInto a out = Ok (ce3 a) /\ e3_ofVector (ce3 a) = a) /\
  (forall (a : Pose2D T) (out : list T), pose_toVector a = Ok (cpose a) /\ pose_toVectorInto a out = Ok (cpose a) /\ pose_ofVector (cpose a) = a) /\
  (forall (a : Quaternion T) (out : list T), q_toVector a = Ok (cq a) /\ q_toVectorInto a out = Ok (cq a) /\ q_ofVector (cq a) = a).
Proof.
  intros T S. repeat match goal with |- _ /\ _ => apply conj end.
  all: intros [] out; split; [reflexivity|split; [|reflexivity]].
  all: do 6 (try (destruct out as [|? out]; [reflexivity|])); destruct out; reflexivity.
Qed.


Lemma C27_wrong_size_proof : forall (T : Type) (S : Scalar T) (v : list T),
  (length v <> 2%nat -> p2_ofVector v = mkPosition2D (s_ofZ 0) (s_ofZ 0)) /\
  (length v <> 3%nat -> p3_ofVector v = mkPosition3D (s_ofZ 0) (s_ofZ 0) (s_ofZ 0)) /\
  (length v <> 6%nat -> p6_ofVector v = mkPosition6D (s_ofZ 0) (s_ofZ 0) (s_ofZ 0) (s_ofZ 0) (s_ofZ 0) (s_ofZ 0)) /\
  (length v <> 3%nat -> v3_ofVector v = mkVelocity3D (s_ofZ 0) (s_ofZ 0) (s_ofZ 0)) /\
  (length v <> 6%nat -> v6_ofVector v = mkVelocity6D (s_ofZ 0) (s_ofZ 0) (s_ofZ 0) (s_ofZ 0) (s_ofZ 0) (s_ofZ 0)) /\
  (length v <> 3%nat -> e3_ofVector v = mkRotation3D (s_ofZ 0) (s_ofZ 0) (s_ofZ 0)) /\
  (length v <> 3%nat -> pose_ofVector v = mkPose2D (s_ofZ 0) (s_ofZ 0) (s_ofZ 0)) /\
  (length v <> 4%nat -> q_ofVector v = mkQuaternion (s_ofZ 0) (s_ofZ 0) (s_ofZ 0) (s_ofZ 0)).
Proof.
  intros T S v. repeat match goal with |- _ /\ _ => apply conj end.
  all: intro h; do 7 (try (destruct v as [|? v]; [try reflexivity; exfalso; apply h; reflexivity|])); reflexivity.
Qed.


Lemma C27_quaternion_wrong_size_refuted_proof : forall v : list R, length v <> 4%nat ->
  q_ofVector v <> q_id.
Proof.
  intros v h E. assert (W := C27_wrong_size_proof R RScalar v). decompose [and] W.
  match goal with H : length v <> 4%nat -> _ |- _ => rewrite (H h) in E end.
  injection E. cbn. lra.
Qed.


Lemma vset_at : forall A (pre post : list A) x y, vset (pre ++ y :: post) (length pre) x = Ok (pre ++ x :: post).
Proof. induction pre as [|p pre IH]; intros; cbn; [reflexivity|]. rewrite IH. reflexivity. Qed.

Lemma vset_ub : forall A (pre : list A) x, vset (pre ++ []) (length pre) x = UB.
Proof. induction pre as [|p pre IH]; intros; cbn; [reflexivity|]. rewrite IH. reflexivity. Qed.

Lemma vwrite_ok : forall A (xs pre post : list A), (length post >= length xs)%nat ->
  vwrite (pre ++ post) (length pre) xs = Ok (pre ++ xs ++ skipn (length xs) post, (length pre + length xs)%nat).
Proof.
  induction xs as [|x xs IH]; intros pre post h; cbn [vwrite app length skipn].
  - rewrite Nat.add_0_r. reflexivity.
  - destruct post as [|y post]; [cbn in h; lia|]. rewrite vset_at. cbn [rbind].
    specialize (IH (pre ++ [x]) post). rewrite app_length in IH. cbn [length] in IH.
    rewrite <- !app_assoc in IH. cbn [app] in IH. cbn [length] in h.
    replace (Datatypes.S (length pre)) with (length pre + 1)%nat by lia. rewrite IH by lia. cbn [skipn].
    f_equal. f_equal. lia.
Qed.

Lemma vwrite_ub : forall A (xs pre post : list A), (length post < length xs)%nat ->
  vwrite (pre ++ post) (length pre) xs = UB.
Proof.
  induction xs as [|x xs IH]; intros pre post h; cbn [vwrite length] in *; [lia|].
  destruct post as [|y post].
  - rewrite vset_ub. reflexivity.
  - rewrite vset_at. cbn [rbind]. specialize (IH (pre ++ [x]) post). rewrite app_length in IH. cbn [length] in IH, h.
    rewrite <- !app_assoc in IH. cbn [app] in IH.
    replace (Datatypes.S (length pre)) with (length pre + 1)%nat by lia. apply IH. lia.
Qed.

Lemma C27_writeToVector_proof : forall (T : Type) (S : Scalar T) (pre post : list T),
  (forall (a : Position2D T), (length post >= 2)%nat ->
     p2_writeToVector a (pre ++ post) (length pre) = Ok (pre ++ cp2 a ++ skipn 2 post, (length pre + 2)%nat)) /\
  (forall (a : Position2D T), (length post < 2)%nat -> p2_writeToVector a (pre ++ post) (length pre) = UB) /\
  (forall (a : Position3D T), (length post >= 3)%nat ->
     p3_writeToVector a (pre ++ post) (length pre) = Ok (pre ++ cp3 a ++ skipn 3 post, (length pre + 3)%nat)) /\
  (forall (a : Position3D T), (length post < 3)%nat -> p3_writeToVector a (pre ++ post) (length pre) = UB) /\
  (forall (a : Position6D T), (length post >= 6)%nat ->
     p6_writeToVector a (pre ++ post) (length pre) = Ok (pre ++ cp6 a ++ skipn 6 post, (length pre + 6)%nat)) /\
  (forall (a : Position6D T), (length post < 6)%nat -> p6_writeToVector a (pre ++ post) (length pre) = UB) /\
  (forall (a : Velocity3D T), (length post >= 3)%nat ->
     v3_writeToVector a (pre ++ post) (length pre) = Ok (pre ++ cv3 a ++ skipn 3 post, (length pre + 3)%nat)) /\
  (forall (a : Velocity3D T), (length post < 3)%nat -> v3_writeToVector a (pre ++ post) (length pre) = UB) /\
  (forall (a : Velocity6D T), (length post >= 6)%nat ->
     v6_writeToVector a (pre ++ post) (length pre) = Ok (pre ++ cv6 a ++ skipn 6 post, (length pre + 6)%nat)) /\
  (forall (a : Velocity6D T), (length post < 6)%nat -> v6_writeToVector a (pre ++ post) (length pre) = UB) /\
  (forall (a : Pose2D T), (length post >= 3)%nat ->
     pose_writeToVector a (pre ++ post) (length pre) = Ok (pre ++ cpose a ++ skipn 3 post, (length pre + 3)%nat)) /\
  (forall (a : Pose2D T), (length post < 3)%nat -> pose_writeToVector a (pre ++ post) (length pre) = UB).
Proof.
  intros T S pre post. repeat match goal with |- _ /\ _ => apply conj end.
  all: intros a h; first [ refine (vwrite_ok _ _ pre post _); exact h | refine (vwrite_ub _ _ pre post _); exact h ].
Qed.



Lemma C25_norms_proof :
  (forall a b : Position2D R, p2_norm a = lnorm (cp2 a) /\ p2_dotProduct a b = ldot (cp2 a) (cp2 b) /\
     p2_distanceSquared a b = p2_distance a b * p2_distance a b /\ p2_distance a b = lnorm (ldiff (cp2 a) (cp2 b))) /\
  (forall a b : Position3D R, p3_norm a = lnorm (cp3 a) /\ p3_dotProduct a b = ldot (cp3 a) (cp3 b) /\
     (forall eps, p3_isOrthogonal a b eps = true <-> Rabs (ldot (cp3 a) (cp3 b)) <= eps)) /\
  (forall a b : Position6D R, p6_norm a = lnorm (cp6 a) /\ p6_distanceSquared a b = p6_distance a b * p6_distance a b) /\
  (forall a : Velocity3D R, v3_norm a = lnorm (cv3 a)) /\ (forall a : Velocity6D R, v6_norm a = lnorm (cv6 a)) /\
  (forall a : Rotation3D R, e3_norm a = lnorm (ce3 a)) /\ (forall a : Quaternion R, q_norm a = lnorm (cq a)) /\
  (forall a b : Pose2D R, pose_norm a = lnorm [pose_x a; pose_y a] /\ pose_distanceSquared a b = pose_distance a b * pose_distance a b) /\
  (forall a b : Transform R, t_distanceSquared a b = t_distance a b * t_distance a b).
Proof.
  assert (sq : forall x, 0 <= x -> x = sqrt x * sqrt x) by (intros; symmetry; now apply sqrt_sqrt).
  repeat match goal with |- _ /\ _ => split end; intros.
  all: repeat match goal with |- _ /\ _ => split end; intros.
  all: try (unfold lnorm, sumsq, ldiff, ldot, cp2, cp3, cp6, cv3, cv6, ce3, cq; cbn; first [f_equal; ring | ring]).
  2:{ change (p3_isOrthogonal a b eps) with (Rleb (Rabs (p3_dotProduct a b)) eps). rewrite RLemmas.Rleb_iff.
  replace (ldot (cp3 a) (cp3 b)) with (p3_dotProduct a b); [reflexivity|]. unfold ldot, cp3. cbn. ring. }
  all: unfold p2_distance, p6_distance, pose_distance, t_distance; apply sq; unfold p2_distanceSquared, p6_distanceSquared, pose_distanceSquared, t_distanceSquared; cbn; cbv zeta; repeat apply Rplus_le_le_0_compat; apply Rle_0_sqr.
Qed.
