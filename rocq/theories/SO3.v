(** * SO(3) by coefficients *)

From Coq Require Import Reals Lra Lia Nsatz.
From Verif Require Import Spec_Geom.
Local Open Scope R_scope.

Definition so3 (a b c d e f g h i : R) : Prop :=
  (a*a+d*d+g*g = 1 /\ b*b+e*e+h*h = 1 /\ c*c+f*f+i*i = 1 /\
   a*b+d*e+g*h = 0 /\ a*c+d*f+g*i = 0 /\ b*c+e*f+h*i = 0) /\
  a*(e*i-f*h) - b*(d*i-f*g) + c*(d*h-e*g) = 1.

Lemma orthonormal_of_rows : forall a b c d e f g h i,
  orthonormal (of_rows a b c d e f g h i) <->
  (a*a+d*d+g*g = 1 /\ b*b+e*e+h*h = 1 /\ c*c+f*f+i*i = 1 /\
   a*b+d*e+g*h = 0 /\ a*c+d*f+g*i = 0 /\ b*c+e*f+h*i = 0).
Proof.
  intros. unfold orthonormal, meq. split.
  - intro H.
    generalize (H 0 0)%nat (H 1 1)%nat (H 2 2)%nat (H 0 1)%nat (H 0 2)%nat (H 1 2)%nat.
    cbv [mmul mtrans mident sum3 of_rows Nat.eqb]. intros.
    repeat match goal with h : (_ < _)%nat -> _ |- _ => specialize (h ltac:(lia)) end.
    intuition.
  - intros (h1&h2&h3&h4&h5&h6) x y hx hy.
    destruct x as [|[|[|x]]]; try lia; destruct y as [|[|[|y]]]; try lia;
      cbv [mmul mtrans mident sum3 of_rows Nat.eqb]; lra.
Qed.

Lemma proper_of_rows : forall a b c d e f g h i,
  proper_rotation (of_rows a b c d e f g h i) <-> so3 a b c d e f g h i.
Proof.
  intros. unfold proper_rotation, so3. rewrite orthonormal_of_rows. reflexivity.
Qed.

Lemma so3_full : forall a b c d e f g h i, so3 a b c d e f g h i ->
  (a*a+b*b+c*c = 1 /\ d*d+e*e+f*f = 1 /\ g*g+h*h+i*i = 1 /\
   a*d+b*e+c*f = 0 /\ a*g+b*h+c*i = 0 /\ d*g+e*h+f*i = 0) /\
  (e*i-f*h = a /\ f*g-d*i = b /\ d*h-e*g = c /\
   c*h-b*i = d /\ a*i-c*g = e /\ b*g-a*h = f /\
   b*f-c*e = g /\ c*d-a*f = h /\ a*e-b*d = i).
Proof.
  intros a b c d e f g h i ((h1&h2&h3&h4&h5&h6)&h7).
  assert (k1 : e*i-f*h = a) by nsatz.
  assert (k2 : f*g-d*i = b) by nsatz.
  assert (k3 : d*h-e*g = c) by nsatz.
  assert (k4 : c*h-b*i = d) by nsatz.
  assert (k5 : a*i-c*g = e) by nsatz.
  assert (k6 : b*g-a*h = f) by nsatz.
  assert (k7 : b*f-c*e = g) by nsatz.
  assert (k8 : c*d-a*f = h) by nsatz.
  assert (k9 : a*e-b*d = i) by nsatz.
  assert (r1 : a*a+b*b+c*c = 1) by nsatz.
  assert (r2 : d*d+e*e+f*f = 1) by nsatz.
  assert (r3 : g*g+h*h+i*i = 1) by nsatz.
  assert (r4 : a*d+b*e+c*f = 0) by nsatz.
  assert (r5 : a*g+b*h+c*i = 0) by nsatz.
  assert (r6 : d*g+e*h+f*i = 0) by nsatz.
  repeat split; assumption.
Qed.

(** Rows orthonormal from columns orthonormal, without the determinant. *)
Lemma ortho_rows : forall a b c d e f g h i : R,
  (a*a+d*d+g*g = 1 /\ b*b+e*e+h*h = 1 /\ c*c+f*f+i*i = 1 /\
   a*b+d*e+g*h = 0 /\ a*c+d*f+g*i = 0 /\ b*c+e*f+h*i = 0) ->
  (a*a+b*b+c*c = 1 /\ d*d+e*e+f*f = 1 /\ g*g+h*h+i*i = 1 /\
   a*d+b*e+c*f = 0 /\ a*g+b*h+c*i = 0 /\ d*g+e*h+f*i = 0).
Proof.
  intros a b c d e f g h i (h1&h2&h3&h4&h5&h6).
  set (D := a*(e*i-f*h) - b*(d*i-f*g) + c*(d*h-e*g)).
  assert (hD : D * D = 1) by (unfold D; nsatz).
  assert (k1 : e*i-f*h = D*a) by (unfold D; nsatz).
  assert (k2 : f*g-d*i = D*b) by (unfold D; nsatz).
  assert (k3 : d*h-e*g = D*c) by (unfold D; nsatz).
  assert (k4 : c*h-b*i = D*d) by (unfold D; nsatz).
  assert (k5 : a*i-c*g = D*e) by (unfold D; nsatz).
  assert (k6 : b*g-a*h = D*f) by (unfold D; nsatz).
  assert (k7 : b*f-c*e = D*g) by (unfold D; nsatz).
  assert (k8 : c*d-a*f = D*h) by (unfold D; nsatz).
  assert (k9 : a*e-b*d = D*i) by (unfold D; nsatz).
  assert (nz : D <> 0) by (intro z; rewrite z in hD; lra).
  assert (cancel : forall x y, D * x = D * y -> x = y) by (intros x y e0; apply Rmult_eq_reg_l with D; auto).
  clearbody D.
  assert (r1 : a*a+b*b+c*c = 1) by nsatz.
  assert (r2 : d*d+e*e+f*f = 1) by nsatz.
  assert (r3 : g*g+h*h+i*i = 1) by nsatz.
  assert (r4 : a*d+b*e+c*f = 0) by (apply cancel; nsatz).
  assert (r5 : a*g+b*h+c*i = 0) by (apply cancel; nsatz).
  assert (r6 : d*g+e*h+f*i = 0) by (apply cancel; nsatz).
  repeat split; assumption.
Qed.
