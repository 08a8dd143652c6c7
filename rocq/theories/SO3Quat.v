(** * Every proper rotation is the matrix of a unit quaternion *)

From Coq Require Import Reals Lra Lia Nsatz.
From Verif Require Import RLemmas Spec_Geom SO3.
Local Open Scope R_scope.

(** The nine coefficients of the matrix of a quaternion. *)
Definition quat9 (w x y z a b c d e f g h i : R) : Prop :=
  a = 1 - 2*(y*y+z*z) /\ b = 2*(x*y-z*w) /\ c = 2*(x*z+y*w) /\
  d = 2*(x*y+z*w) /\ e = 1-2*(x*x+z*z) /\ f = 2*(y*z-x*w) /\
  g = 2*(x*z-y*w) /\ h = 2*(y*z+x*w) /\ i = 1-2*(x*x+y*y).

Lemma quat_of_w : forall a b c d e f g h i w, so3 a b c d e f g h i ->
  4*(w*w) = 1+a+e+i -> w <> 0 ->
  exists x y z, w*w+x*x+y*y+z*z = 1 /\ quat9 w x y z a b c d e f g h i.
Proof.
  intros * S hw n. destruct S as [(h1&h2&h3&h4&h5&h6) h7].
  exists ((h-f)/(4*w)), ((c-g)/(4*w)), ((d-b)/(4*w)).
  set (v := / (4*w)). assert (hv : v*(4*w) = 1) by (subst v; field; lra).
  unfold Rdiv. fold v. clearbody v. unfold quat9. repeat split; nsatz.
Qed.

Lemma quat_of_x : forall a b c d e f g h i x, so3 a b c d e f g h i ->
  4*(x*x) = 1+a-e-i -> x <> 0 ->
  exists w y z, w*w+x*x+y*y+z*z = 1 /\ quat9 w x y z a b c d e f g h i.
Proof.
  intros * S hw n. destruct S as [(h1&h2&h3&h4&h5&h6) h7].
  exists ((h-f)/(4*x)), ((b+d)/(4*x)), ((c+g)/(4*x)).
  set (v := / (4*x)). assert (hv : v*(4*x) = 1) by (subst v; field; lra).
  unfold Rdiv. fold v. clearbody v. unfold quat9. repeat split; nsatz.
Qed.

Lemma quat_of_y : forall a b c d e f g h i y, so3 a b c d e f g h i ->
  4*(y*y) = 1-a+e-i -> y <> 0 ->
  exists w x z, w*w+x*x+y*y+z*z = 1 /\ quat9 w x y z a b c d e f g h i.
Proof.
  intros * S hw n. destruct S as [(h1&h2&h3&h4&h5&h6) h7].
  exists ((c-g)/(4*y)), ((b+d)/(4*y)), ((f+h)/(4*y)).
  set (v := / (4*y)). assert (hv : v*(4*y) = 1) by (subst v; field; lra).
  unfold Rdiv. fold v. clearbody v. unfold quat9. repeat split; nsatz.
Qed.

Lemma quat_of_z : forall a b c d e f g h i z, so3 a b c d e f g h i ->
  4*(z*z) = 1-a-e+i -> z <> 0 ->
  exists w x y, w*w+x*x+y*y+z*z = 1 /\ quat9 w x y z a b c d e f g h i.
Proof.
  intros * S hw n. destruct S as [(h1&h2&h3&h4&h5&h6) h7].
  exists ((d-b)/(4*z)), ((c+g)/(4*z)), ((f+h)/(4*z)).
  set (v := / (4*z)). assert (hv : v*(4*z) = 1) by (subst v; field; lra).
  unfold Rdiv. fold v. clearbody v. unfold quat9. repeat split; nsatz.
Qed.

Lemma so3_quat_exists : forall a b c d e f g h i, so3 a b c d e f g h i ->
  exists w x y z, w*w+x*x+y*y+z*z = 1 /\ quat9 w x y z a b c d e f g h i.
Proof.
  intros * S.
  assert (E : forall t, 0 < t -> exists r, 4*(r*r) = t /\ r <> 0).
  { intros t ht. destruct (sqrt_ex t) as (s&es&hs&ss); [lra|]. exists (s/2). split; nra. }
  destruct (Rlt_le_dec 0 (1+a+e+i)) as [p|p].
  { destruct (E _ p) as (r&hr&nr). destruct (quat_of_w _ _ _ _ _ _ _ _ _ r S hr nr) as (x&y&z&H).
    exists r, x, y, z. exact H. }
  destruct (Rlt_le_dec 0 (1+a-e-i)) as [p1|p1].
  { destruct (E _ p1) as (r&hr&nr). destruct (quat_of_x _ _ _ _ _ _ _ _ _ r S hr nr) as (x&y&z&H).
    exists x, r, y, z. exact H. }
  destruct (Rlt_le_dec 0 (1-a+e-i)) as [p2|p2].
  { destruct (E _ p2) as (r&hr&nr). destruct (quat_of_y _ _ _ _ _ _ _ _ _ r S hr nr) as (x&y&z&H).
    exists x, y, r, z. exact H. }
  destruct (Rlt_le_dec 0 (1-a-e+i)) as [p3|p3].
  { destruct (E _ p3) as (r&hr&nr). destruct (quat_of_z _ _ _ _ _ _ _ _ _ r S hr nr) as (x&y&z&H).
    exists x, y, z, r. exact H. }
  exfalso. lra.
Qed.
