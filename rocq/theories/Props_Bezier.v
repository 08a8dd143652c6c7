(** * Property C52: checks of the Bezier curves of an animation *)
From Coq Require Import String.
From Coq Require Import List ZArith Bool Arith Lia Reals Lra.
Import ListNotations.
From Flocq Require Import IEEE754.BinarySingleNaN.
From Verif Require Import Scalar RInst F32 Model_Anim Spec_Anim.
Local Open Scope string_scope.
Local Open Scope list_scope.
Local Open Scope R_scope.
From Verif Require Proofs_Bezier.

(** ** C52 *)

(** The check of one segment accepts exactly the segments whose two keys are at increasing
    frames and whose inner control points are between them; it throws otherwise. *)
Theorem C52_segment : forall p0_frame p0_value p1_dframe p1_dvalue p2_dframe p2_dvalue p3_frame p3_value,
  let r := check_segment p0_frame p0_value p1_dframe p1_dvalue p2_dframe p2_dvalue p3_frame p3_value in
  (r = Ok tt <-> valid_segment p0_frame p1_dframe p2_dframe p3_frame) /\ (r = Ok tt \/ r = Throw).
Proof. exact @Proofs_Bezier.C52_segment_proof. Qed.
Print Assumptions C52_segment.

Example C52_segment_ex : valid_segment 3 2.5 (-7) 10 /\ ~ valid_segment 3 (-0.5) 0 10 /\ ~ valid_segment 10 0 0 10.
Proof. unfold valid_segment. repeat split; lra. Qed.

(** An accepted segment is the graph of a function: time strictly increases along it, from the
    first key to the second one, and each time between the two is reached exactly once. *)
Theorem C52_segment_function : forall f0 a1 a2 f3, valid_segment f0 a1 a2 f3 ->
  let x := bezier (IZR f0) (IZR f0 + a1) (IZR f3 + a2) (IZR f3) in
  (forall s t, 0 <= s -> s < t -> t <= 1 -> x s < x t) /\ x 0 = IZR f0 /\ x 1 = IZR f3 /\
  (forall z, IZR f0 <= z <= IZR f3 -> exists! t, 0 <= t <= 1 /\ x t = z).
Proof. exact @Proofs_Bezier.C52_segment_function_proof. Qed.
Print Assumptions C52_segment_function.

(** The bounds are the best ones: with an inner control point out of them, time can go
    backwards. *)
Theorem C52_bounds_needed : forall d e, 0 < d -> 0 < e ->
  (exists s t, 0 <= s /\ s < t /\ t <= 1 /\ bezier 0 (- e) d d t < bezier 0 (- e) d d s) /\
  (exists s t, 0 <= s /\ s < t /\ t <= 1 /\ bezier 0 0 (d + e) d t < bezier 0 0 (d + e) d s).
Proof. exact @Proofs_Bezier.C52_bounds_needed_proof. Qed.
Print Assumptions C52_bounds_needed.

(** The check of a curve accepts it exactly when each key and the next one define a valid
    segment, and throws otherwise. *)
Theorem C52_curve : forall parse_real curve, let r := check_cubic_bezier parse_real curve in
  (r = Ok tt <-> valid_keys parse_real (get_keys curve)) /\ (r = Ok tt \/ r = Throw).
Proof. exact @Proofs_Bezier.C52_curve_proof. Qed.
Print Assumptions C52_curve.

(** An accepted curve is a function of time: between the first and the last key, each time has
    exactly one value. *)
Theorem C52_curve_function : forall parse_real curve first middle last f f',
  check_cubic_bezier parse_real curve = Ok tt -> get_keys curve = first :: middle ++ [last] ->
  get_frame first = Ok f -> get_frame last = Ok f' ->
  forall x, IZR f <= x <= IZR f' -> exists! y, on_curve parse_real (get_keys curve) x y.
Proof. exact @Proofs_Bezier.C52_curve_function_proof. Qed.
Print Assumptions C52_curve_function.

(** check_all accepts exactly the animations of version 2.0 all of whose curves have an
    actuator, a positive number of frames per second, a unit and valid segments. *)
Theorem C52_check_all : forall parse_real pt, let r := check_all parse_real pt in
  (r = Ok tt <->
     attr "typeVersion" pt = Some "2.0" /\
     forall curve, In curve (get_actuatorcurves pt) ->
       (exists a, attr "actuator" curve = Some a) /\ (exists n, get_int "fps" curve = Ok n /\ (0 < n)%Z) /\
       (exists u, attr "unit" curve = Some (unit_to_string u)) /\ valid_keys parse_real (get_keys curve)) /\
  (r = Ok tt \/ r = Throw).
Proof. exact @Proofs_Bezier.C52_check_all_proof. Qed.
Print Assumptions C52_check_all.

Definition C52_parse (s : string) : option R := option_map IZR (parse_int s).
(*E*)
Definition C52_animation : ptree := Eval vm_compute in
  let curve := run_curve [PutFps 25; PutUnit radian; RequireKey 0; RequireKey 10; RequireKey 15; OnKey 0 (KValue "0"); OnKey 0 (KTangent right "4" "1");
     OnKey 10 (KValue "2"); OnKey 10 (KTangent left "-10" "1"); OnKey 10 (KTangent right "5" "0"); OnKey 15 (KValue "1"); OnKey 15 (KTangent left "0" "1")]
     (put_actuator "HeadYaw" (PT "" [])) in
  PT "" [("<xmlattr>", PT "" [("typeVersion", PT "2.0" [])]); ("ActuatorCurve", curve)].
(*E*)
Example C52_check_all_ex : check_all C52_parse C52_animation = Ok tt.
Proof.
  apply C52_check_all. split; [reflexivity|]. intros c [<-|[]]. split; [eexists; reflexivity|]. split; [exists 25%Z; split; [reflexivity|lia]|].
  split; [exists radian; reflexivity|]. intros k k' h. 
  change (adjacent (map snd (filter is_key (pt_kids (snd (nth 1 (pt_kids C52_animation) ("", PT "" [])))))) k k') in h. cbn in h.
  destruct h as ([|k0 [|k1 l1]] & l2 & e).
  - injection e as <- <- _. exists (mkSegment 0 (IZR 0) (IZR 4) (IZR 1) (IZR (-10)) (IZR 1) 10 (IZR 2)). split.
    + repeat split; eexists; (split; [reflexivity|]; split; reflexivity).
    + unfold segment_ok, valid_segment. cbn. lra.
  - injection e as _ <- <- _. exists (mkSegment 10 (IZR 2) (IZR 5) (IZR 0) (IZR 0) (IZR 1) 15 (IZR 1)). split.
    + repeat split; eexists; (split; [reflexivity|]; split; reflexivity).
    + unfold segment_ok, valid_segment. cbn. lra.
  - apply (f_equal (@length ptree)) in e. cbn in e. rewrite app_length in e. cbn in e. lia.
Qed.

Example C52_check_bad_ex : check_cubic_bezier C52_parse (run_curve [RequireKey 0; RequireKey 10] (put_actuator "HeadYaw" (PT "" []))) = Throw.
Proof. reflexivity. Qed.

(** Finding: called with floats, the check of a segment accepts a tangent that is not a number. *)
Theorem C52_nan_refuted : forall L, @check_segment f32 (F32Scalar L) 0 B754_nan B754_nan B754_nan B754_nan B754_nan 10 B754_nan = Ok tt.
Proof. exact @Proofs_Bezier.C52_nan_refuted_proof. Qed.
Print Assumptions C52_nan_refuted.
