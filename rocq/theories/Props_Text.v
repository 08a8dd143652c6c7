(** * Numbers as text *)
From Coq Require Import String Ascii.
From Coq Require Import List ZArith Bool Lia Reals Lra.
From Flocq Require Import Core.Core IEEE754.BinarySingleNaN.
Import ListNotations.
From Verif Require Import Scalar F32 Model_Vec Model_Rigid Model_Pose Model_Text Spec_Text.
From Verif Require Import Model_Anim (is_space, drop_spaces).
Local Open Scope string_scope.
Local Open Scope Z_scope.
From Verif Require Proofs_Text.

(** C58: what the operators << of the library write for a value with finite coordinates,
    after what the stream already had, shows the coordinates, in order, with the precision
    of the stream; for a float, nine digits are enough to read it back. *)
Theorem C58_almath :
  writes 24 128 _ _ out_Pose2D c_Pose2D /\ writes 24 128 _ _ out_Position2D c_Position2D
  /\ writes 24 128 _ _ out_Position3D c_Position3D /\ writes 24 128 _ _ out_Position6D c_Position6D
  /\ writes 24 128 _ _ out_PositionAndVelocity c_PositionAndVelocity /\ writes 24 128 _ _ out_Rotation c_Rotation
  /\ writes 24 128 _ _ out_Rotation3D c_Rotation3D /\ writes 24 128 _ _ out_Transform c_Transform
  /\ writes 24 128 _ _ out_TransformAndVelocity6D c_TransformAndVelocity6D
  /\ writes 24 128 _ _ out_Quaternion c_Quaternion /\ writes 24 128 _ _ out_Velocity3D c_Velocity3D
  /\ writes 24 128 _ _ out_Velocity6D c_Velocity6D.
Proof. exact @Proofs_Text.C58_almath_proof. Qed.
Print Assumptions C58_almath.

(** C58: likewise the operators << of qi::geometry, whose coordinates are doubles (17 digits
    are enough). *)
Theorem C58_qi :
  writes 53 1024 _ _ out_qiVector3 c_qiVector3 /\ writes 53 1024 _ _ out_qiQuaternion c_qiQuaternion
  /\ writes 53 1024 _ _ out_qiTransform c_qiTransform.
Proof. exact @Proofs_Text.C58_qi_proof. Qed.
Print Assumptions C58_qi.

(** C58: the whole text of every value, with or without finite coordinates: the labels and the
    separators are these. *)
Theorem C58_layout :
  laid_out 24 128 sign_and_point out_Pose2D "{x: %, y:%, theta:%}" c_Pose2D
  /\ laid_out 24 128 sign_and_point out_Position2D "{x: %, y:%}" c_Position2D
  /\ laid_out 24 128 sign_and_point out_Position3D "{x: %, y:%, z:%}" c_Position3D
  /\ laid_out 24 128 sign_and_point out_Position6D "{x: %, y: %, z: %, wx: %, wy: %, wz: %}" c_Position6D
  /\ laid_out 24 128 sign_and_point out_PositionAndVelocity "{q: %, dq: %}" c_PositionAndVelocity
  /\ laid_out 24 128 sign_and_point out_Rotation "% % %/% % %/% % %/" c_Rotation
  /\ laid_out 24 128 sign_and_point out_Rotation3D "{wx: % ,wy: % ,wz: %}" c_Rotation3D
  /\ laid_out 24 128 sign_and_point out_Transform "% % % %/% % % %/% % % %/0.0 0.0 0.0 1.0/"
       (fun t => firstn 12 (c_Transform t))
  /\ laid_out 24 128 sign_and_point out_TransformAndVelocity6D
       "% % % %/% % % %/% % % %/0.0 0.0 0.0 1.0/{xd: % ,yd: % ,zd: % ,wxd: % ,wyd: % ,wzd: %}"
       (fun d => firstn 12 (c_Transform (tv_T d)) ++ c_Velocity6D (tv_V d))%list
  /\ laid_out 24 128 sign_and_point out_Velocity6D "{xd: % ,yd: % ,zd: % ,wxd: % ,wyd: % ,wzd: %}" c_Velocity6D
  /\ laid_out 24 128 sign_and_point out_Quaternion "{w: %, x:%, y:%, z:%}" c_Quaternion
  /\ laid_out 24 128 sign_and_point out_Velocity3D "{xd: %, yd:%, zd:%}" c_Velocity3D
  /\ laid_out 53 1024 (fun fm => fm) out_qiVector3 "Vector3(%, %, %)" c_qiVector3
  /\ laid_out 53 1024 (fun fm => fm) out_qiQuaternion "Quaternion(%, %, %, %)" c_qiQuaternion
  /\ laid_out 53 1024 (fun fm => fm) out_qiTransform "Transform(Quaternion(%, %, %, %), Vector3(%, %, %))" c_qiTransform.
Proof. exact @Proofs_Text.C58_layout_proof. Qed.
Print Assumptions C58_layout.

Example C58_layout_example : fill "{x: %, y:%}" ["+1."; "-2."] = "{x: +1., y:-2.}"
  /\ fill "% %/" ["+1."; "-2."] = "+1. -2." ++ String (ascii_of_nat 10) "".
Proof. split; reflexivity. Qed.

(** C58: hence, with at least nine digits for floats (17 for doubles), two values that leave
    the same text in a stream have the same coordinates. *)
Theorem C58_distinct : forall prec emax Hp He A (out : stream -> A -> stream) coords st x y,
  writes prec emax Hp He out coords -> 2 ^ prec < 10 ^ (precision (s_format st) - 1) ->
  Forall (finite prec emax) (coords x) -> Forall (finite prec emax) (coords y) ->
  s_text (out st x) = s_text (out st y) -> coords x = coords y.
Proof. exact @Proofs_Text.C58_distinct_proof. Qed.
Print Assumptions C58_distinct.

(** C58: infinities and NaN are written as words, with the sign, which no number is read from; with
    enough digits no two floats, finite or not, are written alike. *)
Theorem C58_special : forall prec emax (Hp : Prec_gt_0 prec) (He : Prec_lt_emax prec emax) fm,
  (forall neg, print_float prec emax fm (B754_infinity neg) = (if neg then "-inf" else if showpos fm then "+inf" else "inf")) /\
  print_float prec emax fm B754_nan = (if showpos fm then "+nan" else "nan") /\
  (forall x : binary_float prec emax, (exists d, read_decimal (print_float prec emax fm x) = Some d) <-> is_finite x = true) /\
  (forall x y : binary_float prec emax, 2 ^ prec < 10 ^ (precision fm - 1) -> print_float prec emax fm x = print_float prec emax fm y -> x = y).
Proof. exact @Proofs_Text.C58_special_proof. Qed.
Print Assumptions C58_special.

Example C58_special_ex : s_text (put new_stream [Flt (B754_infinity true)]) = "-inf" /\ s_text (put new_stream [Dbl B754_nan]) = "nan" /\ 2 ^ 24 < 10 ^ (9 - 1).
Proof. repeat split; reflexivity. Qed.

(** C58: toSpaceSeparated gives this text, with six digits. *)
Theorem C58_toSpaceSeparated :
  (forall v, Forall (finite 24 128) (c_Velocity6D v) -> shows 24 128 _ _ 6 (toSpaceSeparated out_Velocity6D v) (c_Velocity6D v))
  /\ (forall t, Forall (finite 24 128) (c_Transform t) -> shows 24 128 _ _ 6 (toSpaceSeparated out_Transform t) (c_Transform t))
  /\ (forall p, Forall (finite 24 128) (c_Position3D p) -> shows 24 128 _ _ 6 (toSpaceSeparated out_Position3D p) (c_Position3D p))
  /\ (forall p, Forall (finite 24 128) (c_Rotation3D p) -> shows 24 128 _ _ 6 (toSpaceSeparated out_Rotation3D p) (c_Rotation3D p))
  /\ (forall p, Forall (finite 24 128) (c_Position6D p) -> shows 24 128 _ _ 6 (toSpaceSeparated out_Position6D p) (c_Position6D p))
  /\ (forall q, Forall (finite 24 128) (c_Quaternion q) -> shows 24 128 _ _ 6 (toSpaceSeparated out_Quaternion q) (c_Quaternion q)).
Proof. exact @Proofs_Text.C58_toSpaceSeparated_proof. Qed.
Print Assumptions C58_toSpaceSeparated.

(** C58: the operators keep the precision of the stream. Those of qi::geometry keep its
    flags too; those of AL::Math set showpos, showpoint and left and leave them so. *)
Theorem C58_flags : forall st,
  let kept st' := s_format st' = s_format st /\ s_left st' = s_left st in
  let set_ st' := s_format st' = mkFormat true true (precision (s_format st)) /\ s_left st' = true in
  (forall x, kept (out_qiVector3 st x)) /\ (forall x, kept (out_qiQuaternion st x)) /\ (forall x, kept (out_qiTransform st x))
  /\ (forall x, set_ (out_Pose2D st x)) /\ (forall x, set_ (out_Position2D st x)) /\ (forall x, set_ (out_Position3D st x))
  /\ (forall x, set_ (out_Position6D st x)) /\ (forall x, set_ (out_PositionAndVelocity st x)) /\ (forall x, set_ (out_Rotation st x))
  /\ (forall x, set_ (out_Rotation3D st x)) /\ (forall x, set_ (out_Transform st x)) /\ (forall x, set_ (out_TransformAndVelocity6D st x))
  /\ (forall x, set_ (out_Quaternion st x)) /\ (forall x, set_ (out_Velocity3D st x)) /\ (forall x, set_ (out_Velocity6D st x)).
Proof. exact @Proofs_Text.C58_flags_proof. Qed.
Print Assumptions C58_flags.

(** C58, finding: so writing a value changes what is written next: on a new stream 1.f is
    written "1", but "+1.00000" after a Position2D. *)
Theorem C58_flags_refuted : exists st p,
  s_text (put st [Flt (f32_ofZ 1)]) = s_text st ++ "1"
  /\ s_text (put (out_Position2D st p) [Flt (f32_ofZ 1)]) = s_text (out_Position2D st p) ++ "+1.00000".
Proof. exact @Proofs_Text.C58_flags_refuted_proof. Qed.
Print Assumptions C58_flags_refuted.

(** C58, finding: with the default precision the text does not determine the value. *)
Theorem C58_precision_refuted : exists x y : Position2D f32,
  Forall (finite 24 128) (c_Position2D x) /\ Forall (finite 24 128) (c_Position2D y) /\ x <> y
  /\ s_text (out_Position2D new_stream x) = s_text (out_Position2D new_stream y).
Proof. exact @Proofs_Text.C58_precision_refuted_proof. Qed.
Print Assumptions C58_precision_refuted.

(** A pose with a large, a small and a negative coordinate. *)
Example C58_case : let p := mkPose2D (f32_frac 1234567 1) (f32_frac 1 30000) (f32_frac (-1) 3) in
  Forall (finite 24 128) (c_Pose2D p)
  /\ s_text (out_Pose2D (mkStream (mkFormat false false 9) false "p = ") p)
     = "p = {x: +1234567.00, y:+3.33333337e-05, theta:-0.333333343}".
Proof. split; [repeat constructor | vm_compute; reflexivity]. Qed.

(** C59: a finite double put in a document is read back unchanged, the sign of zero included. *)
Theorem C59_double : forall x, finite 53 1024 x -> get_double (put_double x) = Some x.
Proof. exact @Proofs_Text.C59_double_proof. Qed.
Print Assumptions C59_double.

(** C59, finding: infinities and NaN are written, but what is written is not read. *)
Theorem C59_not_finite : forall x, ~ finite 53 1024 x -> get_double (put_double x) = None.
Proof. exact @Proofs_Text.C59_not_finite_proof. Qed.
Print Assumptions C59_not_finite.

(** C59: so is a finite float with nine digits. *)
Theorem C59_float : forall x, finite 24 128 x -> get_value 24 128 _ _ (put_value 24 128 9 x) = Some x.
Proof. exact @Proofs_Text.C59_float_proof. Qed.
Print Assumptions C59_float.

(** C59: eight digits, that is what boost writes when it does not know
    numeric_limits::max_digits10, are not enough. *)
Theorem C59_float_refuted : exists x, finite 24 128 x /\ get_value 24 128 _ _ (put_value 24 128 8 x) <> Some x.
Proof. exact @Proofs_Text.C59_float_refuted_proof. Qed.
Print Assumptions C59_float_refuted.

(** C59: numbers are read exactly from the texts that are a numeral with white space around
    it, and what is read is the number written rounded to the nearest float (double), to the
    even one of two nearest; texts of numbers that are too large are refused. *)
Theorem C59_read : forall prec emax Hp He s (v : binary_float prec emax),
  get_value prec emax Hp He s = Some v <->
  exists a n b d, s = a ++ n ++ b /\ all_chars space a /\ all_chars space b /\ numeral n d
    /\ finite prec emax v /\ Bsign v = fst (fst d)
    /\ B2R v = round radix2 (SpecFloat.fexp prec emax) ZnearestE (value_of d).
Proof. exact @Proofs_Text.C59_read_proof. Qed.
Print Assumptions C59_read.

Example C59_read_case : numeral "-12.5e+3" (true, 125, 2) /\ option_map B2SF (get_double " -12.5e+3
") = Some (SpecFloat.S754_finite true 6871947673600000 (-39)) /\ get_double "1e400" = None /\ get_double "1 2" = None /\ get_double "." = None.
Proof.
  split; [|repeat split; vm_compute; reflexivity].
  exists "-", "12", ".", "5", "e+3", true, 3. repeat split; try (left; auto; fail); auto; try discriminate.
  - left; discriminate.
  - right. exists "e"%char, "+", false, "3". repeat split; auto; try discriminate. right; auto.
Qed.

(** C59: three coordinates are read exactly from the texts that are three words, separated
    by white space, each of which is read as a double. *)
Theorem C59_array3d : forall s v,
  array3d_get s = Some v <->
  exists x y z, words s [x; y; z] /\ get_double x = Some (a0 v) /\ get_double y = Some (a1 v) /\ get_double z = Some (a2 v).
Proof. exact @Proofs_Text.C59_array3d_proof. Qed.
Print Assumptions C59_array3d.

(** C59: so three finite coordinates put in a document are read back unchanged. *)
Theorem C59_array3d_put : forall v, finite 53 1024 (a0 v) -> finite 53 1024 (a1 v) -> finite 53 1024 (a2 v) ->
  array3d_get (array3d_put v) = Some v.
Proof. exact @Proofs_Text.C59_array3d_put_proof. Qed.
Print Assumptions C59_array3d_put.

(** Three doubles and their text; the last one is not representable in 16 digits. *)
Example C59_case : let v := (B754_zero true : f64, @Bone 53 1024 _ _, @SF2B 53 1024 (SpecFloat.S754_finite false 5404319552844595 (-54)) eq_refl) in
  finite 53 1024 (a0 v) /\ finite 53 1024 (a1 v) /\ finite 53 1024 (a2 v) /\ array3d_put v = "-0 1 0.29999999999999999".
Proof. repeat (split; [reflexivity|]). vm_compute. reflexivity. Qed.

Example C59_array3d_case : (exists v, array3d_get " 1 2.5e1	-3 " = Some v) /\ array3d_get "1 2" = None /\ array3d_get "1 2 3 4" = None
  /\ array3d_get "1 2 x" = None.
Proof. split; [eexists; reflexivity | repeat split]. Qed.
