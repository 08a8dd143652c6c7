(** * Specification: numbers in a text *)
From Coq Require Import String Ascii.
From Coq Require Import List ZArith Bool Reals.
From Flocq Require Import Core.Core IEEE754.BinarySingleNaN.
Import ListNotations.
From Verif Require Import F32 Model_Vec Model_Rigid Model_Pose Model_Text.
Local Open Scope string_scope.
Local Open Scope Z_scope.

(** ** The numbers of a text, from left to right

    Words (letters followed by letters and digits) are labels; where a numeral starts it is
    read as std::istream does; other characters are separators. *)
Definition letter (c : ascii) : bool :=
  let n := nat_of_ascii c in ((65 <=? n) && (n <=? 90) || (97 <=? n) && (n <=? 122))%nat%bool.
Definition figure (c : ascii) : bool := let n := nat_of_ascii c in ((48 <=? n) && (n <=? 57))%nat%bool.
Fixpoint skip_word (s : string) : string :=
  match s with
  | String c s' => if (letter c || figure c)%bool then skip_word s' else s
  | "" => ""
  end.
(** A number is a sign, an integer and a power of ten. *)
Definition number : Type := bool * Z * Z.
Fixpoint numbers (fuel : nat) (s : string) : list number :=
  match fuel, s with
  | O, _ | _, "" => []
  | S f, String c s' =>
      if letter c then numbers f (skip_word s') else
      match read_decimal s with
      | Some (neg, a, x, rest) => (neg, a, x) :: numbers f rest
      | None => numbers f s'
      end
  end.
(** [l] are the numbers of [s]. *)
Definition has_numbers (s : string) (l : list number) : Prop :=
  exists n, forall fuel, (n <= fuel)%nat -> numbers fuel s = l.

(** The real number written. *)
Definition value_of (d : number) : R :=
  let '(neg, a, x) := d in ((if neg then -1 else 1) * IZR a * powerRZ 10 x)%R.

Definition radix10 : radix := Build_radix 10 eq_refl.

Section Shows.
Variables prec emax : Z.
Context (Hp : Prec_gt_0 prec) (He : Prec_lt_emax prec emax).

(** The number [d] shows [x] with [p] significant digits: it is [x] rounded to the nearest
    number with [p] decimal digits, to the even one of two nearest, so that the error is at
    most half a unit of the last digit; when [p] digits are enough to tell two floats from each other, reading
    gives [x] back. *)
Definition shows1 (p : Z) (d : number) (x : binary_float prec emax) : Prop :=
  value_of d = round radix10 (FLX_exp p) ZnearestE (B2R x)
  /\ (Rabs (value_of d - B2R x) <= Rabs (B2R x) * powerRZ 10 (1 - p) / 2)%R
  /\ (2 ^ prec < 10 ^ (p - 1) -> float_of prec emax Hp He (fst (fst d)) (snd (fst d)) (snd d) = Some x).
Definition shows (p : Z) (s : string) (l : list (binary_float prec emax)) : Prop :=
  exists ds, has_numbers s ds /\ Forall2 (shows1 p) ds l.
Definition finite (x : binary_float prec emax) : Prop := is_finite x = true.

(** The operator [out], writing to a stream a value with the coordinates [coords]. *)
Definition writes {A} (out : stream -> A -> stream) (coords : A -> list (binary_float prec emax)) : Prop :=
  forall st x, Forall finite (coords x) ->
  exists t, s_text (out st x) = (s_text st ++ t)%string /\ shows (Z.max 1 (precision (s_format st))) t (coords x).
End Shows.

(** The coordinates, in the order of the documentation. *)
Definition c_Pose2D (p : Pose2D f32) := [pose_x p; pose_y p; pose_theta p].
Definition c_Position2D (p : Position2D f32) := [p2_x p; p2_y p].
Definition c_Position3D (p : Position3D f32) := [p3_x p; p3_y p; p3_z p].
Definition c_Position6D (p : Position6D f32) := [p6_x p; p6_y p; p6_z p; p6_wx p; p6_wy p; p6_wz p].
Definition c_PositionAndVelocity (p : PositionAndVelocity f32) := [pv_q p; pv_dq p].
Definition c_Rotation (m : Rotation f32) :=
  [m_r1c1 m; m_r1c2 m; m_r1c3 m; m_r2c1 m; m_r2c2 m; m_r2c3 m; m_r3c1 m; m_r3c2 m; m_r3c3 m].
Definition c_Rotation3D (p : Rotation3D f32) := [e3_wx p; e3_wy p; e3_wz p].
(** The four rows of the 4 x 4 matrix. *)
Definition c_Transform (t : Transform f32) :=
  [t_r1c1 t; t_r1c2 t; t_r1c3 t; t_r1c4 t; t_r2c1 t; t_r2c2 t; t_r2c3 t; t_r2c4 t;
   t_r3c1 t; t_r3c2 t; t_r3c3 t; t_r3c4 t; f32_ofZ 0; f32_ofZ 0; f32_ofZ 0; f32_ofZ 1].
Definition c_Velocity6D (v : Velocity6D f32) := [v6_xd v; v6_yd v; v6_zd v; v6_wxd v; v6_wyd v; v6_wzd v].
Definition c_TransformAndVelocity6D (d : TransformAndVelocity6D f32) := (c_Transform (tv_T d) ++ c_Velocity6D (tv_V d))%list.
Definition c_Quaternion (q : Quaternion f32) := [q_w q; q_x q; q_y q; q_z q].
Definition c_Velocity3D (v : Velocity3D f32) := [v3_xd v; v3_yd v; v3_zd v].
Definition c_qiVector3 (v : qiVector3) := [qv_x v; qv_y v; qv_z v].
Definition c_qiQuaternion (q : qiQuaternion) := [qq_x q; qq_y q; qq_z q; qq_w q].
Definition c_qiTransform (t : qiTransform) := (c_qiQuaternion (qt_rotation t) ++ c_qiVector3 (qt_translation t))%list.

(** A layout: the text of a value, with "%" where a number comes and "/" where a line ends. *)
Fixpoint fill (layout : string) (numbers : list string) : string :=
  match layout with
  | "" => ""
  | String "%" l => match numbers with [] => "" | x :: r => x ++ fill l r end
  | String "/" l => String (ascii_of_nat 10) (fill l numbers)
  | String c l => String c (fill l numbers)
  end.
Definition laid_out prec emax {A} (fm : format -> format) (out : stream -> A -> stream) (layout : string)
  (coords : A -> list (binary_float prec emax)) : Prop :=
  forall st x, s_text (out st x) = s_text st ++ fill layout (map (print_float prec emax (fm (s_format st))) (coords x)).
(** With a sign and a point, whatever the number. *)
Definition sign_and_point (fm : format) : format := mkFormat true true (precision fm).

(** ** Words separated by white space *)
Definition space (c : ascii) : Prop := In (nat_of_ascii c) [9; 10; 11; 12; 13; 32]%nat.
Fixpoint all_chars (P : ascii -> Prop) (s : string) : Prop :=
  match s with "" => True | String c s' => P c /\ all_chars P s' end.
Inductive words : string -> list string -> Prop :=
| words_none s : all_chars space s -> words s []
| words_one a w : all_chars space a -> w <> "" -> all_chars (fun c => ~ space c) w -> words (a ++ w) [w]
| words_more a w c s l : all_chars space a -> w <> "" -> all_chars (fun c => ~ space c) w -> space c ->
    words s l -> words (a ++ w ++ String c s) (w :: l).

(** ** Numerals *)
Definition digits (s : string) : Prop := all_chars (fun c => figure c = true) s.
Fixpoint digits_value (acc : Z) (s : string) : Z :=
  match s with "" => acc | String c s' => digits_value (10 * acc + (Z.of_nat (nat_of_ascii c) - 48)) s' end.
Definition sign_text_of (s : string) (neg : bool) : Prop := (s = "-" /\ neg = true) \/ ((s = "" \/ s = "+") /\ neg = false).
(** An exponent, maybe absent. *)
Definition exponent_of (s : string) (k : Z) : Prop :=
  (s = "" /\ k = 0) \/
  exists c sg neg ds, s = String c (sg ++ ds) /\ (c = "e"%char \/ c = "E"%char) /\ sign_text_of sg neg
    /\ digits ds /\ ds <> "" /\ k = (if neg then - digits_value 0 ds else digits_value 0 ds).
(** A numeral is a sign, digits, maybe a point and more digits, and an exponent; there is a
    digit before or after the point. *)
Definition numeral (s : string) (d : number) : Prop :=
  exists sg i p f e neg k, s = sg ++ i ++ p ++ f ++ e /\ sign_text_of sg neg /\ digits i /\ digits f
    /\ (p = "." \/ p = "" /\ f = "") /\ (i <> "" \/ f <> "") /\ exponent_of e k
    /\ d = (neg, digits_value (digits_value 0 i) f, k - Z.of_nat (String.length f)).
