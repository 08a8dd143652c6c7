(** * Numbers as text

    The library writes floats and doubles with std::ostream (src/tools/almathio.cpp,
    almath/scenegraph/qigeometry.h, src/scenegraph/colladabuilder.cpp) and, in property
    trees, with the translators of boost (src/scenegraph/urdf.cpp:60-97,
    almath/scenegraph/qianim.h), which use std::ostream and std::istream. This file models
    what these do: the conversion %g of printf, and strtod.

    Simplifications: the "C" locale; neither fixed nor scientific nor uppercase has been set
    in the stream, its width is 0 and it is in a good state; the sign of a NaN is not
    written. *)

From Coq Require Import String Ascii.
From Coq Require Import List ZArith Bool.
From Flocq Require Import Core.Core IEEE754.BinarySingleNaN.
Import ListNotations.
From Verif Require Import Scalar.
From Verif Require Export F32.
From Verif Require Import Model_Vec Model_Rigid Model_Pose.
From Verif Require Import Model_Anim (is_space, drop_spaces).
Local Open Scope string_scope.
Local Open Scope Z_scope.

(** ** Writing *)

(** The last [n] decimal digits of [v]. *)
Definition digit_char (d : Z) : ascii := ascii_of_nat (Z.to_nat (48 + d)).
Fixpoint dec_string (n : nat) (v : Z) : string :=
  match n with
  | O => ""
  | S k => dec_string k (v / 10) ++ String (digit_char (v mod 10)) ""
  end.

(** The number of decimal digits of [n > 0]. *)
Fixpoint ndigits_loop (fuel : nat) (n : Z) : Z :=
  match fuel with
  | O => 1
  | S f => if n <? 10 then 1 else 1 + ndigits_loop f (n / 10)
  end.
Definition ndigits (n : Z) : Z := ndigits_loop (Z.to_nat (Z.log2 n)) n.

(** The exponent [x] such that 10^x <= n/d < 10^(x+1). *)
Definition dec_exponent (n d : Z) : Z :=
  if d <=? n then ndigits (n / d) - 1 else - ndigits ((d - 1) / n).

(** The quotient to the nearest, ties to even. *)
Definition div_even (n d : Z) : Z :=
  let q := n / d in let r := n mod d in
  if 2 * r <? d then q else if d <? 2 * r then q + 1 else if Z.even q then q else q + 1.

(** The [p] significant digits of n/d as an integer, and the exponent of the first one. *)
Definition round_digits (p n d : Z) : Z * Z :=
  let x := dec_exponent n d in
  let v := div_even (n * 10 ^ Z.max 0 (p - 1 - x)) (d * 10 ^ Z.max 0 (x - p + 1)) in
  if v =? 10 ^ p then (10 ^ (p - 1), x + 1) else (v, x).

(** The state of a stream that matters here. *)
Record format := mkFormat { showpos : bool; showpoint : bool; precision : Z }.

(** [v] with [f] digits after the point, [i] digits before it. *)
Definition point_text (always : bool) (i f : nat) (v : Z) : string :=
  dec_string i (v / 10 ^ Z.of_nat f)
  ++ (if (f =? 0)%nat && negb always then "" else "." ++ dec_string f (v mod 10 ^ Z.of_nat f)).
(** Trailing zeros after the point are removed. *)
Fixpoint strip (f : nat) (v : Z) : nat * Z :=
  match f with
  | O => (O, v)
  | S f' => if v mod 10 =? 0 then strip f' (v / 10) else (f, v)
  end.
Definition strip_unless (always : bool) (f : nat) (v : Z) : nat * Z := if always then (f, v) else strip f v.
Definition exponent_text (x : Z) : string :=
  "e" ++ (if x <? 0 then "-" else "+") ++ dec_string (Z.to_nat (Z.max 2 (ndigits (Z.abs x)))) (Z.abs x).
(** printf: %g, the digits [v] with the first one of exponent [x] *)
Definition g_text (always : bool) (p v x : Z) : string :=
  if (-4 <=? x) && (x <? p) then
    let '(f, v) := strip_unless always (Z.to_nat (p - 1 - x)) v in
    point_text always (Z.to_nat (Z.max 1 (x + 1))) f v
  else
    let '(f, v) := strip_unless always (Z.to_nat (p - 1)) v in
    point_text always 1 f v ++ exponent_text x.
Definition sign_text (fm : format) (neg : bool) : string :=
  if neg then "-" else if showpos fm then "+" else "".

Section Float.
Variables prec emax : Z.
Context (Hp : Prec_gt_0 prec) (He : Prec_lt_emax prec emax).

(** std::ostream << float or double *)
Definition print_float (fm : format) (x : binary_float prec emax) : string :=
  let p := Z.max 1 (precision fm) in
  match x with
  | B754_zero s => sign_text fm s ++ g_text (showpoint fm) p 0 0
  | B754_infinity s => sign_text fm s ++ "inf"
  | B754_nan => sign_text fm false ++ "nan"
  | B754_finite s m e _ =>
      let '(v, x) := round_digits p (Zpos m * 2 ^ Z.max 0 e) (2 ^ Z.max 0 (- e)) in
      sign_text fm s ++ g_text (showpoint fm) p v x
  end.

(** ** Reading *)

Definition digit_of (c : ascii) : option Z :=
  let n := nat_of_ascii c in if ((48 <=? n) && (n <=? 57))%nat then Some (Z.of_nat n - 48) else None.
(** The digits at the start of a text: value, added to [acc], number and what follows. *)
Fixpoint read_digits (s : string) (acc : Z) (k : Z) : Z * Z * string :=
  match s with
  | String c s' =>
      match digit_of c with Some d => read_digits s' (10 * acc + d) (k + 1) | None => (acc, k, s) end
  | EmptyString => (acc, k, s)
  end.
Definition read_sign (s : string) : bool * string :=
  match s with
  | String "-"%char s' => (true, s')
  | String "+"%char s' => (false, s')
  | _ => (false, s)
  end.
(** A sign, digits with a point, an exponent: sign, [a] and [x] of a 10^x. *)
Definition read_decimal (s : string) : option (bool * Z * Z * string) :=
  let '(neg, s) := read_sign s in
  let '(a, i, s) := read_digits s 0 0 in
  let '(a, f, s) :=
    match s with
    | String "."%char s' => read_digits s' a 0
    | _ => (a, 0, s)
    end in
  if i + f =? 0 then None else
  match s with
  | String c s' =>
      if (Ascii.eqb c "e" || Ascii.eqb c "E")%bool then
        let '(xneg, s') := read_sign s' in
        let '(x, k, s') := read_digits s' 0 0 in
        if k =? 0 then None else Some (neg, a, (if xneg then - x else x) - f, s')
      else Some (neg, a, - f, s)
  | EmptyString => Some (neg, a, - f, s)
  end.

(** strtod: the float nearest to (-1)^neg n/d, ties to even; none when it is too large. *)
Definition nearest (neg : bool) (n d : positive) : option (binary_float prec emax) :=
  let x := SF2B _ (proj1 (Bdiv_correct_aux prec emax _ _ mode_NE neg n 0 false d 0)) in
  if is_finite x then Some x else None.
Definition float_of (neg : bool) (a x : Z) : option (binary_float prec emax) :=
  match a * 10 ^ Z.max 0 x with
  | Zpos n => nearest neg n (Z.to_pos (10 ^ Z.max 0 (- x)))
  | _ => Some (B754_zero neg)
  end.
(** std::istream >> float or double: the value and what is left, or failure *)
Definition read_float (s : string) : option (binary_float prec emax * string) :=
  match read_decimal (drop_spaces s) with
  | Some (neg, a, x, s) => option_map (fun v => (v, s)) (float_of neg a x)
  | None => None
  end.

(** boost: stream_translator<…>::put_value and get_value. The precision is 17 for double; for
    float it is 9, but 8 with a boost that does not know max_digits10. *)
Definition put_value (p : Z) (x : binary_float prec emax) : string := print_float (mkFormat false false p) x.
Definition get_value (s : string) : option (binary_float prec emax) :=
  match read_float s with
  | Some (x, s) => if String.eqb (drop_spaces s) "" then Some x else None
  | None => None
  end.
End Float.

Definition put_double : f64 -> string := put_value 53 1024 17.
Definition get_double : string -> option f64 := get_value 53 1024 _ _.

(** ** src/scenegraph/urdf.cpp:66-97, Array3dTranslator *)

(** boost::tokenizer<> with the white space as separators: the longest runs of other
    characters. [cur] is the token being read. *)
Fixpoint tokens_loop (s cur : string) : list string :=
  match s with
  | "" => if String.eqb cur "" then [] else [cur]
  | String c s' =>
      if is_space c then (if String.eqb cur "" then tokens_loop s' "" else cur :: tokens_loop s' "")
      else tokens_loop s' (cur ++ String c "")
  end.
Definition tokens (s : string) : list string := tokens_loop s "".

(** src/scenegraph/urdf.cpp:66-88. The loop stops after three tokens, and there must be no
    other one. *)
Fixpoint array3d_loop (i : nat) (beg : list string) (x : list f64) : option (list f64 * list string) :=
  match i, beg with
  | S i', t :: beg' => match get_double t with Some d => array3d_loop i' beg' (x ++ [d])%list | None => None end
  | _, _ => Some (x, beg)
  end.
Definition array3d_get (s : string) : option (Array3d f64) :=
  match array3d_loop 3 (tokens s) [] with
  | Some ([a; b; c], []) => Some ((a, b, c))
  | _ => None
  end.
(** src/scenegraph/urdf.cpp:90-97 *)
Definition array3d_put (v : Array3d f64) : string :=
  put_double (a0 v) ++ " " ++ put_double (a1 v) ++ " " ++ put_double (a2 v).

(** ** src/tools/almathio.cpp *)

(** A std::ostream: [s_left] is the flag left, which has no effect without a width. *)
Record stream := mkStream { s_format : format; s_left : bool; s_text : string }.
Inductive item := Str (s : string) | Flt (x : f32) | Dbl (x : f64).
Definition item_text (fm : format) (i : item) : string :=
  match i with
  | Str s => s
  | Flt x => print_float 24 128 fm x
  | Dbl x => print_float 53 1024 fm x
  end.
Definition put (st : stream) (l : list item) : stream :=
  mkStream (s_format st) (s_left st) (s_text st ++ String.concat "" (map (item_text (s_format st)) l)).
(** pStream.setf(std::ios::showpoint | std::ios::left | std::ios::showpos) *)
Definition setf (st : stream) : stream :=
  mkStream (mkFormat true true (precision (s_format st))) true (s_text st).
(** std::endl *)
Definition endl : item := Str (String (ascii_of_nat 10) "").

(** almathio.cpp:13-24 *)
Definition out_Pose2D (st : stream) (p : Pose2D f32) : stream :=
  put (setf st) [Str "{x: "; Flt (pose_x p); Str ", y:"; Flt (pose_y p); Str ", theta:"; Flt (pose_theta p); Str "}"].
(** almathio.cpp:26-35 *)
Definition out_Position2D (st : stream) (p : Position2D f32) : stream :=
  put (setf st) [Str "{x: "; Flt (p2_x p); Str ", y:"; Flt (p2_y p); Str "}"].
(** almathio.cpp:37-48 *)
Definition out_Position3D (st : stream) (p : Position3D f32) : stream :=
  put (setf st) [Str "{x: "; Flt (p3_x p); Str ", y:"; Flt (p3_y p); Str ", z:"; Flt (p3_z p); Str "}"].
(** almathio.cpp:50-67 *)
Definition out_Position6D (st : stream) (p : Position6D f32) : stream :=
  put (setf st) [Str "{x: "; Flt (p6_x p); Str ", y: "; Flt (p6_y p); Str ", z: "; Flt (p6_z p);
                 Str ", wx: "; Flt (p6_wx p); Str ", wy: "; Flt (p6_wy p); Str ", wz: "; Flt (p6_wz p); Str "}"].
(** almath/types/alpositionandvelocity.h:20-75 *)
Record PositionAndVelocity (T : Type) := mkPositionAndVelocity { pv_q : T; pv_dq : T }.
Arguments pv_q {T} _.
Arguments pv_dq {T} _.
Arguments mkPositionAndVelocity {T}.
(** almathio.cpp:69-78 *)
Definition out_PositionAndVelocity (st : stream) (p : PositionAndVelocity f32) : stream :=
  put (setf st) [Str "{q: "; Flt (pv_q p); Str ", dq: "; Flt (pv_dq p); Str "}"].
(** almathio.cpp:81-101 *)
Definition out_Rotation (st : stream) (p : Rotation f32) : stream :=
  put (setf st) [Flt (m_r1c1 p); Str " "; Flt (m_r1c2 p); Str " "; Flt (m_r1c3 p); endl;
                 Flt (m_r2c1 p); Str " "; Flt (m_r2c2 p); Str " "; Flt (m_r2c3 p); endl;
                 Flt (m_r3c1 p); Str " "; Flt (m_r3c2 p); Str " "; Flt (m_r3c3 p); endl].
(** almathio.cpp:104-115 *)
Definition out_Rotation3D (st : stream) (p : Rotation3D f32) : stream :=
  put (setf st) [Str "{wx: "; Flt (e3_wx p); Str " ,wy: "; Flt (e3_wy p); Str " ,wz: "; Flt (e3_wz p); Str "}"].
(** almathio.cpp:117-149 and 152-178 *)
Definition transform_items (t : Transform f32) : list item :=
  [Flt (t_r1c1 t); Str " "; Flt (t_r1c2 t); Str " "; Flt (t_r1c3 t); Str " "; Flt (t_r1c4 t); endl;
   Flt (t_r2c1 t); Str " "; Flt (t_r2c2 t); Str " "; Flt (t_r2c3 t); Str " "; Flt (t_r2c4 t); endl;
   Flt (t_r3c1 t); Str " "; Flt (t_r3c2 t); Str " "; Flt (t_r3c3 t); Str " "; Flt (t_r3c4 t); endl;
   Str "0.0 0.0 0.0 1.0"; endl].
Definition out_Transform (st : stream) (t : Transform f32) : stream := put (setf st) (transform_items t).
(** almathio.cpp:225-242 and 179-193 *)
Definition velocity6d_items (v : Velocity6D f32) : list item :=
  [Str "{xd: "; Flt (v6_xd v); Str " ,yd: "; Flt (v6_yd v); Str " ,zd: "; Flt (v6_zd v);
   Str " ,wxd: "; Flt (v6_wxd v); Str " ,wyd: "; Flt (v6_wyd v); Str " ,wzd: "; Flt (v6_wzd v); Str "}"].
Definition out_Velocity6D (st : stream) (v : Velocity6D f32) : stream := put (setf st) (velocity6d_items v).
(** almath/types/altransformandvelocity6d.h:18-57 *)
Record TransformAndVelocity6D (T : Type) := mkTransformAndVelocity6D { tv_T : Transform T; tv_V : Velocity6D T }.
Arguments tv_T {T} _.
Arguments tv_V {T} _.
Arguments mkTransformAndVelocity6D {T}.
(** almathio.cpp:152-193 *)
Definition out_TransformAndVelocity6D (st : stream) (d : TransformAndVelocity6D f32) : stream :=
  put (setf st) (transform_items (tv_T d) ++ velocity6d_items (tv_V d))%list.
(** almathio.cpp:196-209 *)
Definition out_Quaternion (st : stream) (q : Quaternion f32) : stream :=
  put (setf st) [Str "{w: "; Flt (q_w q); Str ", x:"; Flt (q_x q); Str ", y:"; Flt (q_y q); Str ", z:"; Flt (q_z q); Str "}"].
(** almathio.cpp:211-222 *)
Definition out_Velocity3D (st : stream) (p : Velocity3D f32) : stream :=
  put (setf st) [Str "{xd: "; Flt (v3_xd p); Str ", yd:"; Flt (v3_yd p); Str ", zd:"; Flt (v3_zd p); Str "}"].
(** almathio.cpp:244-284: toSpaceSeparated writes to a new std::stringstream *)
Definition new_stream : stream := mkStream (mkFormat false false 6) false "".
Definition toSpaceSeparated {A} (out : stream -> A -> stream) (x : A) : string := s_text (out new_stream x).

(** ** almath/scenegraph/qigeometry.h. Its types come from libqi: structures of doubles. *)
Record qiVector3 := mkQiVector3 { qv_x : f64; qv_y : f64; qv_z : f64 }.
Record qiQuaternion := mkQiQuaternion { qq_x : f64; qq_y : f64; qq_z : f64; qq_w : f64 }.
Record qiTransform := mkQiTransform { qt_rotation : qiQuaternion; qt_translation : qiVector3 }.
(** qigeometry.h:24-27 *)
Definition out_qiVector3 (st : stream) (t : qiVector3) : stream :=
  put st [Str "Vector3("; Dbl (qv_x t); Str ", "; Dbl (qv_y t); Str ", "; Dbl (qv_z t); Str ")"].
(** qigeometry.h:43-47 *)
Definition out_qiQuaternion (st : stream) (r : qiQuaternion) : stream :=
  put st [Str "Quaternion("; Dbl (qq_x r); Str ", "; Dbl (qq_y r); Str ", "; Dbl (qq_z r); Str ", "; Dbl (qq_w r); Str ")"].
(** qigeometry.h:80-83 *)
Definition out_qiTransform (st : stream) (tf : qiTransform) : stream :=
  put (out_qiVector3 (put (out_qiQuaternion (put st [Str "Transform("]) (qt_rotation tf)) [Str ", "]) (qt_translation tf)) [Str ")"].
