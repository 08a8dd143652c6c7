(** * URDF elements in property trees

    Sources: /repo/src/scenegraph/urdf.cpp and /repo/almath/scenegraph/urdf.h: what the
    library reads in the elements of a robot document and what it writes there.

    [Model_Urdf] keeps of an element a record of what is read in it; here the elements are
    those of boost::property_tree (see [Model_Anim] for the simplifications about them), the
    numbers are IEEE-754 doubles and their texts those of [Model_Text]. *)

From Coq Require Import String Ascii.
From Coq Require Import List ZArith Bool.
From Flocq Require Import Core.Core IEEE754.BinarySingleNaN.
Import ListNotations.
From Verif Require Import Scalar Model_Vec Model_Rigid Model_Average Model_Pose Model_Urdf Model_Squash Model_Text.
From Verif Require Import Model_Anim.
Local Open Scope string_scope.
Local Open Scope Z_scope.

(** ** The double instance of the scalar operations *)
Definition f64_ofZ (z : Z) : f64 := binary_normalize 53 1024 _ _ mode_NE z 0 false.
Definition f64_frac (m : Z) (d : positive) : f64 :=
  match m with
  | Z0 => B754_zero false
  | Zpos p => SF2B _ (proj1 (Bdiv_correct_aux 53 1024 _ _ mode_NE false p 0 false d 0))
  | Zneg p => SF2B _ (proj1 (Bdiv_correct_aux 53 1024 _ _ mode_NE true p 0 false d 0))
  end.
(** The functions of libm, and those operations the URDF poses do not use: any functions. *)
Record libm64 := {
  d_cos : f64 -> f64; d_sin : f64 -> f64; d_acos : f64 -> f64; d_atan2 : f64 -> f64 -> f64;
  d_fmod : f64 -> f64 -> f64; d_pi : f64; d_2pi : f64; d_pi2 : f64
}.
Definition F64Scalar (L : libm64) : Scalar f64 := {|
  s_add := Bplus mode_NE;
  s_sub := Bminus mode_NE;
  s_mul := Bmult mode_NE;
  s_div := Bdiv mode_NE;
  s_neg := Bopp;
  s_abs := Babs;
  s_sqrt := Bsqrt mode_NE;
  s_cos := d_cos L;
  s_sin := d_sin L;
  s_acos := d_acos L;
  s_atan2 := d_atan2 L;
  s_fmod := d_fmod L;
  s_ltb := Bltb;
  s_leb := Bleb;
  s_eqb := Beqb;
  s_ofZ := f64_ofZ;
  s_frac := f64_frac;
  s_pi := d_pi L;
  s_2pi := d_2pi L;
  s_pi2 := d_pi2 L;
  s_wide := wide_eval (fun x => x) (Bplus mode_NE) (Bminus mode_NE) (Bmult mode_NE) (Bdiv mode_NE) (Bsqrt mode_NE)
|}.

(** ** boost::property_tree: paths *)

(** get_child_optional: the path "a.b" is [["a"; "b"]]. *)
Fixpoint child_at (p : list string) (pt : ptree) : option ptree :=
  match p with
  | [] => Some pt
  | k :: p' => match Model_Anim.find_child k (pt_kids pt) with Some c => child_at p' c | None => None end
  end.
(** put and put_child *)
Fixpoint put_at (p : list string) (f : ptree -> ptree) (pt : ptree) : ptree :=
  match p with
  | [] => f pt
  | k :: p' => put_kid k (put_at p' f) pt
  end.
Definition put_string (p : list string) (v : string) : ptree -> ptree := put_at p (fun c => PT v (pt_kids c)).
Definition put_child (p : list string) (t : ptree) : ptree -> ptree := put_at p (fun _ => t).
(** erase: every child with this key *)
Definition erase (k : string) (pt : ptree) : ptree :=
  set_kids pt (filter (fun c => negb (String.eqb (fst c) k)) (pt_kids pt)).
Definition empty_ptree : ptree := PT "" [].

(** get<T>(path), which throws ptree_bad_path or ptree_bad_data, and get_optional<T>(path) *)
Definition get_opt {A} (tr : string -> option A) (p : list string) (pt : ptree) : option A :=
  match child_at p pt with Some c => tr (pt_data c) | None => None end.
Definition get {A} (tr : string -> option A) (p : list string) (pt : ptree) : res A :=
  match get_opt tr p pt with Some a => Ok a | None => Throw end.
(** get_child_optional(path), then get_value<T>() of the child *)
Definition get_or {A} (tr : string -> option A) (p : list string) (d : A) (pt : ptree) : res A :=
  match child_at p pt with
  | Some c => match tr (pt_data c) with Some a => Ok a | None => Throw end
  | None => Ok d
  end.
(** get<T>(path, default, translator) *)
Definition get_default {A} (tr : string -> option A) (p : list string) (d : A) (pt : ptree) : A :=
  match get_opt tr p pt with Some a => a | None => d end.
Definition as_string (s : string) : option string := Some s.

Definition attr_of (name : string) : list string := ["<xmlattr>"; name].

Section Elements.
Context (L : libm64).
Local Instance S64 : Scalar f64 := F64Scalar L.

(** ** Poses *)

(** src/scenegraph/urdf.cpp:144-148 *)
Definition get_pose_child_array3d (pt : ptree) (name : string) : res (Array3d f64) :=
  get_or array3d_get (attr_of name) (f64_ofZ 0, f64_ofZ 0, f64_ofZ 0) pt.
(** src/scenegraph/urdf.cpp:150-157 *)
Definition pose_from_ptree (pt : ptree) : res (Pose f64) :=
  let! xyz := get_pose_child_array3d pt "xyz" in
  let! rpy := get_pose_child_array3d pt "rpy" in
  Ok (mkPose xyz rpy).
Definition pose_from_optional (pt : option ptree) : res (Pose f64) :=
  match pt with Some c => pose_from_ptree c | None => Ok pose_id end.
(** src/scenegraph/urdf.cpp:159-167 *)
Definition pose_to_ptree (p : Pose f64) : option ptree :=
  if is_zero (p_xyz p) && is_zero (p_rpy p) then None
  else
    let r := empty_ptree in
    let r := if is_zero (p_xyz p) then r else put_string (attr_of "xyz") (array3d_put (p_xyz p)) r in
    let r := if is_zero (p_rpy p) then r else put_string (attr_of "rpy") (array3d_put (p_rpy p)) r in
    Some r.

(** ** Readers *)

(** src/scenegraph/urdf.cpp:99-109 *)
Definition el_name (pt : ptree) : res string := get as_string (attr_of "name") pt.
Definition el_parent_link (pt : ptree) : res string := get as_string ("parent" :: attr_of "link") pt.
Definition el_child_link (pt : ptree) : res string := get as_string ("child" :: attr_of "link") pt.

(** src/scenegraph/urdf.cpp:169-187, [Mimic] *)
Definition mimic_joint (pt : ptree) : res string := get as_string (attr_of "joint") pt.
Definition mimic_multiplier (pt : ptree) : res f64 := get_or get_double (attr_of "multiplier") (f64_ofZ 1) pt.
Definition mimic_offset (pt : ptree) : res f64 := get_or get_double (attr_of "offset") (f64_ofZ 0) pt.

(** src/scenegraph/urdf.cpp:189-245, [Joint] *)
Definition joint_type (pt : ptree) : res jtype :=
  let! s := get as_string (attr_of "type") pt in
  match type_of s with Some t => Ok t | None => Throw end.
Definition el_origin (pt : ptree) : res (Pose f64) := pose_from_optional (child_at ["origin"] pt).
Definition el_axis (pt : ptree) : Array3d f64 :=
  get_default array3d_get ("axis" :: attr_of "xyz") (f64_ofZ 1, f64_ofZ 0, f64_ofZ 0) pt.
Definition limit_lower_upper (pt : ptree) : option (f64 * f64) :=
  let lower := get_opt get_double ("limit" :: attr_of "lower") pt in
  let upper := get_opt get_double ("limit" :: attr_of "upper") pt in
  match lower, upper with
  | None, None => None
  | _, _ => Some (match lower with Some x => x | None => f64_ofZ 0 end,
                  match upper with Some x => x | None => f64_ofZ 0 end)
  end.
Definition limit_effort (pt : ptree) : option f64 := get_opt get_double ("limit" :: attr_of "effort") pt.
Definition limit_velocity (pt : ptree) : option f64 := get_opt get_double ("limit" :: attr_of "velocity") pt.
Definition joint_mimic (pt : ptree) : option ptree := child_at ["mimic"] pt.

(** src/scenegraph/urdf.cpp:247-266, [Inertial] *)
Definition inertial_mass (pt : ptree) : res f64 := get get_double ("mass" :: attr_of "value") pt.
Definition inertial_member (member : string) (pt : ptree) : res f64 := get get_double ("inertia" :: attr_of member) pt.

(** src/scenegraph/urdf.cpp:268-301, [Box], [Cylinder], [Sphere], [Mesh] *)
Definition box_size (pt : ptree) : res (Array3d f64) := get array3d_get (attr_of "size") pt.
Definition cylinder_radius (pt : ptree) : res f64 := get get_double (attr_of "radius") pt.
Definition cylinder_length (pt : ptree) : res f64 := get get_double (attr_of "length") pt.
Definition sphere_radius (pt : ptree) : res f64 := get get_double (attr_of "radius") pt.
Definition mesh_filename (pt : ptree) : res string := get as_string (attr_of "filename") pt.
Definition mesh_scale (pt : ptree) : Array3d f64 :=
  get_default array3d_get (attr_of "scale") (f64_ofZ 1, f64_ofZ 1, f64_ofZ 1) pt.

(** src/scenegraph/urdf.cpp:309-322, [Visual::geometry]: a boost::variant *)
Inductive geometry := Box (pt : ptree) | Cylinder (pt : ptree) | Sphere (pt : ptree) | Mesh (pt : ptree).
Definition visual_geometry (pt : ptree) : res geometry :=
  match child_at ["geometry"] pt with
  | None => Throw
  | Some g =>
      match child_at ["box"] g with Some c => Ok (Box c) | None =>
      match child_at ["cylinder"] g with Some c => Ok (Cylinder c) | None =>
      match child_at ["sphere"] g with Some c => Ok (Sphere c) | None =>
      match child_at ["mesh"] g with Some c => Ok (Mesh c) | None => Throw end end end end
  end.

(** ** The records of [Model_Urdf]

    What is read in an element. An attribute that makes a reader throw makes the record
    impossible. *)
Definition origin_of (pt : ptree) : res (option (Pose f64)) :=
  match child_at ["origin"] pt with
  | None => Ok None
  | Some c => rmap Some (pose_from_ptree c)
  end.
Definition joint_of (pt : ptree) : res (Joint f64) :=
  let! n := el_name pt in
  let! t := get as_string (attr_of "type") pt in
  let! p := el_parent_link pt in
  let! c := el_child_link pt in
  let! o := origin_of pt in
  let! m := match joint_mimic pt with None => Ok None | Some m => rmap Some (mimic_joint m) end in
  Ok (mkJoint n t p c o (get_opt array3d_get ("axis" :: attr_of "xyz") pt) m).
Definition inertial_of (pt : ptree) : res (Inertial f64) :=
  let! o := origin_of pt in
  let! m := inertial_mass pt in
  let! xx := inertial_member "ixx" pt in
  let! xy := inertial_member "ixy" pt in
  let! xz := inertial_member "ixz" pt in
  let! yy := inertial_member "iyy" pt in
  let! yz := inertial_member "iyz" pt in
  let! zz := inertial_member "izz" pt in
  Ok (mkInertial o m xx xy xz yy yz zz).
(** [geo] is any abstraction of the "geometry" element, which is not changed by the edits. *)
Definition shape_of (geo : option ptree -> string) (pt : ptree) : res (Shape f64) :=
  let! o := origin_of pt in
  Ok (mkShape o (geo (child_at ["geometry"] pt))).
Definition kids_named (k : string) (pt : ptree) : list ptree :=
  map snd (filter (fun c => String.eqb (fst c) k) (pt_kids pt)).
Definition link_of (geo : option ptree -> string) (pt : ptree) : res (Link f64) :=
  let! n := el_name pt in
  let! i := match child_at ["inertial"] pt with None => Ok None | Some c => rmap Some (inertial_of c) end in
  let! v := mapM (shape_of geo) (kids_named "visual" pt) in
  let! c := mapM (shape_of geo) (kids_named "collision" pt) in
  Ok (mkLink n i v c).

(** ** Writers *)

(** src/scenegraph/urdf.cpp:967-969 *)
Definition put_name (name : string) : ptree -> ptree := put_string (attr_of "name") name.

(** src/scenegraph/urdf.cpp:524-552, [premul] *)
Definition el_premul (lhs ilhs : Pose f64) (noprune : bool) (rhs_parent : ptree) : res ptree :=
  if negb (pose_eqb lhs (pose_inverse ilhs)) then Abort
  else
    let! rhs := pose_from_optional (child_at ["origin"] rhs_parent) in
    if pose_eqb rhs ilhs then
      Ok (if noprune then put_child ["origin"] empty_ptree rhs_parent else erase "origin" rhs_parent)
    else
      match pose_to_ptree (pose_mul lhs rhs) with
      | None => Abort
      | Some new_origin => Ok (put_child ["origin"] new_origin rhs_parent)
      end.

(** src/scenegraph/urdf.cpp:573-579: the children of the root link. The three loops are
    here one pass per key. *)
Fixpoint premul_kids (key : string) (lhs ilhs : Pose f64) (l : list (string * ptree)) : res (list (string * ptree)) :=
  match l with
  | [] => Ok []
  | (k, c) :: l' =>
      let! c' := if String.eqb k key then el_premul lhs ilhs false c else Ok c in
      let! r := premul_kids key lhs ilhs l' in
      Ok ((k, c') :: r)
  end.
Definition el_transport (ipose pose : Pose f64) (link : ptree) : res ptree :=
  let! l := premul_kids "inertial" ipose pose (pt_kids link) in
  let! l := premul_kids "visual" ipose pose l in
  let! l := premul_kids "collision" ipose pose l in
  Ok (set_kids link l).

(** src/scenegraph/urdf.cpp:582-589 *)
Definition el_flip_links (pt : ptree) : res ptree :=
  let! p := el_parent_link pt in
  let! c := el_child_link pt in
  Ok (put_string ("child" :: attr_of "link") p (put_string ("parent" :: attr_of "link") c pt)).

(** src/scenegraph/urdf.cpp:594-613 *)
Definition el_flip_axis (pt : ptree) : res ptree :=
  let! t := joint_type pt in
  match t with
  | fixed | floating => Ok pt
  | _ =>
      let old := el_axis pt in
      let new_ := (Bopp (a0 old), Bopp (a1 old), Bopp (a2 old)) in
      if a_eqb new_ (f64_ofZ 1, f64_ofZ 0, f64_ofZ 0) then Ok (erase "axis" pt)
      else Ok (put_string ("axis" :: attr_of "xyz") (array3d_put new_) pt)
  end.

(** src/scenegraph/urdf.cpp:780-783 and 789-793 *)
Definition el_make (type : string) (pt : ptree) : ptree := erase "axis" (put_string (attr_of "type") type pt).

(** src/scenegraph/urdf.cpp:816-871: the new inertial element of the parent link *)
Definition el_squashed (joint child_inertial : ptree) (parent_inertial : option ptree) : res ptree :=
  let! jo := el_origin joint in
  let! co := el_origin child_inertial in
  let child_pose := t_mul (toEigenTransform jo) (toEigenTransform co) in
  let! np :=
    match parent_inertial with
    | None => Ok (child_inertial, child_pose)
    | Some p =>
        let! po := el_origin p in
        let! pi := inertial_of p in
        let! ci := inertial_of child_inertial in
        let '(m, pose, i) := squashInertial (i_mass pi) (toEigenTransform po) (toEigenMatrix3 pi)
                               (i_mass ci) child_pose (toEigenMatrix3 ci) in
        let put_d (p : list string) (x : f64) := put_string p (put_double x) in
        Ok (put_d ("inertia" :: attr_of "izz") (x22 i)
           (put_d ("inertia" :: attr_of "iyz") (x12 i)
           (put_d ("inertia" :: attr_of "iyy") (x11 i)
           (put_d ("inertia" :: attr_of "ixz") (x02 i)
           (put_d ("inertia" :: attr_of "ixy") (x01 i)
           (put_d ("inertia" :: attr_of "ixx") (x00 i)
           (put_d ("mass" :: attr_of "value") m empty_ptree)))))), pose)
    end in
  let '(new_inertial, pose) := np in
  let r := if is_zero (translation pose) then new_inertial
           else put_string ("origin" :: attr_of "xyz") (array3d_put (translation pose)) new_inertial in
  Ok (if is_identity (linear pose) then r
      else put_string ("origin" :: attr_of "rpy") (array3d_put (rpy_of_matrix pose)) r).

End Elements.

(** ** src/scenegraph/urdf.cpp:971-1013, [robot::transform_filenames]

    The function [op] of the caller is a function of its argument. An exception leaves the
    changes made before it. *)
Section Filenames.
Variable op : string -> string.
(** src/scenegraph/urdf.cpp:975-987 *)
Definition apply_op (parent : ptree) : ptree :=
  match child_at ["<xmlattr>"; "filename"] parent with
  | Some f => put_string ["<xmlattr>"; "filename"] (op (pt_data f)) parent
  | None => parent
  end.
(** The loops over equal_range, here in the order of the document. *)
Definition for_each (key : string) (f : ptree -> ptree) (pt : ptree) : ptree :=
  set_kids pt (map (fun c => if String.eqb (fst c) key then (fst c, f (snd c)) else c) (pt_kids pt)).
(** src/scenegraph/urdf.cpp:990-993 and 1007-1010 *)
Definition apply_texture (material : ptree) : ptree :=
  match child_at ["texture"] material with
  | Some _ => put_at ["texture"] apply_op material
  | None => material
  end.
(** src/scenegraph/urdf.cpp:1000-1011: [false] when it throws *)
Definition apply_visual (visual : ptree) : bool * ptree :=
  match child_at ["geometry"] visual with
  | None => (false, visual)
  | Some _ => (true, for_each "material" apply_texture (put_at ["geometry"] (for_each "mesh" apply_op) visual))
  end.
(** The loops that an exception may end. *)
Fixpoint for_each_until (key : string) (f : ptree -> bool * ptree) (l : list (string * ptree)) : bool * list (string * ptree) :=
  match l with
  | [] => (true, [])
  | (k, c) :: l' =>
      if String.eqb k key then
        let '(ok, c') := f c in
        if ok then let '(ok', r) := for_each_until key f l' in (ok', (k, c') :: r) else (false, (k, c') :: l')
      else let '(ok', r) := for_each_until key f l' in (ok', (k, c) :: r)
  end.
Definition apply_link (link : ptree) : bool * ptree :=
  let '(ok, l) := for_each_until "visual" apply_visual (pt_kids link) in (ok, set_kids link l).
Definition transform_filenames (robot : ptree) : res unit * ptree :=
  let robot := for_each "material" apply_texture robot in
  let '(ok, l) := for_each_until "link" apply_link (pt_kids robot) in
  ((if ok then Ok tt else Throw), set_kids robot l).
End Filenames.
