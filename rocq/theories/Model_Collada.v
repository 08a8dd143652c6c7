(** * Collada scenes

    Model of src/scenegraph/colladabuilder.cpp, src/scenegraph/colladascenebuilder.cpp,
    src/scenegraph/scenebuilder.cpp and of the shapes of almath/geometrics/shapes3d.h.

    The documents are the boost::property_tree::ptree values of Model_Anim. References into
    a document (the members library_geometries and visual_scene, the results of the add…
    functions) are paths from its root, or the position of the element just added. Writing
    the document as XML text (operator<<, colladascenebuilder.cpp:93-101) is not modelled.

    [show] is the text a std::ostream with its default settings writes for a float. *)

From Coq Require Import String Ascii.
From Coq Require Import List ZArith Bool.
Import ListNotations.
From Verif Require Import Scalar.
From Verif Require Import Model_Rigid Model_Mesh.
From Verif Require Import Model_Anim (ptree (..), pt_data, pt_kids, set_kids, find_child, upd_first, put_kid, put_attr, print_int).
Local Open Scope string_scope.
Local Open Scope Z_scope.

(** boost: ptree::put on a path, ptree::add_child on a single key, ptree::get_child on a path
    (which throws when the path does not exist). *)
Fixpoint put_path (path : list string) (v : string) (pt : ptree) : ptree :=
  match path with
  | [] => PT v (pt_kids pt)
  | k :: path' => put_kid k (put_path path' v) pt
  end.
Definition add_child (key : string) (c : ptree) (pt : ptree) : ptree := set_kids pt (pt_kids pt ++ [(key, c)])%list.
Fixpoint on_child (path : list string) (f : ptree -> ptree) (pt : ptree) : res ptree :=
  match path with
  | [] => Ok (f pt)
  | k :: path' =>
      match find_child k (pt_kids pt) with
      | None => Throw
      | Some c =>
          rmap (fun c' => match upd_first k (fun _ => c') (pt_kids pt) with Some l => set_kids pt l | None => pt end)
               (on_child path' f c)
      end
  end.
Definition elem (text : string) : ptree := PT text [].

(** *** Numbers as text *)

(** Conversion of an integer to float: 24 significant bits, to nearest, ties to even. *)
Definition rdiv_even (n d : Z) : Z :=
  let q := n / d in let r := n mod d in
  if 2 * r <? d then q else if d <? 2 * r then q + 1 else if Z.even q then q else q + 1.
Definition float_of_Z (n : Z) : Z :=
  if n <? 2^24 then n else let u := 2 ^ (Z.log2 n - 23) in rdiv_even n u * u.
(** std::ostream << float of a non-negative integral value, with the default precision of 6
    digits and neither fixed nor scientific: %g. [digits] is the number of decimal digits. *)
Fixpoint digits_loop (fuel : nat) (n : Z) : Z :=
  match fuel with O => 0 | S f => if n <? 10 then 1 else 1 + digits_loop f (n / 10) end.
Definition digits (n : Z) : Z := digits_loop 20 n.
Fixpoint strip_zeros (fuel : nat) (m : Z) : Z :=
  match fuel with O => m | S f => if (0 <? m) && (m mod 10 =? 0) then strip_zeros f (m / 10) else m end.
Definition show_Z (n : Z) : string :=
  let n := float_of_Z n in
  if n <? 10^6 then print_int n
  else
    let e := digits n - 1 in
    let m := rdiv_even n (10 ^ (e - 5)) in
    let e := if m =? 10^6 then e + 1 else e in
    let m := if m =? 10^6 then 10^5 else m in
    let s := print_int (strip_zeros 6 m) in
    (match s with
     | String c "" => String c ""
     | String c s' => String c ("." ++ s')
     | "" => ""
     end) ++ "e+" ++ (if e <? 10 then "0" else "") ++ print_int e.

(** src/scenegraph/colladabuilder.cpp:12-17. The elements are written through an
    ostream_iterator<float>, whatever their type; a size_t is taken modulo 2^64. *)
Definition spaced (l : list string) : string := String.concat "" (map (fun s => s ++ " ") l).
Definition toString_sizes (data : list Z) : string := spaced (map (fun z => show_Z (z mod 2^64)) data).
Definition size {A} (l : list A) : string := print_int (Z.of_nat (length l)).

Section Model.
Context {T : Type} {S : Scalar T}.
Variable show : T -> string.
Definition toString (data : list T) : string := spaced (map show data).

(** almath/scenegraph/scenebuilder.h:57-72 *)
Record Config := mkConfig { c_r : T; c_g : T; c_b : T; c_a : T; nbArcVertices : Z }.

(** Eigen::Affine3f: the 4x4 matrix [m i j]. *)
Definition Affine3f := nat -> nat -> T.
(** src/scenegraph/scenebuilder.cpp:46-47 *)
Definition affine_of (t : Transform T) : Affine3f := fun i j =>
  nth j (nth i [[t_r1c1 t; t_r1c2 t; t_r1c3 t; t_r1c4 t];
                [t_r2c1 t; t_r2c2 t; t_r2c3 t; t_r2c4 t];
                [t_r3c1 t; t_r3c2 t; t_r3c3 t; t_r3c4 t];
                [s_ofZ 0; s_ofZ 0; s_ofZ 0; s_ofZ 1]] []) (s_ofZ 0).

(** src/scenegraph/colladabuilder.cpp:22-32 *)
Definition effect_color (id : string) (red green blue alpha : T) : ptree :=
  put_path ["profile_COMMON"; "technique"; "phong"; "diffuse"; "color"]
           (show red ++ " " ++ show green ++ " " ++ show blue ++ " " ++ show alpha)
           (put_attr "id" id (elem "")).
(** src/scenegraph/colladabuilder.cpp:34-40 *)
Definition material (id effect_id : string) : ptree :=
  put_path ["instance_effect"; "<xmlattr>"; "url"] ("#" ++ effect_id) (put_attr "id" id (elem "")).
(** src/scenegraph/colladabuilder.cpp:41-47 *)
Definition addMaterialEffectColor (root : ptree) (r g b a : T) (id : string) : res ptree :=
  rbind (on_child ["COLLADA"; "library_effects"] (add_child "effect" (effect_color (id ++ "-fx") r g b a)) root) (fun root =>
  on_child ["COLLADA"; "library_materials"] (add_child "material" (material id (id ++ "-fx"))) root).

(** src/scenegraph/colladabuilder.cpp:49-63: the coefficients of the matrix row by row. *)
Definition matrix_text (tf : Affine3f) : string :=
  String.concat " " (flat_map (fun i => map (fun j => show (tf i j)) (seq 0 4)) (seq 0 4)).
Definition createNode (id : string) (tf : Affine3f) : ptree :=
  put_path ["matrix"] (matrix_text tf) (if String.eqb id "" then elem "" else put_attr "id" id (elem "")).

(** src/scenegraph/colladabuilder.cpp:65-77 *)
Definition visual_scene (id : string) : ptree := put_attr "id" id (elem "").
Definition instance_visual_scene (scene_id : string) : ptree := put_attr "url" ("#" ++ scene_id) (elem "").

(** src/scenegraph/colladabuilder.cpp:85-113 *)
Definition source_xyz (data : list T) (id : string) : ptree :=
  let float_array := put_attr "id" (id ++ "_array") (put_attr "count" (size data) (elem (toString data))) in
  let param name := put_attr "type" "float" (put_attr "name" name (elem "")) in
  let accessor :=
    add_child "param" (param "Z") (add_child "param" (param "Y") (add_child "param" (param "X")
      (put_attr "stride" "3" (put_attr "source" ("#" ++ id ++ "_array")
        (put_attr "count" (print_int (Z.of_nat (length data) / 3)) (elem "")))))) in
  add_child "technique_common" (add_child "accessor" accessor (elem ""))
    (add_child "float_array" float_array (put_attr "id" id (elem ""))).

(** src/scenegraph/colladabuilder.cpp:115-124 *)
Definition input (semantic source_id : string) (offset : Z) : ptree :=
  put_attr "offset" (print_int offset) (put_attr "source" ("#" ++ source_id) (put_attr "semantic" semantic (elem ""))).

(** almath/scenegraph/mesh.h:97-101 *)
Definition positionOffset : Z := 0.
Definition normalOffset : Z := 1.

(** src/scenegraph/colladabuilder.cpp:126-164 *)
Definition addGeometryMesh (parent : ptree) (id : string) (m : Mesh T) : res ptree :=
  if m_tex m then Abort else
  let vertices := add_child "input" (input "POSITION" (id ++ "_positions") 0) (put_attr "id" (id ++ "_vertices") (elem "")) in
  let polylist :=
    add_child "p" (elem (toString_sizes (m_vert m)))
    (add_child "vcount" (elem (toString_sizes (m_vcounts m)))
    (add_child "input" (input "NORMAL" (id ++ "_normals") normalOffset)
    (add_child "input" (input "VERTEX" (id ++ "_vertices") positionOffset)
    (put_attr "material" "material" (put_attr "count" (size (m_vcounts m)) (elem "")))))) in
  let mesh :=
    add_child "polylist" polylist (add_child "vertices" vertices
    (add_child "source" (source_xyz (m_nor m) (id ++ "_normals"))
    (add_child "source" (source_xyz (m_pos m) (id ++ "_positions")) (elem "")))) in
  Ok (add_child "geometry" (add_child "mesh" mesh (put_attr "id" id (elem ""))) parent).

(** src/scenegraph/colladabuilder.cpp:166-178 *)
Definition instance_geometry (geometry_id material_id : string) : ptree :=
  put_path ["bind_material"; "technique_common"; "instance_material"; "<xmlattr>"; "target"] ("#" ++ material_id)
  (put_path ["bind_material"; "technique_common"; "instance_material"; "<xmlattr>"; "symbol"] "material"
  (put_attr "url" ("#" ++ geometry_id) (elem ""))).

(** src/scenegraph/colladabuilder.cpp:180-212 *)
Definition createDoc : ptree :=
  let unit_ := put_attr "name" "meter" (put_attr "meter" "1" (elem "")) in
  let asset := add_child "unit" unit_ (put_path ["modified"] "2010-10-09T17:00:00" (put_path ["created"] "2010-10-09T17:00:00" (elem ""))) in
  let collada := put_attr "version" "1.4.1" (put_attr "xmlns" "http://www.collada.org/2005/11/COLLADASchema" (elem "")) in
  let collada := add_child "asset" asset collada in
  let collada :=
    put_path ["scene"] "" (put_path ["library_visual_scenes"] "" (put_path ["library_nodes"] "" (put_path ["library_geometries"] ""
    (put_path ["library_materials"] "" (put_path ["library_effects"] "" collada))))) in
  add_child "COLLADA" collada (elem "").

(** src/scenegraph/colladascenebuilder.cpp:18-19 *)
Definition mymaterial : string := "mymaterial".
Definition myscene : string := "myscene".

(** ColladaSceneBuilder with its base SceneBuilder and its ColladaSceneBuilderP. (The member
    config of ColladaSceneBuilderP, a reference which a copy binds to the configuration of
    the builder it is copied from, is read by the constructor only and left out.) *)
Record Builder := mkBuilder { b_config : Config; b_id : Z; b_xml : ptree }.

(** src/scenegraph/colladascenebuilder.cpp:39-50, 64-65 *)
Definition new_builder (cfg : Config) : res Builder :=
  rbind (on_child ["COLLADA"; "library_visual_scenes"] (add_child "visual_scene" (visual_scene myscene)) createDoc) (fun xml =>
  rbind (addMaterialEffectColor xml (c_r cfg) (c_g cfg) (c_b cfg) (c_a cfg) mymaterial) (fun xml =>
  rmap (mkBuilder cfg 0)
       (on_child ["COLLADA"; "scene"] (add_child "instance_visual_scene" (instance_visual_scene myscene)) xml))).

(** src/scenegraph/colladascenebuilder.cpp:52-62, 67-81: copies, by construction or by
    assignment. *)
Definition copy_builder (other : Builder) : res Builder :=
  rbind (on_child ["COLLADA"; "library_geometries"] (fun e => e) (b_xml other)) (fun xml =>
  rmap (mkBuilder (b_config other) (b_id other))
       (on_child ["COLLADA"; "library_visual_scenes"; "visual_scene"] (fun e => e) xml)).

(** src/scenegraph/colladascenebuilder.cpp:85-92. The counter is an int. *)
Definition xAddMesh (b : Builder) (m : Mesh T) (tf : Affine3f) : res Builder :=
  if b_id b =? 2^31 - 1 then UB else
  let geometry_id := "mesh" ++ print_int (b_id b) in
  rbind (match find_child "COLLADA" (pt_kids (b_xml b)) with
         | Some c => match find_child "library_geometries" (pt_kids c) with Some e => Ok e | None => Throw end
         | None => Throw
         end) (fun library =>
  rbind (addGeometryMesh library geometry_id m) (fun library =>
  rbind (on_child ["COLLADA"; "library_geometries"] (fun _ => library) (b_xml b)) (fun xml =>
  rmap (mkBuilder (b_config b) (b_id b + 1))
       (on_child ["COLLADA"; "library_visual_scenes"; "visual_scene"]
                 (add_child "node" (add_child "instance_geometry" (instance_geometry geometry_id mymaterial) (createNode "" tf)))
                 xml)))).

(** src/scenegraph/scenebuilder.cpp:37-43, 45-48 *)
Definition add_mesh (b : Builder) (m : Mesh T) (tf : Affine3f) : res Builder :=
  if m_tex m then Throw else xAddMesh b m tf.
Definition add_mesh_tf (b : Builder) (m : Mesh T) (tf : Transform T) : res Builder := xAddMesh b m (affine_of tf).

(** almath/geometrics/shapes3d.h:26-97 *)
Inductive Shape3D :=
  Sphere (radius : T) | RoundedRectangle (hx hy radius : T) | Pill (half radius : T)
| Plane | HalfSpace | Rectangle (hx hy : T) | HalfLine.

(** src/scenegraph/scenebuilder.cpp:13-26, 50-76. The other shapes are not implemented: the
    visitor throws (almath/geometrics/shapes3d.h:111-139). *)
Definition shape_mesh (s : Shape3D) (nb : Z) : res (Mesh T) :=
  match s with
  | Sphere r => createRoundedBoxMesh (s_ofZ 0) (s_ofZ 0) (s_ofZ 0) r nb
  | RoundedRectangle x y r => createRoundedBoxMesh x y (s_ofZ 0) r nb
  | Pill h r => createRoundedBoxMesh (s_ofZ 0) (s_ofZ 0) h r nb
  | Plane | HalfSpace | Rectangle _ _ | HalfLine => Throw
  end.
Definition add_shape (b : Builder) (s : Shape3D) (tf : Transform T) : res Builder :=
  rbind (shape_mesh s (nbArcVertices (b_config b))) (fun m => add_mesh_tf b m tf).

(** Calls made by a program which holds builders, numbered from 0 in the order of their
    construction. *)
Inductive call :=
  New (cfg : Config)
| CopyOf (i : nat)
| Assign (i j : nat)
| AddMesh (i : nat) (m : Mesh T) (tf : Affine3f)
| AddMeshTf (i : nat) (m : Mesh T) (tf : Transform T)
| AddShape (i : nat) (s : Shape3D) (tf : Transform T).

Definition get (i : nat) (l : list Builder) : res Builder := match nth_error l i with Some b => Ok b | None => UB end.
Fixpoint set_nth (i : nat) (b : Builder) (l : list Builder) : list Builder :=
  match i, l with
  | _, [] => []
  | O, _ :: l' => b :: l'
  | Datatypes.S i', x :: l' => x :: set_nth i' b l'
  end.
Definition do_call (c : call) (l : list Builder) : res (list Builder) :=
  match c with
  | New cfg => rmap (fun b => (l ++ [b])%list) (new_builder cfg)
  | CopyOf i => rbind (get i l) (fun b => rmap (fun b' => (l ++ [b'])%list) (copy_builder b))
  | Assign i j =>
      rbind (get i l) (fun _ => rbind (get j l) (fun b =>
      if Nat.eqb i j then Ok l else rmap (fun b' => set_nth i b' l) (copy_builder b)))
  | AddMesh i m tf => rbind (get i l) (fun b => rmap (fun b' => set_nth i b' l) (add_mesh b m tf))
  | AddMeshTf i m tf => rbind (get i l) (fun b => rmap (fun b' => set_nth i b' l) (add_mesh_tf b m tf))
  | AddShape i s tf => rbind (get i l) (fun b => rmap (fun b' => set_nth i b' l) (add_shape b s tf))
  end.
(** A program goes on after an exception: a call that throws changes no builder. (The
    exceptions are thrown before the builder is changed.) *)
Fixpoint do_calls (cs : list call) (l : list Builder) : res (list Builder) :=
  match cs with
  | [] => Ok l
  | c :: cs' =>
      match do_call c l with
      | Ok l' => do_calls cs' l'
      | Throw => do_calls cs' l
      | Abort => Abort
      | UB => UB
      end
  end.

End Model.
Arguments Config : clear implicits.
Arguments Builder : clear implicits.
Arguments Affine3f : clear implicits.
Arguments Shape3D : clear implicits.
Arguments call : clear implicits.
