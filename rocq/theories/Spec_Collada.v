(** * Specification of Collada scenes (C55)

    What a reader of the document finds in it: elements, their attributes, the identifiers
    they carry and the references to them. A program holds scenes, numbered from 0; a scene
    is a configuration and the list of the meshes it was given, with where they are. *)

From Coq Require Import String Ascii.
From Coq Require Import List ZArith Bool.
From Coq Require Import DecimalString.
Import ListNotations.
From Coq Require Import Reals.
From Verif Require Import Scalar RInst Model_Rigid Model_Mesh Model_Collada.
From Verif Require Import Model_Anim (ptree (..), pt_data, pt_kids, attr).
Local Open Scope list_scope.
Local Open Scope string_scope.

(** The elements of a document, itself included, at any depth; the children of an element
    which hold its attributes are not elements. *)
Fixpoint elements (pt : ptree) : list ptree :=
  pt :: flat_map (fun c => if String.eqb (fst c) "<xmlattr>" then [] else elements (snd c)) (pt_kids pt).
(** The identifiers of the elements of a document, in document order. *)
Definition ids (doc : ptree) : list string :=
  flat_map (fun e => match attr "id" e with Some i => [i] | None => [] end) (elements doc).
(** The references: every attribute which Collada defines as the address of an element. *)
Definition refs (doc : ptree) : list string :=
  flat_map (fun e => flat_map (fun a => match attr a e with Some r => [r] | None => [] end) ["url"; "source"; "target"])
           (elements doc).

Definition well_referenced (doc : ptree) : Prop :=
  NoDup (ids doc) /\ (forall r, In r (refs doc) -> exists i, r = "#" ++ i /\ In i (ids doc)).

(** [e] is an element of the document that [r] refers to. *)
Definition refers (doc : ptree) (r : option string) (e : ptree) : Prop :=
  exists i, r = Some ("#" ++ i) /\ In e (elements doc) /\ attr "id" e = Some i.

(** The children of an element that have a name. *)
Definition named (name : string) (pt : ptree) : list ptree :=
  map snd (filter (fun c => String.eqb (fst c) name) (pt_kids pt)).
Fixpoint under (path : list string) (pt : ptree) : list ptree :=
  match path with [] => [pt] | k :: path' => flat_map (under path') (named k pt) end.

(** Decimal numbers. *)
Definition number (z : Z) : string := NilZero.string_of_int (Z.to_int z).

(** The words of a text, separated by single spaces, and the numbers they are. *)
Fixpoint words (word : string) (text : string) : list string :=
  match text with
  | EmptyString => if String.eqb word "" then [] else [word]
  | String " " t => if String.eqb word "" then words "" t else word :: words "" t
  | String c t => words (word ++ String c "") t
  end.
Definition reads (text : string) (l : list Z) : Prop :=
  map (fun w => option_map Z.of_int (NilZero.int_of_string w)) (words "" text) = map Some l.

Section Spec.
Context {T : Type} {S : Scalar T}.
Variable show : T -> string.
Definition texts (l : list T) : string := String.concat "" (map (fun x => show x ++ " ") l).

(** A source element that presents the triples of coordinates [l]: an array with their texts
    and an accessor that takes them three by three from that array. *)
Definition presents_triples (doc src : ptree) (l : list T) : Prop :=
  exists array accessor,
    named "float_array" src = [array] /\ pt_data array = texts l /\
    attr "count" array = Some (number (Z.of_nat (length l))) /\
    under ["technique_common"; "accessor"] src = [accessor] /\
    refers doc (attr "source" accessor) array /\
    attr "count" accessor = Some (number (Z.of_nat (length l) / 3)) /\
    attr "stride" accessor = Some "3" /\
    map (attr "name") (named "param" accessor) = [Some "X"; Some "Y"; Some "Z"] /\
    map (attr "type") (named "param" accessor) = [Some "float"; Some "float"; Some "float"].

(** A geometry element that presents a mesh: the polygons have the sizes and the indices of
    the mesh; the first index of a vertex is a position and the second a normal. *)
Definition presents_mesh (doc geometry : ptree) (m : Mesh T) : Prop :=
  exists polylist vertex normal vertices position positions normals vcount p,
    under ["mesh"; "polylist"] geometry = [polylist] /\
    attr "count" polylist = Some (number (Z.of_nat (length (m_vcounts m)))) /\
    named "input" polylist = [vertex; normal] /\
    attr "semantic" vertex = Some "VERTEX" /\ attr "offset" vertex = Some "0" /\
    refers doc (attr "source" vertex) vertices /\
    named "input" vertices = [position] /\ attr "semantic" position = Some "POSITION" /\
    refers doc (attr "source" position) positions /\ presents_triples doc positions (m_pos m) /\
    attr "semantic" normal = Some "NORMAL" /\ attr "offset" normal = Some "1" /\
    refers doc (attr "source" normal) normals /\ presents_triples doc normals (m_nor m) /\
    named "vcount" polylist = [vcount] /\ named "p" polylist = [p] /\
    ((forall k, In k (m_vcounts m) -> (0 <= k < 1000000)%Z) -> reads (pt_data vcount) (m_vcounts m)) /\
    ((forall k, In k (m_vert m) -> (0 <= k < 1000000)%Z) -> reads (pt_data p) (m_vert m)).

(** A node that places the object of a geometry element: the matrix of the node is the
    given one, written row by row; it has the colour of the scene. *)
Definition row (tf : Affine3f T) (i : nat) : string :=
  show (tf i 0) ++ " " ++ show (tf i 1) ++ " " ++ show (tf i 2) ++ " " ++ show (tf i 3).
Definition places (doc node geometry : ptree) (cfg : Config T) (tf : Affine3f T) : Prop :=
  map pt_data (named "matrix" node) = [row tf 0 ++ " " ++ row tf 1 ++ " " ++ row tf 2 ++ " " ++ row tf 3] /\
  named "node" node = [] /\
  exists instance bind material effect colour,
    named "instance_geometry" node = [instance] /\
    refers doc (attr "url" instance) geometry /\
    under ["bind_material"; "technique_common"; "instance_material"] instance = [bind] /\
    refers doc (attr "target" bind) material /\
    refers doc (match named "instance_effect" material with [e] => attr "url" e | _ => None end) effect /\
    under ["profile_COMMON"; "technique"; "phong"; "diffuse"; "color"] effect = [colour] /\
    pt_data colour = show (c_r cfg) ++ " " ++ show (c_g cfg) ++ " " ++ show (c_b cfg) ++ " " ++ show (c_a cfg).

(** A scene: its configuration and its objects. *)
Record Scene := mkScene { sc_config : Config T; sc_objects : list (Mesh T * Affine3f T) }.

(** The document of a scene has one geometry and one node for each object, in order, and
    shows nothing else: the only scene has no other node. *)
Definition presents (doc : ptree) (sc : Scene) : Prop :=
  well_referenced doc /\
  exists scene geometries nodes,
    refers doc (match under ["COLLADA"; "scene"; "instance_visual_scene"] doc with [e] => attr "url" e | _ => None end) scene /\
    under ["COLLADA"; "library_visual_scenes"; "visual_scene"] doc = [scene] /\
    under ["COLLADA"; "library_geometries"; "geometry"] doc = geometries /\
    named "node" scene = nodes /\
    Forall2 (fun g o => presents_mesh doc g (fst o)) geometries (sc_objects sc) /\
    length nodes = length (sc_objects sc) /\
    (forall k node geometry o,
      nth_error nodes k = Some node -> nth_error geometries k = Some geometry -> nth_error (sc_objects sc) k = Some o ->
      places doc node geometry (sc_config sc) (snd o)).

(** A pose as a matrix. *)
Definition pose_matrix (t : Transform T) : Affine3f T := fun i j =>
  match i, j with
  | 0, 0 => t_r1c1 t | 0, 1 => t_r1c2 t | 0, 2 => t_r1c3 t | 0, 3 => t_r1c4 t
  | 1, 0 => t_r2c1 t | 1, 1 => t_r2c2 t | 1, 2 => t_r2c3 t | 1, 3 => t_r2c4 t
  | 2, 0 => t_r3c1 t | 2, 1 => t_r3c2 t | 2, 2 => t_r3c3 t | 2, 3 => t_r3c4 t
  | 3, 3 => s_ofZ 1
  | _, _ => s_ofZ 0
  end.
(** The shapes that can be shown are rounded boxes: half lengths along the axes and radius. *)
Definition rounded_box (s : Shape3D T) : option (T * T * T * T) :=
  match s with
  | Sphere r => Some (s_ofZ 0, s_ofZ 0, s_ofZ 0, r)
  | RoundedRectangle x y r => Some (x, y, s_ofZ 0, r)
  | Pill h r => Some (s_ofZ 0, s_ofZ 0, h, r)
  | Plane | HalfSpace | Rectangle _ _ | HalfLine => None
  end.
(** The mesh of a shape, if it can be made. *)
Definition mesh_of (s : Shape3D T) (cfg : Config T) : res (Mesh T) :=
  match rounded_box s with
  | Some (x, y, z, r) => createRoundedBoxMesh x y z r (nbArcVertices cfg)
  | None => Throw
  end.

(** The scenes of a program. *)
Definition add_object (m : Mesh T) (tf : Affine3f T) (sc : Scene) : Scene :=
  mkScene (sc_config sc) (sc_objects sc ++ [(m, tf)]).
Fixpoint replace (i : nat) (sc : Scene) (l : list Scene) : list Scene :=
  match i, l with
  | _, [] => []
  | O, _ :: l' => sc :: l'
  | Datatypes.S i', x :: l' => x :: replace i' sc l'
  end.
Definition on_scene (i : nat) (f : Scene -> Scene) (l : list Scene) : list Scene :=
  match nth_error l i with Some sc => replace i (f sc) l | None => l end.
(** What a call does to the scenes of the program; [None] when it must throw. *)
Definition scene_call (c : call T) (l : list Scene) : option (list Scene) :=
  match c with
  | New cfg => Some (l ++ [mkScene cfg []])%list
  | CopyOf i => option_map (fun sc => l ++ [sc])%list (nth_error l i)
  | Assign i j => option_map (fun sc => replace i sc l) (nth_error l j)
  | AddMesh i m tf => if m_tex m then None else Some (on_scene i (add_object m tf) l)
  | AddMeshTf i m tf => if m_tex m then None else Some (on_scene i (add_object m (pose_matrix tf)) l)
  | AddShape i s tf =>
      match nth_error l i with
      | Some sc => match mesh_of s (sc_config sc) with
                   | Ok m => Some (on_scene i (add_object m (pose_matrix tf)) l)
                   | _ => None
                   end
      | None => None
      end
  end.
Definition scenes (cs : list (call T)) (l : list Scene) : list Scene :=
  fold_left (fun l c => match scene_call c l with Some l' => l' | None => l end) cs l.

(** The builders a call uses, and what is asked of its arguments: builders that exist; no
    texture coordinates in a mesh placed by a Math::Transform; shapes the mesh factory
    accepts or refuses with an exception. *)
Definition uses (c : call T) : list nat :=
  match c with
  | New _ => []
  | CopyOf i => [i]
  | Assign i j => [i; j]
  | AddMesh i _ _ | AddMeshTf i _ _ | AddShape i _ _ => [i]
  end.
Definition fine_call (c : call T) (l : list Scene) : Prop :=
  (forall i, In i (uses c) -> i < length l) /\
  match c with
  | AddMeshTf _ m _ => m_tex m = false
  | AddShape i s _ => forall sc, nth_error l i = Some sc -> mesh_of s (sc_config sc) <> Abort /\ mesh_of s (sc_config sc) <> UB
  | _ => True
  end.
Fixpoint fine_calls (cs : list (call T)) (l : list Scene) : Prop :=
  match cs with
  | [] => True
  | c :: cs' => fine_call c l /\ fine_calls cs' (match scene_call c l with Some l' => l' | None => l end)
  end.

End Spec.
Arguments Scene : clear implicits.

(** The calls of ordinary use, in real arithmetic: builders that exist, configurations with a
    reasonable number of arc vertices, meshes without texture coordinates, shapes of non
    negative sizes and positive radius. *)
Definition usual_call (c : call R) (l : list (Scene R)) : Prop :=
  (forall i, In i (uses c) -> (i < length l)%nat) /\
  match c with
  | New cfg => (0 <= nbArcVertices cfg <= 8000)%Z
  | AddMesh _ m _ | AddMeshTf _ m _ => m_tex m = false
  | AddShape _ s _ => match rounded_box s with Some (x, y, z, r) => (0 <= x /\ 0 <= y /\ 0 <= z /\ 0 < r)%R | None => False end
  | _ => True
  end.
Fixpoint usual_calls (cs : list (call R)) (l : list (Scene R)) : Prop :=
  match cs with
  | [] => True
  | c :: cs' => usual_call c l /\ usual_calls cs' (match scene_call c l with Some l' => l' | None => l end)
  end.
