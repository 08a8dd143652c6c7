(** * Property C55: Collada scenes *)
From Coq Require Import String Ascii.
From Coq Require Import List ZArith Bool Arith Lia.
From Coq Require Decimal DecimalString DecimalZ.
Import ListNotations.
From Coq Require Import Reals Lra.
From Verif Require Import Scalar RInst Model_Rigid Model_Mesh Spec_Mesh Model_Collada Spec_Collada.
From Verif Require Import Model_Anim (ptree (..), pt_data, pt_kids, set_kids, find_child, attr, print_int, put_attr).
From Verif Require Props_Factory Props_Mesh.
Local Open Scope list_scope.
Local Open Scope string_scope.
Local Open Scope Z_scope.
From Verif Require Proofs_Collada.

(** ** C55 *)

(** C55: after any sequence of calls (builders created, copied and assigned; meshes and shapes
    added; calls that throw included), the document of every builder presents exactly the
    scene it was given: identifiers are pairwise distinct, every reference is to an element of
    the document, there is one geometry and one node for each object added, in order, each node
    placing its own geometry with its own matrix; copies are independent. *)
Theorem C55_presents : forall (T : Type) (S : Scalar T) (show : T -> string) (cs : list (call T)) (bs : list (Builder T)),
  do_calls show cs [] = Ok bs ->
  Forall2 (fun b sc => presents show (b_xml b) sc /\ b_config b = sc_config sc) bs (scenes cs []).
Proof. exact @Proofs_Collada.C55_presents_proof. Qed.
Print Assumptions C55_presents.

(** C55: fewer than 2^31 calls, on builders that exist, with meshes without texture coordinates
    (or placed by an Eigen::Affine3f) and shapes that the mesh factory does not stop on, never
    stop the program nor have undefined behaviour. *)
Theorem C55_safe : forall (T : Type) (S : Scalar T) (show : T -> string) (cs : list (call T)),
  Z.of_nat (length cs) < 2^31 -> fine_calls cs [] -> exists bs, do_calls show cs [] = Ok bs.
Proof. exact @Proofs_Collada.C55_safe_proof. Qed.
Print Assumptions C55_safe.

(** C55: a call throws exactly when it must: a mesh with texture coordinates, a shape which is
    not a sphere, a pill or a rounded rectangle, or which the mesh factory refuses. *)
Theorem C55_throws : forall (T : Type) (S : Scalar T) (show : T -> string) (cs : list (call T)) (c : call T) (bs : list (Builder T)),
  Z.of_nat (length cs) < 2^31 - 1 -> do_calls show cs [] = Ok bs -> fine_calls cs [] -> fine_call c (scenes cs []) ->
  (do_call show c bs = Throw <-> scene_call c (scenes cs []) = None) /\
  (scene_call c (scenes cs []) <> None -> exists bs', do_call show c bs = Ok bs').
Proof. exact @Proofs_Collada.C55_throws_proof. Qed.
Print Assumptions C55_throws.

(** C55, in real arithmetic: shapes of non negative size and positive radius are accepted when
    the configuration has between 0 and 8000 arc vertices: every sequence of fewer than 2^31
    calls that adds such shapes, and meshes without texture coordinates, to builders that
    exist gives documents that present the scenes, and no call throws. *)
Theorem C55_shapes : forall (show : R -> string) (cs : list (call R)),
  Z.of_nat (length cs) < 2^31 -> usual_calls cs [] ->
  exists bs, do_calls show cs [] = Ok bs /\ Forall2 (fun b sc => presents show (b_xml b) sc) bs (scenes cs []).
Proof. exact @Proofs_Collada.C55_shapes_proof. Qed.
Print Assumptions C55_shapes.

(** C55, finding: add(mesh, Math::Transform) does not check for texture coordinates as
    add(mesh, Eigen::Affine3f) does: instead of an exception, the program stops at an
    assertion. *)
Theorem C55_texture_refuted : forall (T : Type) (S : Scalar T) (show : T -> string) (cfg : Config T) (tf : Transform T),
  do_calls show [New cfg; AddMesh 0 (mesh_new true) (affine_of tf)] [] = do_calls show [New cfg] [] /\
  do_calls show [New cfg; AddMeshTf 0 (mesh_new true) tf] [] = Abort.
Proof. exact @Proofs_Collada.C55_texture_refuted_proof. Qed.
Print Assumptions C55_texture_refuted.

(** C55, finding: the identifiers come from an int: adding the 2^31-th mesh overflows it. *)
Theorem C55_count_refuted : forall (T : Type) (S : Scalar T) (show : T -> string) (cfg : Config T) (m : Mesh T) (tf : Affine3f T),
  m_tex m = false -> do_calls show (New cfg :: repeat (AddMesh 0 m tf) (Z.to_nat (2^31))) [] = UB.
Proof. exact @Proofs_Collada.C55_count_refuted_proof. Qed.
Print Assumptions C55_count_refuted.

(** C55, finding: the indices of the polygons are written as floats with six digits: for a mesh
    with more than a million points, made by calls that all succeed, the document does not give
    back the indices: 1000001 is written 1e+06. *)
Theorem C55_indices_refuted : forall (T : Type) (S : Scalar T) (show : T -> string) (cfg : Config T) (tf : Affine3f T) (x y z : T),
  near_unit x y z = true ->
  exists m b geometry p,
    mesh_run (CNormal x y z :: repeat (CPosition x y z) (Z.to_nat 1000002) ++ [CBegin TRIANGLES; CVertex 0; CVertex 1; CVertex 1000001; CEnd])%list (mesh_new false) = Ok m /\
    do_calls show [New cfg; AddMesh 0 m tf] [] = Ok [b] /\
    under ["COLLADA"; "library_geometries"; "geometry"] (b_xml b) = [geometry] /\
    under ["mesh"; "polylist"; "p"] geometry = [p] /\
    m_vert m = [0; 0; 1; 0; 1000001; 0] /\ pt_data p = "0 0 1 0 1e+06 0 " /\ ~ reads (pt_data p) (m_vert m).
Proof. exact @Proofs_Collada.C55_indices_refuted_proof. Qed.
Print Assumptions C55_indices_refuted.

(** A program: a scene with a triangle, a copy of it, to which a sphere is added, and a shape
    that is refused. *)
Definition cfg0 : Config R := mkConfig 1%R 0%R 0%R 1%R 2.
Definition tri0 : Mesh R := mkMesh false [0; 0; 0; 1; 0; 0; 0; 1; 0]%R [0; 0; 1]%R [] [0; 0; 1; 0; 2; 0] [3] None 0 (Some 0) None.
Definition pose0 : Transform R := mkTransform 1%R 0%R 0%R 5%R 0%R 1%R 0%R 6%R 0%R 0%R 1%R 7%R.
Definition prog0 : list (call R) := [New cfg0; AddMeshTf 0 tri0 pose0; CopyOf 0; AddShape 1 (Sphere 2%R) pose0; Assign 0 1; AddMesh 0 tri0 (affine_of pose0)].
Example C55_prog0 : usual_calls prog0 [] /\ map (fun sc => length (sc_objects sc)) (scenes prog0 []) = [3%nat; 2%nat].
Proof.
  assert (hs : exists d, createRoundedBoxMesh 0%R 0%R 0%R 2%R 2 = Ok d).
  { destruct (Props_Factory.C41_create_rounded 0%R 0%R 0%R 2%R 2) as (d & a & e & _); [repeat split; lra|lia|]. now exists d. }
  destruct hs as [d hs].
  assert (hm : mesh_of (Sphere 2%R) cfg0 = Ok d) by exact hs.
  assert (hc : forall sc, sc_config sc = cfg0 -> mesh_of (Sphere 2%R) (sc_config sc) = Ok d) by (intros sc ->; exact hm). clear hs hm.
  unfold prog0, scenes. split.
  - cbn [usual_calls]. unfold usual_call. cbn [scene_call option_map nth_error app m_tex tri0 replace on_scene].
    rewrite hc by reflexivity. cbn [scene_call option_map nth_error app m_tex tri0 replace on_scene]. repeat split; cbn [uses In length app replace nbArcVertices cfg0 rounded_box s_ofZ RScalar]; try lia; try lra; intros; try tauto; try lia.
  - cbn [fold_left scene_call option_map nth_error app m_tex tri0 replace on_scene].
    rewrite hc by reflexivity. cbn [scene_call option_map nth_error app m_tex tri0 replace on_scene]. reflexivity.
Qed.
