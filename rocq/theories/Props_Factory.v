(** * Property C41: boxes and rounded boxes *)
From Coq Require Import Reals List ZArith Bool Arith Lia Lra Znumtheory FinFun Machin.
Import ListNotations.
From Verif Require Import Scalar RInst F32 RLemmas Model_Mesh Spec_Mesh Spec_Factory Proofs_Mesh.
Local Open Scope Z_scope.
From Verif Require Proofs_Factory.

(** ** C41 *)

(** C41: addBoxMesh, on any mesh outside begin/end, adds the eight corners of the box and six
    quadrilaterals, one in each side of the box with its outward normal, turning
    counterclockwise seen from outside. The surface is closed: each edge is followed once in
    each direction. *)
Theorem C41_box : forall (d : Mesh R) (a : AMesh R) (hx hy hz : R),
  represents d a -> ready (m_tex d) a 24 ->
  exists d' a' ps ns fs, addBoxMesh hx hy hz d = (Ok tt, d') /\ m_tex d' = m_tex d /\ represents d' a' /\ adds a a' ps ns fs /\
    length ps = 8%nat /\ Forall (is_corner hx hy hz) ps /\ length ns = 6%nat /\ length fs = 6%nat /\ indices_ok a' fs /\
    Forall (outward_quad a' hx hy hz) fs /\ closed_surface fs /\ (forall u v, traversals fs u v <= 1)%nat.
Proof. exact @Proofs_Factory.C41_box_proof. Qed.
Print Assumptions C41_box.

(** C41: in binary32, for any values of the half extents, addBoxMesh gives the same closed
    surface, from the eight points (+/-hx, +/-hy, +/-hz). *)
Theorem C41_box_binary32 : forall (L : libm32) (d : Mesh f32) (a : AMesh f32) (hx hy hz : f32),
  represents d a -> ready (m_tex d) a 24 ->
  exists d' a' ps ns fs, addBoxMesh (S := F32Scalar L) hx hy hz d = (Ok tt, d') /\ m_tex d' = m_tex d /\ represents d' a' /\ adds a a' ps ns fs /\
    length ps = 8%nat /\
    (forall p, In p ps -> (fst (fst p) = hx \/ fst (fst p) = s_neg (Scalar := F32Scalar L) hx) /\
       (snd (fst p) = hy \/ snd (fst p) = s_neg (Scalar := F32Scalar L) hy) /\ (snd p = hz \/ snd p = s_neg (Scalar := F32Scalar L) hz)) /\
    length fs = 6%nat /\ Forall (fun f => length f = 4%nat) fs /\ indices_ok a' fs /\
    closed_surface fs /\ (forall u v, traversals fs u v <= 1)%nat.
Proof. exact @Proofs_Factory.C41_box_binary32_proof. Qed.
Print Assumptions C41_box_binary32.

(** C41: addRoundedBoxMesh with a positive radius and any number of arc vertices, on any mesh
    outside begin/end (with room for the vertices in the 31 bit counters), succeeds. It adds
    triangles and quadrilaterals with valid indices that form a closed surface; the point of
    each vertex is the one of the rounded box with its (unit) normal, up to ez/500. *)
Theorem C41_rounded_box : forall (d : Mesh R) (a : AMesh R) (ex ey ez r : R) (nb : Z),
  (0 <= ex /\ 0 <= ey /\ 0 <= ez /\ 0 < r)%R -> 0 <= nb ->
  represents d a -> ready (m_tex d) a (32 * ((nb + 3) * (nb + 3))) ->
  exists d' a' ps ns fs, addRoundedBoxMesh ex ey ez r nb d = (Ok tt, d') /\ m_tex d' = m_tex d /\ represents d' a' /\ adds a a' ps ns fs /\
    Z.of_nat (length ps) = rounded_box_points ex ey ez nb /\
    indices_ok a' fs /\ (forall f, In f fs -> length f = 3%nat \/ length f = 4%nat) /\ closed_surface fs /\
    (forall f v, In f fs -> In v f -> exists p n, pt a' v p /\ nrm a' v n /\ on_rounded_box ex ey ez r (ez / 500) p n).
Proof. exact @Proofs_Factory.C41_rounded_box_proof. Qed.
Print Assumptions C41_rounded_box.

(** C41: with a zero radius the shape is exactly the box. *)
Theorem C41_rounded_zero : forall (ex ey ez : R) (nb : Z) (d : Mesh R), (0 <= ex /\ 0 <= ey /\ 0 <= ez)%R ->
  addRoundedBoxMesh ex ey ez 0%R nb d = addBoxMesh ex ey ez d.
Proof. exact @Proofs_Factory.C41_rounded_zero_proof. Qed.
Print Assumptions C41_rounded_zero.

(** C41: a negative half extent or radius stops at an assertion and leaves the mesh as it was. *)
Theorem C41_negative : forall (ex ey ez r : R) (nb : Z) (d : Mesh R), (ex < 0 \/ ey < 0 \/ ez < 0 \/ r < 0)%R ->
  addRoundedBoxMesh ex ey ez r nb d = (Abort, d).
Proof. exact @Proofs_Factory.C41_negative_proof. Qed.
Print Assumptions C41_negative.

(** C41, finding: the polar angles are multiples of 3.14 / (2 nb + 2), not of pi / (2 nb + 2), so
    the lower half of the side starts slightly above the equator and its points are not exactly on the
    rounded box: those of the vertical pill of unit half length and radius, with no arc vertex,
    are strictly inside. *)
Theorem C41_rounded_exact_refuted :
  exists d' a' f v p n, addRoundedBoxMesh 0%R 0%R 1%R 1%R 0 (mesh_new false) = (Ok tt, d') /\ represents d' a' /\
    In f (a_faces a') /\ In v f /\ pt a' v p /\ nrm a' v n /\ ~ on_rounded_box 0 0 1 1 0 p n.
Proof. exact @Proofs_Factory.C41_rounded_exact_refuted_proof. Qed.
Print Assumptions C41_rounded_exact_refuted.

(** C41: createRoundedBoxMesh, for up to 8000 arc vertices: the closed surface of
    [C41_rounded_box], alone in a new mesh. *)
Theorem C41_create_rounded : forall (ex ey ez r : R) (nb : Z), (0 <= ex /\ 0 <= ey /\ 0 <= ez /\ 0 < r)%R -> 0 <= nb <= 8000 ->
  exists d a, createRoundedBoxMesh ex ey ez r nb = Ok d /\ represents d a /\ a_open a = None /\
    Z.of_nat (length (a_points a)) = rounded_box_points ex ey ez nb /\
    indices_ok a (a_faces a) /\ (forall f, In f (a_faces a) -> length f = 3%nat \/ length f = 4%nat) /\ closed_surface (a_faces a) /\
    (forall f v, In f (a_faces a) -> In v f -> exists p n, pt a v p /\ nrm a v n /\ on_rounded_box ex ey ez r (ez / 500) p n).
Proof. exact @Proofs_Factory.C41_create_rounded_proof. Qed.
Print Assumptions C41_create_rounded.

(** C41, finding: a negative number of arc vertices is not refused: with -1 around a vertical
    segment there is no meridian, and back() is called on an empty vector. *)
Theorem C41_arc_vertices_refuted : forall ez r : R, (0 <= ez)%R -> (0 < r)%R ->
  fst (addRoundedBoxMesh 0%R 0%R ez r (-1) (mesh_new false)) = UB.
Proof. exact @Proofs_Factory.C41_arc_vertices_refuted_proof. Qed.
Print Assumptions C41_arc_vertices_refuted.

(** Non trivial cases: a new mesh is ready; a textured mesh with a texture coordinate too. *)
Example C41_ready_new : forall n, 0 <= n < 2^31 -> represents (mesh_new (T := R) false) anew /\ ready false (anew (T := R)) n.
Proof.
  intros n h. split; [repeat split|].
  split; [reflexivity|]. split; [discriminate|]. cbn. lia.
Qed.

Example C41_ready_textured : exists d a, mesh_run [CTexCoord 0%R 0%R; CPosition 1%R 2%R 3%R] (mesh_new true) = Ok d /\
  represents d a /\ ready (m_tex d) a 1000 /\ a_points a = [(1, 2, 3)%R].
Proof.
  do 2 eexists. split; [reflexivity|]. split; [|split; [split; [|split]|]].
  - instantiate (1 := mkAMesh [(1, 2, 3)%R] [] [(0, 0)%R] [] None None (Some 0)). repeat split.
  - reflexivity.
  - discriminate.
  - reflexivity.
  - reflexivity.
Qed.

(** A rounded box with three arc vertices in each quarter: 4 (2 + 5 * 8) points. *)
Example C41_rounded_three : exists d a, createRoundedBoxMesh 1%R 2%R 3%R (1/2)%R 3 = Ok d /\ represents d a /\
  Z.of_nat (length (a_points a)) = 168 /\ closed_surface (a_faces a).
Proof.
  destruct (C41_create_rounded 1 2 3 (1/2)%R 3 ltac:(lra) ltac:(lia)) as [d [a [h1 [h2 [_ [h3 [_ [_ [h4 _]]]]]]]]].
  exists d, a. split; [exact h1|]. split; [exact h2|]. split; [|exact h4]. rewrite h3. unfold rounded_box_points.
  destruct (Req_EM_T 3 0); [lra|]. destruct (Req_EM_T 1 0); [lra|]. destruct (Req_EM_T 2 0); [lra|]. reflexivity.
Qed.

(** C41: createBoxMesh, for any half extents, never throws: it gives a mesh, outside begin/end,
    of the eight corners, six normals and six quadrilaterals of the box and nothing else. *)
Theorem C41_create_box : forall hx hy hz : R,
  exists d a, createBoxMesh hx hy hz = Ok d /\ m_tex d = false /\ represents d a /\ a_open a = None /\ a_texcoords a = [] /\
    length (a_points a) = 8%nat /\ Forall (is_corner hx hy hz) (a_points a) /\ length (a_normals a) = 6%nat /\ length (a_faces a) = 6%nat /\
    indices_ok a (a_faces a) /\ Forall (outward_quad a hx hy hz) (a_faces a) /\ closed_surface (a_faces a).
Proof. exact @Proofs_Factory.C41_create_box_proof. Qed.
Print Assumptions C41_create_box.

(** A box: its six faces. *)
Example C41_box_faces : exists d' a' fs, addBoxMesh 1%R 2%R 3%R (mesh_new false) = (Ok tt, d') /\ represents d' a' /\ a_faces a' = fs /\
  length fs = 6%nat /\ closed_surface fs.
Proof.
  destruct (C41_ready_new 24 ltac:(lia)) as [h1 h2].
  destruct (C41_box (mesh_new false) anew 1 2 3 h1 h2) as [d' [a' [ps [ns [fs [e [_ [r [[_ [_ [_ [ef _]]]] [_ [_ [_ [l [_ [_ [c _]]]]]]]]]]]]]]]].
  exists d', a', fs. auto.
Qed.
