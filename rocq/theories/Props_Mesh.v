(** * Property C40: construction of meshes *)
From Coq Require Import Reals List ZArith Bool Arith Lia Lra.
From Coq Require Import Znumtheory.
Import ListNotations.
From Verif Require Import Scalar RInst RLemmas Model_Mesh Spec_Mesh.
Local Open Scope Z_scope.
From Verif Require Proofs_Mesh.

(** ** C40 *)

(** C40: after any sequence of fewer than 2^31 calls on a new mesh - the caller catching the
    exceptions and giving unit normals - no assert has failed and the mesh is well formed:
    every vertex refers to existing data, and the counts add up to the vertices. *)
Theorem C40_well_formed : forall (T : Type) (S : Scalar T) (tex : bool) (cs : list (mesh_call T)),
  Z.of_nat (length cs) < 2^31 -> (forall x y z, In (CNormal x y z) cs -> near_unit x y z = true) ->
  exists d, mesh_run cs (mesh_new tex) = Ok d /\ m_tex d = tex /\ well_formed d.
Proof. exact @Proofs_Mesh.C40_well_formed_proof. Qed.
Print Assumptions C40_well_formed.

(** C40: from a well formed mesh a call throws exactly when it must: begin inside begin/end,
    vertex or end outside, an index out of range, no current normal (or texture coordinate on
    a textured mesh), an incomplete triangle or quadrilateral. *)
Theorem C40_throws : forall (T : Type) (S : Scalar T) (tex : bool) (cs : list (mesh_call T)) (c : mesh_call T) d,
  Z.of_nat (length cs) < 2^31 - 1 -> (forall x y z, In (CNormal x y z) (cs ++ [c]) -> near_unit x y z = true) ->
  mesh_run cs (mesh_new tex) = Ok d ->
  exists b, mesh_holds d b /\ (fst (mesh_step c d) = Throw <-> must_throw d b c) /\
    (fst (mesh_step c d) = Ok tt <-> ~ must_throw d b c).
Proof. exact @Proofs_Mesh.C40_throws_proof. Qed.
Print Assumptions C40_throws.

(** C40: the mesh behaves as the abstract machine of the specification: for every sequence of
    fewer than 2^31 calls with unit normals, exactly the calls that must throw do, and the
    buffers always represent the points, normals, texture coordinates and faces given. *)
Theorem C40_refines : forall (T : Type) (S : Scalar T) (tex : bool) (cs : list (mesh_call T)),
  Z.of_nat (length cs) < 2^31 -> (forall x y z, In (CNormal x y z) cs -> near_unit x y z = true) ->
  exists d, mesh_run cs (mesh_new tex) = Ok d /\ m_tex d = tex /\
    represents d (snd (arun tex cs anew)) /\ mesh_trace cs (mesh_new tex) = fst (arun tex cs anew).
Proof. exact @Proofs_Mesh.C40_refines_proof. Qed.
Print Assumptions C40_refines.

(** C40: a call only appends: what the buffers already contain is never changed. *)
Theorem C40_append_only : forall (T : Type) (S : Scalar T) (cs : list (mesh_call T)) d d',
  mesh_run cs d = Ok d' -> extends d d'.
Proof. exact @Proofs_Mesh.C40_append_only_proof. Qed.
Print Assumptions C40_append_only.

(** C40: a call that throws leaves the mesh unchanged, but for vertex(x, y, z). *)
Theorem C40_throw_unchanged : forall (T : Type) (S : Scalar T) (c : mesh_call T) d d',
  mesh_step c d = (Throw, d') -> (forall x y z, c <> CVertexXYZ x y z) -> d' = d.
Proof. exact @Proofs_Mesh.C40_throw_unchanged_proof. Qed.
Print Assumptions C40_throw_unchanged.

(** C40 (finding): vertex(x, y, z) without a current normal throws, and yet the position has
    been added to the mesh. *)
Theorem C40_vertex_strong_guarantee_refuted : forall (T : Type) (S : Scalar T) (x y z : T), exists d d',
  mesh_run [CBegin TRIANGLES] (mesh_new false) = Ok d /\ mesh_step (CVertexXYZ x y z) d = (Throw, d') /\
  m_pos d = [] /\ m_pos d' = [x; y; z].
Proof. exact @Proofs_Mesh.C40_vertex_strong_guarantee_refuted_proof. Qed.
Print Assumptions C40_vertex_strong_guarantee_refuted.

(** C40: the accessors give the address of the element asked for, and throw out of range, as
    long as the products do not wrap around. *)
Theorem C40_accessors : forall (T : Type) (d : Mesh T) (b : Buffers T) (i : Z),
  mesh_holds d b -> 0 <= i < 2^62 ->
  positionPtrAt d i = (if i <? Z.of_nat (length (points b)) then Ok (3 * i) else Throw) /\
  normalPtrAt d i = (if i <? Z.of_nat (length (normals b)) then Ok (3 * i) else Throw) /\
  texCoordPtrAt d i = (if i <? Z.of_nat (length (texcoords b)) then Ok (2 * i) else Throw) /\
  vertexPtrAt d i = (if i <? Z.of_nat (length (vertices b)) then Ok ((if m_tex d then 3 else 2) * i) else Throw) /\
  positionsNb d = Z.of_nat (length (points b)) /\ normalsNb d = Z.of_nat (length (normals b)) /\
  texCoordsNb d = Z.of_nat (length (texcoords b)) /\ verticesNb d = Z.of_nat (length (vertices b)) /\
  polygonsNb d = Z.of_nat (length (counts b)) /\
  (forall p, nth_error (points b) (Z.to_nat i) = Some p ->
     firstn 3 (skipn (Z.to_nat (3 * i)) (m_pos d)) = [fst (fst p); snd (fst p); snd p]).
Proof. exact @Proofs_Mesh.C40_accessors_proof. Qed.
Print Assumptions C40_accessors.

(** C40 (finding): the index is multiplied modulo 2^64, so that a huge index is not always
    refused: on any mesh with a position, positionPtrAt((2^64 + 2) / 3) gives the address of
    the z coordinate of position 0. *)
Theorem C40_accessor_wrap_refuted : forall (T : Type) (d : Mesh T), (0 < length (m_pos d))%nat ->
  (exists b, mesh_holds d b) -> positionPtrAt d ((2^64 + 2) / 3) = Ok 2.
Proof. exact @Proofs_Mesh.C40_accessor_wrap_refuted_proof. Qed.
Print Assumptions C40_accessor_wrap_refuted.

(** C40: normal aborts exactly on a vector which is not close to a unit one, and polygonVerticesCountAt
    exactly out of range. *)
Theorem C40_asserts : forall (T : Type) (S : Scalar T) (d : Mesh T) x y z (i : Z), 0 <= i ->
  (fst (normal x y z d) = Abort <-> near_unit x y z = false) /\
  (polygonVerticesCountAt d i = Abort <-> ~ below i (m_vcounts d)) /\
  (forall c, nth_error (m_vcounts d) (Z.to_nat i) = Some c -> polygonVerticesCountAt d i = Ok c).
Proof. exact @Proofs_Mesh.C40_asserts_proof. Qed.
Print Assumptions C40_asserts.

(** A non trivial history over the reals, with failing calls: a vertex outside begin/end, one
    without normal, an incomplete triangle, then a triangle and an index out of range. *)
Definition C40_history : list (mesh_call R).
Proof.
  exact [CVertex 0; CBegin TRIANGLES; CVertexXYZ 1%R 2%R 3%R; CNormal 0%R 0%R 1%R; CVertex 0; CEnd; CVertexXYZ 4%R 5%R 6%R; CVertex 7;
   CVertexXYZ 0%R 0%R 0%R; CEnd; CNormalAt 0; CNormalAt 1; CBegin QUADS; CBegin QUADS; CEnd; CEnd].
Defined.

Lemma C40_history_normals : forall x y z, In (CNormal x y z) C40_history -> near_unit x y z = true.
Proof.
  cbn. intros x y z h. repeat (destruct h as [h|h]; [try discriminate h; injection h as <- <- <-|]); [|contradiction].
  unfold near_unit. rsimp. replace (0 * 0 + 0 * 0 + 1 * 1 - 1)%R with 0%R by ring. rewrite Rabs_R0. unfold Rleb.
  destruct (Rle_dec 0 (1/100000)) as [|k]; [reflexivity|]. exfalso. apply k. lra.
Qed.

Example C40_history_ok : exists d, mesh_run C40_history (mesh_new false) = Ok d /\
  well_formed d /\ m_vert d = [0; 0; 1; 0; 2; 0] /\ m_vcounts d = [3] /\
  mesh_trace C40_history (mesh_new false) =
    [true; false; true; false; false; true; false; true; false; false; false; true; false; true; false; true].
Proof.
  destruct (C40_refines R RScalar false C40_history ltac:(reflexivity) C40_history_normals) as [d [h1 [h2 [h3 h4]]]].
  destruct (C40_well_formed R RScalar false C40_history ltac:(reflexivity) C40_history_normals) as [d0 [g1 [_ g2]]].
  assert (d0 = d) by congruence. subst d0. exists d. split; [exact h1|]. split; [exact g2|].
  split; [|split; [|rewrite h4; reflexivity]].
  - destruct h3 as [[_ [_ [_ [e _]]]] _]. rewrite e, h2. reflexivity.
  - destruct h3 as [[_ [_ [_ [_ e]]]] _]. rewrite e. reflexivity.
Qed.

(** The accessors on the three positions of this mesh. *)
Example C40_history_accessors : exists d, mesh_run C40_history (mesh_new false) = Ok d /\
  positionPtrAt d 2 = Ok 6 /\ positionPtrAt d 3 = Throw /\ polygonVerticesCountAt d 0 = Ok 3 /\ polygonVerticesCountAt d 1 = Abort.
Proof.
  destruct (C40_refines R RScalar false C40_history ltac:(reflexivity) C40_history_normals) as [d [h1 [h2 [[h3 _] h4]]]].
  exists d. split; [exact h1|].
  destruct (C40_accessors R d _ 2 h3 ltac:(lia)) as [a1 _]. destruct (C40_accessors R d _ 3 h3 ltac:(lia)) as [a2 _].
  rewrite a1, a2. destruct h3 as [_ [_ [_ [_ e]]]].
  split; [reflexivity|]. split; [reflexivity|]. unfold polygonVerticesCountAt. rewrite e. split; reflexivity.
Qed.
